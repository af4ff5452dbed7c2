(** C08, C09: the request target and its query parameters. *)
From Coq Require Import Ascii String List ZArith Lia.
From Verif Require Import Bytes UrlModel UrlSpec UrlProofs.
Import ListNotations.
Open Scope Z_scope.

(** C08.  Splitting: the path and query read from a target are its parts (and a
    target has only one pair of parts). *)
Theorem C08_split : forall line m v url,
  exists path q, target_parts url path q /\
    fst (http_request_get_path (fresh_req line m v url)) = Some path /\
    fst (http_request_get_query (fresh_req line m v url)) = q.
Proof.
  intros line m v url. destruct (fresh_inv line m v url) as (w & [S _] & I).
  destruct (inv_get _ _ I). eauto.
Qed.
Print Assumptions C08_split.

Theorem C08_parts_unique : forall u p q p' q',
  target_parts u p q -> target_parts u p' q' -> p = p' /\ q = q'.
Proof. exact parts_unique. Qed.
Print Assumptions C08_parts_unique.

(** The parts put together give the target back, up to the '?' of an empty query. *)
Theorem C08_rebuild : forall u p q, target_parts u p q ->
  u = compose p q \/ (q = None /\ u = compose p None ++ ["?"%char]).
Proof.
  intros u p q H. destruct (parts_compose u p q H) as [E|[E1 E2]]; auto.
  right. split; auto. unfold compose. rewrite app_nil_r. auto.
Qed.
Print Assumptions C08_rebuild.

(** Every history of reads and edits acts on path, query and parameters as the
    abstract edits of UrlSpec do: each edit changes its component only. *)
Theorem C08_history : forall line m v url os, Forall clean_op os ->
  exists w0 w, starts url w0 /\ vruns w0 os w /\
    let r := urun (fresh_req line m v url) os in
    fst (http_request_get_path r) = Some (v_path w) /\
    fst (http_request_get_query r) = v_query w /\
    forall n, fst (http_request_get_query_param_value r n) = value_of (v_params w) n.
Proof. exact history. Qed.
Print Assumptions C08_history.

(** The target after setting the path or the query, in any state of a history. *)
Theorem C08_set_path : forall line m v url os p, Forall clean_op os ->
  let r := urun (fresh_req line m v url) os in
  http_request_get_url (http_request_set_path r p)
  = compose p (fst (http_request_get_query r)).
Proof.
  intros line m v url os p F. destruct (reach_inv line m v url os F) as (w & I). cbv zeta.
  pose proof (set_target _ w (OSetPath p) I Logic.I) as E. cbn in E.
  destruct (inv_get _ _ I) as [_ Q]. rewrite Q. exact E.
Qed.
Print Assumptions C08_set_path.

Theorem C08_set_query : forall line m v url os q, Forall clean_op os ->
  let r := urun (fresh_req line m v url) os in
  exists p, fst (http_request_get_path r) = Some p /\
    http_request_get_url (http_request_set_query r q) = compose p (Some q).
Proof.
  intros line m v url os q F. destruct (reach_inv line m v url os F) as (w & I). cbv zeta.
  pose proof (set_target _ w (OSetQuery q) I Logic.I) as E. cbn in E.
  destruct (inv_get _ _ I) as [P _]. exists (v_path w). split; auto.
Qed.
Print Assumptions C08_set_query.

(** The request line sent on is built from the current target; without an edit
    it is the line received; the line received is kept for the log. *)
Theorem C08_request_line : forall os line m v url, Forall clean_op os ->
  let r := urun (fresh_req line m v url) os in
  r_method r = m /\ r_version r = v /\ http_request_orig_line r = line /\
  (http_request_get_request_line r
     = m ++ [SP] ++ http_request_get_url r ++ [SP] ++ lit "HTTP/1."
       ++ [if v =? 0 then "0"%char else "1"%char]
   \/ (http_request_get_url r = url /\ http_request_get_request_line r = line)).
Proof.
  intros os line m v url F. destruct (run_line os line m v url F) as (A & B & C & D). cbv zeta.
  repeat split; auto. destruct D as [D|(D1 & D2 & _)]; auto.
  left. unfold http_request_get_request_line, http_request_get_url. rewrite D. unfold line_of.
  rewrite A, B. reflexivity.
Qed.
Print Assumptions C08_request_line.

(** The query does not start at the first '?' (as RFC 3986 has it) but at the
    last one, so that a second '?' makes part of the query count as path. *)
Theorem C08_first_qmark_refuted :
  exists line m v p q, ~ In "?"%char p /\ p <> [] /\
    fst (http_request_get_path (fresh_req line m v (p ++ "?"%char :: q))) <> Some p.
Proof.
  exists [], (lit "GET"), 1, (lit "/admin"), (lit "a?b"). repeat split.
  - simpl. intuition discriminate.
  - discriminate.
  - vm_compute. discriminate.
Qed.
Print Assumptions C08_first_qmark_refuted.

Example C08_ex_split : map (fun u => (fst (http_request_get_path (fresh_req [] [] 1 u)),
                                      fst (http_request_get_query (fresh_req [] [] 1 u))))
  [lit "/a?b=c"; lit "/a"; lit "/a?"; lit "?x"; lit ""]
  = [(Some (lit "/a"), Some (lit "b=c")); (Some (lit "/a"), None); (Some (lit "/a"), None);
     (Some (lit "?x"), None); (Some [], None)].
Proof. vm_compute. reflexivity. Qed.

(** C09.  Reading parameters of a fresh target: the value is that of the first
    piece of the name. *)
Theorem C09_read : forall line m v url,
  exists path q ps, target_parts url path q /\ opt_params q ps /\
    forall n, fst (http_request_get_query_param_value (fresh_req line m v url) n) = value_of ps n.
Proof.
  intros line m v url. destruct (history line m v url [] (Forall_nil _)) as (w0 & w & [S1 S2] & R & _ & _ & V).
  inversion R; subst. exists (v_path w), (v_query w), (v_params w). auto.
Qed.
Print Assumptions C09_read.

Theorem C09_params_unique : forall q ps ps', query_params q ps -> query_params q ps' -> ps = ps'.
Proof. exact query_params_unique. Qed.
Print Assumptions C09_params_unique.

(** Setting a parameter, after any history of edits. *)
Theorem C09_set : forall line m v url os n x, Forall clean_op os -> clean_name n -> clean_value x ->
  let r := urun (fresh_req line m v url) os in
  let r' := http_request_set_query_param r n (Some x) in
  fst (http_request_get_query_param_value r' n) = Some (Some x) /\
  (forall k, k <> n -> fst (http_request_get_query_param_value r' k)
                       = fst (http_request_get_query_param_value r k)) /\
  fst (http_request_get_path r') = fst (http_request_get_path r).
Proof. exact set_then_get. Qed.
Print Assumptions C09_set.

(** ... and what the target text then says: the parameters that can be read
    from it are the old ones with the value set in place or at the end, in the
    same order (empty pieces aside). *)
Theorem C09_set_text : forall line m v url os n x, Forall clean_op os -> clean_name n -> clean_value x ->
  let r := urun (fresh_req line m v url) os in
  let r' := http_request_set_query_param r n (Some x) in
  exists path q ps ps0 q' ps',
    fst (http_request_get_path r) = Some path /\ fst (http_request_get_query r) = q /\
    opt_params q ps0 /\ proper ps0 = proper ps /\
    (forall k, fst (http_request_get_query_param_value r k) = value_of ps k) /\
    http_request_get_url r' = compose path (Some q') /\ query_params q' ps' /\
    proper ps' = proper (set_param ps n x).
Proof. exact edit_text. Qed.
Print Assumptions C09_set_text.

(** The abstract edits leave the other parameters and their order alone. *)
Theorem C09_order : forall ps n x,
  others_of n (set_param ps n x) = others_of n ps /\ others_of n (del_param ps n) = others_of n ps.
Proof. intros ps n x. split; [apply others_set|apply others_del]. Qed.
Print Assumptions C09_order.

(** Deleting: no other parameter changes ... *)
Theorem C09_delete_others : forall line m v url os n, Forall clean_op os -> clean_name n ->
  let r := urun (fresh_req line m v url) os in
  let r' := http_request_set_query_param r n None in
  (forall k, k <> n -> fst (http_request_get_query_param_value r' k)
                       = fst (http_request_get_query_param_value r k)) /\
  fst (http_request_get_path r') = fst (http_request_get_path r).
Proof. exact del_then_get. Qed.
Print Assumptions C09_delete_others.

(** ... and the name is gone if it occurred once.  Missing: repeated names. *)
Theorem C09_delete_partial : forall line m v url path q ps n, clean_name n ->
  target_parts url path q -> opt_params q ps -> NoDup (map fst ps) ->
  fst (http_request_get_query_param_value
        (http_request_set_query_param (fresh_req line m v url) n None) n) = None.
Proof.
  intros line m v url path q ps n Hn T O N.
  destruct (fresh_inv line m v url) as (w & [S1 S2] & I).
  destruct (parts_unique _ _ _ _ _ T S1) as [-> ->].
  assert (E: ps = v_params w).
  { destruct (v_query w); simpl in *; [eapply query_params_unique; eauto|congruence]. }
  subst ps. destruct (step_inv _ w (ODelParam n) I Hn) as (w' & S & I'). cbn [ustep] in I'.
  destruct (value_inv _ _ n I') as [V _]. rewrite V.
  inversion S; subst; auto. cbn. apply value_del_same. auto.
Qed.
Print Assumptions C09_delete_partial.

(** With a repeated name only the first occurrence goes. *)
Theorem C09_delete_refuted :
  exists line m v url n, clean_name n /\
    fst (http_request_get_query_param_value
          (http_request_set_query_param (fresh_req line m v url) n None) n) = Some (Some (lit "2")).
Proof.
  exists [], (lit "GET"), 1, (lit "/?a=1&a=2"), (lit "a"). split; [|vm_compute; reflexivity].
  split; simpl; intuition discriminate.
Qed.
Print Assumptions C09_delete_refuted.

Example C09_ex : let r := urun (fresh_req (lit "GET /p?a=1&b&c=3&a=4 HTTP/1.1") (lit "GET") 1 (lit "/p?a=1&b&c=3&a=4"))
    [OSetParam (lit "b") (lit "x"); ODelParam (lit "a"); OSetPath (lit "/q"); OSetParam (lit "d") []] in
  (r_url r, r_request r) = (lit "/q?b=x&c=3&a=4&d=", lit "GET /q?b=x&c=3&a=4&d= HTTP/1.1").
Proof. vm_compute. reflexivity. Qed.
