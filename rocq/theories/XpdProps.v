(** C12 and C16: templates and the redirect reply. *)
From Coq Require Import Ascii String List ZArith Bool.
From Verif Require Import Bytes ClenSpec ReqModel UrlModel XpdModel XpdSpec XpdProofs.
Import ListNotations.
Open Scope Z_scope.

(** ** C12 *)

(** A template all of whose references exist expands to the concatenation of
    what its pieces stand for, and the request and the matches stay the same.
    Partial: not for "$%" and not where the code reads outside its data
    ([tame]); both are refuted below. *)
Theorem C12_expand_partial : forall t pieces p text k,
  reads t pieces -> sound_queue (ph_smq p) -> Forall (tame p) pieces -> renders p pieces text k ->
  exists p', expand_string t p = SOk text p' /\ same p p'.
Proof. exact expand_string_renders. Qed.
Print Assumptions C12_expand_partial.

(** A template with a reference to a group that does not exist is refused. *)
Theorem C12_missing_partial : forall t pieces p,
  reads t pieces -> sound_queue (ph_smq p) -> Forall (tame p) pieces -> Exists (missing p) pieces ->
  exists p', expand_string t p = SNull p' /\ same p p'.
Proof. exact expand_string_missing. Qed.
Print Assumptions C12_missing_partial.

(** The m-th most recent match: the queue holds the last eight, whatever came
    before. *)
Theorem C12_recent : forall matches m, (m < 8)%nat ->
  submatch_queue_get (fold_left pushed matches smq_init) m = nth m (rev matches) sm_empty.
Proof. exact recent. Qed.
Print Assumptions C12_recent.

(** Expansion ends, for every template and state. *)
Theorem C12_ends : forall acc t p, expand_string_to_buffer acc t p <> XFuel.
Proof. intros acc t p. exact (E_never_out acc t 0 p). Qed.
Print Assumptions C12_ends.

(** It stays within its data but for the four causes listed in the specification. *)
Theorem C12_bounds_partial : forall t p u,
  sound_queue (ph_smq p) -> expand_string t p = SUndef u -> cause t p u.
Proof. exact expand_undef. Qed.
Print Assumptions C12_bounds_partial.

(** Example data: a request and two matches. *)
Definition ex_req : req := fresh_req (lit "GET /a/b?x=1&y HTTP/1.1") (lit "GET") 1 (lit "/a/b?x=1&y").
Definition ex_headers : list header := map qualify_header [lit "Accept: */*"; lit "Host: example.org:8080"].
Definition ex_queue : smqueue :=
  fold_left pushed [mkSm (Some (lit "www.example.org")) [(0, 15); (4, 11)];
                    mkSm (Some (lit "/static/img/x.png")) [(0, 17); (8, 11); (-1, -1)]] smq_init.
Definition ex_ph : phttp := mkPh ex_req ex_headers ex_queue.

Lemma ex_sound : sound_queue (ph_smq ex_ph).
Proof.
  unfold sound_queue. vm_compute. repeat apply Forall_cons; try apply Forall_nil;
  intros subj so eo H K; try discriminate; injection H as <-; cbn [In] in K;
  repeat (destruct K as [K|K]; [injection K as <- <-; vm_compute; intuition discriminate|]); destruct K.
Qed.

Example C12_expand_ex : exists p',
  expand_string (lit "http://%[host]/${1}0$1(1)$2?%41$$%[param  x]%1-%[header accept]%[param z]") ex_ph =
  SOk (lit "http://example.org/img0example?%41$1example-*/*") p'.
Proof. eexists. vm_compute. reflexivity. Qed.
Example C12_missing_ex : exists p, expand_string (lit "$4") ex_ph = SNull p.
Proof. eexists. vm_compute. reflexivity. Qed.

(** A name that is no accessor is left as it is. *)
Example C12_unknown_ex : reads (lit "%[ uri x]a") (map PByte (lit "%[ uri x]a")).
Proof.
  apply (r_unknown (lit " uri x") (lit "a") [PByte "a"%char]).
  - exists (lit " "), (lit "uri"), (lit " x"). split; [reflexivity|]. split; [repeat constructor|]. split.
    { repeat apply Forall_cons; try apply Forall_nil; intros [K|K]; discriminate K. }
    split; [right; split; [discriminate|]; exists " "%char, (lit "x"); split; [reflexivity|left; reflexivity]|].
    intros name a b K. destruct K; discriminate.
  - vm_compute. intuition discriminate.
  - apply r_plain; [discriminate|discriminate|constructor].
Qed.

(** The hypotheses of C12_expand_partial on an example. *)
Example C12_hyp_ex : exists pieces text k,
  reads (lit "a$1(1)/$1") pieces /\ sound_queue (ph_smq ex_ph) /\ Forall (tame ex_ph) pieces /\
  renders ex_ph pieces text k /\ text = lit "aexample/img".
Proof.
  assert (D : decimal "1"%char 1) by (split; [discriminate|reflexivity]).
  assert (N : num (lit "1") 1) by (split; [constructor; auto|discriminate]).
  exists [PByte "a"; PRef 1 1; PByte "/"; PRef 1 0]%char, (lit "a" ++ lit "example" ++ lit "/" ++ lit "img" ++ []), (0 + (1 + (0 + (1 + 0)))).
  split; [|split; [apply ex_sound|split; [|split; [|reflexivity]]]].
  - constructor; [discriminate|discriminate|].
    apply (r_ref_of (lit "1") 1 (lit "1") 1 (lit "/$1")); auto; [repeat constructor|].
    constructor; [discriminate|discriminate|].
    apply (r_ref (lit "1") 1 []); auto; [|constructor].
    intros (c & t & K & _). discriminate.
  - repeat apply Forall_cons; try apply Forall_nil; try exact I; intros _; vm_compute; discriminate.
  - constructor; [constructor|]. constructor.
    { constructor. exists (lit "www.example.org"), 4, 11. split; [reflexivity|]. split; [discriminate|]. split; [reflexivity|].
      right. exists (lit "www."), (lit ".org"). repeat split. }
    constructor; [constructor|]. constructor; [|constructor].
    constructor. exists (lit "/static/img/x.png"), 8, 11. split; [reflexivity|]. split; [discriminate|]. split; [reflexivity|].
    right. exists (lit "/static/"), (lit "/x.png"). repeat split.
Qed.

(** "$%" is documented to stand for a percent sign; it gives a dollar sign. *)
Theorem C12_percent_refuted : forall p, expand_string (lit "$%") p = SOk (lit "$") p.
Proof. reflexivity. Qed.
Print Assumptions C12_percent_refuted.

(** Every template that ends in a dollar or percent sign after a plain text is
    read beyond its end. *)
Theorem C12_end_refuted : forall t c p,
  Forall (fun x => x <> "$"%char /\ x <> "%"%char) t -> c = "$"%char \/ c = "%"%char ->
  expand_string (t ++ [c]) p = SUndef UB_END.
Proof.
  intros t c p Ht Hc. unfold expand_string, expand_string_to_buffer. fold (E true (t ++ [c]) 0 p).
  assert (K : E true (t ++ [c]) 0 p = XUndef UB_END).
  { induction Ht as [|x t [H1 H2] Ht IH]; cbn [app].
    - rewrite E_special by (apply special_of; auto). reflexivity.
    - rewrite E_plain, IH; [reflexivity|].
      destruct (special x) eqn:Es; auto. apply special_of in Es as [->| ->]; congruence. }
  rewrite K. reflexivity.
Qed.
Print Assumptions C12_end_refuted.

(** After a match of a literal pattern, which has no groups, "$0" reads an
    element of an array that does not exist; after any match the reference to the
    group after the last reads beyond the array. *)
Theorem C12_group_refuted :
  (forall re subj r h q, length (smq_sm q) = SMQ_SIZE -> re subj = Some [] ->
     expand_string (lit "$0") (mkPh r h (pushed q (snd (submatch_exec re subj)))) = SUndef UB_GROUP) /\
  expand_string (lit "$3") ex_ph = SUndef UB_GROUP.
Proof.
  split; [|vm_compute; reflexivity].
  intros re subj r h q L H. unfold submatch_exec. rewrite H. cbn [snd].
  assert (G := pushed_top q (mkSm (Some subj) []) L).
  set (p := mkPh r h (pushed q (mkSm (Some subj) []))) in *.
  unfold expand_string, expand_string_to_buffer. fold (E true (lit "$0") 0 p).
  change (lit "$0") with ("$"%char :: ["0"%char]). rewrite E_special by reflexivity.
  change (expand_turn true ("$"%char :: ["0"%char]) 0 p) with (ref_turn ("$"%char :: ["0"%char]) [] 0 0 0 p).
  unfold ref_turn. change (ph_smq p) with (pushed q (mkSm (Some subj) [])). rewrite G. reflexivity.
Qed.
Print Assumptions C12_group_refuted.

(** "%[query]" on a request without a query uses a variable that was not set, and
    a blank before the closing bracket of an accessor with argument never ends. *)
Theorem C12_accessor_refuted :
  (forall p, fst (http_request_get_query (ph_req p)) = None -> expand_string (lit "%[query]") p = SUndef UB_UNSET) /\
  (forall p, expand_string (lit "%[header host ]") p = SUndef UB_LOOP).
Proof.
  split; [|intros p; reflexivity].
  intros p H. unfold expand_string, expand_string_to_buffer. fold (E true (lit "%[query]") 0 p).
  change (lit "%[query]") with ("%"%char :: lit "[query]"). rewrite E_special by reflexivity.
  change (expand_turn true ("%"%char :: lit "[query]") 0 p) with
    (let '(v, ph) := accessor_call ACC_QUERY [] p in
          match v with
          | AV_VALUE v => T_NEXT v (count 0) [] ph
          | AV_UNSET => T_UB UB_UNSET
          | AV_NOT_FOUND | AV_NULL => T_NEXT [] 0 [] ph
          end).
  cbn [accessor_call]. destruct (http_request_get_query (ph_req p)) as [v r]. cbn [fst] in H. rewrite H. reflexivity.
Qed.
Print Assumptions C12_accessor_refuted.
Example C12_query_ex :
  expand_string (lit "%[query]") (mkPh (fresh_req (lit "GET / HTTP/1.1") (lit "GET") 1 (lit "/")) [] smq_init) = SUndef UB_UNSET.
Proof. reflexivity. Qed.

(** ** C16 *)

(** Whatever the template, the request and the matches, the reply has one of the
    five statuses, the configured one, and its Location line and body contain a
    URL made of safe characters and percent escapes only. *)
Theorem C16_safe : forall code url has_uri p c reason loc body,
  redirect_response code url has_uri p = R_REPLY c reason loc body ->
  c = code /\ In code [301; 302; 303; 307; 308] /\
  exists u, safe u /\ loc = lit "Location: " ++ u ++ CRLF /\
    body = lit "<html><head><title>Redirect</title></head><body><h1>Redirect</h1><p>You should go to <a href=" ++
      [ascii_of_N 34] ++ u ++ [ascii_of_N 34; ">"%char] ++ u ++ lit "</a></p></body></html>".
Proof. exact redirect_form. Qed.
Print Assumptions C16_safe.

(** In particular no line end, quote or angle bracket can be smuggled in. *)
Theorem C16_no_injection : forall u c, safe u -> In c u ->
  c <> CR /\ c <> LF /\ c <> ascii_of_N 34 /\ c <> "<"%char /\ c <> ">"%char /\ c <> "'"%char /\ c <> NUL.
Proof.
  intros u c H K. apply safe_chars in H. rewrite Forall_forall in H. specialize (H c K).
  assert (A : is_alnum c = true \/ mark c \/ c = "%"%char) by (destruct H as [H|H]; [left; apply alnum_is; auto|auto]).
  repeat split; intros ->; (destruct A as [A|[A|A]]; [discriminate A| |discriminate A]);
  unfold mark in A; cbv in A; repeat (destruct A as [A|A]; [discriminate A|]); exact A.
Qed.
Print Assumptions C16_no_injection.

(** A URL of 7-bit characters is what the escapes decode to. Partial: 7-bit. *)
Theorem C16_decodes_partial : forall u, Forall (fun c => Bytes.code c < 128) u -> decodes (safe_url u) u.
Proof. exact safe_url_decodes. Qed.
Print Assumptions C16_decodes_partial.

(** Where the redirect goes: the expanded template, followed by the URL of the
    request if the template has no substitution and the configuration asks for it. *)
Theorem C16_target_partial : forall code url pieces has_uri p text k,
  In code [301; 302; 303; 307; 308] ->
  reads url pieces -> sound_queue (ph_smq p) -> Forall (tame p) pieces -> renders p pieces text k ->
  let target := if has_uri || (0 <? k) then text else text ++ http_request_get_url (ph_req p) in
  exists reason, redirect_response code url has_uri p =
    R_REPLY code reason (lit "Location: " ++ safe_url target ++ CRLF) (redirect_body (safe_url target)).
Proof.
  intros code url pieces has_uri p text k Hc H1 H2 H3 H4 target.
  apply redirect_answers; auto.
  destruct (expand_url_renders _ _ _ _ _ has_uri H1 H2 H3 H4) as (p' & K & _). exists p'. exact K.
Qed.
Print Assumptions C16_target_partial.

Example C16_ex : redirect_response 301 (lit "https://%[host]") false ex_ph =
  R_REPLY 301 (lit "Moved Permanently") (lit "Location: https://example.org" ++ CRLF) (redirect_body (lit "https://example.org")).
Proof. vm_compute. reflexivity. Qed.
Example C16_ex_uri : redirect_response 302 (lit "https://x") false ex_ph =
  R_REPLY 302 (lit "Found") (lit "Location: https://x/a/b?x=1&y" ++ CRLF) (redirect_body (lit "https://x/a/b?x=1&y")).
Proof. vm_compute. reflexivity. Qed.

(** A byte above 127 is printed as a negative number: the two digits after the
    percent sign are not its code, and six further characters follow. *)
Theorem C16_high_bytes_refuted : forall c, 128 <= Bytes.code c ->
  exists h1 h2, safe_url [c] = lit "%ffffff" ++ [h1; h2] /\ ~ decodes (safe_url [c]) [c].
Proof.
  intros c H.
  assert (K : exists h1 h2, safe_url [c] = lit "%ffffff" ++ [h1; h2]).
  { destruct c as [[] [] [] [] [] [] [] []]; vm_compute in H; try (exfalso; apply H; reflexivity);
    eexists; eexists; vm_compute; reflexivity. }
  destruct K as (h1 & h2 & K). exists h1, h2. split; auto. rewrite K. intros D.
  inversion D as [|x u v H1 H2|x y d1 d2 z u v H1 H2 H3 H4]; subst; [congruence|]. inversion H4.
Qed.
Print Assumptions C16_high_bytes_refuted.
