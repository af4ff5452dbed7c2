(** C13, C14, C15: conditions, rewrite rules, service selection. *)
From Coq Require Import Ascii String List ZArith Bool.
From Verif Require Import Bytes ReqModel UrlModel AclModel XpdModel XpdSpec CondModel CondSpec CondProofs.
Import ListNotations.
Open Scope Z_scope.

(** ** C13 *)

(** When every elementary condition has a yes or no answer, a condition of any
    shape and depth holds exactly when its Boolean formula is true, and
    examining it does not change the request.  Partial: elementary conditions
    that refer to earlier matches are left to C13_steps; conditions that have no
    answer because the code crashes (C13_undefined_refuted) are excluded. *)
Theorem C13_formula_partial : forall e A c p, formed c -> settles e p A c ->
  exists p', match_cond e c p = CRes (if truth A c then 1 else 0) p' /\ alike p p'.
Proof. intros e A c p W H. exact (formula e A c W p H). Qed.
Print Assumptions C13_formula_partial.

(** In general: evaluation asks the elementary conditions from left to right,
    stops at the first decisive operand of each group, and its result is that of
    the specification. *)
Theorem C13_steps : forall e c p,
  (forall r p', match_cond e c p = CRes r p' -> exists tr v, eval e c p tr v p' /\ r = code_of v) /\
  (forall tr v p', eval e c p tr v p' -> exists p1, match_cond e c p = CRes (code_of v) p1 /\ same p' p1).
Proof.
  intros e c p. split; [apply match_eval|]. intros tr v p' H. exact (eval_match e c p tr v p' H p (XpdProofs.same_refl p)).
Qed.
Print Assumptions C13_steps.

(** The specification leaves no choice. *)
Theorem C13_steps_unique : forall e c p tr v p' tr2 v2 p2,
  eval e c p tr v p' -> eval e c p tr2 v2 p2 -> tr = tr2 /\ v = v2 /\ same p' p2.
Proof. intros e c p tr v p' tr2 v2 p2 H K. exact (eval_fun e c p tr v p' H p tr2 v2 p2 (XpdProofs.same_refl p) K). Qed.
Print Assumptions C13_steps_unique.

(** An error is reported exactly when the last condition asked is in error; no
    condition is asked after one that is in error. *)
Theorem C13_error : forall e c p tr v p', eval e c p tr v p' ->
  (v <> Err /\ Forall (fun x => snd x <> Err) tr) \/
  (v = Err /\ exists tr0 a, tr = tr0 ++ [(a, Err)] /\ Forall (fun x => snd x <> Err) tr0).
Proof. exact eval_err. Qed.
Print Assumptions C13_error.

(** Operands after a decisive one do not matter. *)
Theorem C13_short_circuit : forall e c l l' p p',
  (match_cond e c p = CRes 0 p' ->
   match_cond e (COND_BOOL BOOL_AND (c :: l)) p = CRes 0 p' /\ match_cond e (COND_BOOL BOOL_AND (c :: l')) p = CRes 0 p') /\
  (match_cond e c p = CRes 1 p' ->
   match_cond e (COND_BOOL BOOL_OR (c :: l)) p = CRes 1 p' /\ match_cond e (COND_BOOL BOOL_OR (c :: l')) p = CRes 1 p').
Proof. intros e c l l' p p'. split; intros H; split; rewrite match_group, H by discriminate; reflexivity. Qed.
Print Assumptions C13_short_circuit.

(** A condition does something undefined only if one of its elementary
    conditions does: a Path or Query condition on a request without one, a Host
    condition whose pattern has no groups or matches a line too short for a Host
    field, or a string whose expansion is undefined (C12). *)
Theorem C13_undefined_partial : forall e c p u, formed c -> match_cond e c p = CUndef u ->
  exists a q, atom_of a c /\ alike p q /\
    match a with
    | COND_PATH _ => fst (http_request_get_path (ph_req q)) = None
    | COND_QUERY _ => fst (http_request_get_query (ph_req q)) = None
    | COND_HOST re => exists m, line_asks re (ph_headers q) Yes m /\ forall m', ~ host_view m m'
    | COND_STRING_MATCH t _ => expand_string t q = SUndef u
    | _ => False
    end.
Proof.
  intros e c p u W H. destruct (undef_atom e c W p u H) as (a & q & A & B & K). exists a, q. split; [auto|split; [auto|]].
  destruct a; cbn [match_atom] in K; try discriminate.
  - destruct (exec_push re (http_request_get_url (ph_req q)) q). discriminate.
  - destruct (http_request_get_path (ph_req q)) as [[s|] r]; auto. destruct (exec_push _ _ _). discriminate.
  - destruct (http_request_get_query (ph_req q)) as [[s|] r]; auto. destruct (exec_push _ _ _). discriminate.
  - destruct (http_request_get_query_param_value (ph_req q) name) as [[[s|]|] r]; try discriminate.
    destruct (exec_push _ _ _). discriminate.
  - destruct (match_headers (ph_headers q) re). discriminate.
  - destruct (lines_asks re (ph_headers q)) as (v & m & L & E & N). rewrite E in K. destruct v; try discriminate.
    exists m. split; auto. intros m' V. apply host_view_adjust in V. rewrite V in K. discriminate.
  - destruct (expand_string string q) eqn:E; try discriminate; [|congruence].
    destruct (exec_push _ _ _). discriminate.
Qed.
Print Assumptions C13_undefined_partial.

(** A Query condition on a request without a query passes NULL to the pattern
    matcher, whatever the pattern. *)
Theorem C13_undefined_refuted : forall e re line m v h q,
  match_cond e (COND_QUERY re) (mkPh (fresh_req line m v (lit "/index.html")) h q) = CUndef UB_NULL.
Proof. reflexivity. Qed.
Print Assumptions C13_undefined_refuted.

(** Example: NOT (Path starts with /static) AND (ACL OR Host). *)
Definition prefix_pat (s : bytes) : pattern :=
  fun t => if bytes_eqb (firstn (length s) t) s then Some [(0, Z.of_nat (length s))] else None.
Definition ex_env : env := mkEnv (mkSa AF_INET (map ascii_of_N [10; 0; 0; 1]%N)) (fun _ _ => 1) (fun _ => false).
Definition ex_net : cidr := mkCidr AF_INET 4 (map ascii_of_N [192; 168; 0; 0]%N) (map ascii_of_N [255; 255; 0; 0]%N).
Definition ex_cond : cond :=
  COND_BOOL BOOL_AND
    [COND_BOOL BOOL_NOT [COND_PATH (prefix_pat (lit "/static"))];
     COND_BOOL BOOL_OR [COND_ACL [ex_net]; COND_HOST (prefix_pat (lit "Host: www."))];
     COND_BOOL BOOL_OR []].
Definition ex_state (url host : string) : phttp :=
  mkPh (fresh_req (lit "GET") (lit "GET") 1 (lit url)) [qualify_header (lit host)] smq_init.
Definition answers (r : cres) : option Z := match r with CRes r _ => Some r | CUndef _ => None end.
Example C13_ex : map (fun x => answers (match_cond ex_env ex_cond (ex_state (fst x) (snd x))))
  [("/a", "Host: www.example.org"); ("/static/a", "Host: www.example.org"); ("/a", "Host: ftp.example.org")]%string
  = [Some 1; Some 0; Some 0].
Proof. vm_compute. reflexivity. Qed.
Example C13_hyp_ex : exists A, formed ex_cond /\
  settles ex_env (ex_state "/a" "Host: www.example.org") A ex_cond /\ truth A ex_cond = true.
Proof.
  exists (fun c => match c with COND_HOST _ => true | _ => false end). split; [|split; [|reflexivity]].
  - apply fm_group; [discriminate|]. apply Forall_cons; [apply fm_not; [apply fm_atom; intros []|constructor]|].
    apply Forall_cons; [|apply Forall_cons; [apply fm_group; [discriminate|constructor]|constructor]].
    apply fm_group; [discriminate|].
    apply Forall_cons; [apply fm_atom; intros []|apply Forall_cons; [apply fm_atom; intros []|constructor]].
  - intros a Ha. set (p := ex_state _ _).
    assert (D : a = COND_PATH (prefix_pat (lit "/static")) \/ a = COND_ACL [ex_net] \/ a = COND_HOST (prefix_pat (lit "Host: www."))).
    { inversion Ha as [G|op l c Hc Hs]; subst; [exfalso; apply G; exact I|]. cbn [In] in Hc.
      destruct Hc as [<-|[<-|[<-|[]]]]; inversion Hs as [G|op' l' c' Hc' Hs']; subst; try (exfalso; apply G; exact I);
        cbn [In] in Hc'.
      - destruct Hc' as [<-|[]]. inversion Hs'; subst. auto.
      - destruct Hc' as [<-|[<-|[]]]; inversion Hs'; subst; auto.
      - destruct Hc'. }
    destruct D as [->|[->| ->]]; (split; [intros; discriminate|]).
    + exists (Some sm_empty). apply an_path with (lit "/a"); [reflexivity|]. apply as_no. reflexivity.
    + exists None. apply (an_acl ex_env p [ex_net]).
    + eexists. eapply an_host.
      * apply (la_yes _ [] (qualify_header (lit "Host: www.example.org")) [] [(0, 10)]); [constructor|reflexivity].
      * apply (hv [] (lit "Host:") [SP] (lit "www.example.org") 0 10 []); [constructor|constructor; [left; reflexivity|constructor]|reflexivity| |].
        -- intros (c & r & E & G). injection E as <- _. destruct G as [G|[G|G]]; discriminate.
        -- intros (c & r & E & G). injection E as <- _. destruct G as [G|[G|G]]; discriminate.
Qed.
Example C13_error_ex : answers (match_cond ex_env (COND_BOOL BOOL_OR [COND_STRING_MATCH (lit "$5") (prefix_pat []); COND_BOOL BOOL_AND []])
   (ex_state "/a" "Host: x")) = Some (-1).
Proof. vm_compute. reflexivity. Qed.

(** ** C14 *)

(** Applying a list of rules does what the specification says, and nothing else:
    rules in order, each on the request that the previous one left; of each rule
    the operations of the first alternative whose condition holds, in order; a
    failed operation ends it all. *)
Theorem C14_rules : forall e rules p v p',
  rewrite_apply e rules p = CRes v p' <-> applies_all e rules p v p'.
Proof. exact rules_iff. Qed.
Print Assumptions C14_rules.

Theorem C14_rule : forall e r p v p', rewrite_rule_check e r p = CRes v p' <-> applies e r p v p'.
Proof. intros e r p v p'. split; [apply rule_sound|apply rule_complete]. Qed.
Print Assumptions C14_rule.

(** With conditions that have answers: the branch is the first alternative whose
    formula is true. *)
Theorem C14_branch : forall e A r p,
  Forall (fun a => formed (fst a) /\ settles e p A (fst a)) (alternatives r) ->
  exists p1, alike p p1 /\ forall v p',
    rewrite_rule_check e r p = CRes v p' <->
    match find (fun a => truth A (fst a)) (alternatives r) with
    | Some (_, ops) => performs_all e ops p1 v p'
    | None => v = 0 /\ p' = p1
    end.
Proof. exact chosen_branch. Qed.
Print Assumptions C14_branch.

(** Operations on header fields leave the request line as it is, operations on
    the request line leave the header fields as they are. *)
Theorem C14_separate : forall e o p v p', performs e o p v p' ->
  match o with
  | REWRITE_HDR_DEL _ | REWRITE_HDR_SET _ => same_req (ph_req p) (ph_req p') /\ ph_smq p' = ph_smq p
  | REWRITE_REWRITE_RULE _ => True
  | _ => ph_headers p' = ph_headers p /\ ph_smq p' = ph_smq p
  end.
Proof. exact header_ops. Qed.
Print Assumptions C14_separate.

(** Example: the second alternative is taken; the next rule sees its effect. *)
Definition ex_rules : list rrule :=
  [RRule (COND_PATH (prefix_pat (lit "/old"))) [REWRITE_PATH_SET (lit "/new")]
     (Some (RRule (COND_PATH (prefix_pat (lit "/img"))) [REWRITE_PATH_SET (lit "/static/img"); REWRITE_HDR_SET (lit "X-Kind: image")]
       (Some (RRule (COND_BOOL BOOL_AND []) [REWRITE_URL_SET (lit "/none")] None))));
   RRule (COND_PATH (prefix_pat (lit "/static"))) [REWRITE_QUERY_PARAM_SET (lit "k") (lit "$0")] None].
Definition result (r : cres) : option (Z * bytes * list bytes) :=
  match r with CRes r p => Some (r, http_request_get_url (ph_req p), map h_text (ph_headers p)) | CUndef _ => None end.
Example C14_ex : result (rewrite_apply ex_env ex_rules (ex_state "/img/a?x=1" "Host: www"))
  = Some (0, lit "/static/img?x=1&k=/static", [lit "Host: www"; lit "X-Kind: image"]).
Proof. vm_compute. reflexivity. Qed.
Example C14_ex_none : result (rewrite_apply ex_env [RRule (COND_PATH (prefix_pat (lit "/old"))) [REWRITE_URL_SET (lit "/new")] None]
    (ex_state "/img" "Host: www")) = Some (0, lit "/img", [lit "Host: www"]).
Proof. vm_compute. reflexivity. Qed.

(** ** C15 *)

(** The service chosen is the first one of the listener's list followed by the
    global list that is enabled and whose condition holds; none if there is no
    such service. *)
Theorem C15_first : forall e lstn glob p o p',
  get_service e lstn glob p = match o with Some s => SvFound s p' | None => SvNone p' end
  <-> selects e (lstn ++ glob) p o p'.
Proof. intros. symmetry. apply get_service_iff. Qed.
Print Assumptions C15_first.

(** With conditions that have answers the choice is by their truth. *)
Theorem C15_truth : forall e A lstn glob p,
  Forall (fun s => svc_disabled s = false -> formed (svc_cond s) /\ settles e p A (svc_cond s)) (lstn ++ glob) ->
  exists p', alike p p' /\
    get_service e lstn glob p =
    match find (fun s => negb (svc_disabled s) && truth A (svc_cond s)) (lstn ++ glob) with
    | Some s => SvFound s p'
    | None => SvNone p'
    end.
Proof.
  intros e A lstn glob p F. destruct (selects_truth e A _ p F) as (p' & S & K). exists p'. split; auto.
  apply get_service_iff. exact S.
Qed.
Print Assumptions C15_truth.

(** A disabled service is never chosen, and the service chosen is a configured
    one. *)
Theorem C15_enabled : forall e lstn glob p s p', get_service e lstn glob p = SvFound s p' ->
  svc_disabled s = false /\ exists pre post, lstn ++ glob = pre ++ s :: post.
Proof. intros e lstn glob p s p' H. apply (get_service_iff e lstn glob p (Some s) p') in H. eapply selects_found; eauto. Qed.
Print Assumptions C15_enabled.

Definition ex_services : list service :=
  [mkSvc 1 (COND_PATH (prefix_pat (lit "/a"))) false; mkSvc 2 (COND_BOOL BOOL_AND []) true;
   mkSvc 3 (COND_PATH (prefix_pat (lit "/b"))) false].
Definition chosen (r : svres) : option Z := match r with SvFound s _ => Some (svc_id s) | _ => None end.
Example C15_ex : map (fun u => chosen (get_service ex_env ex_services [mkSvc 4 (COND_PATH (prefix_pat (lit "/b/c"))) false; mkSvc 5 (COND_PATH (prefix_pat (lit "/c"))) false]
    (ex_state u "Host: x"))) ["/a"; "/b/c"; "/c"; "/d"]%string = [Some 1; Some 3; Some 5; None].
Proof. vm_compute. reflexivity. Qed.
