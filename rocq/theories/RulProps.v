(** C62: what the text of a Service section says. *)
From Coq Require Import Ascii String List ZArith Bool.
From Verif Require Import Bytes AclModel XpdModel CondModel CondSpec CfgModel CfgSpec RulModel RulSpec RulProofs RulFormProofs.
From Verif Require LexSpec CondProps.
Import ListNotations.
Local Open Scope nat_scope.

(** A file of services, however it is laid out (any case of the keywords, empty lines, any nesting of
    Match, NOT, Rewrite and Else), is accepted, and its services are those the text says: each with its name, the conjunction of
    its conditions in the order of the text, the rules for responses in the order of the text, and
    the effect on requests of its modifications one after the other. *)
Theorem C62_services : forall have_pcre compile lines acl_by_name parse_acl pem_x509 fs ts d d' ss file name id,
  prints_file fs ts -> file_says have_pcre compile lines acl_by_name parse_acl pem_x509 d fs d' ss -> NoDup (names fs) ->
  file name = Some (id, ts) ->
  exists n ss1, Forall2 same_service ss1 ss /\
    forall m, n <= m -> exists st, read_services have_pcre compile lines acl_by_name parse_acl pem_x509 file m d name = Accepted AtEof (mkConf [FTop ss1] d') st.
Proof. exact services_accepted. Qed.
Print Assumptions C62_services.

(** The options of a comparison: accepted are the options listed, in any number and order, followed by the text; the last
    option about the kind of comparison counts and the last about case, and whether the text is the
    name of a file. *)
Theorem C62_options : forall have_pcre file_ok dfl_re_type t0 fl0 ts t fl f n,
  parse_match_mode have_pcre file_ok dfl_re_type t0 fl0 false ts = Some (t, fl, f, n) <->
  exists ws opts text rest, ts = map LexSpec.Literal ws ++ LexSpec.Quoted text :: rest /\ n = length ws /\ Forall2 opt_word ws opts /\
    chosen have_pcre dfl_re_type t0 (f_icase fl0) (f_multi fl0) opts t fl /\ (f = true <-> In MATCH_FILE opts) /\
    (file_ok = false -> ~ In MATCH_FILE opts).
Proof.
  intros hp fok dre t0 fl0 ts t fl f n. split.
  - intros E. destruct (mode_reads _ (fun _ _ _ => None) (fun _ => None) (fun _ => None) (fun _ => None) (fun _ => None) _ _ _ _ _ _ _ _ _ _ E) as (ws & opts & text & rest & E1 & E2 & E3 & E4 & E5 & E6).
    exists ws, opts, text, rest. unfold file_flag in E5. intuition congruence.
  - intros (ws & opts & text & rest & -> & -> & W & C & F & K).
    destruct (mode_written hp (fun _ _ _ => None) (fun _ => None) (fun _ => None) (fun _ => None) (fun _ => None) fok dre ws opts text W K t0 fl0 false t fl rest C) as (f' & E & F'). rewrite E. unfold file_flag in F'.
    repeat f_equal. destruct f, f'; intuition congruence.
Qed.
Print Assumptions C62_options.

(** A condition is true exactly if the formula written is, given the truth of its elementary statements; partial: except for
    groups that say "or" of nothing (below). *)
Theorem C62_truth_partial : forall have_pcre compile lines acl_by_name parse_acl pem_x509 A v d x c,
  says have_pcre compile lines acl_by_name parse_acl pem_x509 d x c -> no_empty_or x ->
  (forall y cy, part_of y x -> says have_pcre compile lines acl_by_name parse_acl pem_x509 d y cy -> truth A cy = v y) ->
  truth A c = formula v x.
Proof. intros hp compile lines acl_by_name parse_acl pem_x509 A v d x c. exact (proj1 (truths hp compile lines acl_by_name parse_acl pem_x509 A v d) x c). Qed.
Print Assumptions C62_truth_partial.

(** Partial: with the option -file a comparison is true if that with some line of the file is; provided the file has
    a line that counts (neither empty nor a comment), and except for Host (C45_file_refuted). *)
Theorem C62_file_partial : forall have_pcre compile lines acl_by_name parse_acl pem_x509 A d k opts f ls c,
  In MATCH_FILE opts -> k <> K_HOST -> lines f = Some ls -> counted ls <> [] ->
  says have_pcre compile lines acl_by_name parse_acl pem_x509 d (XKind k opts f) c ->
  exists t fl, kind_chosen have_pcre d k opts t fl /\
    (truth A c = true <-> exists l re, In l (counted ls) /\ compile t fl l = Some re /\ A (cond_of k re) = true).
Proof. exact file_truth. Qed.
Print Assumptions C62_file_partial.

(** With -file and a file without lines that count, no line of the file matches.  The
    condition is nevertheless met by every request. *)
Theorem C62_empty_file_refuted : forall have_pcre compile lines acl_by_name parse_acl pem_x509 A d k opts f ls t fl,
  In MATCH_FILE opts -> kind_chosen have_pcre d k opts t fl -> lines f = Some ls -> counted ls = [] ->
  exists c, says have_pcre compile lines acl_by_name parse_acl pem_x509 d (XKind k opts f) c /\ truth A c = true /\
    forall e p, match_cond e c p = CRes 1 p.
Proof. exact empty_file. Qed.
Print Assumptions C62_empty_file_refuted.

(** However the files read are written (includes, anything): in an accepted configuration every negation has an operand, in
    every condition of every service and rule, so the conditions are such as C13, C14 and C15
    require; and no two services have the same name. *)
Theorem C62_formed : forall have_pcre compile lines acl_by_name parse_acl pem_x509 file n d name h c st,
  read_services have_pcre compile lines acl_by_name parse_acl pem_x509 file n d name = Accepted h c st ->
  exists ss, c_stack c = [FTop ss] /\ Forall formed_service ss /\ NoDup (service_names ss).
Proof. exact accepted_formed. Qed.
Print Assumptions C62_formed.

(** ** What the text does not say *)
Definition w (s : string) : tok := LexSpec.Ident (lit s).
Definition q (s : string) : tok := LexSpec.Quoted (lit s).
Definition main (ts : list tok) (f : bytes) : option (Z * list tok) := Some (1%Z, ts).
Definition reads (compile : gptype -> gpflags -> bytes -> option pattern) (d : defaults) (ts : list tok) : option (list psvc) :=
  match read_services true compile (fun _ => None) (fun _ => None) (fun _ => None) (fun _ => None) (main ts) 40 d [] with
  | Accepted _ c _ => Some (services_of c)
  | _ => None
  end.

(** Match OR without conditions, a disjunction of nothing, is false of every request.  It is
    accepted, and met by every request. *)
Theorem C62_empty_or_refuted : forall compile d,
  reads compile d [w "Service"; Newline; w "Match"; w "OR"; Newline; w "End"; Newline; w "End"; Newline] =
    Some [mkPsvc None (COND_BOOL BOOL_AND [COND_BOOL BOOL_OR []]) [] []] /\
  (forall e p, match_cond e (COND_BOOL BOOL_AND [COND_BOOL BOOL_OR []]) p = CRes 1 p) /\
  forall v, formula v (XGroup G_or []) = false.
Proof. intros compile d. split; [vm_compute; reflexivity|split; reflexivity]. Qed.
Print Assumptions C62_empty_or_refuted.

(** A double negation followed by another condition should be the conjunction of two
    conditions.  The second becomes a further operand of the outer negation, and is
    ignored: the service accepts every request with that path, whatever its header fields. *)
Theorem C62_not_not_refuted : forall pat d,
  let a := pat (re_type d) (mkFlags (ignore_case d) false) (lit "/a") in
  let b := pat (re_type d) (mkFlags true true) (lit "b") in
  reads (fun t fl s => Some (pat t fl s)) d
    [w "Service"; Newline; w "NOT"; w "NOT"; w "Path"; q "/a"; Newline; w "Header"; q "b"; Newline; w "End"; Newline] =
    Some [mkPsvc None (COND_BOOL BOOL_AND [COND_BOOL BOOL_NOT [COND_BOOL BOOL_NOT [COND_PATH a]; COND_HDR b]]) [] []] /\
  forall A, truth A (COND_BOOL BOOL_AND [COND_BOOL BOOL_NOT [COND_BOOL BOOL_NOT [COND_PATH a]; COND_HDR b]]) = A (COND_PATH a).
Proof.
  intros pat d a b. split; [vm_compute; reflexivity|]. intros A. cbn. destruct (A (COND_PATH a)); reflexivity.
Qed.
Print Assumptions C62_not_not_refuted.

(** IgnoreCase in a service is documented to override the global setting for that service.  It replaces the global
    setting: the next service, which says nothing about case, ignores it as well. *)
Theorem C62_ignore_case_refuted : forall pat t,
  reads (fun t fl s => Some (pat t fl s)) (mkDfl t false)
    [w "Service"; Newline; w "IgnoreCase"; w "yes"; Newline; w "End"; Newline; w "Service"; Newline; w "Path"; q "/a"; Newline; w "End"; Newline] =
    Some [mkPsvc None (COND_BOOL BOOL_AND []) [] []; mkPsvc None (COND_BOOL BOOL_AND [COND_PATH (pat t (mkFlags true false) (lit "/a"))]) [] []].
Proof. intros pat t. vm_compute. reflexivity. Qed.
Print Assumptions C62_ignore_case_refuted.

(** ** The hypotheses can be met *)
Definition ex_compile (t : gptype) (fl : gpflags) (s : bytes) : option pattern := Some (CondProps.prefix_pat s).
Definition ex_tokens : list tok :=
  [w "service"; q "www"; Newline;
   w "PATH"; LexSpec.Literal (lit "-beg"); LexSpec.Literal (lit "-icase"); q "/a"; Newline;
   w "not"; w "Match"; w "or"; Newline; w "Query"; q "x"; Newline; Newline; w "Acl"; q "local"; Newline; w "End"; Newline;
   w "SetHeader"; q "A: b"; Newline;
   w "Rewrite"; Newline; w "Query"; q "y"; Newline; w "SetPath"; q "/b"; Newline; w "Else"; Newline; w "SetURL"; q "/c"; Newline; w "End"; Newline;
   w "End"; Newline].
Definition ex_body : rbody := RBody [RS_cond (XKind K_QUERY [] (lit "y")); RS_op (M_path (lit "/b"))] (Some (RBody [RS_op (M_url (lit "/c"))] None)).
Definition ex_file : list fstmt :=
  [F_service (Some (lit "www"))
     [S_cond (XKind K_PATH [MATCH_BEG; MATCH_ICASE] (lit "/a")); S_cond (XNot (XGroup G_or [XKind K_QUERY [] (lit "x"); XAcl (lit "local")]));
      S_op (M_header (lit "A: b")); S_rewrite ex_body]].
Local Ltac word := constructor; reflexivity.
Example ex_prints : prints_file ex_file ex_tokens.
Proof.
  apply (pf_service (Some (lit "www")) _ (w "service") (firstn 36 (skipn 3 ex_tokens)) (w "End") [] []); [word| |word|constructor].
  apply (psv_line _ _ [w "PATH"; LexSpec.Literal (lit "-beg"); LexSpec.Literal (lit "-icase"); q "/a"]).
  { constructor. apply (pr_kind K_PATH _ _ (lit "Path") [] (w "PATH") [_; _; _]); [constructor|word|].
    apply (pt _ _ [lit "-beg"; lit "-icase"]). repeat constructor. }
  apply (psv_line _ _ [w "not"; w "Match"; w "or"; Newline; w "Query"; q "x"; Newline; Newline; w "Acl"; q "local"; Newline; w "End"]).
  { constructor. apply pr_not; [word|discriminate|]. apply (pr_group G_or _ _ [w "or"] [w "Query"; q "x"; Newline; Newline; w "Acl"; q "local"; Newline]); [word|constructor; word| |word].
    apply (pa_line _ _ [w "Query"; q "x"]).
    - apply (pr_kind K_QUERY _ _ (lit "Query") [] (w "Query") [_]); [constructor|word|]. apply (pt _ _ []). constructor.
    - apply pa_blank. apply (pa_line _ _ [w "Acl"; q "local"] []); [constructor; word|constructor]. }
  apply (psv_line _ _ [w "SetHeader"; q "A: b"]).
  { constructor. constructor. word. }
  apply (psv_line _ _ (firstn 14 (skipn 24 ex_tokens)) []); [|constructor].
  apply (pss_rewrite _ _ (firstn 11 (skipn 26 ex_tokens))); [word| |word].
  apply (pb_else _ [w "Query"; q "y"; Newline; w "SetPath"; q "/b"; Newline] (w "Else") _ [w "SetURL"; q "/c"; Newline]); [|word|].
  - apply (pi_line _ _ [w "Query"; q "y"]).
    + constructor. apply (pr_kind K_QUERY _ _ (lit "Query") [] (w "Query") [_]); [constructor|word|]. apply (pt _ _ []). constructor.
    + apply (pi_line _ _ [w "SetPath"; q "/b"] []); [constructor; constructor; word|constructor].
  - constructor. apply (pi_line _ _ [w "SetURL"; q "/c"] []); [constructor; constructor; word|constructor].
Qed.
Definition ex_says d := file_says true ex_compile (fun _ => None) (fun n => if bytes_eqb n (lit "local") then Some [] else None) (fun _ => None) (fun _ => None) d ex_file.
Local Ltac deflt := right; split; [apply Forall_nil|reflexivity].
Example ex_meets : exists ss, ex_says (mkDfl GENPAT_POSIX false) (mkDfl GENPAT_POSIX false) ss.
Proof.
  eexists. eapply fs_service; [|constructor].
  eapply ss_cond.
  { apply sy_kind. eapply (ks_text _ _ _ _ _ _ _ GENPAT_PREFIX (mkFlags true false)).
    - split; [|split; [|split; [reflexivity|intros [E|[E|[]]]; discriminate]]].
      + left. exists [], MATCH_BEG, [MATCH_ICASE]. split; [reflexivity|]. split; [reflexivity|]. apply Forall_cons; [reflexivity|apply Forall_nil].
      + left. exists [MATCH_BEG], MATCH_ICASE, []. split; [reflexivity|]. split; [reflexivity|apply Forall_nil].
    - intros [E|[E|[]]]; discriminate.
    - eexists. split; reflexivity. }
  eapply ss_cond.
  { apply sy_not. apply (sy_group _ _ _ _ _ _ _ G_or). eapply sa_cons; [|eapply sa_cons; [apply sy_acl; reflexivity|constructor]].
    apply sy_kind. eapply (ks_text _ _ _ _ _ _ _ GENPAT_POSIX (mkFlags false false)); [split; [deflt|split; [deflt|split; [reflexivity|intros []]]]|intros []|eexists; split; reflexivity]. }
  eapply ss_op; [constructor|]. eapply ss_rewrite; [|constructor].
  eapply sb_else; [|constructor; eapply si_op; [constructor|constructor]].
  eapply si_cond; [|eapply si_op; [constructor|constructor]].
  apply sy_kind. eapply (ks_text _ _ _ _ _ _ _ GENPAT_POSIX (mkFlags false false)); [split; [deflt|split; [deflt|split; [reflexivity|intros []]]]|intros []|eexists; split; reflexivity].
Qed.
Example ex_names : NoDup (names ex_file).
Proof. constructor; [intros []|constructor]. Qed.
