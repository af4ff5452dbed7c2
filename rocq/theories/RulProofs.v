(** Proofs about the reading of Service sections. *)
From Coq Require Import Ascii String List ZArith Bool Arith Lia.
From Verif Require Import Bytes AclModel XpdModel CondModel CondSpec CfgModel CfgSpec CfgProofs RulModel RulSpec.
From Verif Require HostModel LexSpec NumModel.
Import ListNotations.
Open Scope nat_scope.

(** ** Options *)
Lemma setting_nil : forall A (f : mopt -> option A) dfl x, setting f dfl [] x <-> x = dfl.
Proof.
  intros A f dfl x. split.
  - intros [(l1 & o & l2 & E & _)|(_ & E)]; [destruct l1; discriminate|exact E].
  - intros ->. right. auto.
Qed.
Lemma setting_cons : forall A (f : mopt -> option A) dfl o l x,
  setting f dfl (o :: l) x <-> setting f (match f o with Some y => y | None => dfl end) l x.
Proof.
  intros A f dfl o l x. split.
  - intros [(l1 & o' & l2 & E & F & N)|(N & E)].
    + destruct l1 as [|o1 l1]; cbn in E; injection E as -> ->.
      * rewrite F. right. auto.
      * left. exists l1, o', l2. auto.
    + inversion N as [|o' l' N1 N2]; subst. rewrite N1. right. auto.
  - intros [(l1 & o' & l2 & E & F & N)|(N & E)].
    + left. exists (o :: l1), o', l2. subst. auto.
    + destruct (f o) as [y|] eqn:FO.
      * subst. left. exists [], o, l. auto.
      * right. auto.
Qed.

Lemma kw_opt : forall w o, kw_to_tok optab w = Some o <-> opt_word w o.
Proof.
  intros w o. split.
  - unfold optab. cbn [kw_to_tok].
    repeat match goal with |- context [if bytes_eqb ?a ?b then _ else _] => destruct (bytes_eqb a b) eqn:? end; intros E; try discriminate;
      injection E as <-;
      match goal with H : bytes_eqb ?k w = true |- _ => apply bytes_eqb_eq in H; subst w; constructor end.
  - intros H. destruct H; vm_compute; reflexivity.
Qed.

Scheme prints_ind2 := Minimality for prints Sort Prop with prints_all_ind2 := Minimality for prints_all Sort Prop.
Combined Scheme prints_mut from prints_ind2, prints_all_ind2.
Scheme prs_ind2 := Minimality for prints_rstmt Sort Prop with pb_ind2 := Minimality for prints_body Sort Prop with pi_ind2 := Minimality for prints_items Sort Prop.
Combined Scheme body_mut from prs_ind2, pb_ind2, pi_ind2.

Section Proofs.
  Variable have_pcre : bool.
  Variable compile : gptype -> gpflags -> bytes -> option pattern.
  Variable lines : bytes -> option (list bytes).
  Variable acl_by_name : bytes -> option (list cidr).
  Variable parse_acl : list tok -> option (list cidr * nat).
  Variable pem_x509 : bytes -> option bytes.

  Notation mode := (parse_match_mode have_pcre).
  Notation chosen := (chosen have_pcre).

  Definition file_flag (f0 : bool) (opts : list mopt) (f : bool) : Prop := f = true <-> (f0 = true \/ In MATCH_FILE opts).

  Lemma mode_written : forall fok dre ws opts text, Forall2 opt_word ws opts -> (fok = false -> ~ In MATCH_FILE opts) ->
    forall t0 fl0 f0 t fl rest, chosen dre t0 (f_icase fl0) (f_multi fl0) opts t fl ->
    exists f, mode fok dre t0 fl0 f0 (map LexSpec.Literal ws ++ LexSpec.Quoted text :: rest) = Some (t, fl, f, length ws) /\ file_flag f0 opts f.
  Proof.
    intros fok dre ws opts text W. induction W as [|w o ws opts H W IH]; intros FK t0 fl0 f0 t fl rest (C1 & C2 & C3 & C4).
    - apply setting_nil in C1, C2. exists f0. cbn. split; [|unfold file_flag; cbn; tauto]. subst t. destruct fl as [i m], fl0 as [i0 m0]. cbn in *. subst. reflexivity.
    - apply setting_cons in C1, C2. cbn [map app parse_match_mode]. rewrite (proj2 (kw_opt w o) H).
      assert (FK' : fok = false -> ~ In MATCH_FILE opts) by (intros E I; apply (FK E); right; exact I).
      assert (C4' : In MATCH_PCRE opts -> have_pcre = true) by (intros I; apply C4; right; exact I).
      assert (K : forall t1 fl1 f1, match type_option dre o with Some y => y | None => t0 end = t1 ->
                  match case_option o with Some y => y | None => f_icase fl0 end = f_icase fl1 -> f_multi fl1 = f_multi fl0 ->
                  (f1 = true <-> f0 = true \/ o = MATCH_FILE) ->
                  exists f, match mode fok dre t1 fl1 f1 (map LexSpec.Literal ws ++ LexSpec.Quoted text :: rest) with
                            | Some (t, fl, f, n) => Some (t, fl, f, S n)
                            | None => None
                            end = Some (t, fl, f, length (w :: ws)) /\ file_flag f0 (o :: opts) f).
      { intros t1 fl1 f1 E1 E2 E3 E4. rewrite E1 in C1. rewrite E2 in C2.
        destruct (IH FK' t1 fl1 f1 t fl rest) as (f & E & F).
        { split; [exact C1|]. split; [exact C2|]. split; [congruence|exact C4']. }
        exists f. rewrite E. split; [reflexivity|]. unfold file_flag in *. rewrite F, E4. cbn [In]. split; intros X.
        - destruct X as [[X|X]|X]; auto.
        - destruct X as [X|[X|X]]; auto. }
      destruct o; cbn [type_option case_option] in K;
        try (apply K; [reflexivity|reflexivity|reflexivity|split; [auto|intros [X|X]; [exact X|discriminate]]]).
      + destruct fok; [|exfalso; apply (FK eq_refl); left; reflexivity].
        apply K; [reflexivity|reflexivity|reflexivity|split; auto].
      + pose proof (C4 (or_introl eq_refl)) as HP.
        match goal with |- context [if have_pcre then ?X else None] => replace (if have_pcre then X else None) with X by (rewrite HP; reflexivity) end.
        apply K; [reflexivity|reflexivity|reflexivity|split; [auto|intros [X|X]; [exact X|discriminate]]].
  Qed.

  Lemma mode_reads : forall fok dre ts t0 fl0 f0 t fl f n, mode fok dre t0 fl0 f0 ts = Some (t, fl, f, n) ->
    exists ws opts text rest, ts = map LexSpec.Literal ws ++ LexSpec.Quoted text :: rest /\ Forall2 opt_word ws opts /\ n = length ws /\
      chosen dre t0 (f_icase fl0) (f_multi fl0) opts t fl /\ file_flag f0 opts f /\ (fok = false -> ~ In MATCH_FILE opts).
  Proof.
    intros fok dre ts. induction ts as [|k ts IH]; intros t0 fl0 f0 t fl f n E; [discriminate|].
    cbn [parse_match_mode] in E. destruct k as [|w|w|v|w|]; try discriminate.
    - injection E as <- <- <- <-. exists [], [], v, ts. split; [reflexivity|]. split; [constructor|]. split; [reflexivity|]. split.
      { split; [apply setting_nil; reflexivity|]. split; [apply setting_nil; reflexivity|]. split; [reflexivity|]. intros []. }
      split; [unfold file_flag; cbn; tauto|]. intros _ [].
    - destruct (kw_to_tok optab w) as [o|] eqn:K; [|discriminate]. apply kw_opt in K.
      assert (N : forall t1 fl1 f1, match type_option dre o with Some y => y | None => t0 end = t1 ->
                  match case_option o with Some y => y | None => f_icase fl0 end = f_icase fl1 -> f_multi fl1 = f_multi fl0 ->
                  (f1 = true <-> f0 = true \/ o = MATCH_FILE) -> (o = MATCH_PCRE -> have_pcre = true) -> (fok = false -> o <> MATCH_FILE) ->
                  match mode fok dre t1 fl1 f1 ts with
                  | Some (t, fl, f, n) => Some (t, fl, f, S n)
                  | None => None
                  end = Some (t, fl, f, n) ->
                  exists ws opts text rest, LexSpec.Literal w :: ts = map LexSpec.Literal ws ++ LexSpec.Quoted text :: rest /\ Forall2 opt_word ws opts /\ n = length ws /\
                    chosen dre t0 (f_icase fl0) (f_multi fl0) opts t fl /\ file_flag f0 opts f /\ (fok = false -> ~ In MATCH_FILE opts)).
      { intros t1 fl1 f1 E1 E2 E3 E4 E5 E6 M. destruct (mode fok dre t1 fl1 f1 ts) as [[[[t' fl'] f'] n']|] eqn:M1; [|discriminate].
        injection M as -> -> -> <-. destruct (IH _ _ _ _ _ _ _ M1) as (ws & opts & text & rest & -> & W & -> & (C1 & C2 & C3 & C4) & F & NF).
        exists (w :: ws), (o :: opts), text, rest. split; [reflexivity|]. split; [constructor; assumption|]. split; [reflexivity|]. split.
        { split; [apply setting_cons; rewrite E1; exact C1|]. split; [apply setting_cons; rewrite E2; exact C2|]. split; [congruence|].
          intros [I|I]; [apply E5; exact I|apply C4; exact I]. }
        split.
        - unfold file_flag in *. rewrite F, E4. cbn [In]. split; intros X.
          + destruct X as [[X|X]|X]; auto.
          + destruct X as [X|[X|X]]; auto.
        - intros FK [I|I]; [apply (E6 FK); exact I|apply (NF FK); exact I]. }
      destruct o; cbn [type_option case_option] in N;
        try (refine (N _ _ _ _ _ _ _ _ _ E); [reflexivity|reflexivity|reflexivity|split; [auto|intros [X|X]; [exact X|discriminate]]|discriminate|intros _; discriminate]).
      + destruct fok; [|discriminate]. refine (N _ _ _ _ _ _ _ _ _ E); [reflexivity|reflexivity|reflexivity|split; auto|discriminate|discriminate].
      + assert (HP : have_pcre = true) by (case_eq have_pcre; intros HP; [reflexivity|rewrite HP in E; discriminate]).
        match type of E with context [if have_pcre then ?X else None] => replace (if have_pcre then X else None) with X in E by (rewrite HP; reflexivity) end.
        refine (N _ _ _ _ _ _ _ _ _ E); [reflexivity|reflexivity|reflexivity|split; [auto|intros [X|X]; [exact X|discriminate]]|intros _; exact HP|intros _; discriminate].
  Qed.

  (** ** Comparisons *)
  Notation compares := (compares compile).
  Notation matcher := (parse_cond_matcher have_pcre compile lines).

  Lemma compile_expr : forall k t fl text c, compares k t fl text c ->
    exists re, c = cond_of k re /\ compile (snd (expr_of k t text)) fl (fst (expr_of k t text)) = Some re.
  Proof. intros k t fl text c (re & -> & E). exists re. split; [reflexivity|]. destruct k; exact E. Qed.
  Lemma expr_next : forall k t text, snd (expr_of k t text) = match k with K_HOST => snd (host_prefix_regex t text) | _ => t end.
  Proof. intros k t text. destruct k; reflexivity. Qed.

  Lemma file_written : forall k fl ls t cs, compares_all compile k fl t (counted ls) cs -> file_conds compile k t fl ls = Some cs.
  Proof.
    intros k fl ls. induction ls as [|l ls IH]; intros t cs H; [cbn [counted] in H; inversion H; reflexivity|].
    cbn [counted file_conds] in *. destruct (HostModel.trim_line l) as [p|]; [|apply IH, H].
    inversion H as [|t' l' ls' c cs' C R]; subst. destruct (compile_expr _ _ _ _ _ C) as (re & -> & E).
    rewrite <- expr_next in R. destruct (expr_of k t p) as [expr t1]. cbn [fst snd] in *. rewrite E, (IH _ _ R). reflexivity.
  Qed.

  Lemma start_chosen : forall d k opts t fl, kind_chosen have_pcre d k opts t fl ->
    chosen (re_type d) (start_type d k) (f_icase (start_flags d k)) (f_multi (start_flags d k)) opts t fl.
  Proof. intros d k opts t fl H. destruct k; exact H. Qed.

  Lemma skipn_len : forall A (l r : list A), skipn (length l) (l ++ r) = r.
  Proof. intros A l r. rewrite skipn_app, skipn_all, Nat.sub_diag. reflexivity. Qed.
  Lemma skipn_literals : forall ws r, skipn (length ws) (map LexSpec.Literal ws ++ r) = r.
  Proof. intros ws r. rewrite <- (map_length LexSpec.Literal ws). apply skipn_len. Qed.

  Notation ksays := (kind_says have_pcre compile lines).
  Notation pkind := (parse_kind have_pcre compile lines).
  Lemma kind_written : forall d k opts text x ts, ksays d k opts text x -> pattern_text opts text ts ->
    forall c rest, c_dfl c = d -> pkind k c (ts ++ rest) = Some (x, length ts).
  Proof.
    intros d k opts text x ts S P c rest D. destruct P as [ws W]. unfold parse_kind, parse_cond_matcher. rewrite D.
    rewrite <- app_assoc, app_length, map_length. cbn [app length].
    assert (M : forall t fl, kind_chosen have_pcre d k opts t fl -> exists f,
              mode true (re_type d) (start_type d k) (start_flags d k) false (map LexSpec.Literal ws ++ LexSpec.Quoted text :: rest) = Some (t, fl, f, length ws) /\ file_flag false opts f).
    { intros t fl CH. apply start_chosen in CH. apply mode_written; [exact W|discriminate|exact CH]. }
    destruct S as [t fl x CH NF C|t fl ls cs CH F L CA]; destruct (M _ _ CH) as (f & -> & FF); rewrite skipn_literals; unfold file_flag in FF.
    - destruct f; [exfalso; apply NF; destruct (proj1 FF eq_refl) as [X|X]; [discriminate|exact X]|].
      destruct (compile_expr _ _ _ _ _ C) as (re & -> & E). destruct (expr_of k t text) as [expr t1]. cbn [fst snd] in E. rewrite E.
      rewrite Nat.add_1_r. reflexivity.
    - assert (f = true) as -> by (apply FF; auto). rewrite L, (file_written _ _ _ _ _ CA). rewrite Nat.add_1_r. reflexivity.
  Qed.

  (** ** Keywords *)
  Notation tabs := (tables have_pcre compile lines acl_by_name parse_acl pem_x509).
  Notation txt := (text tabs (fun _ => None) false).
  Notation stmt := (statement tabs (fun _ => None) false).

  Lemma ci_same : forall n k w, same_word k w -> ci_eqb n w = ci_eqb n k.
  Proof.
    intros n k w S. destruct (ci_eqb n w) eqn:A, (ci_eqb n k) eqn:B; try reflexivity.
    - apply ci_eqb_eq in A. assert (X : ci_eqb n k = true) by (apply ci_eqb_eq; unfold same_word in S; congruence). congruence.
    - apply ci_eqb_eq in B. assert (X : ci_eqb n w = true) by (apply ci_eqb_eq; unfold same_word in S; congruence). congruence.
  Qed.
  Lemma ci_same2 : forall n k w, same_word k w -> ci_eqb w n = ci_eqb k n.
  Proof.
    intros n k w S. destruct (ci_eqb w n) eqn:A, (ci_eqb k n) eqn:B; try reflexivity.
    - apply ci_eqb_eq in A. assert (X : ci_eqb k n = true) by (apply ci_eqb_eq; unfold same_word in S; congruence). congruence.
    - apply ci_eqb_eq in B. assert (X : ci_eqb w n = true) by (apply ci_eqb_eq; unfold same_word in S; congruence). congruence.
  Qed.
  Lemma find_same : forall (tab : list (entry conf)) k w, same_word k w -> parser_find tab w = parser_find tab k.
  Proof.
    intros tab k w S. unfold parser_find. rewrite !(find_written _ _ _ _ (written_write _ tab None)).
    induction (write conf None tab) as [|l ls IH]; [reflexivity|]. cbn [look]. rewrite (ci_same _ _ _ S), IH. reflexivity.
  Qed.

  Definition has (t : nat) (k : bytes) (a : action conf) (wh : Z) : Prop := exists d, parser_find (tabs t) k = Found a wh d.
  Lemma has_means : forall t k a wh w, has t k a wh -> same_word k w -> exists d, means (tabs t) w a wh d.
  Proof. intros t k a wh w (d & H) S. exists d. apply find_means. rewrite (find_same _ _ _ S). exact H. Qed.

  (** The keywords of a condition and what they stand for *)
  Definition act (x : cexp) : action conf :=
    match x with
    | XKind (K_QUERY_PARAM _) _ _ => named have_pcre compile lines K_QUERY_PARAM
    | XKind (K_STRING_MATCH _) _ _ => named have_pcre compile lines K_STRING_MATCH
    | XKind k _ _ => simple have_pcre compile lines k
    | XDeny _ _ => head_deny have_pcre compile lines
    | XAcl _ | XAclHere _ => acl_cond acl_by_name parse_acl
    | XAuth _ => basic_auth
    | XCert _ => client_cert pem_x509
    | XGroup _ _ => match_block
    | XNot _ => not_cond
    end.
  Inductive kw_of : cexp -> bytes -> Prop :=
  | ko_kind : forall k opts text kw args, keyword k kw args -> kw_of (XKind k opts text) kw
  | ko_deny : forall opts text, kw_of (XDeny opts text) (lit "HeadDeny")
  | ko_acl : forall n, kw_of (XAcl n) (lit "ACL")
  | ko_acl_here : forall ts, kw_of (XAclHere ts) (lit "ACL")
  | ko_auth : forall f, kw_of (XAuth f) (lit "BasicAuth")
  | ko_cert : forall f, kw_of (XCert f) (lit "ClientCert")
  | ko_group : forall g l, kw_of (XGroup g l) (lit "Match")
  | ko_not : forall x, kw_of (XNot x) (lit "NOT").
  Definition knows (t : nat) (wh : Z) (x : cexp) (kw : bytes) : Prop := has t kw (act x) wh.
  Inductive cond_table : nat -> Z -> Prop :=
  | ct_rule : cond_table T_RULE COND | ct_else : cond_table T_ELSE COND | ct_negate : cond_table T_NEGATE 0%Z
  | ct_logcon : cond_table T_LOGCON 0%Z | ct_service : cond_table T_SERVICE SVC_COND.
  Lemma knows_all : forall t wh x kw, cond_table t wh -> kw_of x kw -> knows t wh x kw.
  Proof.
    intros t wh x kw T K. unfold knows, has. destruct T, K as [k opts text kw args K| | | | | | | ]; try (eexists; reflexivity);
      destruct K; eexists; reflexivity.
  Qed.

  (** ** Conditions *)
  Notation says := (says have_pcre compile lines acl_by_name parse_acl pem_x509).
  Notation says_all := (says_all have_pcre compile lines acl_by_name parse_acl pem_x509).

  Lemma put_dfl : forall wh k c c1, put_cond wh k c = Some c1 -> c_dfl c1 = c_dfl c.
  Proof.
    intros wh k c c1 E. unfold put_cond in E. destruct (c_stack c) as [|[op l|cs ops e r|n cs rq rs|l] s]; try discriminate;
      (destruct (Z.eqb _ _); [|discriminate]); injection E as <-; reflexivity.
  Qed.
  Lemma conf_eta : forall c, with_stack c (c_stack c) = c.
  Proof. intros []. reflexivity. Qed.

  (** A condition other than a negation is a statement that adds it *)
  Definition reads_stmt (x : cexp) (ts : list tok) (d : defaults) (k : cond) : Prop :=
    exists w ts' kw, ts = LexSpec.Ident w :: ts' /\ same_word kw w /\ kw_of x kw /\
      forall wh c c1 rest, c_dfl c = d -> put_cond wh k c = Some c1 -> stmt (act x) wh c (ts' ++ rest) c1 rest.
  Definition reads_not (x : cexp) (ts : list tok) (d : defaults) (k : cond) : Prop :=
    exists w ts' k0, ts = LexSpec.Ident w :: ts' /\ same_word (lit "NOT") w /\ k = COND_BOOL BOOL_NOT [k0] /\
      forall c rest, c_dfl c = d -> txt T_NEGATE true false (enter (FBool BOOL_NOT []) c) (ts' ++ Newline :: rest) Single (enter (FBool BOOL_NOT [k0]) c) rest.
  Definition is_not (x : cexp) : bool := match x with XNot _ => true | _ => false end.
  Definition reads (x : cexp) (ts : list tok) (d : defaults) (k : cond) : Prop :=
    if is_not x then reads_not x ts d k else reads_stmt x ts d k.

  Lemma line_reads : forall x ts d k t wh, reads x ts d k ->
    (forall kw w ts', ts = LexSpec.Ident w :: ts' -> same_word kw w -> kw_of x kw -> knows t wh x kw) ->
    forall me c c1 rest h c' r, c_dfl c = d -> put_cond wh k c = Some c1 -> txt t false me c1 rest h c' r -> txt t false me c (ts ++ Newline :: rest) h c' r.
  Proof.
    intros x ts d k t wh R K me c c1 rest h c' r D P T. unfold reads in R. destruct (is_not x) eqn:N.
    - destruct R as (w & ts' & k0 & -> & W & -> & R). destruct x; try discriminate. specialize (K _ _ _ eq_refl W (ko_not x)).
      destruct (has_means _ _ _ _ _ K W) as (dp & M). cbn [app]. unfold act, not_cond in M.
      eapply t_one; [exact M|reflexivity|apply R; exact D|].
      assert (EQ : leave_bool wh (enter (FBool BOOL_NOT [k0]) c) = Some c1) by (unfold leave_bool, enter; cbn [c_stack with_stack]; destruct c; exact P).
      cbv beta. rewrite EQ. exact T.
    - destruct R as (w & ts' & kw & -> & W & KW & R). destruct (has_means _ _ _ _ _ (K _ _ _ eq_refl W KW) W) as (dp & M). cbn [app].
      eapply t_statement; [exact M|reflexivity|apply R; eassumption|left; reflexivity|exact T].
  Qed.

  Lemma read_stmt : forall f wh c ts rest c1 n, f wh c (ts ++ rest) = Some (c1, n) -> n = length ts -> stmt (Read f) wh c (ts ++ rest) c1 rest.
  Proof.
    intros f wh c ts rest c1 n E ->. pose proof (s_read _ tabs (fun _ => None) false f wh c (ts ++ rest) c1 (length ts) E) as H.
    rewrite skipn_len in H. exact H.
  Qed.

  Lemma all_tables : forall x t wh, cond_table t wh -> forall kw, kw_of x kw -> knows t wh x kw.
  Proof. intros x t wh T kw K. apply knows_all; assumption. Qed.

  Lemma conditions_read :
    (forall x ts, prints x ts -> forall d k, says d x k -> reads x ts d k) /\
    (forall l ts, prints_all l ts -> forall d cs, says_all d l cs -> forall op l0 s me rest h c' r,
       txt T_LOGCON false me (mkConf (FBool op (l0 ++ cs) :: s) d) rest h c' r -> txt T_LOGCON false me (mkConf (FBool op l0 :: s) d) (ts ++ rest) h c' r).
  Proof.
    apply prints_mut.
    - intros k opts text kw args t ts KW [w W] P d x S. inversion S as [k' opts' text' x' KS| | | | | | | ]; subst. unfold reads. cbn [is_not].
      exists w, (map (fun s => LexSpec.Quoted s) args ++ ts), kw. split; [reflexivity|]. split; [exact W|]. split; [econstructor; exact KW|].
      intros wh c c1 rest D PC. destruct KW; cbn [act map app];
        try (apply (read_stmt _ _ _ ts rest c1 (length ts)); [|reflexivity]; rewrite (kind_written _ _ _ _ _ _ KS P _ _ D); unfold put_read; rewrite PC; reflexivity).
      + change (LexSpec.Quoted n :: ts ++ rest) with ((LexSpec.Quoted n :: ts) ++ rest).
        apply (read_stmt _ _ _ (LexSpec.Quoted n :: ts) rest c1 (1 + length ts)); [|reflexivity]. cbn [app].
        rewrite (kind_written _ _ _ _ _ _ KS P _ _ D). unfold put_read, more. rewrite PC. reflexivity.
      + change (LexSpec.Quoted s :: ts ++ rest) with ((LexSpec.Quoted s :: ts) ++ rest).
        apply (read_stmt _ _ _ (LexSpec.Quoted s :: ts) rest c1 (1 + length ts)); [|reflexivity]. cbn [app].
        rewrite (kind_written _ _ _ _ _ _ KS P _ _ D). unfold put_read, more. rewrite PC. reflexivity.
    - intros opts text t ts [w W] P d x S. inversion S as [|opts' text' x' KS| | | | | | ]; subst. unfold reads. cbn [is_not].
      exists w, ts, (lit "HeadDeny"). split; [reflexivity|]. split; [exact W|]. split; [constructor|]. intros wh c c1 rest D PC. cbn [act].
      apply (read_stmt _ _ _ ts rest c1 (length ts)); [|reflexivity]. rewrite (kind_written _ _ _ _ _ _ KS P _ _ D). cbn [negated]. unfold put_read. rewrite PC. reflexivity.
    - intros n t [w W] d x S. inversion S as [| |n' a A| | | | | ]; subst. exists w, [LexSpec.Quoted n], (lit "ACL").
      split; [reflexivity|]. split; [exact W|]. split; [constructor|]. intros wh c c1 rest D PC.
      apply (read_stmt _ _ _ [LexSpec.Quoted n] rest c1 1); [|reflexivity]. cbn [app]. rewrite A. unfold put_read. rewrite PC. reflexivity.
    - intros t ts [w W] d x S. inversion S as [| | |ts' a A| | | | ]; subst. exists w, (Newline :: ts), (lit "ACL").
      split; [reflexivity|]. split; [exact W|]. split; [constructor|]. intros wh c c1 rest D PC.
      apply (read_stmt _ _ _ (Newline :: ts) rest c1 (length (Newline :: ts))); [|reflexivity]. cbn [app] in *. rewrite (A rest). unfold put_read. rewrite PC. reflexivity.
    - intros f t [w W] d x S. inversion S as [| | | |f'| | | ]; subst. exists w, [LexSpec.Quoted f], (lit "BasicAuth").
      split; [reflexivity|]. split; [exact W|]. split; [constructor|]. intros wh c c1 rest D PC.
      apply (read_stmt _ _ _ [LexSpec.Quoted f] rest c1 1); [|reflexivity]. cbn [app]. unfold put_read. rewrite PC. reflexivity.
    - intros f t [w W] d x S. inversion S as [| | | | |f' y Y| | ]; subst. exists w, [LexSpec.Quoted f], (lit "ClientCert").
      split; [reflexivity|]. split; [exact W|]. split; [constructor|]. intros wh c c1 rest D PC.
      apply (read_stmt _ _ _ [LexSpec.Quoted f] rest c1 1); [|reflexivity]. cbn [app]. rewrite Y. unfold put_read. rewrite PC. reflexivity.
    - intros g l t ts body e [w W] G _ IH [we WE] d x S. inversion S as [| | | | | |g' l' cs SA| ]; subst.
      exists w, (ts ++ Newline :: body ++ [LexSpec.Ident we]), (lit "Match").
      split; [reflexivity|]. split; [exact W|]. split; [constructor|]. intros wh c c1 rest D PC. cbn [act]. unfold match_block.
      set (op := match g with G_or => BOOL_OR | _ => BOOL_AND end) in *.
      rewrite <- app_assoc. cbn [app]. rewrite <- app_assoc. cbn [app].
      assert (O : exists n, (match ts ++ Newline :: body ++ LexSpec.Ident we :: rest with
                         | LexSpec.Ident w :: _ =>
                             if ci_eqb w (lit "and") then Some (enter (FBool BOOL_AND []) c, 1)
                             else if ci_eqb w (lit "or") then Some (enter (FBool BOOL_OR []) c, 1) else None
                         | _ :: _ => Some (enter (FBool BOOL_AND []) c, 0)
                         | [] => None
                         end) = Some (enter (FBool op []) c, n) /\ skipn n (ts ++ Newline :: body ++ LexSpec.Ident we :: rest) = Newline :: body ++ LexSpec.Ident we :: rest).
      { destruct G as [|k [w' W']|k [w' W']]; cbn [app].
        - exists 0. split; reflexivity.
        - exists 1. split; [|reflexivity]. replace (ci_eqb w' (lit "and")) with true; [reflexivity|]. symmetry. apply ci_eqb_eq. symmetry. exact W'.
        - exists 1. split; [|reflexivity]. replace (ci_eqb w' (lit "or")) with true by (symmetry; apply ci_eqb_eq; symmetry; exact W').
          replace (ci_eqb w' (lit "and")) with false; [reflexivity|]. symmetry. destruct (ci_eqb w' (lit "and")) eqn:X; [|reflexivity].
          apply ci_eqb_eq in X. unfold same_word in W'. rewrite <- W' in X. vm_compute in X. discriminate X. }
      destruct O as (n & O1 & O2).
      refine (s_block _ tabs (fun _ => None) false _ _ true _ wh c _ _ n Ended _ rest _ O1 _ _).
      + rewrite O2. apply t_blank. unfold enter, with_stack. rewrite D. apply (IH _ _ SA op [] (c_stack c)). cbn [app].
        destruct (has_means T_LOGCON (lit "End") End 0%Z we) as (dp & M); [eexists; reflexivity|exact WE|]. apply (t_end _ tabs _ _ _ _ _ _ _ _ _ _ M). reflexivity.
      + unfold leave_bool. cbn [c_stack]. replace (with_stack _ (c_stack c)) with c by (destruct c; unfold with_stack; cbn in D |- *; subst; reflexivity). exact PC.
    - intros x t ts [w W] NN P IH d k S. inversion S as [| | | | | | |x' k0 S0]; subst. unfold reads. cbn [is_not]. exists w, ts, k0.
      split; [reflexivity|]. split; [exact W|]. split; [reflexivity|]. intros c rest D. specialize (IH d k0 S0). unfold reads in IH.
      destruct (is_not x) eqn:N; [destruct x; try discriminate; exfalso; eapply NN; reflexivity|].
      destruct IH as (w' & ts' & kw & -> & W' & KW & R). cbn [app].
      destruct (has_means _ _ _ _ _ (all_tables x _ _ ct_negate _ KW) W') as (dp & M).
      eapply t_single; [exact M|reflexivity|apply R; [exact D|reflexivity]|left; reflexivity].
    - intros d cs S op l0 s me rest h c' r T. inversion S; subst. rewrite app_nil_r in T. exact T.
    - intros l ts _ IH d cs S op l0 s me rest h c' r T. cbn [app]. apply t_blank. eapply IH; eassumption.
    - intros x l ts ts' _ IH1 _ IH2 d cs S op l0 s me rest h c' r T. inversion S as [|x' l' k ks S1 S2]; subst.
      rewrite <- app_assoc. cbn [app].
      eapply line_reads; [apply IH1; exact S1|intros kw w q _ _ K; apply (all_tables x _ _ ct_logcon _ K)|reflexivity|reflexivity|].
      unfold with_stack. cbn [c_dfl]. apply (IH2 _ _ S2). rewrite <- app_assoc. exact T.
  Qed.

  (** ** Modifications *)
  Notation says_op := (says_op have_pcre compile).
  Definition op_act (m : mstmt) : action conf :=
    match m with
    | M_header _ => set_op REWRITE_HDR_SET
    | M_delete _ _ => delete_header have_pcre compile
    | M_url _ => set_op REWRITE_URL_SET
    | M_path _ => set_op REWRITE_PATH_SET
    | M_query _ => set_op REWRITE_QUERY_SET
    | M_param _ _ => set_param
    end.
  Definition op_kw (m : mstmt) : bytes :=
    match m with
    | M_header _ => lit "SetHeader" | M_delete _ _ => lit "DeleteHeader" | M_url _ => lit "SetURL"
    | M_path _ => lit "SetPath" | M_query _ => lit "SetQuery" | M_param _ _ => lit "SetQueryParam"
    end.
  Lemma op_reads : forall m ts d o, prints_op m ts -> says_op d m o ->
    exists w ts', ts = LexSpec.Ident w :: ts' /\ same_word (op_kw m) w /\
      forall wh c c1 rest, c_dfl c = d -> put_op wh o c = Some c1 -> stmt (op_act m) wh c (ts' ++ rest) c1 rest.
  Proof.
    intros m ts d o P S. destruct P as [s t [w W]|opts text t ts [w W] P|s t [w W]|s t [w W]|s t [w W]|n v t [w W]];
      (inversion S as [s'|opts' text' ty fl re CH NF C|s'|s'|s'|n' v']; subst); (eexists w, _; split; [reflexivity|]; split; [exact W|]);
      intros wh c c1 rest D PC; cbn [op_act];
      try (apply (read_stmt _ _ _ [LexSpec.Quoted s] rest c1 1); [|reflexivity]; cbn [app]; unfold put_op_read; rewrite PC; reflexivity).
    - apply (read_stmt _ _ _ ts rest c1 (length ts)); [|reflexivity]. destruct P as [ws W']. unfold parse_regex_compat.
      rewrite <- app_assoc. cbn [app].
      destruct (mode_written false (re_type (c_dfl c)) ws opts text W' (fun _ => NF) (re_type (c_dfl c)) (mkFlags (ignore_case (c_dfl c)) false) false ty fl rest) as (f & M & _).
      { rewrite D. exact CH. }
      rewrite M, skipn_literals, C. unfold put_op_read. rewrite PC. rewrite app_length, map_length. cbn [length]. rewrite Nat.add_1_r. reflexivity.
    - apply (read_stmt _ _ _ [LexSpec.Quoted n; LexSpec.Quoted v] rest c1 2); [|reflexivity]. cbn [app]. unfold put_op_read. rewrite PC. reflexivity.
  Qed.

  (** ** Rules *)
  Notation says_body := (says_body have_pcre compile lines acl_by_name parse_acl pem_x509).
  Notation says_items := (says_items have_pcre compile lines acl_by_name parse_acl pem_x509).

  Inductive rule_table : nat -> bool -> bool -> nat -> nat -> Prop :=    (* responses, Else, nested rule, its Else *)
  | rt_rule : rule_table T_RULE false false T_RULE T_ELSE
  | rt_else : rule_table T_ELSE false true T_RULE T_ELSE
  | rt_response : rule_table T_RESPONSE true false T_RESPONSE T_RESPONSE_ELSE
  | rt_response_else : rule_table T_RESPONSE_ELSE true true T_RESPONSE T_ELSE.
  Definition hr_free (ts : list tok) : Prop := forall w, In (LexSpec.Ident w) ts -> ~ same_word (lit "HeadRequire") w.
  Lemma hr_app : forall a b, hr_free (a ++ b) -> hr_free a /\ hr_free b.
  Proof. intros a b H. split; intros w I; apply H, in_or_app; auto. Qed.
  Lemma hr_cons : forall a b, hr_free (a :: b) -> hr_free b.
  Proof. intros a b H w I. apply H. right. exact I. Qed.

  Lemma rule_knows : forall t resp el s e x ts kw w ts', rule_table t resp el s e -> (resp = true -> for_response (RS_cond x) /\ hr_free ts) ->
    ts = LexSpec.Ident w :: ts' -> same_word kw w -> kw_of x kw -> knows t COND x kw.
  Proof.
    intros t resp el s e x ts kw w ts' T R -> W K. destruct T; try (apply knows_all; [constructor|exact K]);
      (destruct (R eq_refl) as [F H]; inversion F; subst; inversion K as [k o tx kw' args KW| | | | | | | ]; subst; unfold knows, has;
       [inversion KW; subst; try (eexists; reflexivity); exfalso; apply (H w); [left; reflexivity|exact W]|
        inversion KW; subst; eexists; reflexivity | eexists; reflexivity | eexists; reflexivity]).
  Qed.
  Lemma rule_op : forall t resp el s e m, rule_table t resp el s e -> (resp = true -> for_response (RS_op m)) -> has t (op_kw m) (op_act m) OPHEAD.
  Proof.
    intros t resp el s e m T R. unfold has. destruct T; try (destruct m; eexists; reflexivity);
      (specialize (R eq_refl); inversion R; subst; eexists; reflexivity).
  Qed.
  Lemma rule_sub : forall t resp el s e, rule_table t resp el s e -> has t (lit "Rewrite") (sub_rewrite s) OPHEAD /\ has t (lit "Else") (else_block e) IFFALSE /\
    has t (lit "End") (if el then EndElse else End) 0%Z /\
    (exists s' e', rule_table s resp false s' e') /\ (exists resp' s' e', rule_table e resp' true s' e' /\ (resp = false -> resp' = false)).
  Proof.
    intros t resp el s e T. destruct T; (split; [eexists; reflexivity|]; split; [eexists; reflexivity|]; split; [eexists; reflexivity|]; split).
    - eexists _, _. constructor.
    - eexists _, _, _. split; [constructor|auto].
    - eexists _, _. constructor.
    - eexists _, _, _. split; [constructor|auto].
    - eexists _, _. constructor.
    - eexists _, _, _. split; [constructor|auto].
    - eexists _, _. constructor.
    - eexists _, _, _. split; [apply rt_else|auto].
  Qed.

  Definition adds (d : defaults) (cs : list cond) (ops : list rop) (t : nat) (before after : list tok) : Prop :=
    forall me cs0 ops0 e r0 stk h c' r, txt t false me (mkConf (FRule (cs0 ++ cs) (ops0 ++ ops) e r0 :: stk) d) after h c' r ->
      txt t false me (mkConf (FRule cs0 ops0 e r0 :: stk) d) before h c' r.

  Lemma bodies_read :
    (forall s ts, prints_rstmt s ts -> forall d cs ops, says_items d [s] cs ops -> forall t resp el st et, rule_table t resp el st et ->
       (resp = true -> for_response s /\ hr_free ts) -> forall rest, adds d cs ops t (ts ++ Newline :: rest) rest) /\
    (forall b ts, prints_body b ts -> forall d r, says_body d b r -> forall t resp el st et, rule_table t resp el st et ->
       (resp = true -> body_for_response b /\ hr_free ts) -> forall we me r0 stk rest, same_word (lit "End") we ->
       exists cs ops els, r = rule cs ops els /\
         txt t false me (mkConf (FRule [] [] None r0 :: stk) d) (ts ++ LexSpec.Ident we :: rest) Ended
           (mkConf (FRule cs ops els r0 :: stk) d) (if el then Newline :: LexSpec.Ident we :: rest else rest)) /\
    (forall l ts, prints_items l ts -> forall d cs ops, says_items d l cs ops -> forall t resp el st et, rule_table t resp el st et ->
       (resp = true -> items_for_response l /\ hr_free ts) -> forall rest, adds d cs ops t (ts ++ rest) rest).
  Proof.
    apply body_mut.
    - intros x ts P d cs ops S t resp el st et T R rest me cs0 ops0 e r0 stk h c' r X.
      inversion S as [|x' l' c cs' ops' S1 S2| | ]; subst. inversion S2; subst.
      eapply (line_reads x ts d c t COND); [apply (proj1 conditions_read _ _ P _ _ S1)| |reflexivity|reflexivity|].
      + intros kw w ts' E W K. eapply rule_knows; eassumption.
      + unfold with_stack. cbn [c_dfl]. rewrite app_nil_r in X. exact X.
    - intros m ts P d cs ops S t resp el st et T R rest me cs0 ops0 e r0 stk h c' r X.
      inversion S as [| |m' l' o cs' ops' S1 S2| ]; subst. inversion S2; subst.
      destruct (op_reads _ _ _ _ P S1) as (w & ts' & -> & W & Q).
      destruct (has_means _ _ _ _ _ (rule_op _ _ _ _ _ m T (fun E => proj1 (R E))) W) as (dp & M). cbn [app].
      eapply t_statement; [exact M|reflexivity|apply Q; [reflexivity|reflexivity]|left; reflexivity|].
      unfold with_stack. cbn [c_dfl]. rewrite app_nil_r in X. exact X.
    - intros b t ts e [w W] PB IH [we WE] d cs ops S tb resp el st et T R rest me cs0 ops0 e0 r0 stk h c' r X.
      inversion S as [| | |b' l' r1 cs' ops' S1 S2]; subst. inversion S2; subst.
      destruct (rule_sub _ _ _ _ _ T) as (H1 & _ & _ & (s' & e' & T1) & _). destruct (has_means _ _ _ _ _ H1 W) as (dp & M).
      destruct (IH _ _ S1 _ _ _ _ _ T1) with (we := we) (me := false) (r0 := false) (stk := FRule cs0 ops0 e0 r0 :: stk) (rest := Newline :: rest) as (cs1 & ops1 & els & -> & B).
      { intros E. destruct (R E) as [F H]. inversion F; subst. split; [assumption|]. apply hr_cons, hr_cons, hr_app in H. apply H. }
      { exact WE. }
      cbn [app]. rewrite <- app_assoc. cbn [app].
      eapply t_statement; [exact M|reflexivity| |left; reflexivity|].
      + unfold sub_rewrite. eapply s_block; [reflexivity|cbn [skipn]; apply t_blank; exact B|reflexivity].
      + unfold with_stack. cbn [c_dfl]. rewrite app_nil_r in X. exact X.
    - intros l ts PI IH d r S t resp el st et T R we me r0 stk rest WE. inversion S as [l' cs ops S1|]; subst.
      exists cs, ops, None. split; [reflexivity|]. eapply (IH _ _ _ S1 _ _ _ _ _ T).
      { intros E. destruct (R E) as [F H]. inversion F; subst. auto. }
      cbn [app]. destruct (rule_sub _ _ _ _ _ T) as (_ & _ & H1 & _). destruct (has_means _ _ _ _ _ H1 WE) as (dp & M).
      destruct el; [eapply t_end_else|eapply t_end]; [exact M|reflexivity|exact M|reflexivity].
    - intros l ts t b ts' PI IH [w W] PB IHB d r S tb resp el st et T R we me r0 stk rest WE. inversion S as [|l' cs ops b' r1 S1 S2]; subst.
      destruct (rule_sub _ _ _ _ _ T) as (_ & H1 & H2 & _ & (resp' & s' & e' & T1 & RR)).
      assert (RB : resp' = true -> body_for_response b /\ hr_free ts').
      { intros E. destruct resp; [|rewrite RR in E by reflexivity; discriminate]. destruct (R eq_refl) as [F H]. inversion F; subst.
        split; [assumption|]. apply hr_app in H. destruct H as [_ H]. apply hr_cons, hr_cons in H. exact H. }
      destruct (IHB _ _ S2 _ _ _ _ _ T1 RB we false false (FRule cs ops None r0 :: stk) rest WE) as (cs1 & ops1 & els & -> & B).
      exists cs, ops, (Some (rule cs1 ops1 els)). split; [reflexivity|]. rewrite <- app_assoc. cbn [app].
      eapply (IH _ _ _ S1 _ _ _ _ _ T).
      { intros E. destruct (R E) as [F H]. inversion F; subst. apply hr_app in H. split; [assumption|apply H]. }
      cbn [app]. destruct (has_means _ _ _ _ _ H1 W) as (dp & M). destruct (has_means _ _ _ _ _ H2 WE) as (dp2 & M2).
      eapply t_statement; [exact M|reflexivity| |left; reflexivity|].
      + unfold else_block. eapply s_block; [reflexivity|cbn [skipn]; apply t_blank; exact B|reflexivity].
      + unfold with_stack. cbn [c_dfl]. destruct el; [eapply t_end_else|eapply t_end]; [exact M2|reflexivity|exact M2|reflexivity].
    - intros d cs ops S t resp el st et T R rest me cs0 ops0 e r0 stk h c' r X. inversion S; subst. rewrite !app_nil_r in X. exact X.
    - intros l ts P IH d cs ops S t resp el st et T R rest me cs0 ops0 e r0 stk h c' r X. cbn [app]. apply t_blank.
      eapply IH; [exact S|exact T| |exact X]. intros E. destruct (R E) as [F H]. split; [exact F|]. apply hr_cons in H. exact H.
    - intros s l ts ts' P1 IH1 P2 IH2 d cs ops S t resp el st et T R rest me cs0 ops0 e r0 stk h c' r X. rewrite <- app_assoc. cbn [app].
      assert (SP : exists cs1 ops1 cs2 ops2, cs = cs1 ++ cs2 /\ ops = ops1 ++ ops2 /\ says_items d [s] cs1 ops1 /\ says_items d l cs2 ops2).
      { inversion S as [|x l' c cs' ops' S1 S2|m l' o cs' ops' S1 S2|b l' r1 cs' ops' S1 S2]; subst.
        - exists [c], [], cs', ops. split; [reflexivity|]. split; [reflexivity|]. split; [constructor; [exact S1|constructor]|exact S2].
        - exists [], [o], cs, ops'. split; [reflexivity|]. split; [reflexivity|]. split; [constructor; [exact S1|constructor]|exact S2].
        - exists [], [REWRITE_REWRITE_RULE r1], cs, ops'. split; [reflexivity|]. split; [reflexivity|]. split; [constructor; [exact S1|constructor]|exact S2]. }
      destruct SP as (cs1 & ops1 & cs2 & ops2 & -> & -> & S1 & S2).
      eapply IH1; [exact S1|exact T| |].
      { intros E. destruct (R E) as [F H]. inversion F; subst. apply hr_app in H. split; [assumption|apply H]. }
      eapply IH2; [exact S2|exact T| |].
      { intros E. destruct (R E) as [F H]. inversion F; subst. apply hr_app in H. destruct H as [_ H]. apply hr_cons in H. split; assumption. }
      rewrite <- !app_assoc. exact X.
  Qed.

  (** ** The effect of grouping modifications *)
  Definition conj_rule (r : rrule) : Prop := match r with RRule (COND_BOOL BOOL_AND _) _ _ => True | _ => False end.

  (** The operations of a rule, as a function of their own *)
  Fixpoint op_run (e : env) (l : list rop) (res : Z) (p : phttp) : cres :=
    match l with
    | [] => CRes res p
    | o :: l' =>
        match match o with
              | REWRITE_REWRITE_RULE r => rewrite_rule_check e r p
              | _ => op_apply o res p
              end with
        | CRes res p => if Z.eqb res 0 then op_run e l' res p else CRes res p
        | x => x
        end
    end.
  Lemma check_uncond : forall e ops el p, rewrite_rule_check e (RRule (COND_BOOL BOOL_AND []) ops el) p = op_run e ops 0%Z p.
  Proof. intros e ops el p. cbn [rewrite_rule_check match_cond]. cbn [Z.eqb Pos.eqb].
    match goal with |- ?F ops 0%Z p = _ => enough (G : forall l z q, F l z q = op_run e l z q) by apply G end.
    clear p ops. induction l as [|o ops IH]; intros z p; [reflexivity|].
    cbn [op_run]. destruct (match o with REWRITE_REWRITE_RULE r => rewrite_rule_check e r p | _ => op_apply o z p end) as [r q|u]; [|reflexivity].
    destruct (Z.eqb r 0); [apply IH|reflexivity].
  Qed.
  Lemma op_run_app : forall e a b z p, op_run e (a ++ b) z p =
    match op_run e a z p with CRes r q => if Z.eqb r 0 then op_run e b r q else (match a with [] => op_run e b r q | _ => CRes r q end) | x => x end.
  Proof.
    intros e a b. induction a as [|o a IH]; intros z p.
    - cbn [app op_run]. destruct (Z.eqb z 0); reflexivity.
    - cbn [app op_run]. destruct (match o with REWRITE_REWRITE_RULE r => rewrite_rule_check e r p | _ => op_apply o z p end) as [r q|u]; [|reflexivity].
      destruct (Z.eqb r 0) eqn:R; [|rewrite R; reflexivity]. rewrite IH. destruct (op_run e a r q) as [r2 q2|u] eqn:A; [|reflexivity].
      destruct (Z.eqb r2 0) eqn:R2; [reflexivity|]. destruct a as [|o2 a]; [|reflexivity]. cbn in A. injection A as <- <-. congruence.
  Qed.
  Lemma apply_app : forall e a b p, rewrite_apply e (a ++ b) p =
    match rewrite_apply e a p with CRes r q => if Z.eqb r 0 then rewrite_apply e b q else CRes r q | x => x end.
  Proof.
    intros e a b. induction a as [|r a IH]; intros p; [reflexivity|]. cbn [app rewrite_apply].
    destruct (rewrite_rule_check e r p) as [z q|u]; [|reflexivity]. destruct (Z.eqb z 0) eqn:Z0; [apply IH|rewrite Z0; reflexivity].
  Qed.
  Lemma apply_one : forall e r p, rewrite_apply e [r] p = match rewrite_rule_check e r p with CRes z q => CRes z q | x => x end.
  Proof. intros e r p. cbn [rewrite_apply]. destruct (rewrite_rule_check e r p) as [z q|u]; [|reflexivity]. destruct (Z.eqb z 0) eqn:Z0; [apply Z.eqb_eq in Z0; subst|]; reflexivity. Qed.

  Lemma add_op_same : forall rs o, Forall conj_rule rs -> Forall conj_rule (add_op rs o) /\
    forall e p, rewrite_apply e (add_op rs o) p = rewrite_apply e (rs ++ [RRule (COND_BOOL BOOL_AND []) [o] None]) p.
  Proof.
    intros rs o F. unfold add_op. destruct (rev rs) as [|[c ops el] front] eqn:R.
    - assert (rs = []) as -> by (rewrite <- (rev_involutive rs), R; reflexivity). split; [repeat constructor|reflexivity].
    - assert (E : rs = rev front ++ [RRule c ops el]) by (rewrite <- (rev_involutive rs), R; reflexivity).
      destruct (empty_bool c) eqn:EB.
      + rewrite E in F |- *. apply Forall_app in F. destruct F as [F1 F2]. inversion F2 as [|x l C _]; subst.
        destruct c as [| | | | | | | | |op l|]; try discriminate. destruct l; [|discriminate]. cbn in C. destruct op; try contradiction.
        split; [apply Forall_app; split; [exact F1|]; repeat constructor|]. intros e p. rewrite <- app_assoc. cbn [app].
        rewrite !apply_app. destruct (rewrite_apply e (rev front) p) as [z q|u]; [|reflexivity]. destruct (Z.eqb z 0); [|reflexivity].
        change [RRule (COND_BOOL BOOL_AND []) ops el; RRule (COND_BOOL BOOL_AND []) [o] None] with ([RRule (COND_BOOL BOOL_AND []) ops el] ++ [RRule (COND_BOOL BOOL_AND []) [o] None]).
        rewrite apply_app, !apply_one, !check_uncond, op_run_app.
        destruct (op_run e ops 0 q) as [z2 q2|u] eqn:OR; [|reflexivity]. destruct (Z.eqb z2 0) eqn:Z2.
        * apply Z.eqb_eq in Z2. subst z2. rewrite apply_one, check_uncond. reflexivity.
        * destruct ops; [cbn in OR; injection OR as <- <-; discriminate Z2|reflexivity].
      + split; [apply Forall_app; split; [exact F|]; repeat constructor|reflexivity].
  Qed.

  (** ** Services *)
  Notation service_says := (service_says have_pcre compile lines acl_by_name parse_acl pem_x509).
  Notation file_says := (file_says have_pcre compile lines acl_by_name parse_acl pem_x509).

  Lemma bool_assign : forall b k, bool_word b k -> exists w, unquoted k = Some w /\ NumModel.cfg_assign_bool w = Some b.
  Proof.
    intros b k H. destruct H as [k w U I|k w U I]; exists w; (split; [exact U|]);
      (cbn [map In true_word false_word] in I; unfold true_word, false_word in I; cbn [map In] in I;
       decompose [or] I; try contradiction; subst w; vm_compute; reflexivity).
  Qed.

  Lemma ignore_reads : forall t w k b me stk d rest h c' r, has t (lit "IgnoreCase") ignore_case_stmt 0%Z -> same_word (lit "IgnoreCase") w -> bool_word b k ->
    txt t false me (mkConf stk (mkDfl (re_type d) b)) rest h c' r -> txt t false me (mkConf stk d) (LexSpec.Ident w :: k :: Newline :: rest) h c' r.
  Proof.
    intros t w k b me stk d rest h c' r H W B X. destruct (has_means _ _ _ _ _ H W) as (dp & M). destruct (bool_assign _ _ B) as (v & U & V).
    eapply t_statement; [exact M|reflexivity| |left; reflexivity|exact X].
    unfold ignore_case_stmt. apply (read_stmt _ _ _ [k] (Newline :: rest) _ 1); [|reflexivity]. cbn [app]. rewrite U, V. reflexivity.
  Qed.

  Lemma rule_conj : forall d b r, says_body d b r -> conj_rule r.
  Proof. intros d b r S. inversion S; subst; exact Logic.I. Qed.

  (** A Rewrite section of a service *)
  Lemma rewrite_reads : forall (resp : bool) b r d w kws ts we n cs0 rq0 rs0 stk me rest h c' rr,
    same_word (lit "Rewrite") w -> same_word (lit "End") we -> prints_body b ts -> says_body d b r ->
    (resp = true -> body_for_response b /\ hr_free ts) ->
    rewrite_word (kws ++ Newline :: ts ++ LexSpec.Ident we :: Newline :: rest) = Some (resp, length kws) ->
    txt T_SERVICE false me (mkConf ((if resp then FSvc n cs0 rq0 (rs0 ++ [r]) else FSvc n cs0 (rq0 ++ [r]) rs0) :: stk) d) rest h c' rr ->
    txt T_SERVICE false me (mkConf (FSvc n cs0 rq0 rs0 :: stk) d) (LexSpec.Ident w :: kws ++ Newline :: ts ++ LexSpec.Ident we :: Newline :: rest) h c' rr.
  Proof.
    intros resp b r d w kws ts we n cs0 rq0 rs0 stk me rest h c' rr W WE PB S R RW X.
    destruct (has_means T_SERVICE (lit "Rewrite") rewrite_block SVC_REWRITE w) as (dp & M); [eexists; reflexivity|exact W|].
    assert (T : exists st et, rule_table (if resp then T_RESPONSE else T_RULE) resp false st et) by (destruct resp; eexists _, _; constructor).
    destruct T as (st & et & T).
    destruct (proj1 (proj2 bodies_read) _ _ PB _ _ S _ _ _ _ _ T R we false resp (FSvc n cs0 rq0 rs0 :: stk) (Newline :: rest) WE) as (cs & ops & els & -> & B).
    eapply t_statement; [exact M|reflexivity| |left; reflexivity|exact X].
    unfold rewrite_block. eapply (s_block _ tabs (fun _ => None) false).
    - rewrite RW. reflexivity.
    - rewrite RW, skipn_len. unfold enter, with_stack. cbn [c_stack c_dfl]. apply t_blank. destruct resp; exact B.
    - cbn [c_stack]. replace (Z.eqb SVC_REWRITE SVC_REWRITE) with true by reflexivity. unfold with_stack. cbn [c_dfl]. reflexivity.
  Qed.

  Lemma service_reads : forall l ts, prints_service l ts -> forall d d' cs rq rs, service_says d l d' cs rq rs ->
    forall n cs0 rq0 rs0 stk me rest, Forall conj_rule rq0 -> exists rq1, Forall conj_rule rq1 /\
      (forall e p, rewrite_apply e rq1 p = rewrite_apply e (rq0 ++ rq) p) /\
      forall h c' r, txt T_SERVICE false me (mkConf (FSvc n (cs0 ++ cs) rq1 (rs0 ++ rs) :: stk) d') rest h c' r ->
        txt T_SERVICE false me (mkConf (FSvc n cs0 rq0 rs0 :: stk) d) (ts ++ rest) h c' r.
  Proof.
    intros l ts P. induction P as [|l ts P IH|s l ts ts' P1 P2 IH]; intros d d' cs rq rs S n cs0 rq0 rs0 stk me rest F.
    - inversion S; subst. exists rq0. split; [exact F|]. split; [intros; rewrite app_nil_r; reflexivity|]. intros h c' r X. rewrite !app_nil_r in X. exact X.
    - destruct (IH _ _ _ _ _ S n cs0 rq0 rs0 stk me rest F) as (rq1 & F1 & E1 & X1). exists rq1. split; [exact F1|]. split; [exact E1|].
      intros h c' r X. cbn [app]. apply t_blank, X1, X.
    - rewrite <- app_assoc. cbn [app].
      assert (RR : forall resp b w kws body we r cs2 rq2 rs2 dd, same_word (lit "Rewrite") w -> same_word (lit "End") we -> prints_body b body -> says_body d b r ->
                  ts = LexSpec.Ident w :: kws ++ Newline :: body ++ [LexSpec.Ident we] ->
                  (resp = true -> body_for_response b /\ hr_free body) ->
                  (forall rest, rewrite_word (kws ++ Newline :: rest) = Some (resp, length kws)) ->
                  service_says d l dd cs2 rq2 rs2 ->
                  exists rq1, Forall conj_rule rq1 /\ (forall e p, rewrite_apply e rq1 p = rewrite_apply e (rq0 ++ (if resp then rq2 else r :: rq2)) p) /\
                  forall h c' rr, txt T_SERVICE false me (mkConf (FSvc n (cs0 ++ cs2) rq1 (rs0 ++ (if resp then r :: rs2 else rs2)) :: stk) dd) rest h c' rr ->
                     txt T_SERVICE false me (mkConf (FSvc n cs0 rq0 rs0 :: stk) d) (ts ++ Newline :: ts' ++ rest) h c' rr).
      { intros resp b w kws body we r cs2 rq2 rs2 dd W WE PB SB -> R RW SS. destruct resp.
        - destruct (IH _ _ _ _ _ SS n cs0 rq0 (rs0 ++ [r]) stk me rest F) as (rq1 & F1 & E1 & X1).
          exists rq1. split; [exact F1|]. split; [exact E1|]. intros h c' rr X. cbn [app]. rewrite <- app_assoc. cbn [app]. rewrite <- app_assoc. cbn [app].
          eapply rewrite_reads; [exact W|exact WE|exact PB|exact SB|exact R|apply RW|]. cbv iota. apply X1. rewrite <- app_assoc. exact X.
        - destruct (IH _ _ _ _ _ SS n cs0 (rq0 ++ [r]) rs0 stk me rest) as (rq1 & F1 & E1 & X1).
          { apply Forall_app. split; [exact F|]. constructor; [eapply rule_conj; exact SB|constructor]. }
          exists rq1. split; [exact F1|]. split; [intros e p; rewrite E1, <- app_assoc; reflexivity|]. intros h c' rr X. cbn [app]. rewrite <- app_assoc. cbn [app]. rewrite <- app_assoc. cbn [app].
          eapply rewrite_reads; [exact W|exact WE|exact PB|exact SB|exact R|apply RW|]. cbv iota. apply X1. exact X. }
      destruct P1 as [x ts PX|m ts PM|b t ts e [w W] PB [we WE]|b t k ts e [w W] [wk WK] PB [we WE]|b t k ts e [w W] [wk WK] BR HR PB [we WE]|b t k [w W] BW].
      + inversion S as [|d0 x' l' d0' c cs2 rq2 rs2 S1 S2| | | | | ]; subst.
        destruct (IH _ _ _ _ _ S2 n (cs0 ++ [c]) rq0 rs0 stk me rest F) as (rq1 & F1 & E1 & X1). exists rq1. split; [exact F1|]. split; [exact E1|].
        intros h c' r X. eapply (line_reads x ts d c T_SERVICE SVC_COND); [apply (proj1 conditions_read _ _ PX _ _ S1)| |reflexivity|reflexivity|].
        * intros kw w q _ _ K. apply (all_tables x _ _ ct_service _ K).
        * unfold with_stack. cbn [c_dfl]. apply X1. rewrite <- app_assoc. exact X.
      + inversion S as [| |d0 m' l' d0' o cs2 rq2 rs2 S1 S2| | | | ]; subst. destruct (add_op_same rq0 o F) as [F0 E0].
        destruct (IH _ _ _ _ _ S2 n cs0 (add_op rq0 o) rs0 stk me rest F0) as (rq1 & F1 & E1 & X1). exists rq1. split; [exact F1|]. split.
        { intros ev p. rewrite E1, apply_app, E0, <- apply_app, <- app_assoc. reflexivity. }
        intros h c' r X. destruct (op_reads _ _ _ _ PM S1) as (w & q & -> & W & Q).
        destruct (has_means T_SERVICE (op_kw m) (op_act m) SVC_REWRITE w) as (dp & M); [destruct m; eexists; reflexivity|exact W|]. cbn [app].
        eapply t_statement; [exact M|reflexivity|apply Q; [reflexivity|reflexivity]|left; reflexivity|]. apply X1, X.
      + inversion S as [| | |d0 b' l' d0' r cs2 rq2 rs2 S1 S2| | | ]; subst.
        apply (RR false b w [] ts we r cs rq2 rs d'); try assumption; try reflexivity. discriminate.
      + inversion S as [| | | |d0 b' l' d0' r cs2 rq2 rs2 S1 S2| | ]; subst.
        apply (RR false b w [LexSpec.Ident wk] ts we r cs rq2 rs d'); try assumption; try reflexivity; [discriminate|].
        intros q. cbn [app rewrite_word length]. rewrite !(ci_same2 _ _ _ WK). reflexivity.
      + inversion S as [| | | | |d0 b' l' d0' r cs2 rq2 rs2 S1 S2| ]; subst.
        apply (RR true b w [LexSpec.Ident wk] ts we r cs rq rs2 d'); try assumption; try reflexivity; [intros _; split; assumption|].
        intros q. cbn [app rewrite_word length]. rewrite !(ci_same2 _ _ _ WK). reflexivity.
      + inversion S as [| | | | | |d0 b' l' d0' cs2 rq2 rs2 S2]; subst.
        destruct (IH _ _ _ _ _ S2 n cs0 rq0 rs0 stk me rest F) as (rq1 & F1 & E1 & X1). exists rq1. split; [exact F1|]. split; [exact E1|].
        intros h c' r X. cbn [app]. eapply ignore_reads; [eexists; reflexivity|exact W|exact BW|apply X1, X].
  Qed.

  (** ** The file *)
  Lemma names_free : forall w ss, ~ In (Some w) (map ps_name ss) -> name_used w ss = false.
  Proof.
    intros w ss N. unfold name_used. destruct (existsb _ ss) eqn:E; [|reflexivity]. exfalso. apply existsb_exists in E. destruct E as (s & I & E).
    destruct (ps_name s) as [n|] eqn:PN; [|discriminate]. apply bytes_eqb_eq in E. subst n. apply N. rewrite <- PN. apply in_map, I.
  Qed.
  Lemma file_reads : forall fs ts, prints_file fs ts -> forall d d' ss, file_says d fs d' ss ->
    forall ss0, NoDup (names fs) -> (forall w, In w (names fs) -> ~ In (Some w) (map ps_name ss0)) ->
    exists ss1, Forall2 same_service ss1 ss /\ txt T_TOP false false (mkConf [FTop ss0] d) ts AtEof (mkConf [FTop (ss0 ++ ss1)] d') [].
  Proof.
    intros fs ts P. induction P as [|fs ts P IH|name l t ts e fs ts' [w W] PS [we WE] P IH|b t k fs ts [w W] BW P IH]; intros d d' ss S ss0 ND NI.
    - inversion S; subst. exists []. split; [constructor|]. rewrite app_nil_r. constructor.
    - destruct (IH _ _ _ S ss0 ND NI) as (ss1 & F & X). exists ss1. split; [exact F|]. apply t_blank, X.
    - inversion S as [|d0 nm l' d1 cs rq rs fs' d2 ss' S1 S2|]; subst.
      destruct (service_reads _ _ PS _ _ _ _ _ S1 name [] [] [] [FTop ss0] true (LexSpec.Ident we :: Newline :: ts') (Forall_nil _)) as (rq1 & F1 & E1 & X1).
      cbn [app] in E1, X1.
      set (sv := mkPsvc name (COND_BOOL BOOL_AND cs) rq1 rs).
      assert (ND2 : NoDup (names fs)) by (cbn in ND; destruct name; [inversion ND; assumption|exact ND]).
      destruct (IH _ _ _ S2 (ss0 ++ [sv]) ND2) as (ss1 & F & X).
      { intros v I. rewrite map_app. intros J. apply in_app_or in J. destruct J as [J|[J|[]]].
        - apply (NI v); [cbn; destruct name; [right|]; exact I|exact J].
        - cbn [sv ps_name] in J. subst name. cbn [names] in ND. inversion ND; contradiction. }
      exists (sv :: ss1). split.
      { constructor; [|exact F]. split; [reflexivity|]. split; [reflexivity|]. split; [reflexivity|exact E1]. }
      destruct (has_means T_TOP (lit "Service") (service_block) 0%Z w) as (dp & M); [eexists; reflexivity|exact W|].
      rewrite <- app_assoc in X. cbn [app] in X.
      eapply t_statement; [exact M|reflexivity| |left; reflexivity|exact X].
      destruct (has_means T_SERVICE (lit "End") End 0%Z we) as (dp2 & M2); [eexists; reflexivity|exact WE|].
      assert (B : txt T_SERVICE false true (mkConf [FSvc name [] [] []; FTop ss0] d) (Newline :: ts ++ LexSpec.Ident we :: Newline :: ts') Ended (mkConf [FSvc name cs rq1 rs; FTop ss0] d1) (Newline :: ts')).
      { apply t_blank, X1. eapply t_end; [exact M2|reflexivity]. }
      unfold service_block. destruct name as [nm|]; cbn [app].
      + eapply s_block; [| |].
        * cbn [c_stack]. rewrite names_free by (apply NI; left; reflexivity). reflexivity.
        * cbn [skipn]. exact B.
        * reflexivity.
      + eapply s_block; [reflexivity| |].
        * cbn [skipn]. exact B.
        * reflexivity.
    - inversion S as [| |d0 b' fs' d2 ss' S2]; subst. destruct (IH _ _ _ S2 ss0 ND NI) as (ss1 & F & X). exists ss1. split; [exact F|].
      eapply ignore_reads; [eexists; reflexivity|exact W|exact BW|exact X].
  Qed.

  (** ** From the grammar to the parser: nothing is included *)
  Lemma no_recursion : forall n t one me c st, cfgparser tabs (fun _ => None) false n t one me c st <> Recursive.
  Proof.
    induction n as [|n IH]; intros t one me c st; [discriminate|]. rewrite parse_S.
    assert (AF : forall t one me c st, after conf tabs (fun _ => None) false n t one me c st <> Recursive).
    { intros t' one' me' c' st'. unfold after. destruct (gettkn st') as [[[]|] st1]; try discriminate; (destruct one'; [discriminate|apply IH]). }
    destruct (gettkn st) as [[[|w|w|v|w|]|] st1]; try apply IH; try discriminate.
    - destruct (parser_find (tabs t) w) as [a wh d| |]; try discriminate.
      + cbn [andb]. destruct a as [f|opening sub me' closing|opening sub closing| |]; try discriminate.
        * destruct (f wh c (flat st1)) as [[c1 k]|]; [apply AF|discriminate].
        * destruct (opening wh c (flat st1)) as [[c1 k]|]; [|discriminate].
          destruct (cfgparser tabs (fun _ => None) false n (sub (flat st1)) false me' c1 (skip k st1)) eqn:B; try discriminate; [|exfalso; exact (IH _ _ _ _ _ B)].
          destruct (closing wh c0); [apply AF|discriminate].
        * destruct (cfgparser tabs (fun _ => None) false n sub true false (opening wh c) st1) as [h2 c2 st2| | | |] eqn:B; try discriminate; [|exfalso; exact (IH _ _ _ _ _ B)].
          destruct h2; [apply AF|apply AF|apply IH].
      + destruct (negb one && ci_eqb (lit "Include") w); [|discriminate]. destruct (gettkn st1) as [[[]|] st2]; discriminate.
    - destruct me; discriminate.
  Qed.

  Lemma no_include : forall file n t one me c st h c' st', cfgparser tabs (fun _ => None) false n t one me c st = Accepted h c' st' ->
    cfgparser tabs file false n t one me c st = Accepted h c' st'.
  Proof.
    intros file. induction n as [|n IH]; intros t one me c st h c' st' E; [discriminate|]. rewrite parse_S in E. rewrite parse_S.
    assert (AF : forall t one me c st, after conf tabs (fun _ => None) false n t one me c st = Accepted h c' st' -> after conf tabs file false n t one me c st = Accepted h c' st').
    { intros t' one' me' c2 st2 A. unfold after in *. destruct (gettkn st2) as [[[]|] st1]; try discriminate; (destruct one'; [exact A|apply IH; exact A]). }
    destruct (gettkn st) as [[[|w|w|v|w|]|] st1]; try (apply IH; exact E); try exact E.
    destruct (parser_find (tabs t) w) as [a wh d| |]; try discriminate.
    - cbn [andb] in *. destruct a as [f|opening sub me' closing|opening sub closing| |]; try exact E.
      + destruct (f wh c (flat st1)) as [[c1 k]|]; [apply AF; exact E|discriminate].
      + destruct (opening wh c (flat st1)) as [[c1 k]|]; [|discriminate].
        destruct (cfgparser tabs (fun _ => None) false n (sub (flat st1)) false me' c1 (skip k st1)) as [h2 c2 st2| | | |] eqn:B; try discriminate.
        rewrite (IH _ _ _ _ _ _ _ _ B). destruct (closing wh c2); [apply AF; exact E|discriminate].
      + destruct (cfgparser tabs (fun _ => None) false n sub true false (opening wh c) st1) as [h2 c2 st2| | | |] eqn:B; try discriminate.
        rewrite (IH _ _ _ _ _ _ _ _ B). destruct h2; [apply AF; exact E|apply AF; exact E|apply IH; exact E].
    - destruct (negb one && ci_eqb (lit "Include") w); [|discriminate]. destruct (gettkn st1) as [[[]|] st2]; discriminate.
  Qed.

  Lemma services_accepted : forall fs ts d d' ss file name id, prints_file fs ts -> file_says d fs d' ss -> NoDup (names fs) -> file name = Some (id, ts) ->
    exists n ss1, Forall2 same_service ss1 ss /\ forall m, n <= m ->
      exists st, read_services have_pcre compile lines acl_by_name parse_acl pem_x509 file m d name = Accepted AtEof (mkConf [FTop ss1] d') st.
  Proof.
    intros fs ts d d' ss file name id P S ND FL. destruct (file_reads _ _ P _ _ _ S [] ND) as (ss1 & F & X); [intros w _ []|].
    destruct (complete conf tabs (fun _ => None) false _ _ _ _ _ _ _ _ X [(id, ts)]) as [(n & R)|(n & st & A & _)].
    - unfold flat. cbn. apply app_nil_r.
    - exfalso. exact (no_recursion _ _ _ _ _ _ R).
    - exists n, ss1. split; [exact F|]. intros m L. exists st. unfold read_services, cfgparser_parse. rewrite FL.
      eapply parse_le; [exact L| |discriminate]. apply no_include. exact A.
  Qed.
End Proofs.
