(** Lemmas: the conditions of an accepted file are well formed, and their truth. *)
From Coq Require Import Ascii String List ZArith Bool Arith Lia.
From Verif Require Import Bytes AclModel XpdModel CondModel CondSpec CfgModel CfgSpec CfgProofs RulModel RulSpec RulProofs.
From Verif Require Import FinProofs.
From Verif Require HostModel NumModel LexSpec.
Import ListNotations.
Local Open Scope nat_scope.

Section Form.
  Variable have_pcre : bool.
  Variable compile : gptype -> gpflags -> bytes -> option pattern.
  Variable lines : bytes -> option (list bytes).
  Variable acl_by_name : bytes -> option (list cidr).
  Variable parse_acl : list tok -> option (list cidr * nat).
  Variable pem_x509 : bytes -> option bytes.
  Notation tabs := (tables have_pcre compile lines acl_by_name parse_acl pem_x509).
  Notation not_cond := (RulModel.not_cond).
  Notation match_block := (RulModel.match_block).
  Variable file : bytes -> option (Z * list tok).
  Notation txt := (text tabs file false).
  Notation stmt := (statement tabs file false).

  (** ** Objects under construction *)
  Definition op_formed (o : rop) : Prop := forall r, o = REWRITE_REWRITE_RULE r -> formed_rule r.
  Definition good (f : frame) : Prop :=
    match f with
    | FBool _ l => Forall formed l
    | FRule cs ops e _ => Forall formed cs /\ Forall op_formed ops /\ (forall r, e = Some r -> formed_rule r)
    | FSvc _ cs rq rs => Forall formed cs /\ Forall formed_rule rq /\ Forall formed_rule rs
    | FTop l => Forall formed_service l /\ NoDup (service_names l)
    end.
  Definition shape (f f' : frame) : Prop :=
    match f, f' with
    | FBool op _, FBool op' _ => op = op'
    | FSvc n _ _ _, FSvc n' _ _ _ => n = n'
    | FRule _ _ _ _, FRule _ _ _ _ | FTop _, FTop _ => True
    | _, _ => False
    end.
  Definition flen (f : frame) : nat := match f with FBool _ l => length l | _ => 0 end.
  Definition fits (t : nat) (f : frame) : Prop :=
    match f with
    | FBool _ _ => t = 4 \/ t = 5
    | FRule _ _ _ _ => t < 4
    | FSvc _ _ _ _ => t = 6
    | FTop _ => t = 7
    end.
  Definition cplace (t : nat) : Z := match t with 4 | 5 => 0%Z | 6 => SVC_COND | _ => COND end.

  Lemma one_in : forall (A : Type) (P : A -> Prop) x, P x -> Forall P [x].
  Proof. intros A P x H. constructor; [exact H|constructor]. Qed.
  Lemma shape_refl : forall f, shape f f.
  Proof. intros []; cbn; auto. Qed.
  Lemma shape_trans : forall a b c, shape a b -> shape b c -> shape a c.
  Proof. intros [] [] []; cbn; intros; try contradiction; auto; congruence. Qed.
  Lemma shape_fits : forall t a b, shape a b -> fits t a -> fits t b.
  Proof. intros t [] []; cbn; intros; try contradiction; auto. Qed.

  Lemma formed_and : forall op cs, op <> BOOL_NOT -> Forall formed cs -> formed (COND_BOOL op cs).
  Proof. intros op cs N F. apply fm_group; assumption. Qed.
  Lemma rule_formed : forall cs ops e, Forall formed cs -> Forall op_formed ops -> (forall r, e = Some r -> formed_rule r) -> formed_rule (rule cs ops e).
  Proof.
    intros cs ops e F O E. unfold rule. constructor; [apply formed_and; [discriminate|exact F]| |exact E].
    intros r I. exact (proj1 (Forall_forall _ _) O _ I r eq_refl).
  Qed.

  Lemma put_cond_good : forall wh x c c1 f s, put_cond wh x c = Some c1 -> c_stack c = f :: s -> good f -> formed x ->
    exists f', c_stack c1 = f' :: s /\ shape f f' /\ good f' /\ flen f <= flen f' /\ (forall op l, f = FBool op l -> flen f < flen f').
  Proof.
    intros wh x c c1 f s P S G X. unfold put_cond in P. rewrite S in P. destruct f as [op l|cs ops e rr|n cs rq rs|l]; try discriminate.
    - destruct (Z.eqb wh 0); [|discriminate]. injection P as <-. exists (FBool op (l ++ [x])). cbn. rewrite app_length. cbn.
      repeat split; try lia. apply Forall_app. split; [exact G|apply one_in; exact X].
    - destruct (Z.eqb wh COND); [|discriminate]. injection P as <-. exists (FRule (cs ++ [x]) ops e rr). cbn. destruct G as (G1 & G2 & G3).
      split; [reflexivity|]. split; [trivial|]. split; [|split; [lia|discriminate]]. split; [|split; assumption]. apply Forall_app. split; [exact G1|apply one_in; exact X].
    - destruct (Z.eqb wh SVC_COND); [|discriminate]. injection P as <-. exists (FSvc n (cs ++ [x]) rq rs). cbn. destruct G as (G1 & G2 & G3).
      split; [reflexivity|]. split; [trivial|]. split; [|split; [lia|discriminate]]. split; [|split; assumption]. apply Forall_app. split; [exact G1|apply one_in; exact X].
  Qed.
  Lemma put_cond_total : forall t f s c x, c_stack c = f :: s -> fits t f -> t <> 7 -> exists c1, put_cond (cplace t) x c = Some c1.
  Proof.
    intros t f s c x S F N. unfold put_cond. rewrite S. destruct f as [op l|cs ops e rr|n cs rq rs|l]; cbn in F.
    - destruct F as [-> | ->]; eexists; reflexivity.
    - destruct t as [|[|[|[|t]]]]; [eexists; reflexivity..|lia].
    - subst t. eexists; reflexivity.
    - contradiction.
  Qed.
  Lemma add_op_formed : forall rq o, Forall formed_rule rq -> op_formed o -> Forall formed_rule (add_op rq o).
  Proof.
    intros rq o F O. unfold add_op. destruct (rev rq) as [|[c ops e] front] eqn:R.
    - constructor; [|constructor]. apply rule_formed; [constructor|apply one_in; exact O|discriminate].
    - assert (E : rq = rev front ++ [RRule c ops e]) by (rewrite <- (rev_involutive rq), R; reflexivity).
      destruct (empty_bool c) eqn:EB.
      + subst rq. apply Forall_app in F. destruct F as [F1 F2]. apply Forall_app. split; [exact F1|]. constructor; [|constructor].
        inversion F2 as [|y z H _]. subst. inversion H as [c0 ops0 e0 H1 H2 H3]. subst. constructor; [exact H1| |exact H3].
        intros r I. apply in_app_or in I. destruct I as [I|[I|[]]]; [apply H2, I|exact (O r I)].
      + apply Forall_app. split; [exact F|]. constructor; [|constructor]. apply rule_formed; [constructor|apply one_in; exact O|discriminate].
  Qed.
  Lemma put_op_good : forall wh o c c1 f s, put_op wh o c = Some c1 -> c_stack c = f :: s -> good f -> op_formed o ->
    exists f', c_stack c1 = f' :: s /\ shape f f' /\ good f' /\ flen f <= flen f' /\ (forall op l, f <> FBool op l).
  Proof.
    intros wh o c c1 f s P S G O. unfold put_op in P. rewrite S in P. destruct f as [op l|cs ops e rr|n cs rq rs|l]; try discriminate.
    - destruct (Z.eqb wh OPHEAD); [|discriminate]. injection P as <-. exists (FRule cs (ops ++ [o]) e rr). cbn. destruct G as (G1 & G2 & G3).
      split; [reflexivity|]. split; [trivial|]. split; [|split; [lia|discriminate]]. split; [exact G1|]. split; [|exact G3]. apply Forall_app. split; [exact G2|apply one_in; exact O].
    - destruct (Z.eqb wh SVC_REWRITE); [|discriminate]. injection P as <-. exists (FSvc n cs (add_op rq o) rs). cbn. destruct G as (G1 & G2 & G3).
      split; [reflexivity|]. split; [trivial|]. split; [|split; [lia|discriminate]]. split; [exact G1|]. split; [|exact G3]. apply add_op_formed; assumption.
  Qed.

  (** ** The kinds of entries *)
  Inductive class (t : nat) : Z -> action conf -> Prop :=
  | cl_cond : forall wh f, t <> 7 -> (forall c ts c1 n, f wh c ts = Some (c1, n) -> exists x, formed x /\ put_cond wh x c = Some c1) -> class t wh (Read f)
  | cl_op : forall wh f, t <> 7 -> (forall c ts c1 n, f wh c ts = Some (c1, n) -> exists o, op_formed o /\ put_op wh o c = Some c1) -> class t wh (Read f)
  | cl_dfl : forall wh f, t <> 4 -> (forall c ts c1 n, f wh c ts = Some (c1, n) -> c_stack c1 = c_stack c) -> class t wh (Read f)
  | cl_match : t <> 7 -> class t (cplace t) match_block
  | cl_not : t <> 7 -> class t (cplace t) not_cond
  | cl_sub : forall wh sub, t <> 7 -> t <> 4 -> sub < 4 -> class t wh (sub_rewrite sub)
  | cl_else : forall wh sub, t <> 7 -> t <> 4 -> sub < 4 -> class t wh (else_block sub)
  | cl_rewrite : forall wh, t <> 7 -> t <> 4 -> class t wh rewrite_block
  | cl_service : forall wh, t <> 4 -> class t wh service_block
  | cl_end : forall wh, t <> 4 -> class t wh End
  | cl_end_else : forall wh, t <> 4 -> class t wh EndElse.

  Lemma atom_formed : forall k re, formed (cond_of k re).
  Proof. intros k re. apply fm_atom. destruct k; intros []. Qed.
  Lemma file_conds_formed : forall k fl ls t cs, file_conds compile k t fl ls = Some cs -> Forall formed cs.
  Proof.
    intros k fl ls. induction ls as [|l ls IH]; intros t cs E; cbn [file_conds] in E.
    - injection E as <-. constructor.
    - destruct (HostModel.trim_line l) as [p|]; [|exact (IH _ _ E)]. destruct (expr_of k t p) as [ex t1].
      destruct (compile t1 fl ex) as [re|]; [|discriminate]. destruct (file_conds compile k t1 fl ls) as [cs1|] eqn:F; [|discriminate].
      injection E as <-. constructor; [apply atom_formed|exact (IH _ _ F)].
  Qed.
  Lemma kind_formed : forall k c ts x n, parse_kind have_pcre compile lines k c ts = Some (x, n) -> formed x.
  Proof.
    intros k c ts x n E. unfold parse_kind, parse_cond_matcher in E.
    destruct (parse_match_mode _ _ _ _ _ _ _) as [[[[t fl] ff] m]|]; [|discriminate].
    destruct (skipn m ts) as [|[|w|w|v|w|] r]; try discriminate. destruct ff.
    - destruct (lines v) as [ls|]; [|discriminate]. destruct (file_conds compile k t fl ls) as [cs|] eqn:F; [|discriminate]. injection E as <- _.
      apply formed_and; [discriminate|exact (file_conds_formed _ _ _ _ _ F)].
    - destruct (expr_of k t v) as [ex t1]. destruct (compile t1 fl ex); [|discriminate]. injection E as <- _. apply atom_formed.
  Qed.
  Lemma put_read_formed : forall r wh c c1 n, put_read r wh c = Some (c1, n) -> (forall x m, r = Some (x, m) -> formed x) -> exists x, formed x /\ put_cond wh x c = Some c1.
  Proof.
    intros [[x m]|] wh c c1 n E H; [|discriminate]. cbn in E. destruct (put_cond wh x c) as [c2|] eqn:P; [|discriminate]. injection E as <- _.
    exists x. split; [exact (H x m eq_refl)|exact P].
  Qed.
  Lemma more_formed : forall j r x m, more j r = Some (x, m) -> exists m', r = Some (x, m').
  Proof. intros j [[x0 m0]|] x m E; [|discriminate]. injection E as <- _. eauto. Qed.
  Lemma put_op_read_formed : forall r wh c c1 n, put_op_read r wh c = Some (c1, n) -> (forall o m, r = Some (o, m) -> op_formed o) -> exists o, op_formed o /\ put_op wh o c = Some c1.
  Proof.
    intros [[o m]|] wh c c1 n E H; [|discriminate]. cbn in E. destruct (put_op wh o c) as [c2|] eqn:P; [|discriminate]. injection E as <- _.
    exists o. split; [exact (H o m eq_refl)|exact P].
  Qed.

  Lemma class_simple : forall t wh k, t <> 7 -> class t wh (simple have_pcre compile lines k).
  Proof. intros t wh k N. apply cl_cond; [exact N|]. intros c ts c1 n E. eapply put_read_formed; [exact E|]. intros x m K. exact (kind_formed _ _ _ _ _ K). Qed.
  Lemma class_named : forall t wh k, t <> 7 -> class t wh (named have_pcre compile lines k).
  Proof.
    intros t wh k N. apply cl_cond; [exact N|]. intros c ts c1 n E. destruct ts as [|[|w|w|v|w|] ts]; try discriminate.
    eapply put_read_formed; [exact E|]. intros x m K. apply more_formed in K. destruct K as (m' & K). exact (kind_formed _ _ _ _ _ K).
  Qed.
  Lemma class_deny : forall t wh, t <> 7 -> class t wh (head_deny have_pcre compile lines).
  Proof.
    intros t wh N. apply cl_cond; [exact N|]. intros c ts c1 n E. eapply put_read_formed; [exact E|]. intros x m K.
    unfold negated in K. destruct (parse_kind have_pcre compile lines K_HDR c ts) as [[y j]|] eqn:PK; [|discriminate]. injection K as <- _. apply fm_not; [exact (kind_formed _ _ _ _ _ PK)|constructor].
  Qed.
  Lemma class_auth : forall t wh, t <> 7 -> class t wh basic_auth.
  Proof.
    intros t wh N. apply cl_cond; [exact N|]. intros c ts c1 n E. destruct ts as [|[|w|w|v|w|] ts]; try discriminate.
    eapply put_read_formed; [exact E|]. intros x m K. injection K as <- _. apply fm_atom. intros [].
  Qed.
  Lemma class_cert : forall t wh, t <> 7 -> class t wh (client_cert pem_x509).
  Proof.
    intros t wh N. apply cl_cond; [exact N|]. intros c ts c1 n E. destruct ts as [|[|w|w|v|w|] ts]; try discriminate. destruct (pem_x509 v); [|discriminate].
    eapply put_read_formed; [exact E|]. intros x m K. injection K as <- _. apply fm_atom. intros [].
  Qed.
  Lemma class_acl : forall t wh, t <> 7 -> class t wh (acl_cond acl_by_name parse_acl).
  Proof.
    intros t wh N. apply cl_cond; [exact N|]. intros c ts c1 n E. destruct ts as [|k ts]; [discriminate|].
    destruct k as [|w|w|v|w|]; try discriminate; [destruct (parse_acl (Newline :: ts)) as [[a j]|]|destruct (acl_by_name v)]; try discriminate;
      (eapply put_read_formed; [exact E|]; intros x m K; injection K as <- _; apply fm_atom; intros []).
  Qed.
  Lemma class_set : forall t wh o, t <> 7 -> (forall s r, o s <> REWRITE_REWRITE_RULE r) -> class t wh (set_op o).
  Proof.
    intros t wh o N H. apply cl_op; [exact N|]. intros c ts c1 n E. destruct ts as [|[|w|w|v|w|] ts]; try discriminate.
    eapply put_op_read_formed; [exact E|]. intros x m K. injection K as <- _. intros r R. exfalso. exact (H _ _ R).
  Qed.
  Lemma class_param : forall t wh, t <> 7 -> class t wh set_param.
  Proof.
    intros t wh N. apply cl_op; [exact N|]. intros c ts c1 n E. destruct ts as [|[|w|w|v|w|] [|[|w'|w'|v'|w'|] ts]]; try discriminate.
    eapply put_op_read_formed; [exact E|]. intros x m K. injection K as <- _. intros r R. discriminate.
  Qed.
  Lemma class_delete : forall t wh, t <> 7 -> class t wh (delete_header have_pcre compile).
  Proof.
    intros t wh N. apply cl_op; [exact N|]. intros c ts c1 n E. eapply put_op_read_formed; [exact E|]. intros x m K.
    destruct (parse_regex_compat _ _ _ _) as [[re j]|]; [|discriminate]. injection K as <- _. intros r R. discriminate.
  Qed.
  Lemma class_ignore : forall t wh, t <> 4 -> class t wh ignore_case_stmt.
  Proof.
    intros t wh N. apply cl_dfl; [exact N|]. intros c ts c1 n E. destruct ts as [|k ts]; [discriminate|]. destruct (unquoted k) as [w|]; [|discriminate].
    destruct (NumModel.cfg_assign_bool w); [|discriminate]. injection E as <- _. reflexivity.
  Qed.

  Lemma means_in : forall tab w a wh d, means tab w a wh d -> exists n, In (n, Some (wh, a), d) (write conf None tab).
  Proof.
    intros tab w a wh d (ls & n & W & l1 & l2 & E & _). apply written_unique in W. subst ls. exists n. rewrite E. apply in_or_app. right. left. reflexivity.
  Qed.
  Lemma classes : forall t w a wh d, means (tabs t) w a wh d -> class t wh a.
  Proof.
    intros t w a wh d M. apply means_in in M. destruct M as (n & I).
    destruct t as [|[|[|[|[|[|[|[|t]]]]]]]]; cbn [tables write write_entry target map moved app In match_conditions match_response_conditions rewrite_ops rewrite_response_ops] in I;
      repeat (destruct I as [I|I]; [injection I as <- <- <- <-|]); try contradiction;
      first [ apply class_simple; discriminate | apply class_named; discriminate | apply class_deny; discriminate | apply class_auth; discriminate
            | apply class_cert; discriminate | apply class_acl; discriminate | apply class_set; [discriminate|intros; discriminate] | apply class_param; discriminate
            | apply class_delete; discriminate | apply class_ignore; discriminate | apply cl_end; discriminate | apply cl_end_else; discriminate
            | apply cl_service; discriminate | apply cl_rewrite; discriminate
            | apply cl_sub; [discriminate|discriminate|unfold T_RULE, T_RESPONSE; lia]
            | apply cl_else; [discriminate|discriminate|unfold T_ELSE, T_RESPONSE_ELSE; lia]
            | match goal with |- class ?t _ match_block => exact (cl_match t ltac:(discriminate)) end
            | match goal with |- class ?t _ not_cond => exact (cl_not t ltac:(discriminate)) end ].
  Qed.

  (** ** Reading keeps the objects well formed *)
  Lemma at_eof_nil : forall t one me c ts h c' r, txt t one me c ts h c' r -> h = AtEof -> r = [].
  Proof.
    apply (text_ind2 conf tabs file false (fun t one me c ts h c' r => h = AtEof -> r = []) (fun a wh c ts c' r => True)); intros; auto; discriminate.
  Qed.
  Lemma not_single : forall t one me c ts h c' r, txt t one me c ts h c' r -> one = false -> h <> Single.
  Proof.
    apply (text_ind2 conf tabs file false (fun t one me c ts h c' r => one = false -> h <> Single) (fun a wh c ts c' r => True)); intros; auto; discriminate.
  Qed.
  Lemma nothing_left : forall t one me c h c' r, txt t one me c [] h c' r -> h = AtEof /\ c' = c /\ r = [].
  Proof. intros t one me c h c' r T. inversion T; subst. auto. Qed.

  Definition keeps (t : nat) (c : conf) (h : ending) (c' : conf) (r : list tok) : Prop :=
    forall f s, c_stack c = f :: s -> fits t f -> good f ->
    (t = 4 -> h <> Ended) /\
    ((r = [] /\ t <> 7 /\ h <> Ended) \/ exists f', c_stack c' = f' :: s /\ shape f f' /\ good f' /\ flen f <= flen f' /\ (t = 4 -> h = Single -> flen f < flen f')).
  Definition keeps_stmt (a : action conf) (wh : Z) (c : conf) (c1 : conf) (r : list tok) : Prop :=
    forall t f s, class t wh a -> c_stack c = f :: s -> fits t f -> good f ->
    (r = [] /\ t <> 7) \/ exists f', c_stack c1 = f' :: s /\ shape f f' /\ good f' /\ flen f <= flen f' /\ (t = 4 -> flen f < flen f').

  Lemma bool4 : forall f, fits 4 f -> exists op l, f = FBool op l.
  Proof. intros [] F; cbn in F; try lia; eauto. Qed.
  (** A condition is added *)
  Lemma added : forall t x c c1 f s wh, put_cond wh x c = Some c1 -> c_stack c = f :: s -> fits t f -> good f -> formed x ->
    exists f', c_stack c1 = f' :: s /\ shape f f' /\ good f' /\ flen f <= flen f' /\ (t = 4 -> flen f < flen f').
  Proof.
    intros t x c c1 f s wh P S F G X. destruct (put_cond_good _ _ _ _ _ _ P S G X) as (f' & A & B & C & D & L).
    exists f'. repeat (split; [assumption|]). intros ->. destruct (bool4 _ F) as (op & l & E). exact (L op l E).
  Qed.

  Lemma kept : forall t one me c ts h c' r, txt t one me c ts h c' r -> keeps t c h c' r.
  Proof.
    apply (text_ind2 conf tabs file false (fun t one me c ts h c' r => keeps t c h c' r) (fun a wh c ts c' r => keeps_stmt a wh c c' r)).
    - intros t one c f s S F G. split; [discriminate|]. right. exists f. repeat (split; [auto using shape_refl|]). intros _ E. discriminate E.
    - auto.
    - auto.
    - auto.
    - intros t one me c w wh d ts M _ f s S F G. split.
      + intros ->. apply classes in M. inversion M; subst; contradiction.
      + right. exists f. repeat (split; [auto using shape_refl|]). discriminate.
    - intros t one me c w wh d ts M _ f s S F G. split.
      + intros ->. apply classes in M. inversion M; subst; contradiction.
      + right. exists f. repeat (split; [auto using shape_refl|]). discriminate.
    - intros t me c w a wh d ts c1 ts1 r1 h c' r M _ ST IHS LE TX IHT f s S F G.
      destruct (IHS t f s (classes _ _ _ _ _ M) S F G) as [[E N]|(f1 & S1 & SH & G1 & L1 & L4)].
      + subst ts1. destruct LE as [LE|[_ ->]]; [discriminate|]. destruct (nothing_left _ _ _ _ _ _ _ TX) as (-> & -> & ->). split; [discriminate|]. left. split; [reflexivity|]. split; [exact N|discriminate].
      + destruct (IHT f1 s S1 (shape_fits _ _ _ SH F) G1) as [A B]. split; [exact A|]. destruct B as [B|(f2 & S2 & SH2 & G2 & L2 & L24)]; [left; exact B|].
        right. exists f2. split; [exact S2|]. split; [eapply shape_trans; eassumption|]. split; [exact G2|]. split; [lia|]. intros E1 E2. specialize (L24 E1 E2). lia.
    - intros t me c w a wh d ts c1 ts1 r1 M _ ST IHS LE f s S F G. split; [discriminate|].
      destruct (IHS t f s (classes _ _ _ _ _ M) S F G) as [[E N]|(f1 & S1 & SH & G1 & L1 & L4)].
      + left. subst ts1. destruct LE as [LE|[_ ->]]; [discriminate|]. split; [reflexivity|]. split; [exact N|discriminate].
      + right. exists f1. repeat (split; [assumption|]). auto.
    - intros t one me c w opening sub closing wh d ts c1 r1 h c' r M _ TX IH1 TX2 IH2 f s S F G.
      pose proof (classes _ _ _ _ _ M) as CL.
      assert (E : wh = cplace t /\ t <> 7 /\ One opening sub closing = not_cond) by (inversion CL; subst; auto). destruct E as (-> & N & E).
      injection E as -> -> ->.
      destruct (IH1 (FBool BOOL_NOT []) (f :: s)) as [_ [(-> & _ & _)|(f1 & S1 & SH & G1 & L1 & L4)]]; [cbn; rewrite S; reflexivity|left; reflexivity|constructor| |].
      { destruct (nothing_left _ _ _ _ _ _ _ TX2) as (-> & _ & ->). split; [discriminate|]. left. split; [reflexivity|]. split; [exact N|discriminate]. }
      specialize (L4 eq_refl eq_refl). destruct f1 as [op l| | |]; cbn in SH; try contradiction. subst op. cbn in L4, G1.
      assert (X : formed (COND_BOOL BOOL_NOT l)) by (destruct l as [|x l]; [cbn in L4; lia|]; inversion G1; subst; apply fm_not; assumption).
      destruct (put_cond_total t f s (with_stack c1 (f :: s)) (COND_BOOL BOOL_NOT l) eq_refl F N) as (c2 & P).
      destruct (added t _ _ _ f s _ P eq_refl F G X) as (f2 & S2 & SH2 & G2 & L2 & L24).
      assert (LB : leave_bool (cplace t) c1 = Some c2) by (unfold leave_bool; rewrite S1; exact P).
      rewrite LB in IH2. destruct (IH2 f2 s S2 (shape_fits _ _ _ SH2 F) G2) as [A B]. split; [exact A|]. destruct B as [B|(f3 & S3 & SH3 & G3 & L3 & L34)]; [left; exact B|].
      right. exists f3. split; [exact S3|]. split; [eapply shape_trans; eassumption|]. split; [exact G3|]. split; [lia|]. intros E1 E2. specialize (L34 E1 E2). lia.
    - intros f wh c ts c1 n E t fr s CL S F G. right. inversion CL as [wh0 f0 N H|wh0 f0 N H|wh0 f0 N H| | | | | | | | ]; subst.
      + destruct (H _ _ _ _ E) as (x & X & P). exact (added t x c c1 fr s wh P S F G X).
      + destruct (H _ _ _ _ E) as (o & O & P). destruct (put_op_good _ _ _ _ _ _ P S G O) as (f' & A & B & C & D & NB).
        exists f'. repeat (split; [assumption|]). intros ->. destruct (bool4 _ F) as (op & l & EQ). exfalso. exact (NB _ _ EQ).
      + exists fr. rewrite (H _ _ _ _ E). repeat (split; [auto using shape_refl|]). intros. contradiction.
    - intros opening sub me closing wh c ts c1 n h c2 r c3 O TX IH C t f s CL S F G.
      cbv beta in O. inversion CL as [ | | |N EW EA| |wh0 sb N N4 SB EW EA|wh0 sb N N4 SB EW EA|wh0 N N4 EW EA|wh0 N4 EW EA| | ]; subst.
      + (* Match *)
        assert (H : exists op, op <> BOOL_NOT /\ c_stack c1 = FBool op [] :: f :: s).
        { destruct ts as [|k ts]; [discriminate|]. destruct k as [|w|w|v|w|]; cbv beta iota in O; try (injection O as <- <-; exists BOOL_AND; split; [discriminate|cbn; rewrite S; reflexivity]).
          destruct (ci_eqb w _) in O; [injection O as <- <-; exists BOOL_AND; split; [discriminate|cbn; rewrite S; reflexivity]|].
          destruct (ci_eqb w _) in O; [injection O as <- <-; exists BOOL_OR; split; [discriminate|cbn; rewrite S; reflexivity]|discriminate]. }
        destruct H as (op & NO & S1). destruct (IH (FBool op []) (f :: s) S1) as [_ [(EMP & _ & NEN)|(f1 & S2 & SH & G1 & _)]]; [right; reflexivity|constructor| |].
        * exfalso. pose proof (text_ends _ _ _ _ _ _ _ _ _ _ _ _ TX eq_refl). pose proof (not_single _ _ _ _ _ _ _ _ TX eq_refl). destruct h; congruence.
        * destruct f1 as [op1 l| | |]; cbn in SH; try contradiction. subst op1. unfold leave_bool in C. rewrite S2 in C. right.
          exact (added t _ _ _ f s _ C eq_refl F G (formed_and _ _ NO G1)).
      + (* Rewrite in a rule *)
        injection O as <- <-. destruct (IH (FRule [] [] None false) (f :: s)) as [_ [(EMP & _ & NEN)|(f1 & S2 & SH & G1 & _)]].
        * cbn. rewrite S. reflexivity.
        * exact SB.
        * cbn. repeat split; try constructor. discriminate.
        * left. split; [exact EMP|exact N].
        * right. destruct f1 as [|cs ops e rr| |]; cbn in SH; try contradiction. rewrite S2 in C. destruct G1 as (G1 & G2 & G3).
          destruct (put_op_good _ _ _ _ f s C eq_refl G) as (f' & A & B & D & L & NB).
          { intros r0 E. injection E as <-. apply rule_formed; assumption. }
          exists f'. repeat (split; [assumption|]). intros; contradiction.
      + (* Else *)
        injection O as <- <-. destruct (IH (FRule [] [] None false) (f :: s)) as [_ [(EMP & _ & NEN)|(f1 & S2 & SH & G1 & _)]].
        * cbn. rewrite S. reflexivity.
        * exact SB.
        * cbn. repeat split; try constructor. discriminate.
        * left. split; [exact EMP|exact N].
        * right. destruct f1 as [|cs ops e rr| |]; cbn in SH; try contradiction. rewrite S2 in C. destruct G1 as (G1 & G2 & G3).
          destruct f as [|cs' ops' e' rr'| |]; try discriminate. destruct (Z.eqb wh IFFALSE); [|discriminate]. injection C as <-.
          eexists. split; [reflexivity|]. split; [exact Logic.I|]. split; [|split; [apply Nat.le_refl|intros; contradiction]].
          cbn in G |- *. destruct G as (A1 & A2 & A3). split; [exact A1|]. split; [exact A2|]. intros r0 E. injection E as <-. apply rule_formed; assumption.
      + (* Rewrite in a service *)
        destruct (rewrite_word ts) as [[rsp k]|] eqn:RW; [|discriminate]. injection O as <- <-.
        destruct (IH (FRule [] [] None rsp) (f :: s)) as [_ [(EMP & _ & NEN)|(f1 & S2 & SH & G1 & _)]].
        * cbn. rewrite S. reflexivity.
        * cbn. destruct rsp; unfold T_RESPONSE, T_RULE; lia.
        * cbn. repeat split; try constructor. discriminate.
        * left. split; [exact EMP|exact N].
        * right. destruct f1 as [|cs ops e rr| |]; cbn in SH; try contradiction. rewrite S2 in C. destruct G1 as (G1 & G2 & G3).
          destruct f as [| |nm ks rq rs|]; try discriminate. destruct (Z.eqb wh SVC_REWRITE); [|discriminate]. injection C as <-.
          eexists. split; [reflexivity|]. cbn in G. destruct G as (A1 & A2 & A3). pose proof (rule_formed _ _ _ G1 G2 G3) as RF.
          destruct rr; (split; [reflexivity|]; split; [|split; [apply Nat.le_refl|intros; contradiction]]); cbn; (split; [exact A1|]); split; try assumption;
            apply Forall_app; (split; [assumption|]); apply one_in; assumption.
      + (* Service *)
        assert (H : exists nm, c_stack c1 = FSvc nm [] [] [] :: f :: s /\ (forall w l, nm = Some w -> f = FTop l -> name_used w l = false)).
        { destruct ts as [|k ts]; [discriminate|].
          assert (D : forall o : option (conf * nat), o = Some (c1, n) -> o = Some (enter (FSvc None [] [] []) c, 0) -> exists nm, c_stack c1 = FSvc nm [] [] [] :: f :: s /\ (forall w l, nm = Some w -> f = FTop l -> name_used w l = false)).
          { intros o E1 E2. rewrite E1 in E2. injection E2 as -> _. exists None. cbn. rewrite S. split; [reflexivity|discriminate]. }
          destruct k as [|w|w|v|w|]; cbv beta iota in O; try (eapply D; [exact O|reflexivity]). rewrite S in O. destruct f as [| | |l]; try (eapply D; [exact O|reflexivity]).
          destruct (name_used v l) eqn:NU; [discriminate|]. injection O as <- <-. exists (Some v). cbn. rewrite S. split; [reflexivity|]. intros w0 l0 E1 E2. congruence. }
        destruct H as (nm & S1 & NU). destruct (IH _ _ S1) as [_ [(EMP & _ & NEN)|(f1 & S2 & SH & G1 & _)]].
        * reflexivity.
        * cbn. repeat split; constructor.
        * exfalso. pose proof (text_ends _ _ _ _ _ _ _ _ _ _ _ _ TX eq_refl). pose proof (not_single _ _ _ _ _ _ _ _ TX eq_refl). destruct h; congruence.
        * right. destruct f1 as [| |nm1 cs rq rs|]; cbn in SH; try contradiction. subst nm1. rewrite S2 in C. destruct f as [| | |l]; try discriminate. injection C as <-.
          eexists. split; [reflexivity|]. split; [exact Logic.I|]. split; [|split; [apply Nat.le_refl|intros; contradiction]].
          cbn in G |- *. destruct G as [G GN]. split.
          -- apply Forall_app. split; [exact G|]. constructor; [|constructor]. destruct G1 as (A1 & A2 & A3).
             split; [apply formed_and; [discriminate|exact A1]|]. split; assumption.
          -- unfold service_names. rewrite flat_map_app. cbn. destruct nm as [w|]; [|rewrite !app_nil_r; exact GN]. cbn. apply nodup_snoc. split; [exact GN|].
             intros I. apply in_flat_map in I. destruct I as (sv & I1 & I2). specialize (NU w l eq_refl eq_refl). unfold name_used in NU.
             assert (X : existsb (fun s => match ps_name s with Some n => bytes_eqb n w | None => false end) l = true).
             { apply existsb_exists. exists sv. split; [exact I1|]. destruct (ps_name sv) as [n0|]; [|contradiction]. destruct I2 as [-> |[]]. apply bytes_eqb_eq. reflexivity. }
             congruence.
    - intros opening sub closing wh c ts h c1 r TX IH NS t f s CL S F G.
      assert (E : t <> 7 /\ One opening sub closing = not_cond) by (inversion CL; subst; auto). destruct E as (N & E). injection E as -> -> ->.
      left. split; [|exact N]. destruct (IH (FBool BOOL_NOT []) (f :: s)) as [NE _]; [cbn; rewrite S; reflexivity|left; reflexivity|constructor|].
      apply (at_eof_nil _ _ _ _ _ _ _ _ TX). specialize (NE eq_refl). destruct h; try congruence.
  Qed.

  Lemma accepted_formed : forall n d name h c st, read_services have_pcre compile lines acl_by_name parse_acl pem_x509 file n d name = Accepted h c st ->
    exists ss, c_stack c = [FTop ss] /\ Forall formed_service ss /\ NoDup (service_names ss).
  Proof.
    intros n d name h c st E. unfold read_services, cfgparser_parse in E. destruct (file name) as [[id ts]|] eqn:FL; [|discriminate].
    apply sound in E. destruct (kept _ _ _ _ _ _ _ _ E (FTop []) [] eq_refl eq_refl (conj (Forall_nil _) (NoDup_nil _))) as [_ [(_ & N & _)|(f & S & SH & G & _)]]; [exfalso; apply N; reflexivity|].
    destruct f as [| | |ss]; cbn in SH; try contradiction. exists ss. split; [exact S|exact G].
  Qed.

  (** ** Truth *)
  Notation says := (says have_pcre compile lines acl_by_name parse_acl pem_x509).
  Notation says_all := (says_all have_pcre compile lines acl_by_name parse_acl pem_x509).
  Scheme says_mut := Minimality for RulSpec.says Sort Prop with says_all_mut := Minimality for RulSpec.says_all Sort Prop.
  Combined Scheme says_both from says_mut, says_all_mut.

  Lemma truth_or : forall A l, l <> [] -> truth A (COND_BOOL BOOL_OR l) = existsb (truth A) l.
  Proof. intros A [|c l] N; [contradiction|reflexivity]. Qed.
  Lemma truths : forall A v d,
    (forall x c, says d x c -> no_empty_or x -> (forall y cy, part_of y x -> says d y cy -> truth A cy = v y) -> truth A c = formula v x) /\
    (forall l cs, says_all d l cs -> Forall no_empty_or l -> (forall x y cy, In x l -> part_of y x -> says d y cy -> truth A cy = v y) -> Forall2 (fun x c => truth A c = formula v x) l cs).
  Proof.
    intros A v d. apply (says_both _ _ _ _ _ _ d (fun x c => no_empty_or x -> (forall y cy, part_of y x -> says d y cy -> truth A cy = v y) -> truth A c = formula v x)
      (fun l cs => Forall no_empty_or l -> (forall x y cy, In x l -> part_of y x -> says d y cy -> truth A cy = v y) -> Forall2 (fun x c => truth A c = formula v x) l cs)).
    - intros k opts t c K _ H. apply H; [apply po_self; discriminate|apply sy_kind, K].
    - intros opts t c K _ H. cbn [formula]. rewrite <- (H (XKind K_HDR opts t) c); [reflexivity|apply po_deny; reflexivity|apply sy_kind, K].
    - intros n a K _ H. apply H; [apply po_self; discriminate|apply sy_acl, K].
    - intros ts a K _ H. apply H; [apply po_self; discriminate|apply sy_acl_here, K].
    - intros f _ H. apply H; [apply po_self; discriminate|apply sy_auth].
    - intros f x K _ H. apply H; [apply po_self; discriminate|apply sy_cert, K].
    - intros g l cs SA IH NE H. inversion NE as [x N1 N2|g0 l0 NN F|]; subst; [exfalso; exact (N1 _ _ eq_refl)|].
      assert (F2 : Forall2 (fun x c => truth A c = formula v x) l cs) by (apply IH; [exact F|]; intros x y cy I P; apply H; eapply po_in; eassumption).
      destruct g.
      + cbn [formula truth]. clear - F2. induction F2 as [|x c l cs E F2 IH]; [reflexivity|]. cbn [forallb]. rewrite E, IH. reflexivity.
      + cbn [formula truth]. clear - F2. induction F2 as [|x c l cs E F2 IH]; [reflexivity|]. cbn [forallb]. rewrite E, IH. reflexivity.
      + rewrite truth_or by (specialize (NN eq_refl); destruct F2; [contradiction|discriminate]).
        cbn [formula]. clear - F2. induction F2 as [|x c l cs E F2 IH]; [reflexivity|]. cbn [existsb]. rewrite E, IH. reflexivity.
    - intros x c S IH NE H. inversion NE as [x0 N1 N2| |x0 N]; subst; [exfalso; exact (N2 _ eq_refl)|]. cbn [truth formula]. rewrite IH; [reflexivity|exact N|]. intros y cy P. apply H. apply po_not, P.
    - constructor.
    - intros x l c cs S IH SA IHA F H. inversion F as [|y z N1 N2]; subst. constructor.
      + apply IH; [exact N1|]. intros y cy P. apply (H x). left. reflexivity. exact P.
      + apply IHA; [exact N2|]. intros y z cz I. apply (H y). right. exact I.
  Qed.

  (** ** Pattern files *)
  Lemma cond_truth : forall A k re, truth A (cond_of k re) = A (cond_of k re).
  Proof. intros A [] re; reflexivity. Qed.
  Lemma compares_truth : forall A k fl t ls cs, k <> K_HOST -> compares_all compile k fl t ls cs ->
    (existsb (truth A) cs = true <-> exists l re, In l ls /\ compile t fl l = Some re /\ A (cond_of k re) = true).
  Proof.
    intros A k fl t ls cs N H. induction H as [t|t l ls c cs C H IH].
    - split; [discriminate|]. intros (l & re & [] & _).
    - assert (T : (match k with K_HOST => snd (host_prefix_regex t l) | _ => t end) = t) by (destruct k; congruence). rewrite T in IH.
      destruct C as (re & -> & C). assert (CC : compile t fl l = Some re) by (destruct k; congruence).
      cbn [existsb]. rewrite orb_true_iff, IH, cond_truth. split.
      + intros [X|(l1 & re1 & I & X)]; [exists l, re; split; [left; reflexivity|auto]|exists l1, re1; split; [right; exact I|exact X]].
      + intros (l1 & re1 & [<- |I] & C1 & X); [left; congruence|right; exists l1, re1; auto].
  Qed.
  Lemma file_truth : forall A d k opts f ls c, In MATCH_FILE opts -> k <> K_HOST -> lines f = Some ls -> counted ls <> [] -> says d (XKind k opts f) c ->
    exists t fl, kind_chosen have_pcre d k opts t fl /\
      (truth A c = true <-> exists l re, In l (counted ls) /\ compile t fl l = Some re /\ A (cond_of k re) = true).
  Proof.
    intros A d k opts f ls c I N L NE S. inversion S as [k0 o0 t0 c0 K| | | | | | | ]; subst. inversion K as [t fl c0 KC NI C|t fl ls0 cs KC _ L0 C]; subst; [contradiction|].
    assert (ls0 = ls) by congruence. subst ls0. exists t, fl. split; [exact KC|]. rewrite truth_or.
    - apply compares_truth; assumption.
    - intros ->. inversion C. congruence.
  Qed.
  Lemma empty_file : forall A d k opts f ls t fl, In MATCH_FILE opts -> kind_chosen have_pcre d k opts t fl -> lines f = Some ls -> counted ls = [] ->
    exists c, says d (XKind k opts f) c /\ truth A c = true /\ forall e p, match_cond e c p = CRes 1 p.
  Proof.
    intros A d k opts f ls t fl I KC L E. exists (COND_BOOL BOOL_OR []). split; [|split; reflexivity].
    apply sy_kind. eapply ks_file; try eassumption. rewrite E. constructor.
  Qed.
End Form.
