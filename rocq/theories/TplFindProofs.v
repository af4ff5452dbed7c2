(** Proofs about texts that are not read as they should be *)
From Coq Require Import Ascii String List ZArith Bool Lia.
From Verif Require Import Bytes TplModel TplSpec TplLexProofs TplPipeProofs TplProofs TplActProofs TplTagProofs TplBodyProofs.
Import ListNotations.
Local Open Scope nat_scope.
Local Open Scope string_scope.
Local Open Scope list_scope.

(** What stands first in an action *)
Lemma parse_first : forall x T t a' b', no_dash x -> lex (rev (lit "{{")) x = Lex t None a' b' ->
  forall fuel, template_parse (S fuel) T (lit "{{" ++ x) =
    do r <- after_tok fuel NoLocal false (st (a', b') t T);
    let '(acts, _, i) := r in
    match error i with
    | Some e => if dangling i then Wrong Double_free else Ret (PErr e (length (pre i)))
    | None => Ret (POk acts (tmpls i))
    end.
Proof.
  intros x T t a' b' D L fuel. unfold template_parse.
  change (mkIn [] (lit "{{" ++ x) TEof false None T false) with (st ([], lit "{{" ++ dash false ++ [] ++ x) TEof T).
  rewrite (scan_open false [] x [] bl_nil ltac:(discriminate) D t a' b' L). reflexivity.
Qed.

(** ** A digit at the end of the text *)
Definition stuck_at (d : byte) (a : bytes) (T : templates) : input := mkIn a [d] (TNum (code d - 48)) false None T false.
Lemma digit_code : forall d, is_digit d = true -> (0 <= code d - 48 <= 9)%Z.
Proof. intros [[] [] [] [] [] [] [] []]; vm_compute; intros; try discriminate; split; discriminate. Qed.
Lemma digit_lex : forall d a, is_digit d = true -> lex a [d] = Lex (TNum (code d - 48)) None a [d].
Proof.
  intros d a D.
  assert (K : solid d /\ is_alpha d = false).
  { destruct d as [[] [] [] [] [] [] [] []]; vm_compute in D; try discriminate; repeat split; reflexivity || discriminate. }
  destruct K as (K & A). rewrite lex_solid by exact K. unfold token_at. rewrite A, D. cbn [digits]. rewrite D.
  pose proof (digit_code d D) as B.
  replace (LONG_MAX - 0 <? code d - 48)%Z with false by (symmetry; apply Z.ltb_ge; unfold LONG_MAX; lia).
  replace (LONG_MAX <? 0 * 10 + (code d - 48))%Z with false by (symmetry; apply Z.ltb_ge; unfold LONG_MAX; lia).
  f_equal. f_equal. lia.
Qed.
Lemma digit_args : forall d a T fuel i, is_digit d = true -> ready i = false -> pre i = a -> (post i = [d] \/ post i = " "%char :: [d]) ->
  error i = None -> tmpls i = T -> dangling i = false -> scan_args fuel i = Fuel.
Proof.
  intros d a T fuel. revert a. induction fuel as [|fuel IH]; intros a i D Ri Pi Qi Ei Ti Di; [reflexivity|].
  rewrite scan_args_S. destruct fuel as [|fuel]; [reflexivity|]. rewrite scan_arg_S.
  assert (G : exists a2, gettok i = Ret (stuck_at d a2 T)).
  { destruct Qi as [Qi|Qi].
    - exists a. rewrite (gettok_sits i a [d] (TNum (code d - 48)) a [d]); [|left; auto|apply digit_lex, D]. unfold at_tok. rewrite Ei, Ti, Di. reflexivity.
    - exists (" "%char :: a). rewrite (gettok_sits i a (lit " " ++ [d]) (TNum (code d - 48)) (" "%char :: a) [d]); [|left; auto|].
      + unfold at_tok. rewrite Ei, Ti, Di. reflexivity.
      + rewrite lex_blank by (apply bl_space; [reflexivity|apply bl_nil]). apply digit_lex, D. }
  destruct G as (a2 & ->). cbn [bind]. unfold arg_step. cbn [stuck_at tok bind app].
  rewrite (IH a2 (stuck_at d a2 T) D eq_refl eq_refl (or_introl eq_refl) eq_refl eq_refl eq_refl). reflexivity.
Qed.
Lemma digit_loops : forall f d T fuel, In f functions -> is_digit d = true ->
  template_parse fuel T (lit "{{" ++ f ++ " "%char :: [d]) = Fuel.
Proof.
  intros f d T [|fuel] F D; [reflexivity|].
  pose proof (functions_name f F) as N.
  assert (B : breaks (" "%char :: [d])) by (eexists " "%char, [d]; split; [reflexivity|split; [reflexivity|discriminate]]).
  rewrite (parse_first (f ++ " "%char :: [d]) T (TIdent f) (rev f ++ rev (lit "{{")) (" "%char :: [d]) (name_no_dash f _ N)
             (lex_ident _ f _ N B)).
  unfold after_tok. cbn [st tok].
  destruct (first_parser false (TIdent f) NoLocal false (or_introl F)) as (X & _). rewrite X. clear X.
  match goal with |- context [putback ?i] => change (putback i) with (Ret (set_ready true i)) end.
  cbn [bind]. destruct fuel as [|fuel]; [reflexivity|]. rewrite scan_pipeline_S.
  destruct fuel as [|fuel]; [reflexivity|]. rewrite scan_arg_S.
  match goal with |- context [gettok (set_ready true ?i)] => change (gettok (set_ready true i)) with (Ret i) end.
  cbn [bind]. unfold arg_step. cbn [tok st]. destruct (functions_found f F) as (-> & -> & ->).
  rewrite (digit_args d (rev f ++ rev (lit "{{")) T fuel); [reflexivity|exact D|reflexivity|reflexivity|right; reflexivity|reflexivity|reflexivity|reflexivity].
Qed.

(** ** A comment that ends with an asterisk and the text *)
Lemma skip_star : forall t a, ~ occurs (lit "*/") t -> skip true a (t ++ lit "*") = SkLoop.
Proof.
  induction t as [|c t IH]; intros a N; [reflexivity|].
  assert (N' : ~ occurs (lit "*/") t).
  { intros (x & y & ->). apply N. exists (c :: x), y. reflexivity. }
  cbn [app skip]. destruct (beq c "*"%char) eqn:E; [|apply IH, N'].
  destruct (t ++ lit "*") as [|d r] eqn:R; [reflexivity|].
  destruct (beq d "/"%char) eqn:E2; [exfalso|rewrite IH by exact N'; reflexivity].
  apply beq_eq in E, E2. subst c d. destruct t as [|e t]; [discriminate R|]. injection R as -> _.
  apply N. exists [], t. reflexivity.
Qed.
Lemma comment_loops : forall t T fuel, ~ occurs (lit "*/") t -> template_parse (S fuel) T (lit "{{/*" ++ t ++ lit "*") = Loop.
Proof.
  intros t T fuel N. unfold template_parse. rewrite scan_action_S. unfold gettext.
  change (upto (post (mkIn [] (lit "{{/*" ++ t ++ lit "*") TEof false None T false))) with (@nil byte, lit "{{/*" ++ t ++ lit "*").
  cbn. unfold gettok. cbn. unfold lex. cbn. rewrite skip_star by exact N. reflexivity.
Qed.

(** ** A string without its end *)
Lemma quoted_open : forall t a, ~ In """"%char t -> fst (quoted a t) = None.
Proof.
  intros t. assert (G : forall n t a, length t <= n -> ~ In """"%char t -> fst (quoted a t) = None).
  { induction n as [|n IH]; intros u a L N; (destruct u as [|c u]; [reflexivity|]); [cbn in L; lia|].
    assert (N' : ~ In """"%char u) by (intros I; apply N; right; exact I).
    cbn [quoted]. destruct (beq c """"%char) eqn:E; [apply beq_eq in E; subst c; exfalso; apply N; left; reflexivity|].
    destruct (beq c "\"%char).
    - destruct u as [|d u]; [reflexivity|].
      destruct (beq d """"%char) eqn:E2; [apply beq_eq in E2; subst d; exfalso; apply N'; left; reflexivity|].
      assert (Q : fst (quoted (d :: c :: a) u) = None) by (apply IH; [cbn in L; lia|intros I; apply N'; right; exact I]).
      destruct (quoted (d :: c :: a) u) as ([[[]]|] & e); [discriminate|reflexivity].
    - assert (Q : fst (quoted (c :: a) u) = None) by (apply IH; [cbn in L; lia|exact N']).
      destruct (quoted (c :: a) u) as ([[[]]|] & e); [discriminate|reflexivity]. }
  intros a N. apply (G (length t) t a (le_n _) N).
Qed.
Lemma string_asserts : forall t T fuel, ~ In """"%char t ->
  template_parse (S (S (S fuel))) T (lit "{{""" ++ t) = Wrong Assertion.
Proof.
  intros t T fuel N. unfold template_parse. rewrite scan_action_S.
  assert (E : gettext (mkIn [] (lit "{{""" ++ t) TEof false None T false) = Ret (st (rev (lit "{{"), """"%char :: t) TBeg T)) by reflexivity.
  rewrite E. clear E. cbn [bind]. change (tok (st _ TBeg T)) with TBeg. cbn iota.
  assert (G : exists e, gettok (st (rev (lit "{{"), """"%char :: t) TBeg T) = Ret (mkIn e [] TErr false (Some ERR_EOF) T false)).
  { unfold gettok, st. cbn [fst snd TplModel.ready TplModel.pre TplModel.post].
    rewrite lex_solid by (split; [reflexivity|discriminate]). unfold token_at.
    change (is_alpha """"%char) with false. change (is_digit """"%char) with false. rewrite beq_refl. cbn iota.
    pose proof (quoted_open t (""""%char :: rev (lit "{{")) N) as Q.
    destruct (quoted (""""%char :: rev (lit "{{")) t) as ([[[]]|] & e); [discriminate|]. exists e. reflexivity. }
  destruct G as (e & ->). cbn [bind tok].
  change (putback (mkIn e [] TErr false (Some ERR_EOF) T false)) with (Ret (mkIn e [] TErr true (Some ERR_EOF) T false)).
  cbn [bind]. rewrite scan_pipeline_S, scan_arg_S. reflexivity.
Qed.

(** ** with and range, of a variable *)
Lemma with_double : forall v R T fuel, name v ->
  template_parse (S (S (S fuel))) T (lit "{{with $" ++ v ++ lit "}}" ++ R) = Wrong Double_free.
Proof.
  intros v R T fuel V. change (lit "{{with $" ++ v ++ lit "}}" ++ R) with (lit "{{" ++ lit "with" ++ " "%char :: "$"%char :: v ++ lit "}}" ++ R).
  assert (W : word_end (" "%char :: "$"%char :: v ++ lit "}}" ++ R)) by (split; [discriminate|intros c r E; injection E as <- _; reflexivity]).
  destruct W as (W1 & W2).
  rewrite (parse_first _ T (TIdent (lit "with")) _ _ (name_no_dash _ _ name_with) (lex_word _ _ _ name_with W1 W2)).
  unfold after_tok. cbn [st tok]. change (find_action_parser NoLocal false (lit "with")) with (Some P_with). cbn iota.
  cbn [run_parser]. unfold parse_with_var.
  assert (Y : word_end (lit "}}" ++ R)) by (split; [discriminate|intros c r E; injection E as <- _; reflexivity]).
  destruct Y as (Y1 & Y2).
  rewrite (ready_blank (st (rev (lit "with") ++ rev (lit "{{"), " "%char :: "$"%char :: v ++ lit "}}" ++ R) (TIdent (lit "with")) T)
             _ (lit " ") ("$"%char :: v ++ lit "}}" ++ R) T _ _ _
             ltac:(apply bl_space; [reflexivity|apply bl_nil]) (ready_st _ _ _ _) (lex_var _ v _ V Y1 Y2)).
  cbn [bind]. change (var_of (st (rev v ++ "$"%char :: rev (lit " ") ++ rev (lit "with") ++ rev (lit "{{"), lit "}}" ++ R) (TVar v) T)) with (Some (Some v)). cbn iota.
  rewrite (ready_tok (st (rev v ++ "$"%char :: rev (lit " ") ++ rev (lit "with") ++ rev (lit "{{"), lit "}}" ++ R) (TVar v) T)
             _ _ T _ _ _ (ready_st _ _ _ _) (lex_end _ R)). reflexivity.
Qed.
Lemma range_double : forall v R T fuel, name v ->
  template_parse (S (S (S fuel))) T (lit "{{range $" ++ v ++ lit "}}" ++ R) = Wrong Double_free.
Proof.
  intros v R T fuel V. change (lit "{{range $" ++ v ++ lit "}}" ++ R) with (lit "{{" ++ lit "range" ++ " "%char :: "$"%char :: v ++ lit "}}" ++ R).
  assert (W : word_end (" "%char :: "$"%char :: v ++ lit "}}" ++ R)) by (split; [discriminate|intros c r E; injection E as <- _; reflexivity]).
  destruct W as (W1 & W2).
  rewrite (parse_first _ T (TIdent (lit "range")) _ _ (name_no_dash _ _ name_range) (lex_word _ _ _ name_range W1 W2)).
  unfold after_tok. cbn [st tok]. change (find_action_parser NoLocal false (lit "range")) with (Some P_range). cbn iota.
  cbn [run_parser]. unfold parse_range_vars.
  assert (Y : word_end (lit "}}" ++ R)) by (split; [discriminate|intros c r E; injection E as <- _; reflexivity]).
  destruct Y as (Y1 & Y2).
  rewrite (ready_blank (st (rev (lit "range") ++ rev (lit "{{"), " "%char :: "$"%char :: v ++ lit "}}" ++ R) (TIdent (lit "range")) T)
             _ (lit " ") ("$"%char :: v ++ lit "}}" ++ R) T _ _ _
             ltac:(apply bl_space; [reflexivity|apply bl_nil]) (ready_st _ _ _ _) (lex_var _ v _ V Y1 Y2)).
  cbn [bind]. change (var_of (st (rev v ++ "$"%char :: rev (lit " ") ++ rev (lit "range") ++ rev (lit "{{"), lit "}}" ++ R) (TVar v) T)) with (Some (Some v)). cbn iota.
  rewrite (ready_tok (st (rev v ++ "$"%char :: rev (lit " ") ++ rev (lit "range") ++ rev (lit "{{"), lit "}}" ++ R) (TVar v) T)
             _ _ T _ _ _ (ready_st _ _ _ _) (lex_end _ R)). reflexivity.
Qed.

(** ** An argument that is no argument *)
Lemma unknown_dropped : forall w T fuel, name w -> ~ In w functions -> w <> lit "true" -> w <> lit "false" ->
  template_parse (6 + fuel) T (lit "{{len . " ++ w ++ lit "}}") = Ret (POk [APipe [CCall (lit "len") [[CDot]]]] T).
Proof.
  intros w T fuel W Nf Nt Nx.
  assert (F1 : bytes_eqb w (lit "true") = false) by (destruct (bytes_eqb w (lit "true")) eqn:E; [apply bytes_eqb_eq in E; contradiction|reflexivity]).
  assert (F2 : bytes_eqb w (lit "false") = false) by (destruct (bytes_eqb w (lit "false")) eqn:E; [apply bytes_eqb_eq in E; contradiction|reflexivity]).
  assert (F3 : find_func w = false).
  { destruct (find_func w) eqn:E; [exfalso; apply Nf|reflexivity]. unfold find_func in E. apply existsb_exists in E.
    destruct E as (x & I0 & E). apply bytes_eqb_eq in E. subst x. exact I0. }
  set (X := " "%char :: w ++ lit "}}").
  change (lit "{{len . " ++ w ++ lit "}}") with (lit "{{" ++ lit "len" ++ lit " ." ++ X).
  assert (NL : name (lit "len")) by (apply functions_name; cbn; auto 10).
  assert (BL : breaks (lit " ." ++ X)) by (eexists " "%char, _; split; [reflexivity|split; [reflexivity|discriminate]]).
  replace (6 + fuel) with (S (S (S (S (S (S fuel)))))) by lia.
  rewrite (parse_first (lit "len" ++ lit " ." ++ X) T (TIdent (lit "len")) _ _ (name_no_dash _ _ NL) (lex_ident _ _ _ NL BL)).
  unfold after_tok. cbn [st tok]. change (find_action_parser NoLocal false (lit "len")) with (@None parser). cbn iota.
  match goal with |- context [putback ?i] => change (putback i) with (Ret (set_ready true i)) end. cbn [bind].
  rewrite scan_pipeline_S, scan_arg_S.
  match goal with |- context [gettok (set_ready true ?i)] => change (gettok (set_ready true i)) with (Ret i) end. cbn [bind].
  unfold arg_step. cbn [tok].
  change (bytes_eqb (lit "len") (lit "true")) with false. change (bytes_eqb (lit "len") (lit "false")) with false.
  change (find_func (lit "len")) with true. cbn iota.
  rewrite scan_args_S, scan_arg_S. cbn [fst snd].
  assert (BX : breaks X) by (eexists " "%char, _; split; [reflexivity|split; [reflexivity|discriminate]]).
  assert (SB : blank (lit " ")) by (apply bl_space; [reflexivity|apply bl_nil]).
  match goal with |- context [gettok ?i] =>
    change i with (st (rev (lit "len") ++ rev (lit "{{"), lit " " ++ lit "." ++ X) (TIdent (lit "len")) T) end.
  rewrite (ready_blank _ _ (lit " ") (lit "." ++ X) T _ _ _ SB (ready_st _ _ _ _) (lex_dot _ X BX)).
  cbn [bind]. unfold arg_step at 1. cbn [tok st]. cbn [bind].
  rewrite scan_args_S, scan_arg_S. cbn [fst snd].
  match goal with |- context [gettok ?i] =>
    change i with (st ("."%char :: rev (lit " ") ++ rev (lit "len") ++ rev (lit "{{"), lit " " ++ w ++ lit "}}") TDot T) end.
  assert (Y : word_end (lit "}}")) by (split; [discriminate|intros c r E; injection E as <- _; reflexivity]).
  destruct Y as (Y1 & Y2).
  rewrite (ready_blank _ _ (lit " ") (w ++ lit "}}") T _ _ _ SB (ready_st _ _ _ _) (lex_word _ w _ W Y1 Y2)).
  cbn [bind]. unfold arg_step at 1. cbn [tok st]. rewrite F1, F2, F3. cbn [bind fst snd app].
  change (bytes_eqb (lit "len") (lit "true")) with false. change (bytes_eqb (lit "len") (lit "false")) with false.
  change (find_func (lit "len")) with true. cbn [bind].
  match goal with |- context [gettok ?i] =>
    change i with (st (rev w ++ rev (lit " ") ++ "."%char :: rev (lit " ") ++ rev (lit "len") ++ rev (lit "{{"), lit "}}" ++ []) TEof T) end.
  rewrite (ready_tok _ _ _ T _ _ _ (ready_st _ _ _ _) (lex_end _ [])). reflexivity.
Qed.
