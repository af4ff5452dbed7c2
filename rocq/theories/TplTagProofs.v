(** Proofs about the actions that contain others *)
From Coq Require Import Ascii String List ZArith Bool Lia.
From Verif Require Import Bytes TplModel TplSpec TplLexProofs TplPipeProofs TplProofs TplActProofs.
Import ListNotations.
Local Open Scope nat_scope.
Local Open Scope string_scope.
Local Open Scope list_scope.

Ltac pos := repeat rewrite rev_app_distr; rewrite <- ?app_assoc; reflexivity.

(** A state from which reading goes on at a place *)
Definition ready_at (i : input) (a b : bytes) (T : list (bytes * list act)) : Prop :=
  sits i a b /\ error i = None /\ tmpls i = T /\ dangling i = false.
Lemma ready_st : forall a b t T, ready_at (st (a, b) t T) a b T.
Proof. intros a b t T. split; [apply sits_st|]. repeat split. Qed.
Lemma ready_tok : forall i a b T t a' b', ready_at i a b T -> lex a b = Lex t None a' b' -> gettok i = Ret (st (a', b') t T).
Proof.
  intros i a b T t a' b' (H & E1 & E2 & E3) L. rewrite (gettok_sits i a b t a' b' H L).
  unfold at_tok. rewrite E1, E2, E3. reflexivity.
Qed.
Lemma ready_blank : forall i a x b T t a' b', blank x -> ready_at i a (x ++ b) T -> lex (rev x ++ a) b = Lex t None a' b' ->
  gettok i = Ret (st (a', b') t T).
Proof. intros i a x b T t a' b' X H L. apply (ready_tok i a (x ++ b)); [exact H|]. rewrite lex_blank by exact X. exact L. Qed.

(** A minus sign with a space after it does not begin a pipeline *)
Lemma space_digit : forall c, is_space c = true -> is_digit c = false.
Proof. intros [[] [] [] [] [] [] [] []]; vm_compute; intros; congruence. Qed.
Lemma lex_minus : forall a c y, is_space c = true -> exists a' b', lex a ("-"%char :: c :: y) = Lex (TChar "-"%char) None a' b'.
Proof.
  intros a c y C. rewrite lex_solid by (split; [reflexivity|discriminate]). unfold token_at.
  change (is_alpha "-"%char) with false. change (is_digit "-"%char) with false.
  change (beq "-"%char """"%char) with false. change (beq "-"%char "."%char) with false.
  change (beq "-"%char "-"%char) with true. change (beq "-"%char "$"%char) with false.
  change (starts (lit "{{") ("-"%char :: c :: y)) with false. change (starts (lit "}}") ("-"%char :: c :: y)) with false.
  cbn [head_is andb]. rewrite (space_digit c C).
  replace (starts (lit "}}") (c :: y)) with false.
  2:{ symmetry. change (starts (lit "}}") (c :: y)) with (beq "}"%char c && starts (lit "}") y).
      destruct (beq "}"%char c) eqn:E; [|reflexivity]. apply beq_eq in E. subst c. discriminate. }
  rewrite andb_false_r. cbn iota. eexists _, _. reflexivity.
Qed.
Lemma pipeline_no_dash : forall p s y, pipeline p s -> breaks y -> no_dash (s ++ y).
Proof.
  intros p s y P B. unfold no_dash. destruct (s ++ y) as [|d [|c z]] eqn:E; [exact I|exact I|].
  intros ->. destruct (is_space c) eqn:C; [|reflexivity]. exfalso.
  destruct (pipeline_first p s P [] y B) as (t & a' & b' & L & F). rewrite E in L.
  destruct (lex_minus [] c z C) as (a1 & b1 & L'). rewrite L' in L. injection L as <- _ _. discriminate F.
Qed.

(** The pipeline that ends an action *)
Lemma pipe_ready : forall p s b1 b' r a R T i, pipeline p s -> blank b1 -> blank b' -> closing r b' -> 1 <= length a ->
  ready_at i a (b1 ++ s ++ b' ++ dash r ++ lit "}}" ++ R) T ->
  exists N, forall fuel, N <= fuel ->
    scan_pipeline fuel [] i = Ret (p, st (place r (rev (b1 ++ s ++ b' ++ dash r ++ lit "}}") ++ a) R) TEnd T).
Proof. intros p s b1 b' r a R T i P B1 B' C L (H & E1 & E2 & E3). apply pipe_close; assumption. Qed.

(** ** {{}} and {{pipeline}} *)
Lemma empty_read : forall l r s R a tab inh T res, empty_tag l r s ->
  opens l (s ++ R)
  /\ ((forall tk, scans tab inh (st (place r (rev s ++ a) R) tk T) res) ->
      forall tk, scans tab inh (st (a, s ++ R) tk T) res).
Proof.
  intros l r s R a tab inh T res W. destruct W as [b B O C].
  assert (D : no_dash (dash r ++ lit "}}" ++ R)).
  { destruct r; cbn [dash app no_dash]; [intros _; reflexivity|discriminate]. }
  split.
  { rewrite <- !app_assoc. apply opens_tag; assumption. }
  intros H tk. destruct (H TEnd) as (N & E). exists (S N). intros fuel F. destruct fuel as [|fuel]; [lia|].
  rewrite <- !app_assoc.
  rewrite (scan_open l b (dash r ++ lit "}}" ++ R) a B O D TEnd
             (fst (place r (rev (lit "{{" ++ dash l ++ b ++ dash r ++ lit "}}") ++ a) R))
             (snd (place r (rev (lit "{{" ++ dash l ++ b ++ dash r ++ lit "}}") ++ a) R))).
  - unfold after_tok. cbn [st tok]. exact (E fuel ltac:(lia)).
  - change (dash r ++ lit "}}" ++ R) with ([] ++ dash r ++ lit "}}" ++ R).
    rewrite lex_close; [|constructor|].
    + cbn [app]. do 2 f_equal; repeat rewrite rev_app_distr; rewrite <- ?app_assoc; reflexivity.
    + intros ->. cbn [rev app]. destruct (rev_space_last b (C eq_refl)) as (c & t & E' & K).
      rewrite rev_app_distr, (rev_app_distr (dash l)), E'. split; [exact K|]. cbn [app length]. rewrite !app_length. cbn. lia.
Qed.

Lemma pipe_read : forall l p r s R a tab inh T x els k, pipe_tag l [] p r s ->
  opens l (s ++ R)
  /\ ((forall tk, scans tab inh (st (place r (rev s ++ a) R) tk T) (x, els, k)) ->
      forall tk, scans tab inh (st (a, s ++ R) tk T) (APipe p :: x, els, k)).
Proof.
  intros l p r s R a tab inh T x els k W. destruct W as [b s b' B P B' O C].
  cbn [app]. pose proof (close_breaks b' r R B' C) as K.
  pose proof (pipeline_no_dash p s _ P K) as D.
  split.
  { rewrite <- !app_assoc. apply opens_tag; assumption. }
  intros H tk.
  destruct (pipeline_first p s P (rev (lit "{{" ++ dash l ++ b) ++ a) _ K) as (t & a' & b0 & L & F).
  destruct (H TEnd) as (N & E).
  destruct (pipe_ready p s [] b' r (rev (lit "{{" ++ dash l ++ b) ++ a) R T (set_ready true (st (a', b0) t T)) P (bl_nil) B' C)
    as (M & E').
  { apply len1. discriminate. }
  { split; [|repeat split]. right. split; [reflexivity|]. split; [apply (first_err _ _ F)|exact L]. }
  exists (S (N + M)). intros fuel G. destruct fuel as [|fuel]; [lia|].
  rewrite <- !app_assoc. rewrite (scan_open l b _ a B O D t a' b0 L).
  unfold after_tok. cbn [st tok].
  destruct (first_parser _ t tab inh F) as (X & Y). rewrite X.
  assert (Z : forall A (u v : A), match t with TEnd => u | _ => v end = v) by (intros; destruct t; congruence || reflexivity).
  replace (match t with
   | TEnd => scan_action fuel tab inh (mkIn (fst (a', b0)) (snd (a', b0)) t false None T false)
   | _ => _ end) with
   (do i <- putback (st (a', b0) t T);
    do r <- scan_pipeline fuel [] i;
    let '(p, i) := r in
    if is_end i then
      do r <- scan_action fuel tab inh i;
      let '(acts, els, i) := r in Ret (APipe p :: acts, els, i)
    else Ret ([APipe p], [], bad_token i)).
  2:{ destruct t; congruence || reflexivity. }
  change (putback (st (a', b0) t T)) with (Ret (set_ready true (st (a', b0) t T))). cbn [bind].
  rewrite E' by lia. cbn [bind app is_end tok st].
  replace (rev (lit "{{" ++ dash l ++ b ++ s ++ b' ++ dash r ++ lit "}}") ++ a)
    with (rev (s ++ b' ++ dash r ++ lit "}}") ++ rev (lit "{{" ++ dash l ++ b) ++ a) in E by pos.
  rewrite E by lia. reflexivity.
Qed.

(** ** An action that begins with a keyword *)
Definition runs (P : parser) (inh : bool) (i : input) (res : parsed) : Prop :=
  exists N, forall fuel, N <= fuel -> run_parser fuel P inh i = Ret res.

Lemma keyword_read : forall l b w y a tab inh P T acts e j x els k,
  blank b -> opening l b -> name w -> word_end y -> find_action_parser tab inh w = Some P ->
  runs P inh (st (rev (lit "{{" ++ dash l ++ b ++ w) ++ a, y) (TIdent w) T) (acts, e, St_ok, j) -> tok j = TEnd ->
  scans tab inh j (x, els, k) ->
  forall tk, scans tab inh (st (a, lit "{{" ++ dash l ++ b ++ w ++ y) tk T) (acts ++ x, els, k).
Proof.
  intros l b w y a tab inh P T acts e j x els k B O N Y F (M & E) J (M' & E') tk.
  exists (S (M + M')). intros fuel G. destruct fuel as [|fuel]; [lia|].
  rewrite (scan_word l b w y a B O N Y). rewrite (after_ok _ _ _ (st (rev (lit "{{" ++ dash l ++ b ++ w) ++ a, y) (TIdent w) T) w P acts e j eq_refl F (E fuel ltac:(lia)) J).
  rewrite E' by lia. reflexivity.
Qed.
Lemma keyword_ends : forall l b w y a tab inh P T acts e j,
  blank b -> opening l b -> name w -> word_end y -> find_action_parser tab inh w = Some P ->
  runs P inh (st (rev (lit "{{" ++ dash l ++ b ++ w) ++ a, y) (TIdent w) T) (acts, e, St_end, j) -> tok j = TEnd ->
  forall tk, scans tab inh (st (a, lit "{{" ++ dash l ++ b ++ w ++ y) tk T) (acts, e, j).
Proof.
  intros l b w y a tab inh P T acts e j B O N Y F (M & E) J tk.
  exists (S M). intros fuel G. destruct fuel as [|fuel]; [lia|].
  rewrite (scan_word l b w y a B O N Y). apply (after_end _ _ _ (st (rev (lit "{{" ++ dash l ++ b ++ w) ++ a, y) (TIdent w) T) w P acts e j eq_refl F (E fuel ltac:(lia)) J).
Qed.
Lemma keyword_opens : forall l b w y, blank b -> opening l b -> name w -> opens l (lit "{{" ++ dash l ++ b ++ w ++ y).
Proof. intros l b w y B O N. apply opens_tag; [exact B|exact O|]. apply name_no_dash, N. Qed.

Lemma blank_word_end : forall b y, blank b -> b <> [] -> word_end (b ++ y).
Proof.
  intros b y B N. split; [destruct b; [contradiction|discriminate]|].
  intros c r' E. destruct b as [|d b]; [contradiction|]. injection E as -> _.
  destruct (blank_head c b B) as [H| ->]; [|reflexivity].
  assert (K : breaks (c :: b)) by (apply space_breaks; exists c, b; auto). apply (breaks_ident _ K c b eq_refl).
Qed.
Lemma quote_word_end : forall b y, blank b -> word_end (b ++ """"%char :: y).
Proof.
  intros b y B. destruct b as [|c b].
  - split; [discriminate|]. intros c r E. cbn [app] in E. injection E as <- _. reflexivity.
  - apply blank_word_end; [exact B|discriminate].
Qed.

(** if, with and range: the condition and what belongs to it *)
Lemma if_runs : forall inh p s b1 b' r a R T i yes no j, pipeline p s -> blank b1 -> blank b' -> closing r b' -> 1 <= length a ->
  ready_at i a (b1 ++ s ++ b' ++ dash r ++ lit "}}" ++ R) T ->
  scans CondTab inh (st (place r (rev (b1 ++ s ++ b' ++ dash r ++ lit "}}") ++ a) R) TEnd T) (yes, no, j) -> error j = None ->
  runs P_if inh i ([ACond p no yes], [], St_ok, j).
Proof.
  intros inh p s b1 b' r a R T i yes no j P B1 B' C L H (M & E') Ej.
  destruct (pipe_ready p s b1 b' r a R T i P B1 B' C L H) as (N & E).
  exists (S (N + M)). intros fuel G. destruct fuel as [|fuel]; [lia|].
  cbn [run_parser]. rewrite E by lia. cbn [bind is_end tok st]. rewrite E' by lia. cbn [bind]. unfold by_error. rewrite Ej. reflexivity.
Qed.

Lemma variable_lex : forall v t, variable v t -> forall a y, word_end y ->
  exists k, lex a (t ++ y) = Lex k None (rev t ++ a) y /\ forall ab T, var_of (st ab k T) = Some v.
Proof.
  intros [n|] t; cbn [variable].
  - intros (N & ->) a y (Y1 & Y2). exists (TVar n). cbn [app]. split.
    + rewrite (lex_var a n y N Y1 Y2). f_equal. cbn [rev]. rewrite <- app_assoc. reflexivity.
    + intros ab T. reflexivity.
  - intros -> a y Y. exists (TChar "_"%char). split; [apply lex_mark; cbn; auto 10|]. intros ab T. reflexivity.
Qed.
Lemma mark_word_end : forall b c y, blank b -> In c (lit "()|=,}") -> word_end (b ++ c :: y).
Proof. intros b c y B H. apply breaks_word_end, blank_breaks; [exact B|]. apply mark_breaks, H. Qed.

(** What parse_with_var leaves *)
Lemma with_var_read : forall v p w s b' r R a T tk, with_word v p w -> pipeline p s -> blank b' -> closing r b' ->
  exists y a2 b2 i, w = lit "with" ++ y /\ (forall z, word_end (y ++ z))
    /\ parse_with_var (st (a, y ++ s ++ b' ++ dash r ++ lit "}}" ++ R) tk T) = Ret (Some v, i)
    /\ blank b2 /\ rev b2 ++ a2 = rev y ++ a /\ length a <= length a2
    /\ ready_at i a2 (b2 ++ s ++ b' ++ dash r ++ lit "}}" ++ R) T.
Proof.
  intros v p w s b' r R a T tk W P B' C. pose proof (close_breaks b' r R B' C) as K.
  destruct W as [(-> & (b & -> & B & Bn) & V)|(b & t & b1 & b2 & -> & B & Bn & V & B1 & B2)].
  - destruct (pipeline_first p s P (rev b ++ a) _ K) as (t & a' & b0 & L & F).
    assert (F' : first_ok false t).
    { unfold no_variable in V. unfold head_variable in F. destruct p; [exact F|]. rewrite V in F. exact F. }
    exists b, a, b, (set_ready true (st (a', b0) t T)).
    split; [reflexivity|]. split; [intros z; apply blank_word_end; assumption|]. split.
    { unfold parse_with_var. rewrite (ready_blank _ a b _ T t a' b0 B (ready_st _ _ _ _) L). cbn [bind].
      change (var_of (st (a', b0) t T)) with (var_of (at_tok t a' b0 (st (a', b0) t T))).
      rewrite (first_variable t a' b0 _ F'). reflexivity. }
    split; [exact B|]. split; [reflexivity|]. split; [lia|].
    split; [|repeat split]. right. split; [reflexivity|]. split; [apply (first_err _ _ F)|].
    rewrite lex_blank by exact B. exact L.
  - set (X := s ++ b' ++ dash r ++ lit "}}" ++ R).
    assert (Y1 : word_end (b1 ++ lit "=" ++ b2 ++ X)) by (apply mark_word_end; [exact B1|cbn; auto 10]).
    destruct (variable_lex v t V (rev b ++ a) _ Y1) as (k & L & Vk).
    exists (b ++ t ++ b1 ++ lit "=" ++ b2), (rev (b ++ t ++ b1 ++ lit "=") ++ a), b2,
      (st (rev (b ++ t ++ b1 ++ lit "=") ++ a, b2 ++ X) (TChar "="%char) T).
    split; [reflexivity|]. split; [intros z; rewrite <- app_assoc; apply blank_word_end; assumption|]. split.
    { rewrite <- !app_assoc. fold X. unfold parse_with_var.
      rewrite (ready_blank _ a b _ T k _ _ B (ready_st _ _ _ _) L). cbn [bind]. rewrite Vk.
      rewrite (ready_blank _ (rev t ++ rev b ++ a) b1 (lit "=" ++ b2 ++ X) T (TChar "="%char)
                 ("="%char :: rev b1 ++ rev t ++ rev b ++ a) (b2 ++ X) B1 (ready_st _ _ _ _)).
      2:{ apply lex_mark. cbn; auto 10. }
      cbn [bind]. unfold is_char. cbn [tok st]. rewrite beq_refl. repeat f_equal.
      repeat rewrite rev_app_distr. rewrite <- !app_assoc. reflexivity. }
    split; [exact B2|]. split; [pos|]. split; [rewrite app_length; lia|]. apply ready_st.
Qed.
Lemma range_vars_read : forall v0 v p w s b' r R a T tk, range_word v0 v p w -> pipeline p s -> blank b' -> closing r b' ->
  exists y a2 b2 i, w = lit "range" ++ y /\ (forall z, word_end (y ++ z))
    /\ parse_range_vars (st (a, y ++ s ++ b' ++ dash r ++ lit "}}" ++ R) tk T) = Ret (Some (v0, v), i)
    /\ blank b2 /\ rev b2 ++ a2 = rev y ++ a /\ length a <= length a2
    /\ ready_at i a2 (b2 ++ s ++ b' ++ dash r ++ lit "}}" ++ R) T.
Proof.
  intros v0 v p w s b' r R a T tk W P B' C. pose proof (close_breaks b' r R B' C) as K.
  destruct W as [(-> & -> & (b & -> & B & Bn) & V)|(b & t & b1 & b2 & u & b3 & b4 & -> & B & Bn & V0 & B1 & B2 & V & B3 & B4)].
  - destruct (pipeline_first p s P (rev b ++ a) _ K) as (t & a' & b0 & L & F).
    assert (F' : first_ok false t).
    { unfold no_variable in V. unfold head_variable in F. destruct p; [exact F|]. rewrite V in F. exact F. }
    exists b, a, b, (set_ready true (st (a', b0) t T)).
    split; [reflexivity|]. split; [intros z; apply blank_word_end; assumption|]. split.
    { unfold parse_range_vars. rewrite (ready_blank _ a b _ T t a' b0 B (ready_st _ _ _ _) L). cbn [bind].
      change (var_of (st (a', b0) t T)) with (var_of (at_tok t a' b0 (st (a', b0) t T))).
      rewrite (first_variable t a' b0 _ F'). reflexivity. }
    split; [exact B|]. split; [reflexivity|]. split; [lia|].
    split; [|repeat split]. right. split; [reflexivity|]. split; [apply (first_err _ _ F)|].
    rewrite lex_blank by exact B. exact L.
  - set (X := s ++ b' ++ dash r ++ lit "}}" ++ R).
    assert (Y3 : word_end (b3 ++ lit "=" ++ b4 ++ X)) by (apply mark_word_end; [exact B3|cbn; auto 10]).
    assert (Y1 : word_end (b1 ++ lit "," ++ b2 ++ u ++ b3 ++ lit "=" ++ b4 ++ X)) by (apply mark_word_end; [exact B1|cbn; auto 10]).
    destruct (variable_lex v0 t V0 (rev b ++ a) _ Y1) as (k & L & Vk).
    destruct (variable_lex v u V (rev b2 ++ ","%char :: rev b1 ++ rev t ++ rev b ++ a) _ Y3) as (k' & L' & Vk').
    exists (b ++ t ++ b1 ++ lit "," ++ b2 ++ u ++ b3 ++ lit "=" ++ b4),
      (rev (b ++ t ++ b1 ++ lit "," ++ b2 ++ u ++ b3 ++ lit "=") ++ a), b4,
      (st (rev (b ++ t ++ b1 ++ lit "," ++ b2 ++ u ++ b3 ++ lit "=") ++ a, b4 ++ X) (TChar "="%char) T).
    split; [reflexivity|]. split; [intros z; rewrite <- app_assoc; apply blank_word_end; assumption|]. split.
    { rewrite <- !app_assoc. fold X. unfold parse_range_vars.
      rewrite (ready_blank _ a b _ T k _ _ B (ready_st _ _ _ _) L). cbn [bind]. rewrite Vk.
      rewrite (ready_blank _ (rev t ++ rev b ++ a) b1 (lit "," ++ b2 ++ u ++ b3 ++ lit "=" ++ b4 ++ X) T (TChar ","%char)
                 (","%char :: rev b1 ++ rev t ++ rev b ++ a) (b2 ++ u ++ b3 ++ lit "=" ++ b4 ++ X) B1 (ready_st _ _ _ _)).
      2:{ apply lex_mark. cbn; auto 10. }
      cbn [bind]. unfold is_char at 1. cbn [tok st]. rewrite beq_refl.
      rewrite (ready_blank _ _ b2 _ T k' _ _ B2 (ready_st _ _ _ _) L'). cbn [bind]. rewrite Vk'.
      rewrite (ready_blank _ _ b3 (lit "=" ++ b4 ++ X) T (TChar "="%char)
                 ("="%char :: rev b3 ++ rev u ++ rev b2 ++ ","%char :: rev b1 ++ rev t ++ rev b ++ a) (b4 ++ X) B3 (ready_st _ _ _ _)).
      2:{ apply lex_mark. cbn; auto 10. }
      cbn [bind]. unfold is_char. cbn [tok st]. rewrite beq_refl. repeat f_equal.
      repeat rewrite rev_app_distr. rewrite <- !app_assoc. reflexivity. }
    split; [exact B4|]. split; [pos|]. split; [rewrite app_length; lia|]. apply ready_st.
Qed.
