(** Proofs about how a template is read *)
From Coq Require Import Ascii String List ZArith Bool Lia.
From Verif Require Import Bytes TplModel TplSpec TplLexProofs TplPipeProofs.
Import ListNotations.
Local Open Scope nat_scope.
Local Open Scope string_scope.
Local Open Scope list_scope.

(** ** The first token of a pipeline *)
Definition first_ok (v : bool) (t : token) : Prop :=
  match t with
  | TDot | TAttr _ | TNum _ | TStr _ => True
  | TVar _ => v = true
  | TIdent w => In w functions \/ w = lit "true" \/ w = lit "false"
  | TChar c => c = "("%char
  | _ => False
  end.
Lemma base_first : forall c s, base c s -> forall a r, breaks r \/ (exists r', r = "."%char :: r') ->
  exists t a' b', lex a (s ++ r) = Lex t None a' b' /\ first_ok (begins_with_variable c) t.
Proof.
  induction 1 as [n N|n N|p b s b' B P B'|c s n Bs IH A]; intros a r F.
  - eexists _, _, _. split; [apply (lex_attr a n r N F)|exact I].
  - destruct (breaks_dot_ident r F) as (F1 & F2).
    eexists _, _, _. split; [apply (lex_var a n r N F1 F2)|reflexivity].
  - eexists _, _, _. split; [apply lex_mark; cbn; auto|reflexivity].
  - destruct (IH a (("."%char :: n) ++ r)) as (t & a' & b' & E & O); [right; eexists; reflexivity|].
    exists t, a', b'. rewrite <- app_assoc. split; [exact E|exact O].
Qed.
Lemma blank_breaks : forall b r, blank b -> breaks r -> breaks (b ++ r).
Proof.
  intros b r B R. destruct B as [|c b C B|t b C B]; [exact R| |].
  - exists c, (b ++ r). split; [reflexivity|]. split; [apply space_attr, C|]. intros ->. discriminate.
  - eexists "/"%char, _. rewrite <- !app_assoc. split; [reflexivity|]. split; [reflexivity|discriminate].
Qed.
Lemma mark_breaks : forall c r, In c (lit "()|=,}") -> breaks (c :: r).
Proof.
  intros c r H. exists c, r. split; [reflexivity|]. cbn in H.
  repeat (destruct H as [H|H]; [subst c; split; [reflexivity|discriminate]|]). contradiction.
Qed.
Lemma command_first : forall c s, command c s -> forall a r, breaks r ->
  exists t a' b', lex a (s ++ r) = Lex t None a' b' /\ first_ok (begins_with_variable c) t.
Proof.
  intros c s [c' s' T|f l t F A] a r B.
  - destruct T as [|c' s' Bs|n s' N|s' t Q| |].
    + eexists _, _, _. split; [apply lex_dot, B|exact I].
    + apply base_first; [exact Bs|left; exact B].
    + eexists _, _, _. split; [apply (lex_number a n s' r N B)|exact I].
    + eexists _, _, _. cbn [app]. rewrite <- app_assoc. split; [apply (lex_string a s' t r Q)|exact I].
    + eexists _, _, _. split; [apply (lex_ident a _ r name_true B)|]. right; left; reflexivity.
    + eexists _, _, _. split; [apply (lex_ident a _ r name_false B)|]. right; right; reflexivity.
  - assert (K : breaks (t ++ r)).
    { destruct (arguments_first l t A) as [->|(c0 & t0 & -> & X)]; [exact B|].
      apply space_breaks. exists c0, (t0 ++ r). split; [reflexivity|exact X]. }
    rewrite <- app_assoc. eexists _, _, _. split; [apply (lex_ident a f _ (functions_name f F) K)|]. left; exact F.
Qed.
Definition head_variable (p : list cmd) : bool := match p with c :: _ => begins_with_variable c | [] => false end.
Lemma pipeline_first : forall p s, pipeline p s -> forall a r, breaks r ->
  exists t a' b', lex a (s ++ r) = Lex t None a' b' /\ first_ok (head_variable p) t.
Proof.
  intros p s [c s' C|c s' b b' p' t C B B' P] a r K.
  - apply command_first; assumption.
  - rewrite <- app_assoc. apply command_first; [exact C|]. rewrite <- app_assoc. apply blank_breaks; [exact B|].
    apply mark_breaks. cbn; auto.
Qed.
Lemma first_err : forall v t, first_ok v t -> t <> TErr.
Proof. intros v t H ->. exact H. Qed.
Lemma first_parser : forall v t tab inh, first_ok v t ->
  match t with TIdent w => find_action_parser tab inh w | _ => None end = None /\ t <> TEnd.
Proof.
  intros v t tab inh H. destruct t; cbn in H; try contradiction; try (split; [reflexivity|discriminate]).
  split; [|discriminate]. destruct H as [H|[H|H]].
  - unfold functions in H. cbn in H.
    destruct tab, inh; repeat (destruct H as [H|H]; [subst s; reflexivity|]); contradiction.
  - subst s. destruct tab, inh; reflexivity.
  - subst s. destruct tab, inh; reflexivity.
Qed.
Lemma first_variable : forall t a b i, first_ok false t -> var_of (at_tok t a b i) = None.
Proof. intros t a b i H. destruct t; cbn in H; try contradiction; try reflexivity; [discriminate|subst c; reflexivity]. Qed.

(** ** Delimiters *)
Definition st (ab : bytes * bytes) (t : token) (T : list (bytes * list act)) : input :=
  mkIn (fst ab) (snd ab) t false None T false.
Definition opens (l : bool) (R : bytes) : Prop :=
  starts (lit "{{") R = true /\ starts (lit "{{-") R && head_is is_space (skipn 3 R) = l.
Definition no_dash (x : bytes) : Prop :=
  match x with d :: c :: _ => d = "-"%char -> is_space c = false | _ => True end.

Lemma blank_head : forall c b, blank (c :: b) -> is_space c = true \/ c = "/"%char.
Proof.
  intros c b B. remember (c :: b) as x eqn:E. destruct B as [|c' b' H B|t b' H B]; [discriminate| |].
  - injection E as -> _. left. exact H.
  - cbn in E. injection E as <- _. right. reflexivity.
Qed.
Lemma blank_no_dash : forall b x, blank b -> no_dash x -> no_dash (b ++ x).
Proof.
  intros b x B N. destruct b as [|c b]; [exact N|]. cbn [app no_dash]. destruct (b ++ x); [exact I|].
  intros ->. destruct (blank_head _ _ B); discriminate.
Qed.
Lemma opens_tag : forall l b x, blank b -> opening l b -> no_dash x -> opens l (lit "{{" ++ dash l ++ b ++ x).
Proof.
  intros l b x B O N. split; [apply starts_app|]. destruct l; cbn [dash].
  - destruct (O eq_refl) as (c & r & -> & C). cbn [app]. cbn. exact C.
  - pose proof (blank_no_dash b x B N) as D. cbn [app]. destruct (b ++ x) as [|d y]; [reflexivity|].
    change (starts (lit "{{-") (lit "{{" ++ d :: y)) with (beq "-"%char d && true).
    change (skipn 3 (lit "{{" ++ d :: y)) with y. destruct (beq "-"%char d) eqn:E; [|reflexivity].
    apply beq_eq in E. subst d. destruct y as [|c y]; [reflexivity|]. cbn [head_is andb]. apply D. reflexivity.
Qed.

(** The token of the opening delimiter *)

Lemma gettext_open : forall l b x a, blank b -> opening l b -> no_dash x ->
  exists p b0, p ++ b0 = lit "{{" ++ dash l ++ b /\ blank b0 /\ 2 <= length p
    /\ forall i, ready i = false -> pre i = a -> post i = lit "{{" ++ dash l ++ b ++ x ->
       gettext i = Ret (at_tok TBeg (rev p ++ a) (b0 ++ x) i) /\ gettok i = Ret (at_tok TBeg (rev p ++ a) (b0 ++ x) i).
Proof.
  intros l b x a B O N. destruct (opens_tag l b x B O N) as (_ & E).
  destruct l; cbn [dash].
  - destruct (O eq_refl) as (c & r & -> & C).
    exists (lit "{{-" ++ [c]), r. split; [reflexivity|]. split; [apply (blank_tail c), B; exact C|].
    split; [cbn; lia|].
    intros i R P Q. destruct i. cbn in R, P, Q. subst.
    split.
    + unfold gettext. cbn [TplModel.post]. cbn. rewrite C. reflexivity.
    + unfold gettok. cbn [TplModel.ready TplModel.pre TplModel.post]. unfold lex. cbn. rewrite C. reflexivity.
  - exists (lit "{{"), b. split; [reflexivity|]. split; [exact B|]. split; [cbn; lia|].
    intros i R P Q. destruct i. cbn in R, P, Q. subst. cbn [dash] in E.
    split.
    + unfold gettext. cbn [TplModel.post]. change (lit "{{" ++ [] ++ b ++ x) with ("{"%char :: "{"%char :: b ++ x) in *.
      cbn [upto]. change (starts (lit "{{") ("{"%char :: "{"%char :: b ++ x)) with true. cbn iota. rewrite E. reflexivity.
    + unfold gettok. cbn [TplModel.ready TplModel.pre TplModel.post].
      change (lit "{{" ++ [] ++ b ++ x) with ("{"%char :: "{"%char :: b ++ x) in *.
      rewrite lex_solid by (split; [reflexivity|discriminate]). unfold token_at.
      change (starts (lit "{{") ("{"%char :: "{"%char :: b ++ x)) with true.
      change (is_alpha "{"%char) with false. change (is_digit "{"%char) with false.
      change (beq "{"%char """"%char) with false. change (beq "{"%char "."%char) with false.
      change (beq "{"%char "-"%char) with false. change (beq "{"%char "$"%char) with false. cbn iota. cbn [andb].
      replace (head_is (fun d => beq d "-"%char) (skipn 2 ("{"%char :: "{"%char :: b ++ x)) &&
               head_is is_space (skipn 3 ("{"%char :: "{"%char :: b ++ x))) with false; [reflexivity|].
      symmetry. refine (eq_trans _ E). destruct (b ++ x) as [|d y]; [reflexivity|].
      change (starts (lit "{{-") ("{"%char :: "{"%char :: d :: y)) with (beq "-"%char d && true).
      cbn [skipn head_is]. rewrite andb_true_r. f_equal.
Qed.

(** ** Text *)
Definition scans (tab : table) (inh : bool) (i : input) (res : list act * list act * input) : Prop :=
  exists N, forall fuel, N <= fuel -> scan_action fuel tab inh i = Ret res.
Definition follows (n : next) (R : bytes) : Prop := match n with At_end => R = [] | Tag l => opens l R end.

Lemma opens_head : forall l R, opens l R -> exists y, R = "{"%char :: "{"%char :: y.
Proof. intros l R (A & _). destruct (starts_true _ _ A) as (r & ->). exists r. reflexivity. Qed.
Lemma upto_plain : forall t n R, plain n t -> follows n R -> upto (t ++ R) = (t, R).
Proof.
  induction t as [|c t IH]; intros n R P F.
  - destruct n as [|l]; cbn [follows] in F; [subst R; reflexivity|].
    cbn [app]. destruct F as (A & _). destruct R as [|c R]; [discriminate|]. cbn [upto]. rewrite A. reflexivity.
  - assert (P' : plain n t).
    { destruct n; cbn [plain] in *; intros (x & y & E); apply P; exists (c :: x), y; cbn [app]; rewrite E; reflexivity. }
    cbn [app upto]. rewrite (IH n R P' F).
    destruct (starts (lit "{{") (c :: t ++ R)) eqn:S; [exfalso|reflexivity].
    destruct (starts_true _ _ S) as (r & E). change (lit "{{" ++ r) with ("{"%char :: "{"%char :: r) in E.
    injection E as -> E. destruct t as [|d t].
    + destruct n as [|l]; cbn [follows] in F; [subst R; discriminate|].
      cbn [plain] in P. apply P. exists [], []. reflexivity.
    + injection E as -> _. destruct n; cbn [plain] in P; apply P; exists [].
      * exists t. reflexivity.
      * exists (t ++ lit "{"). reflexivity.
Qed.

Lemma plain_suffix : forall n w v, plain n (w ++ v) -> plain n v.
Proof.
  intros n w v P. destruct n; cbn [plain] in *; intros (x & y & E); apply P; exists (w ++ x), y.
  - rewrite E, <- app_assoc. reflexivity.
  - rewrite <- !app_assoc, E. reflexivity.
Qed.
Lemma space_span : forall w v, (forall c, In c w -> is_space c = true) -> ~ space_first v -> span is_space (w ++ v) = (w, v).
Proof.
  intros w v A N. apply span_all; [exact A|]. intros c r ->. destruct (is_space c) eqn:E; [|reflexivity].
  exfalso. apply N. exists c, r. auto.
Qed.
Lemma rtrim_is : forall v u, without_trailing v u -> rtrim v = u.
Proof.
  intros v u (w & -> & A & N). unfold rtrim. rewrite rev_app_distr, space_span.
  - cbn [snd]. apply rev_involutive.
  - intros c I. apply A. apply in_rev. exact I.
  - intros (c & r & E & C). apply N. exists (rev r), c. split; [|exact C].
    rewrite <- (rev_involutive u), E. reflexivity.
Qed.

Lemma gettext_text : forall i t R n, plain n t -> follows n R -> post i = t ++ R -> t <> [] ->
  gettext i =
  match (match n with Tag true => rtrim t | _ => t end) with
  | [] => gettok (move (rev t ++ pre i) R i)
  | t' => Ret (set_tok (TText t') (move (rev t ++ pre i) R i))
  end.
Proof.
  intros i t R n P F E N. unfold gettext. rewrite E, (upto_plain t n R P F).
  assert (X : (if starts (lit "{{-") R && head_is is_space (skipn 3 R) then rtrim t else t)
              = match n with Tag true => rtrim t | _ => t end).
  { destruct n as [|l]; cbn [follows] in F; [subst R; reflexivity|]. destruct F as (_ & ->). destruct l; reflexivity. }
  destruct t as [|c t]; [contradiction|]. rewrite X. reflexivity.
Qed.

Lemma scan_action_S : forall fuel t inh i, scan_action (S fuel) t inh i =
  do i <- gettext i;
  match tok i with
  | TEof => Ret ([], [], i)
  | TText s =>
      do r <- scan_action fuel t inh (set_tok TGone i);
      let '(acts, els, i) := r in Ret (AText s :: acts, els, i)
  | TGone =>
      do r <- scan_action fuel t inh i;
      let '(acts, els, i) := r in Ret (ANull :: acts, els, i)
  | TBeg =>
      do i <- gettok i;
      match tok i, (match tok i with TIdent w => find_action_parser t inh w | _ => None end) with
      | TEnd, _ => scan_action fuel t inh i
      | _, Some p =>
          do r <- run_parser fuel p inh i;
          let '(a, els, st, i) := r in
          match st with
          | St_err => Ret (a, els, bad_token i)
          | _ =>
              if negb (is_end i) && (match error i with None => true | Some _ => false end)
              then Ret (a, els, bad_token i)
              else
                match st with
                | St_end => Ret (a, els, i)
                | _ =>
                    do r <- scan_action fuel t inh i;
                    let '(acts, els, i) := r in Ret (a ++ acts, els, i)
                end
          end
      | _, None =>
          do i <- putback i;
          do r <- scan_pipeline fuel [] i;
          let '(p, i) := r in
          if is_end i then
            do r <- scan_action fuel t inh i;
            let '(acts, els, i) := r in Ret (APipe p :: acts, els, i)
          else Ret ([APipe p], [], bad_token i)
      end
  | _ => Ret ([], [], set_error ERR_BADTOK i)
  end.
Proof. reflexivity. Qed.

Lemma gettext_opens : forall l R i, opens l R -> ready i = false -> post i = R ->
  gettext i = gettok i.
Proof.
  intros l R i O F E. destruct (opens_head l R O) as (y & ->). destruct O as (_ & O).
  unfold gettext, gettok. rewrite F, E. cbn [upto].
  change (starts (lit "{{") ("{"%char :: "{"%char :: y)) with true. cbn iota. rewrite O.
  rewrite lex_solid by (split; [reflexivity|discriminate]). unfold token_at.
  change (starts (lit "{{") ("{"%char :: "{"%char :: y)) with true.
  change (is_alpha "{"%char) with false. change (is_digit "{"%char) with false.
  change (beq "{"%char """"%char) with false. change (beq "{"%char "."%char) with false.
  change (beq "{"%char "-"%char) with false. change (beq "{"%char "$"%char) with false. cbn iota. cbn [andb].
  replace (head_is (fun d => beq d "-"%char) (skipn 2 ("{"%char :: "{"%char :: y)) &&
           head_is is_space (skipn 3 ("{"%char :: "{"%char :: y))) with l; [reflexivity|].
  symmetry. refine (eq_trans _ O). destruct y as [|d y]; [reflexivity|].
  change (starts (lit "{{-") ("{"%char :: "{"%char :: d :: y)) with (beq "-"%char d && true).
  cbn [skipn head_is]. rewrite andb_true_r. f_equal.
Qed.

Lemma chunk_read : forall n t before u R a tab inh T x els k,
  plain n t -> trimmed before n t u -> follows n R ->
  (forall tk, scans tab inh (st (rev t ++ a, R) tk T) (x, els, k)) ->
  forall tk, scans tab inh (st (place before a (t ++ R)) tk T) (text_action u ++ x, els, k).
Proof.
  intros n t before u R a tab inh T x els k P (v & V & U) F H tk.
  assert (Q : exists w, t = w ++ v /\ place before a (t ++ R) = (rev w ++ a, v ++ R)).
  { destruct before.
    - destruct V as (w & -> & A & N). exists w. split; [reflexivity|]. unfold place. rewrite <- app_assoc, space_span; [reflexivity|exact A|].
      intros (c & r & E & C). destruct v as [|d v].
      + cbn [app] in E. destruct n as [|l]; cbn [follows] in F; [subst R; discriminate|].
        destruct (opens_head l R F) as (y & ->). injection E as <- _. discriminate.
      + apply N. cbn [app] in E. injection E as -> _. exists c, v. auto.
    - subst v. exists []. split; reflexivity. }
  destruct Q as (w & -> & ->). pose proof (plain_suffix n w v P) as Pv.
  assert (RV : rev (w ++ v) ++ a = rev v ++ rev w ++ a) by (rewrite rev_app_distr, <- app_assoc; reflexivity).
  rewrite RV in H.
  destruct v as [|c v].
  - (* no text left before the end or the action *)
    assert (u = []) as ->.
    { destruct n as [|[]]; [exact U| |exact U]. destruct U as (w' & E & _). destruct u; [reflexivity|discriminate]. }
    cbn [app rev text_action] in *. apply H.
  - assert (U' : match n with Tag true => rtrim (c :: v) | _ => c :: v end = u).
    { destruct n as [|[]]; [symmetry; exact U| |symmetry; exact U]. apply rtrim_is, U. }
    assert (G : gettext (st (rev w ++ a, (c :: v) ++ R) tk T) =
      match u with
      | [] => gettok (move (rev (c :: v) ++ rev w ++ a) R (st (rev w ++ a, (c :: v) ++ R) tk T))
      | t' => Ret (set_tok (TText t') (move (rev (c :: v) ++ rev w ++ a) R (st (rev w ++ a, (c :: v) ++ R) tk T)))
      end).
    { rewrite (gettext_text _ (c :: v) R n Pv F); [|reflexivity|discriminate]. rewrite U'. destruct u; reflexivity. }
    destruct u as [|d u].
    + (* trimmed away *)
      destruct (H tk) as (N & E). exists N. intros fuel L. cbn [text_action app]. rewrite <- (E fuel L).
      destruct fuel as [|fuel]; [reflexivity|]. rewrite !scan_action_S. cbn [app] in G. rewrite G.
      destruct n as [|[|]]; [discriminate U'| |discriminate U']. cbn [follows] in F.
      rewrite (gettext_opens true R (st (rev (c :: v) ++ rev w ++ a, R) tk T) F eq_refl eq_refl). reflexivity.
    + destruct (H TGone) as (N & E). exists (S N). intros fuel L. destruct fuel as [|fuel]; [lia|].
      rewrite scan_action_S, G. cbn [bind set_tok move tok].
      change (set_tok TGone (set_tok (TText (d :: u)) (move (rev (c :: v) ++ rev w ++ a) R (st (rev w ++ a, (c :: v) ++ R) tk T))))
        with (st (rev (c :: v) ++ rev w ++ a, R) TGone T).
      cbn [text_action app]. rewrite E by lia. reflexivity.
Qed.
