From Coq Require Import List Arith Bool Lia.
From Verif Require Import Bytes AurModel AurSpec.
Import ListNotations.

Lemma put_length {A} (l : list A) : forall i x, length (put l i x) = length l.
Proof. induction l as [|y l IH]; intros [|i] x; cbn; auto. Qed.
Lemma put_in {A} (l : list A) : forall i x z, In z (put l i x) -> z = x \/ In z l.
Proof. induction l as [|y l IH]; intros [|i] x z H; cbn in *; intuition. apply IH in H0. tauto. Qed.
Lemma nth_put_other {A} (l : list A) : forall i j x, i <> j -> nth_error (put l i x) j = nth_error l j.
Proof. induction l as [|z l IH]; intros [|i] [|j] x H; cbn; try reflexivity; try congruence. apply IH. congruence. Qed.

Section Proofs.
  Variable matches : bytes -> bytes -> bool.

  Definition says (l : list entry) (n k : bytes) : bool :=
    match find (fun e => bytes_eqb (user e) n) l with Some e => matches k (pass e) | None => false end.

  (** * Nobody changes the file *)
  Definition fine (t : nat) (c : list entry) (h : list node) (w : worker) : Prop :=
    match ph w with
    | Begin | Search => True
    | Read d => d = Some (t, c)
    | At p => exists l, spells h p l /\ says l (name w) (key w) = verdict matches c (name w) (key w)
    | End b => b = verdict matches c (name w) (key w)
    | _ => False
    end.

  Lemma step_fine t c s e s' : loaded s t c -> Forall (fine t c (heap (mem s))) (ws s) -> (forall d, e <> Save d) -> step matches s e = Some s' ->
    loaded s' t c /\ Forall (fine t c (heap (mem s'))) (ws s').
  Proof.
    intros (L1 & L2 & L3) F NS S. destruct e as [i|d|n k]; cbn [step] in S; [|destruct (NS d eq_refl)|].
    - destruct (nth_error (ws s) i) as [w|] eqn:E; [|discriminate]. pose proof (proj1 (Forall_forall _ _) F w (nth_error_In _ _ E)) as FW.
      destruct (wstep matches (mem s) (disk s) w) as [[m p]|] eqn:W; [|discriminate]. inversion S; subst. clear S. unfold fine in FW. unfold wstep in W.
      assert (Q : m = mem s -> fine t c (heap (mem s)) (mkW (name w) (key w) p) ->
        loaded (mkS m (disk s) (put (ws s) i (mkW (name w) (key w) p))) t c /\ Forall (fine t c (heap m)) (put (ws s) i (mkW (name w) (key w) p))).
      { intros -> FP. split; [repeat split; assumption|]. rewrite Forall_forall in *. intros z Z. apply put_in in Z. destruct Z as [->|Z]; [exact FP|apply F; exact Z]. }
      destruct (ph w) as [|d|cc|cc| |p0|b|] eqn:P; try contradiction.
      + inversion W; subst. apply Q; [reflexivity|]. cbn. exact L1.
      + subst d. rewrite L2 in W. cbn [time_eqb] in W. rewrite Nat.eqb_refl in W. inversion W; subst. apply Q; [reflexivity|exact I].
      + inversion W; subst. apply Q; [reflexivity|]. cbn. exists (rev c). split; [exact L3|reflexivity].
      + destruct FW as (l & SP & V). destruct SP as [|a e n l E1 SP].
        * inversion W; subst. apply Q; [reflexivity|]. cbn. exact V.
        * rewrite E1 in W. unfold says in V. cbn [find] in V. destruct (bytes_eqb (user e) (name w)) eqn:B; inversion W; subst; (apply Q; [reflexivity|]); cbn; [exact V|].
          exists l. split; [exact SP|exact V].
      + discriminate.
    - inversion S; subst. cbn. split; [repeat split; assumption|]. apply Forall_app. split; [exact F|]. constructor; [exact I|constructor].
  Qed.

  Lemma steady l : forall s t c s', loaded s t c -> Forall (fine t c (heap (mem s))) (ws s) -> ~ saves l -> run matches s l = Some s' ->
    loaded s' t c /\ Forall (fine t c (heap (mem s'))) (ws s').
  Proof.
    induction l as [|e l IH]; intros s t c s' L F NS R; cbn in R; [inversion R; subst; split; assumption|].
    destruct (step matches s e) as [s1|] eqn:S; [|discriminate].
    destruct (step_fine t c s e s1 L F) as [L1 F1]; [intros d ->; apply NS; exists d; left; reflexivity|exact S|].
    eapply IH; [exact L1|exact F1| |exact R]. intros (d & D). apply NS. exists d. right. exact D.
  Qed.

  Lemma steady_ok l s t c s' w : loaded s t c -> idle s -> ~ saves l -> run matches s l = Some s' -> In w (ws s') ->
    ph w <> Crash /\ (forall b, ph w = End b -> b = verdict matches c (name w) (key w)).
  Proof.
    intros L D NS R I. destruct (steady l s t c s' L) as [_ F]; [rewrite D; constructor|exact NS|exact R|].
    rewrite Forall_forall in F. specialize (F w I). unfold fine in F. split; [intros E|intros b E]; rewrite E in F; [exact F|exact F].
  Qed.

  (** * One worker alone *)
  Definition solo (m : shared) (d : file) (n k : bytes) (p : phase) : state := mkS m d [mkW n k p].
  Lemma solo_step m d n k p m' p' l : wstep matches m d (mkW n k p) = Some (m', p') -> run matches (solo m d n k p) (Go 0 :: l) = run matches (solo m' d n k p') l.
  Proof. intros W. cbn [run step solo ws nth_error mem disk]. rewrite W. reflexivity. Qed.

  Lemma search_alone d n k l : forall h hd tm p, spells h p l ->
    exists j, run matches (solo (mkH h hd tm) d n k (At p)) (repeat (Go 0) j) = Some (solo (mkH h hd tm) d n k (End (says l n k))).
  Proof.
    induction l as [|e l IH]; intros h hd tm p SP; inversion SP as [|a0 e0 n0 l0 H1 H3]; subst.
    - exists 1. reflexivity.
    - unfold says. cbn [find]. destruct (bytes_eqb (user e) n) eqn:B.
      + exists 1. cbn [repeat]. erewrite solo_step; [reflexivity|]. cbn [wstep ph heap name key]. rewrite H1, B. reflexivity.
      + destruct (IH h hd tm n0 H3) as (j & J). exists (S j). cbn [repeat]. erewrite solo_step; [exact J|]. cbn [wstep ph heap name key]. rewrite H1, B. reflexivity.
  Qed.

  Lemma spells_mono h h' p l : spells h p l -> (forall a e n, nth_error h a = Some (Node e n) -> nth_error h' a = Some (Node e n)) -> spells h' p l.
  Proof. induction 1 as [|a e n l E SP IH]; intros M; econstructor; eauto. Qed.

  Lemma fill_alone d n k tm c : forall h hd l, spells h hd l ->
    exists j h' hd', run matches (solo (mkH h hd tm) d n k (Filling c)) (repeat (Go 0) j) = Some (solo (mkH h' hd' tm) d n k Search) /\ spells h' hd' (rev c ++ l).
  Proof.
    induction c as [|e c IH]; intros h hd l SP.
    - exists 1, h, hd. split; [reflexivity|exact SP].
    - destruct (IH (h ++ [Node e hd]) (Some (length h)) (e :: l)) as (j & h' & hd' & J & SP').
      + econstructor; [rewrite nth_error_app2 by lia; rewrite Nat.sub_diag; reflexivity|]. eapply spells_mono; [exact SP|].
        intros a e' n' A. rewrite nth_error_app1; [exact A|]. apply nth_error_Some. congruence.
      + exists (S j), h', hd'. split; [cbn [repeat]; erewrite solo_step; [exact J|reflexivity]|]. cbn [rev]. rewrite <- app_assoc. exact SP'.
  Qed.

  (** A list has no entry twice: the places are all different, because it ends *)
  Inductive path (h : list node) : option nat -> list nat -> Prop :=
  | pa_nil : path h None []
  | pa_cons a e n l : nth_error h a = Some (Node e n) -> path h n l -> path h (Some a) (a :: l).
  Lemma spells_path h p l : spells h p l -> exists as_, path h p as_ /\ length as_ = length l.
  Proof.
    induction 1 as [|a e n l E SP (as_ & P & L)]; [exists []; split; [constructor|reflexivity]|]. exists (a :: as_). split; [econstructor; eassumption|cbn; lia].
  Qed.
  Lemma path_fun h p l1 : path h p l1 -> forall l2, path h p l2 -> l1 = l2.
  Proof. induction 1 as [|a e n l E P IH]; intros l2 P2; inversion P2 as [|a0 e0 n0 l0 H0 H4]; subst; [reflexivity|]. rewrite E in H0. inversion H0; subst. f_equal. apply IH. assumption. Qed.
  Lemma path_suffix h p l : path h p l -> forall a, In a l -> exists l', path h (Some a) l' /\ length l' <= length l.
  Proof.
    induction 1 as [|b e n l E P IH]; intros a I; [destruct I|]. destruct I as [<-|I].
    - exists (b :: l). split; [econstructor; eassumption|lia].
    - destruct (IH a I) as (l' & P' & L'). exists l'. split; [exact P'|cbn; lia].
  Qed.
  Lemma path_fresh h a e n l : nth_error h a = Some (Node e n) -> path h n l -> ~ In a l.
  Proof.
    intros E P I. destruct (path_suffix h n l P a I) as (l' & P' & L'). pose proof (pa_cons h a e n l E P) as Q.
    pose proof (path_fun h _ _ P' _ Q) as X. subst l'. cbn in L'. lia.
  Qed.
  Lemma path_put h p l a x : path h p l -> ~ In a l -> path (put h a x) p l.
  Proof.
    induction 1 as [|b e n l E P IH]; intros NI; [constructor|]. econstructor; [|apply IH; intros J; apply NI; right; exact J].
    rewrite nth_put_other by (intros ->; apply NI; left; reflexivity). exact E.
  Qed.
  Lemma clear_alone d n k tm c as_ : forall h hd, path h hd as_ ->
    exists j h', run matches (solo (mkH h hd tm) d n k (Clearing c)) (repeat (Go 0) j) = Some (solo (mkH h' None tm) d n k (Filling c)).
  Proof.
    induction as_ as [|a as_ IH]; intros h hd P; inversion P as [|a0 e0 n0 l0 H2 H4]; subst.
    - exists 1, h. reflexivity.
    - destruct (IH (put h a Freed) n0) as (j & h' & J); [apply path_put; [assumption|eapply path_fresh; eassumption]|].
      exists (S j), h'. cbn [repeat]. erewrite solo_step; [exact J|]. cbn [wstep ph head heap]. rewrite H2. reflexivity.
  Qed.

  Lemma run_app s l1 : forall s1 l2, run matches s l1 = Some s1 -> run matches s (l1 ++ l2) = run matches s1 l2.
  Proof.
    revert s. induction l1 as [|e l1 IH]; intros s s1 l2 R; cbn in *; [congruence|]. destruct (step matches s e) as [s2|]; [|discriminate]. apply IH. exact R.
  Qed.

  Lemma search_from h hd tm d n k l : spells h hd l ->
    exists j, run matches (solo (mkH h hd tm) d n k Search) (repeat (Go 0) j) = Some (solo (mkH h hd tm) d n k (End (says l n k))).
  Proof.
    intros SP. destruct (search_alone d n k l h hd tm hd SP) as (j & J). exists (S j). cbn [repeat]. erewrite solo_step; [exact J|reflexivity].
  Qed.

  Lemma alone h hd tm l d n k : spells h hd l ->
    (forall t c, d = Some (t, c) -> tm = Some t -> l = rev c) ->
    exists j h' hd' tm', run matches (mkS (mkH h hd tm) d []) (Come n k :: repeat (Go 0) j) =
        Some (mkS (mkH h' hd' tm') d [mkW n k (End (verdict matches (match d with Some (_, c) => c | None => [] end) n k))]) /\
      tm' = match d with Some (t, _) => Some t | None => None end /\ spells h' hd' (rev (match d with Some (_, c) => c | None => [] end)).
  Proof.
    intros SP OLD. destruct (spells_path h hd l SP) as (as_ & PA & _).
    assert (R0 : forall evs, run matches (mkS (mkH h hd tm) d []) (Come n k :: Go 0 :: evs) = run matches (solo (mkH h hd tm) d n k (Read d)) evs) by reflexivity.
    assert (RE : forall tm' c, exists j h' hd', run matches (solo (mkH h hd tm') d n k (Clearing c)) (repeat (Go 0) j) =
      Some (solo (mkH h' hd' tm') d n k (End (says (rev c) n k))) /\ spells h' hd' (rev c)).
    { intros tm' c. destruct (clear_alone d n k tm' c as_ h hd PA) as (j1 & h1 & J1).
      destruct (fill_alone d n k tm' c h1 None [] (sp_nil h1)) as (j2 & h2 & hd2 & J2 & SP2). rewrite app_nil_r in SP2.
      destruct (search_from h2 hd2 tm' d n k _ SP2) as (j3 & J3).
      exists (j1 + (j2 + j3)), h2, hd2. split; [|exact SP2]. rewrite !repeat_app. rewrite (run_app _ _ _ _ J1), (run_app _ _ _ _ J2). exact J3. }
    destruct d as [[t c]|].
    - destruct (time_eqb tm t) eqn:T.
      + assert (TM : tm = Some t) by (destruct tm; cbn in T; [apply Nat.eqb_eq in T; congruence|discriminate]). specialize (OLD t c eq_refl TM). subst l.
        destruct (search_from h hd tm (Some (t, c)) n k _ SP) as (j & J). exists (S (S j)), h, hd, tm. cbn [repeat]. rewrite R0.
        erewrite solo_step; [|cbn [wstep ph mtim]; rewrite T; reflexivity]. split; [exact J|]. split; [exact TM|exact SP].
      + destruct (RE (Some t) c) as (j & h' & hd' & J & SP'). exists (S (S j)), h', hd', (Some t). cbn [repeat]. rewrite R0.
        erewrite solo_step; [|cbn [wstep ph mtim heap head]; rewrite T; reflexivity]. split; [exact J|]. split; [reflexivity|exact SP'].
    - destruct (RE None []) as (j & h' & hd' & J & SP'). exists (S (S j)), h', hd', None. cbn [repeat]. rewrite R0.
      erewrite solo_step; [|reflexivity]. split; [exact J|]. split; [reflexivity|exact SP'].
  Qed.
End Proofs.
