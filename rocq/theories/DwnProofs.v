(** Proofs about the end of the server (C79). *)
From Coq Require Import List Arith ZArith Bool Lia.
From Verif Require Import PoolModel PoolSpec PoolProofs DwnModel DwnSpec.
Import ListNotations.
Local Open Scope Z_scope.

Section Down.
  Variables mn mx : nat.
  Variable grace : Z.
  Local Notation dstep := (dstep mn mx grace).
  Local Notation drun := (drun mn mx grace).

  (** * The counter of active threads *)
  Lemma signal_busy l c l' : signal l c = Some l' -> count busy l' = count busy l.
  Proof.
    unfold signal. destruct c as [j|].
    - destruct (nth_error l j) as [[| | | |]|] eqn:E; try discriminate. intros H; inversion H; subst.
      pose proof (count_set busy l j _ (Woken false) E) as K. cbn [busy b2n] in K. lia.
    - destruct (existsb waiting l); [discriminate|]. intros H; inversion H; reflexivity.
  Qed.

  Definition act (s : state) : Prop := active_threads s = count busy (workers s).

  Lemma loop_act s i c s' out w : act s -> nth_error (workers s) i = Some w -> busy w = false -> loop mn s i c = Some (s', out) -> act s'.
  Proof.
    unfold act, loop. intros A N B H. destruct (queue s) as [|r q].
    - destruct c; [discriminate|]. inversion H; subst; cbn [active_threads workers].
      pose proof (count_set busy _ i _ (Wait (negb (worker_count s =? mn)%nat)) N) as K. rewrite B in K. cbn [busy b2n] in K. lia.
    - pose proof (count_set busy _ i _ (Busy r) N) as K. rewrite B in K. cbn [busy b2n] in K.
      destruct q as [|r' q].
      + destruct c; [discriminate|]. inversion H; subst; cbn [active_threads workers]. lia.
      + destruct (signal _ c) as [ws|] eqn:S; [|discriminate]. inversion H; subst; cbn [active_threads workers].
        apply signal_busy in S. lia.
  Qed.

  Lemma step_act s l s' out : act s -> step mn mx s l = Some (s', out) -> act s'.
  Proof.
    intros A H. destruct l as [r c|i|i|i c|i c|i|]; cbn [step] in H.
    - destruct (main s); try discriminate. unfold enqueue in H.
      destruct (signal _ c) as [ws|] eqn:S; [|discriminate]. inversion H; subst. unfold act in *; cbn [active_threads workers].
      apply signal_busy in S. rewrite S. destruct (_ && _); [|exact A]. rewrite count_app. cbn. lia.
    - destruct (nth_error (workers s) i) as [[|[|]| | |]|] eqn:N; try discriminate. inversion H; subst. unfold act in *; cbn [active_threads workers].
      pose proof (count_set busy _ i _ (Woken true) N) as K. cbn [busy b2n] in K. lia.
    - destruct (nth_error (workers s) i) as [[| | | |]|] eqn:N; try discriminate. inversion H; subst. unfold act in *; cbn [active_threads workers].
      pose proof (count_set busy _ i _ (Woken false) N) as K. cbn [busy b2n] in K. lia.
    - destruct (nth_error (workers s) i) as [[| | | |]|] eqn:N; try discriminate. eapply loop_act; eauto.
    - destruct (nth_error (workers s) i) as [[| | | |]|] eqn:N; try discriminate. unfold resume in H.
      destruct (_ && _).
      + destruct c; [discriminate|]. inversion H; subst. unfold act in *; cbn [active_threads workers].
        pose proof (count_set busy _ i _ Dead N) as K. cbn [busy b2n] in K. lia.
      + eapply loop_act; eauto.
    - destruct (nth_error (workers s) i) as [[| | | |]|] eqn:N; try discriminate. inversion H; subst. unfold act in *; cbn [active_threads workers].
      pose proof (count_set busy _ i _ Entry N) as K. cbn [busy b2n] in K. lia.
    - destruct (main s) as [[|k]|k|k|]; try discriminate; inversion H; subst; unfold act in *; cbn [active_threads workers]; try exact A.
      rewrite count_app. cbn. lia.
  Qed.

  (** Only active_threads_decr makes the counter smaller *)
  Lemma active_fall s l s' out : step mn mx s l = Some (s', out) -> (active_threads s' < active_threads s)%nat -> exists i, l = Finish i.
  Proof.
    intros H F. destruct l as [r c|i|i|i c|i c|i|]; cbn [step] in H.
    - destruct (main s); try discriminate. unfold enqueue in H.
      destruct (signal _ c) as [ws|]; [|discriminate]. inversion H; subst. cbn [active_threads] in F. lia.
    - destruct (nth_error (workers s) i) as [[|[|]| | |]|]; try discriminate. inversion H; subst. cbn [active_threads] in F. lia.
    - destruct (nth_error (workers s) i) as [[| | | |]|]; try discriminate. inversion H; subst. cbn [active_threads] in F. lia.
    - destruct (nth_error (workers s) i) as [[| | | |]|]; try discriminate. unfold loop in H.
      destruct (queue s) as [|r [|r' q]]; [destruct c; [discriminate|]|destruct c; [discriminate|]|destruct (signal _ c); [|discriminate]];
        inversion H; subst; cbn [active_threads] in F; lia.
    - destruct (nth_error (workers s) i) as [[| | | |]|]; try discriminate. unfold resume, loop in H.
      destruct (_ && _); [destruct c; [discriminate|]; inversion H; subst; cbn [active_threads] in F; lia|].
      destruct (queue s) as [|r [|r' q]]; [destruct c; [discriminate|]|destruct c; [discriminate|]|destruct (signal _ c); [|discriminate]];
        inversion H; subst; cbn [active_threads] in F; lia.
    - eauto.
    - destruct (main s) as [[|k]|k|k|]; try discriminate; inversion H; subst; cbn [active_threads] in F; lia.
  Qed.

  (** * Invariants *)
  Definition dinv (s : dstate) : Prop :=
    act (pool s) /\
    match ph s with Asleep => (0 < active_threads (pool s))%nat | _ => True end.

  Lemma dstep_inv s l s' out : dinv s -> dstep s l = Some (s', out) -> dinv s'.
  Proof.
    intros [A P] H. destruct l as [l|g| | | | | |d|z]; cbn [DwnModel.dstep] in H.
    - destruct (ph s) eqn:E; try discriminate;
        try (destruct (arrival l); [discriminate|]);
        (destruct (step mn mx (pool s) l) as [[p o]|] eqn:S; [|discriminate]); inversion H; subst;
        (split; [eapply step_act; eassumption|]); cbn [ph pool]; try exact I.
      destruct (broadcast l p) eqn:B; [exact I|].
      destruct (Nat.eq_dec (active_threads p) 0) as [Z0|]; [|lia].
      destruct (active_fall _ _ _ _ S) as [i ->]; [lia|]. cbn [broadcast] in B. rewrite Z0 in B. discriminate.
    - destruct (ph s); try discriminate. destruct (main (pool s)); try discriminate. inversion H; subst. split; [exact A|exact I].
    - destruct (ph s) as [|[|]| | | |]; try discriminate.
      + destruct (Nat.ltb 0 (active_threads (pool s))) eqn:L; inversion H; subst; split; try exact A; cbn [ph pool with_ph]; [|exact I].
        apply Nat.ltb_lt. exact L.
      + inversion H; subst. split; [exact A|exact I].
    - destruct (ph s); try discriminate. inversion H; subst. split; [exact A|exact I].
    - destruct (ph s); try discriminate. destruct (deadline s <=? clock s); inversion H; subst. split; [exact A|exact I].
    - destruct (ph s) as [| | |[|]| |]; try discriminate.
      + inversion H; subst. split; [exact A|exact I].
      + destruct (Nat.ltb 0 (active_threads (pool s))) eqn:L; inversion H; subst; split; try exact A; cbn [ph pool with_ph]; [|exact I].
        apply Nat.ltb_lt. exact L.
    - destruct (ph s); try discriminate. inversion H; subst. split; [exact A|exact I].
    - inversion H; subst. split; assumption.
    - inversion H; subst. split; assumption.
  Qed.

  Lemma drun_app a : forall b s, drun s (a ++ b) =
    match drun s a with None => None | Some (s, out) => match drun s b with Some (s, out') => Some (s, out ++ out') | None => None end end.
  Proof.
    induction a as [|l a IH]; intros b s; cbn [app DwnModel.drun].
    - destruct (drun s b) as [[s' o]|]; reflexivity.
    - destruct (dstep s l) as [[s1 o1]|]; [|reflexivity]. rewrite IH.
      destruct (drun s1 a) as [[s2 o2]|]; [|reflexivity]. destruct (drun s2 b) as [[s3 o3]|]; [|reflexivity].
      rewrite app_assoc. reflexivity.
  Qed.

  Lemma drun_inv ls : forall s s' out, dinv s -> drun s ls = Some (s', out) -> dinv s'.
  Proof.
    induction ls as [|l ls IH]; intros s s' out J H; cbn [DwnModel.drun] in H; [inversion H; subst; exact J|].
    destruct (dstep s l) as [[s1 o1]|] eqn:E; [|discriminate].
    destruct (drun s1 ls) as [[s2 o2]|] eqn:R; [|discriminate]. inversion H; subst.
    eapply IH; [|exact R]. eapply dstep_inv; eassumption.
  Qed.

  Lemma reached_inv s : reached mn mx grace s -> dinv s.
  Proof. intros (t & ls & out & H). eapply drun_inv; [|exact H]. split; [reflexivity|exact I]. Qed.

  Lemma none_busy s : act (pool s) -> active_threads (pool s) = 0%nat -> forall r, ~ serves s r.
  Proof.
    intros A Z0 r [i N]. unfold act in A. rewrite Z0 in A. symmetry in A. rewrite count_zero in A. apply A in N. discriminate.
  Qed.

  Lemma drained s l s' out : reached mn mx grace s -> dstep s l = Some (s', out) ->
    ph s <> Leaving Drained -> ph s' = Leaving Drained -> forall r, ~ serves s' r.
  Proof.
    intros R H N E. apply reached_inv in R. destruct R as [A _].
    destruct l as [l|g| | | | | |d|z]; cbn [DwnModel.dstep] in H.
    - destruct (ph s) eqn:P; try discriminate;
        try (destruct (arrival l); [discriminate|]);
        (destruct (step mn mx (pool s) l) as [[p o]|] eqn:S; [|discriminate]); inversion H; subst; cbn [ph] in E; try discriminate.
      + destruct (broadcast l p); discriminate.
      + contradiction.
    - destruct (ph s); try discriminate. destruct (main (pool s)); try discriminate. inversion H; subst. discriminate.
    - destruct (ph s) as [|[|]| | | |]; try discriminate.
      + destruct (Nat.ltb 0 (active_threads (pool s))) eqn:L; inversion H; subst; cbn [ph with_ph] in E; [discriminate|].
        apply none_busy; [exact A|]. apply Nat.ltb_ge in L. cbn [pool with_ph]. lia.
      + inversion H; subst. discriminate.
    - destruct (ph s); try discriminate. inversion H; subst. discriminate.
    - destruct (ph s); try discriminate. destruct (deadline s <=? clock s); inversion H; subst. discriminate.
    - destruct (ph s) as [| | |[|]| |]; try discriminate.
      + inversion H; subst. discriminate.
      + destruct (Nat.ltb 0 (active_threads (pool s))) eqn:L; inversion H; subst; cbn [ph with_ph] in E; [discriminate|].
        apply none_busy; [exact A|]. apply Nat.ltb_ge in L. cbn [pool with_ph]. lia.
    - destruct (ph s); try discriminate. inversion H; subst. discriminate.
    - inversion H; subst. contradiction.
    - inversion H; subst. contradiction.
  Qed.

  Lemma asleep_busy s : reached mn mx grace s -> ph s = Asleep -> exists r, serves s r.
  Proof.
    intros R E. apply reached_inv in R. destruct R as [A P]. rewrite E in P. unfold act in A. rewrite A in P.
    apply count_pos in P. destruct P as [i [w [N B]]]. destruct w as [| | |r|]; try discriminate. exists r, i. exact N.
  Qed.

  (** * Time *)
  Definition tinv (s : dstate) : Prop :=
    match ph s with
    | Asleep | Awake false => deadline s - clock s = asked s + grace - mono s
    | Awake true | Leaving TimeUp => asked s + grace <= mono s
    | _ => True
    end.

  Lemma dstep_tinv s l s' out : (forall z, l <> SetClock z) -> tinv s -> dstep s l = Some (s', out) -> tinv s'.
  Proof.
    unfold tinv. intros NC T H. destruct l as [l|g| | | | | |d|z]; cbn [DwnModel.dstep] in H.
    - destruct (ph s) as [| | |[|]|[| |]|] eqn:E; try discriminate;
        try (destruct (arrival l); [discriminate|]);
        (destruct (step mn mx (pool s) l) as [[p o]|]; [|discriminate]); inversion H; subst;
        cbn [ph deadline clock asked mono]; try exact T.
      destruct (broadcast l p); exact T.
    - destruct (ph s); try discriminate. destruct (main (pool s)); try discriminate. inversion H; subst. exact I.
    - destruct (ph s) as [|[|]| | | |]; try discriminate.
      + destruct (Nat.ltb 0 (active_threads (pool s))); inversion H; subst; cbn [ph with_ph deadline clock asked mono]; [lia|exact I].
      + inversion H; subst. exact I.
    - destruct (ph s); try discriminate. inversion H; subst. exact T.
    - destruct (ph s); try discriminate. destruct (deadline s <=? clock s) eqn:L; inversion H; subst. apply Z.leb_le in L.
      cbn [ph with_ph asked mono]. lia.
    - destruct (ph s) as [| | |[|]| |]; try discriminate.
      + inversion H; subst. exact T.
      + destruct (Nat.ltb 0 (active_threads (pool s))); inversion H; subst; [exact T|exact I].
    - destruct (ph s); try discriminate. inversion H; subst. exact I.
    - inversion H; subst. cbn [ph deadline clock asked mono]. destruct (ph s) as [| | |[|]|[| |]|]; lia.
    - exfalso. apply (NC z). reflexivity.
  Qed.

  Lemma drun_tinv ls : forall s s' out, untouched_clock ls -> tinv s -> drun s ls = Some (s', out) -> tinv s'.
  Proof.
    induction ls as [|l ls IH]; intros s s' out U J H; cbn [DwnModel.drun] in H; [inversion H; subst; exact J|].
    destruct (dstep s l) as [[s1 o1]|] eqn:E; [|discriminate].
    destruct (drun s1 ls) as [[s2 o2]|] eqn:R; [|discriminate]. inversion H; subst.
    eapply IH; [intros z K; apply (U z); right; exact K| |exact R].
    eapply dstep_tinv; [|exact J|exact E]. intros z ->. apply (U z). left. reflexivity.
  Qed.

  Lemma reached_tinv s : reached_undisturbed mn mx grace s -> tinv s.
  Proof. intros (t & ls & out & U & H). eapply drun_tinv; [exact U| |exact H]. exact I. Qed.

  Lemma time_over s : reached_undisturbed mn mx grace s -> ph s = Asleep -> asked s + grace <= mono s ->
    exists s', drun s [Over; Recheck] = Some (s', []) /\ ph s' = Leaving TimeUp.
  Proof.
    intros R E T. apply reached_tinv in R. unfold tinv in R. rewrite E in R.
    cbn [DwnModel.drun DwnModel.dstep]. rewrite E. replace (deadline s <=? clock s) with true by (symmetry; apply Z.leb_le; lia).
    cbn [ph with_ph]. eexists. split; reflexivity.
  Qed.

  Lemma time_not_early s : reached_undisturbed mn mx grace s -> ph s = Leaving TimeUp -> asked s + grace <= mono s.
  Proof. intros R E. apply reached_tinv in R. unfold tinv in R. rewrite E in R. exact R. Qed.

  (** * Requests after the signal *)
  Lemma dstep_out s l s' out : ph s <> Serving -> dstep s l = Some (s', out) -> out ++ queue (pool s') = queue (pool s) /\ ph s' <> Serving.
  Proof.
    intros N H. destruct l as [l|g| | | | | |d|z]; cbn [DwnModel.dstep] in H.
    - destruct (ph s) eqn:E; try discriminate; try contradiction;
        (destruct (arrival l) eqn:AR; [discriminate|]);
        (destruct (step mn mx (pool s) l) as [[p o]|] eqn:S; [|discriminate]); inversion H; subst;
        (split; [apply step_fifo in S; cbn [pool]; rewrite S; destruct l; try discriminate AR; cbn; apply app_nil_r|cbn [ph]; try discriminate]).
      destruct (broadcast l p); discriminate.
    - destruct (ph s); try discriminate. contradiction.
    - destruct (ph s) as [|[|]| | | |]; try discriminate.
      + destruct (Nat.ltb 0 (active_threads (pool s))); inversion H; subst; split; try reflexivity; discriminate.
      + inversion H; subst; split; try reflexivity; discriminate.
    - destruct (ph s); try discriminate; inversion H; subst; split; try reflexivity; discriminate.
    - destruct (ph s); try discriminate. destruct (deadline s <=? clock s); inversion H; subst; split; try reflexivity; discriminate.
    - destruct (ph s) as [| | |[|]| |]; try discriminate.
      + inversion H; subst; split; try reflexivity; discriminate.
      + destruct (Nat.ltb 0 (active_threads (pool s))); inversion H; subst; split; try reflexivity; discriminate.
    - destruct (ph s); try discriminate; inversion H; subst; split; try reflexivity; discriminate.
    - inversion H; subst; split; [reflexivity|exact N].
    - inversion H; subst; split; [reflexivity|exact N].
  Qed.

  Lemma drun_out ls : forall s s' out, ph s <> Serving -> drun s ls = Some (s', out) -> out ++ queue (pool s') = queue (pool s).
  Proof.
    induction ls as [|l ls IH]; intros s s' out N H; cbn [DwnModel.drun] in H; [inversion H; reflexivity|].
    destruct (dstep s l) as [[s1 o1]|] eqn:E; [|discriminate].
    destruct (drun s1 ls) as [[s2 o2]|] eqn:R; [|discriminate]. inversion H; subst.
    apply dstep_out in E; [|exact N]. destruct E as [E N1]. apply IH in R; [|exact N1].
    rewrite <- app_assoc, R. exact E.
  Qed.

  Lemma signal_out s g ls s' out : drun s (Signal g :: ls) = Some (s', out) -> out ++ queue (pool s') = queue (pool s).
  Proof.
    cbn [DwnModel.drun DwnModel.dstep]. destruct (ph s); try discriminate. destruct (main (pool s)); try discriminate.
    destruct (drun (with_ph (Stopped g) s) ls) as [[s2 o2]|] eqn:R; [|discriminate]. intros H. inversion H; subst.
    apply drun_out in R; [exact R|discriminate].
  Qed.

  Lemma at_once s : ph s = Serving -> main (pool s) = Up ->
    exists s', drun s [Signal false; Lock; Exit] = Some (s', []) /\ ph s' = Gone /\ pool s' = pool s /\ mono s' = mono s.
  Proof. intros E U. cbn [DwnModel.drun DwnModel.dstep]. rewrite E, U. cbn. eexists. repeat split. Qed.

  Lemma queue_lost s : ph s = Serving -> main (pool s) = Up -> active_threads (pool s) = 0%nat ->
    exists s', drun s [Signal true; Lock; Exit] = Some (s', []) /\ ph s' = Gone /\ queue (pool s') = queue (pool s) /\ mono s' = mono s.
  Proof. intros E U A. cbn [DwnModel.drun DwnModel.dstep]. rewrite E, U. cbn [ph with_ph pool]. rewrite A. cbn. eexists. repeat split. Qed.

  (** The clock is set back by [n] in the wait *)
  Lemma clock_back s n : ph s = Asleep -> deadline s = clock s + grace -> asked s = mono s -> 0 <= grace ->
    let ls := [SetClock (clock s - Z.of_N n - 1); Pass (Z.to_N grace); Pass n] in
    exists s', drun s ls = Some (s', []) /\ ph s' = Asleep /\ mono s' = asked s' + grace + Z.of_N n /\ dstep s' Over = None.
  Proof.
    intros E D A G. cbv zeta. cbn [DwnModel.drun DwnModel.dstep ph clock mono pool deadline asked].
    eexists. split; [reflexivity|]. cbn [ph clock mono deadline asked]. split; [exact E|]. rewrite Z2N.id by exact G.
    split; [lia|]. cbn [DwnModel.dstep ph]. rewrite E.
    cbn [deadline clock]. rewrite D.
    match goal with |- context [Z.leb ?x ?y] => assert (K : Z.leb x y = false) by (apply Z.leb_gt; lia); rewrite K end. reflexivity.
  Qed.

  Lemma queue_lost2 s i r : ph s = Asleep -> active_threads (pool s) = 1%nat -> nth_error (workers (pool s)) i = Some (Busy r) ->
    exists s', drun s [Pool (Finish i); Recheck; Exit] = Some (s', []) /\ ph s' = Gone /\ queue (pool s') = queue (pool s) /\ mono s' = mono s.
  Proof.
    intros E A N. cbn [DwnModel.drun DwnModel.dstep]. rewrite E. cbn [arrival step]. rewrite N. cbn [broadcast active_threads ph]. rewrite A. cbn.
    eexists. repeat split.
  Qed.
End Down.
