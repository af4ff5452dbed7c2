(** Proofs about the statistics of a backend. *)
From Coq Require Import List ZArith QArith Qabs Qround Bool Lia Setoid Qfield Lqa.
From Verif Require Import StatModel StatSpec.
Import ListNotations.
Open Scope Q_scope.

(** ** Time *)
Lemma sub_duration : forall r, clock (fst r) -> clock (snd r) ->
  let d := timespec_sub (snd r) (fst r) in duration r = (tv_sec d * 1000000000 + tv_nsec d)%Z /\ clock d.
Proof.
  intros [[s1 n1] [s2 n2]] C1 C2. unfold clock, timespec_sub, duration, nanoseconds in *. cbn [fst snd tv_sec tv_nsec] in *. cbv zeta.
  destruct (Z.ltb_spec (n2 - n1) 0); cbn [tv_sec tv_nsec]; lia.
Qed.

Lemma elapsed_exact : forall r, clock (fst r) -> clock (snd r) -> elapsed exact (fst r) (snd r) == inject_Z (duration r).
Proof.
  intros r C1 C2. destruct (sub_duration r C1 C2) as (E & _). unfold elapsed, exact. cbv zeta. rewrite E, inject_Z_plus, inject_Z_mult. reflexivity.
Qed.

Lemma rnd_comp : forall rnd, rounding rnd -> forall x y, x == y -> rnd x == rnd y. Proof. intros rnd (_ & H & _). exact H. Qed.

Lemma elapsed_rounded : forall rnd r, rounding rnd -> clock (fst r) -> clock (snd r) -> (0 <= duration r < 2 ^ 53)%Z ->
  elapsed rnd (fst r) (snd r) == inject_Z (duration r).
Proof.
  intros rnd r R C1 C2 D. destruct (sub_duration r C1 C2) as (E & N). unfold elapsed. cbv zeta. destruct (timespec_sub (snd r) (fst r)) as [s n].
  unfold clock in N. cbn [tv_sec tv_nsec] in *. destruct R as (_ & R2 & R3).
  assert (A : rnd (inject_Z s * inject_Z 1000000000) == inject_Z (s * 1000000000)).
  { rewrite <- (R3 (s * 1000000000)%Z); [apply R2; rewrite inject_Z_mult; reflexivity|]. lia. }
  rewrite (R2 _ (inject_Z (duration r))); [apply R3; lia|]. rewrite A, E, inject_Z_plus. reflexivity.
Qed.

(** ** Sums *)
Lemma total_app : forall a b, total (a ++ b) == total a + total b.
Proof. induction a as [|x a IH]; intros b; cbn [total app]; [ring|]. rewrite IH. ring. Qed.
Lemma number_app1 : forall a (x : Q), number (a ++ [x]) == number a + 1.
Proof. intros a x. unfold number. rewrite app_length. cbn [length]. rewrite Nat2Z.inj_add, inject_Z_plus. reflexivity. Qed.
Lemma number_nonneg : forall l, 0 <= number l.
Proof. intros l. unfold number. change 0 with (inject_Z 0). rewrite <- Zle_Qle. lia. Qed.
Lemma number_pos : forall l, l <> [] -> 0 < number l.
Proof. intros [|x l] H; [contradiction|]. unfold number. change 0 with (inject_Z 0). rewrite <- Zlt_Qlt. cbn [length]. lia. Qed.
Lemma mean_mult : forall l, number l * mean l == total l.
Proof.
  intros [|x l]; [unfold number, mean; cbn; ring|]. unfold mean. field. intros H. pose proof (number_pos (x :: l) ltac:(discriminate)). lra.
Qed.
Lemma mean_app1 : forall l x, mean (l ++ [x]) == (number l * mean l + x) / (number l + 1).
Proof. intros l x. rewrite mean_mult. unfold mean. rewrite number_app1, total_app. cbn [total]. rewrite Qplus_0_r. reflexivity. Qed.

(** ** Exact arithmetic *)
Definition squares (l : list Q) : list Q := map (fun x => x * x) l.
Lemma times_app1 : forall rs r, times (rs ++ [r]) = times rs ++ [inject_Z (duration r)].
Proof. intros. unfold times. rewrite map_app. reflexivity. Qed.
Lemma after_app1 : forall rnd rs r, after rnd (rs ++ [r]) = backend_update_stats rnd (after rnd rs) r.
Proof. intros. unfold after. rewrite fold_left_app. reflexivity. Qed.
Lemma readings_app1 : forall rs r, readings (rs ++ [r]) -> readings rs /\ clock (fst r) /\ clock (snd r).
Proof. intros rs r H. split; [intros x I; apply H, in_or_app; auto|]. apply H, in_or_app. right. left. reflexivity. Qed.

Lemma after_exact : forall rs, readings rs ->
  numreq (after exact rs) == number (times rs) /\ avgtime (after exact rs) == mean (times rs) /\ avgsqtime (after exact rs) == mean (squares (times rs)).
Proof.
  induction rs as [|r rs IH] using rev_ind; intros H.
  - unfold after, fresh. cbn. repeat split; reflexivity.
  - apply readings_app1 in H as (H & C1 & C2). destruct (IH H) as (A & B & C). rewrite after_app1, times_app1. unfold squares. rewrite map_app. cbn [map].
    fold (squares (times rs)). rewrite !mean_app1, number_app1.
    assert (N : number (squares (times rs)) = number (times rs)) by (unfold number, squares; rewrite map_length; reflexivity).
    rewrite N. unfold backend_update_stats. cbv zeta. cbn [numreq avgtime avgsqtime]. unfold average.
    pose proof (elapsed_exact r C1 C2) as E. set (t := elapsed exact (fst r) (snd r)) in *. unfold exact in *. rewrite A, B, C, E. repeat split; reflexivity.
Qed.

Lemma variance_sum : forall l m, total (map (fun x => (x - m) * (x - m)) l) == total (squares l) - 2 * m * total l + number l * m * m.
Proof.
  induction l as [|x l IH]; intros m; [unfold number; cbn; ring|]. cbn [map total squares]. fold (squares l). rewrite IH.
  assert (N : number (x :: l) == 1 + number l) by (unfold number; cbn [length]; rewrite Nat2Z.inj_succ, <- Z.add_1_l, inject_Z_plus; reflexivity).
  rewrite N. ring.
Qed.

Lemma variance_moments : forall l, l <> [] -> variance l == mean (squares l) - mean l * mean l.
Proof.
  intros l H. unfold variance. set (m := mean l). pose proof (number_pos l H) as P.
  assert (N : forall f, number (map f l) = number l) by (intros f; unfold number; rewrite map_length; reflexivity).
  unfold mean at 1. rewrite N, variance_sum. unfold mean at 1. unfold squares. rewrite N. fold (squares l). rewrite <- (mean_mult l). fold m. field. lra.
Qed.

Lemma square_nonneg : forall x : Q, 0 <= x * x.
Proof.
  intros x. destruct (Qlt_le_dec x 0) as [H|H]; [|apply Qmult_le_0_compat; exact H].
  setoid_replace (x * x) with ((- x) * (- x)) by ring. apply Qmult_le_0_compat; lra.
Qed.
Lemma total_nonneg : forall l, (forall x, In x l -> 0 <= x) -> 0 <= total l.
Proof. induction l as [|x l IH]; intros H; cbn [total]; [lra|]. pose proof (H x (or_introl eq_refl)). specialize (IH (fun y I => H y (or_intror I))). lra. Qed.
Lemma mean_nonneg : forall l, (forall x, In x l -> 0 <= x) -> 0 <= mean l.
Proof.
  intros l H. destruct l as [|x l]; [vm_compute; discriminate|]. pose proof (total_nonneg _ H). pose proof (number_pos (x :: l) ltac:(discriminate)). unfold mean.
  apply Qle_shift_div_l; [assumption|]. lra.
Qed.
Lemma variance_nonneg : forall l, 0 <= variance l.
Proof. intros l. unfold variance. apply mean_nonneg. intros x I. apply in_map_iff in I as (y & <- & _). apply square_nonneg. Qed.

(** ** The square root *)
Lemma newton_step : forall a x y, 0 < x -> 0 < a -> y == a / x -> 0 < y /\ x * y == a /\ a <= ((x + y) / 2) * ((x + y) / 2).
Proof.
  intros a x y X A Y. assert (E : x * y == a) by (rewrite Y; field; lra). assert (P : 0 < y) by (rewrite Y; apply Qlt_shift_div_l; lra).
  split; [exact P|]. split; [exact E|]. assert (H : (x + y) / 2 * ((x + y) / 2) == (x - y) * (x - y) / 4 + x * y) by field. rewrite H, E.
  pose proof (square_nonneg (x - y)). assert (0 <= (x - y) * (x - y) / 4) by (apply Qle_shift_div_l; lra). lra.
Qed.

(** The iteration from [x] with the quotient [y] is near the root when the step is small. *)
Lemma newton_near : forall x y a d x1, 0 < x -> 0 < y -> x * y == a -> x1 == (x + y) / 2 -> 0 < d -> x1 - x <= d -> x - x1 <= d -> d <= x1 -> (x1 - d) * (x1 - d) <= a.
Proof.
  intros x y a d x1 X Y E F D H1 H2 L. assert (S2 : 2 * x1 == x + y) by (rewrite F; field).
  rewrite <- E. destruct (Qlt_le_dec x y) as [C|C].
  - (* x below the root: x1 - d <= x <= y *) assert (x1 - d <= x) by lra. nra.
  - (* y <= x, x - y <= 2d *) assert (K : x - y <= 2 * d) by lra. assert (x1 - d <= y) by lra. nra.
Qed.

Lemma exact_step : forall a x, exact (exact (x + exact (a / x)) / 2) == (x + a / x) / 2. Proof. intros. unfold exact. reflexivity. Qed.

Lemma newton_sound : forall fuel a d x r, 0 < d -> 0 < x -> d <= a -> (forall z, a <= z * z -> 0 < z -> d <= z) -> newton exact fuel a d x = Some r -> root_above r a d.
Proof.
  induction fuel as [|fuel IH]; intros a d x r D X A M H; cbn [newton] in H; [discriminate|]. unfold exact in H. fold exact in H.
  destruct (newton_step a x (a / x) X ltac:(lra) (Qeq_refl _)) as (Y & E & U). set (x1 := (x + a / x) / 2) in *.
  assert (P : 0 < x1) by (unfold x1; apply Qlt_shift_div_l; lra).
  destruct (Qle_bool (Qabs (x1 - x)) d) eqn:Q.
  - injection H as <-. apply Qle_bool_iff in Q. apply Qabs_Qle_condition in Q as (Q1 & Q2).
    unfold root_above. split; [apply M; assumption|]. split; [|exact U]. apply (newton_near x (a / x) a d x1); auto; try lra. reflexivity.
  - apply (IH a d x1 r); auto.
Qed.

Lemma newton_ends : forall k a d x, 0 < d -> 0 < x -> 0 < a -> a <= x * x -> x <= inject_Z (Z.of_nat k) * d -> forall n, (k <= n)%nat -> newton exact n a d x <> None.
Proof.
  induction k as [|k IH]; intros a d x D X A U K n N.
  - exfalso. change (inject_Z (Z.of_nat 0)) with 0 in K. lra.
  - destruct n as [|n]; [lia|]. cbn [newton]. unfold exact. fold exact.
    destruct (newton_step a x (a / x) X A (Qeq_refl _)) as (Y & E & U1). set (y := a / x) in *. set (x1 := (x + y) / 2) in *.
    assert (S2 : 2 * x1 == x + y) by (unfold x1; field). destruct (Qle_bool (Qabs (x1 - x)) d) eqn:Q; [discriminate|].
    assert (L : y <= x) by nra. apply IH; auto; [lra| |lia].
    assert (G : d < Qabs (x1 - x)) by (apply Qnot_le_lt; intros H; apply Qle_bool_iff in H; congruence).
    rewrite Qabs_neg in G by lra. rewrite Nat2Z.inj_succ, <- Z.add_1_l, inject_Z_plus in K. change (inject_Z 1) with 1 in K. lra.
Qed.

Lemma newton_total : forall a d x, 0 < d -> 0 < x -> 0 < a -> exists k, forall n, (k <= n)%nat -> newton exact n a d x <> None.
Proof.
  intros a d x D X A. destruct (newton_step a x (a / x) X A (Qeq_refl _)) as (Y & E & U1). set (x1 := (x + a / x) / 2) in *.
  assert (P : 0 < x1) by (unfold x1; apply Qlt_shift_div_l; lra).
  exists (S (Z.to_nat (Qceiling (x1 / d)))). intros [|n] N; [lia|]. cbn [newton]. unfold exact. fold exact. fold x1.
  destruct (Qle_bool (Qabs (x1 - x)) d); [discriminate|]. apply (newton_ends (Z.to_nat (Qceiling (x1 / d)))); auto; [|lia].
  assert (Q0 : 0 < x1 / d) by (apply Qlt_shift_div_l; lra). pose proof (Qle_ceiling (x1 / d)) as C.
  rewrite Z2Nat.id by (rewrite Zle_Qle; change (inject_Z 0) with 0; lra).
  assert (F : x1 == x1 / d * d) by (field; lra). rewrite F at 1. apply Qmult_le_compat_r; [exact C|lra].
Qed.

Lemma newton_more : forall n a d x r, newton exact n a d x = Some r -> forall m, (n <= m)%nat -> newton exact m a d x = Some r.
Proof.
  induction n as [|n IH]; intros a d x r H m L; [discriminate|]. destruct m as [|m]; [lia|]. cbn [newton] in *. destruct (Qle_bool _ d); [exact H|]. apply IH; [exact H|lia].
Qed.

Lemma nsqrt_ok : forall a, exists k r, (forall n, (k <= n)%nat -> nsqrt exact n a (1 # 2) = Some r) /\
  (a < 1 # 2 -> r = 0) /\ (1 # 2 <= a -> root_above r a (1 # 2)).
Proof.
  intros a. unfold nsqrt. destruct (Qle_bool 0 a) eqn:N0; cbn [negb].
  2: { exists 0%nat, 0. split; [reflexivity|]. split; [reflexivity|]. intros H. exfalso. assert (Qle_bool 0 a = true) by (apply Qle_bool_iff; lra). congruence. }
  destruct (Qle_bool (1 # 2) a) eqn:N1; cbn [negb].
  2: { exists 0%nat, 0. split; [reflexivity|]. split; [reflexivity|]. intros H. apply Qle_bool_iff in H. congruence. }
  apply Qle_bool_iff in N1. assert (X : 0 < a / 2) by (apply Qlt_shift_div_l; lra).
  destruct (newton_total a (1 # 2) (a / 2) ltac:(lra) X ltac:(lra)) as (k & K).
  destruct (newton exact k a (1 # 2) (a / 2)) as [r|] eqn:R; [|destruct (K k (le_n _) R)].
  exists k, r. split; [intros n L; apply (newton_more _ _ _ _ _ R n L)|]. split; [lra|]. intros _.
  apply (newton_sound k a (1 # 2) (a / 2) r); auto; [lra|]. intros z Z1 Z2. nra.
Qed.

Lemma nsqrt_comp : forall a b k r, a == b -> (forall n, (k <= n)%nat -> nsqrt exact n a (1 # 2) = Some r) -> (a < 1 # 2 -> r = 0) /\ (1 # 2 <= a -> root_above r a (1 # 2)) ->
  (b < 1 # 2 -> r = 0) /\ (1 # 2 <= b -> root_above r b (1 # 2)).
Proof.
  intros a b k r E _ (H1 & H2). split; intros H; [apply H1; lra|]. destruct (H2 ltac:(lra)) as (A & B & C). unfold root_above. split; [exact A|]. split; lra.
Qed.

(** ** What is reported *)
Lemma report_exact : forall rs, readings rs -> rs <> [] -> exists k n avg dev,
  (forall fuel, (k <= fuel)%nat -> backend_stats_serialize exact fuel (after exact rs) = (n, Some (avg, Some dev))) /\
  n == number (times rs) /\ avg == mean (times rs) /\
  (variance (times rs) < 1 # 2 -> dev = 0) /\ (1 # 2 <= variance (times rs) -> root_above dev (variance (times rs)) (1 # 2)).
Proof.
  intros rs R NE. destruct (after_exact rs R) as (A & B & C). set (s := after exact rs) in *.
  destruct (nsqrt_ok (avgsqtime s - avgtime s * avgtime s)) as (k & r & K1 & K2 & K3). exists k, (numreq s), (avgtime s), r.
  assert (NT : times rs <> []) by (destruct rs; [contradiction|discriminate]).
  assert (V : avgsqtime s - avgtime s * avgtime s == variance (times rs)) by (rewrite (variance_moments _ NT), B, C; reflexivity).
  split.
  - intros fuel L. unfold backend_stats_serialize. destruct (Qle_bool (numreq s) 0) eqn:Q.
    + apply Qle_bool_iff in Q. pose proof (number_pos _ NT). lra.
    + cbn [negb]. unfold exact at 2 3. rewrite (K1 fuel L). reflexivity.
  - split; [exact A|]. split; [exact B|]. apply (nsqrt_comp _ _ k r V); [exact K1|]. split; assumption.
Qed.

(** ** With rounding *)
Lemma ulp_small : 0 < ulp /\ ulp < 1. Proof. unfold ulp. split; reflexivity. Qed.

Lemma power_low : forall n, 0 < power (1 - ulp) n /\ power (1 - ulp) n <= 1.
Proof. pose proof ulp_small as (U1 & U2). induction n as [|n (A & B)]; cbn [power]; [split; lra|]. split; nra. Qed.
Lemma power_high : forall n, 1 <= power (1 + ulp) n.
Proof. pose proof ulp_small as (U1 & U2). induction n as [|n A]; cbn [power]; [lra|]. nra. Qed.

Lemma within_refl : forall n y, 0 <= y -> within n y y.
Proof. intros n y Y. unfold within. pose proof (power_low n). pose proof (power_high n). split; nra. Qed.
Lemma within_le : forall n x y, 0 <= y -> within n x y -> within (S n) x y.
Proof.
  intros n x y Y (A & B). unfold within. cbn [power]. pose proof ulp_small. pose proof (power_low n). pose proof (power_high n).
  assert (0 <= power (1 - ulp) n * y) by nra. assert (0 <= power (1 + ulp) n * y) by nra. split; nra.
Qed.
Lemma within_nonneg : forall n x y, 0 <= y -> within n x y -> 0 <= x.
Proof. intros n x y Y (A & _). pose proof (power_low n). nra. Qed.
Lemma within_comp : forall n x x' y y', x == x' -> y == y' -> within n x y -> within n x' y'.
Proof. intros n x x' y y' E F (A & B). unfold within. rewrite <- E, <- F. split; assumption. Qed.
Lemma within_add : forall n x y x' y', within n x y -> within n x' y' -> within n (x + x') (y + y').
Proof. intros n x y x' y' (A & B) (C & D). unfold within. split; nra. Qed.
Lemma within_mult : forall n x y c, 0 <= c -> within n x y -> within n (c * x) (c * y).
Proof. intros n x y c C (A & B). unfold within. split; nra. Qed.
Lemma within_rnd : forall rnd n x y, rounding rnd -> 0 <= y -> within n x y -> within (S n) (rnd x) y.
Proof.
  intros rnd n x y (R & _) Y W. pose proof (within_nonneg n x y Y W) as X. specialize (R x). rewrite (Qabs_pos x X) in R.
  apply Qabs_Qle_condition in R as (R1 & R2). destruct W as (A & B). unfold within. cbn [power]. pose proof ulp_small.
  assert (H1 : (1 - ulp) * (power (1 - ulp) n * y) <= (1 - ulp) * x) by (rewrite (Qmult_comm (1 - ulp) x), (Qmult_comm (1 - ulp) (power _ n * y)); apply Qmult_le_compat_r; lra).
  assert (H2 : (1 + ulp) * x <= (1 + ulp) * (power (1 + ulp) n * y)) by (rewrite (Qmult_comm (1 + ulp) x), (Qmult_comm (1 + ulp) (power _ n * y)); apply Qmult_le_compat_r; lra).
  split; lra.
Qed.

Lemma average_within : forall rnd k n l avg x t, rounding rnd -> n == number l -> (Z.of_nat (length l) < 2 ^ 53)%Z -> 0 <= mean l -> 0 <= x ->
  within k avg (mean l) -> within (S k) t x -> within (S (S (S k))) (average rnd n avg t) (mean (l ++ [x])).
Proof.
  intros rnd k n l avg x t R N L M X W T. unfold average. pose proof (number_nonneg l) as NN. pose proof (mean_mult l) as MM.
  assert (N1 : rnd (n + 1) == number l + 1).
  { rewrite (rnd_comp _ R _ (inject_Z (Z.of_nat (length l) + 1))); [|rewrite N, inject_Z_plus; reflexivity].
    destruct R as (_ & _ & R). rewrite R by lia. rewrite inject_Z_plus. reflexivity. }
  assert (W1 : within (S k) (rnd (n * avg)) (total l)).
  { apply within_rnd; [exact R| |]. { rewrite <- MM. nra. } apply (within_comp _ (n * avg) _ (n * mean l)); [reflexivity|rewrite N; exact MM|]. apply within_mult; [lra|exact W]. }
  assert (TN : 0 <= total l) by (rewrite <- MM; nra).
  assert (W2 : within (S (S k)) (rnd (rnd (n * avg) + t)) (total l + x)).
  { apply within_rnd; [exact R|lra|]. apply within_add; [exact W1|exact T]. }
  assert (P1 : 0 < / (number l + 1)) by (apply Qinv_lt_0_compat; lra).
  apply within_rnd; [exact R| |].
  { rewrite mean_app1, MM. apply Qle_shift_div_l; lra. }
  apply (within_comp _ (/ (number l + 1) * rnd (rnd (n * avg) + t)) _ (/ (number l + 1) * (total l + x))).
  - rewrite N1. field. lra.
  - rewrite mean_app1, MM. field. lra.
  - apply within_mult; [lra|exact W2].
Qed.

Lemma after_rounded : forall rnd rs, rounding rnd -> readings rs -> sane rs -> (Z.of_nat (length rs) <= 2 ^ 53)%Z ->
  numreq (after rnd rs) == number (times rs) /\ within (3 * length rs) (avgtime (after rnd rs)) (mean (times rs)) /\
  within (3 * length rs) (avgsqtime (after rnd rs)) (mean (squares (times rs))).
Proof.
  intros rnd rs R. induction rs as [|r rs IH] using rev_ind; intros H S L.
  - unfold after, fresh, within. cbn. repeat split; try reflexivity; discriminate.
  - apply readings_app1 in H as (H & C1 & C2). rewrite app_length in *. cbn [length] in *.
    assert (S1 : sane rs) by (intros x I; apply S, in_or_app; auto). assert (D : (0 <= duration r < 2 ^ 53)%Z) by (apply S, in_or_app; right; left; reflexivity).
    destruct (IH H S1 ltac:(lia)) as (A & B & C). rewrite after_app1, times_app1. unfold squares. rewrite map_app. cbn [map]. fold (squares (times rs)).
    pose proof (elapsed_rounded rnd r R C1 C2 D) as E. unfold backend_update_stats. cbv zeta. cbn [numreq avgtime avgsqtime]. set (t := elapsed rnd (fst r) (snd r)) in *.
    set (x := inject_Z (duration r)) in *. assert (X : 0 <= x) by (unfold x; change 0 with (inject_Z 0); rewrite <- Zle_Qle; lia).
    assert (LT : length (times rs) = length rs) by (unfold times; apply map_length).
    assert (LS : length (squares (times rs)) = length rs) by (unfold squares; rewrite map_length; exact LT).
    assert (PT : forall y, In y (times rs) -> 0 <= y).
    { intros y I. unfold times in I. apply in_map_iff in I as (r0 & <- & I). specialize (S1 r0 I). change 0 with (inject_Z 0). rewrite <- Zle_Qle. lia. }
    replace (3 * (length rs + 1))%nat with (Datatypes.S (Datatypes.S (Datatypes.S (3 * length rs)))) by lia.
    assert (N1 : rnd (numreq (after rnd rs) + 1) == number (times rs) + 1).
    { rewrite (rnd_comp _ R _ (inject_Z (Z.of_nat (length rs) + 1))).
      - destruct R as (_ & _ & R3). rewrite R3 by lia. unfold number. rewrite LT, inject_Z_plus. reflexivity.
      - rewrite A. unfold number. rewrite LT, inject_Z_plus. reflexivity. }
    split; [rewrite number_app1; exact N1|]. split.
    + apply average_within; auto; [rewrite LT; lia|apply mean_nonneg; exact PT|]. apply (within_comp _ x _ x); [symmetry; exact E|reflexivity|apply within_refl; exact X].
    + apply average_within; auto.
      * unfold number. rewrite LS. rewrite <- LT. exact A.
      * rewrite LS. lia.
      * apply mean_nonneg. intros y I. apply in_map_iff in I as (z & <- & I). apply square_nonneg.
      * nra.
      * apply within_rnd; [exact R|nra|]. apply (within_comp _ (x * x) _ (x * x)); [rewrite E; reflexivity|reflexivity|apply within_refl; nra].
Qed.
