(** The request statistics of a backend (C55). *)
From Coq Require Import List ZArith QArith Qabs Bool Lia Lqa.
From Verif Require Import StatModel StatSpec StatProofs.
Import ListNotations.
Open Scope Q_scope.

(** C55, computed without rounding errors: after any requests, in the order in which they were finished, the number
    reported is that of the requests, the average is the mean of the times they took and the deviation is the square
    root of the variance of these times, up to half a nanosecond (and 0 if the variance is less than 1/2).  The computation of the
    root ends.  Missing: rounding. *)
Theorem C55_report_partial : forall rs, readings rs -> rs <> [] -> exists k n avg dev,
  (forall fuel, (k <= fuel)%nat -> backend_stats_serialize exact fuel (after exact rs) = (n, Some (avg, Some dev))) /\
  n == number (times rs) /\ avg == mean (times rs) /\
  (variance (times rs) < 1 # 2 -> dev = 0) /\ (1 # 2 <= variance (times rs) -> root_above dev (variance (times rs)) (1 # 2)).
Proof. exact report_exact. Qed.
Print Assumptions C55_report_partial.

(** With the rounding of double precision: the number is exact, and both the average and the average of the squares are wrong by a
    factor of at most (1 + 2^-53)^(3n) after n requests, unless the clock is set back or a request takes months. *)
Theorem C55_rounded : forall rnd rs, rounding rnd -> readings rs -> sane rs -> (Z.of_nat (length rs) <= 2 ^ 53)%Z ->
  numreq (after rnd rs) == number (times rs) /\ within (3 * length rs) (avgtime (after rnd rs)) (mean (times rs)) /\
  within (3 * length rs) (avgsqtime (after rnd rs)) (mean (map (fun x => x * x) (times rs))).
Proof. exact after_rounded. Qed.
Print Assumptions C55_rounded.

(** Nothing but the number, 0, is reported of a backend that has not been used. *)
Theorem C55_unused : forall rnd fuel, backend_stats_serialize rnd fuel (after rnd []) = (0, None).
Proof. reflexivity. Qed.
Print Assumptions C55_unused.

(** False: the times are never negative.  They are taken from the clock that shows the time of the day; if it is set back
    during the only request, the average is negative. *)
Theorem C55_clock_refuted : forall start finish, clock start -> clock finish -> (nanoseconds finish < nanoseconds start)%Z ->
  avgtime (after exact [(start, finish)]) < 0.
Proof.
  intros start finish C1 C2 H. destruct (after_exact [(start, finish)]) as (_ & B & _).
  { intros r [<-|[]]. split; assumption. }
  rewrite B. unfold mean, times, number, duration. cbn [map total length fst snd Z.of_nat]. set (z := (nanoseconds finish - nanoseconds start)%Z).
  setoid_replace ((inject_Z z + 0) / inject_Z (Z.pos (Pos.of_succ_nat 0))) with (inject_Z z) by field. change 0 with (inject_Z 0). rewrite <- Zlt_Qlt. unfold z. lia.
Qed.
Print Assumptions C55_clock_refuted.

(** Requests that took 2, 4, 4, 4, 5, 5, 7 and 9 seconds: 5 on average, with a deviation of 2. *)
Definition ex_rs : list (timespec * timespec) := map (fun n => (mkTs 100 999999999, mkTs (100 + n) 999999999)) [2; 4; 4; 4; 5; 5; 7; 9]%Z.
Example C55_ex : readings ex_rs /\ sane ex_rs /\ mean (times ex_rs) == inject_Z 5000000000 /\ variance (times ex_rs) == inject_Z (2000000000 * 2000000000).
Proof.
  split; [|split; [|split; vm_compute; reflexivity]].
  - intros r I. repeat (destruct I as [<-|I]; [vm_compute; repeat split; discriminate|]). destruct I.
  - intros r I. repeat (destruct I as [<-|I]; [vm_compute; repeat split; discriminate|]). destruct I.
Qed.
Example C55_ex_clock : clock (mkTs 10 0) /\ clock (mkTs 9 999999999) /\ (nanoseconds (mkTs 9 999999999) < nanoseconds (mkTs 10 0))%Z.
Proof. vm_compute. repeat split; discriminate. Qed.

(** A rounding that is wrong for all fractions *)
Definition coarse (x : Q) : Q := match Qden (Qred x) with 1%positive => x | _ => x * (1 + ulp) end.
Example C55_ex_rounding : rounding exact /\ rounding coarse /\ ~ coarse (1 # 3) == 1 # 3.
Proof.
  assert (E : forall x, Qabs (x - x) <= ulp * Qabs x).
  { intros x. setoid_replace (x - x) with 0 by ring. rewrite (Qabs_pos 0) by discriminate. apply Qmult_le_0_compat; [discriminate|apply Qabs_nonneg]. }
  split; [|split].
  - split; [exact E|]. split; [intros x y H; exact H|reflexivity].
  - split; [|split].
    + intros x. unfold coarse. assert (F : Qabs (x * (1 + ulp) - x) <= ulp * Qabs x).
      { setoid_replace (x * (1 + ulp) - x) with (ulp * x) by ring. rewrite Qabs_Qmult. rewrite (Qabs_pos ulp) by discriminate. apply Qle_refl. }
      destruct (Qden (Qred x)); auto.
    + intros x y H. unfold coarse. rewrite (Qred_complete x y H). destruct (Qden (Qred y)); rewrite ?H; reflexivity.
    + intros n _. unfold coarse. replace (Qden (Qred (inject_Z n))) with 1%positive; [reflexivity|].
      unfold inject_Z, Qred. pose proof (Z.ggcd_gcd n (Z.pos 1)) as G. pose proof (Z.ggcd_correct_divisors n (Z.pos 1)) as D.
      destruct (Z.ggcd n 1) as (g & (a & b)). cbn [fst snd] in *. rewrite Z.gcd_1_r in G. subst g. destruct D as (_ & D). cbn [Qden]. rewrite Z.mul_1_l in D. subst b. reflexivity.
  - vm_compute. discriminate.
Qed.
