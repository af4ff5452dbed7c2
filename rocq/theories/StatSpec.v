(** What the statistics of a backend mean (C55). *)
From Coq Require Import List ZArith QArith Qabs.
From Verif Require Import StatModel.
Import ListNotations.
Open Scope Q_scope.

(** The time between two readings of the clock, in nanoseconds *)
Definition nanoseconds (t : timespec) : Z := (tv_sec t * 1000000000 + tv_nsec t)%Z.
Definition duration (r : timespec * timespec) : Z := (nanoseconds (snd r) - nanoseconds (fst r))%Z.
(** What a clock returns *)
Definition clock (t : timespec) : Prop := (0 <= tv_nsec t < 1000000000)%Z.
Definition readings (rs : list (timespec * timespec)) : Prop := forall r, In r rs -> clock (fst r) /\ clock (snd r).
(** The clock was not set back during the requests, and none took longer than 104 days. *)
Definition sane (rs : list (timespec * timespec)) : Prop := forall r, In r rs -> (0 <= duration r < 2 ^ 53)%Z.

Fixpoint total (l : list Q) : Q := match l with [] => 0 | x :: l => x + total l end.
Definition number (l : list Q) : Q := inject_Z (Z.of_nat (length l)).
(** The arithmetic mean and the variance *)
Definition mean (l : list Q) : Q := total l / number l.
Definition variance (l : list Q) : Q := mean (map (fun x => (x - mean l) * (x - mean l)) l).
Definition times (rs : list (timespec * timespec)) : list Q := map (fun r => inject_Z (duration r)) rs.

(** Arithmetic without error *)
Definition exact (x : Q) : Q := x.
(** IEEE double precision without overflow and underflow: integers up to 2^53 are represented,
    and the relative error of a result is at most 2^-53. *)
Definition ulp : Q := 1 # (2 ^ 53).
Definition rounding (rnd : Q -> Q) : Prop :=
  (forall x, Qabs (rnd x - x) <= ulp * Qabs x) /\ (forall x y, x == y -> rnd x == rnd y) /\
  (forall n : Z, (Z.abs n <= 2 ^ 53)%Z -> rnd (inject_Z n) == inject_Z n).

Fixpoint power (x : Q) (n : nat) : Q := match n with O => 1 | S n => x * power x n end.
(** [x] differs from [y] by at most [n] roundings. *)
Definition within (n : nat) (x y : Q) : Prop := power (1 - ulp) n * y <= x <= power (1 + ulp) n * y.

(** [r] is the square root of [a], up to an excess of [d]. *)
Definition root_above (r a d : Q) : Prop := d <= r /\ (r - d) * (r - d) <= a <= r * r.
