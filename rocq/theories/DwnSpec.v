(** Words used in the statements about the end of the server (C79). *)
From Coq Require Import List Arith ZArith Bool.
From Verif Require Import PoolModel PoolSpec DwnModel.
Import ListNotations.

(** A state the server can come to *)
Definition reached (min max : nat) (grace : Z) (s : dstate) : Prop :=
  exists t ls out, drun min max grace (dinit min t) ls = Some (s, out).

(** The same, when nobody sets the clock *)
Definition untouched_clock (ls : list dlabel) : Prop := forall z, ~ In (SetClock z) ls.
Definition reached_undisturbed (min max : nat) (grace : Z) (s : dstate) : Prop :=
  exists t ls out, untouched_clock ls /\ drun min max grace (dinit min t) ls = Some (s, out).

(** A request is being served *)
Definition serves (s : dstate) (r : nat) : Prop := exists i, nth_error (workers (pool s)) i = Some (Busy r).
