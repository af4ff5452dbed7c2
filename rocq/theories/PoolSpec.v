(** Specification of the worker pool. *)
From Coq Require Import List Arith Bool.
From Verif Require Import PoolModel.
Import ListNotations.

(** The requests that arrived, in order *)
Definition arrivals (ls : list label) : list nat :=
  flat_map (fun l => match l with Arrive r _ => [r] | _ => [] end) ls.

Definition live (w : wstate) : bool := match w with Dead => false | _ => true end.
Definition busy (w : wstate) : bool := match w with Busy _ => true | _ => false end.
Definition count {A} (f : A -> bool) (l : list A) : nat := length (filter f l).

(** No timed wait ends before the server is up: the idle timeout is longer than the start
    takes. *)
Definition calm (min max : nat) (ls : list label) : Prop :=
  forall a i b s out, ls = a ++ Timeout i :: b -> run min max (init min) a = Some (s, out) -> main s = Up.

(** Steps of worker threads that run, without arrivals, timeouts and spurious wakeups *)
Definition own (l : label) : bool := match l with Enter _ _ | Resume _ _ | Finish _ => true | _ => false end.
