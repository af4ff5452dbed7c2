(** Model of the request statistics of a backend, src/http.c 4507-4521, src/svc.c 1993-2041,
    src/pound.h 295-309.  A double is a rational number (no infinities and no NaN); the result
    of each operation on doubles is passed through [rnd], the rounding, which is a parameter. *)
From Coq Require Import List ZArith QArith Qabs Bool.
Import ListNotations.
Open Scope Z_scope.

(** struct timespec *)
Record timespec := mkTs { tv_sec : Z; tv_nsec : Z }.

(** src/pound.h 295-309 *)
Definition timespec_sub (a b : timespec) : timespec :=
  let s := tv_sec a - tv_sec b in
  let n := tv_nsec a - tv_nsec b in
  if n <? 0 then mkTs (s - 1) (n + 1000000000) else mkTs s n.

(** src/pound.h 562-564 *)
Record stats := mkStats { numreq : Q; avgtime : Q; avgsqtime : Q }.
(** A backend is created with zeroes, src/config.c 70-84 *)
Definition fresh : stats := mkStats 0 0 0.

Section Rounding.
  Variable rnd : Q -> Q.

  (** src/http.c 4515: the time in nanoseconds *)
  Definition elapsed (start finish : timespec) : Q :=
    let diff := timespec_sub finish start in
    rnd (rnd (inject_Z (tv_sec diff) * inject_Z 1000000000) + inject_Z (tv_nsec diff)).

  (** src/http.c 4517, 4518: the new value of an average *)
  Definition average (n avg t : Q) : Q := rnd (rnd (rnd (n * avg) + t) / rnd (n + 1)).

  (** src/http.c 4507-4521, within the mutex of the backend *)
  Definition backend_update_stats (s : stats) (r : timespec * timespec) : stats :=
    let t := elapsed (fst r) (snd r) in
    mkStats (rnd (numreq s + 1)) (average (numreq s) (avgtime s) t) (average (numreq s) (avgsqtime s) (rnd (t * t))).

  (** All requests handled so far *)
  Definition after (rs : list (timespec * timespec)) : stats := fold_left backend_update_stats rs fresh.

  (** src/svc.c 2008-2015.  None: out of fuel. *)
  Fixpoint newton (fuel : nat) (a prec x1 : Q) : option Q :=
    match fuel with
    | O => None
    | S fuel =>
        let x0 := x1 in
        let x1 := rnd (rnd (x0 + rnd (a / x0)) / 2) in
        if Qle_bool (Qabs (rnd (x1 - x0))) prec then Some x1 else newton fuel a prec x1
    end.

  (** src/svc.c 1999-2017 *)
  Definition nsqrt (fuel : nat) (a prec : Q) : option Q :=
    if negb (Qle_bool 0 a) then Some 0%Q
    else if negb (Qle_bool prec a) then Some 0%Q
    else newton fuel a prec (rnd (a / 2)).

  (** src/svc.c 2019-2041: request_count and, if there were requests, request_time_avg and
      request_time_stddev.  Memory allocation does not fail. *)
  Definition backend_stats_serialize (fuel : nat) (s : stats) : Q * option (Q * option Q) :=
    (numreq s,
     if negb (Qle_bool (numreq s) 0)
     then Some (avgtime s, nsqrt fuel (rnd (avgsqtime s - rnd (avgtime s * avgtime s))) (1 # 2))
     else None).
End Rounding.
