(** Model of the end of the server: the wait for the requests in progress (src/pound.c 433-467, 736-762) on top of the worker pool of PoolModel.v.
    Definitions only.  A step is what a thread does while it holds arg_mut, as in PoolModel.v.  The dispatcher is cancelled in poll or accept, so
    between two arrivals; it closes the listeners then.  The program ends with exit (0) at some time after the wait; the workers go on until then.
    Time: [mono] is the time that has gone by, [clock] what CLOCK_REALTIME shows, which can be set. *)
From Coq Require Import List Arith ZArith Bool.
From Verif Require Import PoolModel.
Import ListNotations.
Local Open Scope Z_scope.

(** Why the main thread goes on to the end: no thread is active; the time of Grace is over; the signal was TERM or QUIT *)
Inductive why := Drained | TimeUp | AtOnce.

(** The main thread, once the server is up *)
Inductive phase :=
| Serving                  (** in sigwait, 739 *)
| Stopped (gentle : bool)  (** the dispatcher has been joined, 745; [gentle]: the signal was HUP or INT *)
| Asleep                   (** in pthread_cond_timedwait, 456 *)
| Awake (late : bool)      (** about to return from it; [late]: the result is ETIMEDOUT *)
| Leaving (w : why)        (** after active_threads_wait, 756 *)
| Gone.                    (** exit (0), 760 *)

Record dstate := mkD { pool : state; ph : phase; clock : Z; mono : Z; deadline : Z; asked : Z }.

Inductive dlabel :=
| Pool (l : label)         (** a step of the pool *)
| Signal (gentle : bool)   (** a signal; the dispatcher is cancelled and joined *)
| Lock                     (** active_threads_wait from the lock to the wait or to the end; or the default case, 754 *)
| Wake                     (** a spurious wakeup *)
| Over                     (** the time of the wait is over *)
| Recheck                     (** back from the wait: the test of the loop *)
| Exit
| Pass (d : N)             (** time goes by *)
| SetClock (z : Z).        (** somebody sets the clock *)

Section Down.
  Variables worker_min_count worker_max_count : nat.
  Variable grace : Z.

  Definition with_ph (x : phase) (s : dstate) : dstate := mkD (pool s) x (clock s) (mono s) (deadline s) (asked s).

  Definition arrival (l : label) : bool := match l with Arrive _ _ => true | _ => false end.

  (** Whether a step of the pool is active_threads_decr that comes to 0: it wakes the main thread, 438-439 *)
  Definition broadcast (l : label) (s' : state) : bool :=
    match l with Finish _ => Nat.eqb (active_threads s') 0 | _ => false end.

  Definition dstep (s : dstate) (l : dlabel) : option (dstate * list nat) :=
    match l with
    | Pool l =>
        match ph s with
        | Gone => None
        | _ =>
            if (match ph s with Serving => false | _ => arrival l end) then None
            else match step worker_min_count worker_max_count (pool s) l with
                 | None => None
                 | Some (p, out) =>
                     let x := match ph s with
                              | Asleep => if broadcast l p then Awake false else Asleep
                              | x => x
                              end in
                     Some (mkD p x (clock s) (mono s) (deadline s) (asked s), out)
                 end
        end
    | Signal gentle =>
        match ph s, main (pool s) with
        | Serving, Up => Some (with_ph (Stopped gentle) s, [])
        | _, _ => None
        end
    | Lock =>
        match ph s with
        | Stopped false => Some (with_ph (Leaving AtOnce) s, [])
        | Stopped true =>
            if Nat.ltb 0 (active_threads (pool s))
            then Some (mkD (pool s) Asleep (clock s) (mono s) (clock s + grace) (mono s), [])
            else Some (with_ph (Leaving Drained) s, [])
        | _ => None
        end
    | Wake => match ph s with Asleep => Some (with_ph (Awake false) s, []) | _ => None end
    | Over => match ph s with
              | Asleep => if deadline s <=? clock s then Some (with_ph (Awake true) s, []) else None
              | _ => None
              end
    | Recheck =>
        match ph s with
        | Awake true => Some (with_ph (Leaving TimeUp) s, [])
        | Awake false =>
            if Nat.ltb 0 (active_threads (pool s)) then Some (with_ph Asleep s, [])
            else Some (with_ph (Leaving Drained) s, [])
        | _ => None
        end
    | Exit => match ph s with Leaving _ => Some (with_ph Gone s, []) | _ => None end
    | Pass d => Some (mkD (pool s) (ph s) (clock s + Z.of_N d) (mono s + Z.of_N d) (deadline s) (asked s), [])
    | SetClock z => Some (mkD (pool s) (ph s) z (mono s) (deadline s) (asked s), [])
    end.

  Fixpoint drun (s : dstate) (ls : list dlabel) : option (dstate * list nat) :=
    match ls with
    | [] => Some (s, [])
    | l :: ls =>
        match dstep s l with
        | None => None
        | Some (s, out) => match drun s ls with Some (s, out') => Some (s, out ++ out') | None => None end
        end
    end.

  (** The start of the server at the time [t] *)
  Definition dinit (t : Z) : dstate := mkD (init worker_min_count) Serving t 0 0 0.
End Down.
