(** Model of the worker pool, src/pound.c 204-441, 728-736 and thr_http, src/http.c
    4955-4969.

    A step is what a thread does while it holds arg_mut, or one access of the main thread
    to worker_count, which does not lock it while the server starts (an increment or
    decrement is taken to be atomic).  Waiting on the condition variable, being woken up
    and running out of time are separate steps.  pthread_cond_signal wakes up one of the
    waiting threads, if there is one; the label says which.  A thread can also be woken up
    spuriously.  Not modelled: failure of pthread_create, pthread_cond_timedwait and calloc
    (the first two end the program, with the third the request is refused), and shutdown. *)
From Coq Require Import List Arith Bool.
Import ListNotations.

(** Where a worker thread is. *)
Inductive wstate :=
| Entry               (** before pthread_mutex_lock, pound.c 315 *)
| Wait (timed : bool) (** in pthread_cond_wait (329), or _timedwait (330) if [timed] *)
| Woken (late : bool) (** about to return from it; [late]: the result is ETIMEDOUT *)
| Busy (r : nat)      (** serving a request, http.c 4961-4963 *)
| Dead.               (** http.c 4966-4968 *)

(** The main thread, pound.c 728-736; the number of workers still to start *)
Inductive mstate :=
| Boot (k : nat)     (** before worker_start, 731 *)
| Created (k : nat)  (** after pthread_create, 255 *)
| Counted (k : nat)  (** after worker_count++, 257 *)
| Up.                (** the dispatcher runs, 736 *)

(** Requests are identified by numbers. *)
Record state := mkSt {
  main : mstate;
  queue : list nat;       (* thr_head *)
  worker_count : nat;
  active_threads : nat;
  workers : list wstate
}.

Section Pool.
  Variables worker_min_count worker_max_count : nat.

  (** pound.c 728: before the first worker starts *)
  Definition init : state := mkSt (Boot worker_min_count) [] worker_min_count 0 [].

  Definition set (l : list wstate) (i : nat) (w : wstate) : list wstate := firstn i l ++ w :: skipn (S i) l.

  Definition waiting (w : wstate) : bool := match w with Wait _ => true | _ => false end.
  (** pthread_cond_signal; None: not a possible choice *)
  Definition signal (l : list wstate) (choice : option nat) : option (list wstate) :=
    match choice with
    | Some j => match nth_error l j with Some (Wait _) => Some (set l j (Woken false)) | _ => None end
    | None => if existsb waiting l then None else Some l
    end.

  Inductive label :=
  | Arrive (r : nat) (choice : option nat)   (** pound_http_enqueue *)
  | Timeout (i : nat)                        (** the time of a timed wait is over *)
  | Spurious (i : nat)                       (** a spurious wakeup *)
  | Enter (i : nat) (choice : option nat)    (** pound_http_dequeue, from the lock to the wait or to the end *)
  | Resume (i : nat) (choice : option nat)   (** the same, from the wait *)
  | Finish (i : nat)                         (** active_threads_decr *)
  | Main.                                    (** a step of the main thread *)

  (** pound.c 295-303.  The queue is first in, first out (SLIST_PUSH inserts at the tail, C38_queue). *)
  Definition enqueue (s : state) (r : nat) (choice : option nat) : option state :=
    let q := queue s ++ [r] in
    let start := (worker_count s <? worker_max_count) && (worker_count s =? active_threads s) in
    let ws := if start then workers s ++ [Entry] else workers s in
    let n := if start then S (worker_count s) else worker_count s in
    match signal ws choice with
    | Some ws => Some (mkSt (main s) q n (active_threads s) ws)
    | None => None
    end.

  (** pound.c 324-374 from the test of the loop on, for worker [i] that holds the lock:
      wait, or take the first request.  The request is the second result. *)
  Definition loop (s : state) (i : nat) (choice : option nat) : option (state * list nat) :=
    match queue s with
    | [] =>
        match choice with
        | Some _ => None
        | None =>
            Some (mkSt (main s) [] (worker_count s) (active_threads s)
                    (set (workers s) i (Wait (negb (worker_count s =? worker_min_count)))), [])
        end
    | r :: q =>
        let ws := set (workers s) i (Busy r) in
        let done (ws : list wstate) := Some (mkSt (main s) q (worker_count s) (S (active_threads s)) ws, [r]) in
        match q with
        | [] => match choice with Some _ => None | None => done ws end
        | _ => match signal ws choice with Some ws => done ws | None => None end
        end
    end.

  (** pound.c 332-348: back from the wait *)
  Definition resume (s : state) (i : nat) (late : bool) (choice : option nat) : option (state * list nat) :=
    if late && negb (worker_count s =? worker_min_count)
    then match choice with
         | Some _ => None
         | None => Some (mkSt (main s) (queue s) (pred (worker_count s)) (active_threads s) (set (workers s) i Dead), [])
         end
    else loop s i choice.

  (** One step: the new state and the requests given to a worker. *)
  Definition step (s : state) (l : label) : option (state * list nat) :=
    match l with
    | Arrive r choice =>
        match main s with
        | Up => match enqueue s r choice with Some s => Some (s, []) | None => None end
        | _ => None
        end
    | Timeout i =>
        match nth_error (workers s) i with
        | Some (Wait true) => Some (mkSt (main s) (queue s) (worker_count s) (active_threads s) (set (workers s) i (Woken true)), [])
        | _ => None
        end
    | Spurious i =>
        match nth_error (workers s) i with
        | Some (Wait _) => Some (mkSt (main s) (queue s) (worker_count s) (active_threads s) (set (workers s) i (Woken false)), [])
        | _ => None
        end
    | Enter i choice =>
        match nth_error (workers s) i with
        | Some Entry => loop s i choice
        | _ => None
        end
    | Resume i choice =>
        match nth_error (workers s) i with
        | Some (Woken late) => resume s i late choice
        | _ => None
        end
    | Finish i =>
        match nth_error (workers s) i with
        | Some (Busy _) => Some (mkSt (main s) (queue s) (worker_count s) (pred (active_threads s)) (set (workers s) i Entry), [])
        | _ => None
        end
    | Main =>
        match main s with
        | Boot 0 => Some (mkSt Up (queue s) (worker_count s) (active_threads s) (workers s), [])
        | Boot (S k) => Some (mkSt (Created k) (queue s) (worker_count s) (active_threads s) (workers s ++ [Entry]), [])
        | Created k => Some (mkSt (Counted k) (queue s) (S (worker_count s)) (active_threads s) (workers s), [])
        | Counted k => Some (mkSt (Boot k) (queue s) (pred (worker_count s)) (active_threads s) (workers s), [])
        | Up => None
        end
    end.

  (** A schedule: the last state and the requests given to workers, in order *)
  Fixpoint run (s : state) (ls : list label) : option (state * list nat) :=
    match ls with
    | [] => Some (s, [])
    | l :: ls =>
        match step s l with
        | None => None
        | Some (s, out) => match run s ls with Some (s, out') => Some (s, out ++ out') | None => None end
        end
    end.
End Pool.
