(** The queue of scheduled jobs and the timer thread.

    Simplifications.  A pointer to a JOB is represented by the job's id: a JOB is
    freed only by the timer thread, so while that thread waits the pointer it
    holds and the queue refer to the same objects.  job_next_id does not wrap
    (it is an unsigned long).  What a job does is outside this model: it is the
    name [j_fun].  Every step is one critical section on the job mutex.  Besides
    the new state a step yields the list of what happened, oldest first. *)
From Coq Require Import List ZArith Bool.
Import ListNotations.
Open Scope Z_scope.

(** struct timespec *)
Record timespec := mkTs { tv_sec : Z; tv_nsec : Z }.

(** pound.h:282-294, timespec_cmp *)
Definition timespec_cmp (a b : timespec) : Z :=
  if tv_sec a <? tv_sec b then -1
  else if tv_sec a >? tv_sec b then 1
  else if tv_nsec a <? tv_nsec b then -1
  else if tv_nsec a >? tv_nsec b then 1
  else 0.

(** pound.h:296-310, timespec_sub *)
Definition timespec_sub (a b : timespec) : timespec :=
  let sec := tv_sec a - tv_sec b in
  let nsec := tv_nsec a - tv_nsec b in
  if nsec <? 0 then mkTs (sec - 1) (nsec + 1000000000) else mkTs sec nsec.

(** svc.c:31-38, JOB; func and data together are [j_fun] *)
Record job := mkJob { j_id : Z; j_ts : timespec; j_fun : Z }.

(** What happens: a job is scheduled (job_enqueue returned this id), its
    cancellation is requested (job_cancel), it is started at a given time with
    its due time as argument, its function is called with job_ctl_cancel. *)
Inductive event :=
| Scheduled (id : Z) (ts : timespec) (f : Z)
| CancelAsked (id : Z)
| Ran (id : Z) (f : Z) (now : timespec) (arg : timespec)
| Cancelled (id : Z) (f : Z).

(** svc.c:50-52: job_head, jobcncl_head, job_next_id; [q_held] is the local
    variable [job] of thr_timer while it is inside pthread_cond_timedwait. *)
Record jobq := mkQ {
  q_jobs : list job;
  q_cncl : list Z;
  q_next : Z;
  q_held : option job
}.

(** The state at program start. *)
Definition q_init : jobq := mkQ [] [] 0 None.

(** svc.c:91-100, the insertion done by job_arm_unlocked: before the first job
    whose time is later, or at the tail. *)
Fixpoint job_insert (j : job) (l : list job) : list job :=
  match l with
  | [] => [j]
  | t :: l' => if timespec_cmp (j_ts j) (j_ts t) <? 0 then j :: t :: l' else t :: job_insert j l'
  end.

(** svc.c:83-123, job_arm_unlocked and job_enqueue.  job_enqueue_after
    (svc.c:125-142) is this with ts = the clock plus a number of seconds. *)
Definition job_enqueue (ts : timespec) (f : Z) (q : jobq) : jobq * list event :=
  let jid := q_next q in
  (mkQ (job_insert (mkJob jid ts f) (q_jobs q)) (q_cncl q) (jid + 1) (q_held q),
   [Scheduled jid ts f]).

(** svc.c:144-160, job_remove: only the first job with that id *)
Fixpoint job_remove (jid : Z) (l : list job) : list job * list event :=
  match l with
  | [] => ([], [])
  | j :: l' =>
      if j_id j =? jid then (l', [Cancelled (j_id j) (j_fun j)])
      else let (r, e) := job_remove jid l' in (j :: r, e)
  end.

(** svc.c:162-179, job_get_timestamp *)
Fixpoint job_find (jid : Z) (l : list job) : option timespec :=
  match l with
  | [] => None
  | j :: l' => if j_id j =? jid then Some (j_ts j) else job_find jid l'
  end.
Definition job_get_timestamp (jid : Z) (q : jobq) : option timespec := job_find jid (q_jobs q).

(** svc.c:181-191, job_cancel *)
Definition job_cancel (jid : Z) (q : jobq) : jobq * list event :=
  (mkQ (q_jobs q) (q_cncl q ++ [jid]) (q_next q) (q_held q), [CancelAsked jid]).

(** svc.c:228-234, the first loop of thr_timer *)
Fixpoint drain (cs : list Z) (l : list job) : list job * list event :=
  match cs with
  | [] => (l, [])
  | c :: cs' =>
      let (l1, e1) := job_remove c l in
      let (l2, e2) := drain cs' l1 in
      (l2, e1 ++ e2)
  end.

(** svc.c:223-244, from the top of the loop of thr_timer to the wait *)
Definition timer_top (q : jobq) : jobq * list event :=
  let (l, e) := drain (q_cncl q) (q_jobs q) in
  (mkQ l [] (q_next q) (hd_error l), e).

(** svc.c:245-248 (and 236-240): the wait ends because of a signal or spuriously;
    also the entry of the thread into its loop. *)
Definition timer_wake (q : jobq) : jobq * list event := timer_top q.

(** svc.c:249-261 and 200-206: the wait ends with ETIMEDOUT at time [now], which
    happens only if the thread waits for a job whose time has come.  Nothing
    happens if that is not so. *)
Definition timer_timeout (now : timespec) (q : jobq) : jobq * list event :=
  match q_held q with
  | None => (q, [])
  | Some h =>
      if timespec_cmp now (j_ts h) <? 0 then (q, [])
      else
        match q_jobs q with
        | j :: l =>
            if j_id h =? j_id j then
              let (q', e) := timer_top (mkQ l (q_cncl q) (q_next q) (q_held q)) in
              (q', Ran (j_id j) (j_fun j) now (j_ts j) :: e)
            else timer_top q
        | [] => timer_top q
        end
  end.

(** One critical section: any thread may schedule or cancel; the timer thread
    wakes up or times out. *)
Inductive jop :=
| JSchedule (ts : timespec) (f : Z)
| JCancel (id : Z)
| JWake
| JTimeout (now : timespec).

Definition jstep (q : jobq) (o : jop) : jobq * list event :=
  match o with
  | JSchedule ts f => job_enqueue ts f q
  | JCancel id => job_cancel id q
  | JWake => timer_wake q
  | JTimeout now => timer_timeout now q
  end.

(** A whole history: the final state and everything that happened. *)
Fixpoint jrun (q : jobq) (os : list jop) : jobq * list event :=
  match os with
  | [] => (q, [])
  | o :: os' =>
      let (q1, e1) := jstep q o in
      let (q2, e2) := jrun q1 os' in
      (q2, e1 ++ e2)
  end.
