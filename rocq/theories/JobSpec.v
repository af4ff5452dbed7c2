(** What it means for a sequence of events to be a proper execution of scheduled
    jobs.  These definitions speak about events only, not about the queue. *)
From Coq Require Import List ZArith.
From Verif Require Import JobModel.
Import ListNotations.
Open Scope Z_scope.

(** A point in time, in nanoseconds. *)
Definition ns (t : timespec) : Z := tv_sec t * 1000000000 + tv_nsec t.
(** A proper timespec. *)
Definition ts_ok (t : timespec) : Prop := 0 <= tv_nsec t < 1000000000.

(** All times in a history are proper. *)
Definition jop_ok (o : jop) : Prop :=
  match o with
  | JSchedule ts _ => ts_ok ts
  | JTimeout now => ts_ok now
  | _ => True
  end.

(** After the events [tr], job [id] is scheduled for [ts], and has neither been
    started nor cancelled. *)
Definition waiting (tr : list event) (id : Z) (ts : timespec) : Prop :=
  (exists f, In (Scheduled id ts f) tr) /\
  (forall f now arg, ~ In (Ran id f now arg) tr) /\
  (forall f, ~ In (Cancelled id f) tr).

(** Earlier due time, or the same due time and scheduled earlier. *)
Definition goes_first (i : Z) (ti : timespec) (k : Z) (tk : timespec) : Prop :=
  ns ti < ns tk \/ (ns ti = ns tk /\ i < k).

(** Each start is that of a waiting job, not before its time, and every other
    job that was waiting then goes after it. *)
Definition runs_in_order (tr : list event) : Prop :=
  forall tr1 id f now arg tr2, tr = tr1 ++ Ran id f now arg :: tr2 ->
    waiting tr1 id arg /\ In (Scheduled id arg f) tr1 /\ ns arg <= ns now /\
    forall k tk, waiting tr1 k tk -> k = id \/ goes_first id arg k tk.

(** Each cancellation is that of a waiting job, was asked for, and calls the
    function the job was scheduled with. *)
Definition cancels_properly (tr : list event) : Prop :=
  forall tr1 id f tr2, tr = tr1 ++ Cancelled id f :: tr2 ->
    In (CancelAsked id) tr1 /\ exists ts, waiting tr1 id ts /\ In (Scheduled id ts f) tr1.

(** Ids are handed out in increasing order. *)
Definition ids_increase (tr : list event) : Prop :=
  forall tr1 i ti fi tr2 k tk fk tr3,
    tr = tr1 ++ Scheduled i ti fi :: tr2 ++ Scheduled k tk fk :: tr3 -> i < k.

(** The events of a history starting with an empty queue, and the queue after it. *)
Definition events (os : list jop) : list event := snd (jrun q_init os).
Definition queue (os : list jop) : jobq := fst (jrun q_init os).

(** In a state, a step starts a job. *)
Definition starts_job (o : jop) (q : jobq) : Prop :=
  exists id f now arg, In (Ran id f now arg) (snd (jstep q o)).

(** An event that ends the life of job [id]: it is started or cancelled. *)
Definition ends (id : Z) (e : event) : Prop :=
  (exists f now arg, e = Ran id f now arg) \/ (exists f, e = Cancelled id f).

(** Steps taken by threads other than the timer thread. *)
Definition not_timer (o : jop) : Prop :=
  match o with JSchedule _ _ | JCancel _ => True | _ => False end.
