(** The end of the server (C79). *)
From Coq Require Import List Arith ZArith Bool Lia.
From Verif Require Import PoolModel PoolSpec DwnModel DwnSpec DwnProofs.
Import ListNotations.
Local Open Scope Z_scope.

(** C79: after HUP or INT, when pound stops to wait because there is nothing left to wait for, no request is being served at that moment, for every
    schedule of workers, arrivals, signals and times. *)
Theorem C79_drained : forall min max grace s l s' out, reached min max grace s -> dstep min max grace s l = Some (s', out) ->
  ph s <> Leaving Drained -> ph s' = Leaving Drained -> forall r, ~ serves s' r.
Proof. exact drained. Qed.
Print Assumptions C79_drained.

(** It does not sleep when there is nothing to wait for: no wakeup is lost, whatever the order in which the last worker ends and the main
    thread begins to wait. *)
Theorem C79_awake : forall min max grace s, reached min max grace s -> ph s = Asleep -> exists r, serves s r.
Proof. exact asleep_busy. Qed.
Print Assumptions C79_awake.

(** The wait is not cut short and not prolonged, if nobody sets the clock: pound goes on because the time is up only when Grace has passed since
    it began to wait, however often it was woken in between; *)
Theorem C79_not_early : forall min max grace s, reached_undisturbed min max grace s -> ph s = Leaving TimeUp -> asked s + grace <= mono s.
Proof. exact time_not_early. Qed.
Print Assumptions C79_not_early.

(** and as soon as Grace has passed it can go on, whatever the workers do. *)
Theorem C79_time_up : forall min max grace s, reached_undisturbed min max grace s -> ph s = Asleep -> asked s + grace <= mono s ->
  exists s', drun min max grace s [Over; Recheck] = Some (s', []) /\ ph s' = Leaving TimeUp.
Proof. exact time_over. Qed.
Print Assumptions C79_time_up.

(** TERM and QUIT end the program without a wait, whatever is being served. *)
Theorem C79_at_once : forall min max grace s, ph s = Serving -> main (pool s) = Up ->
  exists s', drun min max grace s [Signal false; Lock; Exit] = Some (s', []) /\ ph s' = Gone /\ pool s' = pool s /\ mono s' = mono s.
Proof. exact at_once. Qed.
Print Assumptions C79_at_once.

(** After a signal no new connection is served: what the workers get from then on, followed by what is left, are the connections that were in the
    queue when the signal came, in their order. *)
Theorem C79_last : forall min max grace s g ls s' out, drun min max grace s (Signal g :: ls) = Some (s', out) ->
  out ++ queue (pool s') = queue (pool s).
Proof. exact signal_out. Qed.
Print Assumptions C79_last.

(** "Existing connections are answered for the time of Grace" does not hold of those that have been accepted and wait for a worker: only the
    workers that serve are counted.  If none serves at the signal, the program can end at once, and every connection of the queue is closed
    without an answer; *)
Theorem C79_queue_refuted : forall min max grace s, ph s = Serving -> main (pool s) = Up -> active_threads (pool s) = 0%nat ->
  exists s', drun min max grace s [Signal true; Lock; Exit] = Some (s', []) /\ ph s' = Gone /\ queue (pool s') = queue (pool s) /\ mono s' = mono s.
Proof. exact queue_lost. Qed.
Print Assumptions C79_queue_refuted.

(** and if it waits, then the end of the last request in progress can end the program before that worker takes the next connection of the queue,
    although no time of Grace has passed. *)
Theorem C79_next_refuted : forall min max grace s i r, ph s = Asleep -> active_threads (pool s) = 1%nat ->
  nth_error (workers (pool s)) i = Some (Busy r) ->
  exists s', drun min max grace s [Pool (Finish i); Recheck; Exit] = Some (s', []) /\ ph s' = Gone /\
    queue (pool s') = queue (pool s) /\ mono s' = mono s.
Proof. exact queue_lost2. Qed.
Print Assumptions C79_next_refuted.

(** The end of the wait is a time of the clock of the system.  If that is set back after the wait began, pound still sleeps, and cannot go on,
    arbitrarily long after Grace has passed. *)
Theorem C79_clock_refuted : forall min max grace s n, ph s = Asleep -> deadline s = clock s + grace -> asked s = mono s -> 0 <= grace ->
  let ls := [SetClock (clock s - Z.of_N n - 1); Pass (Z.to_N grace); Pass n] in
  exists s', drun min max grace s ls = Some (s', []) /\ ph s' = Asleep /\ mono s' = asked s' + grace + Z.of_N n /\
    dstep min max grace s' Over = None.
Proof. exact clock_back. Qed.
Print Assumptions C79_clock_refuted.

(** One worker; two connections; the first is being served when INT comes, the second waits.  Then the worker ends. *)
Definition up1 : list dlabel := [Pool Main; Pool Main; Pool Main; Pool Main; Pool (Enter 0 None); Pool (Arrive 7 (Some 0%nat)); Pool (Resume 0 None); Pool (Arrive 8 None)].

Example C79_meets : exists s1 s2 s3,
  drun 1 1 30 (dinit 1 1000) up1 = Some (s1, [7%nat]) /\ ph s1 = Serving /\ main (pool s1) = Up /\ queue (pool s1) = [8%nat] /\
  drun 1 1 30 s1 [Signal true; Pass 2%N; Lock; Wake; Recheck] = Some (s2, []) /\ ph s2 = Asleep /\ deadline s2 = 1032 /\ asked s2 = 2 /\ serves s2 7 /\
  active_threads (pool s2) = 1%nat /\
  drun 1 1 30 s2 [Pass 29%N; Over] = None /\
  drun 1 1 30 s2 [Pass 30%N; Over; Recheck] = Some (s3, []) /\ ph s3 = Leaving TimeUp.
Proof.
  eexists. eexists. eexists. split; [vm_compute; reflexivity|]. split; [reflexivity|]. split; [reflexivity|]. split; [reflexivity|].
  split; [vm_compute; reflexivity|]. split; [reflexivity|]. split; [reflexivity|]. split; [reflexivity|]. split; [exists 0%nat; reflexivity|].
  split; [reflexivity|]. split; [vm_compute; reflexivity|]. split; [vm_compute; reflexivity|reflexivity].
Qed.

(** The worker goes on with the second connection before the main thread looks: it waits on, and ends when both are done *)
Example C79_meets_next : exists s, drun 1 1 30 (dinit 1 1000) (up1 ++ [Signal true; Lock; Pool (Finish 0); Pool (Enter 0 None); Recheck]) = Some (s, [7%nat; 8%nat]) /\
  ph s = Asleep /\ exists s', drun 1 1 30 s [Pool (Finish 0); Recheck] = Some (s', []) /\ ph s' = Leaving Drained.
Proof. eexists. split; [vm_compute; reflexivity|]. split; [reflexivity|]. eexists. split; [vm_compute; reflexivity|reflexivity]. Qed.

(** A connection in the queue and nobody that serves: the worker has been woken but has not run yet *)
Example C79_meets_queue : exists s, drun 1 1 30 (dinit 1 1000)
    [Pool Main; Pool Main; Pool Main; Pool Main; Pool (Enter 0 None); Pool (Arrive 7 (Some 0%nat))] = Some (s, []) /\
  ph s = Serving /\ main (pool s) = Up /\ active_threads (pool s) = 0%nat /\ queue (pool s) = [7%nat].
Proof. eexists. split; [vm_compute; reflexivity|]. repeat split. Qed.
