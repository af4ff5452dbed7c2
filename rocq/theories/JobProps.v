(** C24: scheduled jobs. *)
From Coq Require Import List ZArith Lia.
From Verif Require Import JobModel JobSpec JobProofs.
Import ListNotations.
Open Scope Z_scope.

(** C24.  In every history, a job is started only if it is waiting, not before its
    due time, with that due time as argument, and every other job waiting at that
    moment has a later due time, or the same one and was scheduled later. *)
Theorem C24_order : forall os, Forall jop_ok os -> runs_in_order (events os).
Proof. intros os F. apply (i_run _ _ _ _ (proj1 (run_inv os F))). Qed.
Print Assumptions C24_order.

(** Being scheduled later is having a greater id. *)
Theorem C24_ids : forall os, Forall jop_ok os -> ids_increase (events os).
Proof. intros os F. apply (i_inc _ _ _ _ (proj1 (run_inv os F))). Qed.
Print Assumptions C24_ids.

(** A job's finaliser is called only on request, while the job is waiting, and it is
    that job's. *)
Theorem C24_cancel_proper : forall os, Forall jop_ok os -> cancels_properly (events os).
Proof. intros os F. apply (i_can _ _ _ _ (proj1 (run_inv os F))). Qed.
Print Assumptions C24_cancel_proper.

(** A job is started or cancelled at most once, and never both. *)
Theorem C24_once : forall os tr1 e tr2 id, Forall jop_ok os -> events os = tr1 ++ e :: tr2 ->
  ends id e -> forall e', In e' tr2 -> ~ ends id e'.
Proof. exact once. Qed.
Print Assumptions C24_once.

(** No job is lost or altered: job_get_timestamp answers for exactly the jobs that
    wait, with their due times. *)
Theorem C24_no_loss : forall os id ts, Forall jop_ok os ->
  (job_get_timestamp id (queue os) = Some ts <-> waiting (events os) id ts).
Proof. exact get_timestamp_spec. Qed.
Print Assumptions C24_no_loss.

(** When the timer thread has gone through its loop and a job is due, the next
    timeout starts a job. *)
Theorem C24_due : forall os now id ts, Forall jop_ok os -> ts_ok now ->
  waiting (events (os ++ [JWake])) id ts -> ns ts <= ns now ->
  starts_job (JTimeout now) (queue (os ++ [JWake])).
Proof. exact due_runs. Qed.
Print Assumptions C24_due.

(** A waiting job whose cancellation is requested is cancelled, whatever the other
    threads do until then, provided the timer thread's wait ends by a wake-up, not by
    a timeout.  Missing from the full property: the case where it times out first. *)
Theorem C24_cancel_partial : forall os id ts mid, Forall jop_ok os -> waiting (events os) id ts ->
  Forall not_timer mid ->
  exists f, In (Cancelled id f) (events (os ++ JCancel id :: mid ++ [JWake])).
Proof. exact cancel_next. Qed.
Print Assumptions C24_cancel_partial.

(** In that case the job is started although its cancellation was requested before,
    and its finaliser is not called, then or later. *)
Theorem C24_cancel_lost_refuted : exists os id ts, Forall jop_ok os /\
  waiting (events os) id ts /\
  (exists f now, In (Ran id f now ts) (events (os ++ [JCancel id; JTimeout now]))) /\
  forall os' f, Forall jop_ok os' ->
    ~ In (Cancelled id f) (events (os ++ [JCancel id; JTimeout ts] ++ os')).
Proof.
  set (t := mkTs 10 0). exists [JSchedule t 7; JWake], 0, t.
  assert (O : ts_ok t) by (unfold ts_ok; cbn; lia).
  assert (F : Forall jop_ok [JSchedule t 7; JWake]) by (constructor; [exact O|constructor; [exact I|constructor]]).
  split; [exact F|]. split.
  { split; [exists 7; left; reflexivity|]. split; intros; intros [X|[]]; discriminate. }
  split; [exists 7, t; right; right; left; reflexivity|].
  intros os' f F' X.
  assert (FF : Forall jop_ok ([JSchedule t 7; JWake] ++ [JCancel 0; JTimeout t] ++ os')).
  { apply Forall_app. split; [exact F|]. apply Forall_app. split; [constructor; [exact I|constructor; [exact O|constructor]]|auto]. }
  rewrite app_assoc in X, FF. rewrite events_app in X.
  set (p := [JSchedule t 7; JWake] ++ [JCancel 0; JTimeout t]) in *.
  assert (E := events_app p os').
  change (events p) with ([Scheduled 0 t 7; CancelAsked 0] ++ [Ran 0 7 t t]) in E, X.
  rewrite <- app_assoc in E, X. cbn [app] in X. destruct X as [X|[X|[X|X]]]; try discriminate.
  apply (C24_once _ [Scheduled 0 t 7; CancelAsked 0] (Ran 0 7 t t) (snd (jrun (queue p) os')) 0 FF E) with (e' := Cancelled 0 f).
  - left. eauto.
  - exact X.
  - right. eauto.
Qed.
Print Assumptions C24_cancel_lost_refuted.

(** Times are compared and subtracted as points in time. *)
Theorem C24_compare : forall a b, ts_ok a -> ts_ok b ->
  (timespec_cmp a b < 0 <-> ns a < ns b) /\ (timespec_cmp a b = 0 <-> ns a = ns b).
Proof.
  intros a b A B. assert (X := cmp_lt a b A B). assert (Y := cmp_le a b A B). split; lia.
Qed.
Print Assumptions C24_compare.

Theorem C24_difference : forall a b, ts_ok a -> ts_ok b ->
  ns (timespec_sub a b) = ns a - ns b /\ ts_ok (timespec_sub a b).
Proof. exact sub_ns. Qed.
Print Assumptions C24_difference.

(** Three jobs, two with the same time, one of them cancelled in time. *)
Definition ex_os : list jop :=
  [JWake; JSchedule (mkTs 20 0) 1; JSchedule (mkTs 10 5) 2; JSchedule (mkTs 20 0) 3;
   JSchedule (mkTs 15 0) 4; JWake; JCancel 3; JWake; JTimeout (mkTs 11 0); JTimeout (mkTs 20 0);
   JTimeout (mkTs 20 1); JTimeout (mkTs 30 0)].
Example C24_ex : events ex_os =
  [Scheduled 0 (mkTs 20 0) 1; Scheduled 1 (mkTs 10 5) 2; Scheduled 2 (mkTs 20 0) 3;
   Scheduled 3 (mkTs 15 0) 4; CancelAsked 3; Cancelled 3 4; Ran 1 2 (mkTs 11 0) (mkTs 10 5);
   Ran 0 1 (mkTs 20 0) (mkTs 20 0); Ran 2 3 (mkTs 20 1) (mkTs 20 0)].
Proof. vm_compute. reflexivity. Qed.
Example C24_ex_ok : Forall jop_ok ex_os.
Proof. unfold ex_os. repeat (constructor; [cbn; unfold ts_ok; cbn; lia|]). constructor. Qed.
Example C24_ex_waiting : waiting (events ([JSchedule (mkTs 20 0) 1] ++ [JWake])) 0 (mkTs 20 0).
Proof. split; [exists 1; left; reflexivity|]. split; intros; intros [X|[]]; discriminate. Qed.
