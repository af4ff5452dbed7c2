(** When a backend is destroyed (C34). *)
From Coq Require Import List Arith ZArith Bool Lia.
From Verif Require Import RefModel RefSpec RefProofs.
Import ListNotations.

(** C34: in every history of requests, jobs, updates and remover threads, a backend is destroyed
    only after it was removed from its balancer and everyone who got a reference has dropped it
    again, without one having been lost; afterwards nothing is ever done with it, in particular it is not destroyed again. *)
Theorem C34_destroy : forall ops t x t1 b t2, run init ops = (t, x) -> t = t1 ++ Destroyed b :: t2 ->
  In (Delisted b) t1 /\ (forall h, times (is_ref h b) t1 = times (is_unref h b) t1) /\ no_loss b t1 /\ existsb (about b) t2 = false.
Proof. intros ops t x t1 b t2 R E. exact (proj1 (run_good ops [] init t x good_nil init_inv ltac:(intros k b' J; easy) R) t1 b t2 E). Qed.
Print Assumptions C34_destroy.

Example C34_destroy_example :
  fst (run init [Create; Select 1 0; Sweep 0; Start; Lock; Check; Wait; Create; Select 2 1; Drop (Req 1); Lock; Check; Wait])
  = [Listed 0; Ref (Req 1) 0; Delisted 0; Listed 1; Ref (Req 2) 1; Unref (Req 1) 0; Destroyed 0].
Proof. vm_compute. reflexivity. Qed.

(** It is destroyed: once it is removed from its balancer, everyone dropped his reference and
    nobody lost one, the next round of a remover thread frees it. *)
Theorem C34_released : forall ops t s b, run init ops = (t, Now s) -> In b (rem s) -> unheld b s -> no_loss b t ->
  scan s = None -> ready s <> 0 -> exists e s', run s (Lock :: repeat Check (length (rem s))) = (e, Now s') /\ In (Destroyed b) e.
Proof.
  intros ops t s b R IB U N SC RD. destruct (reach_inv ops t s R) as (_ & I & _). cbn [run step]. unfold locked. rewrite SC. destruct (ready s) as [|n]; [contradiction|].
  set (s1 := set_scan _ _). assert (I1 : inv t s1).
  { apply (inv_same _ s _ I); try reflexivity. cbn. intros l E. injection E as <-. split; [apply (inv_nodup _ _ I)|intros x; auto]. }
  destruct (check_round (rem s) t s1 I1 eq_refl) as (e & s2 & R2 & _ & _ & Q). exists e, s2. rewrite R2. split; [reflexivity|].
  apply Q; [exact IB|]. cbn. apply (unheld_zero t s b I); auto. apply (inv_rem _ _ I) in IB. tauto.
Qed.
Print Assumptions C34_released.

Example C34_released_example : exists t s, run init [Create; Select 1 0; Sweep 0; Drop (Req 1); Start] = (t, Now s) /\ In 0 (rem s) /\ unheld 0 s /\ no_loss 0 t /\ scan s = None /\ ready s <> 0.
Proof. eexists. eexists. split; [vm_compute; reflexivity|]. split; [left; reflexivity|]. split; [intros h []|]. split; [|split; [reflexivity|discriminate]]. intros h H. cbn in H. repeat (destruct H as [H|H]; [discriminate|]). exact H. Qed.

(** The remover thread ends when it leaves nothing behind, and waits to be woken otherwise. *)
Theorem C34_remover_ends : forall ops t s n, run init ops = (t, Now s) -> scan s = None -> ready s = S n ->
  exists e s', run s (Lock :: repeat Check (length (rem s)) ++ [Wait]) = (e, Now s') /\ scan s' = None /\ ready s' = n /\
    (waiting s' = waiting s /\ rem s' = [] \/ waiting s' = S (waiting s) /\ rem s' <> []) /\
    ((forall b, In b (rem s) -> unheld b s /\ no_loss b t) -> waiting s' = waiting s /\ rem s' = []).
Proof. exact remover_round. Qed.
Print Assumptions C34_remover_ends.

Example C34_remover_ends_example : exists t s, run init [Create; Select 1 0; Sweep 0; Drop (Req 1); Start] = (t, Now s) /\ scan s = None /\ ready s = 1 /\
  (forall b, In b (rem s) -> unheld b s /\ no_loss b t).
Proof. eexists. eexists. split; [vm_compute; reflexivity|]. split; [reflexivity|]. split; [reflexivity|]. intros b _. split; [intros h []|]. intros h H. cbn in H. repeat (destruct H as [H|H]; [discriminate|]). exact H. Qed.

(** The count is the truth: a backend that is in its balancer or held by a request or a job has
    not been destroyed. *)
Theorem C34_alive : forall ops t s b, run init ops = (t, Now s) -> listed s b = true \/ (exists h, holding h s = Some b) -> freed s b = false /\ ~ In (Destroyed b) t.
Proof.
  intros ops t s b R H. destruct (reach_inv ops t s R) as (_ & I & _).
  assert (F : freed s b = false) by (destruct H as [L|(h & L)]; [apply (listed_alive t s b I L)|apply (held_alive t s h b I L)]).
  split; [exact F|]. intros D. apply (inv_dead _ _ I) in D. congruence.
Qed.
Print Assumptions C34_alive.

(** The check of a dead backend does not keep a removed backend for ever: if only the job holds
    it, the job drops it when it runs next, whether the backend is up or not. *)
Theorem C34_job_ends : forall ops t s b j up, run init ops = (t, Now s) -> listed s b = false -> no_loss b t ->
  holding (Job j) s = Some b -> filter (fun e => Nat.eqb (snd e) b) (holds s) = [(Job j, b)] ->
  exists s', step (Probe j up) s = Ok s' [Unref (Job j) b] /\ refcount s' b = 0%Z.
Proof.
  intros ops t s b j up R L N HJ H2. destruct (reach_inv ops t s R) as (_ & I & _).
  assert (C : refcount s b = 1%Z).
  { rewrite (inv_count _ _ I b), L. unfold num, to. rewrite H2, times_num, (num_none _ (lost b) t); [reflexivity|].
    intros e J. destruct e; cbn; auto. destruct (Nat.eqb_spec b b0); auto. subst. destruct (N _ J). }
  destruct (held_alive t s _ b I HJ) as (F & _). cbn [step]. rewrite HJ, F, C. cbn [Z.ltb Z.compare andb].
  unfold unref. rewrite HJ, F, C. cbn [Z.leb Z.compare]. cbv zeta. cbn [Z.eqb Z.sub Z.add Z.opp Z.pos_sub]. destruct (waiting _); eexists; (split; [reflexivity|]); cbn; apply upd_same.
Qed.
Print Assumptions C34_job_ends.

Example C34_job_ends_example : exists t s, run init [Create; Select 1 0; Kill 1 7; Drop (Req 1); Sweep 0] = (t, Now s) /\ listed s 0 = false /\ no_loss 0 t /\
  holding (Job 7) s = Some 0 /\ filter (fun e => Nat.eqb (snd e) 0) (holds s) = [(Job 7, 0)].
Proof. eexists. eexists. split; [vm_compute; reflexivity|]. split; [reflexivity|]. split; [|split; reflexivity]. intros h H. cbn in H. repeat (destruct H as [H|H]; [discriminate|]). exact H. Qed.

(** Nothing that has been destroyed is used and no assertion fails, as long as requests are
    careful.  Missing: the program does not see to it that they are, see below. *)
Theorem C34_safe_partial : forall ops t c, careful ops -> run init ops <> (t, Crashed c).
Proof. intros ops t c C. exact (careful_run ops [] [] init eq_refl init_inv ltac:(intros k b J; easy) ltac:(intros k b J; easy) C t c). Qed.
Print Assumptions C34_safe_partial.

Example C34_safe_example : careful [Create; Learn 1 5 0; Remember 1 6; Create; Kill 1 3; Sweep 0; Start; Drop (Req 1); Stick 2 5].
Proof.
  intros ops1 o ops2 t s E R.
  assert (K : o = Remember 1 6 \/ o = Kill 1 3 \/ (forall s', careful_op s' o)).
  { assert (J : In o [Create; Learn 1 5 0; Remember 1 6; Create; Kill 1 3; Sweep 0; Start; Drop (Req 1); Stick 2 5]) by (rewrite E; apply in_or_app; right; left; reflexivity).
    cbn in J. repeat (destruct J as [<-|J]; [tauto || (right; right; intros s'; exact Logic.I)|]). easy. }
  destruct K as [->|[->|K]]; [| |apply K].
  - destruct ops1 as [|? [|? [|? [|? [|? [|? [|? [|? [|? ops1]]]]]]]]]; try discriminate E; [|destruct ops1; discriminate E]. injection E as <- <- E. vm_compute in R. injection R as <- <-.
    intros b [J|[]]. injection J as <-. reflexivity.
  - destruct ops1 as [|? [|? [|? [|? [|? [|? [|? [|? [|? ops1]]]]]]]]]; try discriminate E; [|destruct ops1; discriminate E]. injection E as <- <- <- <- E. vm_compute in R. injection R as <- <-.
    intros b [J|[]]. injection J as <-. reflexivity.
Qed.

(** A request that was sent to a backend before its address disappeared from the DNS, and whose
    connection attempt fails afterwards, aborts the server: the assertion of kill_be fails. *)
Theorem C34_kill_refuted : exists ops t, run init ops = (t, Crashed Assertion) /\ ops = [Create; Select 1 0; Sweep 0; Kill 1 9].
Proof. eexists. eexists. split; [|reflexivity]. vm_compute. reflexivity. Qed.
Print Assumptions C34_kill_refuted.

(** If instead it gets a response that starts a session, the session outlives the backend, and
    the next request of the session uses a destroyed object. *)
Theorem C34_session_refuted : exists ops t, run init ops = (t, Crashed Use_after_free) /\
  ops = [Create; Create; Select 1 0; Sweep 0; Start; Remember 1 5; Drop (Req 1); Lock; Check; Wait; Stick 2 5].
Proof. eexists. eexists. split; [|reflexivity]. vm_compute. reflexivity. Qed.
Print Assumptions C34_session_refuted.

(** When no socket can be created, select_backend drops its reference and then describes the
    backend in the log: by then it can be gone. *)
Theorem C34_log_refuted : exists ops t, run init ops = (t, Crashed Use_after_free) /\
  ops = [Create; Select 1 0; Sweep 0; Start; Drop (Req 1); Lock; Check; Wait; Peek 0].
Proof. eexists. eexists. split; [|reflexivity]. vm_compute. reflexivity. Qed.
Print Assumptions C34_log_refuted.

(** When the connection to a backend cannot be set up after connect (open_backend fails), the
    reference is never dropped: the backend is never destroyed, whatever happens next. *)
Theorem C34_leak_refuted : forall ops t x, run init ([Create; Select 1 0; Lose 1] ++ ops) = (t, x) -> ~ In (Destroyed 0) t.
Proof.
  intros ops t x R D. apply in_split in D as (t1 & t2 & E). destruct (C34_destroy _ t x t1 0 t2 R E) as (_ & _ & B & _).
  assert (ET : exists u, t = [Listed 0; Ref (Req 1) 0; Lost (Req 1) 0] ++ u).
  { assert (R3 : exists s1, run init [Create; Select 1 0; Lose 1] = ([Listed 0; Ref (Req 1) 0; Lost (Req 1) 0], Now s1)) by (eexists; vm_compute; reflexivity).
    destruct R3 as (s1 & R3). rewrite (run_app _ ops _ _ _ R3) in R. injection R as <- _. eexists. reflexivity. }
  destruct ET as (u & ET). rewrite E in ET. destruct t1 as [|e1 [|e2 [|e3 t1]]]; try discriminate ET. injection ET as -> -> -> _. apply (B (Req 1)). right; right; left; reflexivity.
Qed.
Print Assumptions C34_leak_refuted.

(** A reference dropped between the look of the remover thread at the backend and its wait wakes
    nobody up (backend_unref does not lock the service): nobody holds the backend any more, and
    the remover sleeps on. *)
Theorem C34_wakeup_refuted : exists ops t s, run init ops = (t, Now s) /\ In 0 (rem s) /\ unheld 0 s /\ no_loss 0 t /\ waiting s = 1 /\ ready s = 0 /\ remover_stuck s.
Proof.
  exists [Create; Select 1 0; Sweep 0; Start; Lock; Check; Drop (Req 1); Wait]. eexists. eexists. split; [vm_compute; reflexivity|].
  split; [left; reflexivity|]. split; [intros h []|]. split; [intros h H; cbn in H; repeat (destruct H as [H|H]; [discriminate|]); exact H|].
  split; [reflexivity|]. split; [reflexivity|]. intros o [<-|[<-|[<-|[]]]]; reflexivity.
Qed.
Print Assumptions C34_wakeup_refuted.
