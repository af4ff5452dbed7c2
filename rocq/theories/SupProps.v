(** The supervisor (C43). *)
From Coq Require Import List ZArith Bool Lia.
From Verif Require Import SupModel SupSpec SupProofs.
Import ListNotations.
Open Scope Z_scope.

(** C43: when the server process ends abnormally while the supervisor waits for a signal and no
    termination was requested, a new one is started.
    Missing from the full statement: ends that are not noticed (C43_lost_refuted). *)
Theorem C43_restart_partial : forall ls s a p h, plain ls -> run init ls = Some (s, a) -> loc s = Sigwait -> st s = RUNNING -> In (p, None) (procs s) -> h <> Exited 0 ->
  exists s', run s [Ends p h; Go true] = Some (s', [Start (next s)]) /\ In (next s, None) (procs s') /\ running s' = 1%nat.
Proof.
  intros ls s a p h P R L ST I NH. pose proof (run_inv ls init s a init_inv P R) as (N1 & N2 & J). rewrite L in J. destruct J as (J1 & h0 & PR). rewrite PR in I. destruct I as [E|[]]. injection E as E ->. subst p.
  cbn [run step]. rewrite PR. unfold alive. cbn [existsb fst snd]. rewrite Z.eqb_refl. cbn [andb orb loc pid st procs next map fst]. rewrite L. rewrite Z.eqb_refl. cbn [handle procs zombie].
  assert (W : waited (mkSup Sigwait (pid s) (st s) [(pid s, Some h)] (next s)) (Some (pid s, h)) = (mkSup Top 0 RUNNING [] (next s), [])).
  { unfold waited. cbn [procs pid st next reap filter fst]. unfold reap. cbn [filter fst]. rewrite Z.eqb_refl, ST. cbn [negb]. destruct h as [[| |]|]; try reflexivity. congruence. }
  rewrite W. cbn. eexists. split; [reflexivity|]. cbn. auto.
Qed.
Print Assumptions C43_restart_partial.

(** It goes on until there is a reason to end: a request to terminate (or SIGALRM), a normal
    end of the server process, or a failure to start one. *)
Theorem C43_persist : forall ls s a, run init ls = Some (s, a) ->
  (forall l, In l ls -> match l with Go ok => ok = true | Sig g => g = CHLD | Ends _ h => h <> Exited 0 end) -> loc s <> Done.
Proof.
  intros ls s a R H. assert (C : calm init) by (split; [reflexivity|split; [discriminate|intros p h []]]).
  pose proof (run_calm ls init s a C) as X. apply X in R as (_ & R & _); [exact R|].
  intros l I. specialize (H l I). destruct l; cbn [cause]; [rewrite H; discriminate|congruence|congruence].
Qed.
Print Assumptions C43_persist.

(** A request to terminate that it gets is passed on to the server process, the time for it is
    limited, and after it no process is started. *)
Theorem C43_terminate : forall ls s a g ls' s' a', plain ls -> run init ls = Some (s, a) -> loc s = Sigwait -> st s = RUNNING -> term g = true ->
  run s (Sig g :: ls') = Some (s', a') -> exists p rest, In p (map fst (procs s)) /\ a' = Kill p g :: Alarm :: rest /\ (forall q, ~ In (Start q) rest).
Proof.
  intros ls s a g ls' s' a' P R L ST T R'. pose proof (run_inv ls init s a init_inv P R) as (N1 & N2 & J). rewrite L in J. destruct J as (J1 & h0 & PR).
  cbn [run step] in R'. unfold signal in R'. rewrite L in R'.
  assert (H : handle s g = (mkSup Top (pid s) TERMINATING (procs s) (next s), [Kill (pid s) g; Alarm])).
  { destruct g; try discriminate; cbn [handle]; rewrite ST; destruct (Z.eqb_spec (pid s) 0); try lia; reflexivity. }
  rewrite H in R'. destruct (run _ ls') as [[s2 a2]|] eqn:R2; [|discriminate]. injection R' as <- <-.
  exists (pid s), a2. rewrite PR. split; [left; reflexivity|]. split; [reflexivity|]. eapply run_terminating; [|exact R2]. left. reflexivity.
Qed.
Print Assumptions C43_terminate.

(** When the time is over, the server process is killed, and the supervisor ends. *)
Theorem C43_alarm : forall ls s a, plain ls -> run init ls = Some (s, a) -> loc s = Sigwait ->
  exists p s', map fst (procs s) = [p] /\ run s [Sig ALRM] = Some (s', [KillNow p; End]) /\ loc s' = Done.
Proof.
  intros ls s a P R L. pose proof (run_inv ls init s a init_inv P R) as (N1 & N2 & J). rewrite L in J. destruct J as (J1 & h0 & PR).
  exists (pid s). eexists. rewrite PR. split; [reflexivity|]. cbn [run step]. unfold signal. rewrite L. cbn [handle]. split; [rewrite app_nil_r; reflexivity|reflexivity].
Qed.
Print Assumptions C43_alarm.

(** There is never more than one server process, if children are not stopped. *)
Theorem C43_single_partial : forall ls s a, plain ls -> run init ls = Some (s, a) -> (running s <= 1)%nat.
Proof. intros ls s a P R. exact (inv_running s (run_inv ls init s a init_inv P R)). Qed.
Print Assumptions C43_single_partial.

(** ** What does not hold *)

(** If the server process ends before the supervisor is in sigwait, this is not noticed:
    there is no server process, and the supervisor waits. *)
Theorem C43_lost_refuted : exists ls s a, plain ls /\ run init ls = Some (s, a) /\ loc s = Sigwait /\ st s = RUNNING /\ running s = 0%nat /\
  (forall ok, step s (Go ok) = None) /\ (forall p h, step s (Ends p h) = None).
Proof.
  exists [Go true; Ends 1 (Signaled 11); Go true], (mkSup Sigwait 1 RUNNING [(1, Some (Signaled 11))] 2), [Start 1].
  split; [intros H; cbn in H; intuition discriminate|]. split; [reflexivity|]. split; [reflexivity|]. split; [reflexivity|]. split; [reflexivity|]. split; [reflexivity|].
  intros p h. unfold step, alive. cbn. rewrite andb_false_r. reflexivity.
Qed.
Print Assumptions C43_lost_refuted.

(** A request to terminate that arrives at that time is lost as well. *)
Theorem C43_lost_term_refuted : exists ls s a, In (Sig TERM) ls /\ run init ls = Some (s, a) /\ loc s = Sigwait /\ st s = RUNNING /\ running s = 1%nat.
Proof. exists [Go true; Sig TERM; Go true], (mkSup Sigwait 1 RUNNING [(1, None)] 2), [Start 1]. cbn. intuition. Qed.
Print Assumptions C43_lost_term_refuted.

(** If the server process is stopped, and then a request to terminate arrives, a second
    server process is started. *)
Theorem C43_single_refuted : exists ls s a, run init ls = Some (s, a) /\ running s = 2%nat /\ a = [Start 1; Start 2].
Proof. exists [Go true; Go true; Sig CHLD; Sig TERM; Go true], (mkSup Top 2 RUNNING [(2, None); (1, None)] 3), [Start 1; Start 2]. cbn. auto. Qed.
Print Assumptions C43_single_refuted.

(** ** Examples *)
Example C43_restart_ex : exists s, run init [Go true; Go true; Ends 1 (Exited 1); Go true; Go true] = Some (s, [Start 1; Start 2]) /\ loc s = Sigwait /\ st s = RUNNING /\ In (2, None) (procs s).
Proof. eexists. split; [reflexivity|]. cbn. auto. Qed.
Example C43_alarm_ex : exists s, run init [Go true; Go true; Sig HUP; Go true] = Some (s, [Start 1; Kill 1 HUP; Alarm]) /\ loc s = Sigwait.
Proof. eexists. split; [reflexivity|]. cbn. auto. Qed.
Example C43_terminate_ex : exists s, run init [Go true; Go true; Sig HUP; Go true; Ends 1 (Exited 0)] = Some (s, [Start 1; Kill 1 HUP; Alarm; End]) /\ loc s = Done.
Proof. eexists. split; [reflexivity|]. cbn. auto. Qed.
