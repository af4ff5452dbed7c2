(** The worker pool (C28). *)
From Coq Require Import List Arith Bool Lia.
From Verif Require Import PoolModel PoolSpec PoolProofs.
Import ListNotations.

(** C28: for every schedule, the requests given to workers followed by those still in the
    queue are those that arrived, in the order of arrival: none is lost, none is given out
    twice. *)
Theorem C28_fifo : forall min max ls s out, run min max (init min) ls = Some (s, out) -> out ++ queue s = arrivals ls.
Proof. intros min max ls s out H. exact (run_fifo min max ls (init min) s out H). Qed.
Print Assumptions C28_fifo.

(** Once the server is up, the counter of workers is the number of threads and lies between
    the configured limits; the counter of active workers is the number of threads that serve
    a request, and not larger. *)
Theorem C28_counts : forall min max ls s out, min <= max -> calm min max ls -> run min max (init min) ls = Some (s, out) -> main s = Up ->
  worker_count s = count live (workers s) /\ min <= worker_count s <= max /\
  active_threads s = count busy (workers s) /\ active_threads s <= worker_count s.
Proof.
  intros min max ls s out MM C R U. destruct (run_inv min max ls (init min) s out MM (init_inv min max MM) C R) as (IA & IM). rewrite U in IM. destruct IM as (M1 & M2 & M3).
  split; [exact M1|]. split; [exact M2|]. split; [exact IA|]. rewrite IA, M1. clear.
  induction (workers s) as [|w l IH]; [auto|]. rewrite !count_cons. destruct w; cbn [b2n busy live]; lia.
Qed.
Print Assumptions C28_counts.

(** No wakeup is lost: as long as a request is in the queue, some worker is not asleep, and
    the workers can go on, without further arrivals, until the first request is taken.  (If at
    least one worker is always kept.) *)
Theorem C28_awake : forall min max ls s out, 1 <= min <= max -> calm min max ls -> run min max (init min) ls = Some (s, out) -> queue s <> [] ->
  exists i w, nth_error (workers s) i = Some w /\ match w with Wait _ | Dead => False | _ => True end.
Proof.
  intros min max ls s out MM C R Q. assert (ML : min <= max) by lia. destruct (run_inv min max ls (init min) s out ML (init_inv min max ML) C R) as (IA & IM).
  assert (U : main s = Up) by (unfold quiet in IM; destruct (main s); auto; exfalso; destruct IM as (_ & _ & IM & _); auto). rewrite U in IM. destruct IM as (M1 & M2 & M3).
  destruct (M3 ltac:(lia) Q) as [A|(W & L)].
  - apply count_pos in A as (i & w & N & A). exists i, w. split; [exact N|]. destruct w as [| |[]| |]; easy.
  - apply count_pos in L as (i & w & N & A). exists i, w. split; [exact N|]. pose proof (proj1 (count_zero waiting (workers s)) W i w N). destruct w; easy.
Qed.
Print Assumptions C28_awake.

Theorem C28_progress : forall min max ls s out, 1 <= min <= max -> calm min max ls -> run min max (init min) ls = Some (s, out) -> queue s <> [] ->
  exists ls' s' out', forallb own ls' = true /\ run min max s ls' = Some (s', out') /\ out' = firstn 1 (queue s).
Proof.
  intros min max ls s out MM C R Q. assert (ML : min <= max) by lia. pose proof (run_inv min max ls (init min) s out ML (init_inv min max ML) C R) as I.
  assert (U : main s = Up) by (destruct I as (_ & IM); unfold quiet in IM; destruct (main s); auto; exfalso; destruct IM as (_ & _ & IM & _); auto).
  exact (progress min max (count live (workers s)) s ML ltac:(lia) I U Q (le_n _)).
Qed.
Print Assumptions C28_progress.

(** A worker leaves only if more than the minimum remain. *)
Theorem C28_leave : forall min max s l s' out, step min max s l = Some (s', out) -> count live (workers s') < count live (workers s) ->
  worker_count s <> min /\ worker_count s' = pred (worker_count s).
Proof.
  intros min max s l s' out H L.
  assert (SL : forall a c b, signal a c = Some b -> count live b = count live a) by (intros a c b S; apply signal_spec in S; tauto).
  assert (LP : forall s0 i c s1 o w, nth_error (workers s0) i = Some w -> live w = true -> loop min s0 i c = Some (s1, o) -> count live (workers s1) = count live (workers s0)).
  { intros s0 i c s1 o w N LV HL. unfold loop in HL.
    assert (X : forall w', live w' = true -> count live (set (workers s0) i w') = count live (workers s0)) by (intros w' LV'; pose proof (count_set live _ i _ w' N) as CL; rewrite LV, LV' in CL; lia).
    destruct (queue s0) as [|r [|r' q]]; [destruct c; [discriminate|]; injection HL as <- <-; apply X; auto|destruct c; [discriminate|]; injection HL as <- <-; apply X; auto|].
    destruct (signal _ c) eqn:SG; [|discriminate]. injection HL as <- <-. cbn [workers]. rewrite (SL _ _ _ SG). apply X; auto. }
  destruct l as [r c|i|i|i c|i c|i|]; cbn [step] in H.
  - destruct (main s); try discriminate. unfold enqueue in H. destruct (signal _ c) eqn:SG; [|discriminate]. injection H as <- <-. cbn [workers] in L. rewrite (SL _ _ _ SG) in L.
    destruct (_ && _) in L; rewrite ?count_app in L; lia.
  - destruct (nth_error (workers s) i) as [[|[]| | |]|] eqn:N; try discriminate. injection H as <- <-. pose proof (count_set live _ i _ (Woken true) N). cbn [workers live b2n] in *. lia.
  - destruct (nth_error (workers s) i) as [[|t| | |]|] eqn:N; try discriminate. injection H as <- <-. pose proof (count_set live _ i _ (Woken false) N). cbn [workers live b2n] in *. lia.
  - destruct (nth_error (workers s) i) as [[|t| | |]|] eqn:N; try discriminate. rewrite (LP _ _ _ _ _ _ N eq_refl H) in L. lia.
  - destruct (nth_error (workers s) i) as [[|t|late| |]|] eqn:N; try discriminate. unfold resume in H. destruct (late && _) eqn:D.
    + destruct c; [discriminate|]. injection H as <- <-. destruct late; [|discriminate]. destruct (Nat.eqb_spec (worker_count s) min); [discriminate|]. auto.
    + rewrite (LP _ _ _ _ _ _ N eq_refl H) in L. lia.
  - destruct (nth_error (workers s) i) as [[|t| | |]|] eqn:N; try discriminate. injection H as <- <-. pose proof (count_set live _ i _ Entry N). cbn [workers live b2n] in *. lia.
  - destruct (main s) as [[|k]|k|k|]; try discriminate; injection H as <- <-; cbn [workers] in L; rewrite ?count_app in L; lia.
Qed.
Print Assumptions C28_leave.

(** ** What does not hold *)

(** A request can wait although more workers could be started and no worker is free: if it
    arrives before an idle worker has taken an earlier one. *)
Theorem C28_start_refuted : exists min max ls s out, 1 <= min <= max /\ calm min max ls /\ run min max (init min) ls = Some (s, out) /\
  queue s <> [] /\ worker_count s < max /\ count busy (workers s) = count live (workers s).
Proof.
  exists 1, 128, [Main; Main; Main; Main; Enter 0 None; Arrive 7 (Some 0); Arrive 8 None; Resume 0 None], (mkSt Up [8] 1 1 [Busy 7]), [7].
  split; [lia|]. split.
  { intros a i b s out E _. exfalso. assert (I : In (Timeout i) (a ++ Timeout i :: b)) by (apply in_or_app; right; left; auto). rewrite <- E in I. cbn in I. intuition discriminate. }
  split; [vm_compute; reflexivity|]. split; [discriminate|]. split; [cbn; lia|]. reflexivity.
Qed.
Print Assumptions C28_start_refuted.

(** If the minimum is 0, the last worker can leave when a request has just arrived.  The
    request then waits for the next arrival. *)
Theorem C28_min_zero_refuted : exists max ls s out, 1 <= max /\ calm 0 max ls /\ run 0 max (init 0) ls = Some (s, out) /\ main s = Up /\
  queue s <> [] /\ forall l, own l = true -> step 0 max s l = None.
Proof.
  exists 1, [Main; Arrive 7 None; Enter 0 None; Finish 0; Enter 0 None; Timeout 0; Arrive 8 None; Resume 0 None], (mkSt Up [8] 0 0 [Dead]), [7].
  split; [lia|]. split.
  { intros a i b s out E R. assert (A : a = [Main; Arrive 7 None; Enter 0 None; Finish 0; Enter 0 None]).
    { do 6 (destruct a as [|? a]; [first [discriminate E|injection E as <-; subst; reflexivity|injection E; intros; subst; reflexivity]|]; injection E as <- E).
      exfalso. assert (I : In (Timeout i) (a ++ Timeout i :: b)) by (apply in_or_app; right; left; auto). rewrite <- E in I. cbn in I. intuition discriminate. }
    subst a. vm_compute in R. injection R as <- <-. reflexivity. }
  split; [vm_compute; reflexivity|]. split; [reflexivity|]. split; [discriminate|].
  intros l O. destruct l as [| | |i c|i c|i|]; try discriminate; destruct i as [|[|i]]; reflexivity.
Qed.
Print Assumptions C28_min_zero_refuted.

(** If the idle timeout runs out while the server starts, the number of workers can fall
    below the minimum, as the main thread changes the counter without locking it. *)
Theorem C28_startup_refuted : exists min max ls s out, 1 <= min <= max /\ run min max (init min) ls = Some (s, out) /\ main s = Up /\ worker_count s < min.
Proof.
  exists 1, 2, [Main; Main; Enter 0 None; Timeout 0; Resume 0 None; Main; Main], (mkSt Up [] 0 0 [Dead]), [].
  split; [lia|]. split; [vm_compute; reflexivity|]. split; [reflexivity|]. cbn. lia.
Qed.
Print Assumptions C28_startup_refuted.

(** ** Examples *)

(** Two requests, a second worker is started and leaves. *)
Example C28_run_ex : 
  let ls := [Main; Main; Main; Main; Arrive 7 None; Enter 0 None; Arrive 8 None; Enter 1 None; Finish 1; Enter 1 None; Timeout 1; Resume 1 None; Finish 0; Enter 0 None] in
  run 1 3 (init 1) ls = Some (mkSt Up [] 1 0 [Wait false; Dead], [7; 8]) /\ calm 1 3 ls.
Proof.
  cbv zeta. split; [vm_compute; reflexivity|].
  intros a i b s out E R.
  assert (A : a = [Main; Main; Main; Main; Arrive 7 None; Enter 0 None; Arrive 8 None; Enter 1 None; Finish 1; Enter 1 None]).
  { do 11 (destruct a as [|? a]; [first [discriminate E|injection E; intros; subst; reflexivity]|]; injection E as <- E).
    exfalso. assert (I : In (Timeout i) (a ++ Timeout i :: b)) by (apply in_or_app; right; left; auto). rewrite <- E in I. cbn in I. intuition discriminate. }
  subst a. vm_compute in R. injection R as <- <-. reflexivity.
Qed.
Example C28_awake_ex : exists s, run 1 3 (init 1) [Main; Main; Main; Main; Enter 0 None; Arrive 7 (Some 0)] = Some (s, []) /\ queue s = [7] /\ workers s = [Woken false].
Proof. eexists. vm_compute. auto. Qed.
