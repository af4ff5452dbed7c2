(** Locks (C81). *)
From Coq Require Import List Arith Bool Lia.
From Verif Require Import LkModel LkSpec LkProofs.
Import ListNotations.

(** C81: whatever the number of threads and the order in which they run, no set of threads waits for one another for ever; provided that no thread
    cancels the job of a dynamic backend. *)
Theorem C81_no_deadlock_partial : forall level ks q st d, Forall (well_placed level) ks -> Forall (fun k => ~ cancels k) ks ->
  reachable ks q st -> ~ deadlock st d.
Proof. exact no_deadlock. Qed.
Print Assumptions C81_no_deadlock_partial.

(** With cancellations, the timer is part of every deadlock: it has the mutex of the jobs and wants that of a backend. *)
Theorem C81_only_timer_partial : forall level ks q st d, Forall (well_placed level) ks -> reachable ks q st -> deadlock st d ->
  exists i bs b, In i d /\ nth_error ks i = Some (Timer bs) /\ holding st i Job /\ next st i (Acq (Be b)).
Proof. exact only_cancel. Qed.
Print Assumptions C81_only_timer_partial.

(** And such a deadlock can be: a dynamic backend is disabled and enabled again, by control requests.  The second has the mutex of the backend when it
    wants to queue the next update, while the timer, which has the mutex of the jobs, wants that of the backend to cancel the last one.  All
    the sessions and jobs of pound stop, and then all the requests to the service. *)
Theorem C81_deadlock_refuted : exists level ks q st d, Forall (well_placed level) ks /\ reachable ks q st /\ deadlock st d.
Proof.
  set (ks := [Timer [7]; DisableDynamic 0 (Mtx 7 []); EnableDynamic 0 (Mtx 7 []) []]).
  set (ts := [trace (Timer [7]) [1; 0; 0; 0]; trace (DisableDynamic 0 (Mtx 7 [])) []; trace (EnableDynamic 0 (Mtx 7 []) []) [0; 0; 0; 0; 0; 0]]).
  set (st := mkS [mkR [Job] [Acq (Be 7); Rel (Be 7); Rel Job]; mkR [] [];
                  mkR [Be 7; Svc 0] [Acq Job; Enq 7; Rel Job; Rel (Be 7); Rel (Svc 0); Net]] [] []).
  exists (fun _ => 0), ks, [7], st, [0; 2]. split; [repeat constructor|]. split.
  - exists ts, ([1; 1; 1; 1; 1; 1] ++ [2; 2; 2; 2; 2; 2; 2; 2] ++ [0; 0]). split.
    + repeat constructor; apply trace_runs; vm_compute; discriminate.
    + vm_compute. reflexivity.
  - split; [discriminate|]. intros i [<-|[<-|[]]].
    + exists 2. split; [right; left; reflexivity|]. split; [discriminate|]. exists (Be 7). split; [eexists; eexists; reflexivity|].
      eexists. split; [reflexivity|left; reflexivity].
    + exists 0. split; [left; reflexivity|]. split; [discriminate|]. exists Job. split; [eexists; eexists; reflexivity|].
      eexists. split; [reflexivity|left; reflexivity].
Qed.
Print Assumptions C81_deadlock_refuted.

(** A mutex is with one thread at a time; a thread that waits for a condition has no other mutex than the one it gives up; *)
Theorem C81_exclusive : forall level ks q st i j l, Forall (well_placed level) ks -> reachable ks q st -> holding st i l -> holding st j l -> i = j.
Proof. exact exclusive. Qed.
Print Assumptions C81_exclusive.

Theorem C81_sleep : forall level ks q st i h l t, Forall (well_placed level) ks -> reachable ks q st ->
  nth_error (threads st) i = Some (mkR h (Sleep l :: t)) -> h = [l].
Proof. intros level ks q st i h l t W R E. destruct (at_thread level ks q st i _ W R E) as (p & c & K). cbn in K. apply K. Qed.
Print Assumptions C81_sleep.

(** a thread that waits for a client, a backend or a name server has none, so that a slow peer stops nobody else; *)
Theorem C81_network : forall level ks q st i h t, Forall (well_placed level) ks -> reachable ks q st ->
  nth_error (threads st) i = Some (mkR h (Net :: t)) -> h = [].
Proof. intros level ks q st i h t W R E. destruct (at_thread level ks q st i _ W R E) as (p & c & K). cbn in K. apply K. Qed.
Print Assumptions C81_network.

(** and a thread that ends has none. *)
Theorem C81_end : forall level ks q st i h, Forall (well_placed level) ks -> reachable ks q st ->
  nth_error (threads st) i = Some (mkR h []) -> h = [].
Proof. intros level ks q st i h W R E. destruct (at_thread level ks q st i _ W R E) as (p & c & K). exact K. Qed.
Print Assumptions C81_end.

(** The sessions and backends of a service are used only by a thread that has its mutex: requests, jobs, updates from the name server, removals,
    listings; so nobody sees them while they change.  This leaves out control requests that name a backend. *)
Theorem C81_guarded_partial : forall level ks q st i s w, Forall (well_placed level) ks -> Forall (fun k => ~ looks k) ks ->
  reachable ks q st -> next st i (Use s w) -> holding st i (Svc s).
Proof. exact guarded. Qed.
Print Assumptions C81_guarded_partial.

Theorem C81_no_race_partial : forall level ks q st i j, Forall (well_placed level) ks -> Forall (fun k => ~ looks k) ks ->
  reachable ks q st -> ~ race st i j.
Proof. exact no_race. Qed.
Print Assumptions C81_no_race_partial.

(** A control request that names a backend goes through the list of backends without the mutex, while an update from the name server may remove some: *)
Theorem C81_locate_refuted : exists level ks q st i j, Forall (well_placed level) ks /\ ks = [Resolve 0 (Mtx 7 [Reg 3]) []; ListBackend 0 3] /\
  reachable ks q st /\ race st i j.
Proof.
  set (ts := [trace (Resolve 0 (Mtx 7 [Reg 3]) []) [0; 0; 0; 0; 0; 0; 0]; trace (ListBackend 0 3) []]).
  exists (fun b => if b =? 3 then 1 else 0), [Resolve 0 (Mtx 7 [Reg 3]) []; ListBackend 0 3], [7].
  destruct (after (start ts [7]) [0; 0; 0; 0; 0; 0; 0; 0]) as [st|] eqn:E; [|vm_compute in E; discriminate].
  exists st, 0, 1. split; [repeat constructor|]. split; [reflexivity|]. split.
  - exists ts, [0; 0; 0; 0; 0; 0; 0; 0]. split; [|exact E]. repeat constructor; apply trace_runs; vm_compute; discriminate.
  - vm_compute in E. inversion E; subst. split; [discriminate|]. exists 0, false. split; eexists; eexists; reflexivity.
Qed.
Print Assumptions C81_locate_refuted.

(** and one that disables a dynamic backend removes the backends it has made, and their sessions, without the mutex, at the same time as a request is
    looking for its session. *)
Theorem C81_disable_refuted : exists level ks q st i j, Forall (well_placed level) ks /\ ks = [DisableDynamic 0 (Mtx 7 [Reg 3]); Worker [(0, 3, 3)]] /\
  reachable ks q st /\ race st i j.
Proof.
  set (ts := [trace (DisableDynamic 0 (Mtx 7 [Reg 3])) [0]; trace (Worker [(0, 3, 3)]) [0; 0]]).
  exists (fun b => if b =? 3 then 1 else 0), [DisableDynamic 0 (Mtx 7 [Reg 3]); Worker [(0, 3, 3)]], [7].
  destruct (after (start ts [7]) [0; 0; 0; 0; 1; 1; 1; 1]) as [st|] eqn:E; [|vm_compute in E; discriminate].
  exists st, 0, 1. split; [repeat constructor|]. split; [reflexivity|]. split.
  - exists ts, [0; 0; 0; 0; 1; 1; 1; 1]. split; [|exact E]. repeat constructor; apply trace_runs; vm_compute; discriminate.
  - vm_compute in E. inversion E; subst. split; [discriminate|]. exists 0, false. split; eexists; eexists; reflexivity.
Qed.
Print Assumptions C81_disable_refuted.

(** A worker that takes a request and chooses a backend, an update that removes a backend, and the timer: all come to the end, and on the way the
    worker waits for the update. *)
Example C81_meets : let ks := [Worker [(0, 3, 3)]; Resolve 0 (Mtx 7 [Reg 3]) []; Timer []; Expire 0] in
  let level := fun b => if b =? 3 then 1 else 0 in
  Forall (well_placed level) ks /\ Forall (fun k => ~ cancels k) ks /\ Forall (fun k => ~ looks k) ks /\
  (exists st, reachable ks [7] st /\ waits st 0 1 /\ holding st 1 (Be 3) /\ next st 1 (Use 0 true)) /\
  (exists st, reachable ks [7] st /\ Forall (fun r => r = mkR [] []) (threads st)).
Proof.
  cbv zeta. set (level := fun b => if b =? 3 then 1 else 0).
  set (ts := [trace (Worker [(0, 3, 3)]) [0; 0; 1; 1; 1; 0; 0]; trace (Resolve 0 (Mtx 7 [Reg 3]) []) [0; 0; 0; 0; 0; 0; 0]; trace (Timer []) [1; 1; 0]; trace (Expire 0) [0]]).
  assert (TS : Forall2 (fun k t => runs (code k) t) [Worker [(0, 3, 3)]; Resolve 0 (Mtx 7 [Reg 3]) []; Timer []; Expire 0] ts)
    by (repeat constructor; apply trace_runs; vm_compute; discriminate).
  split; [repeat constructor|]. split; [|split].
  - repeat constructor; try (intros H; exact H). cbn. intros (b & l & [H|[]]). discriminate.
  - repeat constructor; intros H; exact H.
  - split.
    + destruct (after (start ts [7]) [0; 0; 0; 1; 1; 1; 1; 1; 1; 1; 1]) as [st|] eqn:E; [|vm_compute in E; discriminate].
      exists st. split; [exists ts, [0; 0; 0; 1; 1; 1; 1; 1; 1; 1; 1]; split; assumption|]. vm_compute in E. inversion E; subst.
      split; [|split].
      * split; [discriminate|]. exists (Svc 0). split; [eexists; eexists; reflexivity|]. eexists. split; [reflexivity|]. cbn. tauto.
      * eexists. split; [reflexivity|]. cbn. tauto.
      * eexists. eexists. reflexivity.
    + destruct (after (start ts [7]) (repeat 1 (length (nth 1 ts [])) ++ repeat 0 (length (nth 0 ts [])) ++ repeat 2 (S (length (nth 2 ts []))) ++
        repeat 3 (length (nth 3 ts [])))) as [st|] eqn:E; [|vm_compute in E; discriminate].
      eexists. split; [eexists ts, _; split; [exact TS|exact E]|]. vm_compute in E. inversion E; subst. repeat constructor.
Qed.
