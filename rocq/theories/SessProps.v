(** C22 and C23: sessions. *)
From Coq Require Import String List ZArith Lia Bool Sorted.
From Verif Require Import Bytes JobModel JobSpec SessModel SessSpec SessProofs.
Import ListNotations.
Open Scope Z_scope.

(** C22.  For every history with a clock that does not go back, requests are given the
    backends that the abstract table of keys determines. *)
Theorem C22_table : forall ttl os t0 key now choice, 0 <= ttl -> clock_ok t0 os -> ts_ok now ->
  answer ttl os key now choice = live_answer ttl os key now choice.
Proof. exact map_refines. Qed.
Print Assumptions C22_table.

(** Once a request with a key has been given a backend, every later request with that
    key is given the same one, as long as nothing in between ended the session; each
    use puts the expiry off to the time of that use plus the TTL.  Here the clock may
    even go back. *)
Theorem C22_sticky : forall ttl os1 key t1 c1 b os2 t2 c2,
  Forall sop_ok (os1 ++ SReq key t1 c1 :: os2) -> ts_ok t2 ->
  answer ttl os1 key t1 c1 = Some b ->
  kept ttl key b (ns t1 + ttl * sec) os2 ->
  answer ttl (os1 ++ SReq key t1 c1 :: os2) key t2 c2 = Some b.
Proof. exact sticky. Qed.
Print Assumptions C22_sticky.

(** After a session was deleted, and until one is created again for its key, a request
    with that key is balanced anew. *)
Theorem C22_deleted : forall ttl os1 k os2 key now choice,
  Forall sop_ok (os1 ++ SDel k :: os2) -> ts_ok now ->
  firstn KEY_SIZE key = k -> Forall (no_new key) os2 ->
  answer ttl (os1 ++ SDel k :: os2) key now choice = choice.
Proof. exact gone_deleted. Qed.
Print Assumptions C22_deleted.

(** The same after the backend that requests with that key were given was killed. *)
Theorem C22_killed : forall ttl os1 b os2 key now now' choice,
  Forall sop_ok (os1 ++ SKill b :: os2) -> ts_ok now -> ts_ok now' ->
  answer ttl os1 key now' None = Some b -> Forall (no_new key) os2 ->
  answer ttl (os1 ++ SKill b :: os2) key now choice = choice.
Proof. exact gone_killed. Qed.
Print Assumptions C22_killed.

(** The same after an expiry run for a time at or after the last use plus the TTL. *)
Theorem C22_expired : forall ttl os1 key t1 c1 T os2 t0 now choice, 0 <= ttl ->
  clock_ok t0 (os1 ++ SReq key t1 c1 :: os2 ++ [SExpire T]) -> ts_ok now ->
  Forall (no_new key) os2 -> ns t1 + ttl * sec <= ns T ->
  answer ttl (os1 ++ SReq key t1 c1 :: os2 ++ [SExpire T]) key now choice = choice.
Proof. exact gone_expired. Qed.
Print Assumptions C22_expired.

(** C23.  The list of sessions is always in order of expiry... *)
Theorem C23_ordered : forall ttl os t0, 0 <= ttl -> clock_ok t0 os -> by_expiry (t_list (table ttl os)).
Proof.
  intros ttl os t0 P C. destruct (run_full ttl os t0 P C) as [(b & [_ [S _] _]) _].
  induction S as [|s l S IH F]; cbn; [auto|]. split; [|auto]. rewrite Forall_forall in F. exact F.
Qed.
Print Assumptions C23_ordered.

(** ... and agrees with the lookup table, whatever the clock does. *)
Theorem C23_consistent : forall ttl os, Forall sop_ok os -> consistent (table ttl os).
Proof.
  intros ttl os F. destruct (run_inv ttl os F) as [K D H _ _]. split; [|auto].
  intros k i. rewrite H. split.
  - destruct (fk k (t_list (table ttl os))) as [s|] eqn:E; cbn; [|discriminate]. intros X. injection X as <-.
    exists s. destruct (fk_some _ _ _ E). auto.
  - intros (s & I & <- & <-). rewrite (fk_in _ _ K I). auto.
Qed.
Print Assumptions C23_consistent.

(** For every session there is a pending expiry run no later than its expiry. *)
Theorem C23_scheduled : forall ttl os t0 s, 0 <= ttl -> clock_ok t0 os -> In s (t_list (table ttl os)) ->
  exists T, In T (t_runs (table ttl os)) /\ ns T <= ns (s_exp s).
Proof.
  intros ttl os t0 s P C I. destruct (run_full ttl os t0 P C) as [(b & [_ [S _] H]) _].
  destruct (t_list (table ttl os)) as [|h l]; [destruct I|]. destruct (H h l eq_refl) as (T & A & _ & B).
  exists T. split; auto. destruct I as [->|I]; auto. inversion S as [|? ? _ F]; subst.
  rewrite Forall_forall in F. apply F in I. unfold le_exp in I. lia.
Qed.
Print Assumptions C23_scheduled.

(** An expiry run for time T removes exactly the sessions that expire at or before T,
    and leaves the others as they are. *)
Theorem C23_run : forall ttl os t0 T, 0 <= ttl -> clock_ok t0 os -> ts_ok T ->
  t_list (table ttl (os ++ [SExpire T])) =
  filter (fun s => ns T <? ns (s_exp s)) (t_list (table ttl os)).
Proof.
  intros ttl os t0 T P C O. destruct (run_full ttl os t0 P C) as [(b & F) _]. rewrite table_app. cbn.
  apply (expire_filter T _ b F O).
Qed.
Print Assumptions C23_run.

(** A session's expiry is the time of its last use plus the TTL. *)
Theorem C23_expiry_time : forall ttl os t0 k b e, 0 <= ttl -> clock_ok t0 os ->
  (live_run ttl os k = Some (b, e) <->
   exists s, In s (t_list (table ttl os)) /\ s_key s = k /\ s_be s = b /\ ns (s_exp s) = e).
Proof.
  intros ttl os t0 k b e P C. destruct (run_full ttl os t0 P C) as [(bd & [V _ _]) E]. rewrite <- E. unfold view. split.
  - destruct (fk k (t_list (table ttl os))) as [s|] eqn:F; cbn; [|discriminate]. intros X. injection X as <- <-.
    exists s. destruct (fk_some _ _ _ F). auto.
  - intros (s & I & <- & <- & <-). rewrite (fk_in _ _ (v_keys _ V) I). auto.
Qed.
Print Assumptions C23_expiry_time.

(** The clock condition matters: if the clock is set back, an expired session can
    outlive an expiry run. *)
Example C23_ex_clock_back : exists ttl os T s, Forall sop_ok os /\ ts_ok T /\
  In s (t_list (table ttl (os ++ [SExpire T]))) /\ ns (s_exp s) <= ns T.
Proof.
  exists 10, [SAdd (lit "a") 1 (mkTs 100 0); SAdd (lit "b") 2 (mkTs 50 0)], (mkTs 70 0),
    (mkS 1 (lit "b") 2 (mkTs 60 0)).
  split; [|split; [|split]].
  - repeat (constructor; [cbn; unfold ts_ok; cbn; lia|]). constructor.
  - unfold ts_ok; cbn; lia.
  - vm_compute. right. left. reflexivity.
  - vm_compute. discriminate.
Qed.

(** A history with two keys, promotion, a kill and an expiry run. *)
Definition ex : list sop :=
  [SReq (lit "alice") (mkTs 100 0) (Some 1); SReq (lit "bob") (mkTs 101 0) (Some 2);
   SReq (lit "alice") (mkTs 105 5) (Some 2); SExpire (mkTs 110 0); SExpire (mkTs 111 0)].
Example C22_ex_clock : clock_ok 0 ex.
Proof. cbn. unfold ts_ok, ns. cbn. lia. Qed.
Example C22_ex_alice : answer 10 ex (lit "alice") (mkTs 112 0) (Some 7) = Some 1.
Proof. vm_compute. reflexivity. Qed.
Example C22_ex_bob : answer 10 ex (lit "bob") (mkTs 112 0) (Some 7) = Some 7.
Proof. vm_compute. reflexivity. Qed.
Example C22_ex_kept : kept 10 (lit "alice") 1 (ns (mkTs 100 0) + 10 * sec) (tl ex).
Proof. vm_compute. auto. Qed.
Example C22_ex_no_new : Forall (no_new (lit "alice")) [SReq (lit "bob") (mkTs 101 0) (Some 2); SKill 2].
Proof. repeat constructor. cbn. unfold same_key. vm_compute. discriminate. Qed.
Example C22_ex_killed : answer 10 (ex ++ [SKill 1]) (lit "alice") (mkTs 112 0) (Some 7) = Some 7.
Proof. vm_compute. reflexivity. Qed.
Example C23_ex_runs : t_runs (table 10 ex) = [mkTs 115 5].
Proof. vm_compute. reflexivity. Qed.
Example C23_ex_list : map s_key (t_list (table 10 (firstn 3 ex))) = [lit "bob"; lit "alice"].
Proof. vm_compute. reflexivity. Qed.
