(** Proofs about the connection to a backend (C85). *)
From Coq Require Import ZArith Bool List Lia.
From Verif Require Import CnbModel CnbSpec.
Local Open Scope Z_scope.

Lemma int_id : forall to, 0 <= to <= 2147483647 -> to_int to = to.
Proof. intros to H. unfold to_int. rewrite Z.mod_small by lia. lia. Qed.

Lemma range_ok : forall to, 0 <= to <= 2147483 -> (2147483647 <? to_int to * 1000) || (to_int to * 1000 <? -2147483648) = false.
Proof. intros to H. rewrite int_id by lia. apply orb_false_intro; apply Z.ltb_ge; lia. Qed.

Lemma network_run : forall p nb to, real p -> 0 <= to <= 2147483 ->
  connect_nb (network p) nb to = match p with
                                 | Accepts d => if d <=? to * 1000 then Connected nb else Refused ETIMEDOUT
                                 | Rejects d e => if d <=? to * 1000 then Refused e else Refused ETIMEDOUT
                                 | Silent => Refused ETIMEDOUT
                                 end.
Proof.
  intros p nb to R T. unfold connect_nb, network. cbn [get_flags set_flags sys_connect sys_poll so_error so_errno]. rewrite (range_ok to T).
  replace (to_int to) with to by (symmetry; apply int_id; lia).
  destruct p as [d|d e|]; cbn in R.
  - destruct d as [|d|d]; [|destruct (Z.pos d <=? to * 1000); reflexivity|lia].
    replace (0 <=? to * 1000) with true by (symmetry; apply Z.leb_le; lia). reflexivity.
  - destruct R as [R E]. destruct d as [|d|d]; [|destruct (Z.pos d <=? to * 1000); reflexivity|lia].
    replace (0 <=? to * 1000) with true by (symmetry; apply Z.leb_le; lia). destruct e; reflexivity || congruence.
  - reflexivity.
Qed.

Lemma connect_ok : forall p nb to, real p -> 0 <= to <= 2147483 ->
  (connect_nb (network p) nb to = Connected nb <-> accepts_within p to) /\
  (forall e, rejects_within p to e -> connect_nb (network p) nb to = Refused e) /\
  (~ accepts_within p to -> (forall e, ~ rejects_within p to e) -> connect_nb (network p) nb to = Refused ETIMEDOUT).
Proof.
  intros p nb to R T. rewrite (network_run p nb to R T). unfold accepts_within, rejects_within. destruct p as [d|d e|].
  - destruct (Z.leb_spec d (to * 1000)) as [L|L].
    + split; [split; [intros _; eauto|reflexivity]|]. split; [intros e (d' & K & _); discriminate|]. intros N _. exfalso. apply N. eauto.
    + split; [split; [discriminate|intros (d' & K & L'); injection K as ->; lia]|]. split; [intros e (d' & K & _); discriminate|reflexivity].
  - destruct (Z.leb_spec d (to * 1000)) as [L|L].
    + split; [split; [discriminate|intros (d' & K & _); discriminate]|]. split; [intros e' (d' & K & _); injection K as <- <-; reflexivity|].
      intros _ N. exfalso. apply (N e). eauto.
    + split; [split; [discriminate|intros (d' & K & _); discriminate]|]. split; [intros e' (d' & K & L'); injection K as <- <-; lia|reflexivity].
  - split; [split; [discriminate|intros (d' & K & _); discriminate]|]. split; [intros e (d' & K & _); discriminate|reflexivity].
Qed.

Lemma restore_inv : forall s nb b, restore s nb = Connected b -> b = nb /\ restore_flags s = Done.
Proof. intros s nb b H. unfold restore in H. destruct (restore_flags s); [injection H as <-; auto|discriminate]. Qed.

Lemma connected_inv : forall s nb to b, connect_nb s nb to = Connected b -> b = nb /\ restore_flags s = Done /\
  (sys_connect s = Done \/ (sys_connect s = Failed EINPROGRESS /\ exists r, sys_poll s (to_int to * 1000) = Event r /\ pollout r = true /\ pollerr r = false /\ pollhup r = false)).
Proof.
  intros s nb to b H. unfold connect_nb in H. destruct (get_flags s); [|discriminate]. destruct (set_flags s); [|discriminate].
  destruct (sys_connect s) as [|[]]; try discriminate.
  - apply restore_inv in H as [-> H]. auto.
  - cbv zeta in H. destruct ((2147483647 <? to_int to * 1000) || (to_int to * 1000 <? -2147483648)); [discriminate|].
    destruct (sys_poll s (to_int to * 1000)) as [r| |e]; try discriminate.
    destruct (pollout r && negb (pollerr r) && negb (pollhup r)) eqn:E; [|destruct (so_error s); discriminate].
    apply restore_inv in H as [-> H]. split; [reflexivity|]. split; [exact H|]. right. split; [reflexivity|]. exists r. split; [reflexivity|].
    destruct (pollout r), (pollerr r), (pollhup r); try discriminate. auto.
Qed.

Lemma probe_ok : forall f p to, f <> Unknown -> real p -> 0 <= to <= 2147483 ->
  (backend_probe f true (network p) to = Some BACKEND_OK <-> accepts_within p to) /\
  (~ accepts_within p to -> backend_probe f true (network p) to = Some BACKEND_DEAD).
Proof.
  intros f p to F R T. destruct (connect_ok p false to R T) as (A & _ & _). pose proof (network_run p false to R T) as N.
  assert (E : backend_probe f true (network p) to = match connect_nb (network p) false to with Connected _ => Some BACKEND_OK | Refused _ => Some BACKEND_DEAD | Overflow => None end)
    by (destruct f; reflexivity || (exfalso; apply F; reflexivity)).
  rewrite E. destruct (connect_nb (network p) false to) as [b|e|] eqn:C.
  - assert (b = false) as -> by (apply connected_inv in C; tauto). split; [split; [intros _; apply A; reflexivity|reflexivity]|intros K; exfalso; apply K, A; reflexivity].
  - split; [split; [discriminate|intros K; apply A in K; discriminate]|reflexivity].
  - exfalso. destruct p as [d|d e|]; [destruct (d <=? to * 1000)|destruct (d <=? to * 1000)|]; discriminate.
Qed.

Lemma long_timeout : forall p nb to, real p -> 2147484 <= to <= 4292819812 -> (forall e, p <> Accepts 0 /\ p <> Rejects 0 e) -> connect_nb (network p) nb to = Overflow.
Proof.
  intros p nb to R T N. unfold connect_nb, network. cbn [get_flags set_flags sys_connect]. cbv zeta.
  replace ((2147483647 <? to_int to * 1000) || (to_int to * 1000 <? -2147483648)) with true.
  2: { symmetry. apply orb_true_iff. destruct (Z_le_dec to 2147483647) as [L|L].
       - left. apply Z.ltb_lt. rewrite int_id by lia. lia.
       - right. apply Z.ltb_lt. unfold to_int. replace (to + 2147483648) with ((to - 2147483648) + 1 * 4294967296) by lia. rewrite Z_mod_plus_full, Z.mod_small by lia. lia. }
  destruct p as [d|d e|]; cbn in R; [destruct d as [|d|d]; [exfalso; apply (proj1 (N EINVAL)); reflexivity|reflexivity|lia]| |reflexivity].
  destruct d as [|d|d]; [exfalso; apply (proj2 (N e)); reflexivity|reflexivity|lia].
Qed.
