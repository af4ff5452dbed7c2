(** C35: the backends generated for a dynamic backend are those of the last answer. *)
From Coq Require Import String List Arith ZArith Bool Lia Sorted.
From Verif Require Import Bytes DynModel DynSpec DynProofs.
Import ListNotations.

(** After an update the addresses of the generated backends are exactly those of the answer (the
    first one, if only that is wanted), each once. *)
Theorem C35_set : forall w pri m resp s s', reachable w pri m s -> addr_update w pri false m resp s = Ok s' ->
  NoDup (map addr (tab s')) /\ forall a, In a (map addr (tab s')) <-> In a (used m resp).
Proof. exact update_set. Qed.
Print Assumptions C35_set.

(** Backends whose address is still in the answer stay, the same objects; every other backend
    in the table is a new object with an address that had none. *)
Theorem C35_objects : forall w pri m resp s s', reachable w pri m s -> addr_update w pri false m resp s = Ok s' ->
  (forall g, In g (tab s) -> In (addr g) (used m resp) -> In g (tab s')) /\
  (forall g, In g (tab s') -> In g (tab s) \/ next s <= gid g < next s' /\ gprio g = pri /\ ~ In (addr g) (map addr (tab s))) /\
  NoDup (map gid (tab s')) /\ (forall w' i, In i (members (bls s) w') -> i < next s) /\ (forall g, In g (tab s) -> gid g < next s).
Proof. exact update_objects. Qed.
Print Assumptions C35_objects.

(** Those whose address is missing, and no others, are scheduled for removal, once. *)
Theorem C35_removed : forall w pri m resp s s', reachable w pri m s -> addr_update w pri false m resp s = Ok s' ->
  exists l, rem s' = rem s ++ l /\ NoDup l /\ forall i, In i l <-> exists g, In g (tab s) /\ gid g = i /\ ~ In (addr g) (used m resp).
Proof. exact update_removed. Qed.
Print Assumptions C35_removed.

(** The balancer has the generated backends and those that were not generated by this dynamic
    backend; other balancers are as before. *)
Theorem C35_balancer : forall w pri m resp s s', reachable w pri m s -> addr_update w pri false m resp s = Ok s' ->
  (forall w', NoDup (members (bls s') w')) /\ (forall w', w' <> w -> members (bls s') w' = members (bls s) w') /\
  forall i, In i (members (bls s') w) <-> In i (map gid (tab s')) \/ In i (members (bls s) w) /\ ~ In i (map gid (tab s)).
Proof. exact update_balancers. Qed.
Print Assumptions C35_balancer.

(** When an update uses the balancer after its end: exactly when the answer is empty, there are
    generated backends and the balancer has no others. *)
Theorem C35_empty_refuted : forall w pri m resp s, reachable w pri m s ->
  (addr_update w pri false m resp s = Use_after_free <-> resp = [] /\ tab s <> [] /\ forall i, In i (members (bls s) w) -> In i (map gid (tab s))).
Proof. exact update_fails. Qed.
Print Assumptions C35_empty_refuted.

(** A disabled dynamic backend is not touched. *)
Theorem C35_disabled : forall w pri m resp s, reachable w pri m s ->
  exists b, addr_update w pri true m resp s = Ok (mkSt (next s) (tab s) b (rem s)) /\ forall w', members b w' = members (bls s) w'.
Proof.
  intros w pri m resp s R. destruct (update_disabled w pri m resp s) as (b & E & H). exists b. split; [exact E|]. apply H. exact (i_sort _ _ (reachable_inv _ _ _ _ R)).
Qed.
Print Assumptions C35_disabled.

(** A service with a static backend (number 0) *)
Definition ad (x : Z) : list Z := [127; 0; 0; x]%Z.
Definition s0 : state := mkSt 1 [] [(2%Z, [0])] [].
Example C35_init : initial s0.
Proof.
  repeat split; cbn; try easy.
  - repeat constructor.
  - intros w. unfold members. cbn. destruct (Z.eqb w 2); repeat constructor; easy.
  - intros w i. unfold members. cbn. destruct (Z.eqb w 2); cbn; [intros [<-|[]]; lia|easy].
Qed.
Example C35_run : updates 3 5 All [[ad 1; ad 2; ad 1]; [ad 3; ad 2]]%Z s0 =
  Ok (mkSt 4 [mkGen 2 (ad 2) 5%Z false; mkGen 3 (ad 3) 5%Z false] [(2%Z, [0]); (3%Z, [2; 3])] [1]).
Proof. vm_compute. reflexivity. Qed.
Example C35_run_empty : updates 3 5 All [[ad 1]; []]%Z s0 = Use_after_free /\ updates 2 5 All [[ad 1]; []]%Z s0 = Ok (mkSt 2 [] [(2%Z, [0])] [1]).
Proof. vm_compute. auto. Qed.
Example C35_run_first : updates 3 5 First [[ad 1; ad 2]; [ad 2; ad 1]]%Z s0 = Ok (mkSt 3 [mkGen 2 (ad 2) 5%Z false] [(2%Z, [0]); (3%Z, [2])] [1]).
Proof. vm_compute. reflexivity. Qed.

(** ** SRV records *)

(** After an update, whatever the sequence of updates before it: the (host, port) pairs of the
    generated backends are exactly those of the answer, each once; those still in the answer are
    the same objects; new ones have as weight the priority of the first record with their key;
    all have the priority made from the weight of the last record with their key and the
    greatest weight of the run of records with equal priority it is in; those not in the answer
    are removed. *)
Theorem C35_srv : forall ignore mpri answers n0 n t resp, (forall a, In a answers -> valid_srv a) -> srv_updates ignore mpri answers n0 [] = Some (n, t) -> valid_srv resp ->
  exists n' t' gone ls, srv_update ignore mpri resp n t = Some (n', t', gone) /\ runs resp ls /\
  NoDup (map child_key t') /\ NoDup (map cid t') /\ (forall c, In c t -> cid c < n) /\
  (forall k, In k (map child_key t') <-> In k (map srv_key resp)) /\
  (forall c, In c t -> In (child_key c) (map srv_key resp) -> exists c', In c' t' /\ same_object c c') /\
  (forall c', In c' t' -> (exists c, In c t /\ same_object c c') \/ (n <= cid c' /\ ~ In (child_key c') (map child_key t) /\ exists r, first_with (child_key c') resp = Some r /\ cweight c' = s_prio r)) /\
  (forall c', In c' t' -> exists r mw, last_with (child_key c') (weighted ls) = Some (r, mw) /\ cprio c' = if ignore then mpri else if Z.eqb mw 0 then 1%Z else s_weight r) /\
  (NoDup gone /\ forall i, In i gone <-> exists c, In c t /\ cid c = i /\ ~ In (child_key c) (map srv_key resp)).
Proof.
  intros ignore mpri answers n0 n t resp V U V'. pose proof (srv_updates_inv ignore mpri answers n0 [] n t V (cinv_nil n0) U) as C. destruct (srv_update_spec ignore mpri resp n t V' C) as (n' & t' & g & ls & A & B & (C1 & C2 & _) & D & E).
  exists n', t', g, ls. split; [exact A|]. split; [exact B|]. split; [exact C1|]. split; [exact C2|]. split; [exact (proj2 (proj2 C))|]. exact E.
Qed.
Print Assumptions C35_srv.

(** The answer is divided into the runs of records of equal priority: one for each element of
    the array, and the array is large enough. *)
Theorem C35_srv_groups : forall resp, valid_srv resp -> exists gs ls, analyze resp = Some gs /\ runs resp ls /\
  Forall2 (fun g l => firstn (st_count g) (skipn (st_start g) resp) = l /\ st_max g = greatest_weight l /\ forall r, In r l -> s_prio r = st_prio g) gs ls.
Proof. exact analyze_spec. Qed.
Print Assumptions C35_srv_groups.

(** A change of the priority of a record has no effect on the backend generated before. *)
Definition rec (p w : Z) (h : string) : srv := mkSrv p w 80 (lit h).
Theorem C35_srv_weight_refuted : exists answers n t resp n' t' gone c r, (forall a, In a answers -> valid_srv a) /\ valid_srv resp /\
  srv_updates false 5 answers 0 [] = Some (n, t) /\ srv_update false 5 resp n t = Some (n', t', gone) /\ In c t' /\ In r resp /\ child_key c = srv_key r /\ (forall r', In r' resp -> srv_key r' = srv_key r -> r' = r) /\ cweight c <> s_prio r.
Proof.
  exists [[rec 1 10 "a"; rec 2 10 "b"]], 2, [mkChild 0 (lit "a") 80%Z 10%Z 1%Z false; mkChild 1 (lit "b") 80%Z 10%Z 2%Z false], [rec 1 10 "b"; rec 2 10 "a"].
  exists 2, [mkChild 0 (lit "a") 80%Z 10%Z 1%Z false; mkChild 1 (lit "b") 80%Z 10%Z 2%Z false], (@nil nat), (mkChild 0 (lit "a") 80%Z 10%Z 1%Z false), (rec 2 10 "a").
  split; [intros a [<-|[]] r [<-|[<-|[]]]; cbn; lia|]. split; [intros r [<-|[<-|[]]]; cbn; lia|]. split; [vm_compute; reflexivity|]. split; [vm_compute; reflexivity|].
  split; [left; reflexivity|]. split; [right; left; reflexivity|]. split; [vm_compute; reflexivity|]. split; [|vm_compute; discriminate].
  intros r' [<-|[<-|[]]] H; [vm_compute in H; discriminate|reflexivity].
Qed.
Print Assumptions C35_srv_weight_refuted.

Example C35_run_srv : srv_updates false 5 [[rec 1 10 "a"; rec 1 20 "b"; rec 2 0 "c"]; [rec 1 30 "B"; rec 3 7 "d"]] 0 [] =
  Some (4, [mkChild 1 (lit "b") 80%Z 30%Z 1%Z false; mkChild 3 (lit "d") 80%Z 7%Z 3%Z false]).
Proof. vm_compute. reflexivity. Qed.
