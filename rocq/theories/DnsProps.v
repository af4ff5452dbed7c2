(** C52: dynamic backends follow the name server. *)
From Coq Require Import String List Arith ZArith Bool Lia Permutation Sorted.
From Verif Require Import Bytes DynModel DynSpec DynProofs DnsModel DnsSpec DnsProofs.
Import ListNotations.
Local Open Scope Z_scope.

(** When the name server gives addresses, they become the addresses of the generated backends, those
    of both kinds if both are asked for; the name is looked up again when the first of the answers
    expires, or after the time configured instead. *)
Theorem C52_follow : forall p w pri m now dns s l e, reachable w pri m s ->
  gives dns (p_hostname p) (p_family p) l e ->
  takes m l (again p now e) (addr_job p w pri false m now dns s).
Proof. intros p w pri m now dns s l e R G. destruct (action_gives p now dns l e G). eapply job_takes; eauto. Qed.
Print Assumptions C52_follow.

(** A name that does not exist has no backends; it is looked up again after the retry interval. *)
Theorem C52_absent : forall p w pri m now dns s, reachable w pri m s ->
  everywhere absent dns (p_hostname p) (p_family p) ->
  clears w s (again p now (after_failure p now)) (addr_job p w pri false m now dns s).
Proof. intros. apply job_clears; auto. apply action_absent; auto. Qed.
Print Assumptions C52_absent.

(** A temporary failure leaves the backends as they are, and the query is repeated after the retry
    interval.  Partial: if both kinds of addresses are looked up, both queries have to fail. *)
Theorem C52_temporary_partial : forall p w pri disabled m now dns s,
  everywhere temporary dns (p_hostname p) (p_family p) ->
  addr_job p w pri disabled m now dns s = Updated s (Some (after_failure p now)).
Proof. intros. unfold addr_job. rewrite action_temporary by auto. reflexivity. Qed.
Print Assumptions C52_temporary_partial.

(** An update of a disabled backend, if the name server gives addresses or says that there are none, leaves no lookup scheduled. *)
Theorem C52_disabled : forall p w pri m now dns s,
  (exists l e, gives dns (p_hostname p) (p_family p) l e) \/ everywhere absent dns (p_hostname p) (p_family p) ->
  match addr_job p w pri true m now dns s with Updated _ job => job = None | Undefined => True end.
Proof.
  intros p w pri m now dns s H. unfold addr_job.
  assert (A : exists l t, addr_action p now dns = Apply l t).
  { destruct H as [(l & e & G)|A]; [destruct (action_gives p now dns l e G); eauto|]. eexists. eexists. apply action_absent. auto. }
  destruct A as (l & t & ->). destruct (addr_update w pri true m l s); [exact I|reflexivity].
Qed.
Print Assumptions C52_disabled.

(** If one query fails for the moment and the other one succeeds, the backends whose addresses are of
    the first kind are removed. *)
Theorem C52_half_found_refuted : forall p w pri m now dns s l e, reachable w pri m s -> p_family p = AF_UNSPEC ->
  half_found dns (p_hostname p) l e -> takes m l (again p now e) (addr_job p w pri false m now dns s).
Proof. intros p w pri m now dns s l e R F H. destruct (action_half p now dns l e F H). eapply job_takes; eauto. Qed.
Print Assumptions C52_half_found_refuted.

(** If one query fails for the moment and there are no addresses of the other kind, all backends are removed. *)
Theorem C52_half_absent_refuted : forall p w pri m now dns s, reachable w pri m s -> p_family p = AF_UNSPEC ->
  half_absent dns (p_hostname p) -> clears w s (again p now (after_failure p now)) (addr_job p w pri false m now dns s).
Proof. intros. apply job_clears; auto. apply action_absent; auto. Qed.
Print Assumptions C52_half_absent_refuted.

(** A server that reports its own failure, or refuses to answer, has all backends removed. *)
Theorem C52_server_failure_refuted : forall p w pri m now dns s, reachable w pri m s ->
  everywhere server_failure dns (p_hostname p) (p_family p) ->
  clears w s (again p now (after_failure p now)) (addr_job p w pri false m now dns s).
Proof. intros. apply job_clears; auto. apply action_absent; auto. Qed.
Print Assumptions C52_server_failure_refuted.

(** If the query cannot be made, whatever the error, no other attempt is scheduled. *)
Theorem C52_error_refuted : forall p w pri disabled m now dns s,
  everywhere not_asked dns (p_hostname p) (p_family p) ->
  addr_job p w pri disabled m now dns s = Updated s None.
Proof. intros. unfold addr_job. rewrite action_not_asked by auto. reflexivity. Qed.
Print Assumptions C52_error_refuted.

(** The lookup ends, and when it is successful there is a response. *)
Theorem C52_total : forall usable maxc dns name f, proper dns ->
  match dns_addr_lookup usable maxc dns name f with
  | LFuel => False
  | LOverflow => True
  | L st r _ => st = dns_success <-> r <> None
  end.
Proof. intros. apply addr_total. auto. Qed.
Print Assumptions C52_total.

(** ** CNAME chains *)

(** A name that is an alias of an alias is never resolved, whatever length is allowed for chains:
    the backends are removed. *)
Theorem C52_chain_refuted : forall p w pri m now dns s a c, reachable w pri m s -> p_family p = AF_INET ->
  1 < p_max_chain p -> stable dns ->
  dns 0%nat R_A (p_hostname p) = Answer a -> a_status a = adns_s_prohibitedcname ->
  dns 0%nat R_CNAME (p_hostname p) = Answer c -> a_status c = adns_s_ok ->
  Z.of_nat (length (p_hostname p)) < p_usable p -> Z.of_nat (length (a_cname c)) < p_usable p ->
  clears w s (again p now (after_failure p now)) (addr_job p w pri false m now dns s).
Proof.
  intros p w pri m now dns s a c R F M St E S E2 S2 U1 U2. apply job_clears; auto. unfold addr_action. rewrite F.
  cbn [dns_addr_lookup]. destruct (generic_chain (p_usable p) (p_max_chain p) dns 0 (p_hostname p) R_A a c) as [n ->]; auto.
Qed.
Print Assumptions C52_chain_refuted.

(** And the names are copied into a block of one byte. *)
Theorem C52_chain_memory_refuted : forall p w pri m now dns s a, p_family p = AF_INET -> 1 < p_max_chain p ->
  dns 0%nat R_A (p_hostname p) = Answer a -> a_status a = adns_s_prohibitedcname ->
  p_usable p = 1 -> p_hostname p <> [] -> addr_job p w pri false m now dns s = Undefined.
Proof.
  intros p w pri m now dns s a F M E S U N. unfold addr_job, addr_action. rewrite F. cbn [dns_addr_lookup].
  rewrite (generic_overflow _ _ _ _ _ _ a); auto. rewrite U. destruct (p_hostname p); [contradiction|]. cbn [length]. lia.
Qed.
Print Assumptions C52_chain_memory_refuted.

(** ** SRV records *)

(** The records are used in the order of their priorities, the heavier ones first; records of one
    priority stand together. *)
Theorem C52_srv_order : forall p now dns qsort l e, sorts qsort -> found_srv dns 0 (p_hostname p) l e ->
  exists l', srv_action p now dns qsort = Apply l' (again p now e) /\ Permutation l l' /\ StronglySorted srv_before l' /\
    forall ls, runs l' ls -> StronglySorted (fun a b => forall x y, In x a -> In y b -> s_prio x < s_prio y) ls.
Proof.
  intros p now dns qsort l e Q F. destruct (srv_sorted p now dns qsort l e Q F) as (l' & A & P & S).
  exists l'. do 3 (split; [assumption|]). intros ls (C & O & D). subst l'. exact (runs_sorted ls S O D).
Qed.
Print Assumptions C52_srv_order.

(** ** The next lookup *)

(** As long as no query fails to be made and the backend is not disabled, there is always exactly one
    job waiting to resolve it. *)
Theorem C52_one_job_partial : forall l n now ops s, ids_ok l n -> Forall (fun j => j_mine j = false) l ->
  Forall no_switch ops -> Forall (with_outcome (fun x => x <> OStop)) ops ->
  run (start l n now) ops = Some s -> length (mine s) = 1%nat.
Proof. exact one_job. Qed.
Print Assumptions C52_one_job_partial.

(** It can be disabled and enabled again, any number of times, after the first answer and if no
    query fails: there is one job while it is enabled, none while it is disabled. *)
Theorem C52_switch_partial : forall l n now t ops s, ids_ok l n -> Forall (fun j => j_mine j = false) l ->
  Forall (with_outcome (fun x => exists t, x = OApply t)) ops ->
  run (start l n now) (Run n (OApply t) :: ops) = Some s ->
  length (mine s) = if off s then 0%nat else 1%nat.
Proof. exact switched. Qed.
Print Assumptions C52_switch_partial.

(** After a query that could not be made the name is never looked up again. *)
Theorem C52_never_again_refuted : forall l n now ops s, ids_ok l n -> Forall (fun j => j_mine j = false) l ->
  Forall no_switch ops -> run (start l n now) (Run n OStop :: ops) = Some s -> mine s = [].
Proof. exact stopped. Qed.
Print Assumptions C52_never_again_refuted.

(** Disabled and enabled after a temporary failure it has two jobs from then on. *)
Theorem C52_two_jobs_refuted : forall now t t', exists s,
  run (start [] 0 now) [Run 0 (ORetry t); Disable; Enable (OApply t')] = Some s /\ length (mine s) = 2%nat /\
  forall ops s', Forall no_switch ops -> Forall (with_outcome (fun x => x <> OStop)) ops -> run s ops = Some s' -> length (mine s') = 2%nat.
Proof.
  intros now t t'. exists (mkS [mkJob 2 true t'; mkJob 1 true t] 3 2 false).
  split; [reflexivity|]. split; [reflexivity|].
  intros ops s' NS W E. refine (proj1 (run_count ops (mkS [mkJob 2 true t'; mkJob 1 true t] 3 2 false) s' _ eq_refl NS W E)).
  split; [repeat constructor; cbn; intuition lia|]. split; [repeat constructor; cbn; lia|cbn; lia].
Qed.
Print Assumptions C52_two_jobs_refuted.

(** Disabled before its first answer, it has the first job of the program cancelled, whatever that is,
    and keeps its own. *)
Theorem C52_wrong_job_refuted : forall l n now t, ids_ok l n -> In (mkJob 0 false t) l -> exists s,
  run (start l n now) [Disable] = Some s /\ ~ In (mkJob 0 false t) (jobs s) /\ In (mkJob n true now) (mine s) /\ off s = true.
Proof.
  intros l n now t (N & F & P) I. eexists. split; [reflexivity|]. cbn [off]. split; [|split; [|reflexivity]].
  - intros X. apply filter_In in X as [_ X]. cbn in X. discriminate.
  - apply filter_In. split; [|reflexivity]. apply filter_In. split; [left; reflexivity|].
    cbn [j_id jid]. rewrite Forall_forall in F. apply F in I. cbn [j_id] in I. cbn. destruct n; lia || reflexivity.
Qed.
Print Assumptions C52_wrong_job_refuted.

(** ** Examples *)
Definition no_ans (st : Z) : answer := mkAns st 0 [] [] [].
Definition ex_zone : server := fun _ t name =>
  match t with
  | R_A => Answer (mkAns adns_s_ok 500 [[10;0;0;1]; [10;0;0;2]] [] [])
  | R_AAAA => Answer (mkAns adns_s_ok 300 [[32;1;0;0;0;0;0;0;0;0;0;0;0;0;0;1]] [] [])
  | R_SRV => Answer (mkAns adns_s_ok 300 [] [mkSrv 2 5 80 (lit "b"); mkSrv 1 10 80 (lit "a"); mkSrv 1 30 80 (lit "c")] [])
  | R_CNAME => Answer (no_ans adns_s_nodata)
  end.
Definition ex_p (f : family) : params := mkP 24 5 600 (lit "www.example.org") f 0 0.
Definition ex_s : state := mkSt 1 [] [(2, [0%nat])] [].

Example C52_ex_reachable : reachable 2 1 All ex_s.
Proof.
  exists ex_s, []. split; [|reflexivity]. split; [reflexivity|]. split; [reflexivity|].
  split; [repeat constructor|]. split; intros w; cbn; destruct (w =? 2); cbn; try (repeat constructor; intuition discriminate); intuition lia.
Qed.

Example C52_ex_follow : gives ex_zone (lit "www.example.org") AF_UNSPEC
    [[10;0;0;1]; [10;0;0;2]; [32;1;0;0;0;0;0;0;0;0;0;0;0;0;0;1]] 300 /\
  addr_job (ex_p AF_UNSPEC) 2 1 false All 100 ex_zone ex_s =
  Updated (mkSt 4 [mkGen 1 [10;0;0;1] 1 false; mkGen 2 [10;0;0;2] 1 false; mkGen 3 [32;1;0;0;0;0;0;0;0;0;0;0;0;0;0;1] 1 false]
             [(2, [0;1;2;3]%nat)] []) (Some 300).
Proof.
  split; [|vm_compute; reflexivity].
  apply (gives_both ex_zone _ [[10;0;0;1]; [10;0;0;2]] 500 [[32;1;0;0;0;0;0;0;0;0;0;0;0;0;0;1]] 300);
  eexists; (split; [reflexivity|]); repeat split; discriminate.
Qed.

(** The A query times out, there are no AAAA records *)
Definition ex_half : server := fun _ t _ => match t with R_A => Answer (no_ans adns_s_timeout) | _ => Answer (no_ans adns_s_nodata) end.
Example C52_ex_half : half_absent ex_half (lit "www.example.org") /\
  exists s, addr_job (ex_p AF_UNSPEC) 2 1 false All 100 ex_zone ex_s = Updated s (Some 300) /\
    length (tab s) = 3%nat /\
    exists s', addr_job (ex_p AF_UNSPEC) 2 1 false All 300 ex_half s = Updated s' (Some 900) /\ tab s' = [] /\ rem s' = [1;2;3]%nat.
Proof.
  split.
  - right. split; eexists; (split; [reflexivity|]); cbn; auto.
  - eexists. split; [vm_compute; reflexivity|]. split; [reflexivity|]. eexists. split; [vm_compute; reflexivity|]. split; reflexivity.
Qed.

Example C52_ex_temporary : everywhere temporary (fun _ _ _ => Answer (no_ans adns_s_timeout)) (lit "x") AF_UNSPEC.
Proof. split; eexists; (split; [reflexivity|]); cbn; auto. Qed.
Example C52_ex_not_asked : everywhere not_asked (fun _ _ _ => Errno 11) (lit "x") AF_UNSPEC.
Proof. split; eexists; (split; [reflexivity|]); lia. Qed.
Example C52_ex_server_failure : everywhere server_failure (fun _ _ _ => Answer (no_ans adns_s_rcodeservfail)) (lit "x") AF_INET6.
Proof. eexists; (split; [reflexivity|]); cbn; auto. Qed.

(** www is an alias of w1, w1 of w2, and w2 has an address *)
Definition ex_chain : server := fun _ t name =>
  let alias := if bytes_eqb name (lit "www") then Some (lit "w1") else if bytes_eqb name (lit "w1") then Some (lit "w2") else None in
  match t, alias with
  | R_CNAME, Some n => Answer (mkAns adns_s_ok 500 [] [] n)
  | R_CNAME, None => Answer (no_ans adns_s_nodata)
  | _, Some n => if bytes_eqb n (lit "w1") then Answer (no_ans adns_s_prohibitedcname) else Answer (mkAns adns_s_ok 500 [[10;0;0;1]] [] [])
  | _, None => Answer (mkAns adns_s_ok 500 [[10;0;0;1]] [] [])
  end.
Example C52_ex_chain : stable ex_chain /\
  addr_job (mkP 24 5 600 (lit "www") AF_INET 0 0) 2 1 false All 100 ex_chain ex_s = Updated ex_s (Some 700) /\
  addr_job (mkP 24 5 600 (lit "w1") AF_INET 0 0) 2 1 false All 100 ex_chain ex_s =
    Updated (mkSt 2 [mkGen 1 [10;0;0;1] 1 false] [(2, [0;1]%nat)] []) (Some 500).
Proof. split; [intros n n' t name; reflexivity|]. split; vm_compute; reflexivity. Qed.

(** A sorting function *)
Fixpoint ins (cmp : srv -> srv -> Z) (x : srv) (l : list srv) : list srv :=
  match l with [] => [x] | y :: l' => if cmp x y <=? 0 then x :: l else y :: ins cmp x l' end.
Definition ex_qsort (cmp : srv -> srv -> Z) (l : list srv) : list srv := fold_right (ins cmp) [] l.
Example C52_ex_sorts : sorts ex_qsort.
Proof.
  intros cmp l T R. induction l as [|x l [P S]]; [split; constructor|]. cbn [ex_qsort fold_right]. fold (ex_qsort cmp l).
  assert (IP : forall l, Permutation (x :: l) (ins cmp x l)).
  { induction l0 as [|y l0 IH]; cbn [ins]; [auto|]. destruct (cmp x y <=? 0); [auto|].
    eapply perm_trans; [apply perm_swap|]. constructor. exact IH. }
  split; [eapply perm_trans; [constructor; exact P|apply IP]|].
  clear P. induction S as [|y l0 S IH F]; cbn [ins]; [repeat constructor|].
  destruct (cmp x y <=? 0) eqn:C.
  - apply Z.leb_le in C. constructor; [constructor; auto|]. constructor; [auto|].
    eapply Forall_impl; [|exact F]. intros z Z. eapply R; eauto.
  - apply Z.leb_gt in C. constructor; [exact IH|]. rewrite Forall_forall in *. intros z Z.
    apply (Permutation_in _ (Permutation_sym (IP l0))) in Z. destruct Z as [<-|Z]; [|auto].
    destruct (T x y) as [K|K]; lia.
Qed.
Example C52_ex_srv : found_srv ex_zone 0 (lit "x") [mkSrv 2 5 80 (lit "b"); mkSrv 1 10 80 (lit "a"); mkSrv 1 30 80 (lit "c")] 300 /\
  srv_action (ex_p AF_INET) 100 ex_zone ex_qsort = Apply [mkSrv 1 30 80 (lit "c"); mkSrv 1 10 80 (lit "a"); mkSrv 2 5 80 (lit "b")] 300.
Proof. split; [|vm_compute; reflexivity]. eexists. split; [reflexivity|]. repeat split; discriminate. Qed.

Example C52_ex_jobs : ids_ok [mkJob 0 false 50] 1 /\
  exists s, run (start [mkJob 0 false 50] 1 10)
    [Run 1 (OApply 20); Foreign 30; Disable; Done 0; Enable (OApply 60); Run 4 (OApply 80)] = Some s /\ mine s = [mkJob 5 true 80].
Proof.
  split; [split; [repeat constructor; cbn; intuition|split; [repeat constructor; cbn; lia|lia]]|].
  eexists. split; [vm_compute; reflexivity|]. reflexivity.
Qed.
