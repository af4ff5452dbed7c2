(** Listings of the control interface (C56). *)
From Coq Require Import Ascii String List ZArith Bool Lia.
From Verif Require Import Bytes JsonModel ShowModel ShowSpec ShowProofs.
From Verif Require CtlModel.
Import ListNotations.
Local Open Scope Z_scope.
Local Open Scope string_scope.
Local Open Scope list_scope.

(** C56: the listing of a service shows its backends in the order of their numbers, all of them, each with its kind, its state and its parameters. *)
Theorem C56_backends : forall s, svc_balancers s <> [] -> exists v w vs, service_serialize s = Some v /\ member v "backends" w /\ elements w vs /\
  length vs = length (all_backends s) /\ forall i b, numbered s i b -> exists bl x, of_service s bl b /\ nth_error vs i = Some x /\ shows x bl b /\ shows_stats x b.
Proof.
  intros s NE. destruct (service_listed s) as (v & V & _ & _ & _ & w & W & M). destruct (backends_listed s NE) as (vs & B & L & H). rewrite B in W. injection W as <-.
  exists v, (JArray ints vs), vs. split; [exact V|]. split; [exact M|]. split; [reflexivity|]. split; [exact L|]. intros i b N. destruct (H i b N) as (bl & x & O & X & S).
  exists bl, x. destruct (backend_shown s bl b) as (x' & S' & P & Q & _). rewrite S in S'. injection S' as <-. auto.
Qed.
Print Assumptions C56_backends.

(** These are the numbers by which backends are addressed in requests to the control interface. *)
Theorem C56_numbers : forall s name dis (f : backend -> CtlModel.backend) i,
  CtlModel.locate_backend (CtlModel.mkSvc name dis (map (fun bl => map f (bal_backends bl)) (svc_balancers s))) (CtlModel.IdNum (Z.of_nat i)) =
  if Nat.ltb i (length (all_backends s)) then Some i else None.
Proof. exact ctl_numbers. Qed.
Print Assumptions C56_numbers.

(** The listing of everything contains those of the listeners and services, in order; the listing of a listener those of its services. *)
Theorem C56_all : forall core ls ss, NoDup (map fst core) -> ~ In (lit "listeners") (map fst core) -> ~ In (lit "services") (map fst core) ->
  exists v, pound_serialize core ls ss = Some v /\ (forall n w, In (lit n, w) core -> member v n w) /\
  (exists vs w, member v "listeners" w /\ elements w vs /\ Forall2 (fun l x => listener_serialize l = Some x) ls vs) /\
  (exists vs w, member v "services" w /\ elements w vs /\ Forall2 (fun s x => service_serialize s = Some x) ss vs).
Proof. exact all_listed. Qed.
Print Assumptions C56_all.

Theorem C56_listener : forall l, exists v, listener_serialize l = Some v /\
  member v "name" (jopt (lstn_name l)) /\ member v "enabled" (jbool (negb (lstn_disabled l))) /\ member v "address" (jstr (lstn_address l)) /\
  (exists vs w, member v "services" w /\ elements w vs /\ Forall2 (fun s x => service_serialize s = Some x) (lstn_services l) vs).
Proof. exact listener_listed. Qed.
Print Assumptions C56_listener.

Theorem C56_service : forall s, exists v, service_serialize s = Some v /\ member v "name" (jopt (svc_name s)) /\ member v "enabled" (jbool (negb (svc_disabled s))).
Proof. intros s. destruct (service_listed s) as (v & V & N & E & _). exists v. auto. Qed.
Print Assumptions C56_service.

(** Of a generated backend the number of the backend it was generated from, in the first place, is shown. *)
Theorem C56_parent : forall s bl b up i root, distinct s -> of_service s bl b -> be_up b = up ++ [be_id root] -> numbered s i root ->
  match be_type b with Regular _ _ _ _ _ _ _ | Matrix _ _ _ _ _ => True | _ => False end ->
  exists v, backend_serialize s bl b = Some v /\ member v "parent" (jint (Z.of_nat i)).
Proof.
  intros s bl b up i root D O U N K. destruct (backend_shown s bl b) as (v & V & _ & _ & P & _). exists v. split; [exact V|].
  rewrite <- (find_index s i root D N). apply P; [|exact K]. rewrite U, rev_app_distr. reflexivity.
Qed.
Print Assumptions C56_parent.

(** The sessions of a service are shown, each with its key, its end and the number of its backend, if the backends are all in one balancer (all have the same priority
    class).  Missing: more balancers, see below. *)
Theorem C56_sessions_partial : forall s ty l bl, svc_sess_type s = Some ty -> svc_sessions s = Some l -> distinct s -> svc_balancers s = [bl] ->
  exists v w vs, service_serialize s = Some v /\ member v "sessions" w /\ elements w vs /\
    Forall2 (fun x y => member y "key" (jstr (sess_key x)) /\ member y "expire" (jstr (sess_expire x)) /\
      forall i b, numbered s i b -> be_id b = sess_backend x -> member y "backend" (jint (Z.of_nat i))) l vs.
Proof.
  intros s ty l bl T SS D B. destruct (service_listed s) as (v & V & _ & _ & (w & W & M) & _). destruct (sessions_listed s) as (w' & W' & H). rewrite W in W'. injection W' as <-.
  rewrite T, SS in H. destruct H as (vs & E & F). exists v, w, vs. repeat (split; [assumption|]).
  apply (Forall2_impl _ _ _ _ _ _ F). intros x y (K1 & K2 & K3). split; [exact K1|]. split; [exact K2|]. intros i b N Q. rewrite <- Q in K3.
  destruct (numbered_split s i b N) as (pre & bl' & post & n & S1 & S2 & ->). rewrite (session_index s pre bl' post n b D S1 S2) in K3.
  rewrite B in S1. destruct pre as [|p pre]; [|destruct pre; discriminate]. injection S1 as -> <-. cbn [map concat length] in *. rewrite Z.add_0_r in K3. exact K3.
Qed.
Print Assumptions C56_sessions_partial.

(** False: the number shown for a session is that of its backend.  It is too large by the number of backends in the balancers after that of the backend. *)
Theorem C56_session_refuted : forall s pre bl post n b, distinct s -> svc_balancers s = pre ++ bl :: post -> nth_error (bal_backends bl) n = Some b ->
  exists i, numbered s i b /\ session_backend_index s (be_id b) = Z.of_nat i + Z.of_nat (length (concat (map bal_backends post))).
Proof.
  intros s pre bl post n b D E N. exists (length (concat (map bal_backends pre)) + n)%nat. split; [|apply (session_index s pre bl post n b); assumption].
  unfold numbered, all_backends. rewrite E, map_app, concat_app. cbn [map concat]. rewrite nth_error_app2 by lia. replace (_ + n - _)%nat with n by lia.
  rewrite nth_error_app1; [exact N|apply nth_error_Some; congruence].
Qed.
Print Assumptions C56_session_refuted.

(** Two backends, and a third one for emergencies: the session of the first is shown with the number of the second. *)
Definition http1 (id : nat) (up : list nat) : backend := mkBe id (Regular (lit "10.0.0.1:80") true false 15 15 600 None) 5 false up (Some jnull).
Definition ex_svc : service := mkSvc (Some (lit "web")) false (Some (lit "COOKIE")) (Some [mkSess (lit "k1") 11 (lit "t1"); mkSess (lit "k3") 13 (lit "t3")])
  [ mkBal 0 [http1 11 []; mkBe 12 (Matrix (lit "example.org") (lit "all") 0 None (Some (lit "t"))) 5 true [] None]; mkBal 1 [http1 13 [12%nat]] ].
Example C56_ex : distinct ex_svc /\ svc_balancers ex_svc <> [] /\ numbered ex_svc 0 (http1 11 []) /\ session_backend_index ex_svc 11 = 1 /\ session_backend_index ex_svc 13 = 2 /\
  of_service ex_svc (mkBal 1 [http1 13 [12%nat]]) (http1 13 [12%nat]) /\ find_backend_index ex_svc 12 = 1.
Proof.
  split; [apply NoDup_nodup_nat; reflexivity|]. split; [discriminate|]. split; [reflexivity|]. split; [reflexivity|]. split; [reflexivity|]. split; [|reflexivity].
  split; [right; left; reflexivity|left; reflexivity].
Qed.
Example C56_ex_one : exists s ty l bl, svc_sess_type s = Some ty /\ svc_sessions s = Some l /\ distinct s /\ svc_balancers s = [bl] /\ l <> [].
Proof.
  exists (mkSvc None false (Some (lit "IP")) (Some [mkSess (lit "k") 12 (lit "t")]) [mkBal 0 [http1 11 []; http1 12 []]]). eexists. eexists. eexists.
  split; [reflexivity|]. split; [reflexivity|]. split; [apply NoDup_nodup_nat; reflexivity|]. split; [reflexivity|discriminate].
Qed.
Example C56_ex_core : NoDup [lit "version"; lit "pid"; lit "timestamp"; lit "queue_len"; lit "workers"].
Proof. apply nodupb_ok. vm_compute. reflexivity. Qed.
