(** Proofs about the supervisor. *)
From Coq Require Import List ZArith Bool Lia.
From Verif Require Import SupModel SupSpec.
Import ListNotations.
Open Scope Z_scope.

Lemma run_app : forall a b s, run s (a ++ b) =
  match run s a with
  | None => None
  | Some (s', o) => match run s' b with None => None | Some (s'', o') => Some (s'', o ++ o') end
  end.
Proof.
  induction a as [|l a IH]; intros b s; cbn [run app].
  - destruct (run s b) as [[]|]; auto.
  - destruct (step s l) as [[s1 o1]|]; auto. rewrite IH. destruct (run s1 a) as [[s2 o2]|]; auto.
    destruct (run s2 b) as [[s3 o3]|]; auto. rewrite app_assoc. auto.
Qed.

(** ** One child *)
Definition inv (s : state) : Prop :=
  0 < next s /\ pid s < next s /\
  match loc s with
  | Done => (length (procs s) <= 1)%nat
  | InWait => False
  | Top => pid s = 0 /\ procs s = [] \/ 0 < pid s /\ exists h, procs s = [(pid s, h)]
  | Sigwait => 0 < pid s /\ exists h, procs s = [(pid s, h)]
  end.

Lemma waited_inv : forall s h, 0 < next s -> pid s < next s -> 0 < pid s -> procs s = [(pid s, Some h)] -> forall s' a, waited s (Some (pid s, h)) = (s', a) -> inv s'.
Proof.
  intros s h N1 N2 P PR s' a H. unfold waited in H. rewrite PR in H. unfold reap in H. cbn [filter fst] in H. rewrite Z.eqb_refl in H. cbn [negb] in H.
  assert (T : inv (mkSup Top 0 (st s) [] (next s))) by (unfold inv; cbn; auto with zarith).
  assert (D : inv (mkSup Done (pid s) (st s) [] (next s))) by (unfold inv; cbn; auto with zarith).
  destruct h as [[| |]|]; destruct (st s) eqn:ST; cbn in H; injection H as <- <-; auto.
Qed.

Lemma step_inv : forall s l s' a, inv s -> l <> Sig CHLD -> step s l = Some (s', a) -> inv s'.
Proof.
  intros s l s' a I NC H. pose proof I as I0. destruct I as (N1 & N2 & I). destruct l as [ok|g|p h]; cbn [step] in H.
  - destruct (loc s) eqn:L; try discriminate. destruct I as [[P PR]|[P [h PR]]].
    + rewrite P in H. cbn [Z.eqb] in H. rewrite PR in H. destruct (st s); [destruct ok|]; injection H as <- <-; unfold inv; cbn; repeat split; try lia. right. split; [lia|]. eauto.
    + destruct (Z.eqb_spec (pid s) 0); [lia|]. injection H as <- <-. unfold inv. cbn. split; [lia|]. split; [lia|]. split; [lia|]. rewrite PR. eauto.
  - injection H as H. unfold signal in H. destruct (loc s) eqn:L; try (injection H as <- <-; exact I0); [|contradiction].
    destruct I as [P [h PR]]. assert (T : forall st', inv (mkSup Top (pid s) st' (procs s) (next s))) by (intros st'; unfold inv; cbn [loc next pid procs]; split; [lia|]; split; [lia|]; right; split; [lia|]; rewrite PR; eauto).
    destruct g; cbn [handle] in H; try congruence; try (destruct (st s); injection H as <- <-; apply T; fail).
    injection H as <- <-. unfold inv. cbn [loc next pid procs]. rewrite PR. cbn. repeat split; lia.
  - destruct (alive p (procs s)) eqn:A; [|discriminate].
    assert (X : forall h0, procs s = [(pid s, h0)] -> p = pid s).
    { intros h0 E. rewrite E in A. unfold alive in A. cbn in A. destruct (Z.eqb_spec (pid s) p); [auto|]. discriminate. }
    destruct (loc s) eqn:L; cbn [loc procs pid st next] in H.
    + injection H as <- <-. destruct I as [[P PR]|[P [h0 PR]]].
      * rewrite PR in A. discriminate.
      * rewrite (X _ PR) in *. unfold inv. cbn. split; [lia|]. split; [lia|]. right. split; [lia|]. rewrite PR. cbn. rewrite Z.eqb_refl. eauto.
    + destruct I as [P [h0 PR]]. rewrite (X _ PR) in *. rewrite PR in H. cbn [map fst] in H. rewrite Z.eqb_refl in H. cbn [handle procs zombie] in H. injection H as H.
      eapply (waited_inv (mkSup Sigwait (pid s) (st s) [(pid s, Some h)] (next s)) h); cbn; eauto.
    + contradiction.
    + injection H as <- <-. unfold inv. cbn. rewrite map_length. auto.
Qed.

Lemma init_inv : inv init.
Proof. unfold inv. cbn. auto with zarith. Qed.

Lemma run_inv : forall ls s s' a, inv s -> plain ls -> run s ls = Some (s', a) -> inv s'.
Proof.
  induction ls as [|l ls IH]; intros s s' a I P H; cbn [run] in H; [injection H as <- <-; auto|].
  destruct (step s l) as [[s1 a1]|] eqn:S1; [|discriminate]. destruct (run s1 ls) as [[s2 a2]|] eqn:R; [|discriminate]. injection H as <- <-.
  assert (NC : l <> Sig CHLD) by (intros ->; apply P; left; auto). eapply IH; [eapply step_inv; eauto| |exact R]. intros C. apply P. right. auto.
Qed.

Lemma inv_running : forall s, inv s -> (running s <= 1)%nat.
Proof.
  intros s (N1 & N2 & I). unfold running. assert (L : (length (procs s) <= 1)%nat).
  { destruct (loc s); auto; [destruct I as [[_ ->]|[_ [h ->]]]|destruct I as [_ [h ->]]|contradiction]; cbn; lia. }
  destruct (procs s) as [|x [|y l]]; cbn [length filter] in *; try lia. destruct (snd x); cbn; lia.
Qed.

(** ** When it ends *)
Definition cause (l : label) : Prop :=
  match l with
  | Go ok => ok = false
  | Sig g => g <> CHLD
  | Ends _ h => h = Exited 0
  end.
Lemma waited_cause : forall s r, st s = RUNNING -> (forall p h, r = Some (p, h) -> h <> Exited 0) -> loc (fst (waited s r)) <> Done /\ st (fst (waited s r)) = RUNNING.
Proof.
  intros s r ST H. unfold waited. rewrite ST. destruct r as [[p [[| |]|]]|]; cbn; try (split; [discriminate|auto]).
  exfalso. eapply H; eauto.
Qed.
Definition calm (s : state) : Prop := st s = RUNNING /\ loc s <> Done /\ forall p h, In (p, Some h) (procs s) -> h <> Exited 0.
Lemma zombie_in : forall l p h, zombie l = Some (p, h) -> In (p, Some h) l.
Proof. induction l as [|[q [k|]] l IH]; intros p h H; cbn in H; [discriminate|injection H as -> ->; left; auto|right; auto]. Qed.
Lemma reap_in : forall p l x, In x (reap p l) -> In x l.
Proof. intros p l x H. unfold reap in H. apply filter_In in H. tauto. Qed.
Lemma waited_procs : forall s r x, In x (procs (fst (waited s r))) -> In x (procs s).
Proof.
  intros s r x H. unfold waited in H. destruct r as [[p [[| |]|]]|]; try destruct (Z.eqb p (pid s)); destruct (st s); cbn [fst procs] in H; first [exact H|exact (reap_in _ _ _ H)].
Qed.
Lemma step_calm : forall s l s' a, calm s -> ~ cause l -> step s l = Some (s', a) -> calm s'.
Proof.
  intros s l s' a (ST & L & Z) NC H. 
  assert (W : forall s0 r, st s0 = RUNNING -> (forall p h, r = Some (p, h) -> h <> Exited 0) -> (forall p h, In (p, Some h) (procs s0) -> h <> Exited 0) -> calm (fst (waited s0 r))).
  { intros s0 r ST0 HR HZ. destruct (waited_cause s0 r ST0 HR) as [W1 W2]. split; [auto|]. split; [auto|]. intros p h I. eapply HZ. eapply waited_procs. exact I. }
  assert (HC : forall s0, st s0 = RUNNING -> (forall p h, In (p, Some h) (procs s0) -> h <> Exited 0) -> calm (fst (handle s0 CHLD))).
  { intros s0 ST0 HZ. cbn [handle]. destruct (zombie (procs s0)) as [[p h]|] eqn:E.
    - apply W; auto. intros p0 h0 E0. injection E0 as <- <-. apply zombie_in in E. eapply HZ; eauto.
    - destruct (procs s0) as [|x l0] eqn:PR; [apply W; [auto|discriminate|rewrite PR; exact HZ]|]. split; [exact ST0|]. split; [discriminate|]. exact HZ. }
  destruct l as [ok|g|p h]; cbn [step cause] in *.
  - destruct (loc s) eqn:LE; try discriminate. rewrite ST in H. destruct (Z.eqb (pid s) 0).
    + destruct ok; [|exfalso; auto]. injection H as <- <-. split; [auto|]. split; [discriminate|]. cbn [procs]. intros p h [E|I]; [discriminate|eauto].
    + injection H as <- <-. split; [auto|]. split; [discriminate|]. auto.
  - destruct g; try (exfalso; apply NC; discriminate). injection H as H. unfold signal in H. destruct (loc s) eqn:LE.
    + injection H as <- <-. split; [auto|]. split; [congruence|auto].
    + replace s' with (fst (handle s CHLD)) by (rewrite H; auto). apply HC; auto.
    + replace s' with (fst (waited s None)) by (rewrite H; auto). apply W; auto. discriminate.
    + congruence.
  - destruct (alive p (procs s)); [|discriminate].
    set (s0 := mkSup (loc s) (pid s) (st s) (map (fun x => if Z.eqb (fst x) p then (p, Some h) else x) (procs s)) (next s)) in *.
    assert (HZ : forall p h, In (p, Some h) (procs s0) -> h <> Exited 0).
    { intros p0 h0 I. cbn [procs s0] in I. apply in_map_iff in I as ([q k] & E & I). cbn [fst] in E. destruct (Z.eqb q p); [injection E as <- <-; auto|]. injection E as <- ->. eauto. }
    change (loc s0) with (loc s) in H. destruct (loc s) eqn:LE.
    + injection H as <- <-. split; [auto|]. split; [cbn [loc s0]; congruence|auto].
    + assert (H' : handle s0 CHLD = (s', a)) by congruence. replace s' with (fst (handle s0 CHLD)) by (rewrite H'; auto). apply HC; auto.
    + assert (H' : waited s0 (Some (p, h)) = (s', a)) by congruence. replace s' with (fst (waited s0 (Some (p, h)))) by (rewrite H'; auto). apply W; auto. intros p0 h0 E. injection E as <- <-. auto.
    + congruence.
Qed.
Lemma run_calm : forall ls s s' a, calm s -> (forall l, In l ls -> ~ cause l) -> run s ls = Some (s', a) -> calm s'.
Proof.
  induction ls as [|l ls IH]; intros s s' a I P H; cbn [run] in H; [injection H as <- <-; auto|].
  destruct (step s l) as [[s1 a1]|] eqn:S1; [|discriminate]. destruct (run s1 ls) as [[s2 a2]|] eqn:R; [|discriminate]. injection H as <- <-.
  eapply IH; [eapply step_calm; eauto; apply P; left; auto| |exact R]. intros x J. apply P. right. auto.
Qed.

(** ** After a request to terminate *)
Definition no_start (a : list action) : Prop := forall p, ~ In (Start p) a.
Lemma step_terminating : forall s l s' a, st s = TERMINATING \/ loc s = Done -> step s l = Some (s', a) -> (st s' = TERMINATING \/ loc s' = Done) /\ no_start a.
Proof.
  intros s l s' a T H.
  assert (NW : forall s0 r, no_start (snd (waited s0 r))).
  { intros s0 r p I. unfold waited in I. destruct r as [[q [[| |]|]]|]; try destruct (Z.eqb q (pid s0)); destruct (st s0); cbn in I; intuition discriminate. }
  assert (TW : forall s0 r, st s0 = TERMINATING -> st (fst (waited s0 r)) = TERMINATING).
  { intros s0 r E. unfold waited. rewrite E. destruct r as [[q [[| |]|]]|]; try destruct (Z.eqb q (pid s0)); auto. }
  assert (TH : forall s0 g, st s0 = TERMINATING -> st (fst (handle s0 g)) = TERMINATING /\ no_start (snd (handle s0 g))).
  { intros s0 g E. destruct g; cbn [handle]; rewrite ?E; try (split; [reflexivity|intros p I; cbn in I; intuition discriminate]).
    - destruct (zombie (procs s0)); [split; [apply TW; auto|apply NW]|]. destruct (procs s0); [split; [apply TW; auto|apply NW]|]. cbn. split; [auto|intros q []]. 
 }
  destruct l as [ok|g|p h]; cbn [step] in H.
  - destruct (loc s) eqn:LE; try discriminate. destruct T as [T|]; [|discriminate]. rewrite T in H. destruct (Z.eqb (pid s) 0); injection H as <- <-; split; auto; intros p I; cbn in I; intuition discriminate.
  - injection H as H. unfold signal in H. destruct (loc s) eqn:LE.
    + injection H as <- <-. split; [destruct T as [T|T]; [auto|discriminate]|intros p []].
    + destruct T as [T|]; [|discriminate]. pose proof (TH s g T) as X. rewrite H in X. cbn in X. tauto.
    + destruct T as [T|]; [|discriminate]. pose proof (TW s None T) as X. pose proof (NW s None) as Y. rewrite H in X, Y. cbn in X, Y. auto.
    + injection H as <- <-. split; [auto|intros p []].
  - destruct (alive p (procs s)); [|discriminate]. cbn [loc] in H. destruct (loc s) eqn:LE.
    + injection H as <- <-. split; [destruct T; [auto|discriminate]|intros q []].
    + destruct T as [T|]; [|discriminate]. match type of H with Some (handle ?s0 CHLD) = _ => pose proof (TH s0 CHLD T) as X; assert (H' : handle s0 CHLD = (s', a)) by congruence end. rewrite H' in X. cbn in X. tauto.
    + destruct T as [T|]; [|discriminate]. match type of H with Some (waited ?s0 ?r) = _ => pose proof (TW s0 r T) as X; pose proof (NW s0 r) as Y; assert (H' : waited s0 r = (s', a)) by congruence end. rewrite H' in X, Y. cbn in X, Y. auto.
    + injection H as <- <-. split; [auto|intros q []].
Qed.
Lemma run_terminating : forall ls s s' a, st s = TERMINATING \/ loc s = Done -> run s ls = Some (s', a) -> no_start a.
Proof.
  induction ls as [|l ls IH]; intros s s' a T H; cbn [run] in H; [injection H as <- <-; intros p []|].
  destruct (step s l) as [[s1 a1]|] eqn:S1; [|discriminate]. destruct (run s1 ls) as [[s2 a2]|] eqn:R; [|discriminate]. injection H as <- <-.
  destruct (step_terminating _ _ _ _ T S1) as [T1 N1]. pose proof (IH _ _ _ T1 R) as N2. intros p I. apply in_app_or in I as [I|I]; [exact (N1 p I)|exact (N2 p I)].
Qed.
