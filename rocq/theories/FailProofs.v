(** Proofs about the search for a backend. *)
From Coq Require Import List ZArith Bool Lia Permutation.
From Coq Require Import ZifyBool ZifyNat.
From Verif Require Import Bytes JobModel JobSpec BalModel BalSpec BalProofs BalHistProofs SessModel SessSpec SessProofs.
From Verif Require Import FailModel FailSpec.
Import ListNotations.
Open Scope Z_scope.

(** * Selections leave everything but the position of the round robin *)

Definition same_group (a b : balancer) : Prop :=
  l_weight a = l_weight b /\ l_algo a = l_algo b /\ l_act a = l_act b /\ l_bes a = l_bes b /\
  l_sum a = l_sum b /\ l_max a = l_max b.
Lemma same_group_refl : forall a, same_group a a.
Proof. repeat split. Qed.

Lemma next_in : forall id l n, next_id id l = Some n -> In n (ids l).
Proof.
  induction l as [|a l IH]; cbn; intros n X; [discriminate|].
  destruct (b_id a =? id); [|right; auto]. destruct l; cbn in X; inversion X; subst. right. cbn. auto.
Qed.
Lemma first_in : forall l n, first_id l = Some n -> In n (ids l).
Proof. destruct l; cbn; intros n X; inversion X; subst; auto. Qed.

Lemma step_same : forall bl id be bl', 0 <= l_max bl -> 0 <= l_round bl -> iwrr_step bl id = Some (be, bl') ->
  same_group bl bl' /\ good_pos bl'.
Proof.
  intros bl id be bl' M R E. unfold iwrr_step in E. destruct (find_be id (l_bes bl)); [|discriminate].
  destruct (next_id id (l_bes bl)) as [n|] eqn:X.
  - injection E as <- <-. split; [repeat split|]. split; cbn; [auto|]. eapply next_in; eauto.
  - match type of E with Some (?x, ?y) = _ => assert (Y : bl' = y) by congruence end. subst bl'.
    split; [repeat split|]. split; cbn [with_pos l_round l_cur l_bes].
    + apply Z.mod_pos_bound. lia.
    + destruct (first_id (l_bes bl)) eqn:Y; auto. apply first_in. auto.
Qed.
Lemma same_group_trans : forall a b c, same_group a b -> same_group b c -> same_group a c.
Proof. unfold same_group. intros. intuition congruence. Qed.

Lemma loop_same : forall fuel bl, 0 <= l_max bl -> 0 <= l_round bl ->
  match iwrr_loop fuel bl with
  | Picked _ bl' | NoBackend bl' => same_group bl bl' /\ good_pos bl'
  | _ => True
  end.
Proof.
  induction fuel as [|fuel IH]; intros bl M R; cbn [iwrr_loop]; auto.
  destruct (l_cur bl) as [id|]; auto. destruct (iwrr_step bl id) as [[[be|] bl']|] eqn:E; auto.
  - eapply step_same; eauto.
  - destruct (step_same _ _ _ _ M R E) as [A B].
    assert (M' : 0 <= l_max bl') by (destruct A as (_ & _ & _ & _ & _ & A); lia).
    specialize (IH bl' M' (proj1 B)).
    destruct (iwrr_loop fuel bl'); auto; destruct IH; split; auto; eapply same_group_trans; eauto.
Qed.

Lemma select_same : forall fuel bl rs, (l_algo bl = ALGO_IWRR -> good_pos bl /\ 0 <= l_max bl) ->
  match balancer_select_backend fuel bl rs with
  | Picked _ (bl', _) | NoBackend (bl', _) => same_group bl bl' /\ (l_algo bl = ALGO_IWRR -> good_pos bl')
  | _ => True
  end.
Proof.
  intros fuel bl rs G. unfold balancer_select_backend.
  assert (D : same_group bl bl /\ (l_algo bl = ALGO_IWRR -> good_pos bl))
    by (split; [apply same_group_refl|apply G]).
  destruct (l_bes bl) as [|b0 [|b1 bs]]; auto.
  - destruct (backend_is_active b0); auto.
  - destruct (l_algo bl) eqn:A.
    + destruct (rand_select bl rs); auto.
    + destruct (G eq_refl) as [[R P] M]. unfold iwrr_select. destruct (l_cur bl) as [c|] eqn:C.
      * pose proof (loop_same fuel bl M R) as L. destruct (iwrr_loop fuel bl); auto; destruct L; split; auto.
      * assert (M0 : 0 <= l_max (iwrr_init bl)) by exact M.
        pose proof (loop_same fuel (iwrr_init bl) M0 (Z.le_refl 0)) as L.
        assert (S0 : same_group bl (iwrr_init bl)) by (repeat split).
        destruct (l_cur (iwrr_init bl)) eqn:C0.
        -- destruct (iwrr_loop fuel (iwrr_init bl)); auto; destruct L; split; auto; eapply same_group_trans; eauto.
        -- split; [exact S0|]. intros _. split; [cbn; lia|]. rewrite C0. auto.
Qed.

Lemma gok_same : forall algo a b, gok algo a -> same_group a b -> (algo = ALGO_IWRR -> good_pos b) -> gok algo b.
Proof.
  intros algo a b (A & B & C & D & F) (E1 & E2 & E3 & E4 & E5 & E6) G. unfold gok, agrees in *.
  rewrite <- E2, <- E3, <- E4, <- E5, <- E6. auto.
Qed.

Lemma gok_iwrr : forall algo bl, gok algo bl -> l_algo bl = ALGO_IWRR -> good_pos bl /\ 0 <= l_max bl.
Proof.
  intros algo bl ((_ & A) & B & C & _) E. split; [apply C; congruence|]. rewrite E in A. rewrite A. apply top_nonneg.
Qed.

Definition parallel := Forall2 same_group.
Lemma parallel_refl : forall l, parallel l l.
Proof. induction l; constructor; auto using same_group_refl. Qed.

Lemma svc_same : forall algo fuel bls rs, Forall (gok algo) bls ->
  match service_lb_select_backend fuel bls rs with
  | Picked _ (bls', _) | NoBackend (bls', _) => parallel bls bls' /\ Forall (gok algo) bls'
  | _ => True
  end.
Proof.
  intros algo fuel. induction bls as [|bl bls IH]; intros rs G; cbn [service_lb_select_backend].
  - split; constructor.
  - inversion G as [|? ? G1 G2]; subst. pose proof (select_same fuel bl rs (gok_iwrr _ _ G1)) as S1.
    assert (AL : algo = ALGO_IWRR -> l_algo bl = ALGO_IWRR) by (destruct G1 as (_ & X & _); congruence).
    destruct (balancer_select_backend fuel bl rs) as [b [bl' rs']|[bl' rs']| |]; auto.
    + destruct S1 as [S1 S2]. split; [constructor; auto using parallel_refl; apply parallel_refl|].
      constructor; auto. eapply gok_same; eauto.
    + destruct S1 as [S1 S2]. specialize (IH rs' G2).
      destruct (service_lb_select_backend fuel bls rs') as [b [r2 rs2]|[r2 rs2]| |]; auto;
        (destruct IH as [P Q]; split; [constructor; auto|constructor; auto; eapply gok_same; eauto]).
Qed.

Lemma parallel_members : forall a b, parallel a b -> members a = members b.
Proof.
  intros a b P. induction P as [|x y a b X P IH]; [reflexivity|]. rewrite !members_cons, IH.
  destruct X as (_ & _ & _ & X & _). congruence.
Qed.
Lemma parallel_weights : forall a b, parallel a b -> weights a = weights b.
Proof.
  intros a b P. induction P as [|x y a b X P IH]; [reflexivity|]. unfold weights in *. cbn. rewrite IH.
  destruct X as (X & _). congruence.
Qed.
Lemma parallel_inv : forall algo k a b, inv algo k a -> parallel a b -> Forall (gok algo) b -> inv algo k b.
Proof.
  intros algo k a b [N G W S] P F. pose proof (parallel_members _ _ P) as M. constructor; auto.
  - rewrite <- M. auto.
  - rewrite <- (parallel_weights _ _ P). auto.
  - rewrite <- M. auto.
Qed.
Lemma parallel_sym_bes : forall a b, parallel a b -> Forall2 (fun x y => l_bes x = l_bes y) a b.
Proof. intros a b P. induction P as [|x y a b X P IH]; constructor; auto. apply X. Qed.

(** * The state of a service *)

Record wok (algo : balancer_algo) (k : nat) (w : world) : Prop := mkWok {
  o_bls : inv algo k (w_bls w);
  o_sess : sinv (w_sess w);
  o_targets : forall kk b e, view (w_sess w) kk = Some (b, e) -> target w b
}.

Lemma session_view : forall w k, session_of w k = option_map fst (view (w_sess w) (firstn KEY_SIZE k)).
Proof.
  intros w k. unfold session_of, view, fk. destruct (find _ (t_list (w_sess w))) as [s|]; reflexivity.
Qed.

Lemma target_members : forall w w' b, members (w_bls w) = members (w_bls w') -> target w b -> target w' b.
Proof. unfold target. intros w w' b E. rewrite E. auto. Qed.

(** * get_backend *)
Section Search.
Variables (algo : balancer_algo) (size fuel : nat) (ttl : Z).
Hypothesis FEW : few size.
(** [Q bls rs m]: m further selections can be made; [D]: backends that may die meanwhile *)
Variable Q : list balancer -> list Z -> nat -> Prop.
Variable D : Z -> Prop.
Hypothesis Q_select : forall bls rs m, inv algo size bls -> Q bls rs (S m) ->
  svc_answers bls (service_lb_select_backend fuel bls rs) /\
  match service_lb_select_backend fuel bls rs with
  | Picked _ (bls', rs') | NoBackend (bls', rs') => Q bls' rs' m
  | _ => True
  end.
Hypothesis Q_kill : forall bls rs m id b, inv algo size bls -> Q bls rs m -> D id ->
  find_in_groups id bls = Some b -> b_kind b = BE_REGULAR -> Q (kill_be id BE_KILL bls) rs m.
Hypothesis Q_less : forall bls rs m, Q bls rs (S m) -> Q bls rs m.

Lemma first_usable_same : forall a b c, parallel a b -> first_usable a c -> first_usable b c.
Proof.
  intros a b c P (pre & bl & post & -> & I & U & F).
  apply Forall2_app_inv_l in P. destruct P as (pre' & r & P1 & P2 & ->).
  inversion P2 as [|? bl' ? post' X P3]; subst. exists pre', bl', post'.
  destruct X as (_ & _ & _ & X & _). rewrite X in I. repeat split; auto.
  clear -P1 F. induction P1 as [|x y a b X P IH]; constructor; inversion F; subst; auto.
  unfold some_usable in *. destruct X as (_ & _ & _ & X & _). rewrite <- X. auto.
Qed.

Lemma lb_spec : forall w rs m, wok algo size w -> Q (w_bls w) rs (S m) ->
  match lb_select fuel w rs with
  | Got id w' rs' => parallel (w_bls w) (w_bls w') /\ wok algo size w' /\ w_sess w' = w_sess w /\
      Q (w_bls w') rs' m /\ exists b, b_id b = id /\ first_usable (w_bls w') b
  | GotNone w' rs' => parallel (w_bls w) (w_bls w') /\ wok algo size w' /\ w_sess w' = w_sess w /\
      Q (w_bls w') rs' m /\ forall b, In b (members (w_bls w)) -> ~ usable b
  | _ => False
  end.
Proof.
  intros w rs m [B S T] H. destruct (Q_select _ _ _ B H) as [A C]. unfold lb_select.
  pose proof (svc_same algo fuel (w_bls w) rs (i_groups _ _ _ B)) as P.
  destruct (service_lb_select_backend fuel (w_bls w) rs) as [b [bls rs']|[bls rs']| |]; cbn [svc_answers] in A;
    try contradiction; destruct P as [P G]; cbn [w_bls w_sess];
    (split; [exact P|]; split; [constructor; cbn [w_bls w_sess]; auto;
      [eapply parallel_inv; eauto|intros kk x e V; eapply target_members; [|eapply T; eauto];
        cbn; apply parallel_members; auto]|]; split; [reflexivity|]; split; [exact C|]).
  - exists b. split; auto. eapply first_usable_same; eauto.
  - intros b I U. unfold members in I. apply in_flat_map in I. destruct I as (g & Ig & Ib).
    rewrite Forall_forall in A. apply (A g Ig). exists b; auto.
Qed.

Lemma first_usable_in : forall bls b, first_usable bls b -> In b (members bls) /\ usable b.
Proof.
  intros bls b (pre & bl & post & -> & I & U & _). split; auto. eapply member_group; eauto.
  apply in_or_app. right. left. reflexivity.
Qed.
Lemma usable_kind : forall b, usable b -> b_kind b <> BE_MATRIX.
Proof. intros b U E. unfold usable, usableb in U. rewrite E in U. destruct (b_disabled b); discriminate. Qed.

Definition vb (w : world) (kk : bytes) : option Z := option_map fst (view (w_sess w) kk).

(** What get_backend does. *)
Definition got_ok (key : option bytes) (w : world) (m : nat) (r : got) : Prop :=
  match r with
  | Got id w' rs' => parallel (w_bls w) (w_bls w') /\ wok algo size w' /\ Q (w_bls w') rs' m /\
      target w' id /\
      (sticks w key id \/ in_first w' id) /\
      (forall k0, key = Some k0 -> session_of w' k0 = Some id) /\
      (forall kk, (forall k0, key = Some k0 -> firstn KEY_SIZE k0 <> kk) -> vb w' kk = vb w kk) /\
      (exists b, In b (members (w_bls w)) /\ usable b)
  | GotNone w' rs' => parallel (w_bls w) (w_bls w') /\ wok algo size w' /\
      (forall kk, vb w' kk = vb w kk) /\ forall b, In b (members (w_bls w)) -> ~ usable b
  | _ => False
  end.

Lemma in_first_usable : forall w b, first_usable (w_bls w) b -> in_first w (b_id b).
Proof.
  intros w b (pre & bl & post & E & I & U & F). exists pre, bl, post, b. repeat split; auto.
  eapply Forall_impl; [|exact F]. intros g Hg c Ic Uc. apply Hg. exists c; auto.
Qed.

Lemma target_usable : forall w b, In b (members (w_bls w)) -> usable b -> target w (b_id b).
Proof. intros w b I U. exists b. repeat split; auto. apply usable_kind. auto. Qed.

Lemma get_ok : forall key now w rs m, wok algo size w -> ts_ok now -> Q (w_bls w) rs (S (S m)) ->
  got_ok key w m (get_backend fuel ttl key now w rs).
Proof.
  intros key now w rs m O N H. unfold get_backend.
  assert (AG : Forall agrees (w_bls w)).
  { eapply Forall_impl; [|exact (i_groups _ _ _ (o_bls _ _ _ O))]. intros a Ha. apply Ha. }
  pose proof (has_backends_iff (w_bls w) AG) as HB. destruct (service_has_backends (w_bls w)).
  2:{ cbn [got_ok]. split; [apply parallel_refl|]. split; [auto|]. split; [auto|].
      intros b I U. destruct HB as [_ HB]. assert (X : false = true) by (apply HB; eauto). discriminate. }
  destruct (proj1 HB eq_refl) as (u & Iu & Uu).
  assert (LB : forall w rs m, wok algo size w -> Q (w_bls w) rs (S m) ->
    (exists b, In b (members (w_bls w)) /\ usable b) ->
    match lb_select fuel w rs with
    | Got id w' rs' => parallel (w_bls w) (w_bls w') /\ wok algo size w' /\ w_sess w' = w_sess w /\
        Q (w_bls w') rs' m /\ target w' id /\ in_first w' id
    | _ => False
    end).
  { intros w0 rs0 m0 O0 Q0 (b & I & U). pose proof (lb_spec w0 rs0 m0 O0 Q0) as L.
    destruct (lb_select fuel w0 rs0) as [id w' rs'|w' rs'| |]; auto.
    - destruct L as (A & B & C & E & (c & <- & F)). destruct (first_usable_in _ _ F).
      do 5 (split; [auto using target_usable|]). apply in_first_usable. auto.
    - destruct L as (_ & _ & _ & _ & L). eapply L; eauto. }
  destruct key as [key|].
  2:{ pose proof (LB w rs (S m) O H (ex_intro _ u (conj Iu Uu))) as L.
      destruct (lb_select fuel w rs) as [id w' rs'|w' rs'| |]; try contradiction.
      destruct L as (A & B & C & E & T & F). cbn [got_ok]. repeat (split; [solve [auto]|]).
      split; [intros; discriminate|]. split; [intros kk _; unfold vb; congruence|eauto]. }
  unfold by_key. set (kb := firstn KEY_SIZE key).
  destruct (fk kb (t_list (w_sess w))) as [s|] eqn:F.
  - rewrite (find_found ttl kb now (w_sess w) s (o_sess _ _ _ O) F). destruct (fk_some _ _ _ F) as [Is Ks].
    assert (VW : view (w_sess w) kb = Some (s_be s, ns (s_exp s))) by (unfold view; rewrite F; reflexivity).
    assert (TG : target w (s_be s)) by (eapply (o_targets _ _ _ O); eauto).
    cbn [got_ok w_bls w_sess]. split; [apply parallel_refl|]. split.
    { constructor; cbn [w_bls w_sess]; [apply O|apply promote_inv; auto; apply O|].
      intros kk b e V. rewrite promote_view in V by (auto; apply O).
      destruct (bytes_eqb (s_key s) kk); [injection V as <- _; exact TG|]. eapply (o_targets _ _ _ O); eauto. }
    split; [auto|]. split; [exact TG|]. split.
    { left. exists key. split; auto. rewrite session_view. fold kb. rewrite VW. reflexivity. }
    split; [|split].
    + intros k0 E. injection E as <-. rewrite session_view. fold kb. cbn [w_sess].
      rewrite promote_view by (auto; apply O). rewrite Ks, beqb_refl. reflexivity.
    + intros kk NK. unfold vb. cbn [w_sess]. rewrite promote_view by (auto; apply O).
      destruct (beqb_case (s_key s) kk) as [[E1 E2]|[E1 E2]]; rewrite E1; auto.
      exfalso. apply (NK key eq_refl). fold kb. congruence.
    + eauto.
  - rewrite (find_absent ttl kb now (w_sess w) (o_sess _ _ _ O) F).
    replace (mkW (w_bls w) (w_sess w)) with w by (destruct w; reflexivity).
    pose proof (LB w rs (S m) O H (ex_intro _ u (conj Iu Uu))) as L.
    destruct (lb_select fuel w rs) as [id w' rs'|w' rs'| |]; try contradiction.
    destruct L as (A & B & C & E & T & I1). cbn [got_ok w_bls w_sess]. split; [exact A|]. split.
    { constructor; cbn [w_bls w_sess]; [apply B|apply add_inv; auto; apply B|].
      intros kk b e V. rewrite add_view in V by (auto; apply B).
      destruct (bytes_eqb kb kk); [injection V as <- _; exact T|]. eapply (o_targets _ _ _ B); eauto. }
    split; [auto|]. split; [exact T|]. split; [right; exact I1|]. split; [|split].
    + intros k0 X. injection X as <-. rewrite session_view. fold kb. cbn [w_sess].
      rewrite add_view by (auto; apply B). rewrite beqb_refl. reflexivity.
    + intros kk NK. unfold vb. cbn [w_sess]. rewrite add_view by (auto; apply B).
      destruct (beqb_case kb kk) as [[E1 E2]|[E1 E2]]; rewrite E1; [|congruence].
      exfalso. apply (NK key eq_refl). auto.
    + eauto.
Qed.

(** * kill_be *)
Lemma mark_dead_id : forall l b, b_id (mark_dead l b) = b_id b.
Proof. intros. unfold mark_dead. destruct (existsb _ l); reflexivity. Qed.
Lemma mark_dead_kind : forall l b, b_kind (mark_dead l b) = b_kind b.
Proof. intros. unfold mark_dead. destruct (existsb _ l); reflexivity. Qed.
Lemma mark_dead_nil : forall l, map (mark_dead []) l = l.
Proof. intros. rewrite <- (map_id l) at 2. apply map_ext. reflexivity. Qed.
Lemma mark_dead_cons : forall x r l, map (mark_dead (x :: r)) l = map (mark_dead r) (map (mark_dead [x]) l).
Proof.
  intros. rewrite map_map. apply map_ext. intros b. unfold mark_dead. cbn [existsb].
  destruct (b_id b =? x) eqn:E; cbn [orb b_id b_kind b_pri b_disabled]; [|reflexivity].
  destruct (existsb (Z.eqb (b_id b)) r); reflexivity.
Qed.
Lemma map_target : forall w w' l b, members (w_bls w') = map (mark_dead l) (members (w_bls w)) ->
  target w b -> target w' b.
Proof.
  intros w w' l b E (c & I & J & K). exists (mark_dead l c). rewrite E.
  split; [apply in_map; auto|]. rewrite mark_dead_id, mark_dead_kind. auto.
Qed.

Lemma kill_ok : forall w b, wok algo size w -> In b (members (w_bls w)) -> b_kind b = BE_REGULAR ->
  exists w1, kill (b_id b) w = Some w1 /\ wok algo size w1 /\
    members (w_bls w1) = map (mark_dead [b_id b]) (members (w_bls w)) /\
    (forall kk, vb w1 kk = match vb w kk with Some x => if x =? b_id b then None else Some x | None => None end) /\
    w_bls w1 = kill_be (b_id b) BE_KILL (w_bls w).
Proof.
  intros w b O I K. destruct O as [B S0 T]. unfold kill.
  assert (FB : find_in_groups (b_id b) (w_bls w) = Some b) by (apply find_in_groups_some; auto; apply B).
  rewrite FB, K. eexists. split; [reflexivity|]. cbn [w_bls w_sess].
  assert (MM : members (kill_be (b_id b) BE_KILL (w_bls w)) = map (mark_dead [b_id b]) (members (w_bls w))).
  { rewrite (kill_members algo size (w_bls w) (b_id b) BE_KILL b); auto. apply map_ext. intros c.
    unfold cb_backend_disable, mark_dead. cbn [existsb]. rewrite orb_false_r. destruct (b_id c =? b_id b); reflexivity. }
  split; [|split; [exact MM|split; [|reflexivity]]].
  - constructor; cbn [w_bls w_sess].
    + apply inv_kill; auto.
    + apply kill_inv; auto.
    + intros kk x e V. rewrite kill_view in V by auto. destruct (view (w_sess w) kk) as [[y e0]|] eqn:E; [|discriminate].
      destruct (y =? b_id b); [discriminate|]. injection V as <- <-. eapply map_target; [cbn; exact MM|]. eapply T; eauto.
  - intros kk. unfold vb. cbn [w_sess]. rewrite kill_view by auto. destruct (view (w_sess w) kk) as [[y e0]|]; cbn; [|reflexivity].
    destruct (y =? b_id b); reflexivity.
Qed.

(** * The loop *)
Definition usable_in (w : world) (x : Z) : Prop := exists b, In b (members (w_bls w)) /\ b_id b = x /\ usable b.
Definition cnt (w : world) : nat := length (filter usableb (members (w_bls w))).

Definition aok (d : Z -> dial) (key : option bytes) (id : Z) (w : world) (r : result) : Prop :=
  match r with
  | Chosen w' k' tr =>
      tried d key w w' tr /\ wok algo size w' /\ (forall x, In x (refused tr) -> x = id \/ usable_in w x) /\
      exists b, In b (members (w_bls w')) /\ k_backend k' = Some (b_id b) /\
        match b_kind b with
        | BE_REGULAR => k_be k' = Some (b_id b) /\ others tr = [(b_id b, Opened)] /\ d (b_id b) = Opened
        | BE_OTHER => k_be k' = None /\ others tr = []
        | BE_MATRIX => False
        end /\
        (forall kk, key = Some kk -> session_of w' kk = Some (b_id b)) /\
        ((b_id b = id /\ refused tr = [] /\ w' = w) \/ in_first w' (b_id b))
  | Unavailable w' k' tr =>
      tried d key w w' tr /\ wok algo size w' /\ (forall x, In x (refused tr) -> x = id \/ usable_in w x) /\
      ((exists id x, others tr = [(id, x)] /\ d id = x /\ (x = BadFamily \/ x = NoSocket \/ x = NotOpened)) \/
       others tr = [] /\
       forall b, In b (members (w_bls w)) -> usable b -> b_kind b = BE_REGULAR /\ In (b_id b) (refused tr))
  | _ => False
  end.

Lemma same_trunc : forall a b, same_key a b <-> firstn KEY_SIZE a = firstn KEY_SIZE b.
Proof. reflexivity. Qed.

Lemma tried_nil : forall d key w tr, refused tr = [] -> killed tr = [] -> tried d key w w tr.
Proof.
  intros d key w tr R K. unfold tried. rewrite R, K. split; [constructor|]. split; [reflexivity|].
  split; [intros x []|]. split; [symmetry; apply mark_dead_nil|].
  intros kk _. destruct (session_of w kk); reflexivity.
Qed.

Lemma vb_session : forall w kk, session_of w kk = vb w (firstn KEY_SIZE kk).
Proof. intros. apply session_view. Qed.

Lemma count_dead : forall l b, NoDup (ids l) -> In b l -> b_kind b = BE_REGULAR ->
  (length (filter usableb l) = length (filter usableb (map (mark_dead [b_id b]) l)) + if usableb b then 1 else 0)%nat.
Proof.
  induction l as [|a l IH]; intros b N I K; [destruct I|]. inversion N as [|? ? NI N']; subst.
  cbn [map filter]. destruct I as [->|I].
  - assert (MA : map (mark_dead [b_id b]) l = l).
    { rewrite <- (map_id l) at 2. apply map_ext_in. intros c Hc. unfold mark_dead. cbn [existsb].
      destruct (Z.eqb_spec (b_id c) (b_id b)) as [E|E]; cbn [orb]; [|reflexivity].
      exfalso. apply NI. rewrite <- E. apply in_map. auto. }
    rewrite MA. unfold mark_dead at 1. cbn [existsb]. rewrite Z.eqb_refl. cbn [orb].
    assert (X : usableb (mkBe (b_id b) (b_kind b) (b_pri b) (b_disabled b) false) = false).
    { unfold usableb. cbn. rewrite K. apply andb_false_r. }
    rewrite X. destruct (usableb b); cbn [length]; lia.
  - assert (X : mark_dead [b_id b] a = a).
    { unfold mark_dead. cbn [existsb]. destruct (Z.eqb_spec (b_id a) (b_id b)) as [E|E]; cbn [orb]; [|reflexivity].
      exfalso. apply NI. rewrite E. apply in_map. auto. }
    rewrite X. specialize (IH b N' I K). destruct (usableb a); cbn [length]; lia.
Qed.

Lemma usable_dead : forall l r b, In b (map (mark_dead r) l) -> usable b -> b_kind b = BE_REGULAR -> ~ In (b_id b) r.
Proof.
  intros l r b I U K H. apply in_map_iff in I. destruct I as (c & <- & I). rewrite mark_dead_id in H.
  unfold mark_dead in *. destruct (existsb (Z.eqb (b_id c)) r) eqn:E.
  - unfold usable, usableb in U. cbn in *. rewrite K in U. rewrite andb_false_r in U. discriminate.
  - assert (X : existsb (Z.eqb (b_id c)) r = true) by (apply existsb_exists; exists (b_id c); split; [auto|apply Z.eqb_refl]).
    congruence.
Qed.

Lemma usable_before : forall l r b, In b (map (mark_dead r) l) -> usable b -> b_kind b = BE_REGULAR -> In b l.
Proof.
  intros l r b I U K. apply in_map_iff in I. destruct I as (c & E & I). unfold mark_dead in E.
  destruct (existsb (Z.eqb (b_id c)) r); [|congruence]. subst b. unfold usable, usableb in U. cbn in *.
  rewrite K, andb_false_r in U. discriminate.
Qed.

Lemma in_first_in : forall w id, in_first w id -> usable_in w id.
Proof.
  intros w id (pre & bl & post & b & E & I & J & U & _). exists b. split; [|auto]. rewrite E.
  eapply member_group; eauto. apply in_or_app. right. left. reflexivity.
Qed.

Section Steady.
Variables (d : Z -> dial) (e : env) (key : option bytes).
Hypothesis QUIET : quiet e.
Hypothesis STEADY : steady e d.
Hypothesis CLOCK : clock e.
Hypothesis DIES : forall x, d x = Refused -> D x.

Lemma attempts_ok : forall n i k id w rs, wok algo size w -> target w id ->
  (forall k0, key = Some k0 -> session_of w k0 = Some id) ->
  Q (w_bls w) rs (2 * n) -> (cnt w <= n)%nat -> (~ usable_in w id -> (cnt w < n)%nat) ->
  k_be k = None ->
  aok d key id w (attempts n fuel ttl key e i k id w rs).
Proof.
  induction n as [|n IH]; intros i k id w rs O TG SE HQ C1 C2 KB.
  - exfalso. assert (U : ~ usable_in w id).
    { intros (b & I & J & U). unfold cnt in C1. assert (X : In b (filter usableb (members (w_bls w)))) by (apply filter_In; auto).
      destruct (filter usableb (members (w_bls w))); [destruct X|cbn in C1; lia]. }
    specialize (C2 U). lia.
  - cbn [attempts]. destruct TG as (b & I & J & K).
    assert (FB : find_in_groups id (w_bls w) = Some b) by (apply find_in_groups_some; auto; apply O).
    rewrite FB. subst id. destruct (b_kind b) eqn:KD; [|congruence|].
    2:{ cbn [aok]. split; [apply tried_nil; reflexivity|]. split; [auto|]. split; [intros x []|].
        exists b. cbn [k_backend k_be]. rewrite KD. auto 10. }
    rewrite STEADY. destruct (d (b_id b)) eqn:DB.
    + cbn [aok]. split; [apply tried_nil; reflexivity|]. split; [auto|]. split; [intros x []|]. left. exists (b_id b). eexists. split; [reflexivity|]. split; [exact DB|auto].
    + cbn [aok]. split; [apply tried_nil; reflexivity|]. split; [auto|]. split; [intros x []|]. left. exists (b_id b). eexists. split; [reflexivity|]. split; [exact DB|auto].
    + rewrite (proj1 QUIET). destruct (kill_ok w b O I KD) as (w1 & -> & O1 & M1 & V1 & B1). rewrite (proj2 QUIET).
      assert (Q1 : Q (w_bls w1) rs (S (S (2 * n)))).
      { rewrite B1. replace (S (S (2 * n))) with (2 * S n)%nat by lia. eapply Q_kill; eauto. apply O. }
      assert (NS : forall k0, key = Some k0 -> session_of w1 k0 = None).
      { intros k0 E. specialize (SE k0 E). rewrite vb_session in *. rewrite V1, SE, Z.eqb_refl. reflexivity. }
      assert (CN : (cnt w = cnt w1 + if usableb b then 1 else 0)%nat).
      { unfold cnt. rewrite M1. apply count_dead; auto. apply O. }
      assert (C1' : (cnt w1 <= n)%nat).
      { destruct (usableb b) eqn:U; [lia|]. assert (X : ~ usable_in w (b_id b)).
        { intros (c & Ic & Jc & Uc). assert (c = b) by (eapply same_id_same; eauto; apply O). subst c. unfold usable in Uc. congruence. }
        specialize (C2 X). lia. }
      pose proof (get_ok key (e_now e (S i)) w1 rs (2 * n) O1 (CLOCK _) Q1) as G.
      assert (S1 : forall kk, (forall k0, key = Some k0 -> ~ same_key k0 kk) ->
         session_of w1 kk = match session_of w kk with Some x => if existsb (Z.eqb x) [b_id b] then None else Some x | None => None end).
      { intros kk _. rewrite !vb_session, V1. destruct (vb w (firstn KEY_SIZE kk)) as [x|]; [|reflexivity].
        cbn [existsb]. rewrite orb_false_r. reflexivity. }
      destruct (get_backend fuel ttl key (e_now e (S i)) w1 rs) as [id2 w2 rs2|w2 rs2| |]; cbn [got_ok] in G; try contradiction.
      * destruct G as (P & O2 & Q2 & T2 & OR & SE2 & SV & _).
        assert (IF : in_first w2 id2).
        { destruct OR as [(k0 & E & X)|X]; auto. rewrite (NS k0 E) in X. discriminate. }
        pose proof (parallel_members _ _ P) as PM.
        assert (IHn : aok d key id2 w2 (attempts n fuel ttl key e (S i) k id2 w2 rs2)).
        { apply IH; auto.
          - unfold cnt in *. rewrite <- PM. auto.
          - intros X. exfalso. apply X. apply in_first_in. auto. }
        assert (US : forall x, usable_in w2 x -> x <> b_id b -> usable_in w x).
        { intros x (c & Ic & Jc & Uc) NE. rewrite <- PM, M1 in Ic. apply in_map_iff in Ic. destruct Ic as (c0 & E & Ic).
          exists c0. unfold mark_dead in E. cbn [existsb] in E. destruct (Z.eqb_spec (b_id c0) (b_id b)) as [X|X]; cbn [orb] in E.
          - exfalso. apply NE. subst c. cbn in Jc. congruence.
          - subst c0. auto. }
        assert (NU : ~ usable_in w2 (b_id b)).
        { intros (c & Ic & Jc & Uc). rewrite <- PM, M1 in Ic.
          assert (c = mark_dead [b_id b] b).
          { eapply same_id_same; [| exact Ic|apply in_map; exact I|rewrite mark_dead_id; auto].
            rewrite <- M1, PM. apply O2. }
          subst c. unfold mark_dead in Uc. cbn [existsb] in Uc. rewrite Z.eqb_refl in Uc. cbn [orb] in Uc.
          unfold usable, usableb in Uc. cbn in Uc. rewrite KD, andb_false_r in Uc. discriminate. }
        assert (TR : forall w' tr, tried d key w2 w' tr -> (forall x, In x (refused tr) -> x = id2 \/ usable_in w2 x) ->
          tried d key w w' ([Dial (b_id b) Refused; Kill (b_id b)] ++ tr) /\
          (forall x, In x (refused ([Dial (b_id b) Refused; Kill (b_id b)] ++ tr)) -> x = b_id b \/ usable_in w x)).
        { intros w' tr (T1 & T3 & T4 & T5 & T6) X.
          assert (NI : forall x, In x (refused tr) -> usable_in w2 x).
          { intros x Hx. destruct (X x Hx) as [->|Y]; auto. apply in_first_in. auto. }
          split.
          - unfold tried. change (refused ([Dial (b_id b) Refused; Kill (b_id b)] ++ tr)) with (b_id b :: refused tr).
            change (killed ([Dial (b_id b) Refused; Kill (b_id b)] ++ tr)) with (b_id b :: killed tr).
            split; [constructor; auto; intros Y; apply NU; auto|]. split; [congruence|].
            split; [intros x [<-|Y]; auto|]. split.
            + rewrite T5, <- PM, M1. symmetry. apply mark_dead_cons.
            + intros kk NK. rewrite (T6 kk NK). rewrite (vb_session w2).
              rewrite SV by (intros k0 E Y; apply (NK k0 E); exact Y). rewrite <- vb_session, (S1 kk NK).
              destruct (session_of w kk) as [x|]; [|reflexivity]. cbn [existsb]. rewrite orb_false_r.
              destruct (x =? b_id b); reflexivity.
          - intros x Y. change (In x (b_id b :: refused tr)) in Y. destruct Y as [Y|Y]; [left; auto|].
            specialize (NI x Y). right. apply US; auto. intros E. subst x. auto. }
        destruct (attempts n fuel ttl key e (S i) k id2 w2 rs2) as [w' k' tr|w' k' tr| | |]; cbn [add_events aok] in *; try contradiction.
        -- destruct IHn as (A1 & A2 & A3 & b' & A4 & A5 & A6 & A7 & A8). destruct (TR w' tr A1 A3) as [B2 B3].
           split; [exact B2|]. split; [auto|]. split; [exact B3|]. exists b'. split; [auto|]. split; [auto|].
           split; [destruct (b_kind b'); auto|]. split; [auto|]. right. destruct A8 as [(X1 & _ & X3)|X]; auto. rewrite X3, X1. auto.
        -- destruct IHn as (A1 & A2 & A3 & A4). destruct (TR w' tr A1 A3) as [B2 B3].
           split; [exact B2|]. split; [auto|]. split; [exact B3|]. destruct A4 as [A4|[A4 A5]]; [left; exact A4|]. right. split; [exact A4|].
           intros c Ic Uc. change (b_kind c = BE_REGULAR /\ In (b_id c) (b_id b :: refused tr)).
           destruct (Z.eq_dec (b_id c) (b_id b)) as [E|E].
           ++ assert (c = b) by (eapply same_id_same; eauto; apply O). subst c. split; auto. left. auto.
           ++ assert (In c (members (w_bls w2))).
              { rewrite <- PM, M1. apply in_map_iff. exists c. split; auto. unfold mark_dead. cbn [existsb].
                destruct (Z.eqb_spec (b_id c) (b_id b)); [congruence|reflexivity]. }
              destruct (A5 c H Uc). split; auto. right. auto.
      * destruct G as (P & O2 & SV & NU). pose proof (parallel_members _ _ P) as PM.
        cbn [add_events aok app]. split; [|split; [auto|split; [cbn; intuition auto|]]].
        -- unfold tried. cbn [refused killed flat_map app]. split; [repeat constructor; auto|]. split; [reflexivity|].
           split; [intros x [<-|[]]; auto|]. split; [congruence|].
           intros kk NK. rewrite (vb_session w2), SV, <- vb_session. apply S1. auto.
        -- right. split; [reflexivity|]. intros c Ic Uc. cbn.
           destruct (Z.eq_dec (b_id c) (b_id b)) as [E|E].
           ++ assert (c = b) by (eapply same_id_same; eauto; apply O). subst c. auto.
           ++ exfalso. apply (NU c); auto. rewrite M1. apply in_map_iff. exists c. split; auto. unfold mark_dead. cbn [existsb].
              destruct (Z.eqb_spec (b_id c) (b_id b)); [congruence|reflexivity].
    + cbn [aok]. split; [apply tried_nil; reflexivity|]. split; [auto|]. split; [intros x []|].
      exists b. cbn [k_backend k_be]. rewrite KD. auto 10.
    + cbn [aok]. split; [apply tried_nil; reflexivity|]. split; [auto|]. split; [intros x []|]. left. exists (b_id b). eexists. split; [reflexivity|]. split; [exact DB|auto].
Qed.

Lemma cnt_le : forall w, (cnt w <= length (members (w_bls w)))%nat.
Proof. intros. apply filter_length_le. Qed.
Lemma cnt_lt : forall w id, target w id -> ~ usable_in w id -> (cnt w < length (members (w_bls w)))%nat.
Proof.
  intros w id (b & I & J & _) N. unfold cnt.
  assert (U : usableb b = false) by (destruct (usableb b) eqn:U; auto; exfalso; apply N; exists b; auto).
  clear N J. induction (members (w_bls w)) as [|a l IH]; [destruct I|]. cbn [filter length].
  destruct I as [->|I].
  - rewrite U. pose proof (filter_length_le backend usableb l). lia.
  - specialize (IH I). destruct (usableb a); cbn [length]; lia.
Qed.

Lemma give_ok : forall n k w rs, wok algo size w -> conn_ok k -> Q (w_bls w) rs (2 * n + 2) ->
  (length (members (w_bls w)) <= n)%nat ->
  good_result d key k w (give_request n fuel ttl key e k w rs).
Proof.
  intros n k w rs O KO HQ L. unfold give_request, select_backend.
  replace (2 * n + 2)%nat with (S (S (2 * n))) in HQ by lia.
  pose proof (get_ok key (e_now e 0) w rs (2 * n) O (CLOCK _) HQ) as G.
  destruct (get_backend fuel ttl key (e_now e 0) w rs) as [id w1 rs1|w1 rs1| |]; cbn [got_ok] in G; try contradiction.
  2:{ destruct G as (P & O1 & SV & NU). cbn [good_result]. split.
      - unfold tried. cbn. split; [constructor|]. split; [reflexivity|]. split; [intros x []|].
        split; [rewrite mark_dead_nil; symmetry; apply parallel_members; auto|].
        intros kk _. rewrite !vb_session, SV. destruct (vb w _); reflexivity.
      - right. split; [reflexivity|]. intros b I U. exfalso. eapply NU; eauto. }
  destruct G as (P & O1 & Q1 & T1 & OR & SE & SV & _). pose proof (parallel_members _ _ P) as PM.
  assert (MV : forall w' tr, tried d key w1 w' tr -> tried d key w w' tr).
  { intros w' tr (A1 & A2 & A3 & A4 & A5). unfold tried. rewrite PM. do 4 (split; [auto|]).
    intros kk NK. rewrite (A5 kk NK). rewrite (vb_session w1), SV; [rewrite <- vb_session; reflexivity|].
    intros k0 E X. apply (NK k0 E). exact X. }
  assert (AT : forall k0, k_be k0 = None -> aok d key id w1 (attempts n fuel ttl key e 0 k0 id w1 rs1)).
  { intros k0 K0. apply attempts_ok; auto.
    - pose proof (cnt_le w1). rewrite <- PM in H. lia.
    - intros X. pose proof (cnt_lt w1 id T1 X). rewrite <- PM in H. lia. }
  assert (FIN : forall k0, k_be k0 = None ->
    good_result d key k w (proceed (attempts n fuel ttl key e 0 k0 id w1 rs1))).
  { intros k0 K0. specialize (AT k0 K0).
    destruct (attempts n fuel ttl key e 0 k0 id w1 rs1) as [w' k' tr|w' k' tr| | |]; cbn [aok] in AT; try contradiction.
    - destruct AT as (A1 & A2 & A3 & b & A4 & A5 & A6 & A7 & A8). cbn [proceed]. rewrite A5.
      rewrite (find_in_groups_some (b_id b) (w_bls w') b) by (auto; apply A2).
      assert (ORD : sticks w key (b_id b) \/ in_first w' (b_id b)).
      { destruct A8 as [(X & _ & Y)|X]; auto. rewrite X, Y. auto. }
      destruct (b_kind b) eqn:KD; [| contradiction |].
      + cbn [good_result]. split; [auto|]. exists b. rewrite KD. destruct A6 as (B1 & B2 & B3). auto 10.
      + cbn [good_result]. split; [auto|]. exists b. rewrite KD. cbn [k_backend k_be]. destruct A6. auto 10.
    - destruct AT as (A1 & A2 & A3 & A4). cbn [good_result]. split; [auto|]. destruct A4 as [A4|[A4 A5]]; [left; auto|].
      right. split; auto. rewrite PM. auto. }
  destruct (k_be k) as [x|] eqn:KB.
  - specialize (KO x KB). rewrite KO. cbn [same]. destruct (Z.eqb_spec x id) as [E|E].
    + subst x. cbn [proceed]. rewrite KO. destruct T1 as (b & I & J & K). 
      rewrite (find_in_groups_some id (w_bls w1) b) by (auto; apply O1).
      destruct (b_kind b) eqn:KD; [| congruence |].
      * cbn [good_result]. split; [apply MV; apply tried_nil; reflexivity|]. exists b. rewrite KD, J. auto 10.
      * cbn [good_result]. split; [apply MV; apply tried_nil; reflexivity|]. exists b. rewrite KD, J. cbn [k_backend k_be]. auto 10.
    + apply FIN. reflexivity.
  - apply FIN. auto.
Qed.
End Steady.
End Search.
