(** The two balancing algorithms, and histories. *)
From Coq Require Import List ZArith Bool Lia Permutation.
From Coq Require Import ZifyBool ZifyNat.
From Verif Require Import Bytes JobModel JobSpec BalModel BalSpec BalProofs BalHistProofs SessModel SessSpec SessProofs.
From Verif Require Import FailModel FailSpec FailProofs.
Import ListNotations.
Open Scope Z_scope.

Lemma kill_group : forall algo size bls id b, few size -> inv algo size bls ->
  find_in_groups id bls = Some b -> b_kind b = BE_REGULAR ->
  Forall2 (fun x y => l_bes y = map (cb_backend_disable id BE_KILL) (l_bes x)) bls (kill_be id BE_KILL bls).
Proof.
  intros algo size bls id b F I FB K. unfold kill_be. rewrite FB, K. clear FB K.
  destruct I as [_ G _ S]. unfold on_group.
  induction bls as [|bl bls IH]; [constructor|]. inversion G as [|? ? G1 G2]; subst.
  rewrite members_cons, app_length in S. cbn [map]. constructor; [|apply IH; auto; lia].
  destruct (has_id id bl) eqn:H.
  - destruct G1 as (_ & _ & _ & _ & SM).
    destruct (recompute_spec (cb_backend_disable id BE_KILL) bl) as (E & _); auto.
    + unfold small in *. rewrite Forall_forall in *. intros c Hc. apply in_map_iff in Hc.
      destruct Hc as (x & <- & Hd). rewrite cb_pri. auto.
    + unfold few in *. lia.
  - unfold has_id in H. destruct (find_be id (l_bes bl)) eqn:E; [discriminate|].
    apply find_be_none in E. rewrite <- (map_id (l_bes bl)) at 1. apply map_ext_in.
    intros c Hc. unfold cb_backend_disable. destruct (Z.eqb_spec (b_id c) id); [|reflexivity].
    exfalso. apply E. subst id. apply in_map. auto.
Qed.

Lemma f2_length : forall (A B : Type) (R : A -> B -> Prop) a b, Forall2 R a b -> length a = length b.
Proof. intros A B R a b H. induction H; cbn; auto. Qed.
Lemma f2_members_pri : forall id a b,
  Forall2 (fun x y => l_bes y = map (cb_backend_disable id BE_KILL) (l_bes x)) a b ->
  Forall (fun b => 1 <= b_pri b) (members a) -> Forall (fun b => 1 <= b_pri b) (members b).
Proof.
  intros id a b H. induction H as [|x y a b X H IH]; intros F; [constructor|].
  rewrite members_cons in *. apply Forall_app in F. destruct F as [F1 F2]. apply Forall_app. split; auto.
  rewrite X. rewrite Forall_forall in *. intros c Hc. apply in_map_iff in Hc. destruct Hc as (z & <- & Hz). rewrite cb_pri. auto.
Qed.
Lemma f2_members_len : forall id a b,
  Forall2 (fun x y => l_bes y = map (cb_backend_disable id BE_KILL) (l_bes x)) a b ->
  length (members a) = length (members b).
Proof.
  intros id a b H. induction H as [|x y a b X H IH]; [reflexivity|].
  rewrite !members_cons, !app_length, IH, X, map_length. reflexivity.
Qed.
Lemma all_pri_map : forall id m l, fold_right Z.add 0 (map b_pri (map (cb_backend_disable id m) l)) = fold_right Z.add 0 (map b_pri l).
Proof. intros. rewrite map_map. f_equal. apply map_ext. intros. apply cb_pri. Qed.

Lemma total_le_all : forall l, Forall (fun b => 1 <= b_pri b) l -> total_pri l <= fold_right Z.add 0 (map b_pri l).
Proof.
  induction l as [|a l IH]; intros F; [cbn; lia|]. inversion F; subst. specialize (IH H2). rewrite total_cons. cbn [map fold_right].
  destruct (usableb a); lia.
Qed.

Lemma groups_pri : forall bls bl, In bl bls -> Forall (fun b => 1 <= b_pri b) (members bls) -> Forall (fun b => 1 <= b_pri b) (l_bes bl).
Proof. intros bls bl I F. rewrite Forall_forall in *. intros b Ib. apply F. eapply member_group; eauto. Qed.

(** * The random algorithm *)
Definition Qrand (bls : list balancer) (rs : list Z) (m : nat) : Prop :=
  (m * length bls <= how_many big rs)%nat /\ Forall (fun b => 1 <= b_pri b) (members bls) /\
  Forall (fun bl => all_pri bl <= 2 ^ 30) bls.

Lemma svc_after : forall fuel bls rs k,
  (forall bl rs k, In bl bls -> (k < how_many big rs)%nat ->
     answers bl (balancer_select_backend fuel bl rs) /\ after k (balancer_select_backend fuel bl rs)) ->
  (k + length bls <= how_many big rs)%nat ->
  match service_lb_select_backend fuel bls rs with
  | Picked _ (_, rs') | NoBackend (_, rs') => (k <= how_many big rs')%nat
  | _ => True
  end.
Proof.
  induction bls as [|bl bls IH]; intros rs k H L; cbn [service_lb_select_backend]; [cbn in L; lia|].
  cbn [length] in L. destruct (H bl rs (k + length bls)%nat (or_introl eq_refl) ltac:(lia)) as [A B].
  destruct (balancer_select_backend fuel bl rs) as [b [bl' rs']|[bl' rs']| |]; cbn [answers after] in *; try contradiction.
  - lia.
  - specialize (IH rs' k ltac:(intros; apply H; cbn; auto) B).
    destruct (service_lb_select_backend fuel bls rs') as [b [r2 rs2]|[r2 rs2]| |]; auto.
Qed.

Lemma rand_select_ok : forall size fuel bls rs m, inv ALGO_RANDOM size bls -> Qrand bls rs (S m) ->
  svc_answers bls (service_lb_select_backend fuel bls rs) /\
  match service_lb_select_backend fuel bls rs with
  | Picked _ (bls', rs') | NoBackend (bls', rs') => Qrand bls' rs' m
  | _ => True
  end.
Proof.
  intros size fuel bls rs m I (R & P & T). 
  assert (GR : forall bl rs k, In bl bls -> (k < how_many big rs)%nat ->
     answers bl (balancer_select_backend fuel bl rs) /\ after k (balancer_select_backend fuel bl rs)).
  { intros bl rs0 k Ib K. destruct I as [N G _ _]. pose proof (groups_pri _ _ Ib P) as PG. rewrite Forall_forall in G, T.
    destruct (G bl Ib) as ((_ & A) & AL & _ & NE & S). rewrite AL in A.
    apply random_group; auto.
    - eapply Forall_impl; [|exact PG]. cbn. auto.
    - specialize (T bl Ib). pose proof (total_le_all _ PG). unfold all_pri in T. lia. }
  split; [apply svc_select; auto; lia|].
  pose proof (svc_after fuel bls rs (m * length bls) GR) as SA.
  pose proof (svc_same ALGO_RANDOM fuel bls rs (i_groups _ _ _ I)) as SS.
  destruct (service_lb_select_backend fuel bls rs) as [b [r2 rs2]|[r2 rs2]| |]; auto; destruct SS as [PA GO];
    (unfold Qrand; rewrite <- (f2_length _ _ _ _ _ PA), <- (parallel_members _ _ PA); split; [apply SA; lia|split; [auto|]];
     clear -PA T; induction PA as [|x y a b X PA IH]; constructor; inversion T; subst; auto;
     destruct X as (_ & _ & _ & X & _); unfold all_pri in *; rewrite <- X; auto).
Qed.

Lemma rand_kill_ok : forall size bls rs m id b, few size -> inv ALGO_RANDOM size bls -> Qrand bls rs m ->
  find_in_groups id bls = Some b -> b_kind b = BE_REGULAR -> Qrand (kill_be id BE_KILL bls) rs m.
Proof.
  intros size bls rs m id b F I (R & P & T) FB K. pose proof (kill_group _ _ _ _ _ F I FB K) as KG.
  unfold Qrand. rewrite <- (f2_length _ _ _ _ _ KG). split; [auto|]. split; [eapply f2_members_pri; eauto|].
  clear -KG T. induction KG as [|x y a b X PA IH]; constructor; inversion T; subst; auto.
  unfold all_pri in *. rewrite X, all_pri_map. auto.
Qed.

(** * Round robin *)
Definition survivor (d : Z -> dial) (b : backend) : Prop := usable b /\ (b_kind b = BE_REGULAR -> d (b_id b) <> Refused).
Definition Qrr (fuel : nat) (d : Z -> dial) (bls : list balancer) (rs : list Z) (m : nat) : Prop :=
  Forall (fun b => 1 <= b_pri b) (members bls) /\
  Forall (fun bl => length (l_bes bl) = 1%nat \/ exists b, In b (l_bes bl) /\ survivor d b) bls /\
  (Z.to_nat 65537 * length (members bls) <= fuel)%nat.

Lemma rr_select_ok : forall size fuel d bls rs m, inv ALGO_IWRR size bls -> Qrr fuel d bls rs (S m) ->
  svc_answers bls (service_lb_select_backend fuel bls rs) /\
  match service_lb_select_backend fuel bls rs with
  | Picked _ (bls', rs') | NoBackend (bls', rs') => Qrr fuel d bls' rs' m
  | _ => True
  end.
Proof.
  intros size fuel d bls rs m I (P & T & FU). split.
  - apply iwrr_svc. intros bl Ib rs0. destruct I as [N G _ _]. pose proof (groups_pri _ _ Ib P) as PG. rewrite Forall_forall in G, T.
    destruct (G bl Ib) as ((_ & A) & AL & GP & NE & S). rewrite AL in A.
    apply iwrr_group_any; auto.
    + eapply nodup_group; eauto.
    + eapply Forall_impl; [|exact PG]. cbn. auto.
    + destruct (T bl Ib) as [X|(b & Ib' & U & _)]; auto. left. exists b. auto.
    + eapply Nat.le_trans; [|exact FU]. apply Nat.mul_le_mono.
      * rewrite A. pose proof (small_top _ S). lia.
      * apply group_len. auto.
  - pose proof (svc_same ALGO_IWRR fuel bls rs (i_groups _ _ _ I)) as SS.
    destruct (service_lb_select_backend fuel bls rs) as [b [r2 rs2]|[r2 rs2]| |]; auto; destruct SS as [PA GO];
    (unfold Qrr; rewrite <- (parallel_members _ _ PA); split; [auto|split; [|auto]];
     clear -PA T; induction PA as [|x y a b X PA IH]; constructor; inversion T; subst; auto;
     destruct X as (_ & _ & _ & X & _); rewrite <- X; auto).
Qed.

Lemma rr_kill_ok : forall size fuel d bls rs m id b, few size -> inv ALGO_IWRR size bls -> Qrr fuel d bls rs m ->
  d id = Refused -> find_in_groups id bls = Some b -> b_kind b = BE_REGULAR -> Qrr fuel d (kill_be id BE_KILL bls) rs m.
Proof.
  intros size fuel d bls rs m id b F I (P & T & FU) DI FB K. pose proof (kill_group _ _ _ _ _ F I FB K) as KG.
  unfold Qrr. rewrite <- (f2_members_len _ _ _ KG). split; [eapply f2_members_pri; eauto|]. split; [|auto].
  destruct (find_groups_in _ _ _ FB) as [IB JB]. pose proof (i_nodup _ _ _ I) as N. 
  assert (SV : forall c, In c (members bls) -> survivor d c -> cb_backend_disable id BE_KILL c = c).
  { intros c Ic [U S]. unfold cb_backend_disable. destruct (Z.eqb_spec (b_id c) id) as [E|E]; [|reflexivity].
    assert (c = b) by (eapply same_id_same; eauto; congruence). subst c. exfalso. apply (S K). congruence. }
  clear -KG T SV. induction KG as [|x y a b X PA IH]; constructor; inversion T as [|? ? T1 T2]; subst.
  - destruct T1 as [T1|(c & Ic & S)]; [left; rewrite X, map_length; auto|]. right. exists c. split; [|auto].
    rewrite X. apply in_map_iff. exists c. split; auto. apply SV; auto. rewrite members_cons. apply in_or_app. auto.
  - apply IH; auto. intros c Ic. apply SV. rewrite members_cons. apply in_or_app. auto.
Qed.

(** * Histories *)
Lemma svc_picked : forall algo fuel bls rs, Forall (gok algo) bls ->
  match service_lb_select_backend fuel bls rs with
  | Picked b _ => In b (members bls) /\ usable b
  | _ => True
  end.
Proof.
  intros algo fuel bls rs G. revert rs. induction bls as [|bl bls IH]; intros rs; cbn [service_lb_select_backend]; auto.
  inversion G as [|? ? G1 G2]; subst. specialize (IH G2).
  assert (B : match balancer_select_backend fuel bl rs with Picked b _ => In b (l_bes bl) /\ usable b | _ => True end).
  { unfold balancer_select_backend. destruct (l_bes bl) as [|b0 [|b1 bs]] eqn:LB; auto.
    - rewrite active_usable. destruct (usableb b0) eqn:U; cbn; auto.
    - rewrite <- LB. destruct (l_algo bl).
      + unfold rand_select. rewrite LB. rewrite <- LB. destruct (random_in_range _ _) as [[v r]|]; auto.
        destruct (rand_walk v (l_bes bl)) eqn:W; auto. eapply rand_walk_in; eauto.
      + assert (L : forall f x, l_bes x = l_bes bl -> match iwrr_loop f x with Picked b _ => In b (l_bes bl) /\ usable b | _ => True end).
        { clear. induction f as [|f IH]; intros x E; cbn [iwrr_loop]; auto. destruct (l_cur x) as [id|]; auto.
          unfold iwrr_step. destruct (find_be id (l_bes x)) as [c|] eqn:FB; auto. apply find_be_in in FB.
          rewrite active_usable. destruct (usableb c && (l_round x <? b_pri c)) eqn:U.
          - apply andb_prop in U. rewrite <- E. destruct (next_id id (l_bes x)); split; tauto.
          - destruct (next_id id (l_bes x)); apply IH; auto. }
        unfold iwrr_select. destruct (l_cur bl).
        * pose proof (L fuel bl eq_refl) as X. destruct (iwrr_loop fuel bl); auto.
        * destruct (l_cur (iwrr_init bl)); auto. pose proof (L fuel (iwrr_init bl) eq_refl) as X.
          destruct (iwrr_loop fuel (iwrr_init bl)); auto. }
  destruct (balancer_select_backend fuel bl rs) as [b [bl' rs']|[bl' rs']| |]; auto.
  - rewrite members_cons. split; [apply in_or_app|]; tauto.
  - specialize (IH rs'). destruct (service_lb_select_backend fuel bls rs') as [b [r2 rs2]|[r2 rs2]| |]; auto.
    rewrite members_cons. split; [apply in_or_app|]; tauto.
Qed.

Section Hist.
Variables (algo : balancer_algo) (size fuel : nat) (ttl : Z).
Hypothesis FEW : few size.

Definition gwok (r : got) : Prop :=
  match r with Got id w _ => wok algo size w /\ target w id | GotNone w _ => wok algo size w | _ => True end.

Lemma lb_wok : forall w rs, wok algo size w -> gwok (lb_select fuel w rs).
Proof.
  intros w rs [B S T]. unfold lb_select. pose proof (svc_same algo fuel (w_bls w) rs (i_groups _ _ _ B)) as P.
  pose proof (svc_picked algo fuel (w_bls w) rs (i_groups _ _ _ B)) as PK.
  destruct (service_lb_select_backend fuel (w_bls w) rs) as [b [bls rs']|[bls rs']| |]; cbn [gwok]; auto; destruct P as [P G].
  - assert (O : wok algo size (mkW bls (w_sess w))).
    { constructor; cbn [w_bls w_sess]; auto; [eapply parallel_inv; eauto|].
      intros kk x e V. eapply target_members; [|eapply T; eauto]. cbn. apply parallel_members; auto. }
    split; auto. destruct PK as [I U]. exists b. cbn [w_bls]. rewrite <- (parallel_members _ _ P). repeat split; auto.
    intros X. unfold usable, usableb in U. rewrite X, andb_false_r in U. discriminate.
  - constructor; cbn [w_bls w_sess]; auto; [eapply parallel_inv; eauto|].
    intros kk x e V. eapply target_members; [|eapply T; eauto]. cbn. apply parallel_members; auto.
Qed.

Lemma add_wok : forall w k b now, wok algo size w -> target w b -> ts_ok now ->
  wok algo size (mkW (w_bls w) (service_session_add ttl k b now (w_sess w))).
Proof.
  intros w k b now [B S T] TG N. constructor; cbn [w_bls w_sess]; auto; [apply add_inv; auto|].
  intros kk x e V. rewrite add_view in V by auto. destruct (bytes_eqb k kk); [injection V as <- _; exact TG|]. eapply T; eauto.
Qed.
Lemma promote_wok : forall w s now, wok algo size w -> In s (t_list (w_sess w)) -> ts_ok now ->
  wok algo size (mkW (w_bls w) (service_session_promote ttl now s (w_sess w))) /\ target w (s_be s).
Proof.
  intros w s now [B S T] I N.
  assert (TG : target w (s_be s)).
  { apply (T (s_key s) _ (ns (s_exp s))). unfold view. rewrite (fk_in _ _ (v_keys _ S) I). reflexivity. }
  split; [|exact TG]. constructor; cbn [w_bls w_sess]; auto; [apply promote_inv; auto|].
  intros kk x e V. rewrite promote_view in V by auto. destruct (bytes_eqb (s_key s) kk); [injection V as <- _; exact TG|]. eapply T; eauto.
Qed.

Lemma get_wok : forall key now w rs, wok algo size w -> ts_ok now -> gwok (get_backend fuel ttl key now w rs).
Proof.
  intros key now w rs O N. unfold get_backend. destruct (service_has_backends (w_bls w)); [|cbn; auto].
  destruct key as [key|]; [|apply lb_wok; auto].
  assert (X : gwok (by_key fuel ttl key now w rs)).
  { unfold by_key. destruct (fk (firstn KEY_SIZE key) (t_list (w_sess w))) as [s|] eqn:F.
    - rewrite (find_found _ _ _ _ _ (o_sess _ _ _ O) F). destruct (fk_some _ _ _ F) as [I _].
      destruct (promote_wok w s now O I N). cbn. split; auto.
    - rewrite (find_absent _ _ _ _ (o_sess _ _ _ O) F). replace (mkW (w_bls w) (w_sess w)) with w by (destruct w; reflexivity).
      pose proof (lb_wok w rs O) as L. destruct (lb_select fuel w rs); cbn [gwok] in *; auto.
      destruct L as [L1 L2]. split; [apply add_wok; auto|auto]. }
  destruct (by_key fuel ttl key now w rs); cbn [gwok] in *; auto. apply lb_wok. auto.
Qed.

Definition rwok (r : result) : Prop :=
  match r with Chosen w _ _ | Unavailable w _ _ => wok algo size w | _ => True end.

Lemma attempts_wok : forall key e n i k id w rs, quiet e -> clock e -> wok algo size w ->
  rwok (attempts n fuel ttl key e i k id w rs).
Proof.
  intros key e n. induction n as [|n IH]; intros i k id w rs QE CE O; cbn [attempts]; [exact I|].
  destruct (find_in_groups id (w_bls w)) as [b|] eqn:FB; [|exact I].
  destruct (b_kind b) eqn:KD; try (cbn; auto; fail). destruct (e_dial e i id); try (cbn; auto; fail).
  rewrite (proj1 QE). destruct (find_groups_in _ _ _ FB) as [IB JB]. subst id.
  destruct (kill_ok algo size FEW w b O IB KD) as (w1 & -> & O1 & _). rewrite (proj2 QE).
  pose proof (get_wok key (e_now e (S i)) w1 rs O1 (CE _)) as G.
  destruct (get_backend fuel ttl key (e_now e (S i)) w1 rs) as [id2 w2 rs2|w2 rs2| |]; cbn [gwok] in G; cbn [add_events rwok]; auto.
  destruct G as [G _]. specialize (IH (S i) k id2 w2 rs2 QE CE G). destruct (attempts n fuel ttl key e (S i) k id2 w2 rs2); auto.
Qed.

Lemma give_wok : forall n key e k w rs, quiet e -> clock e -> wok algo size w -> rwok (give_request n fuel ttl key e k w rs).
Proof.
  intros n key e k w rs QE CE O. unfold give_request, select_backend. pose proof (get_wok key (e_now e 0) w rs O (CE _)) as G.
  assert (FIN : forall r, rwok r -> rwok (proceed r)).
  { intros r R. destruct r as [w' k' tr| | | |]; auto. cbn [proceed]. destruct (k_backend k'); [|exact I]. destruct (find_in_groups _ _) as [b|]; [|exact I].
    destruct (b_kind b); auto. exact I. }
  destruct (get_backend fuel ttl key (e_now e 0) w rs) as [id w1 rs1|w1 rs1| |]; cbn [gwok] in G; auto; try exact I.
  destruct G as [G _]. apply FIN. destruct (k_be k); [|apply attempts_wok; auto]. destruct (same (k_backend k) id); [exact G|apply attempts_wok; auto].
Qed.
End Hist.

Lemma wok_weaken : forall algo j k w, wok algo j w -> (j <= k)%nat -> wok algo k w.
Proof. intros algo j k w [B S T] L. constructor; auto. eapply inv_weaken; eauto. Qed.


(* the backends of a service and their types survive an operation *)
Definition keeps_kinds (l l' : list backend) : Prop :=
  forall b, In b l -> exists c, In c l' /\ b_id c = b_id b /\ b_kind c = b_kind b.

Lemma keeps_refl : forall l, keeps_kinds l l.
Proof. intros l b I. exists b. auto. Qed.
Lemma keeps_map : forall f l, (forall b, b_id (f b) = b_id b) -> (forall b, b_kind (f b) = b_kind b) -> keeps_kinds l (map f l).
Proof. intros f l A B b I. exists (f b). split; [apply in_map; exact I|split; auto]. Qed.
Lemma keeps_target : forall w w', keeps_kinds (members (w_bls w)) (members (w_bls w')) -> forall b, target w b -> target w' b.
Proof. intros w w' K b (c & I & J & N). destruct (K c I) as (d & X & Y & Z). exists d. repeat split; auto; congruence. Qed.

Lemma set_pri_members : forall algo k bls id p, few k -> inv algo k bls -> 0 <= p <= 65535 ->
  members (dyn_set_pri id p bls) = map (fun c => if b_id c =? id then set_pri c p else c) (members bls).
Proof.
  intros algo k bls id p F [N G W S] P. unfold dyn_set_pri. rewrite <- on_group_members.
  assert (Q : forall l, Forall (gok algo) l -> (length (members l) <= k)%nat ->
    members (map (balancer_recompute_pri (fun b => b)) (on_group id (map_be id (fun b => set_pri b p)) l))
    = members (on_group id (map_be id (fun b => set_pri b p)) l)).
  { clear - F P. induction l as [|bl l IH]; intros G L; [reflexivity|]. inversion G as [|? ? Gb Gr]; subst.
    unfold on_group in *. cbn [map]. rewrite members_cons, app_length in L. rewrite !members_cons. rewrite IH by (auto; lia). f_equal.
    destruct Gb as (_ & _ & _ & _ & ZS).
    set (g := if has_id id bl then map_be id (fun b => set_pri b p) bl else bl).
    assert (SM : small (l_bes g) /\ length (l_bes g) = length (l_bes bl)).
    { unfold g. destruct (has_id id bl); [|auto]. cbn [map_be set_bes l_bes]. rewrite map_length. split; [|reflexivity].
      unfold small in *. rewrite Forall_forall in *. intros b Hb. apply in_map_iff in Hb. destruct Hb as (c & <- & Hc).
      destruct (b_id c =? id); [exact P|auto]. }
    destruct SM as [SM LG].
    destruct (recompute_spec (fun b => b) g) as (E & _); [rewrite map_id; exact SM|unfold few in *; lia|]. rewrite E. apply map_id. }
  apply Q; auto.
Qed.

Lemma bstep_keeps : forall algo k bls o, few (S k) -> inv algo k bls -> op_ok bls o -> (forall id, o <> ORemove id) ->
  keeps_kinds (members bls) (members (bstep algo bls o)).
Proof.
  intros algo k bls o F I OP NR. assert (F' : few k) by (unfold few in *; lia).
  destruct o as [id m|id|id|id|w be|id|id p]; cbn [bstep op_ok] in *; try contradiction.
  - destruct (find_in_groups id bls) as [b|] eqn:FB; [|unfold kill_be; rewrite FB; apply keeps_refl].
    destruct (b_kind b) eqn:K; try (unfold kill_be; rewrite FB, K; apply keeps_refl; fail).
    rewrite (kill_members algo k bls id m b); auto. apply keeps_map; [apply cb_id|].
    intros c. unfold cb_backend_disable. destruct (b_id c =? id); [|reflexivity]. destruct m; reflexivity.
  - destruct (find_in_groups id bls) as [b|] eqn:FB; [|unfold touch_be, touch_mark; rewrite FB; apply keeps_refl].
    destruct (b_kind b) eqn:K; try (unfold touch_be, touch_mark; rewrite FB, K; apply keeps_refl; fail).
    rewrite (touch_members bls id b); auto; [|apply I]. apply keeps_map; intros c; destruct (b_id c =? id); reflexivity.
  - destruct OP as [NB P]. pose proof I as [N G W Sz].
    destruct (add_split bls w algo be W) as (pre & g & post & Q & _ & E & WG & D). rewrite E.
    assert (GG : small (l_bes g) /\ (length (l_bes g) <= k)%nat).
    { destruct D as [->|[-> ->]]; [|cbn; split; [constructor|lia]]. apply Forall_split3 in G. destruct G as (_ & G2 & _).
      split; [apply G2|]. eapply (inv_few algo k _ g I). apply in_or_app; cbn; auto. }
    destruct GG as [GS LG].
    assert (E1 : l_bes (balancer_recompute_pri (fun b => b) (set_bes g (l_bes g ++ [be]))) = l_bes g ++ [be]).
    { destruct (recompute_spec (fun b => b) (set_bes g (l_bes g ++ [be]))) as (E1 & _).
      - rewrite map_id. cbn. apply Forall_app. split; auto.
      - cbn. rewrite app_length. cbn. unfold few in *. lia.
      - rewrite E1. apply map_id. }
    assert (PM : Permutation (members (pre ++ balancer_recompute_pri (fun b => b) (set_bes g (l_bes g ++ [be])) :: post)) (be :: members bls)).
    { rewrite members_app, members_cons, E1. apply members_add. destruct D as [->|[-> ->]]; auto. }
    intros c Ic. exists c. split; [|auto]. apply (Permutation_in c (Permutation_sym PM)). right. exact Ic.
  - exfalso. apply (NR id). reflexivity.
  - rewrite (set_pri_members algo k); auto. apply keeps_map; intros c; destruct (b_id c =? id); reflexivity.
Qed.

Lemma expire_sub : forall T t k x, sinv t -> view (expire_sessions T t) k = Some x -> view t k = Some x.
Proof.
  intros T t k x V. unfold view, expire_sessions. destruct (expire_split T (t_list t) (t_hash t)) as (d & r & EL & -> & _). cbn [t_list].
  destruct (fk k r) as [s|] eqn:FR; [|discriminate]. intros H. destruct (fk_some _ _ _ FR) as [I K].
  assert (X : fk k (t_list t) = Some s). { rewrite <- K. apply fk_in; [apply V|]. rewrite EL. apply in_or_app. auto. }
  rewrite X. exact H.
Qed.

Lemma wstep_wok : forall algo fuel ttl k w o w', few (S k) -> wok algo k w -> wop_ok w o ->
  wstep algo fuel ttl w o = Some w' -> wok algo (S k) w'.
Proof.
  intros algo fuel ttl k w o w' F O OP. assert (F' : few k) by (unfold few in *; lia).
  assert (WK : forall x, wok algo k x -> wok algo (S k) x) by (intros; eapply wok_weaken; eauto).
  assert (GB : forall o, op_ok (w_bls w) o -> (forall id, o <> ORemove id) -> wok algo (S k) (mkW (bstep algo (w_bls w) o) (w_sess w))).
  { intros o0 OP0 NR. pose proof O as [B S0 T]. constructor; cbn [w_bls w_sess]; auto; [apply inv_step; auto|].
    intros kk b e V. eapply keeps_target; [|eapply T; eauto]. cbn [w_bls]. eapply bstep_keeps; eauto. }
  assert (GS : forall x, wok algo (S k) x -> Some x = Some w' -> wok algo (S k) w') by (intros x X Y; congruence).
  destruct o as [o|o|n key e c rs].
  - destruct o as [id m|id|id|id|wt be|id|id p]; cbn [wop_ok op_ok] in OP; try contradiction; unfold wstep.
    + destruct m; try (apply GS, GB; [exact I|congruence]). intros E.
      assert (E1 : w' = match kill id w with Some w' => w' | None => w end) by congruence. clear E. subst w'.
      destruct (find_in_groups id (w_bls w)) as [b|] eqn:FB; [|unfold kill; rewrite FB; auto].
      destruct (find_groups_in _ _ _ FB) as [IB JB]. subst id.
      destruct (b_kind b) eqn:K; try (unfold kill; rewrite FB, K; auto; fail).
      destruct (kill_ok algo k F' w b O IB K) as (w1 & -> & O1 & _). auto.
    + apply GS, GB; [exact I|congruence].
    + apply GS, GB; [exact OP|congruence].
    + intros E. assert (E1 : w' = mkW (dyn_remove id (w_bls w)) (service_session_remove_by_backend id (w_sess w))) by congruence.
      clear E. subst w'. apply WK. pose proof O as [B S0 T]. destruct (inv_remove_members algo k (w_bls w) id F' B) as [A M].
      constructor; cbn [w_bls w_sess]; auto; [apply kill_inv; auto|]. intros kk b e V. rewrite kill_view in V by auto.
      destruct (view (w_sess w) kk) as [[b0 e0]|] eqn:V0; [|discriminate]. destruct (Z.eqb_spec b0 id); [discriminate|]. injection V as <- <-.
      destruct (T _ _ _ V0) as (c & Ic & Jc & Kc). exists c. cbn [w_bls]. rewrite M. split; [|auto]. apply filter_In. split; [exact Ic|].
      rewrite Jc. destruct (Z.eqb_spec b0 id); [contradiction|reflexivity].
    + apply GS, GB; [exact OP|congruence].
  - cbn [wstep]. intros E. assert (E1 : w' = mkW (w_bls w) (fst (sstep ttl (w_sess w) o))) by congruence. clear E. subst w'. apply WK.
    destruct o as [kk now ch|kk be now|kk be now|kk|be|T]; cbn [wop_ok] in OP; try contradiction; cbn [sstep fst].
    + destruct OP as [TG N]. unfold upd_session. destruct (fk kk (t_list (w_sess w))) as [s|] eqn:FK.
      * rewrite (find_found _ _ _ _ _ (o_sess _ _ _ O) FK). destruct (fk_some _ _ _ FK) as [Is _]. apply promote_wok; auto.
      * rewrite (find_absent _ _ _ _ (o_sess _ _ _ O) FK). apply add_wok; auto.
    + destruct OP as [TG N]. apply add_wok; auto.
    + pose proof O as [B S0 T]. constructor; cbn [w_bls w_sess]; auto; [apply del_inv; auto|]. intros k2 b e V. rewrite del_view in V by auto.
      destruct (bytes_eqb kk k2); [discriminate|]. apply (T _ _ _ V).
    + pose proof O as [B S0 T0]. constructor; cbn [w_bls w_sess]; auto; [apply expire_inv; auto|]. intros k2 b e V.
      apply expire_sub in V; auto. apply (T0 _ _ _ V).
  - cbn [wop_ok wstep] in *. destruct OP as [QE CE]. pose proof (give_wok algo k fuel ttl F' n key e c w rs QE CE O) as R.
    destruct (give_request n fuel ttl key e c w rs); cbn [rwok] in R; intros E; try discriminate; injection E as <-; auto.
Qed.

Lemma wrun_wok : forall algo fuel ttl os k w w', few (length os + k) -> wok algo k w -> wops_ok algo fuel ttl w os ->
  wrun algo fuel ttl w os = Some w' -> wok algo (length os + k) w'.
Proof.
  intros algo fuel ttl os. induction os as [|o os IH]; intros k w w' F O OK R; cbn [wrun length wops_ok] in *.
  - injection R as <-. exact O.
  - destruct OK as [O1 O2]. destruct (wstep algo fuel ttl w o) as [w1|] eqn:E; [|discriminate].
    replace (S (length os) + k)%nat with (length os + S k)%nat by lia. eapply IH; eauto.
    + unfold few in *. lia.
    + eapply wstep_wok; eauto. unfold few in *. lia.
Qed.

Lemma reachable_wok : forall algo ttl w, reachable algo ttl w -> exists size, few size /\ wok algo size w.
Proof.
  intros algo ttl w (fuel & l & os & C & F & OK & R). exists (length os + length l)%nat. split; [exact F|].
  eapply wrun_wok; eauto. assert (FL : few (length l)) by (unfold few in *; lia).
  destruct (inv_configured algo l C FL) as [I _]. constructor; cbn [wstart w_bls w_sess]; [exact I|apply sinv_new|].
  intros kk b e V. discriminate.
Qed.

(** * The course of a search *)
Definition course_at (e : env) (i : nat) (k : conn) (r : result) : Prop :=
  match r with
  | Chosen w' k' tr =>
      exists ids fin, tr = giving_up ids ++ fin /\
        (forall j x, nth_error ids j = Some x -> e_dial e (i + j) x = Refused) /\
        ((exists x, fin = [Dial x Opened] /\ e_dial e (i + length ids) x = Opened /\ k' = mkK (Some x) (Some x) /\
            exists b, find_in_groups x (w_bls w') = Some b /\ b_kind b = BE_REGULAR) \/
         fin = [] /\ k_be k' = k_be k)
  | Unavailable w' k' tr =>
      exists ids fin, tr = giving_up ids ++ fin /\
        (forall j x, nth_error ids j = Some x -> e_dial e (i + j) x = Refused) /\
        (fin = [] \/ exists x y, fin = [Dial x y] /\ e_dial e (i + length ids) x = y /\
                       (y = BadFamily \/ y = NoSocket \/ y = NotOpened))
  | _ => True
  end.

Lemma nth_nil : forall A j (x : A), nth_error [] j = Some x -> False.
Proof. intros A [|j] x H; discriminate. Qed.

Lemma attempts_course : forall fuel ttl key e n i k id w rs, course_at e i k (attempts n fuel ttl key e i k id w rs).
Proof.
  intros fuel ttl key e n. induction n as [|n IH]; intros i k id w rs; cbn [attempts]; [exact I|].
  destruct (find_in_groups id (w_bls w)) as [b|] eqn:FB; [|exact I].
  assert (FAIL : forall d w' k', e_dial e i id = d -> (d = BadFamily \/ d = NoSocket \/ d = NotOpened) ->
     course_at e i k (Unavailable w' k' [Dial id d])).
  { intros d w' k' E D. exists [], [Dial id d]. split; [reflexivity|]. split; [intros j x H; destruct (nth_nil _ _ _ H)|].
    right. exists id, d. cbn [length]. rewrite Nat.add_0_r. auto. }
  assert (OTH : course_at e i k (Chosen w (mkK (k_be k) (Some id)) [])).
  { exists [], []. split; [reflexivity|]. split; [intros j x H; destruct (nth_nil _ _ _ H)|]. right. auto. }
  destruct (b_kind b) eqn:KD; [|exact OTH|exact OTH].
  destruct (e_dial e i id) eqn:DL; try (apply FAIL; auto).
  - destruct (kill id (e_pick e i w)) as [w1|]; [|exact I].
    assert (EXT : forall r, course_at e (S i) k r -> course_at e i k (add_events [Dial id Refused; Kill id] r)).
    { intros r R. destruct r as [w' k' tr|w' k' tr| | |]; cbn [add_events course_at] in *; auto.
      - destruct R as (ids & fin & -> & A & B). exists (id :: ids), fin. split; [reflexivity|]. split.
        + intros [|j] x H; cbn in H; [injection H as <-; rewrite Nat.add_0_r; exact DL|].
          rewrite Nat.add_succ_r. exact (A j x H).
        + cbn [length]. rewrite Nat.add_succ_r. exact B.
      - destruct R as (ids & fin & -> & A & B). exists (id :: ids), fin. split; [reflexivity|]. split.
        + intros [|j] x H; cbn in H; [injection H as <-; rewrite Nat.add_0_r; exact DL|].
          rewrite Nat.add_succ_r. exact (A j x H).
        + cbn [length]. rewrite Nat.add_succ_r. exact B. }
    apply EXT. destruct (get_backend fuel ttl key (e_now e (S i)) (e_fail e i w1) rs) as [id2 w2 rs2|w2 rs2| |]; try exact I; [apply IH|].
    exists [], []. split; [reflexivity|]. split; [intros j x H; destruct (nth_nil _ _ _ H)|auto].
  - exists [], [Dial id Opened]. split; [reflexivity|]. split; [intros j x H; destruct (nth_nil _ _ _ H)|].
    left. exists id. cbn [length]. rewrite Nat.add_0_r. eauto 10.
Qed.

Lemma give_course : forall n fuel ttl key e k w rs, course e k (give_request n fuel ttl key e k w rs).
Proof.
  intros n fuel ttl key e k w rs. unfold give_request, select_backend.
  assert (FIN : forall r k0, course_at e 0 k0 r -> k_be k0 = None -> course e k (proceed r)).
  { intros r k0 R K0. destruct r as [w' k' tr| | | |]; auto.
    destruct R as (ids & fin & E & A & [(x & F & D & K & b & FB & KD)|[F B]]).
    - cbn [proceed]. rewrite K. cbn [k_backend]. rewrite FB, KD. exists ids, fin. split; [exact E|]. split; [exact A|].
      left. exists x. auto.
    - cbn [proceed]. assert (N : k_be k' = None) by congruence.
      assert (C : forall k2, k_be k2 = None -> course e k (Chosen w' k2 tr)).
      { intros k2 N2. exists ids, fin. split; [exact E|]. split; [exact A|]. right. auto. }
      destruct (k_backend k'); [|exact I]. destruct (find_in_groups _ _) as [b|]; [|exact I]. destruct (b_kind b); auto; exact I. }
  destruct (get_backend fuel ttl key (e_now e 0) w rs) as [id w1 rs1|w1 rs1| |]; try exact I.
  2:{ exists [], []. split; [reflexivity|]. split; [intros j x H; destruct (nth_nil _ _ _ H)|auto]. }
  destruct (k_be k) as [x|] eqn:KB; [|apply (FIN _ k); [apply attempts_course|auto]].
  destruct (same (k_backend k) id); [|apply (FIN _ (mkK None (k_backend k))); [apply attempts_course|auto]].
  cbn [proceed]. assert (C : forall k2, k_be k2 = None \/ k2 = k -> course e k (Chosen w1 k2 [])).
  { intros k2 N2. exists [], []. split; [reflexivity|]. split; [intros j y H; destruct (nth_nil _ _ _ H)|]. right.
    split; [reflexivity|]. tauto. }
  destruct (k_backend k); [|exact I]. destruct (find_in_groups _ _) as [b|]; [|exact I]. destruct (b_kind b); auto; exact I.
Qed.

(** * The theorems *)
Lemma random_result : forall ttl w d key e k rs n fuel, reachable ALGO_RANDOM ttl w ->
  quiet e -> steady e d -> clock e -> conn_ok k ->
  Forall (fun b => 1 <= b_pri b) (members (w_bls w)) -> Forall (fun bl => all_pri bl <= 2 ^ 30) (w_bls w) ->
  (length (members (w_bls w)) <= n)%nat ->
  ((2 * n + 2) * length (w_bls w) <= how_many (fun r => Z.leb (2 ^ 30) r) rs)%nat ->
  good_result d key k w (give_request n fuel ttl key e k w rs).
Proof.
  intros ttl w d key e k rs n fuel R QE SE CE CK P T L B. destruct (reachable_wok _ _ _ R) as (size & F & O).
  apply (give_ok ALGO_RANDOM size fuel ttl F Qrand (fun _ => True)); auto.
  - intros bls rs0 m I HQ. eapply rand_select_ok; eauto.
  - intros bls rs0 m id b I HQ _ FB K. eapply rand_kill_ok; eauto.
  - intros bls rs0 m (A1 & A2). split; auto. lia.
  - split; auto.
Qed.

Lemma iwrr_result : forall ttl w d key e k rs n fuel, reachable ALGO_IWRR ttl w ->
  quiet e -> steady e d -> clock e -> conn_ok k ->
  Forall (fun b => 1 <= b_pri b) (members (w_bls w)) ->
  Forall (fun bl => length (l_bes bl) = 1%nat \/
            exists b, In b (l_bes bl) /\ usable b /\ (b_kind b = BE_REGULAR -> d (b_id b) <> Refused)) (w_bls w) ->
  (length (members (w_bls w)) <= n)%nat ->
  (Z.to_nat 65537 * length (members (w_bls w)) <= fuel)%nat ->
  good_result d key k w (give_request n fuel ttl key e k w rs).
Proof.
  intros ttl w d key e k rs n fuel R QE SE CE CK P T L B. destruct (reachable_wok _ _ _ R) as (size & F & O).
  apply (give_ok ALGO_IWRR size fuel ttl F (Qrr fuel d) (fun x => d x = Refused)); auto.
  - intros bls rs0 m I HQ. eapply rr_select_ok; eauto.
  - intros bls rs0 m id b I HQ DI FB K. eapply rr_kill_ok; eauto.
  - split; auto.
Qed.

Lemma random_finds : forall ttl w d key e k rs n fuel, reachable ALGO_RANDOM ttl w ->
  quiet e -> steady e d -> clock e -> conn_ok k ->
  Forall (fun b => 1 <= b_pri b) (members (w_bls w)) -> Forall (fun bl => all_pri bl <= 2 ^ 30) (w_bls w) ->
  (length (members (w_bls w)) <= n)%nat ->
  ((2 * n + 2) * length (w_bls w) <= how_many (fun r => Z.leb (2 ^ 30) r) rs)%nat ->
  (forall x, d x = Refused \/ d x = Opened) ->
  (exists b, In b (members (w_bls w)) /\ usable b /\ (b_kind b = BE_REGULAR -> d (b_id b) = Opened)) ->
  exists w' k' tr, give_request n fuel ttl key e k w rs = Chosen w' k' tr.
Proof.
  intros ttl w d key e k rs n fuel R QE SE CE CK P T L B DD (b & IB & UB & KB).
  pose proof (random_result ttl w d key e k rs n fuel R QE SE CE CK P T L B) as G.
  destruct (give_request n fuel ttl key e k w rs) as [w' k' tr|w' k' tr| | |]; cbn [good_result] in G; try contradiction; eauto.
  exfalso. destruct G as [(N & KR & RR & _) [(id & x & _ & DX & XX)|[_ ALL]]].
  - specialize (DD id). destruct XX as [-> |[-> | ->]], DD; congruence.
  - destruct (ALL b IB UB) as [K I]. specialize (RR _ I). rewrite (KB K) in RR. discriminate.
Qed.

Lemma stuck_session : forall algo ttl w d key e k rs n fuel b x, reachable algo ttl w ->
  quiet e -> steady e d -> clock e -> k_be k = None ->
  session_of w key = Some (b_id b) -> In b (members (w_bls w)) -> b_kind b = BE_REGULAR ->
  service_has_backends (w_bls w) = true -> d (b_id b) = x -> x <> Refused -> x <> Opened ->
  exists w' k', give_request (S n) fuel ttl (Some key) e k w rs = Unavailable w' k' [Dial (b_id b) x] /\
    w_bls w' = w_bls w /\ session_of w' key = Some (b_id b) /\ k_be k' = None.
Proof.
  intros algo ttl w d key e k rs n fuel b x R QE SE CE KN SO IB KB HB DX X1 X2.
  destruct (reachable_wok _ _ _ R) as (size & F & O). pose proof O as [B S0 T].
  unfold give_request, select_backend, get_backend. rewrite HB. unfold by_key. rewrite KN.
  rewrite session_view in SO. destruct (fk (firstn KEY_SIZE key) (t_list (w_sess w))) as [s|] eqn:FK.
  2:{ unfold view in SO. rewrite FK in SO. discriminate. }
  unfold view in SO. rewrite FK in SO. cbn in SO. injection SO as SB.
  rewrite (find_found _ _ _ _ _ S0 FK). rewrite SB. cbn [attempts w_bls].
  rewrite (find_in_groups_some (b_id b) (w_bls w) b); [|apply B|exact IB|reflexivity]. rewrite KB, SE, DX.
  destruct (fk_some _ _ _ FK) as [Is Ks].
  assert (V : session_of (mkW (w_bls w) (service_session_promote ttl (e_now e 0) s (w_sess w))) key = Some (b_id b)).
  { rewrite session_view. cbn [w_sess]. rewrite promote_view by auto. rewrite Ks, beqb_refl. cbn. congruence. }
  destruct x; try congruence; cbn [proceed]; eexists _, _; (split; [reflexivity|]); auto.
Qed.

Lemma both_refuse : forall ttl d e k rs fuel, quiet e -> steady e d -> clock e -> k_be k = None ->
  d 1 = Refused -> d 2 = Refused -> d 3 = Opened ->
  let w := wstart ALGO_IWRR [(0, mkBe 1 BE_REGULAR 5 false true); (0, mkBe 2 BE_REGULAR 5 false true);
                             (65535, mkBe 3 BE_REGULAR 1 false true)] in
  give_request 4 (10 + fuel) ttl None e k w rs = Hangs.
Proof.
  intros ttl d e k rs fuel QE SE CE KN D1 D2 D3 w. unfold give_request, select_backend.
  Ltac run_get := match goal with |- context [get_backend ?f ?t ?a ?b ?c ?d] =>
    let r := eval vm_compute in (get_backend f t a b c d) in replace (get_backend f t a b c d) with r by (vm_compute; reflexivity) end.
  Ltac run_att SE := cbn [attempts w_bls]; match goal with |- context [find_in_groups ?f ?t] =>
    let r := eval vm_compute in (find_in_groups f t) in replace (find_in_groups f t) with r by (vm_compute; reflexivity) end;
    cbn [b_kind]; rewrite SE.
  Ltac run_kill QE := rewrite (proj1 QE); match goal with |- context [kill ?f ?t] =>
    let r := eval vm_compute in (kill f t) in replace (kill f t) with r by (vm_compute; reflexivity) end; cbv iota; rewrite (proj2 QE).
  run_get. rewrite KN. cbv iota. run_att SE. rewrite D1. run_kill QE. run_get. cbv iota. run_att SE. rewrite D2. run_kill QE.
  match goal with |- context [get_backend ?f ?t ?a ?b ?c ?d] => replace (get_backend f t a b c d) with GotLoop; [reflexivity|] end.
  symmetry. unfold get_backend. cbn [w_bls service_has_backends existsb l_act orb Z.ltb Z.compare].
  unfold lb_select. cbn [w_bls service_lb_select_backend]. unfold balancer_select_backend. cbn [l_bes l_algo].
  rewrite iwrr_never; [reflexivity| | | |]; cbn; try lia; try discriminate.
  - intros b [<-|[<-|[]]] U; cbn in U; discriminate.
  - split; cbn; auto; lia.
Qed.

Lemma matrix_session : forall ttl algo fuel key now w, ts_ok now -> (length key <= KEY_SIZE)%nat ->
  let w0 := wstart algo [(0, mkBe 1 BE_REGULAR 5 false true); (0, mkBe 2 BE_MATRIX 5 false true)] in
  wstep algo fuel ttl w0 (WSess (SAdd key 2 now)) = Some w ->
  forall n e k rs, clock e -> k_be k = None ->
  give_request (S n) fuel ttl (Some key) e k w rs = Crashes.
Proof.
  intros ttl algo fuel key now w N L w0 E n e k rs CE KN. cbn [wstep] in E.
  assert (W : w = mkW (w_bls w0) (fst (sstep ttl (w_sess w0) (SAdd key 2 now)))) by congruence. clear E. cbn [sstep fst] in W.
  assert (S0 : sinv (w_sess w0)) by apply sinv_new.
  assert (S1 : sinv (w_sess w)) by (subst w; cbn [w_sess]; apply add_inv; auto).
  assert (V : view (w_sess w) key = Some (2, ns now + ttl * sec)).
  { subst w. cbn [w_sess]. rewrite add_view by auto. rewrite beqb_refl. reflexivity. }
  unfold give_request, select_backend, get_backend. 
  replace (service_has_backends (w_bls w)) with true by (subst w; destruct algo; reflexivity).
  unfold by_key. rewrite firstn_all2 by lia. unfold view in V. destruct (fk key (t_list (w_sess w))) as [s|] eqn:FK; [|discriminate].
  rewrite (find_found _ _ _ _ _ S1 FK). cbn in V. injection V as SB _. rewrite SB, KN.
  assert (FB : find_in_groups 2 (w_bls w) = Some (mkBe 2 BE_MATRIX 5 false true)) by (subst w; destruct algo; reflexivity).
  cbn [attempts w_bls]. rewrite FB. cbn [b_kind proceed k_backend w_bls]. rewrite FB. reflexivity.
Qed.
