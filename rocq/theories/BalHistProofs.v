(** Proofs about histories of a service's backends. *)
From Coq Require Import List ZArith Bool Lia Permutation.
From Coq Require Import ZifyBool ZifyNat.
From Verif Require Import BalModel BalSpec BalProofs.
Import ListNotations.
Open Scope Z_scope.

Definition gok (algo : balancer_algo) (bl : balancer) : Prop :=
  agrees bl /\ l_algo bl = algo /\ (algo = ALGO_IWRR -> good_pos bl) /\ l_bes bl <> [] /\ small (l_bes bl).

Record inv (algo : balancer_algo) (k : nat) (bls : list balancer) : Prop := mkInv {
  i_nodup : NoDup (ids (members bls));
  i_groups : Forall (gok algo) bls;
  i_weights : increasing (weights bls);
  i_size : (length (members bls) <= k)%nat
}.

Lemma members_app : forall a b, members (a ++ b) = members a ++ members b.
Proof. intros. unfold members. apply flat_map_app. Qed.

Lemma ids_app : forall a b, ids (a ++ b) = ids a ++ ids b.
Proof. intros. apply map_app. Qed.

Lemma NoDup_app_parts : forall (a b : list Z), NoDup (a ++ b) ->
  NoDup a /\ NoDup b /\ (forall x, In x a -> ~ In x b).
Proof.
  induction a as [|x a IH]; cbn; intros b H; [repeat split; auto using NoDup_nil|].
  inversion H; subst. destruct (IH _ H3) as (A & B & C). repeat split; auto.
  - constructor; auto. intros I. apply H2. apply in_or_app; auto.
  - intros y [<-|I] J; [apply H2; apply in_or_app; auto|]. eapply C; eauto.
Qed.

Lemma member_group : forall bls bl b, In bl bls -> In b (l_bes bl) -> In b (members bls).
Proof. intros. unfold members. apply in_flat_map. eauto. Qed.

Lemma nodup_group : forall bls bl, NoDup (ids (members bls)) -> In bl bls -> NoDup (ids (l_bes bl)).
Proof.
  induction bls as [|a bls IH]; intros bl N I; [destruct I|].
  cbn [members flat_map] in N. rewrite ids_app in N. apply NoDup_app_parts in N.
  destruct N as (A & B & _). destruct I as [<-|I]; auto.
Qed.

Lemma group_len : forall bls bl, In bl bls -> (length (l_bes bl) <= length (members bls))%nat.
Proof.
  induction bls as [|a bls IH]; intros bl I; [destruct I|]. cbn [members flat_map].
  rewrite app_length. fold (members bls). destruct I as [<-|I]; [lia|]. specialize (IH bl I). lia.
Qed.

Lemma find_be_in : forall id l b, find_be id l = Some b -> In b l /\ b_id b = id.
Proof.
  induction l as [|a l IH]; cbn; intros b H; [discriminate|].
  destruct (Z.eqb_spec (b_id a) id); [inversion H; subst; auto|]. destruct (IH b H). auto.
Qed.

Lemma find_be_none : forall id l, find_be id l = None -> ~ In id (ids l).
Proof.
  induction l as [|a l IH]; cbn; intros H; [tauto|].
  destruct (Z.eqb_spec (b_id a) id); [discriminate|]. intros [E|I]; [congruence|]. apply IH; auto.
Qed.

Lemma find_groups_in : forall id bls b, find_in_groups id bls = Some b ->
  In b (members bls) /\ b_id b = id.
Proof.
  induction bls as [|a bls IH]; cbn [find_in_groups]; intros b H; [discriminate|].
  cbn [members flat_map]. rewrite in_app_iff.
  destruct (find_be id (l_bes a)) eqn:E.
  - inversion H; subst. apply find_be_in in E. tauto.
  - apply IH in H. tauto.
Qed.

Lemma same_id_same : forall l a b, NoDup (ids l) -> In a l -> In b l -> b_id a = b_id b -> a = b.
Proof.
  induction l as [|x l IH]; intros a b N A B E; [destruct A|].
  cbn [ids map] in N. inversion N; subst. destruct A as [<-|A], B as [<-|B]; auto.
  - exfalso. apply H1. rewrite E. apply in_map. auto.
  - exfalso. apply H1. rewrite <- E. apply in_map. auto.
Qed.

Lemma has_id_find : forall id bls bl b, NoDup (ids (members bls)) -> In bl bls ->
  has_id id bl = true -> find_in_groups id bls = Some b -> find_be id (l_bes bl) = Some b.
Proof.
  intros id bls bl b N I H F. unfold has_id in H.
  destruct (find_be id (l_bes bl)) as [c|] eqn:E; [|discriminate].
  apply find_be_in in E. apply find_groups_in in F. destruct E as [E1 E2], F as [F1 F2].
  f_equal. apply (same_id_same (members bls)); auto; [eapply member_group; eauto|congruence].
Qed.

(** Pointwise changes of the groups. *)
Lemma inv_map : forall algo k bls f,
  inv algo k bls ->
  (forall bl, In bl bls -> gok algo bl -> gok algo (f bl) /\ ids (l_bes (f bl)) = ids (l_bes bl) /\
     l_weight (f bl) = l_weight bl) ->
  inv algo k (map f bls).
Proof.
  intros algo k bls f [N G W S] H.
  assert (Q : ids (members (map f bls)) = ids (members bls) /\
              weights (map f bls) = weights bls /\ Forall (gok algo) (map f bls)).
  { clear N W S. revert H. induction bls as [|bl bls IH]; intros H; [cbn; auto|].
    inversion G; subst. destruct (H bl (or_introl eq_refl) H2) as (A & B & C).
    destruct IH as (D & E & F); [assumption|intros; apply H; cbn; auto|].
    cbn [map members flat_map weights]. fold (members (map f bls)) (members bls).
    fold (weights (map f bls)) (weights bls).
    rewrite !ids_app, B, D, C, E. auto. }
  destruct Q as (A & B & C). constructor; auto.
  - rewrite A; auto.
  - rewrite B; auto.
  - assert (L : length (ids (members (map f bls))) = length (ids (members bls))) by (rewrite A; auto).
    unfold ids in L. rewrite !map_length in L. lia.
Qed.

Lemma ids_map : forall f l, (forall b, b_id (f b) = b_id b) -> ids (map f l) = ids l.
Proof. intros f l H. unfold ids. rewrite map_map. apply map_ext. auto. Qed.

Lemma gok_recompute : forall algo cb bl k, few k -> (length (l_bes bl) <= k)%nat ->
  gok algo bl -> (forall b, b_id (cb b) = b_id b) ->
  (forall b, 0 <= b_pri b <= 65535 -> 0 <= b_pri (cb b) <= 65535) ->
  gok algo (balancer_recompute_pri cb bl) /\
  ids (l_bes (balancer_recompute_pri cb bl)) = ids (l_bes bl) /\
  l_weight (balancer_recompute_pri cb bl) = l_weight bl.
Proof.
  intros algo cb bl k FW L (A & AL & GP & NE & S) I P.
  assert (S' : small (map cb (l_bes bl))).
  { unfold small in *. rewrite Forall_forall in *. intros b Hb. apply in_map_iff in Hb.
    destruct Hb as (c & <- & Hc). auto. }
  destruct (recompute_spec cb bl S') as (E & AG & (SW & SA & SR & SC)).
  { unfold few in *. lia. }
  assert (EI : ids (l_bes (balancer_recompute_pri cb bl)) = ids (l_bes bl))
    by (rewrite E; apply ids_map; auto).
  split; [|auto]. split; [exact AG|]. split; [congruence|]. split.
  - intros X. destruct (GP X) as [R C]. split; [rewrite SR; exact R|]. rewrite SC, EI. exact C.
  - rewrite E. split; [|exact S']. destruct (l_bes bl); [congruence|discriminate].
Qed.

Lemma inv_few : forall algo k bls bl, inv algo k bls -> In bl bls -> (length (l_bes bl) <= k)%nat.
Proof. intros algo k bls bl [N G W S] I. pose proof (group_len _ _ I). lia. Qed.

Lemma cb_id : forall id m b, b_id (cb_backend_disable id m b) = b_id b.
Proof. intros. unfold cb_backend_disable. destruct (b_id b =? id), m; reflexivity. Qed.
Lemma cb_pri : forall id m b, b_pri (cb_backend_disable id m b) = b_pri b.
Proof. intros. unfold cb_backend_disable. destruct (b_id b =? id), m; reflexivity. Qed.

Lemma inv_kill : forall algo k bls id m, few k -> inv algo k bls -> inv algo k (kill_be id m bls).
Proof.
  intros algo k bls id m F I. unfold kill_be. destruct (find_in_groups id bls) as [b|]; [|exact I].
  destruct (b_kind b); try exact I. unfold on_group. apply inv_map; [exact I|].
  intros bl B G. destruct (has_id id bl); [|auto].
  apply (gok_recompute algo _ bl k); auto.
  - eapply inv_few; eauto.
  - intros; apply cb_id.
  - intros c; rewrite cb_pri; auto.
Qed.

(** Changing one member. *)
Lemma count_map_one : forall l id f b, NoDup (ids l) -> find_be id l = Some b ->
  (forall c, b_id (f c) = b_id c) ->
  let l' := map (fun c => if b_id c =? id then f c else c) l in
  n_usable l' = n_usable l - (if usableb b then 1 else 0) + (if usableb (f b) then 1 else 0) /\
  total_pri l' = total_pri l - (if usableb b then b_pri b else 0)
                 + (if usableb (f b) then b_pri (f b) else 0).
Proof.
  induction l as [|a l IH]; intros id f b N F H; [discriminate|].
  cbn [ids map] in N. inversion N as [|? ? Na N']; subst. cbn [find_be] in F. cbv zeta.
  cbn [map]. rewrite !n_usable_cons, !total_cons.
  destruct (Z.eqb_spec (b_id a) id) as [E|E].
  - inversion F; subst.
    assert (Q : map (fun c => if b_id c =? b_id b then f c else c) l = l).
    { rewrite <- (map_id l) at 2. apply map_ext_in. intros c Hc.
      destruct (Z.eqb_spec (b_id c) (b_id b)); [|reflexivity].
      exfalso. apply Na. rewrite <- e. apply in_map. auto. }
    rewrite Q. destruct (usableb b), (usableb (f b)); lia.
  - destruct (IH id f b N' F H) as [A B]. rewrite A, B. destruct (usableb a); lia.
Qed.

Lemma top_map_one : forall l id f b, NoDup (ids l) -> find_be id l = Some b ->
  (forall c, b_id (f c) = b_id c) -> usableb b = false ->
  let l' := map (fun c => if b_id c =? id then f c else c) l in
  top_pri l' = if usableb (f b) then Z.max (top_pri l) (b_pri (f b)) else top_pri l.
Proof.
  induction l as [|a l IH]; intros id f b N F H U; [discriminate|].
  cbn [ids map] in N. inversion N as [|? ? Na N']; subst. cbn [find_be] in F. cbv zeta.
  cbn [map]. rewrite !top_cons.
  destruct (Z.eqb_spec (b_id a) id) as [E|E].
  - inversion F; subst.
    assert (Q : map (fun c => if b_id c =? b_id b then f c else c) l = l).
    { rewrite <- (map_id l) at 2. apply map_ext_in. intros c Hc.
      destruct (Z.eqb_spec (b_id c) (b_id b)); [|reflexivity].
      exfalso. apply Na. rewrite <- e. apply in_map. auto. }
    rewrite Q, U. destruct (usableb (f b)); lia.
  - rewrite (IH id f b N' F H U). destruct (usableb a), (usableb (f b)); lia.
Qed.

Lemma find_be_map : forall id f l, (forall c, b_id (f c) = b_id c) ->
  find_be id (map (fun c => if b_id c =? id then f c else c) l)
  = match find_be id l with Some b => Some (f b) | None => None end.
Proof.
  intros id f l H. induction l as [|a l IH]; [reflexivity|]. cbn [map find_be].
  destruct (Z.eqb_spec (b_id a) id) as [E|E].
  - rewrite H, E, Z.eqb_refl. reflexivity.
  - destruct (Z.eqb_spec (b_id a) id); [congruence|]. exact IH.
Qed.

Lemma map_be_ids : forall id f bl, (forall c, b_id (f c) = b_id c) ->
  ids (l_bes (map_be id f bl)) = ids (l_bes bl).
Proof.
  intros id f bl H. cbn. apply ids_map. intros b. destruct (b_id b =? id); auto.
Qed.

Lemma find_groups_map : forall id f bls, (forall c, b_id (f c) = b_id c) ->
  find_in_groups id (on_group id (map_be id f) bls)
  = match find_in_groups id bls with Some b => Some (f b) | None => None end.
Proof.
  intros id f bls H. unfold on_group. induction bls as [|bl bls IH]; [reflexivity|].
  cbn [map find_in_groups]. unfold has_id at 1.
  destruct (find_be id (l_bes bl)) as [b|] eqn:E.
  - cbn [l_bes map_be set_bes]. rewrite find_be_map by auto. rewrite E. reflexivity.
  - rewrite E. exact IH.
Qed.

Lemma on_group_twice : forall id f g bls,
  (forall bl, has_id id bl = true -> has_id id (f bl) = true) ->
  on_group id g (on_group id f bls) = on_group id (fun bl => g (f bl)) bls.
Proof.
  intros id f g bls H. unfold on_group. rewrite map_map. apply map_ext. intros bl.
  destruct (has_id id bl) eqn:E; [rewrite H by exact E; reflexivity|]. rewrite E. reflexivity.
Qed.

Lemma small_map_be : forall id f bl, (forall c, b_pri (f c) = b_pri c) ->
  small (l_bes bl) -> small (l_bes (map_be id f bl)).
Proof.
  intros id f bl H S. unfold small in *. rewrite Forall_forall in *. intros b Hb. cbn in Hb.
  apply in_map_iff in Hb. destruct Hb as (c & <- & Hc).
  destruct (b_id c =? id); rewrite ?H; auto.
Qed.

Lemma inv_touch : forall algo k bls id, few k -> inv algo k bls -> inv algo k (touch_be id bls).
Proof.
  intros algo k bls id F I. unfold touch_be, touch_mark.
  destruct (find_in_groups id bls) as [b|] eqn:E; [|exact I].
  destruct (b_kind b) eqn:K; try exact I. destruct (b_alive b) eqn:AL; [exact I|].
  set (f := fun b0 => set_alive b0 true).
  assert (FI : forall c, b_id (f c) = b_id c) by reflexivity.
  assert (U0 : usableb b = false) by (unfold usableb; rewrite K, AL; apply andb_false_r).
  assert (U1 : usableb (f b) = negb (b_disabled b)).
  { unfold usableb, f. cbn. rewrite K. apply andb_true_r. }
  pose proof (i_nodup _ _ _ I) as N.
  assert (BASE : forall bl, In bl bls -> gok algo bl -> has_id id bl = true ->
     let bl1 := map_be id f bl in
     ids (l_bes bl1) = ids (l_bes bl) /\ l_algo bl1 = algo /\ (algo = ALGO_IWRR -> good_pos bl1) /\ l_bes bl1 <> [] /\
     small (l_bes bl1) /\
     n_usable (l_bes bl1) = n_usable (l_bes bl) + (if usableb (f b) then 1 else 0) /\
     total_pri (l_bes bl1) = total_pri (l_bes bl) + (if usableb (f b) then b_pri b else 0) /\
     top_pri (l_bes bl1) = (if usableb (f b) then Z.max (top_pri (l_bes bl)) (b_pri b)
                            else top_pri (l_bes bl))).
  { intros bl B (AG & AL' & GP & NE & S) H. cbv zeta.
    pose proof (has_id_find id bls bl b N B H E) as FB.
    pose proof (nodup_group _ _ N B) as NB.
    pose proof (count_map_one _ id f b NB FB FI) as [Q1 Q2].
    pose proof (top_map_one _ id f b NB FB FI U0) as Q3. cbv zeta in *.
    split; [apply map_be_ids; auto|]. split; [exact AL'|]. split.
    { intros X. destruct (GP X) as [R C].
      split; [exact R|]. cbn [l_cur map_be set_bes]. rewrite map_be_ids by auto. exact C. }
    split. { cbn. destruct (l_bes bl); [congruence|discriminate]. }
    split; [apply small_map_be; auto|].
    cbn [l_bes map_be set_bes]. rewrite U0 in *. rewrite Q1, Q2, Q3.
    change (b_pri (f b)) with (b_pri b). repeat split; lia. }
  destruct (negb (b_disabled b)) eqn:D.
  - (* counted *)
    unfold touch_count. rewrite find_groups_map by auto. rewrite E.
    rewrite on_group_twice.
    2:{ intros bl H. unfold has_id in *. cbn [l_bes map_be set_bes]. rewrite find_be_map by auto.
        destruct (find_be id (l_bes bl)); auto. }
    unfold on_group. apply inv_map; [exact I|]. intros bl B G.
    destruct (has_id id bl) eqn:H; [|auto].
    destruct (BASE bl B G H) as (B1 & B2 & B3 & B4 & B5 & B6 & B7 & B8).
    rewrite U1 in B6, B7, B8.
    destruct G as ((AG1 & AG2) & G2 & _ & _ & S).
    pose proof (inv_few _ _ _ _ I B) as L.
    destruct (pri_update_spec (map_be id f bl) (f b)) as (bl2 & E2 & (SW & SA & SR & SC) & A2 & BE2 & M2).
    { pose proof (find_be_in _ _ _ (has_id_find id bls bl b N B H E)) as [Ib _].
      unfold small in S. rewrite Forall_forall in S. apply (S b Ib). }
    { intros RA. cbn [l_algo l_sum map_be set_bes] in *. rewrite RA in AG2. rewrite AG2.
      assert (few (length (l_bes bl))) by (unfold few in *; lia).
      pose proof (small_few_total _ S H0). lia. }
    rewrite E2. cbn [fst]. split; [|split].
    + split; [|split; [|split; [|split]]].
      * unfold agrees. cbn [set_act l_act l_bes l_algo l_sum l_max].
        rewrite A2, BE2, SA. cbn [l_act l_algo l_bes map_be set_bes]. split.
        { cbn [l_bes map_be set_bes] in B6. rewrite B6. cbn. lia. }
        { cbn [l_algo map_be set_bes] in M2. cbn [l_bes map_be set_bes] in B7, B8.
          destruct (l_algo bl); cbn [l_sum l_max map_be set_bes] in M2.
          - rewrite M2, B7, AG2. reflexivity.
          - rewrite M2, B8, AG2. reflexivity. }
      * cbn. rewrite SA. exact G2.
      * intros X. destruct (B3 X) as [B3' B3''].
        split; cbn [l_round l_cur l_bes set_act]; rewrite ?SR, ?SC, ?BE2; auto.
      * cbn [l_bes set_act]. rewrite BE2. auto.
      * cbn [l_bes set_act]. rewrite BE2. auto.
    + cbn [l_bes set_act]. rewrite BE2. auto.
    + cbn [l_weight set_act]. rewrite SW. reflexivity.
  - unfold on_group. apply inv_map; [exact I|]. intros bl B G.
    destruct (has_id id bl) eqn:H; [|auto].
    destruct (BASE bl B G H) as (B1 & B2 & B3 & B4 & B5 & B6 & B7 & B8).
    rewrite U1 in B6, B7, B8. destruct G as ((AG1 & AG2) & G2 & _).
    split; [|auto]. split; [|auto].
    unfold agrees. cbn [l_act l_algo l_sum l_max map_be set_bes]. cbn [l_bes map_be set_bes] in *.
    rewrite B6, B7, B8. split; [lia|]. destruct (l_algo bl); lia.
Qed.

Lemma inv_lb_reset_group : forall algo id bl, gok algo bl ->
  let bl' := match l_algo bl with ALGO_RANDOM => bl | ALGO_IWRR => iwrr_reset bl id end in
  gok algo bl' /\ ids (l_bes bl') = ids (l_bes bl) /\ l_weight bl' = l_weight bl.
Proof.
  intros algo id bl G. cbv zeta. destruct (l_algo bl) eqn:A; [auto|]. unfold iwrr_reset.
  destruct (l_cur bl) as [c|] eqn:C; [|auto]. destruct (c =? id); [|auto].
  destruct G as (AG & AL & _ & NE & S). split; [|auto]. split; [|split; [exact AL|split; [|auto]]].
  - unfold agrees in *. cbn [iwrr_init with_pos l_act l_bes l_algo l_sum l_max]. exact AG.
  - intros _. split; [cbn; lia|]. cbn. destruct (l_bes bl); [congruence|]. cbn. auto.
Qed.

(** Adding a backend. *)
Lemma add_split : forall bls w a be, increasing (weights bls) ->
  exists pre g post, balancer_list_get bls w a = pre ++ g :: post /\
    add_backend w a be bls = pre ++ set_bes g (l_bes g ++ [be]) :: post /\
    dyn_add w a be bls
    = pre ++ balancer_recompute_pri (fun b => b) (set_bes g (l_bes g ++ [be])) :: post /\
    l_weight g = w /\
    (bls = pre ++ g :: post \/ (bls = pre ++ post /\ g = new_balancer w a)).
Proof.
  intros bls w a be I. destruct (get_split bls w a I) as (pre & g & post & Q & W & P1 & P2 & D).
  exists pre, g, post. split; [exact Q|]. unfold dyn_add.
  assert (E : add_backend w a be bls = pre ++ set_bes g (l_bes g ++ [be]) :: post).
  { unfold add_backend. rewrite Q. apply on_weight_split; auto. }
  rewrite E. rewrite on_weight_split; auto.
Qed.

Lemma members_cons : forall g l, members (g :: l) = l_bes g ++ members l.
Proof. reflexivity. Qed.

Lemma members_add : forall pre g post be bls, 
  (bls = pre ++ g :: post \/ (bls = pre ++ post /\ l_bes g = [])) ->
  Permutation (members pre ++ (l_bes g ++ [be]) ++ members post) (be :: members bls).
Proof.
  intros pre g post be bls D.
  assert (E : members bls = members pre ++ l_bes g ++ members post).
  { destruct D as [->|[-> B]].
    - rewrite members_app, members_cons. reflexivity.
    - rewrite members_app, B. reflexivity. }
  rewrite E. rewrite <- (app_assoc (l_bes g)). cbn [app].
  rewrite !app_assoc. symmetry. apply Permutation_middle.
Qed.

Lemma agrees_new : forall w a, agrees (new_balancer w a).
Proof. intros w []; split; reflexivity. Qed.

Lemma Forall_split3 : forall (A : Type) (P : A -> Prop) pre x post,
  Forall P (pre ++ x :: post) <-> Forall P pre /\ P x /\ Forall P post.
Proof.
  intros. rewrite Forall_app. split.
  - intros (A1 & A2). inversion A2; subst. auto.
  - intros (A1 & A2 & A3). auto.
Qed.

Lemma inv_add : forall algo k bls w be, few (S k) -> inv algo k bls ->
  ~ In (b_id be) (ids (members bls)) -> 0 <= b_pri be <= 65535 ->
  inv algo (S k) (dyn_add w algo be bls).
Proof.
  intros algo k bls w be F I NB P. pose proof I as [N G W S].
  destruct (add_split bls w algo be W) as (pre & g & post & Q & _ & E & WG & D).
  assert (GG : (l_bes g = [] \/ gok algo g) /\ (algo = ALGO_IWRR -> good_pos g) /\ small (l_bes g) /\ l_algo g = algo /\
     Forall (gok algo) pre /\ Forall (gok algo) post).
  { destruct D as [->|[-> ->]].
    - apply Forall_split3 in G. destruct G as (G1 & G2 & G3).
      pose proof G2 as (X1 & X2 & X3 & X4 & X5). auto 10.
    - apply Forall_app in G. destruct G. cbn.
      split; [auto|]. split; [intros _; split; cbn; auto; lia|].
      split; [constructor|auto]. }
  destruct GG as (GE & GP & GS & GA & G1 & G3).
  assert (LG : (length (l_bes g) <= k)%nat).
  { destruct D as [->|[-> ->]]; [|cbn; lia]. eapply (inv_few algo k _ g I). apply in_or_app; cbn; auto. }
  set (g1 := set_bes g (l_bes g ++ [be])) in *.
  assert (S1 : small (map (fun b => b) (l_bes g1))).
  { rewrite map_id. cbn. apply Forall_app. split; auto. }
  destruct (recompute_spec (fun b => b) g1 S1) as (E1 & AG & (SW & SA & SR & SC)).
  { cbn. rewrite app_length. cbn. unfold few in *. lia. }
  rewrite map_id in E1. set (g2 := balancer_recompute_pri (fun b => b) g1) in *.
  assert (PM : Permutation (members (pre ++ g2 :: post)) (be :: members bls)).
  { rewrite members_app, members_cons, E1. cbn [l_bes g1 set_bes]. apply members_add.
    destruct D as [->|[-> ->]]; auto. }
  rewrite E. constructor.
  - apply (Permutation_NoDup (l := ids (be :: members bls))).
    + apply Permutation_map. symmetry. exact PM.
    + cbn. constructor; auto.
  - apply Forall_split3. repeat split; auto; try apply AG.
    + rewrite SA. exact GA.
    + rewrite SR. cbn. apply GP. auto.
    + rewrite SC. cbn [l_cur g1 set_bes]. rewrite E1. destruct (GP H) as [_ GP'].
      destruct (l_cur g); auto. cbn. rewrite ids_app. apply in_or_app. auto.
    + rewrite E1. cbn. destruct (l_bes g); discriminate.
    + rewrite E1. cbn. apply Forall_app. split; auto.
  - pose proof (get_increasing bls w algo W) as W2. rewrite Q in W2. rewrite weights_app in *.
    cbn [weights map] in *. rewrite SW. exact W2.
  - apply Permutation_length in PM. cbn in PM. cbn. lia.
Qed.

(** Removing a backend. *)
Definition nonempty (bl : balancer) : bool := match l_bes bl with [] => false | _ => true end.

Lemma filter_members : forall bls, members (filter nonempty bls) = members bls.
Proof.
  induction bls as [|bl bls IH]; [reflexivity|]. cbn [filter]. unfold nonempty at 1.
  destruct (l_bes bl) eqn:E; rewrite ?members_cons, ?E, IH; reflexivity.
Qed.

Lemma increasing_filter : forall f bls, increasing (weights bls) -> increasing (weights (filter f bls)).
Proof.
  induction bls as [|bl bls IH]; intros I; [exact I|]. cbn [weights map increasing] in I.
  destruct I as [F I]. cbn [filter]. destruct (f bl); [|auto].
  cbn [weights map increasing]. split; [|auto]. rewrite Forall_forall in *. intros x Hx.
  apply in_map_iff in Hx. destruct Hx as (y & <- & Hy). apply filter_In in Hy.
  apply F. apply in_map. tauto.
Qed.

Lemma members_remove : forall id bls,
  members (on_group id (remove_be id) bls) = filter (fun b => negb (b_id b =? id)) (members bls).
Proof.
  intros id bls. unfold on_group. induction bls as [|bl bls IH]; [reflexivity|].
  cbn [map]. rewrite !members_cons, filter_app, IH. f_equal.
  destruct (has_id id bl) eqn:H; [reflexivity|]. unfold has_id in H.
  destruct (find_be id (l_bes bl)) eqn:E; [discriminate|]. apply find_be_none in E.
  symmetry. induction (l_bes bl) as [|a l IHl]; [reflexivity|]. cbn in *.
  destruct (Z.eqb_spec (b_id a) id); [tauto|]. cbn. rewrite IHl; tauto.
Qed.

Lemma NoDup_filter_ids : forall f l, NoDup (ids l) -> NoDup (ids (filter f l)).
Proof.
  induction l as [|a l IH]; intros N; [exact N|]. cbn [ids map] in N. inversion N; subst.
  cbn [filter]. destruct (f a); [|auto]. cbn. constructor; [|apply IH; auto].
  intros H. apply H1. eapply ids_filter; eauto.
Qed.

Lemma filter_length_le : forall (A : Type) (f : A -> bool) l, (length (filter f l) <= length l)%nat.
Proof. induction l as [|a l IH]; cbn; [lia|]. destruct (f a); cbn; lia. Qed.

(** Everything [gok] says except agreement of the counters. *)
Definition pok (algo : balancer_algo) (bl : balancer) : Prop :=
  l_algo bl = algo /\ (algo = ALGO_IWRR -> good_pos bl) /\ l_bes bl <> [] /\ small (l_bes bl).

Lemma recompute_all : forall algo k bls, few k ->
  NoDup (ids (members bls)) -> Forall (pok algo) bls -> increasing (weights bls) ->
  (length (members bls) <= k)%nat -> 
  inv algo k (map (balancer_recompute_pri (fun b => b)) bls) /\
  members (map (balancer_recompute_pri (fun b => b)) bls) = members bls.
Proof.
  intros algo k bls F N P W L.
  assert (Q : members (map (balancer_recompute_pri (fun b => b)) bls) = members bls /\
     weights (map (balancer_recompute_pri (fun b => b)) bls) = weights bls /\
     Forall (gok algo) (map (balancer_recompute_pri (fun b => b)) bls)).
  { clear W N. induction bls as [|bl bls IH]; [cbn; auto|]. inversion P as [|? ? Pb Pr]; subst.
    rewrite members_cons, app_length in L. destruct IH as (A & B & C); [auto|lia|].
    destruct Pb as (PA & PP & PN & PS).
    destruct (recompute_spec (fun b => b) bl) as (E1 & AG & (SW & SA & SR & SC)).
    { rewrite map_id; auto. } { unfold few in *; lia. }
    rewrite map_id in E1. cbn [map weights]. rewrite !members_cons, E1, A, SW.
    fold (weights bls). fold (weights (map (balancer_recompute_pri (fun b => b)) bls)). rewrite B.
    repeat split; auto. constructor; auto. split; [exact AG|]. split; [congruence|].
    rewrite E1. split; [|auto]. intros X. destruct (PP X) as [PR PC].
    split; [rewrite SR; auto|]. rewrite SC, E1. auto. }
  destruct Q as (A & B & C). split; [|exact A]. constructor; rewrite ?A, ?B; auto.
Qed.

Lemma reset_props : forall id bls,
  members (service_lb_reset id bls) = members bls /\ weights (service_lb_reset id bls) = weights bls.
Proof.
  intros id bls. unfold service_lb_reset.
  induction bls as [|bl bls [A B]]; [auto|]. cbn [map weights]. rewrite !members_cons, A.
  split.
  - f_equal. destruct (l_algo bl); [reflexivity|]. unfold iwrr_reset.
    destruct (l_cur bl); [destruct (z =? id)|]; reflexivity.
  - f_equal; [|exact B]. destruct (l_algo bl); [reflexivity|]. unfold iwrr_reset.
    destruct (l_cur bl); [destruct (z =? id)|]; reflexivity.
Qed.

Lemma on_group_weights : forall id f bls, (forall bl, l_weight (f bl) = l_weight bl) ->
  weights (on_group id f bls) = weights bls.
Proof.
  intros. unfold on_group, weights. rewrite map_map. apply map_ext. intros bl.
  destruct (has_id id bl); auto.
Qed.

Lemma inv_remove_members : forall algo k bls id, few k -> inv algo k bls ->
  inv algo k (dyn_remove id bls) /\
  members (dyn_remove id bls) = filter (fun b => negb (b_id b =? id)) (members bls).
Proof.
  intros algo k bls id F I. pose proof I as [N G W S]. unfold dyn_remove.
  fold nonempty. set (b1 := on_group id (remove_be id) bls).
  set (b2 := filter nonempty b1).
  assert (M1 : members b2 = filter (fun b => negb (b_id b =? id)) (members bls)).
  { unfold b2. rewrite filter_members. apply members_remove. }
  destruct (reset_props id b2) as [R1 R2].
  destruct (recompute_all algo k (service_lb_reset id b2) F) as [A B].
  - rewrite R1, M1. apply NoDup_filter_ids. auto.
  - unfold service_lb_reset. apply Forall_forall. intros x Hx. apply in_map_iff in Hx.
    destruct Hx as (y & <- & Hy). unfold b2 in Hy. apply filter_In in Hy. destruct Hy as [Hy NE].
    unfold b1, on_group in Hy. apply in_map_iff in Hy. destruct Hy as (z & Ez & Hz).
    rewrite Forall_forall in G. destruct (G z Hz) as (AG & AL & GP & ZE & ZS).
    destruct (has_id id z) eqn:H.
    + subst y. cbn [l_algo remove_be set_bes]. rewrite AL.
      assert (S' : small (filter (fun b => negb (b_id b =? id)) (l_bes z))).
      { unfold small in *. rewrite Forall_forall in *. intros b Hb. apply filter_In in Hb. apply ZS; tauto. }
      assert (NE' : filter (fun b => negb (b_id b =? id)) (l_bes z) <> []).
      { intros X. unfold nonempty in NE. cbn in NE. rewrite X in NE. discriminate. }
      assert (KEEP : forall c, In c (ids (l_bes z)) -> c <> id ->
         In c (ids (filter (fun b => negb (b_id b =? id)) (l_bes z)))).
      { intros c Hc Nc. unfold ids in *. apply in_map_iff in Hc. destruct Hc as (b & <- & Hb).
        apply in_map. apply filter_In. split; auto. apply negb_true_iff, Z.eqb_neq. auto. }
      destruct algo.
      * split; [exact AL|]. split; [discriminate|auto].
      * destruct (GP eq_refl) as [R C]. 
        split; [unfold iwrr_reset; cbn; destruct (l_cur z) as [c|]; [destruct (c =? id)|]; exact AL|].
        split; [|unfold iwrr_reset; cbn; destruct (l_cur z) as [c|]; [destruct (c =? id)|]; auto].
        intros _. unfold iwrr_reset. cbn [l_cur remove_be set_bes]. destruct (l_cur z) as [c|] eqn:CZ.
        { destruct (Z.eqb_spec c id).
          - split; [cbn; lia|]. cbn. destruct (filter _ (l_bes z)); [congruence|]. cbn; auto.
          - split; [exact R|]. cbn. rewrite CZ. apply KEEP; auto. }
        { split; [exact R|]. cbn. rewrite CZ. auto. }
    + subst y. destruct (inv_lb_reset_group algo id z (G z Hz)) as ((X1&X2&X3&X4&X5)&_).
      split; [auto|split; [auto|split; auto]].
  - rewrite R2. apply increasing_filter. unfold b1. rewrite on_group_weights; auto.
  - rewrite R1, M1. pose proof (filter_length_le _ (fun b => negb (b_id b =? id)) (members bls)). lia.
  - split; [exact A|]. rewrite B, R1. exact M1.
Qed.

Lemma inv_set_pri : forall algo k bls id p, few k -> inv algo k bls -> 0 <= p <= 65535 ->
  inv algo k (dyn_set_pri id p bls).
Proof.
  intros algo k bls id p F I P. pose proof I as [N G W S]. unfold dyn_set_pri.
  set (f := fun b => set_pri b p).
  assert (FI : forall c, b_id (f c) = b_id c) by reflexivity.
  assert (EI : ids (members (on_group id (map_be id f) bls)) = ids (members bls)).
  { unfold on_group. clear. induction bls as [|bl bls IH]; [reflexivity|].
    cbn [map]. rewrite !members_cons, !ids_app, IH. f_equal.
    destruct (has_id id bl); [apply map_be_ids; reflexivity|reflexivity]. }
  destruct (recompute_all algo k (on_group id (map_be id f) bls) F) as [A _]; auto.
  - rewrite EI. auto.
  - unfold on_group. apply Forall_forall. intros x Hx. apply in_map_iff in Hx.
    destruct Hx as (z & <- & Hz). rewrite Forall_forall in G.
    destruct (G z Hz) as (AG & AL & GP & ZE & ZS).
    destruct (has_id id z); [|split; [auto|split; [auto|split; auto]]].
    split; [exact AL|]. split; [|split].
    + intros X. destruct (GP X) as [R C]. split; [exact R|]. cbn [l_cur map_be set_bes].
      rewrite map_be_ids by auto. exact C.
    + cbn. destruct (l_bes z); [congruence|discriminate].
    + unfold small in *. rewrite Forall_forall in *. intros b Hb. cbn in Hb.
      apply in_map_iff in Hb. destruct Hb as (c & <- & Hc).
      destruct (b_id c =? id); [exact P|auto].
  - rewrite on_group_weights; auto.
  - assert (L : length (ids (members (on_group id (map_be id f) bls))) = length (ids (members bls)))
      by (rewrite EI; auto).
    unfold ids in L. rewrite !map_length in L. lia.
Qed.

Lemma few_le : forall a b, few b -> (a <= b)%nat -> few a.
Proof. unfold few. intros. lia. Qed.

Lemma inv_weaken : forall algo j k bls, inv algo j bls -> (j <= k)%nat -> inv algo k bls.
Proof. intros algo j k bls [N G W S] L. constructor; auto. lia. Qed.

Lemma inv_step : forall algo k bls o, few (S k) -> inv algo k bls -> op_ok bls o ->
  inv algo (S k) (bstep algo bls o).
Proof.
  intros algo k bls o F I O. assert (F' : few k) by (eapply few_le; eauto).
  assert (WK : forall x, inv algo k x -> inv algo (S k) x)
    by (intros x X; apply (inv_weaken algo k); auto).
  destruct o; cbn [bstep op_ok] in *; try contradiction.
  - apply WK, inv_kill; auto.
  - apply WK, inv_touch; auto.
  - destruct O. apply inv_add; auto.
  - apply WK, inv_remove_members; auto.
  - apply WK, inv_set_pri; auto.
Qed.

Lemma inv_run : forall algo os k bls, few (length os + k) -> inv algo k bls -> ops_ok algo bls os ->
  inv algo (length os + k) (brun algo bls os).
Proof.
  induction os as [|o os IH]; intros k bls F I O; [exact I|].
  cbn [ops_ok length] in *. destruct O as [O1 O2]. unfold brun. cbn [fold_left].
  replace (S (length os) + k)%nat with (length os + S k)%nat by lia.
  apply IH; auto.
  - replace (length os + S k)%nat with (S (length os) + k)%nat by lia. exact F.
  - apply inv_step; auto. eapply few_le; eauto. lia.
Qed.

(** Configuration. *)
Definition cinv (k : nat) (bls : list balancer) : Prop :=
  increasing (weights bls) /\ length (members bls) = k /\
  Forall (fun bl => l_bes bl <> [] /\ l_cur bl = None /\ l_round bl = 0) bls /\
  Forall (fun b => 1 <= b_pri b) (members bls).

Lemma cinv_add : forall k bls w be, cinv k bls -> 1 <= b_pri be ->
  cinv (S k) (add_backend w ALGO_RANDOM be bls) /\
  Permutation (members (add_backend w ALGO_RANDOM be bls)) (be :: members bls).
Proof.
  intros k bls w be (W & L & F & P) B.
  destruct (add_split bls w ALGO_RANDOM be W) as (pre & g & post & Q & E & _ & WG & D).
  assert (PM : Permutation (members (add_backend w ALGO_RANDOM be bls)) (be :: members bls)).
  { rewrite E, members_app, members_cons. cbn [l_bes set_bes]. apply members_add.
    destruct D as [->|[-> ->]]; auto. }
  split; [|exact PM]. repeat split.
  - pose proof (get_increasing bls w ALGO_RANDOM W) as W2. rewrite Q in W2. rewrite E.
    rewrite weights_app in *. exact W2.
  - apply Permutation_length in PM. rewrite PM. cbn. lia.
  - rewrite E. apply Forall_split3.
    assert (X : Forall (fun bl => l_bes bl <> [] /\ l_cur bl = None /\ l_round bl = 0) pre /\
                Forall (fun bl => l_bes bl <> [] /\ l_cur bl = None /\ l_round bl = 0) post /\
                l_cur g = None /\ l_round g = 0).
    { destruct D as [->|[-> ->]].
      - apply Forall_split3 in F. tauto.
      - apply Forall_app in F. cbn. tauto. }
    destruct X as (X1 & X2 & X3 & X4). repeat split; auto. cbn. destruct (l_bes g); discriminate.
  - eapply Permutation_Forall; [symmetry; exact PM|]. constructor; auto.
Qed.

Lemma cinv_fold : forall l k bls, cinv k bls -> Forall (fun wb => 1 <= b_pri (snd wb)) l ->
  let bls' := fold_left (fun bls wb => add_backend (fst wb) ALGO_RANDOM (snd wb) bls) l bls in
  cinv (length l + k) bls' /\ Permutation (members bls') (map snd l ++ members bls).
Proof.
  induction l as [|[w be] l IH]; intros k bls C F; [cbn; auto|].
  inversion F as [|? ? F1 F2]; subst. cbn [fold_left fst snd length] in *.
  destruct (cinv_add k bls w be C F1) as [C' P'].
  destruct (IH (S k) _ C' F2) as [C2 P2]. cbv zeta in *. split.
  - replace (S (length l) + k)%nat with (length l + S k)%nat by lia. exact C2.
  - rewrite P2. cbn [map app]. rewrite P'. symmetry. apply Permutation_middle.
Qed.

Definition clamp1 (b : backend) : backend := clamp_pri b.

Lemma inv_finalize : forall algo k bls, few k -> cinv k bls -> NoDup (ids (members bls)) ->
  inv algo k (service_finalize algo bls) /\
  members (service_finalize algo bls) = map clamp_pri (members bls).
Proof.
  intros algo k bls F (W & L & G & P) N. unfold service_finalize, service_lb_init.
  rewrite map_map.
  set (h := fun x => _).
  assert (LE : (length (members bls) <= k)%nat) by lia. clear L.
  assert (Q : members (map h bls) = map clamp_pri (members bls) /\ weights (map h bls) = weights bls /\
              Forall (gok algo) (map h bls)).
  { clear W N. induction bls as [|bl bls IH]; [cbn; auto|].
    inversion G as [|? ? G1 G2]; subst. rewrite members_cons in *. rewrite app_length in LE.
    apply Forall_app in P. destruct P as [P1 P2].
    destruct IH as (A & B & C); auto; [lia|].
    destruct G1 as (NE & CN & R0).
    set (g0 := mkBal (l_weight bl) algo (l_act bl) (l_bes bl) (l_sum bl) (l_round bl) (l_max bl) (l_cur bl)).
    assert (S0 : small (map clamp_pri (l_bes g0))).
    { unfold small. rewrite Forall_forall in *. intros b Hb. apply in_map_iff in Hb.
      destruct Hb as (c & <- & Hc). specialize (P1 c Hc). unfold clamp_pri.
      destruct (Z.ltb_spec 65535 (b_pri c)); cbn; lia. }
    destruct (recompute_spec clamp_pri g0 S0) as (E1 & AG & (SW & SA & SR & SC)).
    { cbn. unfold few in *; lia. }
    cbn [l_bes g0] in E1. cbn [l_weight l_algo l_round l_cur g0] in SW, SA, SR, SC.
    set (g1 := balancer_recompute_pri clamp_pri g0) in *.
    assert (H1 : h bl = match l_algo g1 with ALGO_RANDOM => g1 | ALGO_IWRR => iwrr_init g1 end) by reflexivity.
    assert (H2 : l_bes (h bl) = map clamp_pri (l_bes bl)).
    { rewrite H1. destruct (l_algo g1); cbn; exact E1. }
    assert (H3 : l_weight (h bl) = l_weight bl) by (rewrite H1; destruct (l_algo g1); cbn; auto).
    cbn [map weights]. rewrite members_cons, H2, A, map_app, H3.
    fold (weights (map h bls)) (weights bls). rewrite B. repeat split; auto.
    constructor; auto. split; [|split; [|split; [|split]]].
    - rewrite H1. rewrite SA. unfold agrees in *. rewrite SA in AG.
      destruct algo; cbn [iwrr_init with_pos l_act l_bes l_algo l_sum l_max]; rewrite SA; exact AG.
    - rewrite H1, SA. destruct algo; cbn; auto.
    - intros ->. rewrite H1, SA. split; [cbn; lia|]. cbn. rewrite E1.
      destruct (l_bes bl); [congruence|]. cbn. auto.
    - rewrite H2. destruct (l_bes bl); [congruence|discriminate].
    - rewrite H2. exact S0. }
  destruct Q as (A & B & C). split; [|exact A]. constructor.
  - rewrite A. rewrite ids_map; auto. intros b. unfold clamp_pri. destruct (65535 <? b_pri b); reflexivity.
  - exact C.
  - rewrite B. exact W.
  - rewrite A, map_length. lia.
Qed.

Lemma inv_configured : forall algo l, config_ok l -> few (length l) ->
  inv algo (length l) (configured algo l) /\
  Permutation (members (configured algo l)) (map clamp_pri (map snd l)).
Proof.
  intros algo l [N P] F. unfold configured.
  destruct (cinv_fold l 0 [] ) as [C PM]; auto.
  { repeat split; auto; constructor. }
  cbv zeta in *. rewrite Nat.add_0_r in C. cbn in PM. rewrite app_nil_r in PM.
  destruct (inv_finalize algo (length l) _ F C) as [I M].
  { eapply Permutation_NoDup; [|exact N]. apply Permutation_map. symmetry. exact PM. }
  split; [exact I|]. rewrite M. apply Permutation_map. exact PM.
Qed.

Lemma reach_inv : forall algo l os, config_ok l -> few (length os + length l) ->
  ops_ok algo (configured algo l) os ->
  inv algo (length os + length l) (brun algo (configured algo l) os).
Proof.
  intros algo l os C F O. apply inv_run; auto.
  apply inv_configured; auto. eapply few_le; eauto. lia.
Qed.

(** Effects of the operations on the members. *)
Lemma kill_members : forall algo k bls id m b, few k -> inv algo k bls ->
  find_in_groups id bls = Some b -> b_kind b = BE_REGULAR ->
  members (kill_be id m bls) = map (cb_backend_disable id m) (members bls).
Proof.
  intros algo k bls id m b F I FB K. unfold kill_be. rewrite FB, K. unfold on_group.
  clear FB K. destruct I as [_ G _ S].
  induction bls as [|bl bls IH]; [reflexivity|]. inversion G as [|? ? G1 G2]; subst.
  rewrite members_cons, app_length in S. cbn [map]. rewrite !members_cons, map_app.
  rewrite IH; [|auto|lia]. f_equal.
  destruct (has_id id bl) eqn:H.
  - destruct G1 as (_ & _ & _ & _ & SM).
    destruct (recompute_spec (cb_backend_disable id m) bl) as (E & _); auto.
    + unfold small in *. rewrite Forall_forall in *. intros c Hc. apply in_map_iff in Hc.
      destruct Hc as (d & <- & Hd). rewrite cb_pri. auto.
    + unfold few in *. lia.
  - unfold has_id in H. destruct (find_be id (l_bes bl)) eqn:E; [discriminate|].
    apply find_be_none in E. rewrite <- (map_id (l_bes bl)) at 1. apply map_ext_in.
    intros c Hc. unfold cb_backend_disable. destruct (Z.eqb_spec (b_id c) id); [|reflexivity].
    exfalso. apply E. subst id. apply in_map. auto.
Qed.

Lemma find_in_groups_some : forall id bls b, NoDup (ids (members bls)) ->
  In b (members bls) -> b_id b = id -> find_in_groups id bls = Some b.
Proof.
  intros id bls b N I E. destruct (find_in_groups id bls) as [c|] eqn:F.
  - apply find_groups_in in F. destruct F as [F1 F2]. f_equal.
    apply (same_id_same (members bls)); auto. congruence.
  - exfalso. clear N. induction bls as [|bl bls IH]; [destruct I|].
    cbn [find_in_groups] in F. rewrite members_cons in I.
    destruct (find_be id (l_bes bl)) eqn:X; [discriminate|].
    apply in_app_or in I. destruct I as [I|I]; [|auto].
    apply find_be_none in X. apply X. subst id. apply in_map. auto.
Qed.

Lemma touch_count_members : forall id bls, members (touch_count id bls) = members bls.
Proof.
  intros id bls. unfold touch_count. destruct (find_in_groups id bls) as [b|]; [|reflexivity].
  unfold on_group. induction bls as [|bl bls IH]; [reflexivity|]. cbn [map].
  rewrite !members_cons, IH. f_equal. destruct (has_id id bl); [|reflexivity].
  unfold balancer_pri_update. destruct (l_algo bl).
  - destruct (_ <? _); reflexivity.
  - destruct (_ =? _); reflexivity.
Qed.

Lemma on_group_members : forall id f bls,
  members (on_group id (map_be id f) bls)
  = map (fun c => if b_id c =? id then f c else c) (members bls).
Proof.
  intros id f bls. unfold on_group. induction bls as [|bl bls IH]; [reflexivity|].
  cbn [map]. rewrite !members_cons, map_app, IH. f_equal.
  destruct (has_id id bl) eqn:H; [reflexivity|]. unfold has_id in H.
  destruct (find_be id (l_bes bl)) eqn:E; [discriminate|]. apply find_be_none in E.
  rewrite <- (map_id (l_bes bl)) at 1. apply map_ext_in. intros c Hc.
  destruct (Z.eqb_spec (b_id c) id); [|reflexivity]. exfalso. apply E. subst id. apply in_map. auto.
Qed.

Lemma touch_members : forall bls id b, find_in_groups id bls = Some b -> b_kind b = BE_REGULAR ->
  NoDup (ids (members bls)) ->
  members (touch_be id bls)
  = map (fun c => if b_id c =? id then set_alive c true else c) (members bls).
Proof.
  intros bls id b F K N. unfold touch_be, touch_mark. rewrite F, K.
  destruct (b_alive b) eqn:A.
  - rewrite <- (map_id (members bls)) at 1. apply map_ext_in. intros c Hc.
    destruct (Z.eqb_spec (b_id c) id) as [E|E]; [|reflexivity].
    apply find_groups_in in F. destruct F as [F1 F2].
    assert (c = b) by (apply (same_id_same (members bls)); auto; congruence). subst c.
    destruct b; cbn in *; subst; reflexivity.
  - destruct (negb (b_disabled b)).
    + rewrite touch_count_members. apply on_group_members.
    + apply on_group_members.
Qed.

Lemma has_backends_iff : forall bls, Forall agrees bls ->
  (service_has_backends bls = true <-> exists b, In b (members bls) /\ usable b).
Proof.
  intros bls F. unfold service_has_backends. rewrite existsb_exists. split.
  - intros (bl & I & P). rewrite Forall_forall in F. destruct (F bl I) as [A _].
    rewrite A in P. unfold n_usable in P.
    destruct (filter usableb (l_bes bl)) as [|b l] eqn:E; [cbn in P; lia|].
    assert (X : In b (filter usableb (l_bes bl))) by (rewrite E; cbn; auto).
    apply filter_In in X. exists b. split; [|apply X]. eapply member_group; eauto. apply X.
  - intros (b & I & U). unfold members in I. apply in_flat_map in I. destruct I as (bl & I & J).
    exists bl. split; auto. rewrite Forall_forall in F. destruct (F bl I) as [A _]. rewrite A.
    unfold n_usable. assert (X : In b (filter usableb (l_bes bl))) by (apply filter_In; auto).
    destruct (filter usableb (l_bes bl)); [destruct X|]. cbn [length]. lia.
Qed.
