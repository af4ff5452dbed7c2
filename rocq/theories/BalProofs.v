(** Proofs about balancing: the random draw, the round robin, the counters. *)
From Coq Require Import List ZArith Bool Lia Permutation.
From Coq Require Import ZifyBool ZifyNat.
From Verif Require Import BalModel BalSpec.
Import ListNotations.
Open Scope Z_scope.

Lemma active_usable : forall b, backend_is_active b = usableb b.
Proof.
  intros b. unfold backend_is_active, usableb, backend_is_alive.
  destruct (b_kind b); reflexivity.
Qed.

Lemma total_cons : forall b l,
  total_pri (b :: l) = (if usableb b then b_pri b else 0) + total_pri l.
Proof. intros. unfold total_pri. cbn [filter]. destruct (usableb b); cbn; lia. Qed.

Lemma n_usable_cons : forall b l,
  n_usable (b :: l) = (if usableb b then 1 else 0) + n_usable l.
Proof. intros. unfold n_usable. cbn [filter]. destruct (usableb b); cbn [length]; lia. Qed.

Lemma top_cons : forall b l,
  top_pri (b :: l) = if usableb b then Z.max (b_pri b) (top_pri l) else top_pri l.
Proof. intros. unfold top_pri. cbn [filter]. destruct (usableb b); reflexivity. Qed.

Lemma top_nonneg : forall l, 0 <= top_pri l.
Proof. induction l as [|b l IH]; [cbn; lia|]. rewrite top_cons. destruct (usableb b); lia. Qed.

Lemma total_nonneg : forall l, Forall (fun b => 0 <= b_pri b) l -> 0 <= total_pri l.
Proof.
  induction l as [|b l IH]; intros F; [cbn; lia|]. rewrite total_cons.
  inversion F; subst. specialize (IH H2). destruct (usableb b); lia.
Qed.

(** * The random algorithm *)

Lemma rand_walk_hit : forall l d, Forall (fun b => 0 <= b_pri b) l ->
  0 <= d < total_pri l ->
  exists b, rand_walk d l = Some b /\ In b l /\ usable b.
Proof.
  induction l as [|b l IH]; intros d F H; [cbn in H; lia|].
  inversion F as [|? ? Hb F']; subst. rewrite total_cons in H.
  cbn [rand_walk]. rewrite active_usable. destruct (usableb b) eqn:U.
  - destruct (Z.ltb_spec (d - b_pri b) 0).
    + exists b. cbn. auto.
    + destruct (IH (d - b_pri b) F') as (c & E & I & V); [lia|]. exists c. cbn; auto.
  - destruct (IH d F') as (c & E & I & V); [lia|]. exists c; cbn; auto.
Qed.

Lemma rand_walk_in : forall l d b, rand_walk d l = Some b -> In b l /\ usable b.
Proof.
  induction l as [|a l IH]; cbn [rand_walk]; intros d b H; [discriminate|].
  rewrite active_usable in H. destruct (usableb a) eqn:U.
  - destruct (d - b_pri a <? 0).
    + inversion H; subst. cbn; auto.
    + apply IH in H. cbn; tauto.
  - apply IH in H. cbn; tauto.
Qed.

Lemma how_many_app : forall f a b, how_many f (a ++ b) = (how_many f a + how_many f b)%nat.
Proof. intros. unfold how_many. rewrite filter_app, app_length. reflexivity. Qed.

Lemma ints_shift : forall m lo n s,
  map (fun i => lo + Z.of_nat i) (seq (n + s) m)
  = map (fun i => lo + Z.of_nat n + Z.of_nat i) (seq s m).
Proof.
  induction m as [|m IH]; intros; cbn [seq map]; [reflexivity|]. f_equal; [lia|].
  rewrite <- IH. do 2 f_equal. lia.
Qed.

Lemma ints_app : forall lo n m, ints lo (n + m) = ints lo n ++ ints (lo + Z.of_nat n) m.
Proof.
  intros. unfold ints. rewrite seq_app, map_app. f_equal.
  rewrite <- ints_shift. do 2 f_equal. lia.
Qed.

Lemma how_many_ext : forall f g l, (forall x, In x l -> f x = g x) -> how_many f l = how_many g l.
Proof.
  intros f g l H. unfold how_many. rewrite (filter_ext_in f g); auto.
Qed.

Lemma how_many_none : forall f l, (forall x, In x l -> f x = false) -> how_many f l = O.
Proof.
  intros f l. unfold how_many. induction l as [|x l IH]; intros H; [reflexivity|].
  cbn. rewrite (H x); cbn; auto. apply IH. intros; apply H; cbn; auto.
Qed.

Lemma how_many_all : forall f l, (forall x, In x l -> f x = true) -> how_many f l = length l.
Proof.
  intros f l. unfold how_many. induction l as [|x l IH]; intros H; [reflexivity|].
  cbn. rewrite (H x); cbn; auto. f_equal. apply IH. intros; apply H; cbn; auto.
Qed.

Lemma ints_length : forall lo n, length (ints lo n) = n.
Proof. intros. unfold ints. rewrite map_length, seq_length. reflexivity. Qed.

Lemma ints_in : forall lo n x, In x (ints lo n) <-> lo <= x < lo + Z.of_nat n.
Proof.
  intros. unfold ints. rewrite in_map_iff. split.
  - intros (i & E & I). apply in_seq in I. lia.
  - intros H. exists (Z.to_nat (x - lo)). split; [lia|]. apply in_seq. lia.
Qed.

Lemma how_many_shift : forall f n lo k,
  how_many f (ints (lo + k) n) = how_many (fun d => f (d + k)) (ints lo n).
Proof.
  intros f n lo k. unfold how_many, ints.
  generalize (seq 0 n) as s. induction s as [|i s IH]; [reflexivity|].
  cbn [map filter]. replace (lo + Z.of_nat i + k) with (lo + k + Z.of_nat i) by lia.
  destruct (f (lo + k + Z.of_nat i)); cbn [length]; lia.
Qed.

Definition picks (l : list backend) (id d : Z) : bool :=
  match rand_walk d l with Some b => b_id b =? id | None => false end.

Lemma rand_count : forall l id, Forall (fun b => 0 <= b_pri b) l -> NoDup (ids l) ->
  how_many (picks l id) (ints 0 (Z.to_nat (total_pri l)))
  = Z.to_nat (total_pri (filter (fun b => b_id b =? id) l)).
Proof.
  induction l as [|b l IH]; intros id F N; [reflexivity|].
  inversion F as [|? ? Hb F']; subst. cbn [ids map] in N. inversion N as [|? ? Nb N']; subst.
  specialize (IH id F' N'). pose proof (total_nonneg l F') as T.
  rewrite total_cons. cbn [filter]. destruct (usableb b) eqn:U.
  - rewrite Z2Nat.inj_add by lia. rewrite ints_app, how_many_app.
    replace (how_many (picks (b :: l) id) (ints (0 + Z.of_nat (Z.to_nat (b_pri b))) (Z.to_nat (total_pri l))))
      with (how_many (picks l id) (ints 0 (Z.to_nat (total_pri l)))).
    2:{ rewrite how_many_shift. apply how_many_ext. intros x Hx. apply ints_in in Hx.
        unfold picks. cbn [rand_walk]. rewrite active_usable, U.
        destruct (Z.ltb_spec (x + Z.of_nat (Z.to_nat (b_pri b)) - b_pri b) 0); [lia|].
        replace (x + Z.of_nat (Z.to_nat (b_pri b)) - b_pri b) with x by lia. reflexivity. }
    rewrite IH.
    assert (HD : forall x, In x (ints 0 (Z.to_nat (b_pri b))) -> picks (b :: l) id x = (b_id b =? id)).
    { intros x Hx. apply ints_in in Hx. unfold picks. cbn [rand_walk]. rewrite active_usable, U.
      destruct (Z.ltb_spec (x - b_pri b) 0); [reflexivity|lia]. }
    destruct (b_id b =? id) eqn:E.
    + rewrite how_many_all by exact HD. rewrite ints_length.
      rewrite total_cons, U. assert (0 <= total_pri (filter (fun c => b_id c =? id) l)).
      { apply total_nonneg. rewrite Forall_forall in *. intros c Hc.
        apply filter_In in Hc. apply F'; tauto. }
      lia.
    + rewrite how_many_none by exact HD. reflexivity.
  - rewrite Z.add_0_l.
    rewrite (how_many_ext (picks (b :: l) id) (picks l id)).
    2:{ intros x _. unfold picks. cbn [rand_walk]. rewrite active_usable, U. reflexivity. }
    rewrite IH. destruct (b_id b =? id) eqn:E; [|reflexivity].
    rewrite total_cons, U. reflexivity.
Qed.

Lemma total_single : forall l b, NoDup (ids l) -> In b l ->
  total_pri (filter (fun c => b_id c =? b_id b) l) = if usableb b then b_pri b else 0.
Proof.
  induction l as [|a l IH]; intros b N I; [destruct I|].
  cbn [ids map] in N. inversion N as [|? ? Na N']; subst.
  cbn [filter]. destruct I as [->|I].
  - rewrite Z.eqb_refl. rewrite total_cons.
    replace (filter (fun c => b_id c =? b_id b) l) with (@nil backend); [cbn; lia|].
    symmetry. clear - Na. induction l as [|c l IH]; [reflexivity|]. cbn.
    destruct (Z.eqb_spec (b_id c) (b_id b)).
    + exfalso. apply Na. cbn. auto.
    + apply IH. intros H; apply Na; cbn; auto.
  - destruct (Z.eqb_spec (b_id a) (b_id b)) as [E|E].
    + exfalso. apply Na. rewrite E. apply in_map. auto.
    + auto.
Qed.

Lemma random_loop_range : forall rs max min v rs', 0 < max ->
  random_loop max min rs = Some (v, rs') -> 0 <= v < max.
Proof.
  induction rs as [|r rs IH]; cbn; intros max min v rs' M H; [discriminate|].
  destruct (r <? min); [eauto|]. inversion H; subst. apply Z.mod_pos_bound; lia.
Qed.

Lemma random_in_range_range : forall rs max v rs', 0 < max ->
  random_in_range max rs = Some (v, rs') -> 0 <= v < max.
Proof.
  unfold random_in_range. intros rs max v rs' M H. destruct (Z.ltb_spec max 2).
  - inversion H; subst. lia.
  - eapply random_loop_range; eauto.
Qed.

Definition big (r : Z) : bool := 2 ^ 30 <=? r.

Lemma random_loop_done : forall rs max min k, min <= 2 ^ 30 ->
  (k < how_many big rs)%nat ->
  exists v rs', random_loop max min rs = Some (v, rs') /\ (k <= how_many big rs')%nat.
Proof.
  induction rs as [|r rs IH]; intros max min k M H; [cbn in H; lia|].
  cbn [random_loop]. unfold how_many in *. cbn [filter] in H.
  destruct (Z.ltb_spec r min).
  - assert (B : big r = false) by (unfold big; lia). rewrite B in H. auto.
  - do 2 eexists. split; [reflexivity|]. destruct (big r); cbn [length] in H; lia.
Qed.

Lemma random_in_range_done : forall rs max k, max <= 2 ^ 30 ->
  (k < how_many big rs)%nat ->
  exists v rs', random_in_range max rs = Some (v, rs') /\ (k <= how_many big rs')%nat.
Proof.
  unfold random_in_range. intros rs max k M H. destruct (Z.ltb_spec max 2).
  - do 2 eexists. split; [reflexivity|lia].
  - apply random_loop_done; auto.
    pose proof (Z.mod_pos_bound (ULONG_MOD - max) max ltac:(lia)). lia.
Qed.

(** The three residues modulo 3 cannot be equally frequent among 2^31 - 1 numbers. *)
Lemma residues3 : forall l : list Z,
  length l = (how_many (fun r => Z.eqb (r mod 3) 0) l + how_many (fun r => Z.eqb (r mod 3) 1) l
              + how_many (fun r => Z.eqb (r mod 3) 2) l)%nat.
Proof.
  unfold how_many. induction l as [|x l IH]; [reflexivity|].
  pose proof (Z.mod_pos_bound x 3 ltac:(lia)). cbn [filter].
  destruct (Z.eqb_spec (x mod 3) 0), (Z.eqb_spec (x mod 3) 1), (Z.eqb_spec (x mod 3) 2);
    cbn [length]; lia.
Qed.

Lemma biased : let l := ints 1 (Z.to_nat (RANDOM_MOD - 1)) in
  ~ (how_many (fun r => Z.eqb (r mod 3) 0) l = how_many (fun r => Z.eqb (r mod 3) 1) l /\
     how_many (fun r => Z.eqb (r mod 3) 1) l = how_many (fun r => Z.eqb (r mod 3) 2) l).
Proof.
  cbv zeta. intros [A B].
  pose proof (residues3 (ints 1 (Z.to_nat (RANDOM_MOD - 1)))) as R.
  rewrite ints_length in R. rewrite A, B in R.
  set (c := how_many _ _) in R. clearbody c. unfold RANDOM_MOD in R.
  assert (Z.of_nat (Z.to_nat (2 ^ 31 - 1)) = Z.of_nat (c + c + c)) by (rewrite R; reflexivity).
  rewrite Z2Nat.id in H by lia. lia.
Qed.

(** * The round robin *)

Definition elig (r : Z) (b : backend) : bool := usableb b && (r <? b_pri b).

(** k iterations of the selection loop, collecting the backends found. *)
Fixpoint mrun (k : nat) (bl : balancer) : option (list backend * balancer) :=
  match k with
  | O => Some ([], bl)
  | S k' =>
      match l_cur bl with
      | None => None
      | Some id =>
          match iwrr_step bl id with
          | None => None
          | Some (be, bl') =>
              match mrun k' bl' with
              | None => None
              | Some (l, bl'') => Some (match be with Some b => b :: l | None => l end, bl'')
              end
          end
      end
  end.

Lemma mrun_app : forall a b bl l1 bl1 l2 bl2,
  mrun a bl = Some (l1, bl1) -> mrun b bl1 = Some (l2, bl2) ->
  mrun (a + b) bl = Some (l1 ++ l2, bl2).
Proof.
  induction a as [|a IH]; intros b bl l1 bl1 l2 bl2 H1 H2; cbn [mrun Nat.add] in *.
  - inversion H1; subst. exact H2.
  - destruct (l_cur bl) as [id|]; [|discriminate].
    destruct (iwrr_step bl id) as [[be bl']|]; [|discriminate].
    destruct (mrun a bl') as [[l bl'']|] eqn:E; [|discriminate].
    inversion H1; subst. rewrite (IH _ _ _ _ _ _ E H2). destruct be; reflexivity.
Qed.

Lemma find_be_mid : forall pre b post, NoDup (ids (pre ++ b :: post)) ->
  find_be (b_id b) (pre ++ b :: post) = Some b.
Proof.
  induction pre as [|a pre IH]; intros b post N; cbn [find_be app].
  - rewrite Z.eqb_refl. reflexivity.
  - cbn [ids map app] in N. inversion N as [|? ? Na N']; subst.
    destruct (Z.eqb_spec (b_id a) (b_id b)) as [E|E].
    + exfalso. apply Na. rewrite E. apply in_map. apply in_or_app. cbn; auto.
    + apply IH. exact N'.
Qed.

Lemma next_id_mid : forall pre b post, NoDup (ids (pre ++ b :: post)) ->
  next_id (b_id b) (pre ++ b :: post) = first_id post.
Proof.
  induction pre as [|a pre IH]; intros b post N; cbn [next_id app].
  - rewrite Z.eqb_refl. reflexivity.
  - cbn [ids map app] in N. inversion N as [|? ? Na N']; subst.
    destruct (Z.eqb_spec (b_id a) (b_id b)) as [E|E].
    + exfalso. apply Na. rewrite E. apply in_map. apply in_or_app. cbn; auto.
    + apply IH. exact N'.
Qed.

Lemma with_pos_twice : forall bl a b c d, with_pos (with_pos bl a b) c d = with_pos bl c d.
Proof. reflexivity. Qed.

Lemma with_pos_same : forall bl, with_pos bl (l_round bl) (l_cur bl) = bl.
Proof. intros []; reflexivity. Qed.

Lemma step_mid : forall bl pre b post, NoDup (ids (pre ++ b :: post)) ->
  l_bes bl = pre ++ b :: post ->
  iwrr_step bl (b_id b) =
  Some (if elig (l_round bl) b then Some b else None,
        match first_id post with
        | Some n => with_pos bl (l_round bl) (Some n)
        | None => with_pos bl ((l_round bl + 1) mod (l_max bl + 1)) (first_id (l_bes bl))
        end).
Proof.
  intros bl pre b post N E. unfold iwrr_step. rewrite E.
  rewrite find_be_mid, next_id_mid by assumption. rewrite active_usable. fold (elig (l_round bl) b).
  destruct (first_id post); reflexivity.
Qed.

(** Within one round. *)
Lemma mrun_mid : forall mid bl pre x post, NoDup (ids (pre ++ mid ++ x :: post)) ->
  l_bes bl = pre ++ mid ++ x :: post -> l_cur bl = first_id (mid ++ x :: post) ->
  mrun (length mid) bl =
  Some (filter (elig (l_round bl)) mid, with_pos bl (l_round bl) (Some (b_id x))).
Proof.
  induction mid as [|b mid IH]; intros bl pre x post N E C.
  - cbn in *. rewrite <- C, with_pos_same. reflexivity.
  - cbn [length mrun]. rewrite C. cbn [first_id app].
    rewrite (step_mid bl pre b (mid ++ x :: post)); [|exact N|exact E].
    destruct (first_id (mid ++ x :: post)) as [n|] eqn:F; [|destruct mid; discriminate].
    rewrite (IH (with_pos bl (l_round bl) (Some n)) (pre ++ [b]) x post);
      [|rewrite <- app_assoc; exact N|cbn; rewrite <- app_assoc; exact E|cbn; auto].
    cbn [filter l_round with_pos]. destruct (elig (l_round bl) b); reflexivity.
Qed.

(** To the end of a round. *)
Lemma mrun_end : forall bl pre post, NoDup (ids (pre ++ post)) ->
  l_bes bl = pre ++ post -> post <> [] -> l_cur bl = first_id post ->
  mrun (length post) bl =
  Some (filter (elig (l_round bl)) post,
        with_pos bl ((l_round bl + 1) mod (l_max bl + 1)) (first_id (l_bes bl))).
Proof.
  intros bl pre post N E NE C. destruct (exists_last NE) as (mid & x & ->).
  rewrite app_length. cbn [length].
  assert (M : mrun (length mid) bl =
    Some (filter (elig (l_round bl)) mid, with_pos bl (l_round bl) (Some (b_id x)))).
  { apply (mrun_mid mid bl pre x []); auto. }
  rewrite (mrun_app _ 1 _ _ _ (if elig (l_round bl) x then [x] else []) 
     (with_pos bl ((l_round bl + 1) mod (l_max bl + 1)) (first_id (l_bes bl))) M).
  - rewrite filter_app. cbn [filter]. reflexivity.
  - cbn [mrun l_cur with_pos].
    rewrite (step_mid _ (pre ++ mid) x []);
      [|rewrite <- app_assoc; exact N|cbn; rewrite <- app_assoc; exact E].
    cbn [first_id l_round l_max l_bes with_pos]. destruct (elig (l_round bl) x); reflexivity.
Qed.

Definition rounds (l : list backend) (a : Z) (k : nat) : list backend :=
  flat_map (fun q => filter (elig q) l) (ints a k).

Lemma ints_S : forall a k, ints a (S k) = a :: ints (a + 1) k.
Proof.
  intros. change (S k) with (1 + k)%nat. rewrite ints_app.
  change (ints a 1) with [a + 0]. cbn. f_equal. lia.
Qed.

(** k full rounds that do not pass over the wrap-around except at the end. *)
Lemma mrun_rounds : forall k bl, NoDup (ids (l_bes bl)) -> l_bes bl <> [] ->
  l_cur bl = first_id (l_bes bl) -> 0 <= l_round bl ->
  l_round bl + Z.of_nat k <= l_max bl + 1 -> (0 < k)%nat ->
  mrun (k * length (l_bes bl)) bl =
  Some (rounds (l_bes bl) (l_round bl) k,
        with_pos bl ((l_round bl + Z.of_nat k) mod (l_max bl + 1)) (first_id (l_bes bl))).
Proof.
  induction k as [|k IH]; intros bl N NE C R0 RM K; [lia|].
  assert (E1 := mrun_end bl [] (l_bes bl) N eq_refl NE C).
  unfold rounds. rewrite ints_S. cbn [flat_map]. cbn [Nat.mul].
  destruct k as [|k].
  - cbn [Nat.mul]. rewrite Nat.add_0_r, E1. cbn. rewrite app_nil_r. reflexivity.
  - assert (W : (l_round bl + 1) mod (l_max bl + 1) = l_round bl + 1) by (apply Z.mod_small; lia).
    rewrite W in E1.
    assert (E2 := IH (with_pos bl (l_round bl + 1) (first_id (l_bes bl)))
                     N NE eq_refl ltac:(cbn; lia) ltac:(cbn [l_round l_max with_pos]; lia) ltac:(lia)).
    cbn [l_bes l_round l_max with_pos] in E2. rewrite with_pos_twice in E2.
    rewrite (mrun_app _ _ _ _ _ _ _ E1 E2).
    unfold rounds. do 4 f_equal. lia.
Qed.

(** One whole cycle from any position within the rounds. *)
Lemma mrun_cycle : forall bl pre post, NoDup (ids (l_bes bl)) ->
  l_bes bl = pre ++ post -> post <> [] -> l_cur bl = first_id post ->
  0 <= l_round bl <= l_max bl ->
  exists bl', 
  mrun (Z.to_nat (l_max bl + 1) * length (l_bes bl)) bl =
  Some (filter (elig (l_round bl)) post
        ++ rounds (l_bes bl) (l_round bl + 1) (Z.to_nat (l_max bl - l_round bl))
        ++ rounds (l_bes bl) 0 (Z.to_nat (l_round bl))
        ++ filter (elig (l_round bl)) pre, bl').
Proof.
  intros bl pre post N E NE C R.
  set (n := length (l_bes bl)). set (r := l_round bl) in *. set (M := l_max bl) in *.
  assert (NE' : l_bes bl <> []) by (rewrite E; destruct pre; [exact NE|discriminate]).
  assert (E1 : mrun (length post) bl = Some (filter (elig r) post,
     with_pos bl ((r + 1) mod (M + 1)) (first_id (l_bes bl)))).
  { apply (mrun_end bl pre post); auto. rewrite <- E. auto. }
  (* to the start of round 0 *)
  assert (E2 : mrun (Z.to_nat (M - r) * n) (with_pos bl ((r + 1) mod (M + 1)) (first_id (l_bes bl)))
     = Some (rounds (l_bes bl) (r + 1) (Z.to_nat (M - r)), with_pos bl 0 (first_id (l_bes bl)))).
  { destruct (Z.eq_dec r M) as [EM|EM].
    - rewrite EM, Z.sub_diag. cbn. rewrite Z.mod_same by lia. reflexivity.
    - rewrite (Z.mod_small (r + 1)) by lia.
      set (b2 := with_pos bl (r + 1) (first_id (l_bes bl))).
      assert (Q := mrun_rounds (Z.to_nat (M - r)) b2 N NE' eq_refl
         ltac:(cbn; lia) ltac:(cbn [b2 l_round l_max with_pos]; fold M; lia) ltac:(lia)).
      cbn [b2 l_bes l_round l_max with_pos] in Q. fold n in Q. fold b2 in Q. fold M in Q. rewrite Q.
      unfold b2. rewrite with_pos_twice. do 3 f_equal.
      replace (r + 1 + Z.of_nat (Z.to_nat (M - r))) with (M + 1) by lia. apply Z.mod_same. lia. }
  (* to the start of round r *)
  assert (E3 : mrun (Z.to_nat r * n) (with_pos bl 0 (first_id (l_bes bl)))
     = Some (rounds (l_bes bl) 0 (Z.to_nat r), with_pos bl r (first_id (l_bes bl)))).
  { destruct (Z.eq_dec r 0) as [E0|E0].
    - rewrite E0. reflexivity.
    - set (b2 := with_pos bl 0 (first_id (l_bes bl))).
      assert (Q := mrun_rounds (Z.to_nat r) b2 N NE' eq_refl
         ltac:(cbn; lia) ltac:(cbn [b2 l_round l_max with_pos]; fold M; lia) ltac:(lia)).
      cbn [b2 l_bes l_round l_max with_pos] in Q. fold n in Q. fold b2 in Q. fold M in Q. rewrite Q.
      unfold b2. rewrite with_pos_twice. do 3 f_equal.
      rewrite Z.mod_small by lia. lia. }
  (* within round r *)
  assert (E4 : exists bl', mrun (length pre) (with_pos bl r (first_id (l_bes bl)))
     = Some (filter (elig r) pre, bl')).
  { destruct post as [|x post]; [congruence|]. eexists.
    refine (mrun_mid pre (with_pos bl r (first_id (l_bes bl))) [] x post _ E _);
      cbn [app]; [rewrite <- E; exact N|]. cbn [l_cur with_pos]. rewrite E. reflexivity. }
  destruct E4 as [bl' E4]. exists bl'.
  replace (Z.to_nat (M + 1) * n)%nat
    with (length post + (Z.to_nat (M - r) * n + (Z.to_nat r * n + length pre)))%nat.
  2:{ unfold n. rewrite E, app_length.
      replace (Z.to_nat (M + 1)) with (S (Z.to_nat (M - r) + Z.to_nat r)) by lia. lia. }
  apply (mrun_app _ _ _ _ _ _ _ E1). apply (mrun_app _ _ _ _ _ _ _ E2).
  apply (mrun_app _ _ _ _ _ _ _ E3). exact E4.
Qed.

(** Counting a backend in a cycle. *)
Lemma times_app : forall id a b, times id (a ++ b) = (times id a + times id b)%nat.
Proof. intros. unfold times. rewrite filter_app, app_length. reflexivity. Qed.

Lemma times_notin : forall id l, ~ In id (ids l) -> times id l = O.
Proof.
  intros id l. unfold times, ids. induction l as [|b l IH]; intros H; [reflexivity|].
  cbn. destruct (Z.eqb_spec (b_id b) id); [exfalso; apply H; cbn; auto|].
  apply IH. intros I; apply H; cbn; auto.
Qed.

Lemma ids_filter : forall f l x, In x (ids (filter f l)) -> In x (ids l).
Proof.
  unfold ids. intros f l x H. apply in_map_iff in H. destruct H as (b & <- & I).
  apply filter_In in I. apply in_map. tauto.
Qed.

Lemma times_filter : forall f l b, NoDup (ids l) -> In b l ->
  times (b_id b) (filter f l) = if f b then 1%nat else 0%nat.
Proof.
  induction l as [|a l IH]; intros b N I; [destruct I|].
  cbn [ids map] in N. inversion N as [|? ? Na N']; subst. cbn [filter].
  destruct I as [->|I].
  - destruct (f b) eqn:F.
    + unfold times. cbn [filter]. rewrite Z.eqb_refl. cbn [length].
      change (length (filter (fun c => b_id c =? b_id b) (filter f l)))
        with (times (b_id b) (filter f l)).
      rewrite times_notin; [reflexivity|]. intros H. apply Na. eapply ids_filter; eauto.
    + apply times_notin. intros H. apply Na. eapply ids_filter; eauto.
  - assert (b_id a =? b_id b = false).
    { apply Z.eqb_neq. intros E. apply Na. rewrite E. apply in_map. auto. }
    destruct (f a).
    + unfold times. cbn [filter]. rewrite H. apply IH; auto.
    + apply IH; auto.
Qed.

Lemma times_rounds : forall l b k a, NoDup (ids l) -> In b l ->
  times (b_id b) (rounds l a k) = how_many (fun q => elig q b) (ints a k).
Proof.
  intros l b k a N I. unfold rounds, how_many. generalize (ints a k) as qs.
  induction qs as [|q qs IH]; [reflexivity|]. cbn [flat_map filter].
  rewrite times_app, IH, times_filter by assumption. destruct (elig q b); reflexivity.
Qed.

Lemma how_many_elig : forall b M, 0 <= b_pri b <= M -> usable b ->
  how_many (fun q => elig q b) (ints 0 (Z.to_nat (M + 1))) = Z.to_nat (b_pri b).
Proof.
  intros b M H U.
  replace (Z.to_nat (M + 1)) with (Z.to_nat (b_pri b) + Z.to_nat (M + 1 - b_pri b))%nat by lia.
  rewrite ints_app, how_many_app.
  rewrite how_many_all, how_many_none; rewrite ?ints_length; try lia.
  - intros x I. apply ints_in in I. unfold elig. rewrite U. cbn. lia.
  - intros x I. apply ints_in in I. unfold elig. rewrite U. cbn. lia.
Qed.

Definition cycle (l pre post : list backend) (r M : Z) : list backend :=
  filter (elig r) post ++ rounds l (r + 1) (Z.to_nat (M - r)) ++ rounds l 0 (Z.to_nat r)
  ++ filter (elig r) pre.

Lemma cycle_times : forall l pre post r M b, NoDup (ids l) -> l = pre ++ post -> In b l ->
  0 <= r <= M -> (usable b -> 0 <= b_pri b <= M) ->
  times (b_id b) (cycle l pre post r M) = if usableb b then Z.to_nat (b_pri b) else 0%nat.
Proof.
  intros l pre post r M b N E I R P. unfold cycle. rewrite !times_app.
  rewrite !times_rounds by assumption.
  assert (T : (times (b_id b) (filter (elig r) pre) + times (b_id b) (filter (elig r) post)
          = how_many (fun q => elig q b) (ints r 1))%nat).
  { rewrite <- times_app, <- filter_app, <- E, times_filter by assumption.
    unfold how_many. rewrite ints_S. cbn. destruct (elig r b); reflexivity. }
  assert (S1 : (how_many (fun q => elig q b) (ints 0 (Z.to_nat (M + 1)))
     = how_many (fun q => elig q b) (ints 0 (Z.to_nat r)) + (how_many (fun q => elig q b) (ints r 1)
       + how_many (fun q => elig q b) (ints (r + 1) (Z.to_nat (M - r)))))%nat).
  { replace (Z.to_nat (M + 1)) with (Z.to_nat r + (1 + Z.to_nat (M - r)))%nat by lia.
    rewrite ints_app, how_many_app. f_equal. rewrite ints_app, how_many_app. f_equal.
    - do 2 f_equal. lia.
    - do 2 f_equal. lia. }
  destruct (usableb b) eqn:U.
  - rewrite <- (how_many_elig b M); auto. lia.
  - assert (Z0 : how_many (fun q => elig q b) (ints 0 (Z.to_nat (M + 1))) = O).
    { apply how_many_none. intros. unfold elig. rewrite U. reflexivity. }
    lia.
Qed.

Lemma cycle_in : forall l pre post r M b, l = pre ++ post ->
  In b (cycle l pre post r M) -> In b l /\ usable b.
Proof.
  intros l pre post r M b E H. unfold cycle in H. 
  assert (F : forall q s, In b (filter (elig q) s) -> In b s /\ usable b).
  { intros q s I. apply filter_In in I. destruct I as [I J]. split; auto.
    unfold elig in J. apply andb_prop in J. apply J. }
  assert (G : forall a k, In b (rounds l a k) -> In b l /\ usable b).
  { intros a k I. unfold rounds in I. apply in_flat_map in I. destruct I as (q & _ & I). eauto. }
  rewrite !in_app_iff in H. destruct H as [H|[H|[H|H]]]; eauto.
  - apply F in H. subst l. rewrite in_app_iff. tauto.
  - apply F in H. subst l. rewrite in_app_iff. tauto.
Qed.

(** The length of a list of members is the sum of their multiplicities. *)
Lemma length_times : forall l P, NoDup (ids l) -> (forall b, In b P -> In b l) ->
  length P = fold_right Nat.add O (map (fun b => times (b_id b) P) l).
Proof.
  intros l P N. induction P as [|x P IH]; intros H.
  - cbn. clear. induction l; cbn; auto.
  - cbn [length]. rewrite IH by (intros; apply H; cbn; auto).
    assert (I : In x l) by (apply H; cbn; auto). clear IH H. 
    induction l as [|a l IH]; [destruct I|].
    cbn [ids map] in N. inversion N as [|? ? Na N']; subst. cbn [map fold_right].
    unfold times at 3. cbn [filter]. destruct I as [->|I].
    + rewrite Z.eqb_refl. cbn [length]. fold (times (b_id x) P).
      assert (forall l', ~ In (b_id x) (ids l') ->
        map (fun b => times (b_id b) (x :: P)) l' = map (fun b => times (b_id b) P) l').
      { clear. induction l' as [|c l' IH]; intros H; [reflexivity|]. cbn [map]. f_equal.
        - unfold times. cbn [filter]. destruct (Z.eqb_spec (b_id x) (b_id c)); [|reflexivity].
          exfalso. apply H. cbn. auto.
        - apply IH. intros I; apply H; cbn; auto. }
      rewrite H by exact Na. lia.
    + assert (b_id x =? b_id a = false).
      { apply Z.eqb_neq. intros E. apply Na. rewrite <- E. apply in_map. auto. }
      rewrite H. fold (times (b_id a) P). rewrite <- IH by assumption. lia.
Qed.

Lemma cycle_length : forall l pre post r M, NoDup (ids l) -> l = pre ++ post ->
  0 <= r <= M -> (forall b, In b l -> usable b -> 0 <= b_pri b <= M) ->
  length (cycle l pre post r M) = Z.to_nat (total_pri l).
Proof.
  intros l pre post r M N E R P.
  rewrite (length_times l) by (auto; intros b I; eapply cycle_in; eauto).
  assert (Q : map (fun b => times (b_id b) (cycle l pre post r M)) l
     = map (fun b => if usableb b then Z.to_nat (b_pri b) else 0%nat) l).
  { apply map_ext_in. intros b I. apply cycle_times; auto. }
  rewrite Q. clear - P. induction l as [|b l IH]; [reflexivity|].
  cbn [map fold_right]. rewrite IH by (intros; apply P; cbn; auto).
  rewrite total_cons. 
  assert (0 <= total_pri l).
  { clear IH. induction l as [|c l IH]; [cbn; lia|]. rewrite total_cons.
    assert (0 <= total_pri l) by (apply IH; intros; apply P; cbn in *; tauto).
    destruct (usableb c) eqn:U; [|lia]. specialize (P c ltac:(cbn; auto) U). lia. }
  destruct (usableb b) eqn:U; [|lia]. specialize (P b ltac:(cbn; auto) U). lia.
Qed.

(** From iterations to selections. *)
Lemma mrun_select : forall k bl x P bl' fuel, mrun k bl = Some (x :: P, bl') -> (k <= fuel)%nat ->
  exists bl1 k', iwrr_select fuel bl = Picked x bl1 /\ mrun k' bl1 = Some (P, bl') /\ (k' <= fuel)%nat.
Proof.
  assert (L : forall k bl x P bl' fuel, mrun k bl = Some (x :: P, bl') -> (k <= fuel)%nat ->
    exists bl1 k', iwrr_loop fuel bl = Picked x bl1 /\ mrun k' bl1 = Some (P, bl') /\ (k' <= k)%nat).
  { induction k as [|k IH]; intros bl x P bl' fuel H F; [discriminate|].
    destruct fuel as [|fuel]; [lia|]. cbn [mrun iwrr_loop] in *.
    destruct (l_cur bl) as [id|]; [|discriminate].
    destruct (iwrr_step bl id) as [[[be|] bl2]|]; [| |discriminate].
    - destruct (mrun k bl2) as [[l bl3]|] eqn:E; [|discriminate]. inversion H; subst.
      exists bl2, k. repeat split; auto.
    - destruct (mrun k bl2) as [[l bl3]|] eqn:E; [|discriminate]. inversion H; subst.
      destruct (IH _ _ _ _ fuel E ltac:(lia)) as (b1 & k1 & A & B & D).
      exists b1, k1. repeat split; auto. }
  intros k bl x P bl' fuel H F. destruct (L _ _ _ _ _ fuel H F) as (b1 & k1 & A & B & D).
  exists b1, k1. repeat split; auto; [|lia]. unfold iwrr_select.
  destruct (l_cur bl) eqn:C; [exact A|]. destruct k; [discriminate|]. cbn in H. rewrite C in H.
  discriminate.
Qed.

Lemma mrun_many : forall P k bl bl' fuel, mrun k bl = Some (P, bl') -> (k <= fuel)%nat ->
  exists bl1, select_many fuel (length P) bl = Some (P, bl1).
Proof.
  induction P as [|x P IH]; intros k bl bl' fuel H F; [cbn; eauto|].
  destruct (mrun_select _ _ _ _ _ fuel H F) as (b1 & k1 & A & B & D).
  destruct (IH _ _ _ fuel B D) as (b2 & E). exists b2. cbn [length select_many].
  rewrite A, E. reflexivity.
Qed.

Lemma filter_none : forall r l, (forall b, In b l -> usable b -> b_pri b <= r) ->
  filter (elig r) l = [].
Proof.
  induction l as [|b l IH]; intros H; [reflexivity|]. cbn. unfold elig at 1.
  destruct (usableb b) eqn:U; cbn.
  - specialize (H b (or_introl eq_refl) U) as Hb. destruct (Z.ltb_spec r (b_pri b)); [lia|].
    apply IH. intros; apply H; cbn; auto.
  - apply IH. intros; apply H; cbn; auto.
Qed.

(** What the property needs of a group. *)
Definition rr_ok (bl : balancer) : Prop :=
  NoDup (ids (l_bes bl)) /\ good_pos bl /\
    (forall b, In b (l_bes bl) -> usable b -> 0 <= b_pri b <= l_max bl).

Lemma in_ids_split : forall c l, In c (ids l) -> exists pre b post, l = pre ++ b :: post /\ b_id b = c.
Proof.
  unfold ids. intros c l H. apply in_map_iff in H. destruct H as (b & E & I).
  apply in_split in I. destruct I as (pre & post & ->). eauto.
Qed.

Lemma fair_at : forall bl c, rr_ok bl -> l_cur bl = Some c -> 0 <= l_max bl ->
  exists pre post r k bl', l_bes bl = pre ++ post /\ 0 <= r <= l_max bl /\
    mrun k bl = Some (cycle (l_bes bl) pre post r (l_max bl), bl') /\
    (k <= Z.to_nat (l_max bl + 2) * length (l_bes bl))%nat.
Proof.
  intros bl c (N & (R & C) & P) E M. rewrite E in C.
  destruct (in_ids_split _ _ C) as (pre & b & post & L & I).
  assert (F : l_cur bl = first_id (b :: post)) by (rewrite E; cbn; congruence).
  destruct (Z_le_gt_dec (l_round bl) (l_max bl)) as [RM|RM].
  - destruct (mrun_cycle bl pre (b :: post) N L ltac:(discriminate) F ltac:(lia)) as (bl' & Q).
    exists pre, (b :: post), (l_round bl), (Z.to_nat (l_max bl + 1) * length (l_bes bl))%nat, bl'.
    split; [exact L|]. split; [lia|]. split; [exact Q|].
    apply Nat.mul_le_mono_r. lia.
  - assert (E1 := mrun_end bl pre (b :: post) ltac:(rewrite <- L; exact N) L ltac:(discriminate) F).
    rewrite filter_none in E1.
    2:{ intros x Ix U. assert (In x (l_bes bl)) by (rewrite L; apply in_or_app; auto).
        specialize (P x H U). lia. }
    set (r := (l_round bl + 1) mod (l_max bl + 1)) in *.
    assert (B : 0 <= r < l_max bl + 1) by (apply Z.mod_pos_bound; lia).
    set (bl0 := with_pos bl r (first_id (l_bes bl))) in *.
    destruct (mrun_cycle bl0 [] (l_bes bl) N eq_refl ltac:(rewrite L; destruct pre; discriminate)
                eq_refl ltac:(cbn; lia)) as (bl' & Q).
    exists [], (l_bes bl), r, (length (b :: post) + Z.to_nat (l_max bl + 1) * length (l_bes bl))%nat, bl'.
    split; [reflexivity|]. split; [lia|]. split.
    + apply (mrun_app _ _ _ _ _ _ _ E1). exact Q.
    + replace (Z.to_nat (l_max bl + 2)) with (S (Z.to_nat (l_max bl + 1))) by lia.
      assert (length (b :: post) <= length (l_bes bl))%nat
        by (rewrite L, app_length; cbn [length]; lia).
      cbn [Nat.mul]. lia.
Qed.

Lemma total_pos_nonempty : forall l, 0 < total_pri l -> l <> [].
Proof. intros [|] H; [cbn in H; lia|discriminate]. Qed.

Lemma iwrr_fair : forall bl fuel, rr_ok bl -> 0 <= l_max bl -> 0 < total_pri (l_bes bl) ->
  (Z.to_nat (l_max bl + 2) * length (l_bes bl) <= fuel)%nat ->
  exists picked bl', select_many fuel (Z.to_nat (total_pri (l_bes bl))) bl = Some (picked, bl') /\
    (forall b, In b picked -> In b (l_bes bl) /\ usable b) /\
    (forall b, In b (l_bes bl) ->
       times (b_id b) picked = if usableb b then Z.to_nat (b_pri b) else 0%nat).
Proof.
  intros bl fuel O M T F.
  assert (K : forall bl c, rr_ok bl -> l_cur bl = Some c -> 0 <= l_max bl ->
     (Z.to_nat (l_max bl + 2) * length (l_bes bl) <= fuel)%nat ->
     exists picked bl', select_many fuel (Z.to_nat (total_pri (l_bes bl))) bl = Some (picked, bl') /\
    (forall b, In b picked -> In b (l_bes bl) /\ usable b) /\
    (forall b, In b (l_bes bl) ->
       times (b_id b) picked = if usableb b then Z.to_nat (b_pri b) else 0%nat)).
  { clear bl O M T F. intros bl c O E M F.
    destruct (fair_at bl c O E M) as (pre & post & r & k & bl' & L & R & Q & B).
    destruct O as (N & _ & P).
    destruct (mrun_many _ _ _ _ fuel Q ltac:(lia)) as (bl1 & S1).
    rewrite (cycle_length _ _ _ _ _ N L R P) in S1.
    exists (cycle (l_bes bl) pre post r (l_max bl)), bl1. split; [exact S1|]. split.
    - intros b. apply cycle_in. exact L.
    - intros b I. apply cycle_times; auto. }
  destruct (l_cur bl) as [c|] eqn:C; [eapply K; eauto|].
  pose proof (total_pos_nonempty _ T) as NE.
  destruct (l_bes bl) as [|b0 bs] eqn:B; [congruence|].
  assert (C0 : l_cur (iwrr_init bl) = Some (b_id b0)) by (cbn; rewrite B; reflexivity).
  destruct (K (iwrr_init bl) (b_id b0)) as (p & bl' & S1 & S2 & S3).
  - destruct O as (N & _ & P). split; [exact N|]. split; [|exact P].
    split; [cbn; lia|]. rewrite C0. cbn. rewrite B. cbn. auto.
  - exact C0.
  - exact M.
  - cbn. rewrite B. exact F.
  - cbn [iwrr_init with_pos l_bes] in S1, S2, S3. rewrite B in S1, S2, S3. exists p, bl'. split; [|auto].
    destruct (Z.to_nat (total_pri (b0 :: bs))) eqn:Z0; [lia|].
    cbn [select_many] in *. unfold iwrr_select in *. rewrite C, C0. rewrite C0 in S1. exact S1.
Qed.

(** * Selection over the groups of a service *)

Definition some_usable (bl : balancer) : Prop := exists b, In b (l_bes bl) /\ usable b.

Lemma none_usable_total : forall l, (forall b, In b l -> ~ usable b) -> total_pri l = 0.
Proof.
  induction l as [|b l IH]; intros H; [reflexivity|]. rewrite total_cons.
  rewrite IH by (intros; apply H; cbn; auto).
  destruct (usableb b) eqn:U; [|reflexivity]. exfalso. apply (H b); cbn; auto.
Qed.

Lemma usable_total_pos : forall l, Forall (fun b => usable b -> 1 <= b_pri b) l ->
  (exists b, In b l /\ usable b) -> 0 < total_pri l.
Proof.
  intros l F. assert (NN : forall m, Forall (fun b => usable b -> 1 <= b_pri b) m -> 0 <= total_pri m).
  { induction m as [|c m IH]; intros G; [cbn; lia|]. inversion G; subst. rewrite total_cons.
    specialize (IH H2). destruct (usableb c) eqn:U; [specialize (H1 U); lia|lia]. }
  induction l as [|a l IH]; intros (b & I & U); [destruct I|].
  inversion F as [|? ? Ha F']; subst. rewrite total_cons. specialize (NN l F').
  destruct I as [->|I].
  - rewrite U. specialize (Ha U). lia.
  - specialize (IH F' (ex_intro _ b (conj I U))).
    destruct (usableb a) eqn:Ua; [specialize (Ha Ua); lia|lia].
Qed.

Lemma rand_walk_none : forall l d, (forall b, In b l -> ~ usable b) -> rand_walk d l = None.
Proof.
  induction l as [|b l IH]; intros d H; [reflexivity|]. cbn [rand_walk]. rewrite active_usable.
  destruct (usableb b) eqn:U; [exfalso; apply (H b); cbn; auto|].
  apply IH. intros; apply H; cbn; auto.
Qed.

Lemma walk_hit_usable : forall l d, Forall (fun b => usable b -> 1 <= b_pri b) l ->
  0 <= d < total_pri l ->
  exists b, rand_walk d l = Some b /\ In b l /\ usable b.
Proof.
  induction l as [|b l IH]; intros d F H; [cbn in H; lia|].
  inversion F as [|? ? Hb F']; subst. rewrite total_cons in H.
  cbn [rand_walk]. rewrite active_usable. destruct (usableb b) eqn:U.
  - destruct (Z.ltb_spec (d - b_pri b) 0).
    + exists b. cbn. auto.
    + destruct (IH (d - b_pri b) F') as (c & E & I & V); [lia|]. exists c. cbn; auto.
  - destruct (IH d F') as (c & E & I & V); [lia|]. exists c; cbn; auto.
Qed.

(** What one group answers. *)
Definition answers (bl : balancer) (r : sel (balancer * list Z)) : Prop :=
  match r with
  | Picked b _ => In b (l_bes bl) /\ usable b
  | NoBackend _ => ~ some_usable bl
  | _ => False
  end.

Definition after (k : nat) (r : sel (balancer * list Z)) : Prop :=
  match r with
  | Picked _ (_, rs') | NoBackend (_, rs') => (k <= how_many big rs')%nat
  | _ => False
  end.

Lemma random_group : forall fuel bl rs k, l_bes bl <> [] -> l_algo bl = ALGO_RANDOM ->
  l_sum bl = total_pri (l_bes bl) -> Forall (fun b => usable b -> 1 <= b_pri b) (l_bes bl) ->
  total_pri (l_bes bl) <= 2 ^ 30 -> (k < how_many big rs)%nat ->
  answers bl (balancer_select_backend fuel bl rs) /\ after k (balancer_select_backend fuel bl rs).
Proof.
  intros fuel bl rs k NE A S F T K. unfold balancer_select_backend.
  destruct (l_bes bl) as [|b0 [|b1 bs]] eqn:B; [congruence| |].
  - rewrite active_usable. destruct (usableb b0) eqn:U; cbn [answers after].
    + rewrite B. cbn. split; [auto|lia].
    + split; [|lia]. intros (b & I & V). rewrite B in I. destruct I as [->|[]].
      unfold usable in V. congruence.
  - rewrite A. unfold rand_select. rewrite B. rewrite <- B in *. rewrite S.
    destruct (random_in_range_done rs (total_pri (l_bes bl)) k T K) as (v & rs' & E & Q).
    rewrite E. destruct (rand_walk v (l_bes bl)) as [b|] eqn:W.
    + cbn [answers after]. split; [|exact Q]. eapply rand_walk_in; eauto.
    + cbn [answers after]. split; [|exact Q]. intros SU.
      pose proof (usable_total_pos _ F SU) as P.
      pose proof (random_in_range_range _ _ _ _ P E) as R.
      destruct (walk_hit_usable _ _ F R) as (b & X & _). congruence.
Qed.

(** First usable group. *)
Definition first_usable (bls : list balancer) (b : backend) : Prop :=
  exists pre bl post, bls = pre ++ bl :: post /\ In b (l_bes bl) /\ usable b /\
    Forall (fun g => ~ some_usable g) pre.

Definition svc_answers (bls : list balancer) (r : sel (list balancer * list Z)) : Prop :=
  match r with
  | Picked b _ => first_usable bls b
  | NoBackend _ => Forall (fun g => ~ some_usable g) bls
  | _ => False
  end.

Lemma svc_select : forall fuel bls rs,
  (forall bl rs k, In bl bls -> (k < how_many big rs)%nat ->
     answers bl (balancer_select_backend fuel bl rs) /\
     after k (balancer_select_backend fuel bl rs)) ->
  (length bls <= how_many big rs)%nat ->
  svc_answers bls (service_lb_select_backend fuel bls rs).
Proof.
  induction bls as [|bl bls IH]; intros rs H L; [cbn; auto|].
  cbn [length] in L. cbn [service_lb_select_backend].
  destruct (H bl rs (length bls) (or_introl eq_refl) ltac:(lia)) as [A B].
  destruct (balancer_select_backend fuel bl rs) as [b [bl' rs']|[bl' rs']| |]; cbn [answers after] in *;
    try contradiction.
  - exists [], bl, bls. repeat split; tauto || auto.
  - specialize (IH rs' ltac:(intros; apply H; cbn; auto) B).
    destruct (service_lb_select_backend fuel bls rs') as [b [r2 rs2]|[r2 rs2]| |];
      cbn [svc_answers] in *; try contradiction.
    + destruct IH as (pre & g & post & -> & I & U & F). exists (bl :: pre), g, post.
      repeat split; auto.
    + constructor; auto.
Qed.

(** A round-robin group with a selectable member answers; a single-member group always does. *)
Lemma top_ge : forall l b, In b l -> usable b -> b_pri b <= top_pri l.
Proof.
  induction l as [|a l IH]; intros b I U; [destruct I|]. rewrite top_cons. destruct I as [->|I].
  - rewrite U. lia.
  - specialize (IH b I U). destruct (usableb a); lia.
Qed.

Lemma iwrr_group : forall fuel bl rs k, l_algo bl = ALGO_IWRR -> l_bes bl <> [] ->
  NoDup (ids (l_bes bl)) -> good_pos bl -> l_max bl = top_pri (l_bes bl) ->
  Forall (fun b => usable b -> 1 <= b_pri b) (l_bes bl) ->
  (some_usable bl \/ length (l_bes bl) = 1%nat) ->
  (Z.to_nat (l_max bl + 2) * length (l_bes bl) <= fuel)%nat -> (k < how_many big rs)%nat ->
  answers bl (balancer_select_backend fuel bl rs) /\ after k (balancer_select_backend fuel bl rs).
Proof.
  intros fuel bl rs k A NE N G M F SU FU K. unfold balancer_select_backend.
  destruct (l_bes bl) as [|b0 [|b1 bs]] eqn:B; [congruence| |].
  - rewrite active_usable. destruct (usableb b0) eqn:U; cbn [answers after].
    + rewrite B. cbn. split; [auto|lia].
    + split; [|lia]. intros (b & I & V). rewrite B in I. destruct I as [->|[]].
      unfold usable in V. congruence.
  - rewrite A. rewrite <- B in *. destruct SU as [SU|SU]; [|rewrite B in SU; discriminate].
    pose proof (usable_total_pos _ F SU) as P.
    destruct (iwrr_fair bl fuel) as (p & bl' & S1 & S2 & _).
    + split; [exact N|]. split; [exact G|]. intros b I U. rewrite M.
      pose proof (top_ge _ _ I U). rewrite Forall_forall in F. specialize (F b I U). lia.
    + rewrite M. apply top_nonneg.
    + exact P.
    + exact FU.
    + destruct (Z.to_nat (total_pri (l_bes bl))) as [|n] eqn:T; [lia|]. cbn [select_many] in S1.
      destruct (iwrr_select fuel bl) as [b bl1| | |]; try discriminate.
      cbn [answers after]. split; [|lia].
      destruct (select_many fuel n bl1) as [[l bl2]|]; [|discriminate]. inversion S1; subst.
      apply S2. cbn. auto.
Qed.

(** With no selectable member the loop never ends. *)
Lemma iwrr_step_none : forall bl id, (forall b, In b (l_bes bl) -> usable b -> b_pri b <= 0) ->
  0 <= l_round bl -> 0 <= l_max bl -> In id (ids (l_bes bl)) ->
  exists bl' id', iwrr_step bl id = Some (None, bl') /\ l_bes bl' = l_bes bl /\
    l_max bl' = l_max bl /\ 0 <= l_round bl' /\ l_cur bl' = Some id' /\ In id' (ids (l_bes bl)).
Proof.
  intros bl id H R M I. unfold iwrr_step.
  assert (FB : exists b, find_be id (l_bes bl) = Some b /\ In b (l_bes bl)).
  { clear -I. induction (l_bes bl) as [|a l IH]; [destruct I|]. cbn in *.
    destruct (Z.eqb_spec (b_id a) id); [eauto|]. destruct I as [E0|I]; [congruence|].
    destruct (IH I) as (b & E & J). eauto. }
  destruct FB as (b & E & J). rewrite E. rewrite active_usable.
  assert (EL : usableb b && (l_round bl <? b_pri b) = false).
  { destruct (usableb b) eqn:U; [|reflexivity]. specialize (H b J U). cbn. lia. }
  rewrite EL.
  assert (NX : forall n, next_id id (l_bes bl) = Some n -> In n (ids (l_bes bl))).
  { clear. induction (l_bes bl) as [|a l IH]; cbn; intros n X; [discriminate|].
    destruct (b_id a =? id); [|right; auto]. destruct l; cbn in X; inversion X; subst.
    right. cbn. auto. }
  destruct (next_id id (l_bes bl)) as [n|] eqn:X.
  - do 2 eexists. split; [reflexivity|]. cbn. repeat split; eauto.
  - destruct (l_bes bl) as [|a l] eqn:B; [destruct I|]. do 2 eexists. split; [reflexivity|].
    cbn [with_pos l_bes l_max l_round l_cur first_id]. rewrite B. repeat split; auto.
    + apply Z.mod_pos_bound. lia.
    + cbn. auto.
Qed.

Lemma iwrr_never : forall fuel bl, (forall b, In b (l_bes bl) -> usable b -> b_pri b <= 0) ->
  l_bes bl <> [] -> good_pos bl -> 0 <= l_max bl -> iwrr_select fuel bl = Looping.
Proof.
  assert (L : forall fuel bl id, (forall b, In b (l_bes bl) -> usable b -> b_pri b <= 0) ->
     0 <= l_round bl -> 0 <= l_max bl -> l_cur bl = Some id -> In id (ids (l_bes bl)) ->
     iwrr_loop fuel bl = Looping).
  { induction fuel as [|fuel IH]; intros bl id H R M C I; [reflexivity|].
    cbn [iwrr_loop]. rewrite C.
    destruct (iwrr_step_none bl id H R M I) as (bl' & id' & E & B & M' & R' & C' & I').
    rewrite E. apply (IH bl' id'); rewrite ?B, ?M'; auto. }
  intros fuel bl H NE (R & G) M. unfold iwrr_select. destruct (l_cur bl) as [id|] eqn:C.
  - apply (L fuel bl id); auto.
  - destruct (l_bes bl) as [|a l] eqn:B; [congruence|].
    assert (C0 : l_cur (iwrr_init bl) = Some (b_id a)) by (cbn; rewrite B; reflexivity).
    rewrite C0. apply (L fuel _ (b_id a)); auto; cbn; rewrite ?B; cbn; auto; lia.
Qed.

(** * Group list *)

Lemma get_split : forall bls w a, increasing (weights bls) ->
  exists pre g post, balancer_list_get bls w a = pre ++ g :: post /\ l_weight g = w /\
    Forall (fun x => l_weight x < w) pre /\ Forall (fun x => w < l_weight x) post /\
    (bls = pre ++ g :: post \/ (bls = pre ++ post /\ g = new_balancer w a)).
Proof.
  induction bls as [|bl bls IH]; intros w a I.
  - exists [], (new_balancer w a), []. cbn. repeat split; auto.
  - cbn [weights map increasing] in I. destruct I as [F I].
    assert (FL : Forall (fun x => l_weight bl < l_weight x) bls).
    { rewrite Forall_forall in *. intros x Hx. apply F. apply in_map. auto. }
    cbn [balancer_list_get]. destruct (Z.eqb_spec w (l_weight bl)) as [E|E].
    + exists [], bl, bls. subst w. repeat split; auto.
    + destruct (Z.ltb_spec w (l_weight bl)).
      * exists [], (new_balancer w a), (bl :: bls). repeat split; auto.
        constructor; auto. eapply Forall_impl; [|exact FL]. cbn. intros; lia.
      * destruct (IH w a I) as (pre & g & post & Q & W & P1 & P2 & D).
        exists (bl :: pre), g, post. rewrite Q. repeat split; auto.
        { constructor; auto. lia. }
        destruct D as [->|[-> ->]]; [left|right]; auto.
Qed.

Lemma increasing_app : forall a b, increasing (a ++ b) <->
  increasing a /\ increasing b /\ (forall x y, In x a -> In y b -> x < y).
Proof.
  induction a as [|x a IH]; intros b; cbn [app increasing].
  - split; [intros H; repeat split; auto; intros ? ? []|tauto].
  - rewrite IH, Forall_app, !Forall_forall. split.
    + intros ((F1 & F2) & I1 & I2 & C). repeat split; auto.
      intros u v [->|U] V; auto.
    + intros ((F & I1) & I2 & C). repeat split; auto.
      * intros v V. apply C; cbn; auto.
      * intros u v U V. apply C; cbn; auto.
Qed.

Lemma weights_app : forall a b, weights (a ++ b) = weights a ++ weights b.
Proof. intros. apply map_app. Qed.

Lemma get_increasing : forall bls w a, increasing (weights bls) ->
  increasing (weights (balancer_list_get bls w a)).
Proof.
  intros bls w a I. destruct (get_split bls w a I) as (pre & g & post & Q & W & P1 & P2 & D).
  rewrite Q. destruct D as [<-|[E G]]; [exact I|].
  rewrite E, weights_app in I. apply increasing_app in I. destruct I as (I1 & I2 & C).
  rewrite weights_app. apply increasing_app. cbn [weights map increasing].
  rewrite Forall_forall in P1, P2. unfold weights in *. repeat split; auto.
  - apply Forall_forall. intros x Hx. apply in_map_iff in Hx. destruct Hx as (y & <- & Hy).
    rewrite W. apply P2; auto.
  - intros x y Hx [<-|Hy]; [|auto]. apply in_map_iff in Hx. destruct Hx as (z & <- & Hz).
    rewrite W. apply P1; auto.
Qed.

Lemma on_weight_split : forall w f pre g post, l_weight g = w ->
  Forall (fun x => l_weight x < w) pre -> Forall (fun x => w < l_weight x) post ->
  on_weight w f (pre ++ g :: post) = pre ++ f g :: post.
Proof.
  intros w f pre g post W P1 P2. unfold on_weight. rewrite map_app. cbn [map].
  rewrite W, Z.eqb_refl. rewrite Forall_forall in P1, P2.
  f_equal; [|f_equal].
  - rewrite <- (map_id pre) at 2. apply map_ext_in. intros x Hx. specialize (P1 x Hx).
    destruct (Z.eqb_spec (l_weight x) w); [lia|reflexivity].
  - rewrite <- (map_id post) at 2. apply map_ext_in. intros x Hx. specialize (P2 x Hx).
    destruct (Z.eqb_spec (l_weight x) w); [lia|reflexivity].
Qed.

(** * Recomputation of the counters *)

Definition small (l : list backend) : Prop := Forall (fun b => 0 <= b_pri b <= 65535) l.

Lemma small_total : forall l, small l -> 0 <= total_pri l <= 65535 * Z.of_nat (length l).
Proof.
  induction l as [|b l IH]; intros S; [cbn; lia|]. inversion S; subst.
  specialize (IH H2). rewrite total_cons. cbn [length]. destruct (usableb b); lia.
Qed.

Lemma small_few_total : forall l, small l -> few (length l) -> 0 <= total_pri l <= 2 ^ 56.
Proof. intros l S F. pose proof (small_total l S). unfold few in F. lia. Qed.

Definition same_but_counters (a b : balancer) : Prop :=
  l_weight a = l_weight b /\ l_algo a = l_algo b /\ l_round a = l_round b /\ l_cur a = l_cur b.

Lemma pri_update_spec : forall bl b, 0 <= b_pri b <= 65535 ->
  (l_algo bl = ALGO_RANDOM -> 0 <= l_sum bl <= 2 ^ 60) ->
  exists bl', balancer_pri_update bl b = (bl', false) /\ same_but_counters bl' bl /\
    l_act bl' = l_act bl /\ l_bes bl' = l_bes bl /\
    match l_algo bl with
    | ALGO_RANDOM => l_sum bl' = l_sum bl + b_pri b
    | ALGO_IWRR => l_max bl' = Z.max (l_max bl) (b_pri b)
    end.
Proof.
  intros bl b P S. unfold balancer_pri_update. destruct (l_algo bl) eqn:A.
  - specialize (S eq_refl). unfold LONG_MAX, ULONG_MOD.
    rewrite !Z.mod_small by lia.
    destruct (Z.ltb_spec (2 ^ 63 - 1 - l_sum bl) (b_pri b)); [lia|].
    eexists. split; [reflexivity|]. cbn. repeat split; auto.
  - destruct (Z.eqb_spec (b_pri b) INT_MAX) as [E|E]; [unfold INT_MAX in E; lia|].
    eexists. split; [reflexivity|]. cbn. repeat split; auto.
    destruct (Z.ltb_spec (l_max bl) (b_pri b)); lia.
Qed.

Lemma sbc_trans : forall a b c, same_but_counters a b -> same_but_counters b c -> same_but_counters a c.
Proof. unfold same_but_counters. intros a b c (?&?&?&?) (?&?&?&?). repeat split; congruence. Qed.

Lemma recompute_loop_spec : forall cb bes bl, small (map cb bes) ->
  (l_algo bl = ALGO_RANDOM -> 0 <= l_sum bl /\ l_sum bl + total_pri (map cb bes) <= 2 ^ 60) ->
  exists bl', recompute_loop cb bl bes = (bl', map cb bes) /\ same_but_counters bl' bl /\
    l_act bl' = l_act bl + n_usable (map cb bes) /\
    match l_algo bl with
    | ALGO_RANDOM => l_sum bl' = l_sum bl + total_pri (map cb bes)
    | ALGO_IWRR => l_max bl' = Z.max (l_max bl) (top_pri (map cb bes)) \/ (l_max bl < 0)
    end.
Proof.
  induction bes as [|b bes IH]; intros bl S T.
  - exists bl. cbn. repeat split; auto; try lia. destruct (l_algo bl); lia.
  - cbn [map] in *. inversion S as [|? ? Sb S']; subst. cbn [recompute_loop].
    rewrite n_usable_cons, total_cons, top_cons in *. rewrite active_usable.
    pose proof (small_total _ S') as T'.
    destruct (usableb (cb b)) eqn:U.
    + destruct (pri_update_spec bl (cb b) Sb) as (bl1 & E1 & SB & A1 & B1 & M1).
      { intros A. specialize (T A). lia. }
      rewrite E1.
      destruct (IH (set_act bl1 (l_act bl1 + 1)) S') as (bl2 & E2 & SB2 & A2 & M2).
      { cbn. intros A. destruct SB as (_ & SA & _). rewrite SA in A. rewrite A in M1.
        specialize (T A). rewrite M1. lia. }
      rewrite E2. exists bl2. split; [reflexivity|]. split.
      { eapply sbc_trans; [exact SB2|]. destruct SB as (?&?&?&?). repeat split; cbn; auto. }
      split; [cbn in A2; lia|].
      destruct SB as (_ & SA & _). cbn in M2. rewrite SA in M2.
      destruct (l_algo bl); [lia|]. destruct M2; [|lia]. 
      pose proof (top_nonneg (map cb bes)). lia.
    + destruct (IH bl S') as (bl2 & E2 & SB2 & A2 & M2).
      { intros A. specialize (T A). lia. }
      rewrite E2. exists bl2. repeat split; try apply SB2; auto; try lia.
Qed.

Lemma recompute_spec : forall cb bl, small (map cb (l_bes bl)) -> few (length (l_bes bl)) ->
  let bl' := balancer_recompute_pri cb bl in
  l_bes bl' = map cb (l_bes bl) /\ agrees bl' /\ same_but_counters bl' bl.
Proof.
  intros cb bl S F. unfold balancer_recompute_pri.
  assert (T : 0 <= total_pri (map cb (l_bes bl)) <= 2 ^ 56)
    by (apply small_few_total; auto; rewrite map_length; auto).
  destruct (recompute_loop_spec cb (l_bes bl) (balancer_pri_init (set_act bl 0)) S)
    as (bl1 & E & SB & A & M).
  { unfold balancer_pri_init. cbn [l_algo set_act]. destruct (l_algo bl) eqn:AL; cbn.
    - intros _. lia.
    - rewrite ?AL; discriminate. }
  rewrite E. cbv zeta. split; [reflexivity|].
  assert (SI : same_but_counters (balancer_pri_init (set_act bl 0)) bl).
  { unfold balancer_pri_init. cbn. destruct (l_algo bl) eqn:AL; repeat split; auto. }
  pose proof (sbc_trans _ _ _ SB SI) as ST. split.
  - unfold agrees. cbn [set_bes l_act l_bes l_algo l_sum l_max]. split.
    + rewrite A. unfold balancer_pri_init. cbn [l_algo set_act]. destruct (l_algo bl); cbn; lia.
    + destruct ST as (_ & SA & _). rewrite SA.
      unfold balancer_pri_init in M. cbn [l_algo set_act] in M.
      pose proof (top_nonneg (map cb (l_bes bl))).
      destruct (l_algo bl) eqn:AL; cbn [l_algo l_sum l_max set_act] in M; rewrite ?AL in M; lia.
  - destruct ST as (?&?&?&?). repeat split; cbn; auto.
Qed.

(** Round-robin variants that do not count random numbers. *)
Lemma small_top : forall l, small l -> top_pri l <= 65535.
Proof.
  induction l as [|b l IH]; intros S; [cbn; lia|]. inversion S; subst. rewrite top_cons.
  specialize (IH H2). destruct (usableb b); lia.
Qed.

Lemma how_many_cons_big : forall rs, how_many big (2 ^ 30 :: rs) = S (how_many big rs).
Proof. reflexivity. Qed.

Lemma iwrr_group_any : forall fuel bl rs, l_algo bl = ALGO_IWRR -> l_bes bl <> [] ->
  NoDup (ids (l_bes bl)) -> (ALGO_IWRR = ALGO_IWRR -> good_pos bl) -> l_max bl = top_pri (l_bes bl) ->
  Forall (fun b => usable b -> 1 <= b_pri b) (l_bes bl) ->
  (some_usable bl \/ length (l_bes bl) = 1%nat) ->
  (Z.to_nat (l_max bl + 2) * length (l_bes bl) <= fuel)%nat ->
  answers bl (balancer_select_backend fuel bl rs).
Proof.
  intros fuel bl rs A NE N G M F SU FU.
  destruct (iwrr_group fuel bl (2 ^ 30 :: rs) 0 A NE N (G eq_refl) M F SU FU) as [X _].
  { rewrite how_many_cons_big. lia. }
  revert X. unfold balancer_select_backend. destruct (l_bes bl) as [|b0 [|b1 bs]]; auto.
  - destruct (backend_is_active b0); auto.
  - rewrite A. destruct (iwrr_select fuel bl); auto.
Qed.

Lemma iwrr_svc : forall fuel bls rs,
  (forall bl, In bl bls -> forall rs, answers bl (balancer_select_backend fuel bl rs)) ->
  svc_answers bls (service_lb_select_backend fuel bls rs).
Proof.
  induction bls as [|bl bls IH]; intros rs H; [cbn; auto|].
  cbn [service_lb_select_backend].
  pose proof (H bl (or_introl eq_refl) rs) as A.
  destruct (balancer_select_backend fuel bl rs) as [b [bl' rs']|[bl' rs']| |]; cbn [answers] in *;
    try contradiction.
  - exists [], bl, bls. repeat split; tauto || auto.
  - specialize (IH rs' ltac:(intros; apply H; cbn; auto)).
    destruct (service_lb_select_backend fuel bls rs') as [b [r2 rs2]|[r2 rs2]| |];
      cbn [svc_answers] in *; try contradiction.
    + destruct IH as (pre & g & post & -> & I & U & F). exists (bl :: pre), g, post.
      repeat split; auto.
    + constructor; auto.
Qed.
