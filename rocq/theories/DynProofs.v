(** Facts about the update of dynamic backends. *)
From Coq Require Import List Arith ZArith Bool Lia Sorted ZifyBool ZifyNat.
From Verif Require HashProofs.
From Verif Require Import Bytes DynModel DynSpec.
Import ListNotations.

Lemma same_addr_eq : forall a g, same_addr a g = true <-> addr g = a.
Proof. intros a g. unfold same_addr. rewrite HashProofs.backend_cmp0_eq. cbn. split; [intros H; injection H; auto|intros ->; reflexivity]. Qed.

Definition adr_dec := list_eq_dec Z.eq_dec.
Definition mem (a : list Z) (l : list (list Z)) : bool := if in_dec adr_dec a l then true else false.
Lemma mem_in : forall a l, mem a l = true <-> In a l.
Proof. intros. unfold mem. destruct (in_dec adr_dec a l); split; auto; discriminate. Qed.
Lemma mem_not : forall a l, mem a l = false <-> ~ In a l.
Proof. intros. unfold mem. destruct (in_dec adr_dec a l); split; auto; try discriminate; contradiction. Qed.

(** ** The loop over the answer *)
Fixpoint new_addrs (known resp : list (list Z)) : list (list Z) :=
  match resp with [] => [] | a :: r => if mem a known then new_addrs known r else a :: new_addrs (known ++ [a]) r end.
Fixpoint gens (n : nat) (pri : Z) (l : list (list Z)) : list gen :=
  match l with [] => [] | a :: l' => mkGen n a pri false :: gens (S n) pri l' end.
Definition unmark (resp : list (list Z)) (g : gen) : gen := if mem (addr g) resp then set_mark false g else g.

Lemma lookup_some : forall t a, (exists g, addr_lookup t a = Some g) <-> In a (map addr t).
Proof.
  intros t a. unfold addr_lookup. split.
  - intros (g & F). apply find_some in F as (I & S). apply same_addr_eq in S. subst. apply in_map. exact I.
  - intros I. apply in_map_iff in I as (g & <- & I). destruct (find (same_addr (addr g)) t) eqn:F; [eauto|]. apply find_none with (x := g) in F; auto. rewrite (proj2 (same_addr_eq (addr g) g) eq_refl) in F. discriminate.
Qed.

Lemma update_loop_eq : forall w pri resp n t b r, let na := new_addrs (map addr t) resp in
  update_loop w pri resp (mkSt n t b r) = mkSt (n + length na) (map (unmark resp) t ++ gens n pri na) (fold_left (fun l i => balancer_add l w i) (map gid (gens n pri na)) b) r.
Proof.
  intros w pri resp. induction resp as [|a resp IH]; intros n t b r; cbn zeta.
  - cbn. rewrite app_nil_r, Nat.add_0_r. f_equal. rewrite <- (map_id t) at 1. apply map_ext. intros g. reflexivity.
  - cbn [update_loop tab next bls rem new_addrs]. destruct (addr_lookup t a) as [g0|] eqn:L.
    + assert (I : In a (map addr t)) by (apply lookup_some; eauto). rewrite (proj2 (mem_in _ _) I). rewrite IH. cbn zeta.
      assert (E : map addr (map (fun g => if same_addr a g then set_mark false g else g) t) = map addr t) by (rewrite map_map; apply map_ext; intros g; destruct (same_addr a g); reflexivity).
      rewrite E. f_equal. f_equal. rewrite map_map. apply map_ext. intros g. unfold unmark. destruct (same_addr a g) eqn:S.
      * apply same_addr_eq in S. cbn [addr set_mark]. rewrite (proj2 (mem_in (addr g) (a :: resp))) by (left; auto). destruct (mem (addr g) resp); reflexivity.
      * assert (NE : addr g <> a) by (intros E1; apply same_addr_eq in E1; congruence). destruct (mem (addr g) resp) eqn:M.
        -- rewrite (proj2 (mem_in (addr g) (a :: resp))); [reflexivity|]. right. apply mem_in. exact M.
        -- rewrite (proj2 (mem_not (addr g) (a :: resp))); [reflexivity|]. apply mem_not in M. intros [E1|I1]; [congruence|contradiction].
    + assert (I : ~ In a (map addr t)) by (intros I; apply lookup_some in I as (g & Hg); congruence). rewrite (proj2 (mem_not _ _) I). rewrite IH. cbn zeta. rewrite map_app. cbn [map addr gens length gid].
      rewrite Nat.add_succ_r. f_equal. rewrite map_app. rewrite <- app_assoc. f_equal.
      * apply map_ext_in. intros g Ig. unfold unmark. assert (NE : addr g <> a) by (intros <-; apply I; apply in_map; exact Ig). destruct (mem (addr g) resp) eqn:M.
        -- rewrite (proj2 (mem_in (addr g) (a :: resp))); [reflexivity|]. right. apply mem_in. exact M.
        -- rewrite (proj2 (mem_not (addr g) (a :: resp))); [reflexivity|]. apply mem_not in M. intros [E1|I1]; [congruence|contradiction].
      * cbn [map app]. f_equal. unfold unmark. destruct (mem _ resp); reflexivity.
Qed.

Lemma new_addrs_in : forall resp known a, In a (new_addrs known resp) <-> In a resp /\ ~ In a known.
Proof.
  induction resp as [|x resp IH]; intros known a; cbn; [tauto|]. destruct (mem x known) eqn:M.
  - apply mem_in in M. rewrite IH. split; [tauto|]. intros ([->|I] & N); [contradiction|auto].
  - apply mem_not in M. cbn. rewrite IH, in_app_iff. cbn. split.
    + intros [->|(I & N)]; [auto|]. split; [auto|tauto].
    + intros ([->|I] & N); [auto|]. destruct (adr_dec x a); [auto|]. right. split; auto. tauto.
Qed.
Lemma new_addrs_nodup : forall resp known, NoDup (new_addrs known resp).
Proof.
  induction resp as [|x resp IH]; intros known; cbn; [constructor|]. destruct (mem x known); [auto|]. constructor; [|auto]. rewrite new_addrs_in, in_app_iff. cbn. tauto.
Qed.
Lemma gens_addr : forall l n pri, map addr (gens n pri l) = l.
Proof. induction l as [|a l IH]; intros; cbn; [reflexivity|]. rewrite IH. reflexivity. Qed.
Lemma gens_gid : forall l n pri, map gid (gens n pri l) = seq n (length l).
Proof. induction l as [|a l IH]; intros; cbn; [reflexivity|]. rewrite IH. reflexivity. Qed.
Lemma gens_in : forall l n pri g, In g (gens n pri l) -> gprio g = pri /\ mark g = false /\ In (addr g) l /\ n <= gid g < n + length l.
Proof.
  induction l as [|a l IH]; intros n pri g; cbn; [tauto|]. intros [<-|I]; cbn; [repeat split; auto; lia|]. destruct (IH _ _ _ I) as (A & B & C & D). repeat split; auto; lia.
Qed.

(** ** The sweep *)
Lemma sweep_fold : forall w l n t b r, fold_left (sweep_one w) l (mkSt n t b r) =
  mkSt n (filter (fun g' => negb (existsb (fun g => mark g && Nat.eqb (gid g') (gid g)) l)) t) (fold_left (fun x i => balancer_drop x w i) (map gid (filter mark l)) b) (r ++ map gid (filter mark l)).
Proof.
  intros w l. induction l as [|g l IH]; intros n t b r; cbn [fold_left].
  - cbn. rewrite app_nil_r. f_equal. induction t as [|x t IHt]; cbn; [reflexivity|f_equal; exact IHt].
  - unfold sweep_one at 2. cbn [next tab bls rem]. destruct (mark g) eqn:M.
    + rewrite IH. cbn [filter existsb]. rewrite M. cbn [map fold_left andb]. rewrite <- app_assoc. f_equal.
      induction t as [|x t IHt]; cbn; [reflexivity|]. destruct (Nat.eqb (gid x) (gid g)); cbn [negb orb filter]; [exact IHt|]. destruct (existsb _ l); cbn [negb]; [exact IHt|f_equal; exact IHt].
    + rewrite IH. cbn [filter existsb]. rewrite M. cbn [andb orb]. reflexivity.
Qed.
Lemma sweep_eq : forall w n t b r, NoDup (map gid t) ->
  sweep w (mkSt n t b r) = mkSt n (filter (fun g => negb (mark g)) t) (fold_left (fun x i => balancer_drop x w i) (map gid (filter mark t)) b) (r ++ map gid (filter mark t)).
Proof.
  intros w n t b r ND. unfold sweep. cbn [tab]. rewrite sweep_fold. f_equal. apply filter_ext_in. intros g I. f_equal.
  destruct (mark g) eqn:M.
  - apply existsb_exists. exists g. split; [exact I|]. rewrite M, Nat.eqb_refl. reflexivity.
  - destruct (existsb _ t) eqn:X; [|reflexivity]. apply existsb_exists in X as (g' & I' & X). apply andb_true_iff in X as (X1 & X2). apply Nat.eqb_eq in X2.
    assert (g = g'); [|congruence]. clear -ND I I' X2. induction t as [|y t IH]; [easy|]. cbn in ND. apply NoDup_cons_iff in ND as (N1 & N2).
    destruct I as [->|I], I' as [->|I']; auto; exfalso; apply N1; [rewrite X2|rewrite <- X2]; apply in_map; auto.
Qed.

(** ** Balancers *)
Definition sorted (l : balancers) : Prop := StronglySorted Z.lt (map fst l).

Lemma members_nil : forall l w, (forall e, In e l -> w <> fst e) -> members l w = [].
Proof. induction l as [|e l IH]; intros w H; [reflexivity|]. cbn. destruct (Z.eqb_spec w (fst e)) as [E|E]; [destruct (H e (or_introl eq_refl) E)|]. apply IH. intros x I. apply H. right; exact I. Qed.
Lemma sorted_tail : forall e l, sorted (e :: l) -> sorted l /\ forall x, In x l -> (fst e < fst x)%Z.
Proof. intros e l S. unfold sorted in *. cbn in S. apply StronglySorted_inv in S as (S & F). split; [exact S|]. intros x I. rewrite Forall_forall in F. apply F. apply in_map. exact I. Qed.
Lemma sorted_cons : forall e l, sorted l -> (forall x, In x l -> (fst e < fst x)%Z) -> sorted (e :: l).
Proof. intros e l S F. unfold sorted in *. cbn. constructor; [exact S|]. apply Forall_forall. intros y I. apply in_map_iff in I as (x & <- & I). auto. Qed.

Lemma list_get_spec : forall l w, sorted l -> sorted (balancer_list_get l w) /\ has_balancer (balancer_list_get l w) w = true /\ (forall w', members (balancer_list_get l w) w' = members l w') /\
  (forall x, In x (balancer_list_get l w) -> In x l \/ x = (w, [])).
Proof.
  induction l as [|(w1, b) l IH]; intros w S; cbn [balancer_list_get].
  - repeat split; cbn; auto; [constructor; constructor|rewrite Z.eqb_refl; reflexivity|intros w'; destruct (Z.eqb w' w); reflexivity|intros x [<-|[]]; auto].
  - destruct (sorted_tail _ _ S) as (S1 & F). cbn [fst] in F. destruct (Z.eqb_spec w w1) as [->|NE].
    + repeat split; auto. unfold has_balancer. cbn. rewrite Z.eqb_refl. reflexivity.
    + destruct (Z.ltb_spec w w1) as [LT|GE].
      * repeat split; auto.
        -- apply sorted_cons; [exact S|]. cbn. intros x [<-|I]; cbn; [exact LT|]. specialize (F x I). lia.
        -- unfold has_balancer. cbn. rewrite Z.eqb_refl. reflexivity.
        -- intros w'. cbn. destruct (Z.eqb w' w); reflexivity.
        -- intros x [<-|I]; auto.
      * destruct (IH w S1) as (I1 & I2 & I3 & I4). repeat split.
        -- apply sorted_cons; [exact I1|]. intros x I. cbn. destruct (I4 x I) as [I5| ->]; [apply F; exact I5|cbn; lia].
        -- unfold has_balancer in *. cbn. rewrite I2. apply orb_true_r.
        -- intros w'. cbn. fold (members (balancer_list_get l w) w') (members l w'). rewrite I3. reflexivity.
        -- intros x [<-|I]; [left; left; reflexivity|]. destruct (I4 x I); [left; right; assumption|auto].
Qed.

Lemma add_fst : forall l w i, map fst (balancer_add l w i) = map fst l.
Proof. intros. unfold balancer_add. rewrite map_map. apply map_ext. intros e. destruct (Z.eqb w (fst e)); reflexivity. Qed.
Lemma add_has : forall l w i w', has_balancer (balancer_add l w i) w' = has_balancer l w'.
Proof. intros. unfold has_balancer, balancer_add. induction l as [|e l IH]; [reflexivity|]. cbn. rewrite IH. destruct (Z.eqb w (fst e)); reflexivity. Qed.
Lemma members_add_same : forall l w i, sorted l -> has_balancer l w = true -> members (balancer_add l w i) w = members l w ++ [i].
Proof.
  induction l as [|e l IH]; intros w i S H; [discriminate|]. destruct (sorted_tail _ _ S) as (S1 & F). cbn. unfold has_balancer in H. cbn in H. destruct (Z.eqb_spec w (fst e)) as [E|E]; cbn.
  - rewrite E, Z.eqb_refl. fold (balancer_add l (fst e) i) (members (balancer_add l (fst e) i) (fst e)) (members l (fst e)).
    rewrite (members_nil (balancer_add l (fst e) i)), (members_nil l), !app_nil_r; auto.
    + intros x I. specialize (F x I). lia.
    + intros x I. unfold balancer_add in I. apply in_map_iff in I as (y & <- & I). specialize (F y I). destruct (Z.eqb (fst e) (fst y)); cbn; lia.
  - destruct (Z.eqb_spec w (fst e)); [contradiction|]. cbn. apply IH; auto.
Qed.
Lemma members_add_other : forall l w i w', w' <> w -> members (balancer_add l w i) w' = members l w'.
Proof.
  induction l as [|e l IH]; intros w i w' NE; [reflexivity|]. cbn. fold (balancer_add l w i) (members (balancer_add l w i) w') (members l w'). rewrite (IH w i w' NE). destruct (Z.eqb_spec w (fst e)) as [E|E]; cbn; [|reflexivity].
  destruct (Z.eqb_spec w' (fst e)); [congruence|reflexivity].
Qed.
Lemma adds_spec : forall ids l w, sorted l -> has_balancer l w = true -> let l' := fold_left (fun x i => balancer_add x w i) ids l in
  sorted l' /\ has_balancer l' w = true /\ members l' w = members l w ++ ids /\ (forall w', w' <> w -> members l' w' = members l w').
Proof.
  induction ids as [|i ids IH]; intros l w S H; cbn zeta; cbn [fold_left]; [rewrite app_nil_r; auto|].
  assert (S1 : sorted (balancer_add l w i)) by (unfold sorted; rewrite add_fst; exact S). assert (H1 : has_balancer (balancer_add l w i) w = true) by (rewrite add_has; exact H).
  destruct (IH _ w S1 H1) as (A & B & C & D). repeat split; auto.
  - rewrite C, (members_add_same l w i S H), <- app_assoc. reflexivity.
  - intros w' NE. rewrite (D w' NE). apply members_add_other. exact NE.
Qed.

Definition other (i j : nat) : bool := negb (Nat.eqb j i).
Lemma drop_in : forall l w i x, In x (balancer_drop l w i) -> exists e, In e l /\ fst x = fst e.
Proof.
  intros l w i x I. unfold balancer_drop in I. apply in_flat_map in I as (e & I & H). exists e. split; [exact I|]. destruct (Z.eqb w (fst e)); [destruct (filter _ (snd e)); [easy|]|]; destruct H as [<-|[]]; reflexivity.
Qed.
Lemma drop_sorted : forall l w i, sorted l -> sorted (balancer_drop l w i).
Proof.
  induction l as [|e l IH]; intros w i S; [exact S|]. destruct (sorted_tail _ _ S) as (S1 & F). cbn. fold (balancer_drop l w i).
  assert (F' : forall x, In x (balancer_drop l w i) -> (fst e < fst x)%Z) by (intros x I; apply drop_in in I as (y & I & ->); auto).
  destruct (Z.eqb w (fst e)); [destruct (filter _ (snd e))|]; cbn [app]; auto; apply sorted_cons; auto.
Qed.
Lemma members_drop_same : forall l w i, members (balancer_drop l w i) w = filter (other i) (members l w).
Proof.
  induction l as [|e l IH]; intros w i; [reflexivity|]. cbn. fold (balancer_drop l w i) (members l w). rewrite filter_app. unfold members at 1. rewrite flat_map_app. fold (members (balancer_drop l w i) w). rewrite IH. f_equal.
  destruct (Z.eqb_spec w (fst e)) as [E|E].
  - change (filter (fun j => negb (Nat.eqb j i)) (snd e)) with (filter (other i) (snd e)). destruct (filter (other i) (snd e)) eqn:X; [reflexivity|]. cbn. rewrite E, Z.eqb_refl, app_nil_r. reflexivity.
  - cbn. destruct (Z.eqb_spec w (fst e)); [contradiction|reflexivity].
Qed.
Lemma members_drop_other : forall l w i w', w' <> w -> members (balancer_drop l w i) w' = members l w'.
Proof.
  induction l as [|e l IH]; intros w i w' NE; [reflexivity|]. cbn. fold (balancer_drop l w i) (members l w'). unfold members at 1. rewrite flat_map_app. fold (members (balancer_drop l w i) w'). rewrite (IH w i w' NE). f_equal.
  destruct (Z.eqb_spec w (fst e)) as [E|E].
  - destruct (Z.eqb_spec w' (fst e)); [congruence|]. destruct (filter _ (snd e)); [reflexivity|]. cbn. destruct (Z.eqb_spec w' (fst e)); [congruence|reflexivity].
  - cbn. destruct (Z.eqb w' (fst e)); rewrite ?app_nil_r; reflexivity.
Qed.
Lemma has_drop : forall l w i, has_balancer (balancer_drop l w i) w = negb (match members (balancer_drop l w i) w with [] => true | _ => false end).
Proof.
  induction l as [|e l IH]; intros w i; [reflexivity|]. cbn. fold (balancer_drop l w i). unfold has_balancer, members. rewrite existsb_app, flat_map_app. fold (has_balancer (balancer_drop l w i) w) (members (balancer_drop l w i) w). rewrite IH.
  destruct (Z.eqb_spec w (fst e)) as [E|E].
  - destruct (filter _ (snd e)); [reflexivity|]. cbn. rewrite E, Z.eqb_refl. reflexivity.
  - cbn. destruct (Z.eqb_spec w (fst e)); [contradiction|]. reflexivity.
Qed.
Lemma filter_filter : forall A (f g : A -> bool) l, filter f (filter g l) = filter (fun x => f x && g x) l.
Proof. induction l as [|x l IH]; [reflexivity|]. cbn. destruct (g x); cbn; [destruct (f x); cbn; rewrite IH; reflexivity|rewrite andb_false_r; exact IH]. Qed.

Definition outside (ids : list nat) (j : nat) : bool := negb (existsb (Nat.eqb j) ids).
Lemma outside_in : forall ids j, outside ids j = true <-> ~ In j ids.
Proof.
  intros ids j. unfold outside. rewrite negb_true_iff. split.
  - intros H I. assert (existsb (Nat.eqb j) ids = true) by (apply existsb_exists; exists j; rewrite Nat.eqb_refl; auto). congruence.
  - intros H. destruct (existsb _ ids) eqn:E; [|reflexivity]. apply existsb_exists in E as (x & I & X). apply Nat.eqb_eq in X. subst. contradiction.
Qed.
Lemma drops_spec : forall ids l w, sorted l -> let l' := fold_left (fun x i => balancer_drop x w i) ids l in
  sorted l' /\ members l' w = filter (outside ids) (members l w) /\ (forall w', w' <> w -> members l' w' = members l w') /\
  has_balancer l' w = match ids with [] => has_balancer l w | _ => negb (match members l' w with [] => true | _ => false end) end.
Proof.
  induction ids as [|i ids IH]; intros l w S; cbn zeta; cbn [fold_left].
  - repeat split; auto. symmetry. erewrite filter_ext; [|intros; unfold outside; cbn; reflexivity]. induction (members l w) as [|x m IHm]; [reflexivity|cbn; f_equal; exact IHm].
  - destruct (IH (balancer_drop l w i) w (drop_sorted l w i S)) as (A & B & C & D). repeat split; auto.
    + rewrite B, members_drop_same, filter_filter. apply filter_ext. intros j. unfold outside, other. cbn [existsb]. rewrite negb_orb, andb_comm. reflexivity.
    + intros w' NE. rewrite (C w' NE). apply members_drop_other. exact NE.
    + rewrite D. destruct ids; [|reflexivity]. cbn [fold_left]. apply has_drop.
Qed.

(** ** The update *)
Record inv (w : Z) (s : state) : Prop := mkInv {
  i_addr : NoDup (map addr (tab s));
  i_gid : NoDup (map gid (tab s));
  i_new : forall g, In g (tab s) -> gid g < next s;
  i_mem : forall g, In g (tab s) -> In (gid g) (members (bls s) w);
  i_sort : sorted (bls s);
  i_next : forall w' i, In i (members (bls s) w') -> i < next s;
  i_nodup : forall w', NoDup (members (bls s) w');
  i_mark : forall g, In g (tab s) -> mark g = false
}.

Lemma initial_inv : forall w s, initial s -> inv w s.
Proof. intros w s (T & R & S & N & M). constructor; rewrite ?T; cbn; try easy; try constructor. Qed.

(** The state after the update *)
Definition kept (u : list (list Z)) (s : state) : list gen := filter (fun g => mem (addr g) u) (tab s).
Definition gone (u : list (list Z)) (s : state) : list gen := filter (fun g => negb (mem (addr g) u)) (tab s).
Definition fresh (pri : Z) (u : list (list Z)) (s : state) : list gen := gens (next s) pri (new_addrs (map addr (tab s)) u).

Lemma mark_map_gid : forall f t, (forall g, gid (f g) = gid g) -> map gid (map f t) = map gid t.
Proof. intros f t H. rewrite map_map. apply map_ext. exact H. Qed.

Lemma nodup_filter : forall A (f : A -> bool) l, NoDup l -> NoDup (filter f l).
Proof. induction l as [|x l IH]; intros N; [constructor|]. apply NoDup_cons_iff in N as (N1 & N2). cbn. destruct (f x); [|auto]. constructor; auto. rewrite filter_In. tauto. Qed.
Lemma nodup_app : forall A (l m : list A), NoDup l -> NoDup m -> (forall x, In x l -> ~ In x m) -> NoDup (l ++ m).
Proof. induction l as [|x l IH]; intros m N M D; [exact M|]. apply NoDup_cons_iff in N as (N1 & N2). cbn. constructor; [|apply IH; auto; intros y I; apply D; right; exact I]. rewrite in_app_iff. intros [I|I]; [auto|]. exact (D x (or_introl eq_refl) I). Qed.
Lemma nodup_map_filter : forall A B (f : A -> B) p l, NoDup (map f l) -> NoDup (map f (filter p l)).
Proof.
  induction l as [|x l IH]; intros N; [constructor|]. cbn in N. apply NoDup_cons_iff in N as (N1 & N2). cbn. destruct (p x); [|auto]. cbn. constructor; auto. intros I. apply N1. apply in_map_iff in I as (y & <- & I). apply filter_In in I as (I & _). apply in_map. exact I.
Qed.

Lemma addr_update_eq : forall w pri m resp s, inv w s -> let u := used m resp in
  exists b, let s' := mkSt (next s + length (fresh pri u s)) (kept u s ++ fresh pri u s) b (rem s ++ map gid (gone u s)) in
  addr_update w pri false m resp s = (if has_balancer b w then Ok s' else Use_after_free) /\
  sorted b /\ members b w = filter (outside (map gid (gone u s))) (members (bls s) w ++ map gid (fresh pri u s)) /\ (forall w', w' <> w -> members b w' = members (bls s) w') /\
  has_balancer b w = match gone u s with [] => true | _ => negb (match members b w with [] => true | _ => false end) end.
Proof.
  intros w pri m resp s I u. destruct s as [n t b r]. unfold addr_update. cbn [next tab bls rem].
  assert (EU : firstn (match m with First => match resp with [] => 0 | _ => 1 end | All => length resp end) resp = u) by (unfold u, used; destruct m; [destruct resp; reflexivity|apply firstn_all]).
  rewrite EU. rewrite update_loop_eq. cbn zeta. rewrite map_map. cbn [addr set_mark].
  set (na := new_addrs (map (fun x => addr x) t) u). set (fr := gens n pri na).
  set (t1 := map (unmark u) (map (set_mark true) t) ++ fr). set (b0 := balancer_list_get b w).
  pose proof (i_gid _ _ I) as IG. pose proof (i_new _ _ I) as IN. pose proof (i_mark _ _ I) as IM. pose proof (i_sort _ _ I) as IS. cbn [next tab bls rem] in IG, IN, IM, IS.
  assert (G1 : map gid t1 = map gid t ++ map gid fr) by (unfold t1; rewrite map_app, !map_map; f_equal; apply map_ext; intros g; unfold unmark; destruct (mem _ u); reflexivity).
  assert (ND : NoDup (map gid t1)).
  { rewrite G1. apply nodup_app; [exact IG|unfold fr; rewrite gens_gid; apply seq_NoDup|]. intros x I1 I2. apply in_map_iff in I1 as (g & <- & I1). unfold fr in I2. rewrite gens_gid in I2. apply in_seq in I2. specialize (IN g I1). lia. }
  rewrite (sweep_eq w _ t1 _ r ND).
  assert (FM : filter (fun g => negb (mark g)) t1 = kept u (mkSt n t b r) ++ fr /\ map gid (filter mark t1) = map gid (gone u (mkSt n t b r))).
  { assert (F1 : filter (fun g => negb (mark g)) fr = fr /\ filter mark fr = []).
    { assert (H : forall g, In g fr -> mark g = false) by (intros g Ig; apply gens_in in Ig; tauto). clear -H. induction fr as [|g l IH]; [auto|]. destruct IH as (A & B); [intros x Ix; apply H; right; exact Ix|].
      cbn. rewrite (H g (or_introl eq_refl)). cbn. rewrite A, B. auto. }
    destruct F1 as (F1 & F2). unfold t1. rewrite !filter_app, F1, F2, app_nil_r. unfold kept, gone. cbn [tab]. split.
    - f_equal. clear -IM. induction t as [|g t IH]; [reflexivity|]. cbn. rewrite IH by (intros x Ix; apply IM; right; exact Ix). unfold unmark. cbn [addr set_mark]. destruct (mem (addr g) u) eqn:M; cbn; [|reflexivity].
      destruct g as [i a p k]. pose proof (IM (mkGen i a p k) (or_introl eq_refl)) as K. cbn in K. subst k. reflexivity.
    - clear -IM. induction t as [|g t IH]; [reflexivity|]. assert (EU1 : unmark u (set_mark true g) = set_mark (negb (mem (addr g) u)) g) by (unfold unmark; cbn; destruct (mem (addr g) u); reflexivity). cbn [map filter]. rewrite EU1. destruct (mem (addr g) u) eqn:M; cbn; [|f_equal]; apply IH; intros x Ix; apply IM; right; exact Ix. }
  destruct FM as (F1 & F2). rewrite F1, F2. cbn [bls].
  destruct (list_get_spec b w IS) as (S0 & H0 & M0 & _). fold b0 in S0, H0, M0.
  destruct (adds_spec (map gid fr) b0 w S0 H0) as (S1 & H1 & M1 & O1). set (b1 := fold_left (fun l i => balancer_add l w i) (map gid fr) b0) in *.
  destruct (drops_spec (map gid (gone u (mkSt n t b r))) b1 w S1) as (S2 & M2 & O2 & H2). set (b2 := fold_left (fun x i => balancer_drop x w i) (map gid (gone u (mkSt n t b r))) b1) in *.
  exists b2. cbn [next]. assert (EL : length na = length (fresh pri u (mkSt n t b r))) by (unfold fresh; cbn [next tab]; rewrite <- (map_length gid (gens _ _ _)), gens_gid, seq_length; reflexivity).
  rewrite EL. split; [reflexivity|]. split; [exact S2|]. split; [rewrite M2, M1, M0; reflexivity|]. split; [intros w' NE; rewrite (O2 w' NE), (O1 w' NE), M0; reflexivity|].
  rewrite H2. destruct (gone u (mkSt n t b r)); cbn; [exact H1|reflexivity].
Qed.

Lemma kept_in : forall u s g, In g (kept u s) <-> In g (tab s) /\ In (addr g) u.
Proof. intros. unfold kept. rewrite filter_In, mem_in. tauto. Qed.
Lemma gone_in : forall u s g, In g (gone u s) <-> In g (tab s) /\ ~ In (addr g) u.
Proof. intros. unfold gone. rewrite filter_In, negb_true_iff, mem_not. tauto. Qed.
Lemma fresh_in : forall pri u s g, In g (fresh pri u s) -> gprio g = pri /\ mark g = false /\ In (addr g) u /\ ~ In (addr g) (map addr (tab s)) /\ next s <= gid g < next s + length (fresh pri u s).
Proof.
  intros pri u s g I. assert (E : length (fresh pri u s) = length (new_addrs (map addr (tab s)) u)) by (unfold fresh; rewrite <- (map_length gid), gens_gid, seq_length; reflexivity).
  unfold fresh in I. apply gens_in in I as (A & B & C & D). apply new_addrs_in in C as (C1 & C2). rewrite E. auto.
Qed.

Lemma gid_unique : forall (t : list gen) g g', NoDup (map gid t) -> In g t -> In g' t -> gid g = gid g' -> g = g'.
Proof.
  induction t as [|y t IH]; intros g g' ND I I' X2; [easy|]. cbn in ND. apply NoDup_cons_iff in ND as (N1 & N2).
  destruct I as [->|I], I' as [->|I']; auto; exfalso; apply N1; [rewrite X2|rewrite <- X2]; apply in_map; auto.
Qed.

Lemma update_inv : forall w pri m resp s s', inv w s -> addr_update w pri false m resp s = Ok s' -> inv w s'.
Proof.
  intros w pri m resp s s' I U. destruct (addr_update_eq w pri m resp s I) as (b & E & S & M & O & _). rewrite E in U. destruct (has_balancer b w); [|discriminate]. set (u := used m resp) in *.
  assert (ES : s' = mkSt (next s + length (fresh pri u s)) (kept u s ++ fresh pri u s) b (rem s ++ map gid (gone u s))) by congruence. subst s'. clear E U.
  destruct I as [I1 I2 I3 I4 I5 I6 I7 I8].
  assert (FR : forall g, In g (fresh pri u s) -> ~ In (gid g) (members (bls s) w)) by (intros g Ig Im; apply fresh_in in Ig as (_ & _ & _ & _ & R); apply I6 in Im; lia).
  constructor; cbn [next tab bls rem].
  - rewrite map_app. apply nodup_app; [apply nodup_map_filter; exact I1|unfold fresh; rewrite gens_addr; apply new_addrs_nodup|].
    intros x X1 X2. unfold fresh in X2. rewrite gens_addr in X2. apply new_addrs_in in X2 as (_ & X2). apply X2. apply in_map_iff in X1 as (g & <- & X1). apply kept_in in X1 as (X1 & _). apply in_map. exact X1.
  - rewrite map_app. apply nodup_app; [apply nodup_map_filter; exact I2|unfold fresh; rewrite gens_gid; apply seq_NoDup|].
    intros x X1 X2. apply in_map_iff in X1 as (g & <- & X1). apply kept_in in X1 as (X1 & _). apply I3 in X1. apply in_map_iff in X2 as (g' & X2 & X3). apply fresh_in in X3 as (_ & _ & _ & _ & R). lia.
  - intros g Ig. apply in_app_iff in Ig as [Ig|Ig]; [apply kept_in in Ig as (Ig & _); apply I3 in Ig; lia|apply fresh_in in Ig; lia].
  - intros g Ig. rewrite M. apply filter_In. apply in_app_iff in Ig as [Ig|Ig].
    + apply kept_in in Ig as (Ig & Iu). split; [apply in_app_iff; left; auto|]. apply outside_in. intros X. apply in_map_iff in X as (g' & X1 & X2). apply gone_in in X2 as (X2 & X3). rewrite (gid_unique _ g g' I2 Ig X2) in Iu; [contradiction|auto].
    + split; [apply in_app_iff; right; apply in_map; exact Ig|]. apply outside_in. intros X. apply in_map_iff in X as (g' & X1 & X2). apply gone_in in X2 as (X2 & X3). apply I3 in X2. apply fresh_in in Ig. lia.
  - exact S.
  - intros w' i Ii. destruct (Z.eq_dec w' w) as [->|NE].
    + rewrite M in Ii. apply filter_In in Ii as (Ii & _). apply in_app_iff in Ii as [Ii|Ii]; [apply I6 in Ii; lia|]. apply in_map_iff in Ii as (g & <- & Ig). apply fresh_in in Ig. lia.
    + rewrite (O w' NE) in Ii. apply I6 in Ii. lia.
  - intros w'. destruct (Z.eq_dec w' w) as [->|NE]; [|rewrite (O w' NE); auto]. rewrite M. apply nodup_filter. apply nodup_app; [auto|unfold fresh; rewrite gens_gid; apply seq_NoDup|].
    intros x X1 X2. apply in_map_iff in X2 as (g & <- & X2). exact (FR g X2 X1).
  - intros g Ig. apply in_app_iff in Ig as [Ig|Ig]; [apply kept_in in Ig as (Ig & _); auto|apply fresh_in in Ig; tauto].
Qed.

Lemma updates_inv : forall w pri m l s s', inv w s -> updates w pri m l s = Ok s' -> inv w s'.
Proof.
  intros w pri m l. induction l as [|a l IH]; intros s s' I U; cbn [updates] in U; [congruence|]. destruct (addr_update w pri false m a s) as [|s1] eqn:E; [congruence|]. exact (IH s1 s' (update_inv _ _ _ _ _ _ I E) U).
Qed.
Lemma reachable_inv : forall w pri m s, reachable w pri m s -> inv w s.
Proof. intros w pri m s (s0 & l & I & U). exact (updates_inv w pri m l s0 s (initial_inv w s0 I) U). Qed.

Lemma update_set : forall w pri m resp s s', reachable w pri m s -> addr_update w pri false m resp s = Ok s' ->
  NoDup (map addr (tab s')) /\ forall a, In a (map addr (tab s')) <-> In a (used m resp).
Proof.
  intros w pri m resp s s' R U. pose proof (reachable_inv w pri m s R) as I. split; [exact (i_addr _ _ (update_inv _ _ _ _ _ _ I U))|].
  destruct (addr_update_eq w pri m resp s I) as (b & E & S & M & O & _). rewrite E in U. destruct (has_balancer b w); [|discriminate]. set (u := used m resp) in *.
  assert (ES : s' = mkSt (next s + length (fresh pri u s)) (kept u s ++ fresh pri u s) b (rem s ++ map gid (gone u s))) by congruence. subst s'. cbn [tab].
  intros a. rewrite map_app, in_app_iff. split.
  - intros [X|X]; apply in_map_iff in X as (g & <- & X); [apply kept_in in X; tauto|apply fresh_in in X; tauto].
  - intros Ia. destruct (in_dec adr_dec a (map addr (tab s))) as [X|X].
    + left. apply in_map_iff in X as (g & <- & X). apply in_map. apply kept_in. auto.
    + right. unfold fresh. rewrite gens_addr. apply new_addrs_in. auto.
Qed.

Lemma update_objects : forall w pri m resp s s', reachable w pri m s -> addr_update w pri false m resp s = Ok s' ->
  (forall g, In g (tab s) -> In (addr g) (used m resp) -> In g (tab s')) /\
  (forall g, In g (tab s') -> In g (tab s) \/ next s <= gid g < next s' /\ gprio g = pri /\ ~ In (addr g) (map addr (tab s))) /\
  NoDup (map gid (tab s')) /\ (forall w' i, In i (members (bls s) w') -> i < next s) /\ (forall g, In g (tab s) -> gid g < next s).
Proof.
  intros w pri m resp s s' R U. pose proof (reachable_inv w pri m s R) as I. pose proof (i_gid _ _ (update_inv _ _ _ _ _ _ I U)) as G.
  destruct (addr_update_eq w pri m resp s I) as (b & E & S & M & O & _). rewrite E in U. destruct (has_balancer b w); [|discriminate]. set (u := used m resp) in *.
  assert (ES : s' = mkSt (next s + length (fresh pri u s)) (kept u s ++ fresh pri u s) b (rem s ++ map gid (gone u s))) by congruence. subst s'. cbn [tab next] in *.
  split; [|split; [|split; [exact G|split; [exact (i_next _ _ I)|exact (i_new _ _ I)]]]].
  - intros g Ig Iu. apply in_app_iff. left. apply kept_in. auto.
  - intros g Ig. apply in_app_iff in Ig as [Ig|Ig]; [left; apply kept_in in Ig; tauto|right; apply fresh_in in Ig; tauto].
Qed.

Lemma update_removed : forall w pri m resp s s', reachable w pri m s -> addr_update w pri false m resp s = Ok s' ->
  exists l, rem s' = rem s ++ l /\ NoDup l /\ forall i, In i l <-> exists g, In g (tab s) /\ gid g = i /\ ~ In (addr g) (used m resp).
Proof.
  intros w pri m resp s s' R U. pose proof (reachable_inv w pri m s R) as I.
  destruct (addr_update_eq w pri m resp s I) as (b & E & S & M & O & _). rewrite E in U. destruct (has_balancer b w); [|discriminate]. set (u := used m resp) in *.
  assert (ES : s' = mkSt (next s + length (fresh pri u s)) (kept u s ++ fresh pri u s) b (rem s ++ map gid (gone u s))) by congruence. subst s'. cbn [rem].
  eexists. split; [reflexivity|]. split; [apply nodup_map_filter; exact (i_gid _ _ I)|]. intros i. rewrite in_map_iff. split.
  - intros (g & <- & Ig). apply gone_in in Ig as (Ig & Iu). exists g. auto.
  - intros (g & Ig & <- & Iu). exists g. split; auto. apply gone_in. auto.
Qed.

Lemma update_balancers : forall w pri m resp s s', reachable w pri m s -> addr_update w pri false m resp s = Ok s' ->
  (forall w', NoDup (members (bls s') w')) /\ (forall w', w' <> w -> members (bls s') w' = members (bls s) w') /\
  forall i, In i (members (bls s') w) <-> In i (map gid (tab s')) \/ In i (members (bls s) w) /\ ~ In i (map gid (tab s)).
Proof.
  intros w pri m resp s s' R U. pose proof (reachable_inv w pri m s R) as I. pose proof (i_nodup _ _ (update_inv _ _ _ _ _ _ I U)) as ND.
  split; [exact ND|]. clear ND. pose proof (i_mem _ _ (update_inv _ _ _ _ _ _ I U)) as IM.
  destruct (addr_update_eq w pri m resp s I) as (b & E & S & M & O & _). rewrite E in U. destruct (has_balancer b w); [|discriminate]. set (u := used m resp) in *.
  assert (ES : s' = mkSt (next s + length (fresh pri u s)) (kept u s ++ fresh pri u s) b (rem s ++ map gid (gone u s))) by congruence. subst s'. cbn [bls tab] in *.
  split; [exact O|]. intros i. split.
  - rewrite M. intros X. apply filter_In in X as (X1 & X2). apply outside_in in X2. rewrite map_app, in_app_iff. apply in_app_iff in X1 as [X1|X1]; [|auto].
    destruct (in_dec Nat.eq_dec i (map gid (tab s))) as [Y|Y]; [|auto]. left. left. apply in_map_iff in Y as (g & <- & Y). apply in_map. apply kept_in. split; [exact Y|].
    destruct (in_dec adr_dec (addr g) u); [assumption|]. destruct X2. apply in_map. apply gone_in. auto.
  - intros [X|(X & Y)].
    + apply in_map_iff in X as (g & <- & X). apply IM. exact X.
    + rewrite M. apply filter_In. split; [apply in_app_iff; auto|]. apply outside_in. intros Z1. apply Y. apply in_map_iff in Z1 as (g & <- & Z1). apply gone_in in Z1 as (Z1 & _). apply in_map. exact Z1.
Qed.

(** When the update does not end well *)
Lemma update_fails : forall w pri m resp s, reachable w pri m s ->
  (addr_update w pri false m resp s = Use_after_free <-> resp = [] /\ tab s <> [] /\ forall i, In i (members (bls s) w) -> In i (map gid (tab s))).
Proof.
  intros w pri m resp s R. pose proof (reachable_inv w pri m s R) as I.
  destruct (addr_update_eq w pri m resp s I) as (b & E & S & M & O & H). rewrite E. set (u := used m resp) in *.
  assert (EU : resp = [] <-> u = []) by (unfold u, used; destruct m, resp; cbn; split; congruence).
  destruct (has_balancer b w) eqn:B; split.
  - discriminate.
  - intros (R0 & T & X). exfalso. symmetry in H. assert (U0 : u = []) by (apply EU; exact R0). unfold gone in H. rewrite U0 in H.
    destruct (filter _ (tab s)) eqn:F in H.
    + destruct (tab s); [congruence|]. cbn in F. discriminate.
    + destruct (members b w) as [|j mb] eqn:MB; [discriminate|]. assert (J : In j (members b w)) by (rewrite MB; left; reflexivity). rewrite MB, M in J. apply filter_In in J as (J1 & J2). apply outside_in in J2.
      apply J2. assert (J3 : In j (map gid (tab s))). { apply in_app_iff in J1 as [J1|J1]; [apply X; exact J1|]. apply in_map_iff in J1 as (g1 & <- & J1). apply fresh_in in J1 as (_ & _ & J1 & _). rewrite U0 in J1. easy. }
      apply in_map_iff in J3 as (g2 & <- & J3). apply in_map. apply gone_in. rewrite U0. auto.
  - intros _. symmetry in H. destruct (gone u s) as [|g0 gs] eqn:G; [discriminate|]. destruct (members b w) as [|j mb] eqn:MB; [|discriminate].
    assert (N : forall i, In i (members (bls s) w ++ map gid (fresh pri u s)) -> In i (map gid (gone u s))).
    { intros i Ii. destruct (in_dec Nat.eq_dec i (map gid (gone u s))) as [Y|Y]; [exact Y|]. assert (Z0 : In i (filter (outside (map gid (gone u s))) (members (bls s) w ++ map gid (fresh pri u s)))) by (apply filter_In; split; [exact Ii|apply outside_in; exact Y]). rewrite G, <- M in Z0. easy. }
    split; [|split].
    + apply EU. destruct u as [|a u'] eqn:Eu; [reflexivity|]. exfalso. destruct (in_dec adr_dec a (map addr (tab s))) as [Y|Y].
      * apply in_map_iff in Y as (g & Ya & Yg). assert (Z0 : In (gid g) (map gid (gone (a :: u') s))) by (apply N; apply in_app_iff; left; apply (i_mem _ _ I); exact Yg). apply in_map_iff in Z0 as (g' & Z1 & Z2). apply gone_in in Z2 as (Z2 & Z3).
        apply Z3. rewrite (gid_unique _ g' g (i_gid _ _ I) Z2 Yg Z1). left. symmetry. exact Ya.
      * assert (Z0 : In a (map addr (fresh pri (a :: u') s))) by (unfold fresh; rewrite gens_addr; apply new_addrs_in; split; [left; reflexivity|exact Y]). apply in_map_iff in Z0 as (g & Z1 & Z2).
        assert (Z3 : In (gid g) (map gid (gone (a :: u') s))) by (apply N; apply in_app_iff; right; apply in_map; exact Z2). apply in_map_iff in Z3 as (g' & Z3 & Z4). apply gone_in in Z4 as (Z4 & _). apply (i_new _ _ I) in Z4. apply fresh_in in Z2. lia.
    + assert (Ig : In g0 (tab s)) by (apply (gone_in u s); rewrite G; left; reflexivity). intros T. rewrite T in Ig. easy.
    + intros i Ii. assert (Z0 : In i (map gid (gone u s))) by (apply N; apply in_app_iff; left; exact Ii). apply in_map_iff in Z0 as (g & <- & Z0). apply gone_in in Z0 as (Z0 & _). apply in_map. exact Z0.
  - intros. reflexivity.
Qed.

Lemma update_disabled : forall w pri m resp s, exists b, addr_update w pri true m resp s = Ok (mkSt (next s) (tab s) b (rem s)) /\ (sorted (bls s) -> forall w', members b w' = members (bls s) w').
Proof. intros. eexists. split; [reflexivity|]. intros S. apply (list_get_spec (bls s) w S). Qed.

(** ** SRV records *)
Definition slice (resp : list srv) (g : stat) : list srv := firstn (st_count g) (skipn (st_start g) resp).
Definition described (resp : list srv) (g : stat) (l : list srv) : Prop := slice resp g = l /\ st_max g = greatest_weight l /\ forall r, In r l -> s_prio r = st_prio g.

Lemma gw_nonneg : forall l, (0 <= greatest_weight l)%Z.
Proof. unfold greatest_weight. induction l; cbn in *; lia. Qed.
Lemma gw_cons : forall r l, greatest_weight (r :: l) = Z.max (s_weight r) (greatest_weight l).
Proof. reflexivity. Qed.
Lemma gw_snoc' : forall l r, greatest_weight (l ++ [r]) = Z.max (greatest_weight l) (s_weight r).
Proof.
  intros l r. induction l as [|x l IH]; [cbn; lia|]. cbn [app]. rewrite !gw_cons, IH. lia.
Qed.

Lemma slice_mid : forall pre cl rest p m, slice (pre ++ cl ++ rest) (mkStat p (length pre) (length cl) m) = cl.
Proof. intros. unfold slice. cbn. rewrite skipn_app, skipn_all, Nat.sub_diag. cbn. rewrite firstn_app, firstn_all, Nat.sub_diag. cbn. apply app_nil_r. Qed.

Lemma fill_spec : forall rest pre cl p, (forall r, In r cl -> s_prio r = p) -> (cl <> [] \/ exists r rest', rest = r :: rest' /\ s_prio r = p) ->
  exists ls, Forall2 (described (pre ++ cl ++ rest)) (fill_groups (mkStat p (length pre) (length cl) (greatest_weight cl)) (length pre + length cl) rest) ls /\
    concat ls = cl ++ rest /\ Forall one_priority ls /\ runs_differ ls /\ exists l0 ls', ls = l0 :: ls' /\ forall r, In r l0 -> s_prio r = p.
Proof.
  induction rest as [|r rest IH]; intros pre cl p H NE.
  - assert (N : cl <> []) by (destruct NE as [N|(r & rest' & X & _)]; [exact N|discriminate]). exists [cl]. cbn. split; [|split; [|split; [|split; [exact Logic.I|]]]].
    + constructor; [|constructor]. split; [apply slice_mid|]. split; [reflexivity|]. exact H.
    + reflexivity.
    + constructor; [|constructor]. split; [exact N|]. intros a b A B. rewrite (H a A), (H b B). reflexivity.
    + exists cl, []. auto.
  - cbn [fill_groups st_prio st_start st_count st_max]. destruct (Z.eqb_spec p (s_prio r)) as [E|E].
    + destruct (IH pre (cl ++ [r]) p) as (ls & F & C & O & D & L).
      * intros x X. apply in_app_iff in X as [X|[<-|[]]]; auto.
      * left. intros X. destruct cl; discriminate.
      * exists ls. rewrite <- app_assoc in F, C. cbn [app] in F, C. rewrite app_length, gw_snoc' in F. cbn [length] in F. rewrite !Nat.add_1_r, Nat.add_succ_r in F. auto.
    + assert (N : cl <> []) by (destruct NE as [N|(r0 & rest' & X & Y)]; [exact N|congruence]).
      destruct (IH (pre ++ cl) [r] (s_prio r)) as (ls & F & C & O & D & L).
      * intros x [<-|[]]. reflexivity.
      * left. discriminate.
      * exists (cl :: ls). rewrite <- app_assoc in F. cbn [app] in F. rewrite app_length, Nat.add_1_r in F. cbn [length] in F. replace (greatest_weight [r]) with (Z.max 0 (s_weight r)) in F by (cbn; lia).
        split; [|split; [|split; [|split]]].
        -- constructor; [|exact F]. split; [apply slice_mid|]. split; [reflexivity|exact H].
        -- cbn. rewrite C. reflexivity.
        -- constructor; [|exact O]. split; [exact N|]. intros a b A B. rewrite (H a A), (H b B). reflexivity.
        -- destruct L as (l0 & ls' & -> & L). cbn [runs_differ]. split; [|exact D]. intros x y X Y. rewrite (H x X), (L y Y). exact E.
        -- exists cl, ls. auto.
Qed.
Lemma fill_length : forall rest cur i, length (fill_groups cur i rest) = S (count_groups (st_prio cur) rest).
Proof. induction rest as [|r rest IH]; intros cur i; cbn; [reflexivity|]. destruct (Z.eqb (st_prio cur) (s_prio r)); [rewrite IH; reflexivity|]. cbn [length]. rewrite IH. reflexivity. Qed.

Lemma analyze_spec : forall resp, valid_srv resp -> exists gs ls, analyze resp = Some gs /\ runs resp ls /\ Forall2 (described resp) gs ls.
Proof.
  intros resp V. destruct resp as [|r rest]; [exists [], []; repeat split; constructor|]. unfold analyze.
  destruct (fill_spec (r :: rest) [] [] (s_prio r)) as (ls & F & C & O & D & _); [easy|right; eauto|]. cbn [app length Nat.add] in F, C.
  eexists _, ls. split; [|split; [|exact F]].
  - rewrite fill_length. cbn [st_prio count_groups]. rewrite Z.eqb_refl. destruct (Z.eqb_spec (-1) (s_prio r)) as [E|E]; [pose proof (V r (or_introl eq_refl)); lia|]. rewrite Nat.leb_refl. reflexivity.
  - split; [exact C|]. split; [exact O|exact D].
Qed.

Lemma slice_records : forall resp g, group_records resp g = map (fun r => (r, st_max g)) (slice resp g).
Proof.
  intros resp g. unfold group_records, slice. generalize (st_count g) (st_start g) (st_max g). clear g. intros c. induction c as [|c IH]; intros s m; [reflexivity|].
  rewrite <- cons_seq. cbn [flat_map]. rewrite Nat.add_0_r. rewrite <- seq_shift, flat_map_concat_map, map_map, <- flat_map_concat_map.
  destruct (nth_error resp s) as [r|] eqn:N.
  - assert (E : skipn s resp = r :: skipn (S s) resp).
    { clear -N. revert s N. induction resp as [|x resp IH]; intros [|s] N; try discriminate; cbn in N |- *; [congruence|]. rewrite (IH s N). destruct resp; reflexivity. }
    rewrite E. cbn [firstn map app]. f_equal. rewrite <- IH. apply flat_map_ext. intros j. rewrite Nat.add_succ_r. reflexivity.
  - cbn [app]. rewrite skipn_all2 by (apply nth_error_None; exact N). cbn. apply nth_error_None in N. clear -N. induction (seq 0 c) as [|x l IHl]; [reflexivity|]. cbn. rewrite (proj2 (nth_error_None resp (s + S x))) by lia. exact IHl.
Qed.
Lemma records_weighted : forall resp gs ls, Forall2 (described resp) gs ls -> flat_map (group_records resp) gs = weighted ls.
Proof.
  intros resp gs ls F. induction F as [|g l gs ls (S & M & _) F IH]; [reflexivity|]. cbn. fold (weighted ls). rewrite IH, slice_records, S, M. reflexivity.
Qed.
Lemma weighted_fst : forall ls, map fst (weighted ls) = concat ls.
Proof. induction ls as [|l ls IH]; [reflexivity|]. cbn. fold (weighted ls). rewrite map_app, IH, map_map. cbn. rewrite map_id. reflexivity. Qed.

Lemma same_key_eq : forall r c, same_key (s_host r) (s_port r) c = true <-> child_key c = srv_key r.
Proof. intros r c. unfold same_key. rewrite HashProofs.backend_cmp0_eq. cbn. unfold child_key, srv_key. split; [intros H; injection H; intros; congruence|intros H; injection H; intros; congruence]. Qed.

Lemma is_key_eq : forall k r, is_key k r = true <-> srv_key r = k.
Proof. intros. unfold is_key. destruct (key_dec k (srv_key r)); split; congruence. Qed.


Record sinv (ignore : bool) (mpri : Z) (n : nat) (t : list child) (done : list (srv * Z)) (n' : nat) (t' : list child) : Prop := mkSinv {
  v_keys : NoDup (map child_key t');
  v_ids : NoDup (map cid t');
  v_lt : forall c, In c t' -> cid c < n';
  v_le : n <= n';
  v_all : forall k, In k (map child_key t') <-> In k (map child_key t) \/ In k (map (fun rm => srv_key (fst rm)) done);
  v_old : forall c, In c t -> exists c', In c' t' /\ same_object c c';
  v_org : forall c', In c' t' -> (exists c, In c t /\ same_object c c') \/ (n <= cid c' /\ ~ In (child_key c') (map child_key t) /\ exists r, first_with (child_key c') (map fst done) = Some r /\ cweight c' = s_prio r);
  v_pri : forall c', In c' t' -> match last_with (child_key c') done with Some (r, mw) => cprio c' = srv_prio ignore mpri mw r /\ cmark c' = false | None => cmark c' = true end
}.

Lemma first_with_app : forall k l m, first_with k (l ++ m) = match first_with k l with Some r => Some r | None => first_with k m end.
Proof. intros k l m. unfold first_with. induction l as [|x l IH]; [reflexivity|]. cbn. destruct (is_key k x); auto. Qed.
Lemma last_with_snoc : forall k l r mw, last_with k (l ++ [(r, mw)]) = if key_dec k (srv_key r) then Some (r, mw) else last_with k l.
Proof. intros. unfold last_with. rewrite rev_app_distr. cbn. unfold is_key at 1. destruct (key_dec k (srv_key r)); reflexivity. Qed.

Lemma same_object_trans : forall a b c, same_object a b -> same_object b c -> same_object a c.
Proof. unfold same_object. intuition congruence. Qed.

Definition touch (p : Z) (r : srv) (c : child) : child := if same_key (s_host r) (s_port r) c then mkChild (cid c) (host c) (port c) p (cweight c) false else c.
Lemma touch_object : forall p r c, same_object c (touch p r c).
Proof. intros. unfold touch, same_object. destruct (same_key _ _ c); auto. Qed.
Lemma touch_key : forall p r c, child_key (touch p r c) = child_key c.
Proof. intros. unfold touch, child_key. destruct (same_key _ _ c); auto. Qed.
Lemma touch_id : forall p r c, cid (touch p r c) = cid c.
Proof. intros. unfold touch. destruct (same_key _ _ c); auto. Qed.
Lemma srv_key_in : forall k (done : list (srv * Z)), In k (map (fun rm => srv_key (fst rm)) done) <-> last_with k done <> None.
Proof.
  intros k done. unfold last_with. split.
  - intros I. apply in_map_iff in I as (rm & E & I). intros F. apply find_none with (x := rm) in F; [|apply in_rev in I; exact I]. apply is_key_eq in E. congruence.
  - intros F. destruct (find _ (rev done)) as [rm|] eqn:X; [|congruence]. apply find_some in X as (I & E). apply is_key_eq in E. apply in_rev in I. apply in_map_iff. eauto.
Qed.
Lemma object_key : forall c c', same_object c c' -> child_key c' = child_key c.
Proof. intros c c' (_ & H & P & _). unfold child_key. congruence. Qed.

Lemma srv_fold : forall ignore mpri n t done, NoDup (map child_key t) -> NoDup (map cid t) -> (forall c, In c t -> cid c < n) -> (forall c, In c t -> cmark c = true) ->
  let (n', t') := fold_left (srv_one ignore mpri) done (n, t) in sinv ignore mpri n t done n' t'.
Proof.
  intros ignore mpri n t done K I L M. induction done as [|(r, mw) done IH] using rev_ind.
  - cbn. constructor; auto; cbn.
    + intros k. tauto.
    + intros c H. exists c. split; [exact H|]. repeat split.
    + intros c H. left. exists c. split; [exact H|]. repeat split.
  - rewrite fold_left_app. cbn [fold_left]. destruct (fold_left (srv_one ignore mpri) done (n, t)) as (n1, t1). destruct IH as [K1 I1 L1 N1 A1 O1 G1 P1]. unfold srv_one. set (p := srv_prio ignore mpri mw r).
    destruct (find (same_key (s_host r) (s_port r)) t1) as [c0|] eqn:F.
    + apply find_some in F as (F1 & F2). apply same_key_eq in F2. change (fun c => if same_key (s_host r) (s_port r) c then mkChild (cid c) (host c) (port c) p (cweight c) false else c) with (touch p r).
      assert (EK : map child_key (map (touch p r) t1) = map child_key t1) by (rewrite map_map; apply map_ext; intros; apply touch_key).
      constructor; auto.
      * rewrite EK. exact K1.
      * rewrite map_map. erewrite map_ext; [exact I1|]. intros; apply touch_id.
      * intros c H. apply in_map_iff in H as (c1 & <- & H). rewrite touch_id. auto.
      * intros k. rewrite EK, A1, map_app, in_app_iff. cbn. split; [tauto|]. intros [X|[X|[<-|[]]]]; auto. apply A1. rewrite <- F2. apply in_map. exact F1.
      * intros c H. destruct (O1 c H) as (c1 & H1 & S1). exists (touch p r c1). split; [apply in_map; exact H1|]. eapply same_object_trans; [exact S1|apply touch_object].
      * intros c' H. apply in_map_iff in H as (c1 & <- & H). destruct (G1 c1 H) as [(c & Hc & S)|(X1 & X2 & r0 & X3 & X4)].
        -- left. exists c. split; [exact Hc|]. eapply same_object_trans; [exact S|apply touch_object].
        -- right. rewrite touch_id, touch_key. split; [exact X1|]. split; [exact X2|]. exists r0. rewrite map_app, first_with_app, X3. split; [reflexivity|]. unfold touch. destruct (same_key _ _ c1); exact X4.
      * intros c' H. apply in_map_iff in H as (c1 & <- & H). rewrite touch_key, last_with_snoc. destruct (key_dec (child_key c1) (srv_key r)) as [E|E].
        -- unfold touch. rewrite (proj2 (same_key_eq r c1) E). cbn. auto.
        -- unfold touch. destruct (same_key (s_host r) (s_port r) c1) eqn:S; [apply same_key_eq in S; contradiction|]. apply P1. exact H.
    + assert (N : ~ In (srv_key r) (map child_key t1)).
      { intros X. apply in_map_iff in X as (c & E & X). apply find_none with (x := c) in F; [|exact X]. apply same_key_eq in E. congruence. }
      set (c0 := mkChild n1 (s_host r) (s_port r) p (s_prio r) false). assert (KC : child_key c0 = srv_key r) by reflexivity.
      constructor.
      * rewrite map_app. apply nodup_app; [exact K1|constructor; [easy|constructor]|]. intros x X [<-|[]]. rewrite KC in X. contradiction.
      * rewrite map_app. apply nodup_app; [exact I1|constructor; [easy|constructor]|]. intros x X [<-|[]]. apply in_map_iff in X as (c & E & X). apply L1 in X. cbn in E. lia.
      * intros c H. apply in_app_iff in H as [H|[<-|[]]]; [apply L1 in H; lia|cbn; lia].
      * lia.
      * intros k. rewrite !map_app, !in_app_iff, A1. cbn. rewrite KC. tauto.
      * intros c H. destruct (O1 c H) as (c1 & H1 & S1). exists c1. split; [apply in_app_iff; auto|exact S1].
      * intros c' H. apply in_app_iff in H as [H|[<-|[]]].
        -- destruct (G1 c' H) as [X|(X1 & X2 & r0 & X3 & X4)]; [left; exact X|]. right. split; [exact X1|]. split; [exact X2|]. exists r0. rewrite map_app, first_with_app, X3. auto.
        -- right. rewrite KC. split; [cbn; lia|]. split; [intros X; apply N; apply A1; auto|]. exists r. split; [|reflexivity]. rewrite map_app, first_with_app.
           destruct (first_with (srv_key r) (map fst done)) as [r1|] eqn:FW.
           ++ exfalso. apply find_some in FW as (FW1 & FW2). apply is_key_eq in FW2. apply N. apply A1. right. apply in_map_iff in FW1 as (rm & <- & FW1). apply in_map_iff. eauto.
           ++ cbn. rewrite (proj2 (is_key_eq (srv_key r) r) eq_refl). reflexivity.
      * intros c' H. rewrite last_with_snoc. apply in_app_iff in H as [H|[<-|[]]].
        -- destruct (key_dec (child_key c') (srv_key r)) as [E|E]; [exfalso; apply N; rewrite <- E; apply in_map; exact H|]. apply P1. exact H.
        -- rewrite KC. destruct (key_dec (srv_key r) (srv_key r)); [|contradiction]. split; reflexivity.
Qed.

Definition cinv (n : nat) (t : list child) : Prop := NoDup (map child_key t) /\ NoDup (map cid t) /\ forall c, In c t -> cid c < n.

Lemma srv_update_spec : forall ignore mpri resp n t, valid_srv resp -> cinv n t -> exists n' t' gone ls,
  srv_update ignore mpri resp n t = Some (n', t', gone) /\ runs resp ls /\ cinv n' t' /\ n <= n' /\
  (forall k, In k (map child_key t') <-> In k (map srv_key resp)) /\
  (forall c, In c t -> In (child_key c) (map srv_key resp) -> exists c', In c' t' /\ same_object c c') /\
  (forall c', In c' t' -> (exists c, In c t /\ same_object c c') \/ (n <= cid c' /\ ~ In (child_key c') (map child_key t) /\ exists r, first_with (child_key c') resp = Some r /\ cweight c' = s_prio r)) /\
  (forall c', In c' t' -> exists r mw, last_with (child_key c') (weighted ls) = Some (r, mw) /\ cprio c' = srv_prio ignore mpri mw r) /\
  (NoDup gone /\ forall i, In i gone <-> exists c, In c t /\ cid c = i /\ ~ In (child_key c) (map srv_key resp)).
Proof.
  intros ignore mpri resp n t V (K & I & L). destruct (analyze_spec resp V) as (gs & ls & A & R & D). unfold srv_update. rewrite A. rewrite (records_weighted resp gs ls D).
  set (t0 := map (fun c => mkChild (cid c) (host c) (port c) (cprio c) (cweight c) true) t).
  assert (K0 : map child_key t0 = map child_key t) by (unfold t0; rewrite map_map; apply map_ext; reflexivity). assert (I0 : map cid t0 = map cid t) by (unfold t0; rewrite map_map; apply map_ext; reflexivity).
  assert (Q : forall c, In c t -> exists c0, In c0 t0 /\ same_object c c0) by (intros c H; eexists; split; [apply in_map_iff; exists c; split; [reflexivity|exact H]|repeat split]).
  assert (Q' : forall c0, In c0 t0 -> exists c, In c t /\ same_object c c0) by (intros c0 H; apply in_map_iff in H as (c & <- & H); exists c; split; [exact H|repeat split]).
  pose proof (srv_fold ignore mpri n t0 (weighted ls)) as F. rewrite K0, I0 in F. specialize (F K I).
  assert (L0 : forall c, In c t0 -> cid c < n) by (intros c H; destruct (Q' c H) as (c1 & H1 & E & _); rewrite E; auto). assert (M0 : forall c, In c t0 -> cmark c = true) by (intros c H; apply in_map_iff in H as (c1 & <- & H); reflexivity).
  specialize (F L0 M0). destruct (fold_left (srv_one ignore mpri) (weighted ls) (n, t0)) as (n1, t1). destruct F as [K1 I1 L1 N1 A1 O1 G1 P1].
  assert (KR : forall k, In k (map (fun rm => srv_key (fst rm)) (weighted ls)) <-> In k (map srv_key resp)) by (intros k; rewrite <- (map_map fst srv_key), weighted_fst, (proj1 R); tauto).
  assert (MK : forall c, In c t1 -> (cmark c = false <-> In (child_key c) (map srv_key resp))).
  { intros c H. rewrite <- KR, srv_key_in. pose proof (P1 c H) as P. destruct (last_with (child_key c) (weighted ls)) as [(r, mw)|]; [split; [discriminate|tauto]|]. rewrite P. split; [discriminate|congruence]. }
  assert (FI : forall c, In c (filter (fun c => negb (cmark c)) t1) <-> In c t1 /\ In (child_key c) (map srv_key resp)) by (intros c; rewrite filter_In, negb_true_iff; split; intros (H1 & H2); split; auto; apply (MK c H1); exact H2).
  exists n1, (filter (fun c => negb (cmark c)) t1), (map cid (filter cmark t1)), ls.
  split; [reflexivity|]. split; [exact R|]. split; [|split; [exact N1|split; [|split; [|split; [|split]]]]].
  - split; [apply nodup_map_filter; exact K1|]. split; [apply nodup_map_filter; exact I1|]. intros c H. apply FI in H as (H & _). auto.
  - intros k. split.
    + intros H. apply in_map_iff in H as (c & <- & H). apply FI in H. tauto.
    + intros H. assert (X : In k (map child_key t1)) by (apply A1; right; apply KR; exact H). apply in_map_iff in X as (c & <- & X). apply in_map. apply FI. auto.
  - intros c H Hk. destruct (Q c H) as (c0 & H0 & S0). destruct (O1 c0 H0) as (c1 & H1 & S1). exists c1. split; [|eapply same_object_trans; eauto]. apply FI. split; [exact H1|]. rewrite (object_key _ _ (same_object_trans _ _ _ S0 S1)). exact Hk.
  - intros c' H. apply FI in H as (H & _). destruct (G1 c' H) as [(c0 & H0 & S0)|(X1 & X2 & r & X3 & X4)].
    + destruct (Q' c0 H0) as (c & H1 & S1). left. exists c. split; [exact H1|eapply same_object_trans; eauto].
    + right. rewrite K0 in X2. split; [exact X1|]. split; [exact X2|]. exists r. rewrite weighted_fst, (proj1 R) in X3. auto.
  - intros c' H. apply FI in H as (H & Hk). pose proof (P1 c' H) as P. apply KR, srv_key_in in Hk. destruct (last_with (child_key c') (weighted ls)) as [(r, mw)|]; [|congruence]. exists r, mw. tauto.
  - split; [apply nodup_map_filter; exact I1|]. intros i. split.
    + intros H. apply in_map_iff in H as (c' & <- & H). apply filter_In in H as (H & Hm). assert (Hk : ~ In (child_key c') (map srv_key resp)) by (intros X; apply (MK c' H) in X; congruence).
      destruct (G1 c' H) as [(c0 & H0 & S0)|(X1 & X2 & r & X3 & X4)].
      * destruct (Q' c0 H0) as (c & H1 & S1). pose proof (same_object_trans _ _ _ S1 S0) as S. exists c. split; [exact H1|]. split; [symmetry; apply S|]. rewrite <- (object_key _ _ S). exact Hk.
      * exfalso. apply Hk. apply KR. unfold first_with in X3. apply find_some in X3 as (X3 & X5). apply is_key_eq in X5. apply in_map_iff in X3 as (rm & <- & X3). apply in_map_iff. eauto.
    + intros (c & H & <- & Hk). destruct (Q c H) as (c0 & H0 & S0). destruct (O1 c0 H0) as (c1 & H1 & S1). pose proof (same_object_trans _ _ _ S0 S1) as S. rewrite <- (proj1 S). apply in_map. apply filter_In. split; [exact H1|].
      destruct (cmark c1) eqn:Y; [reflexivity|]. exfalso. apply Hk. apply (MK c1 H1) in Y. rewrite (object_key _ _ S) in Y. exact Y.
Qed.

Lemma srv_updates_inv : forall ignore mpri l n t n' t', (forall a, In a l -> valid_srv a) -> cinv n t -> srv_updates ignore mpri l n t = Some (n', t') -> cinv n' t'.
Proof.
  intros ignore mpri l. induction l as [|a l IH]; intros n t n' t' V C U; cbn [srv_updates] in U; [congruence|].
  destruct (srv_update_spec ignore mpri a n t (V a (or_introl eq_refl)) C) as (n1 & t1 & g & ls & E & _ & C1 & _). rewrite E in U. refine (IH n1 t1 n' t' _ C1 U). intros x X. apply V. right; exact X.
Qed.
Lemma cinv_nil : forall n, cinv n [].
Proof. intros. split; [constructor|split; [constructor|easy]]. Qed.
