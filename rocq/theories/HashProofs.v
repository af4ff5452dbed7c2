(** Hash tables as finite maps. *)
From Coq Require Import List Arith ZArith Bool Permutation Lia.
From Verif Require Import Bytes HashModel HashSpec.
Import ListNotations.

Section Refine.
  Variables (E G K : Type).
  Variable slot : G -> Z -> nat.
  Variable hash : E -> Z.
  Variable cmp0 : E -> E -> bool.
  Variable key : E -> K.
  Variable K_eq_dec : forall a b : K, {a = b} + {a <> b}.
  Hypothesis cmp_key : forall a b, cmp0 a b = true <-> key a = key b.
  Hypothesis hash_key : forall a b, key a = key b -> hash a = hash b.

  Lemma hit_key : forall t k e, hit E G slot hash cmp0 t k e = true <-> key e = key k.
  Proof.
    intros t k e. unfold hit. rewrite !andb_true_iff, cmp_key, Nat.eqb_eq, Z.eqb_eq. split; [tauto|]. intros H. rewrite (hash_key e k H). auto.
  Qed.

  Definition rel (t : table E G) (m : map E K) : Prop := NoDup (List.map key (ents t)) /\ forall k e, m k = Some e <-> In e (ents t) /\ key e = k.

  Lemma find_hit : forall t m k, rel t m -> retrieve E G slot hash cmp0 t k = m (key k).
  Proof.
    intros t m k (ND & R). unfold retrieve. destruct (m (key k)) as [e|] eqn:M.
    - apply R in M as (I & KE). clear R. revert ND I. induction (ents t) as [|x l IH]; intros ND I; [easy|]. cbn [List.map] in ND. apply NoDup_cons_iff in ND as (N1 & N2). cbn [find].
      destruct (hit E G slot hash cmp0 t k x) eqn:H.
      + f_equal. apply hit_key in H. destruct I as [->|I]; [reflexivity|]. exfalso. apply N1. rewrite H, <- KE. apply in_map. exact I.
      + destruct I as [->|I]; [rewrite (proj2 (hit_key t k e) KE) in H; discriminate|auto].
    - destruct (find _ _) as [e|] eqn:F; [|reflexivity]. apply find_some in F as (I & H). apply hit_key in H. assert (m (key k) = Some e) by (apply R; auto). congruence.
  Qed.

  Lemma remove_spec : forall f k l, (forall e, f e = true <-> key e = k) -> NoDup (List.map key l) ->
    NoDup (List.map key (remove E f l)) /\ (forall e, In e (remove E f l) <-> In e l /\ key e <> k).
  Proof.
    intros f k l F. induction l as [|x l IH]; intros ND; cbn [remove List.map]; [split; [constructor|cbn; tauto]|]. cbn [List.map] in ND. apply NoDup_cons_iff in ND as (N1 & N2).
    destruct (IH N2) as (I1 & I2). destruct (f x) eqn:FX.
    - split; [exact N2|]. intros e. apply F in FX. split; [intros I; split; [right; exact I|]|].
      + intros KE. apply N1. rewrite FX, <- KE. apply in_map. exact I.
      + intros ([->|I] & NE); [contradiction|exact I].
    - split.
      + cbn [List.map]. constructor; [|exact I1]. intros J. apply in_map_iff in J as (e & KE & J). apply I2 in J as (J & _). apply N1. rewrite <- KE. apply in_map. exact J.
      + intros e. cbn. rewrite I2. split; [intros [->|(I & NE)]; [split; [left; reflexivity|]|tauto]|intros ([->|I] & NE); [left; reflexivity|tauto]].
        intros KE. apply F in KE. congruence.
  Qed.

  Lemma replace_spec : forall f x l, (forall e, f e = true <-> key e = key x) -> NoDup (List.map key l) -> (exists e, In e l /\ f e = true) ->
    List.map key (replace E f x l) = List.map key l /\ (forall e, In e (replace E f x l) <-> e = x \/ In e l /\ key e <> key x).
  Proof.
    intros f x l F. induction l as [|y l IH]; intros ND (z & IZ & FZ); [easy|]. cbn [List.map] in ND. apply NoDup_cons_iff in ND as (N1 & N2). cbn [replace List.map].
    destruct (f y) eqn:FY.
    - apply F in FY as KY. split; [cbn [List.map]; rewrite KY; reflexivity|]. intros e. cbn. split.
      + intros [->|I]; [left; reflexivity|]. right. split; [right; exact I|]. intros KE. apply N1. rewrite KY, <- KE. apply in_map. exact I.
      + intros [->|([->|I] & NE)]; [left; reflexivity|contradiction|right; exact I].
    - destruct IZ as [->|IZ]; [congruence|]. destruct (IH N2 (ex_intro _ z (conj IZ FZ))) as (I1 & I2). split; [cbn [List.map]; rewrite I1; reflexivity|].
      intros e. cbn. rewrite I2. split.
      + intros [->|[->|(I & NE)]]; [right; split; [left; reflexivity|]|left; reflexivity|right; tauto]. intros KE. apply F in KE. congruence.
      + tauto.
  Qed.

  Lemma step_rel : forall t m o, rel t m -> (forall g l, o = Resize g l -> Permutation l (ents t)) ->
    rel (fst (step E G slot hash cmp0 t o)) (fst (map_step E K key K_eq_dec m o)) /\
    snd (step E G slot hash cmp0 t o) = snd (map_step E K key K_eq_dec m o).
  Proof.
    intros t m o R P. pose proof R as (ND & RM). destruct o as [x|k|k|g l]; cbn [step map_step fst snd].
    - unfold insert. rewrite (find_hit t m x R). destruct (m (key x)) as [old|] eqn:M; (split; [|reflexivity]); cbn [fst]; unfold rel; cbn [ents].
      + apply RM in M as (IO & KO). destruct (replace_spec (hit E G slot hash cmp0 t x) x (ents t) (fun e => hit_key t x e) ND) as (R1 & R2).
        { exists old. split; [exact IO|]. apply hit_key. exact KO. }
        rewrite R1. split; [exact ND|]. intros k e. rewrite R2. unfold put. destruct (K_eq_dec k (key x)) as [->|NE].
        * split; [intros H; injection H as <-; auto|]. intros ([->|(_ & NE)] & KE); [reflexivity|contradiction].
        * rewrite RM. split; [intros (I & KE); subst k; auto|]. intros ([->|(I & _)] & KE); [congruence|auto].
      + assert (NI : ~ In (key x) (List.map key (ents t))).
        { intros J. apply in_map_iff in J as (e & KE & I). assert (m (key x) = Some e) by (apply RM; auto). congruence. }
        split.
        * rewrite map_app. cbn. apply (Permutation_NoDup (l := key x :: List.map key (ents t))); [apply Permutation_cons_append|constructor; auto].
        * intros k e. rewrite in_app_iff. cbn. unfold put. destruct (K_eq_dec k (key x)) as [->|NE].
          -- split; [intros H; injection H as <-; auto|]. intros ([I|[->|[]]] & KE); [|reflexivity]. exfalso. apply NI. rewrite <- KE. apply in_map. exact I.
          -- rewrite RM. split; [tauto|]. intros ([I|[->|[]]] & KE); [auto|congruence].
    - split; [exact R|]. apply find_hit. exact R.
    - split; [|apply find_hit; exact R]. unfold delete, rel. cbn [fst ents]. destruct (remove_spec (hit E G slot hash cmp0 t k) (key k) (ents t) (fun e => hit_key t k e) ND) as (R1 & R2).
      split; [exact R1|]. intros k' e. rewrite R2. unfold del. destruct (K_eq_dec k' (key k)) as [->|NE].
      + split; [discriminate|]. intros ((_ & NE) & KE). contradiction.
      + rewrite RM. split; [intros (I & KE); subst k'; auto|tauto].
    - specialize (P g l eq_refl). split; [|reflexivity]. unfold rel. cbn [ents]. split.
      + apply (Permutation_NoDup (l := List.map key (ents t))); [|exact ND]. apply Permutation_map. apply Permutation_sym. exact P.
      + intros k e. rewrite RM. split; intros (I & KE); (split; [|exact KE]); [apply (Permutation_in e (Permutation_sym P))|apply (Permutation_in e P)]; exact I.
  Qed.

  Lemma run_rel : forall ops t m, rel t m -> sound slot hash cmp0 t ops ->
    rel (fst (run E G slot hash cmp0 t ops)) (fst (map_run E K key K_eq_dec m ops)) /\
    snd (run E G slot hash cmp0 t ops) = snd (map_run E K key K_eq_dec m ops).
  Proof.
    induction ops as [|o ops IH]; intros t m R S; cbn [run map_run]; [auto|].
    destruct (step_rel t m o R) as (R1 & O1); [intros g l ->; exact (S [] g l ops eq_refl)|].
    destruct (step E G slot hash cmp0 t o) as (t1 & r) eqn:ST. destruct (map_step E K key K_eq_dec m o) as (m1 & r') eqn:MS. cbn [fst snd] in *. subst r'.
    destruct (IH t1 m1 R1) as (R2 & O2).
    { intros ops1 g l ops2 ->. pose proof (S (o :: ops1) g l ops2 eq_refl) as P. cbn [run] in P. rewrite ST in P. destruct (run E G slot hash cmp0 t1 ops1); exact P. }
    destruct (run E G slot hash cmp0 t1 ops). destruct (map_run E K key K_eq_dec m1 ops). cbn [fst snd] in *. split; [exact R2|congruence].
  Qed.

  Lemma new_rel : forall g dl, rel (new g dl) (empty E K).
  Proof. intros g dl. split; [constructor|]. intros k e. cbn. split; [discriminate|tauto]. Qed.
End Refine.

Lemma strcmp0_eq : forall a b, strcmp0 a b = true <-> a = b.
Proof.
  induction a as [|x a IH]; destruct b as [|y b]; cbn; split; intros H; try discriminate; auto.
  - apply andb_true_iff in H as (H1 & H2). apply beq_eq in H1. apply IH in H2. congruence.
  - injection H as -> ->. rewrite beq_refl. apply IH. reflexivity.
Qed.
Lemma strcasecmp0_eq : forall a b, strcasecmp0 a b = true <-> lower a = lower b.
Proof.
  induction a as [|x a IH]; destruct b as [|y b]; cbn; split; intros H; try discriminate; auto.
  - apply andb_true_iff in H as (H1 & H2). apply beq_eq in H1. apply IH in H2. unfold lower in H2. congruence.
  - injection H as E1 E2. rewrite E1, beq_refl. apply IH. exact E2.
Qed.
Lemma header_name_cmp0_eq : forall a b, header_name_cmp0 a b = true <-> lower a = lower b.
Proof.
  intros a b. unfold header_name_cmp0. rewrite andb_true_iff, Nat.eqb_eq. revert b. induction a as [|x a IH]; destruct b as [|y b]; cbn; split; intros H; try discriminate; auto; try (destruct H; discriminate); try (split; reflexivity).
  - destruct H as (H0 & H). apply andb_true_iff in H as (H1 & H2). apply beq_eq in H1. injection H0 as H0. pose proof (proj1 (IH b) (conj H0 H2)) as E. unfold lower in E. congruence.
  - injection H as E1 E2. rewrite E1, beq_refl. destruct (proj2 (IH b) E2) as (L & N). rewrite <- L. auto.
Qed.
Lemma strhash_loop_lower : forall a b n r, lower a = lower b -> strhash_loop n r a = strhash_loop n r b.
Proof.
  induction a as [|x a IH]; destruct b as [|y b]; intros n r H; try discriminate; auto. cbn [lower List.map] in H. injection H as E1 E2. cbn [strhash_loop]. rewrite E1. apply IH. exact E2.
Qed.
Lemma strhash_ci_lower : forall a b, lower a = lower b -> strhash_ci a = strhash_ci b.
Proof. intros a b H. unfold strhash_ci. destruct a, b; try discriminate; auto. apply strhash_loop_lower. exact H. Qed.
Lemma memcmp0_eq : forall a b, length a = length b -> (memcmp0 a b (length a) = true <-> a = b).
Proof.
  induction a as [|x a IH]; destruct b as [|y b]; intros L; try discriminate; cbn; [tauto|]. injection L as L. rewrite andb_true_iff, Z.eqb_eq, (IH b L). split; [intros (-> & ->); reflexivity|intros H; injection H; auto].
Qed.
Lemma backend_cmp0_eq : forall a b, backend_cmp0 a b = true <-> backend_key a = backend_key b.
Proof.
  intros [x|h p] [y|h' p']; cbn; try (split; discriminate).
  - rewrite andb_true_iff, Nat.eqb_eq. split; [intros (L & M); apply memcmp0_eq in M; auto; congruence|]. intros H. injection H as ->. split; auto. apply memcmp0_eq; reflexivity.
  - rewrite andb_true_iff, strcasecmp0_eq, Z.eqb_eq. split; [intros (-> & P); repeat f_equal; lia|]. intros H. injection H as -> ->. split; auto. lia.
Qed.
Lemma backend_hash_key : forall a b, backend_key a = backend_key b -> backend_hash a = backend_hash b.
Proof. intros [x|h p] [y|h' p'] H; try discriminate; cbn in H; cbn [backend_hash]; [congruence|]. injection H as H ->. rewrite (strhash_ci_lower h h' H). reflexivity. Qed.

Lemma backend_key_dec : forall a b : list Z + bytes * Z, {a = b} + {a <> b}.
Proof.
  intros [x|[x p]] [y|[y q]]; [destruct (list_eq_dec Z.eq_dec x y); [left; congruence|right; congruence]|right; discriminate|right; discriminate|].
  destruct (bytes_eq_dec x y), (Z.eq_dec p q); [left; congruence|right; congruence..].
Qed.

Lemma finite_map_intro : forall E K (key : E -> K) hash cmp0, (forall a b, cmp0 a b = true <-> key a = key b) -> (forall a b, key a = key b -> hash a = hash b) -> finite_map key hash cmp0.
Proof.
  intros E K key hash cmp0 C H G slot g dl dec ops S. destruct (run_rel E G K slot hash cmp0 key dec C H ops (new g dl) (empty E K) (new_rel E G K slot key g dl) S) as ((_ & R) & O). split; [exact O|exact R].
Qed.

(** The entry found after adding a name that was there *)
Lemma add_twice : forall G slot hash cmp0 key (C : forall a b : bytes, cmp0 a b = true <-> key a = key b :> bytes) (H : forall a b, key a = key b -> hash a = hash b) (h : heap G) n i old,
  lookup G slot hash cmp0 h n = Some old -> i <> id old ->
  lookup G slot hash cmp0 (add G slot hash cmp0 h n i) n = Some (mkObj n i) /\ In i (released (add G slot hash cmp0 h n i)).
Proof.
  intros G slot hash cmp0 key C H h n i old L NI. unfold lookup, add in *.
  set (ho := fun o : object => hash (name o)) in *. set (co := fun a b : object => cmp0 (name a) (name b)) in *.
  assert (HE : forall t k k' e, name k = name k' -> hit object G slot ho co t k e = hit object G slot ho co t k' e) by (intros t k k' e E; unfold hit, ho, co; rewrite E; reflexivity).
  assert (RE : forall t k k', name k = name k' -> retrieve object G slot ho co t k = retrieve object G slot ho co t k').
  { intros t k k' E. unfold retrieve. induction (ents t) as [|x l IH]; [reflexivity|]. cbn [find]. rewrite (HE t k k' x E), IH. reflexivity. }
  unfold insert. rewrite (RE (tab h) (mkObj n i) (mkObj n 0) eq_refl), L. cbn [tab released]. split; [|left; reflexivity].
  unfold retrieve in *. cbn [ents]. clear RE. revert L. generalize (ents (tab h)). intros l. induction l as [|x l IH]; [discriminate|]. cbn [find replace].
  rewrite (HE (tab h) (mkObj n i) (mkObj n 0) x eq_refl). destruct (hit object G slot ho co (tab h) (mkObj n 0) x) eqn:HX; intros L; cbn [find].
  - replace (hit object G slot ho co _ (mkObj n 0) (mkObj n i)) with true; [reflexivity|]. symmetry. unfold hit, ho, co. cbn [name]. rewrite Nat.eqb_refl, Z.eqb_refl. apply C. reflexivity.
  - change (hit object G slot ho co _ (mkObj n 0) x) with (hit object G slot ho co (tab h) (mkObj n 0) x). rewrite HX. auto.
Qed.
