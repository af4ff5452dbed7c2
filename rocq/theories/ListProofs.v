(** Proofs about linked lists. *)
From Coq Require Import List Arith Bool Lia.
From Verif Require Import ListModel ListSpec.
Import ListNotations.

Fixpoint lastp (p : ptr) (l : list ptr) : ptr := match l with [] => p | e :: r => lastp e r end.

(** [nx] and [pv] link the elements of [l], between [p] and [q]. *)
Fixpoint fwd (nx : ptr -> ptr) (l : list ptr) (q : ptr) : Prop :=
  match l with [] => True | e :: r => nx e = hd q r /\ fwd nx r q end.
Fixpoint bwd (pv : ptr -> ptr) (p : ptr) (l : list ptr) : Prop :=
  match l with [] => True | e :: r => pv e = p /\ bwd pv e r end.

Lemma lastp_app : forall x y p, lastp p (x ++ y) = lastp (lastp p x) y.
Proof. induction x as [|e x IH]; cbn; auto. Qed.
Lemma hd_app : forall x y (q : ptr), hd q (x ++ y) = hd (hd q y) x.
Proof. intros [|e x] y q; auto. Qed.
Lemma lastp_in : forall x p, x <> [] -> In (lastp p x) x.
Proof.
  induction x as [|e x IH]; intros p H; [contradiction|]. cbn. destruct x as [|e' x]; cbn; auto. right. apply (IH e). discriminate.
Qed.
Lemma lastp_rev : forall l, lastp NULL l = hd NULL (rev l).
Proof. intros l. destruct l as [|e l] using rev_ind; auto. rewrite lastp_app, rev_unit. auto. Qed.
Lemma hd_in : forall (y : list ptr) q, y <> [] -> In (hd q y) y.
Proof. intros [|e y] q H; [contradiction|]. left. auto. Qed.

Lemma fwd_app : forall nx x y q, fwd nx (x ++ y) q <-> fwd nx x (hd q y) /\ fwd nx y q.
Proof. intros nx. induction x as [|e x IH]; intros y q; cbn; [tauto|]. rewrite IH, hd_app. tauto. Qed.
Lemma bwd_app : forall pv x y p, bwd pv p (x ++ y) <-> bwd pv p x /\ bwd pv (lastp p x) y.
Proof. intros pv. induction x as [|e x IH]; intros y p; cbn; [tauto|]. rewrite IH. tauto. Qed.

(** The last link of a list is redirected. *)
Lemma fwd_relink : forall nx nx' x a a', fwd nx x a -> NoDup x -> (forall z, In z x -> nx' z = if Nat.eqb z (lastp NULL x) then a' else nx z) -> fwd nx' x a'.
Proof.
  intros nx nx' x a a'. revert a a'. destruct x as [|e x _] using rev_ind; intros a a' F D H; [exact I|].
  rewrite lastp_app in H. cbn [lastp] in H. apply fwd_app in F as [F1 F2]. apply NoDup_remove in D as [D1 D2]. rewrite app_nil_r in D1, D2. apply fwd_app. cbn [hd fwd] in *. split.
  - assert (G : forall z, In z x -> nx' z = nx z).
    { intros z Z. rewrite H by (apply in_or_app; auto). destruct (Nat.eqb_spec z e) as [->|]; [contradiction|auto]. }
    clear - F1 G. revert F1 G. generalize e. induction x as [|c x IH]; intros a F G; [exact I|]. destruct F as [F1 F2]. split; [rewrite G; [auto|left; auto]|]. apply IH; auto. intros z Z. apply G. right. auto.
  - split; [|exact I]. rewrite H by (apply in_or_app; right; left; auto). rewrite Nat.eqb_refl. auto.
Qed.
Lemma bwd_relink : forall pv pv' y p p', bwd pv p y -> NoDup y -> (forall z, In z y -> pv' z = if Nat.eqb z (hd NULL y) then p' else pv z) -> bwd pv' p' y.
Proof.
  intros pv pv' [|e y] p p' B D H; [exact I|]. cbn [bwd hd] in *. destruct B as [B1 B2]. split.
  - rewrite H by (left; auto). rewrite Nat.eqb_refl. auto.
  - inversion D as [|? ? D1 D2]; subst. assert (G : forall z, In z y -> pv' z = pv z).
    { intros z Z. rewrite H by (right; auto). destruct (Nat.eqb_spec z e) as [->|]; [contradiction|auto]. }
    clear - B2 G. revert B2 G. generalize e. induction y as [|c y IH]; intros a B G; [exact I|]. destruct B as [B1 B2]. split; [rewrite G; [auto|left; auto]|]. apply IH; auto. intros z Z. apply G. right. auto.
Qed.
Lemma fwd_frame : forall nx nx' x a, fwd nx x a -> (forall z, In z x -> nx' z = nx z) -> fwd nx' x a.
Proof. intros nx nx' x a. revert a. induction x as [|c x IH]; intros a F G; [exact I|]. destruct F as [F1 F2]. split; [rewrite G; [auto|left; auto]|]. apply IH; auto. intros z Z. apply G. right. auto. Qed.
Lemma bwd_frame : forall pv pv' y p, bwd pv p y -> (forall z, In z y -> pv' z = pv z) -> bwd pv' p y.
Proof. intros pv pv' y. induction y as [|c y IH]; intros p F G; [exact I|]. destruct F as [F1 F2]. split; [rewrite G; [auto|left; auto]|]. apply IH; auto. intros z Z. apply G. right. auto. Qed.

(** ** Sequences *)

Definition distinct (s : state) : Prop :=
  (forall h, NoDup (s h) /\ ~ In NULL (s h)) /\ forall h h' e, In e (s h) -> In e (s h') -> h = h'.

Lemma put_same : forall s h l, put s h l h = l.
Proof. intros. unfold put. rewrite Nat.eqb_refl. auto. Qed.
Lemma put_other : forall s h l h', h' <> h -> put s h l h' = s h'.
Proof. intros. unfold put. apply Nat.eqb_neq in H. rewrite H. auto. Qed.

Lemma distinct_put : forall s h l, distinct s -> NoDup l -> ~ In NULL l -> (forall e h', In e l -> In e (s h') -> h' = h) -> distinct (put s h l).
Proof.
  intros s h l [A B] D Z O. split.
  - intros h'. unfold put. destruct (Nat.eqb_spec h' h); auto.
  - intros h1 h2 e H1 H2. unfold put in H1, H2. destruct (Nat.eqb_spec h1 h), (Nat.eqb_spec h2 h); subst; auto.
    + symmetry. eauto.
    + eauto.
    + eauto.
Qed.
Lemma distinct_insert : forall s h e x y, distinct s -> free s e -> s h = x ++ y -> distinct (put s h (x ++ e :: y)).
Proof.
  intros s h e x y D [N F] E. destruct (proj1 D h) as [D1 D2]. rewrite E in D1, D2. apply distinct_put; auto.
  - apply NoDup_Add with (a := e) (l := x ++ y); [apply Add_app|]. split; auto. rewrite <- E. auto.
  - intros K. apply in_app_or in K as [K|[K|K]]; [|congruence|]; apply D2; apply in_or_app; auto.
  - intros z h' K1 K2. apply in_app_or in K1 as [K1|[K1|K1]]; [| subst; exfalso; eapply F; eauto |];
      (apply (proj2 D h' h z); auto; rewrite E; apply in_or_app; auto).
Qed.
Lemma distinct_remove : forall s h e x y, distinct s -> s h = x ++ e :: y -> distinct (put s h (x ++ y)).
Proof.
  intros s h e x y D E. destruct (proj1 D h) as [D1 D2]. rewrite E in D1, D2. apply distinct_put; auto.
  - eapply NoDup_remove_1; eauto.
  - intros K. apply D2. apply in_app_or in K. apply in_or_app. cbn. tauto.
  - intros z h' K1 K2. apply (proj2 D h' h z); auto. rewrite E. apply in_app_or in K1. apply in_or_app. cbn. tauto.
Qed.

(** An element of another list is none of the neighbours. *)
Lemma neighbours : forall s h x y z, distinct s -> s h = x ++ y -> z <> NULL -> ~ In z (s h) -> z <> lastp NULL x /\ z <> hd NULL y.
Proof.
  intros s h x y z D E N H. rewrite E in H. split; intros ->; apply H; apply in_or_app.
  - left. apply lastp_in. intros ->. apply N. auto.
  - right. apply hd_in. intros ->. apply N. auto.
Qed.

(** ** Doubly linked lists *)

Definition dwf (m : mem) (s : state) : Prop :=
  distinct s /\ forall h, first m h = hd NULL (s h) /\ last m h = lastp NULL (s h) /\ fwd (next m) (s h) NULL /\ bwd (prev m) NULL (s h).

(** What an insertion between [x] and [y] and a removal do to the memory. *)
Definition heads (m m' : mem) (h : nat) (l : list ptr) : Prop :=
  first m' h = hd NULL l /\ last m' h = lastp NULL l /\ (forall h', h' <> h -> first m' h' = first m h' /\ last m' h' = last m h').
Definition linked_in (m m' : mem) (x : list ptr) (e : ptr) (y : list ptr) : Prop :=
  forall z, z <> NULL ->
    next m' z = (if Nat.eqb z e then hd NULL y else if Nat.eqb z (lastp NULL x) then e else next m z) /\
    prev m' z = (if Nat.eqb z e then lastp NULL x else if Nat.eqb z (hd NULL y) then e else prev m z).
Definition linked_out (m m' : mem) (x : list ptr) (e : ptr) (y : list ptr) : Prop :=
  forall z, z <> NULL -> z <> e ->
    next m' z = (if Nat.eqb z (lastp NULL x) then hd NULL y else next m z) /\
    prev m' z = (if Nat.eqb z (hd NULL y) then lastp NULL x else prev m z).

Lemma insert_wf : forall m m' s h x e y, dwf m s -> free s e -> s h = x ++ y -> heads m m' h (x ++ e :: y) -> linked_in m m' x e y -> dwf m' (put s h (x ++ e :: y)).
Proof.
  intros m m' s h x e y [D W] F E (H1 & H2 & H3) L. split; [apply distinct_insert; auto|]. intros h'.
  destruct (Nat.eq_dec h' h) as [->|N].
  - rewrite put_same. refine (conj H1 (conj H2 _)). destruct (W h) as (_ & _ & W3 & W4). rewrite E in W3, W4. apply fwd_app in W3 as [W3 W3']. apply bwd_app in W4 as [W4 W4'].
    destruct (proj1 D h) as [D1 D2]. rewrite E in D1, D2. destruct F as [F0 F]. specialize (F h). rewrite E in F.
    assert (Dx : NoDup x) by (clear - D1; induction x; [constructor|]; inversion D1; subst; constructor; auto; intros K; apply H1; apply in_or_app; auto).
    assert (Dy : NoDup y) by (clear - D1; induction x; auto; inversion D1; auto).
    assert (IX : forall z, In z x -> z <> NULL /\ z <> e /\ ~ In z y).
    { intros z Z. split; [intros ->; apply D2; apply in_or_app; auto|]. split; [intros ->; apply F; apply in_or_app; auto|].
      intros Y. clear - D1 Z Y. induction x as [|c x IH]; [destruct Z|]. inversion D1; subst. destruct Z as [->|Z]; [apply H1; apply in_or_app; auto|auto]. }
    assert (IY : forall z, In z y -> z <> NULL /\ z <> e /\ ~ In z x).
    { intros z Z. split; [intros ->; apply D2; apply in_or_app; auto|]. split; [intros ->; apply F; apply in_or_app; auto|]. intros X. apply IX in X. tauto. }
    split.
    + apply fwd_app. cbn [hd fwd]. split; [|split].
      * eapply fwd_relink; eauto. intros z Z. destruct (IX z Z) as (Z1 & Z2 & Z3). destruct (L z Z1) as [-> _]. apply Nat.eqb_neq in Z2. rewrite Z2. auto.
      * destruct (L e F0) as [-> _]. rewrite Nat.eqb_refl. auto.
      * eapply fwd_frame; eauto. intros z Z. destruct (IY z Z) as (Z1 & Z2 & Z3). destruct (L z Z1) as [-> _]. apply Nat.eqb_neq in Z2. rewrite Z2.
        destruct (Nat.eqb_spec z (lastp NULL x)) as [->|]; auto. exfalso. apply Z3. apply lastp_in. intros ->. apply Z1. auto.
    + apply bwd_app. cbn [bwd]. split; [|split].
      * eapply bwd_frame; eauto. intros z Z. destruct (IX z Z) as (Z1 & Z2 & Z3). destruct (L z Z1) as [_ ->]. apply Nat.eqb_neq in Z2. rewrite Z2.
        destruct (Nat.eqb_spec z (hd NULL y)) as [->|]; auto. exfalso. apply Z3. apply hd_in. intros ->. apply Z1. auto.
      * destruct (L e F0) as [_ ->]. rewrite Nat.eqb_refl. auto.
      * eapply bwd_relink; eauto. intros z Z. destruct (IY z Z) as (Z1 & Z2 & Z3). destruct (L z Z1) as [_ ->]. apply Nat.eqb_neq in Z2. rewrite Z2. auto.
  - rewrite put_other by auto. destruct (H3 h' N) as [-> ->]. destruct (W h') as (W1 & W2 & W3 & W4). refine (conj W1 (conj W2 _)).
    assert (G : forall z, In z (s h') -> z <> NULL /\ z <> e /\ z <> lastp NULL x /\ z <> hd NULL y).
    { intros z Z. assert (Z0 : z <> NULL) by (intros ->; apply (proj2 (proj1 D h')); auto). split; [auto|]. split; [intros ->; eapply (proj2 F); eauto|].
      eapply neighbours; eauto. intros K. apply N. eapply (proj2 D); eauto. }
    split.
    + eapply fwd_frame; eauto. intros z Z. destruct (G z Z) as (G1 & G2 & G3 & G4). destruct (L z G1) as [-> _]. apply Nat.eqb_neq in G2, G3. rewrite G2, G3. auto.
    + eapply bwd_frame; eauto. intros z Z. destruct (G z Z) as (G1 & G2 & G3 & G4). destruct (L z G1) as [_ ->]. apply Nat.eqb_neq in G2, G4. rewrite G2, G4. auto.
Qed.

Lemma remove_wf : forall m m' s h x e y, dwf m s -> s h = x ++ e :: y -> heads m m' h (x ++ y) -> linked_out m m' x e y -> dwf m' (put s h (x ++ y)).
Proof.
  intros m m' s h x e y [D W] E (H1 & H2 & H3) L. split; [eapply distinct_remove; eauto|]. intros h'.
  destruct (Nat.eq_dec h' h) as [->|N].
  - rewrite put_same. refine (conj H1 (conj H2 _)). destruct (W h) as (_ & _ & W3 & W4). rewrite E in W3, W4. apply fwd_app in W3 as [W3 [_ W3']]. apply bwd_app in W4 as [W4 [_ W4']].
    destruct (proj1 D h) as [D1 D2]. rewrite E in D1, D2. pose proof (NoDup_remove_2 _ _ _ D1) as F. apply NoDup_remove_1 in D1.
    assert (D2' : ~ In NULL (x ++ y)) by (intros K; apply D2; apply in_app_or in K; apply in_or_app; cbn; tauto).
    assert (Dx : NoDup x) by (clear - D1; induction x; [constructor|]; inversion D1; subst; constructor; auto; intros K; apply H1; apply in_or_app; auto).
    assert (Dy : NoDup y) by (clear - D1; induction x; auto; inversion D1; auto).
    assert (IX : forall z, In z x -> z <> NULL /\ z <> e /\ ~ In z y).
    { intros z Z. split; [intros ->; apply D2'; apply in_or_app; auto|]. split; [intros ->; apply F; apply in_or_app; auto|].
      intros Y. clear - D1 Z Y. induction x as [|c x IH]; [destruct Z|]. inversion D1; subst. destruct Z as [->|Z]; [apply H1; apply in_or_app; auto|auto]. }
    assert (IY : forall z, In z y -> z <> NULL /\ z <> e /\ ~ In z x).
    { intros z Z. split; [intros ->; apply D2'; apply in_or_app; auto|]. split; [intros ->; apply F; apply in_or_app; auto|]. intros X. apply IX in X. tauto. }
    split.
    + apply fwd_app. split.
      * eapply fwd_relink; eauto. intros z Z. destruct (IX z Z) as (Z1 & Z2 & Z3). destruct (L z Z1 Z2) as [-> _]. auto.
      * eapply fwd_frame; eauto. intros z Z. destruct (IY z Z) as (Z1 & Z2 & Z3). destruct (L z Z1 Z2) as [-> _].
        destruct (Nat.eqb_spec z (lastp NULL x)) as [->|]; auto. exfalso. apply Z3. apply lastp_in. intros ->. apply Z1. auto.
    + apply bwd_app. split.
      * eapply bwd_frame; eauto. intros z Z. destruct (IX z Z) as (Z1 & Z2 & Z3). destruct (L z Z1 Z2) as [_ ->].
        destruct (Nat.eqb_spec z (hd NULL y)) as [->|]; auto. exfalso. apply Z3. apply hd_in. intros ->. apply Z1. auto.
      * eapply bwd_relink; eauto. intros z Z. destruct (IY z Z) as (Z1 & Z2 & Z3). destruct (L z Z1 Z2) as [_ ->]. auto.
  - rewrite put_other by auto. destruct (H3 h' N) as [-> ->]. destruct (W h') as (W1 & W2 & W3 & W4). refine (conj W1 (conj W2 _)).
    assert (G : forall z, In z (s h') -> z <> NULL /\ z <> e /\ z <> lastp NULL x /\ z <> hd NULL y).
    { intros z Z. assert (Z0 : z <> NULL) by (intros ->; apply (proj2 (proj1 D h')); auto). split; [auto|].
      assert (K : ~ In z (s h)) by (intros K; apply N; eapply (proj2 D); eauto). split; [intros ->; apply K; rewrite E; apply in_or_app; right; left; auto|].
      split; intros ->; apply K; rewrite E; apply in_or_app.
      - left. apply lastp_in. intros ->. apply Z0. auto.
      - right. right. apply hd_in. intros ->. apply Z0. auto. }
    split.
    + eapply fwd_frame; eauto. intros z Z. destruct (G z Z) as (G1 & G2 & G3 & G4). destruct (L z G1 G2) as [-> _]. apply Nat.eqb_neq in G3. rewrite G3. auto.
    + eapply bwd_frame; eauto. intros z Z. destruct (G z Z) as (G1 & G2 & G3 & G4). destruct (L z G1 G2) as [_ ->]. apply Nat.eqb_neq in G4. rewrite G4. auto.
Qed.

(** *** The macros *)

Lemma upd_same : forall f x v, upd f x v x = v. Proof. intros. unfold upd. rewrite Nat.eqb_refl. auto. Qed.
Lemma upd_other : forall f x v y, y <> x -> upd f x v y = f y. Proof. intros. unfold upd. apply Nat.eqb_neq in H. rewrite H. auto. Qed.

Lemma set_next_ok : forall m e v, e <> NULL -> set_next m e v = Some (mkMem (first m) (last m) (upd (next m) e v) (prev m)).
Proof. intros m e v H. unfold set_next. apply Nat.eqb_neq in H. rewrite H. auto. Qed.
Lemma set_prev_ok : forall m e v, e <> NULL -> set_prev m e v = Some (mkMem (first m) (last m) (next m) (upd (prev m) e v)).
Proof. intros m e v H. unfold set_prev. apply Nat.eqb_neq in H. rewrite H. auto. Qed.
Lemma get_next_ok : forall m e, e <> NULL -> get_next m e = Some (next m e).
Proof. intros m e H. unfold get_next. apply Nat.eqb_neq in H. rewrite H. auto. Qed.
Lemma get_prev_ok : forall m e, e <> NULL -> get_prev m e = Some (prev m e).
Proof. intros m e H. unfold get_prev. apply Nat.eqb_neq in H. rewrite H. auto. Qed.

Lemma lastp_null : forall x, ~ In NULL x -> lastp NULL x = NULL <-> x = [].
Proof. intros x H. split; [|intros ->; auto]. intros E. destruct x as [|c x]; auto. exfalso. apply H. rewrite <- E. apply (lastp_in (c :: x)). discriminate. Qed.
Lemma hd_null : forall y, ~ In NULL y -> hd NULL y = NULL <-> y = [].
Proof. intros [|c y] H; cbn; split; auto; try discriminate. intros ->. exfalso. apply H. left. auto. Qed.

(** The links of an element in a list. *)
Lemma links_at : forall m s h x e y, dwf m s -> s h = x ++ e :: y -> e <> NULL /\ next m e = hd NULL y /\ prev m e = lastp NULL x.
Proof.
  intros m s h x e y [D W] E. destruct (W h) as (_ & _ & W3 & W4). rewrite E in W3, W4. apply fwd_app in W3 as [_ [W3 _]]. apply bwd_app in W4 as [_ [W4 _]].
  split; [|auto]. intros ->. apply (proj2 (proj1 D h)). rewrite E. apply in_or_app. right. left. auto.
Qed.

Ltac eqb := repeat match goal with
  | |- context [Nat.eqb ?a ?b] => destruct (Nat.eqb_spec a b); subst
  end; try congruence; auto.

Lemma init_ok : forall m s h, dwf m s -> exists m', DLIST_INIT h m = Some m' /\ dwf m' (put s h []).
Proof.
  intros m s h [D W]. eexists. split; [reflexivity|]. split; [apply distinct_put; auto; [constructor|intros e h' []]|].
  intros h'. unfold set_first, set_last. cbn [first last next prev]. destruct (Nat.eq_dec h' h) as [->|N].
  - rewrite put_same, !upd_same. cbn. auto.
  - rewrite put_other, !upd_other by auto. apply W.
Qed.

Lemma insert_head_ok : forall m s h e, dwf m s -> free s e -> exists m', DLIST_INSERT_HEAD h e m = Some m' /\ dwf m' (put s h (e :: s h)).
Proof.
  intros m s h e W F. pose proof W as W0. destruct W as [D W]. destruct (W h) as (W1 & W2 & W3 & W4). destruct (proj1 D h) as [D1 D2]. destruct F as [F0 F].
  unfold DLIST_INSERT_HEAD. rewrite set_prev_ok by auto. cbn [bind first last next prev]. rewrite set_next_ok by auto. cbn [bind first last next prev].
  assert (K : exists m', (m0 <- (if Nat.eqb (first m h) NULL then Some (set_last (mkMem (first m) (last m) (upd (next m) e (first m h)) (upd (prev m) e NULL)) h e)
     else set_prev (mkMem (first m) (last m) (upd (next m) e (first m h)) (upd (prev m) e NULL)) (first m h) e) ;; Some (set_first m0 h e)) = Some m' /\
     heads m m' h ([] ++ e :: s h) /\ linked_in m m' [] e (s h)).
  { destruct (s h) as [|f r] eqn:E.
    - cbn [hd] in W1. rewrite W1. cbn [Nat.eqb NULL]. cbn [bind]. eexists. split; [reflexivity|]. unfold set_first, set_last. split.
      + split; [cbn; apply upd_same|]. split; [cbn; apply upd_same|]. intros h' N. cbn. rewrite !upd_other by auto. auto.
      + intros z Z. cbn. unfold upd, NULL in *. split; eqb.
    - cbn [hd] in W1. assert (Nf : f <> NULL) by (intros ->; apply D2; left; auto). rewrite W1. pose proof Nf as Nf'. apply Nat.eqb_neq in Nf'. rewrite Nf'.
      rewrite set_prev_ok by auto. cbn [bind]. eexists. split; [reflexivity|]. unfold set_first, set_last. cbn [first last next prev]. split.
      + split; [cbn; apply upd_same|]. split; [cbn; auto|]. intros h' N. cbn. rewrite !upd_other by auto. auto.
      + intros z Z. assert (f <> e) by (intros ->; apply (F h); rewrite E; left; auto). cbn. unfold upd, NULL in *. split; eqb. }
  destruct K as (m' & K & K1 & K2). exists m'. split; [exact K|]. eapply (insert_wf m m' s h [] e (s h)); eauto. split; auto.
Qed.

Lemma insert_tail_ok : forall m s h e, dwf m s -> free s e -> exists m', DLIST_INSERT_TAIL h e m = Some m' /\ dwf m' (put s h (s h ++ [e])).
Proof.
  intros m s h e W F. pose proof W as W0. destruct W as [D W]. destruct (W h) as (W1 & W2 & W3 & W4). destruct (proj1 D h) as [D1 D2]. destruct F as [F0 F].
  unfold DLIST_INSERT_TAIL. rewrite set_next_ok by auto. cbn [bind first last next prev]. rewrite set_prev_ok by auto. cbn [bind first last next prev].
  assert (K : exists m', (m0 <- (if Nat.eqb (last m h) NULL then Some (set_first (mkMem (first m) (last m) (upd (next m) e NULL) (upd (prev m) e (last m h))) h e)
     else set_next (mkMem (first m) (last m) (upd (next m) e NULL) (upd (prev m) e (last m h))) (last m h) e) ;; Some (set_last m0 h e)) = Some m' /\
     heads m m' h (s h ++ e :: []) /\ linked_in m m' (s h) e []).
  { rewrite W2. destruct (Nat.eq_dec (lastp NULL (s h)) NULL) as [E|E].
    - rewrite E. cbn [Nat.eqb NULL bind]. apply lastp_null in E; auto. eexists. split; [reflexivity|]. unfold set_first, set_last. rewrite E in *. split.
      + split; [cbn; apply upd_same|]. split; [cbn; apply upd_same|]. intros h' N. cbn. rewrite !upd_other by auto. auto.
      + intros z Z. cbn. unfold upd, NULL in *. split; eqb.
    - pose proof E as E'. apply Nat.eqb_neq in E'. rewrite E'. rewrite set_next_ok by auto. cbn [bind]. eexists. split; [reflexivity|]. unfold set_first, set_last. cbn [first last next prev].
      assert (Nn : s h <> []) by (intros X; apply E; rewrite X; auto). assert (In (lastp NULL (s h)) (s h)) by (apply lastp_in; auto). split.
      + split; [cbn; rewrite W1, hd_app; destruct (s h); [contradiction|auto]|]. split; [cbn; rewrite upd_same, lastp_app; auto|]. intros h' N. cbn. rewrite !upd_other by auto. auto.
      + intros z Z. assert (lastp NULL (s h) <> e) by (intros X; apply (F h); rewrite <- X; auto). cbn. unfold upd, NULL in *. split; eqb. }
  destruct K as (m' & K & K1 & K2). exists m'. split; [exact K|]. eapply (insert_wf m m' s h (s h) e []); eauto. split; auto. rewrite app_nil_r. auto.
Qed.

Lemma insert_after_ok : forall m s h a e x y, dwf m s -> free s e -> s h = x ++ a :: y -> exists m', DLIST_INSERT_AFTER h a e m = Some m' /\ dwf m' (put s h (x ++ a :: e :: y)).
Proof.
  intros m s h a e x y W F E. pose proof W as W0. destruct (links_at _ _ _ _ _ _ W E) as (A0 & A1 & A2). destruct W as [D W]. destruct (W h) as (W1 & W2 & W3 & W4). destruct (proj1 D h) as [D1 D2]. destruct F as [F0 F].
  assert (N1 : e <> a) by (intros ->; apply (F h); rewrite E; apply in_or_app; right; left; auto).
  assert (K : exists m', DLIST_INSERT_AFTER h a e m = Some m' /\ heads m m' h ((x ++ [a]) ++ e :: y) /\ linked_in m m' (x ++ [a]) e y).
  { unfold DLIST_INSERT_AFTER. pose proof A0 as A0'. apply Nat.eqb_neq in A0'. rewrite A0'. rewrite get_next_ok by auto. cbn [bind]. rewrite set_next_ok by auto. cbn [bind]. rewrite A1. unfold heads, linked_in. rewrite !lastp_app, !hd_app. cbn [lastp hd].
    destruct y as [|c y].
    - cbn [hd]. cbn [Nat.eqb NULL bind]. rewrite set_next_ok by auto. cbn [bind]. rewrite set_prev_ok by auto. eexists. split; [reflexivity|]. unfold set_first, set_last. cbn [first last next prev]. split.
      + split; [rewrite W1, E, hd_app; auto|]. split; [cbn; apply upd_same|]. intros h' N. cbn. rewrite !upd_other by auto. auto.
      + intros z Z. unfold upd, NULL in *. split; eqb.
    - cbn [hd]. assert (Nc : c <> NULL) by (intros ->; apply D2; rewrite E; apply in_or_app; right; right; left; auto).
      assert (Nc1 : c <> e) by (intros ->; apply (F h); rewrite E; apply in_or_app; right; right; left; auto).
      assert (Nc2 : c <> a) by (rewrite E in D1; apply NoDup_remove_2 in D1; intros ->; apply D1; apply in_or_app; right; left; auto).
      pose proof Nc as Nc'. apply Nat.eqb_neq in Nc'. rewrite Nc'. rewrite get_next_ok by auto. cbn [bind first last next prev]. rewrite upd_same. rewrite set_prev_ok by auto. cbn [bind first last next prev].
      rewrite set_next_ok by auto. cbn [bind first last next prev]. rewrite set_prev_ok by auto. eexists. split; [reflexivity|]. cbn [first last next prev]. split.
      + split; [rewrite W1, E, hd_app; auto|]. split; [cbn; rewrite W2, E, lastp_app; cbn; auto|]. auto.
      + intros z Z. unfold upd, NULL in *. split; eqb. }
  destruct K as (m' & K & K1 & K2). exists m'. split; [exact K|].
  replace (x ++ a :: e :: y) with ((x ++ [a]) ++ e :: y) by (rewrite <- app_assoc; auto). eapply (insert_wf m m' s h (x ++ [a]) e y); eauto; [split; auto|]. rewrite <- app_assoc. auto.
Qed.

Lemma insert_before_ok : forall m s h a e x y, dwf m s -> free s e -> s h = x ++ a :: y -> exists m', DLIST_INSERT_BEFORE h a e m = Some m' /\ dwf m' (put s h (x ++ e :: a :: y)).
Proof.
  intros m s h a e x y W F E. pose proof W as W0. destruct (links_at _ _ _ _ _ _ W E) as (A0 & A1 & A2). destruct W as [D W]. destruct (W h) as (W1 & W2 & W3 & W4). destruct (proj1 D h) as [D1 D2]. destruct F as [F0 F].
  assert (N1 : e <> a) by (intros ->; apply (F h); rewrite E; apply in_or_app; right; left; auto).
  assert (Nx : ~ In NULL x) by (intros K; apply D2; rewrite E; apply in_or_app; auto).
  assert (K : exists m', DLIST_INSERT_BEFORE h a e m = Some m' /\ heads m m' h (x ++ e :: a :: y) /\ linked_in m m' x e (a :: y)).
  { unfold DLIST_INSERT_BEFORE. pose proof A0 as A0'. apply Nat.eqb_neq in A0'. rewrite A0'. rewrite get_prev_ok by auto. cbn [bind]. rewrite set_prev_ok by auto. cbn [bind]. rewrite A2. unfold heads, linked_in. rewrite !lastp_app, !hd_app. cbn [lastp hd].
    destruct (Nat.eq_dec (lastp NULL x) NULL) as [L|L].
    - rewrite L. cbn [Nat.eqb NULL bind]. apply lastp_null in L; auto. rewrite set_prev_ok by auto. cbn [bind]. rewrite set_next_ok by auto. eexists. split; [reflexivity|]. unfold set_first, set_last. cbn [first last next prev]. subst x. split.
      + split; [cbn; apply upd_same|]. split; [rewrite W2, E; auto|]. intros h' N. cbn. rewrite !upd_other by auto. auto.
      + intros z Z. unfold upd, NULL in *. cbn [lastp]. split; eqb.
    - assert (Ix : In (lastp NULL x) x) by (apply lastp_in; intros ->; apply L; auto).
      assert (Nc1 : lastp NULL x <> e) by (intros X; apply (F h); rewrite E, <- X; apply in_or_app; auto).
      assert (Nc2 : lastp NULL x <> a) by (rewrite E in D1; apply NoDup_remove_2 in D1; intros X; apply D1; rewrite <- X; apply in_or_app; auto).
      pose proof L as L'. apply Nat.eqb_neq in L'. rewrite L'. rewrite get_prev_ok by auto. cbn [bind first last next prev]. rewrite upd_same. rewrite set_next_ok by auto. cbn [bind first last next prev].
      rewrite set_prev_ok by auto. cbn [bind first last next prev]. rewrite set_next_ok by auto. eexists. split; [reflexivity|]. cbn [first last next prev]. split.
      + split; [rewrite W1, E, hd_app; destruct x; [destruct Ix|auto]|]. split; [cbn; rewrite W2, E, lastp_app; cbn; auto|]. auto.
      + intros z Z. unfold upd, NULL in *. split; eqb. }
  destruct K as (m' & K & K1 & K2). exists m'. split; [exact K|]. eapply (insert_wf m m' s h x e (a :: y)); eauto. split; auto.
Qed.

Lemma remove_ok : forall m s h e x y, dwf m s -> s h = x ++ e :: y -> exists m', DLIST_REMOVE h e m = Some m' /\ dwf m' (put s h (x ++ y)).
Proof.
  intros m s h e x y W E. pose proof W as W0. destruct (links_at _ _ _ _ _ _ W E) as (A0 & A1 & A2). destruct W as [D W]. destruct (W h) as (W1 & W2 & W3 & W4). destruct (proj1 D h) as [D1 D2].
  rewrite E in D1, D2. pose proof (NoDup_remove_2 _ _ _ D1) as F.
  assert (Nx : ~ In NULL x) by (intros K; apply D2; apply in_or_app; auto).
  assert (Ny : ~ In NULL y) by (intros K; apply D2; apply in_or_app; right; right; auto).
  assert (X : x = [] \/ lastp NULL x <> NULL /\ lastp NULL x <> e /\ x <> []).
  { destruct x as [|c x]; [auto|]. right. assert (I : In (lastp NULL (c :: x)) (c :: x)) by (apply lastp_in; discriminate).
    split; [intros X; apply Nx; rewrite <- X; auto|]. split; [intros X; apply F; rewrite <- X; apply in_or_app; auto|discriminate]. }
  assert (Y : y = [] \/ hd NULL y <> NULL /\ hd NULL y <> e /\ y <> []).
  { destruct y as [|c y]; [auto|]. right. cbn [hd]. split; [intros ->; apply Ny; left; auto|]. split; [intros ->; apply F; apply in_or_app; right; left; auto|discriminate]. }
  assert (K : exists m', DLIST_REMOVE h e m = Some m' /\ heads m m' h (x ++ y) /\ linked_out m m' x e y).
  { unfold DLIST_REMOVE. rewrite get_prev_ok by auto. cbn [bind]. rewrite get_next_ok by auto. cbn [bind]. rewrite A1, A2.
    assert (G : exists m1, (if Nat.eqb (lastp NULL x) NULL then Some (set_first m h (hd NULL y)) else set_next m (lastp NULL x) (hd NULL y)) = Some m1 /\
      next m1 e = hd NULL y /\ prev m1 = prev m /\ last m1 = last m /\ first m1 h = hd NULL (x ++ y) /\ (forall h', h' <> h -> first m1 h' = first m h') /\
      (forall z, z <> NULL -> next m1 z = if Nat.eqb z (lastp NULL x) then hd NULL y else next m z)).
    { destruct X as [->|(X1 & X2 & X3)].
      - cbn [lastp Nat.eqb NULL]. eexists. split; [reflexivity|]. cbn. rewrite upd_same. repeat split; auto.
        + intros h' N. apply upd_other. auto.
        + intros z Z. destruct z; [exfalso; apply Z; reflexivity|reflexivity].
      - pose proof X1 as X1'. apply Nat.eqb_neq in X1'. rewrite X1', set_next_ok by auto. eexists. split; [reflexivity|]. cbn. rewrite upd_other by auto.
        repeat split; auto. rewrite W1, E, !hd_app. destruct x; [contradiction|auto]. }
    destruct G as (m1 & -> & G1 & G2 & G3 & G4 & G5 & G6). cbn [bind]. rewrite get_next_ok by auto. cbn [bind]. rewrite get_prev_ok by auto. cbn [bind]. rewrite G1, G2, A2.
    destruct Y as [->|(Y1 & Y2 & Y3)].
    - cbn [hd Nat.eqb NULL]. eexists. split; [reflexivity|]. rewrite app_nil_r in *. split.
      + split; [exact G4|]. cbn. split; [rewrite upd_same; auto|]. intros h' N. rewrite upd_other by auto. rewrite G3. auto.
      + intros z Z Ze. cbn [set_last next prev hd]. rewrite G6, G2 by auto. split; [auto|]. destruct (Nat.eqb_spec z NULL); [contradiction|auto].
    - pose proof Y1 as Y1'. apply Nat.eqb_neq in Y1'. rewrite Y1', set_prev_ok by auto. eexists. split; [reflexivity|]. split.
      + split; [exact G4|]. cbn. rewrite G3. split; [rewrite W2, E, !lastp_app; destruct y; [contradiction|auto]|]. auto.
      + intros z Z Ze. cbn [next prev]. rewrite G6, G2 by auto. split; auto. }
  destruct K as (m' & K & K1 & K2). exists m'. split; [exact K|]. eapply (remove_wf m m' s h x e y); eauto.
Qed.

Lemma remove_head_ok : forall m s h e y, dwf m s -> s h = e :: y -> exists m', DLIST_REMOVE_HEAD h m = Some m' /\ dwf m' (put s h y).
Proof.
  intros m s h e y W E. pose proof W as W0. destruct (links_at m s h [] e y W E) as (A0 & A1 & A2). destruct W as [D W]. destruct (W h) as (W1 & W2 & W3 & W4). destruct (proj1 D h) as [D1 D2].
  rewrite E in W1, W2, D1, D2. cbn [hd lastp] in W1, W2. apply NoDup_cons_iff in D1 as [F D1'].
  assert (K : exists m', DLIST_REMOVE_HEAD h m = Some m' /\ heads m m' h ([] ++ y) /\ linked_out m m' [] e y).
  { unfold DLIST_REMOVE_HEAD. rewrite W1, get_next_ok by auto. cbn [bind]. rewrite A1. destruct y as [|c y].
    - cbn [hd Nat.eqb NULL]. eexists. split; [reflexivity|]. split.
      + split; [cbn; apply upd_same|]. split; [cbn; apply upd_same|]. intros h' N. cbn. rewrite !upd_other by auto. auto.
      + intros z Z Ze. cbn. destruct z; [exfalso; apply Z; reflexivity|auto].
    - cbn [hd]. assert (Nc : c <> NULL) by (intros ->; apply D2; right; left; auto). pose proof Nc as Nc'. apply Nat.eqb_neq in Nc'. rewrite Nc'. cbn [set_first first]. rewrite upd_same, set_prev_ok by auto.
      eexists. split; [reflexivity|]. split.
      + split; [cbn; apply upd_same|]. split; [cbn; rewrite W2; auto|]. intros h' N. cbn. rewrite !upd_other by auto. auto.
      + intros z Z Ze. cbn. destruct z; [exfalso; apply Z; reflexivity|auto]. }
  destruct K as (m' & K & K1 & K2). exists m'. split; [exact K|]. apply (remove_wf m m' s h [] e y); auto.
Qed.

Lemma dexec_ok : forall m s o s', dwf m s -> dspec s o s' -> exists m', dexec o m = Some m' /\ dwf m' s'.
Proof.
  intros m s o s' W S. destruct S; cbn [dexec].
  - apply init_ok; auto.
  - apply insert_head_ok; auto.
  - apply insert_tail_ok; auto.
  - eapply insert_after_ok; eauto.
  - apply insert_tail_ok; auto.
  - eapply insert_before_ok; eauto.
  - apply insert_head_ok; auto.
  - eapply remove_ok; eauto.
  - eapply remove_head_ok; eauto.
Qed.

(** *** Traversal *)

Lemma walk_fwd : forall nx l fuel, fwd nx l NULL -> ~ In NULL l -> length l < fuel -> walk nx fuel (hd NULL l) = Some l.
Proof.
  intros nx l. induction l as [|e l IH]; intros fuel F N L; (destruct fuel as [|fuel]; [inversion L|]); cbn [walk hd].
  - reflexivity.
  - destruct F as [F1 F2]. destruct (Nat.eqb_spec e NULL) as [->|]; [exfalso; apply N; left; auto|]. rewrite F1, IH; auto.
    + intros K. apply N. right. auto.
    + cbn in L. lia.
Qed.
Lemma bwd_rev : forall pv l p, bwd pv p l -> fwd pv (rev l) p.
Proof.
  intros pv. induction l as [|e l IH]; intros p B; cbn [rev]; [exact I|]. destruct B as [B1 B2]. apply fwd_app. cbn [hd fwd]. split; auto.
Qed.
Lemma dwf_shows : forall m s, dwf m s -> dshows m s.
Proof.
  intros m s [D W] h. destruct (W h) as (W1 & W2 & W3 & W4). destruct (proj1 D h) as [D1 D2]. unfold DLIST_FIRST, DLIST_LAST, DLIST_FOREACH, DLIST_FOREACH_REVERSE.
  rewrite W1, W2, lastp_rev. split; [auto|]. split; [auto|]. intros fuel L. split.
  - apply walk_fwd; auto.
  - apply walk_fwd; [apply bwd_rev; auto| |rewrite rev_length; auto]. rewrite <- in_rev. auto.
Qed.
Lemma start_dwf : forall n p, dwf (start n p) empty.
Proof.
  intros n p. split; [split; [split; [constructor|intros []]|intros h h' e []]|]. intros h. cbn. auto.
Qed.

Lemma drun_ok : forall s ops s', dspecs s ops s' -> forall m, dwf m s -> exists m', drun ops m = Some m' /\ dwf m' s'.
Proof.
  intros s ops s' S. induction S as [s|s o s1 ops s2 H S IH]; intros m W; [exists m; auto|].
  destruct (dexec_ok m s o s1 W H) as (m1 & E & W1). destruct (IH m1 W1) as (m2 & E2 & W2). exists m2. cbn [drun]. rewrite E. auto.
Qed.

(** *** Loops that remove elements *)

Lemma put_put : forall s h l l' h', put (put s h l) h l' h' = put s h l' h'.
Proof. intros. unfold put. destruct (Nat.eqb h' h); auto. Qed.
Lemma dwf_ext : forall m s s', (forall h, s h = s' h) -> dwf m s -> dwf m s'.
Proof.
  intros m s s' E [[D1 D2] W]. split; [split|].
  - intros h. rewrite <- E. auto.
  - intros h h' e. rewrite <- !E. apply D2.
  - intros h. rewrite <- E. apply W.
Qed.
Lemma next_after : forall m s h x e y, dwf m s -> s h = x ++ e :: y -> next_or_null m e = hd NULL y.
Proof.
  intros m s h x e y W E. destruct (links_at m s h x e y W E) as (A & B & _). unfold next_or_null. apply Nat.eqb_neq in A. rewrite A. auto.
Qed.
Lemma foreach_safe_ok : forall doomed h y m s x fuel, dwf m s -> s h = x ++ y -> length y < fuel ->
  exists m', foreach_safe (removing doomed h) fuel (hd NULL y) (hd NULL (tl y)) m = Some (y, m') /\
    dwf m' (put s h (x ++ filter (fun e => negb (doomed e)) y)).
Proof.
  intros doomed h y. induction y as [|e y IH]; intros m s x fuel W E L; (destruct fuel as [|fuel]; [inversion L|]); cbn [foreach_safe hd tl].
  - exists m. split; [reflexivity|]. cbn [filter]. rewrite <- E. eapply dwf_ext; [|exact W]. intros h'. unfold put. destruct (Nat.eqb_spec h' h); subst; auto.
  - destruct (links_at m s h x e y W E) as (A & _ & _). apply Nat.eqb_neq in A. rewrite A. cbn in L.
    unfold removing at 1. cbn [filter]. destruct (doomed e); cbn [negb].
    + destruct (remove_ok m s h e x y W E) as (m1 & -> & W1). cbn [bind].
      assert (N : next_or_null m1 (hd NULL y) = hd NULL (tl y)).
      { destruct y as [|c y]; [reflexivity|]. cbn [hd tl]. eapply next_after; [exact W1|]. rewrite put_same. reflexivity. }
      rewrite N. destruct (IH m1 (put s h (x ++ y)) x fuel W1 (put_same _ _ _) ltac:(lia)) as (m2 & -> & W2). cbn [bind fst snd].
      exists m2. split; [auto|]. eapply dwf_ext; [|exact W2]. intros h'. apply put_put.
    + cbn [bind]. assert (N : next_or_null m (hd NULL y) = hd NULL (tl y)).
      { destruct y as [|c y]; [reflexivity|]. cbn [hd tl]. apply (next_after m s h (x ++ [e]) c y W). rewrite E, <- app_assoc. auto. }
      rewrite N. destruct (IH m s (x ++ [e]) fuel W) as (m2 & -> & W2); [rewrite E, <- app_assoc; auto|lia|]. cbn [bind fst snd].
      exists m2. split; [auto|]. rewrite <- app_assoc in W2. exact W2.
Qed.

Lemma foreach_removing : forall doomed h m s fuel, dwf m s -> length (s h) < fuel ->
  exists m', DLIST_FOREACH_SAFE (removing doomed h) fuel h m = Some (s h, m') /\ dwf m' (put s h (filter (fun e => negb (doomed e)) (s h))).
Proof.
  intros doomed h m s fuel W L. unfold DLIST_FOREACH_SAFE. pose proof W as W0. destruct W as [D W]. destruct (W h) as (W1 & _). rewrite W1.
  assert (N : next_or_null m (hd NULL (s h)) = hd NULL (tl (s h))).
  { destruct (s h) as [|c y] eqn:E; [reflexivity|]. cbn [hd tl]. apply (next_after m s h [] c y W0). auto. }
  rewrite N. apply (foreach_safe_ok doomed h (s h) m s []); auto.
Qed.

(** ** Singly linked lists *)

Definition swf (m : mem) (s : state) : Prop :=
  distinct s /\ forall h, first m h = hd NULL (s h) /\ last m h = lastp NULL (s h) /\ fwd (next m) (s h) NULL.

Lemma nodup_split : forall (x y : list ptr), NoDup (x ++ y) -> NoDup x /\ NoDup y /\ forall z, In z x -> ~ In z y.
Proof.
  intros x y D. induction x as [|c x IH]; [split; [constructor|]; split; [auto|intros z []]|]. inversion D as [|? ? N D']; subst. destruct (IH D') as (A & B & C).
  split; [constructor; auto; intros K; apply N; apply in_or_app; auto|]. split; [auto|]. intros z [->|Z] Y; [apply N; apply in_or_app; auto|exact (C z Z Y)].
Qed.

Lemma sinsert_wf : forall m m' s h x e y, swf m s -> free s e -> s h = x ++ y -> heads m m' h (x ++ e :: y) ->
  (forall z, z <> NULL -> next m' z = (if Nat.eqb z e then hd NULL y else if Nat.eqb z (lastp NULL x) then e else next m z)) -> swf m' (put s h (x ++ e :: y)).
Proof.
  intros m m' s h x e y [D W] F E (H1 & H2 & H3) L. split; [apply distinct_insert; auto|]. intros h'.
  destruct (Nat.eq_dec h' h) as [->|N].
  - rewrite put_same. refine (conj H1 (conj H2 _)). destruct (W h) as (_ & _ & W3). rewrite E in W3. apply fwd_app in W3 as [W3 W3'].
    destruct (proj1 D h) as [D1 D2]. rewrite E in D1, D2. destruct F as [F0 F]. specialize (F h). rewrite E in F. destruct (nodup_split x y D1) as (Dx & Dy & Dxy).
    apply fwd_app. cbn [hd fwd]. split; [|split].
    + eapply fwd_relink; eauto. intros z Z. rewrite L by (intros ->; apply D2; apply in_or_app; auto). destruct (Nat.eqb_spec z e) as [->|]; [exfalso; apply F; apply in_or_app; auto|auto].
    + rewrite L by auto. rewrite Nat.eqb_refl. auto.
    + eapply fwd_frame; eauto. intros z Z. rewrite L by (intros ->; apply D2; apply in_or_app; auto). destruct (Nat.eqb_spec z e) as [->|]; [exfalso; apply F; apply in_or_app; auto|].
      destruct (Nat.eqb_spec z (lastp NULL x)) as [->|]; auto. exfalso. apply (Dxy (lastp NULL x)); auto. apply lastp_in. intros ->. apply D2. exact Z.
  - rewrite put_other by auto. destruct (H3 h' N) as [-> ->]. destruct (W h') as (W1 & W2 & W3). refine (conj W1 (conj W2 _)).
    eapply fwd_frame; eauto. intros z Z. assert (Z0 : z <> NULL) by (intros ->; apply (proj2 (proj1 D h')); auto).
    assert (K : ~ In z (s h)) by (intros K; apply N; eapply (proj2 D); eauto). destruct (neighbours s h x y z D E Z0 K) as [K1 _]. rewrite L by auto.
    destruct (Nat.eqb_spec z e) as [->|]; [exfalso; eapply (proj2 F); eauto|]. apply Nat.eqb_neq in K1. rewrite K1. auto.
Qed.

Lemma sinit_ok : forall m s h, swf m s -> exists m', SLIST_INIT h m = Some m' /\ swf m' (put s h []).
Proof.
  intros m s h [D W]. eexists. split; [reflexivity|]. split; [apply distinct_put; auto; [constructor|intros e h' []]|].
  intros h'. unfold set_first, set_last. cbn [first last next prev]. destruct (Nat.eq_dec h' h) as [->|N].
  - rewrite put_same, !upd_same. cbn. auto.
  - rewrite put_other, !upd_other by auto. apply W.
Qed.
Lemma shead_ok : forall m s h e, swf m s -> free s e -> exists m', SLIST_INSERT_HEAD e h m = Some m' /\ swf m' (put s h (e :: s h)).
Proof.
  intros m s h e W F. pose proof W as W0. destruct W as [D W]. destruct (W h) as (W1 & W2 & W3). destruct (proj1 D h) as [D1 D2]. pose proof F as F'. destruct F' as [F0 F'].
  unfold SLIST_INSERT_HEAD. rewrite set_next_ok by auto. cbn [bind]. eexists. split; [reflexivity|]. apply (sinsert_wf m _ s h [] e (s h)); [exact W0|exact F|auto| |].
  - rewrite W1. destruct (s h) as [|f r] eqn:E.
    + cbn [hd Nat.eqb NULL]. split; [cbn; apply upd_same|]. split; [cbn; apply upd_same|]. intros h' N. cbn. rewrite !upd_other by auto. auto.
    + cbn [hd]. assert (Nf : f <> NULL) by (intros ->; apply D2; left; auto). apply Nat.eqb_neq in Nf. rewrite Nf.
      split; [cbn; apply upd_same|]. split; [cbn; auto|]. intros h' N. cbn. rewrite !upd_other by auto. auto.
  - intros z Z. rewrite W1. cbn [lastp]. destruct (Nat.eqb (hd NULL (s h)) NULL); cbn; unfold upd, NULL in *; eqb.
Qed.
Lemma stail_ok : forall m s h e, swf m s -> free s e -> exists m', SLIST_INSERT_TAIL h e m = Some m' /\ swf m' (put s h (s h ++ [e])).
Proof.
  intros m s h e W F. pose proof W as W0. destruct W as [D W]. destruct (W h) as (W1 & W2 & W3). destruct (proj1 D h) as [D1 D2]. pose proof F as F'. destruct F' as [F0 F'].
  unfold SLIST_INSERT_TAIL. rewrite W2. destruct (Nat.eq_dec (lastp NULL (s h)) NULL) as [E|E].
  - rewrite E. cbn [Nat.eqb NULL bind]. apply lastp_null in E; auto. rewrite set_next_ok by auto. eexists. split; [reflexivity|]. apply (sinsert_wf m _ s h (s h) e []); [exact W0|exact F|rewrite app_nil_r; auto| |].
    + rewrite E. split; [cbn; apply upd_same|]. split; [cbn; apply upd_same|]. intros h' N. cbn. rewrite !upd_other by auto. auto.
    + intros z Z. rewrite E. cbn. unfold upd, NULL in *. eqb.
  - pose proof E as E'. apply Nat.eqb_neq in E'. rewrite E'. rewrite set_next_ok by auto. cbn [bind]. rewrite set_next_ok by auto. eexists. split; [reflexivity|].
    assert (Nn : s h <> []) by (intros X; apply E; rewrite X; auto). assert (In (lastp NULL (s h)) (s h)) by (apply lastp_in; auto).
    apply (sinsert_wf m _ s h (s h) e []); [exact W0|exact F|rewrite app_nil_r; auto| |].
    + split; [cbn; rewrite W1, hd_app; destruct (s h); [contradiction|auto]|]. split; [cbn; rewrite upd_same, lastp_app; auto|]. intros h' N. cbn. rewrite !upd_other by auto. auto.
    + intros z Z. assert (lastp NULL (s h) <> e) by (intros X; apply (F' h); rewrite <- X; auto). cbn. unfold upd, NULL in *. eqb.
Qed.
Lemma safter_ok : forall m s h a e x y, swf m s -> free s e -> s h = x ++ a :: y -> exists m', SLIST_INSERT_AFTER h a e m = Some m' /\ swf m' (put s h (x ++ a :: e :: y)).
Proof.
  intros m s h a e x y W F E. pose proof W as W0. destruct W as [D W]. destruct (W h) as (W1 & W2 & W3). destruct (proj1 D h) as [D1 D2]. pose proof F as F'. destruct F' as [F0 F'].
  rewrite E in W1, W2, W3, D1, D2. apply fwd_app in W3 as [_ [W3 _]].
  assert (A0 : a <> NULL) by (intros ->; apply D2; apply in_or_app; right; left; auto).
  assert (N1 : e <> a) by (intros ->; apply (F' h); rewrite E; apply in_or_app; right; left; auto).
  unfold SLIST_INSERT_AFTER. rewrite get_next_ok by auto. cbn [bind]. rewrite set_next_ok by auto. cbn [bind]. rewrite W3.
  replace (x ++ a :: e :: y) with ((x ++ [a]) ++ e :: y) by (rewrite <- app_assoc; auto). rewrite set_next_ok by auto. eexists. split; [reflexivity|].
  apply (sinsert_wf m _ s h (x ++ [a]) e y); [exact W0|exact F|rewrite <- app_assoc; auto| |]; unfold heads; rewrite ?lastp_app, ?hd_app; cbn [lastp hd].
  - destruct y as [|c y]; cbn [hd].
    + cbn [Nat.eqb NULL]. split; [cbn; rewrite W1, hd_app; auto|]. split; [cbn; apply upd_same|]. intros h' N. cbn. rewrite !upd_other by auto. auto.
    + assert (Nc : c <> NULL) by (intros ->; apply D2; apply in_or_app; right; right; left; auto). apply Nat.eqb_neq in Nc. rewrite Nc.
      split; [cbn; rewrite W1, hd_app; auto|]. split; [cbn; rewrite W2, lastp_app; cbn; auto|]. auto.
  - intros z Z. destruct (Nat.eqb (hd NULL y) NULL); cbn; unfold upd, NULL in *; eqb.
Qed.
Lemma sshift_ok : forall m s h, swf m s -> exists m', SLIST_REMOVE_HEAD h m = Some m' /\ swf m' (put s h (tl (s h))).
Proof.
  intros m s h W. pose proof W as W0. destruct W as [D W]. destruct (W h) as (W1 & W2 & W3). destruct (proj1 D h) as [D1 D2].
  unfold SLIST_REMOVE_HEAD. rewrite W1. destruct (s h) as [|e y] eqn:E; cbn [hd tl].
  - cbn [Nat.eqb NULL]. exists m. split; [auto|]. split; [apply distinct_put; auto; intros ? ? []|]. intros h'. unfold put. destruct (Nat.eqb_spec h' h) as [->|]; [|apply W].
    rewrite W1, W2. cbn. auto.
  - assert (A0 : e <> NULL) by (intros ->; apply D2; left; auto). pose proof A0 as A0'. apply Nat.eqb_neq in A0'. rewrite A0'. rewrite get_next_ok by auto. cbn [bind]. destruct W3 as [W3 W3']. rewrite W3.
    eexists. split; [reflexivity|]. split; [apply (distinct_remove s h e [] y); auto|]. intros h'. unfold put. destruct (Nat.eqb_spec h' h) as [->|N].
    + cbn [lastp] in W2. destruct y as [|c y]; cbn [hd].
      * cbn. rewrite !upd_same. auto.
      * assert (Nc : c <> NULL) by (intros ->; apply D2; right; left; auto). apply Nat.eqb_neq in Nc. rewrite Nc. cbn. rewrite upd_same. rewrite W2. cbn in *. auto.
    + destruct (Nat.eqb (hd NULL y) NULL); cbn; rewrite ?upd_other by auto; apply W.
Qed.
Lemma sconcat_ok : forall m s a b, swf m s -> a <> b -> s b <> [] ->
  exists m', (m1 <- SLIST_CONCAT a b m ;; SLIST_INIT b m1) = Some m' /\ swf m' (put (put s a (s a ++ s b)) b []).
Proof.
  intros m s a b [D W] N NE. destruct (W a) as (A1 & A2 & A3). destruct (W b) as (B1 & B2 & B3). destruct (proj1 D a) as [Da Na]. destruct (proj1 D b) as [Db Nb].
  assert (Dab : forall z, In z (s a) -> ~ In z (s b)) by (intros z Z1 Z2; apply N; eapply (proj2 D); eauto).
  assert (DD : distinct (put (put s a (s a ++ s b)) b [])).
  { split.
    - intros h. unfold put. destruct (Nat.eqb_spec h b); [split; [constructor|intros []]|]. destruct (Nat.eqb_spec h a); [|apply (proj1 D)].
      split; [|intros K; apply in_app_or in K as [K|K]; auto]. clear - Da Db Dab. induction (s a) as [|c l IH]; cbn; auto. inversion Da; subst. constructor.
      + intros K. apply in_app_or in K as [K|K]; auto. apply (Dab c); auto. left. auto.
      + apply IH; auto. intros z Z. apply Dab. right. auto.
    - intros h h' e. unfold put. destruct (Nat.eqb_spec h b); [intros []|]. destruct (Nat.eqb_spec h' b); [intros _ []|].
      destruct (Nat.eqb_spec h a), (Nat.eqb_spec h' a); subst; auto; intros K1 K2.
      + apply in_app_or in K1 as [K1|K1]; [eapply (proj2 D); eauto|]. exfalso. apply n0. eapply (proj2 D); eauto.
      + apply in_app_or in K2 as [K2|K2]; [eapply (proj2 D); eauto|]. exfalso. apply n. eapply (proj2 D); eauto.
      + eapply (proj2 D); eauto. }
  assert (G : exists m1, (if Nat.eqb (last m a) NULL then Some (set_first m a (first m b)) else set_next m (last m a) (first m b)) = Some m1 /\
    first m1 a = hd NULL (s a ++ s b) /\ (forall h, h <> a -> first m1 h = first m h) /\ last m1 = last m /\
    (forall z, z <> NULL -> next m1 z = if Nat.eqb z (lastp NULL (s a)) then hd NULL (s b) else next m z)).
  { rewrite A2. destruct (Nat.eqb_spec (lastp NULL (s a)) NULL) as [E|E].
    - rewrite E. apply lastp_null in E; auto. eexists. split; [reflexivity|]. rewrite E. cbn. rewrite upd_same. repeat split; auto.
      + intros h H. apply upd_other. auto.
      + intros z Z. destruct z; [exfalso; apply Z; reflexivity|reflexivity].
    - rewrite set_next_ok by auto. eexists. split; [reflexivity|]. cbn. repeat split; auto.
      + rewrite A1, hd_app. destruct (s a); [exfalso; apply E; auto|auto].
      + intros z Z. rewrite B1. unfold upd. auto. }
  destruct G as (m1 & G0 & G1 & G2 & G3 & G4). unfold SLIST_CONCAT. rewrite G0. cbn [bind]. eexists. split; [reflexivity|]. split; [exact DD|].
  intros h. cbn. unfold put. destruct (Nat.eqb_spec h b) as [->|Hb]; [rewrite !upd_same; cbn; auto|]. rewrite !upd_other by auto.
  destruct (Nat.eqb_spec h a) as [->|Ha].
  - rewrite upd_same, G1. split; [auto|]. rewrite G3, B2, lastp_app. split.
    { destruct (s b); [contradiction|auto]. }
    apply fwd_app. split.
    + eapply fwd_relink; eauto. intros z Z. apply G4. intros ->. auto.
    + eapply fwd_frame; eauto. intros z Z. rewrite G4 by (intros ->; auto). destruct (Nat.eqb_spec z (lastp NULL (s a))) as [->|]; auto.
      exfalso. apply (Dab (lastp NULL (s a))); auto. apply lastp_in. intros X. rewrite X in Z. apply Nb. exact Z.
  - rewrite upd_other by auto. rewrite G2, G3 by auto. destruct (W h) as (W1 & W2 & W3). refine (conj W1 (conj W2 _)). eapply fwd_frame; eauto. intros z Z.
    assert (Z0 : z <> NULL) by (intros ->; apply (proj2 (proj1 D h)); auto). rewrite G4 by auto. destruct (Nat.eqb_spec z (lastp NULL (s a))) as [->|]; auto.
    exfalso. apply Ha. apply (proj2 D h a (lastp NULL (s a))); auto. apply lastp_in. intros X. rewrite X in Z0. apply Z0. auto.
Qed.

Lemma srun_ok : forall s ops s', sspecs s ops s' -> forall m, swf m s -> exists m', srun ops m = Some m' /\ swf m' s'.
Proof.
  intros s ops s' S. induction S as [s|s o s1 ops s2 NC H S IH|s a b s1 ops s2 H S IH]; intros m W; [exists m; auto| |].
  - assert (G : exists m1, sexec o m = Some m1 /\ swf m1 s1).
    { destruct H; cbn [sexec].
      - apply sinit_ok; auto.
      - apply shead_ok; auto.
      - apply stail_ok; auto.
      - eapply safter_ok; eauto.
      - apply sshift_ok; auto.
      - exfalso. eapply NC; eauto. }
    destruct G as (m1 & E & W1). destruct (IH m1 W1) as (m2 & E2 & W2). exists m2. cbn [srun]. rewrite E. auto.
  - inversion H as [| | | | |? ? N NE]; subst. destruct (sconcat_ok m s a b W N NE) as (m1 & E & W1). destruct (IH m1 W1) as (m2 & E2 & W2).
    exists m2. split; [|auto]. cbn [srun sexec]. destruct (SLIST_CONCAT a b m) as [m0|]; [|discriminate]. cbn [bind] in *. rewrite E. exact E2.
Qed.
Lemma swf_shows : forall m s, swf m s -> sshows m s.
Proof.
  intros m s [D W] h. destruct (W h) as (W1 & W2 & W3). destruct (proj1 D h) as [D1 D2]. unfold SLIST_FOREACH.
  rewrite W1, W2, lastp_rev. split; [auto|]. split; [auto|]. intros fuel L. apply walk_fwd; auto.
Qed.
Lemma start_swf : forall n p, swf (start n p) empty.
Proof.
  intros n p. split; [split; [split; [constructor|intros []]|intros h h' e []]|]. intros h. cbn. auto.
Qed.
