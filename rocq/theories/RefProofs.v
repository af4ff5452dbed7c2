(** Invariants of the life of backends. *)
From Coq Require Import List Arith ZArith Bool Lia ZifyBool ZifyNat.
From Verif Require Import RefModel RefSpec.
Import ListNotations.

Local Open Scope Z_scope.

Definition is_lost (h : holder) (b : nat) (e : event) : bool := match e with Lost h' b' => holder_eqb h h' && Nat.eqb b b' | _ => false end.
Definition lost (b : nat) (e : event) : bool := match e with Lost _ b' => Nat.eqb b b' | _ => false end.
Definition b2z (x : bool) : Z := if x then 1 else 0.
Definition to (b : nat) (e : holder * nat) : bool := Nat.eqb (snd e) b.
Definition by_to (h : holder) (b : nat) (e : holder * nat) : bool := holder_eqb h (fst e) && Nat.eqb b (snd e).
Definition num {A} (f : A -> bool) (l : list A) : nat := length (filter f l).

Lemma times_num : forall f t, times f t = num f t.
Proof. reflexivity. Qed.
Lemma num_cons : forall A (f : A -> bool) x l, num f (x :: l) = ((if f x then 1 else 0) + num f l)%nat.
Proof. intros. unfold num. cbn [filter]. destruct (f x); reflexivity. Qed.
Lemma num_app : forall A (f : A -> bool) l m, num f (l ++ m) = (num f l + num f m)%nat.
Proof. intros. unfold num. rewrite filter_app, app_length. reflexivity. Qed.
Lemma num_in : forall A (f : A -> bool) x l, In x l -> f x = true -> (1 <= num f l)%nat.
Proof. intros A f x l I F. unfold num. assert (In x (filter f l)) by (apply filter_In; auto). destruct (filter f l); [easy|cbn; lia]. Qed.
Lemma num_none : forall A (f : A -> bool) l, (forall x, In x l -> f x = false) -> num f l = 0%nat.
Proof. induction l as [|x l IH]; intros H; [reflexivity|]. rewrite num_cons, (H x) by (left; reflexivity). apply IH. intros y I. apply H. right; exact I. Qed.
Lemma num_zero : forall A (f : A -> bool) l x, num f l = 0%nat -> In x l -> f x = false.
Proof. intros A f l x Z I. destruct (f x) eqn:F; auto. pose proof (num_in A f x l I F). lia. Qed.

Lemma holder_eqb_spec : forall a b, holder_eqb a b = true <-> a = b.
Proof. intros [m|m] [n|n]; cbn; rewrite ?Nat.eqb_eq; split; intros H; try discriminate; try (subst; reflexivity); injection H as ->; reflexivity. Qed.
Lemma holder_eqb_refl : forall a, holder_eqb a a = true.
Proof. intros; apply holder_eqb_spec; reflexivity. Qed.

Lemma find_in : forall A (eqb : A -> A -> bool) (EQ : forall a b, eqb a b = true <-> a = b) k l v, find eqb k l = Some v -> In (k, v) l.
Proof. induction l as [|[k' v'] l IH]; intros v H; [discriminate|]. cbn in H. destruct (eqb k k') eqn:E; [apply EQ in E; injection H as ->; subst; left; reflexivity|right; auto]. Qed.
Lemma holding_in : forall h s b, holding h s = Some b -> In (h, b) (holds s).
Proof. intros h s b H. exact (find_in _ holder_eqb holder_eqb_spec _ _ _ H). Qed.
Lemma session_in : forall k s b, session k s = Some b -> In (k, b) (sessions s).
Proof. intros k s b H. exact (find_in _ Nat.eqb Nat.eqb_eq _ _ _ H). Qed.

(** dropping a held reference takes exactly one pair away *)
Lemma drop_num : forall (f : holder * nat -> bool) h b l, find holder_eqb h l = Some b -> num f l = ((if f (h, b) then 1 else 0) + num f (drop h l))%nat.
Proof.
  induction l as [|[h' v] l IH]; intros H; [discriminate|]. cbn [find drop] in H |- *. destruct (holder_eqb h h') eqn:E.
  - apply holder_eqb_spec in E. injection H as ->. subst. apply num_cons.
  - rewrite !num_cons, (IH H). lia.
Qed.
Lemma drop_in : forall h l x, In x (drop h l) -> In x l.
Proof. induction l as [|[h' v] l IH]; intros x I; [easy|]. cbn in I. destruct (holder_eqb h h'); [right; exact I|]. destruct I as [I|I]; [left; exact I|right; auto]. Qed.

Lemma upd_same : forall A (f : nat -> A) b v, upd f b v b = v.
Proof. intros. unfold upd. rewrite Nat.eqb_refl. reflexivity. Qed.
Lemma upd_other : forall A (f : nat -> A) b v x, x <> b -> upd f b v x = f x.
Proof. intros. unfold upd. destruct (Nat.eqb_spec x b); [contradiction|reflexivity]. Qed.

Record inv (t : list event) (s : state) : Prop := mkInv {
  inv_new : forall b, (next s <= b)%nat -> listed s b = false /\ freed s b = false /\ ~ In b (rem s) /\ num (to b) (holds s) = 0%nat /\ times (lost b) t = 0%nat;
  inv_count : forall b, refcount s b = b2z (listed s b) + Z.of_nat (num (to b) (holds s)) + Z.of_nat (times (lost b) t);
  inv_freed : forall b, freed s b = true -> listed s b = false /\ refcount s b = 0;
  inv_rem : forall b, In b (rem s) <-> (b < next s)%nat /\ listed s b = false /\ freed s b = false;
  inv_nodup : NoDup (rem s);
  inv_scan : forall l, scan s = Some l -> NoDup l /\ incl l (rem s);
  inv_bal : forall h b, times (is_ref h b) t = (times (is_unref h b) t + num (by_to h b) (holds s) + times (is_lost h b) t)%nat;
  inv_del : forall b, (b < next s)%nat -> listed s b = false -> In (Delisted b) t;
  inv_dead : forall b, In (Destroyed b) t -> freed s b = true
}.

Definition good (t : list event) : Prop := forall t1 b t2, t = t1 ++ Destroyed b :: t2 ->
  In (Delisted b) t1 /\ (forall h, times (is_ref h b) t1 = times (is_unref h b) t1) /\ no_loss b t1 /\ existsb (about b) t2 = false.

Lemma good_snoc : forall t e, good t -> (forall b, In (Destroyed b) t -> about b e = false) ->
  (forall b, e = Destroyed b -> In (Delisted b) t /\ (forall h, times (is_ref h b) t = times (is_unref h b) t) /\ no_loss b t) -> good (t ++ [e]).
Proof.
  intros t e G A D t1 b t2 E. destruct t2 as [|x t2] using rev_ind.
  - apply app_inj_tail in E as (-> & ->). destruct (D b eq_refl) as (D1 & D2 & D3). repeat split; auto.
  - clear IHt2. rewrite app_comm_cons, app_assoc in E. apply app_inj_tail in E as (-> & <-). destruct (G t1 b t2 eq_refl) as (G1 & G2 & G4 & G3).
    split; [exact G1|split; [exact G2|split; [exact G4|]]]. rewrite existsb_app, G3. cbn. rewrite orb_false_r. apply A. apply in_or_app. right. left. reflexivity.
Qed.

Lemma init_inv : inv [] init.
Proof. constructor; cbn; intros; try easy; try constructor; try easy; intros (H & _); lia. Qed.

Lemma num_to_held : forall h b s, holding h s = Some b -> (1 <= num (to b) (holds s))%nat.
Proof. intros h b s H. apply holding_in in H. apply (num_in _ _ _ _ H). unfold to. apply Nat.eqb_refl. Qed.
Lemma held_alive : forall t s h b, inv t s -> holding h s = Some b -> freed s b = false /\ 0 < refcount s b /\ (b < next s)%nat.
Proof.
  intros t s h b I H. pose proof (num_to_held h b s H). pose proof (inv_count _ _ I b).
  assert (0 < refcount s b) by (unfold b2z in *; destruct (listed s b); lia).
  split; [|split; [assumption|]].
  - destruct (freed s b) eqn:F; auto. destruct (inv_freed _ _ I b F). lia.
  - destruct (Nat.lt_ge_cases b (next s)) as [L|L]; auto. destruct (inv_new _ _ I b L) as (_ & _ & _ & Z & _). lia.
Qed.
Lemma listed_alive : forall t s b, inv t s -> listed s b = true -> freed s b = false /\ 0 < refcount s b /\ (b < next s)%nat.
Proof.
  intros t s b I H. pose proof (inv_count _ _ I b) as C. rewrite H in C. cbn [b2z] in C. split; [|split; [lia|]].
  - destruct (freed s b) eqn:F; auto. destruct (inv_freed _ _ I b F). congruence.
  - destruct (Nat.lt_ge_cases b (next s)) as [L|L]; auto. destruct (inv_new _ _ I b L). congruence.
Qed.
Lemma lost_zero : forall t b h, times (lost b) t = 0%nat -> times (is_lost h b) t = 0%nat.
Proof.
  intros t b h Z. rewrite times_num in *. apply num_none. intros e I. pose proof (num_zero _ _ _ _ Z I) as L. destruct e; cbn in *; auto. rewrite L. apply andb_false_r.
Qed.
Lemma to_zero : forall l b h, num (to b) l = 0%nat -> num (by_to h b) l = 0%nat.
Proof. intros l b h Z. apply num_none. intros e I. pose proof (num_zero _ _ _ _ Z I) as L. unfold to, by_to in *. rewrite Nat.eqb_sym, L. apply andb_false_r. Qed.

(** What a step may do to the trace *)
Definition good_event (t : list event) (e : event) : Prop :=
  (forall b, In (Destroyed b) t -> about b e = false) /\
  (forall b, e = Destroyed b -> In (Delisted b) t /\ (forall h, times (is_ref h b) t = times (is_unref h b) t) /\ no_loss b t).
Definition good_step (t : list event) (s' : state) (e : list event) : Prop :=
  match e with [] => inv t s' | [x] => good_event t x /\ inv (t ++ [x]) s' | _ => False end.

Lemma times_snoc : forall f t e, times f (t ++ [e]) = (times f t + if f e then 1 else 0)%nat.
Proof. intros. change times with (@num event). rewrite num_app, num_cons. change (num f []) with 0%nat. lia. Qed.
Lemma in_snoc : forall A (x : A) t e, In x (t ++ [e]) <-> In x t \/ x = e.
Proof. intros. rewrite in_app_iff. cbn. intuition. Qed.

Ltac inv_fields I := pose proof (inv_new _ _ I) as INEW; pose proof (inv_count _ _ I) as ICNT; pose proof (inv_freed _ _ I) as IFR; pose proof (inv_rem _ _ I) as IREM;
  pose proof (inv_nodup _ _ I) as IND; pose proof (inv_scan _ _ I) as ISC; pose proof (inv_bal _ _ I) as IBAL; pose proof (inv_del _ _ I) as IDEL; pose proof (inv_dead _ _ I) as IDEAD.

Lemma inv_same : forall t s s', inv t s -> next s' = next s -> refcount s' = refcount s -> listed s' = listed s -> freed s' = freed s -> rem s' = rem s -> holds s' = holds s ->
  (forall l, scan s' = Some l -> NoDup l /\ incl l (rem s')) -> inv t s'.
Proof.
  intros t s s' I EN EC EL EF ER EH SC. inv_fields I. constructor; rewrite ?EN, ?EC, ?EL, ?EF, ?ER, ?EH; auto. rewrite ER in SC. exact SC.
Qed.

Lemma inv_gain : forall t s h b s' e, inv t s -> (b < next s)%nat -> gain h b s = Ok s' e -> good_step t s' e.
Proof.
  intros t s h b s' e I B G. unfold gain in G. destruct (freed s b) eqn:F; [discriminate|]. destruct (holding h s) eqn:H; [discriminate|]. injection G as <- <-.
  inv_fields I. cbn [good_step]. split.
  - split; [|discriminate]. intros b' D. cbn. destruct (Nat.eqb_spec b' b); auto. subst. pose proof (IDEAD _ D). congruence.
  - constructor; cbn [next refcount listed freed rem sessions holds scan set_holds set_refcount]; intros.
    + destruct (INEW b0 H0) as (N1 & N2 & N3 & N4 & N5). rewrite num_cons, times_snoc. unfold to at 1. cbn [snd lost]. destruct (Nat.eqb_spec b b0); [lia|]. repeat split; auto. lia.
    + rewrite times_snoc, num_cons. cbn [lost]. unfold to at 1. cbn [snd]. destruct (Nat.eqb_spec b b0) as [->|Hne]; [rewrite upd_same|rewrite upd_other by auto]; specialize (ICNT b0); lia.
    + destruct (IFR b0 H0) as (F1 & F2). split; [exact F1|]. rewrite upd_other; [exact F2|]. intros ->. congruence.
    + apply IREM.
    + exact IND.
    + apply ISC; auto.
    + rewrite !times_snoc, num_cons. cbn [is_ref is_unref is_lost]. unfold by_to at 1. cbn [fst snd]. specialize (IBAL h0 b0).
      destruct (holder_eqb h0 h && Nat.eqb b0 b); lia.
    + apply in_snoc. left. auto.
    + apply in_snoc in H0 as [H0|H0]; [auto|discriminate].
Qed.

Lemma inv_unref : forall t s h s' e, inv t s -> unref h s = Ok s' e -> good_step t s' e.
Proof.
  intros t s h s' e I U. unfold unref in U. destruct (holding h s) as [b|] eqn:H; [|discriminate]. destruct (freed s b) eqn:F; [discriminate|].
  destruct (refcount s b <=? 0) eqn:C; [discriminate|]. cbv zeta in U.
  set (s1 := set_holds (set_refcount s (upd (refcount s) b (refcount s b - 1))) (drop h (holds s))) in *.
  assert (K : inv (t ++ [Unref h b]) s1).
  { inv_fields I. destruct (held_alive t s h b I H) as (A1 & A2 & A3). unfold holding in H.
    constructor; cbn [next refcount listed freed rem sessions holds scan set_holds set_refcount s1]; intros.
    + destruct (INEW b0 H0) as (N1 & N2 & N3 & N4 & N5). rewrite (drop_num (to b0) h b _ H) in N4. rewrite times_snoc. cbn [lost]. repeat split; auto; lia.
    + rewrite times_snoc. cbn [lost]. specialize (ICNT b0). rewrite (drop_num (to b0) h b _ H) in ICNT. unfold to in ICNT at 1. cbn [snd] in ICNT.
      destruct (Nat.eqb_spec b b0) as [->|Hne]; [rewrite upd_same|rewrite upd_other by auto]; lia.
    + destruct (IFR b0 H0) as (F1 & F2). split; [exact F1|]. rewrite upd_other; [exact F2|]. intros ->. congruence.
    + apply IREM.
    + exact IND.
    + apply ISC; auto.
    + rewrite !times_snoc. cbn [is_ref is_unref is_lost]. specialize (IBAL h0 b0). rewrite (drop_num (by_to h0 b0) h b _ H) in IBAL. unfold by_to in IBAL at 1. cbn [fst snd] in IBAL.
      destruct (holder_eqb h0 h && Nat.eqb b0 b); lia.
    + apply in_snoc. left. auto.
    + apply in_snoc in H0 as [H0|H0]; [auto|discriminate]. }
  assert (G : good_event t (Unref h b)).
  { split; [|discriminate]. intros b' D. cbn. destruct (Nat.eqb_spec b' b); auto. subst. pose proof (inv_dead _ _ I _ D). congruence. }
  assert (E : exists s2, s' = s2 /\ e = [Unref h b] /\ (s2 = s1 \/ exists r w, s2 = set_threads s1 r w)).
  { exists s'. destruct (refcount s b - 1 =? 0); [destruct (waiting s1) as [|w]|]; injection U as <- <-; repeat split; auto. right. eauto. }
  destruct E as (s2 & -> & -> & [->|(r & w & ->)]); cbn [good_step]; (split; [exact G|]); auto.
  apply (inv_same _ s1 _ K); try reflexivity. apply (inv_scan _ _ K).
Qed.

Lemma nodup_snoc : forall (l : list nat) x, NoDup l -> ~ In x l -> NoDup (l ++ [x]).
Proof. intros l x N I. apply NoDup_rev in N. rewrite <- (rev_involutive (l ++ [x])). apply NoDup_rev. rewrite rev_app_distr. cbn. constructor; auto. rewrite <- in_rev. exact I. Qed.

Lemma inv_sweep : forall t s b s' e, inv t s -> scan s = None -> sweep b s = Ok s' e -> good_step t s' e.
Proof.
  intros t s b s' e I SN U. unfold sweep in U. destruct (listed s b) eqn:L; [|discriminate]. cbn [negb] in U. destruct (refcount s b <=? 0) eqn:C; [discriminate|]. injection U as <- <-.
  inv_fields I. destruct (listed_alive t s b I L) as (A1 & A2 & A3). cbn [good_step]. split.
  - split; [|discriminate]. intros b' D. cbn. destruct (Nat.eqb_spec b' b); auto. subst. pose proof (IDEAD _ D). congruence.
  - constructor; cbn [next refcount listed freed rem sessions holds scan]; intros.
    + destruct (INEW b0 H) as (N1 & N2 & N3 & N4 & N5). assert (b0 <> b) by lia. rewrite upd_other by auto. rewrite times_snoc. cbn [lost]. repeat split; auto; [|lia]. intros J. apply in_snoc in J as [J|J]; auto.
    + rewrite times_snoc. cbn [lost]. specialize (ICNT b0). destruct (Nat.eq_dec b0 b) as [->|Hne]; [rewrite !upd_same; rewrite L in ICNT|rewrite !upd_other by auto]; cbn [b2z] in *; lia.
    + destruct (IFR b0 H) as (F1 & F2). assert (b0 <> b) by congruence. rewrite !upd_other by auto. auto.
    + rewrite in_snoc, IREM. destruct (Nat.eq_dec b0 b) as [->|Hne]; [rewrite upd_same; tauto|rewrite upd_other by auto; tauto].
    + apply nodup_snoc; auto. rewrite IREM, L. intros (_ & Hf & _). discriminate.
    + congruence.
    + rewrite !times_snoc. cbn [is_ref is_unref is_lost]. rewrite !Nat.add_0_r. apply IBAL.
    + apply in_snoc. destruct (Nat.eq_dec b0 b) as [->|Hne]; [right; reflexivity|left]. rewrite upd_other in H0 by auto. auto.
    + apply in_snoc in H as [H|H]; [auto|discriminate].
Qed.

Lemma nodup_filter : forall (f : nat -> bool) l, NoDup l -> NoDup (filter f l).
Proof. induction l as [|x l IH]; intros N; [constructor|]. apply NoDup_cons_iff in N as (N1 & N2). cbn. destruct (f x); [|auto]. constructor; auto. rewrite filter_In. tauto. Qed.

Lemma inv_check : forall t s s' e, inv t s -> check s = Ok s' e -> good_step t s' e.
Proof.
  intros t s s' e I U. unfold check in U. destruct (scan s) as [[|b l]|] eqn:SC; try discriminate. destruct (freed s b) eqn:F; [discriminate|].
  inv_fields I. destruct (ISC _ SC) as (S1 & S2). apply NoDup_cons_iff in S1 as (S1 & S3).
  assert (RB : In b (rem s)) by (apply S2; left; reflexivity). apply IREM in RB as (R1 & R2 & R3).
  destruct (refcount s b =? 0) eqn:Z; injection U as <- <-; cbn [good_step].
  - assert (C0 : refcount s b = 0) by lia. pose proof (ICNT b) as C. rewrite C0, R2 in C. cbn [b2z] in C.
    split; [split|].
    + intros b' D. cbn. destruct (Nat.eqb_spec b' b); auto. subst. pose proof (IDEAD _ D). congruence.
    + intros b' E. injection E as <-. split; [auto|]. split; [intros h; rewrite IBAL, (to_zero _ b h), (lost_zero t b h) by lia; lia|]. intros h J. assert (LZ : num (lost b) t = 0%nat) by (rewrite <- times_num; lia). pose proof (num_zero _ _ _ _ LZ J) as LE. cbn in LE. rewrite Nat.eqb_refl in LE. discriminate.
    + constructor; cbn [next refcount listed freed rem sessions holds scan]; intros.
      * destruct (INEW b0 H) as (N1 & N2 & N3 & N4 & N5). rewrite upd_other by lia. rewrite times_snoc. cbn [lost]. repeat split; auto; [|lia]. rewrite filter_In. tauto.
      * rewrite times_snoc. cbn [lost]. specialize (ICNT b0). lia.
      * destruct (Nat.eq_dec b0 b) as [->|Hne]; [auto|]. rewrite upd_other in H by auto. auto.
      * rewrite filter_In, IREM. destruct (Nat.eqb_spec b0 b) as [->|Hne]; cbn [negb]; [rewrite upd_same|rewrite upd_other by auto]; intuition congruence.
      * apply nodup_filter. exact IND.
      * injection H as <-. split; [exact S3|]. intros x Ix. apply filter_In. split; [apply S2; right; exact Ix|]. destruct (Nat.eqb_spec x b); [subst; contradiction|reflexivity].
      * rewrite !times_snoc. cbn [is_ref is_unref is_lost]. rewrite !Nat.add_0_r. apply IBAL.
      * apply in_snoc. left; auto.
      * apply in_snoc in H as [H|H]; [|injection H as ->; apply upd_same]. destruct (Nat.eq_dec b0 b) as [->|Hne]; [apply upd_same|rewrite upd_other by auto; auto].
  - apply (inv_same _ s _ I); try reflexivity. cbn. intros l0 E. injection E as <-. split; [exact S3|]. intros x Ix. apply S2. right; exact Ix.
Qed.

(** Sessions refer to objects that exist, or existed *)
Lemma inv_step : forall t s o s' e, inv t s -> (forall k b, In (k, b) (sessions s) -> (b < next s)%nat) -> step o s = Ok s' e ->
  good_step t s' e /\ (forall k b, In (k, b) (sessions s') -> (b < next s')%nat) /\ (next s <= next s')%nat.
Proof.
  intros t s o s' e I SE ST.
  assert (LK : locked s = false -> scan s = None) by (unfold locked; destruct (scan s); congruence).
  assert (GS : forall h b s0 s1 e1, gain h b s0 = Ok s1 e1 -> sessions s1 = sessions s0 /\ next s1 = next s0).
  { intros h b s0 s1 e1 G. unfold gain in G. destruct (freed s0 b); [discriminate|]. destruct (holding h s0); [discriminate|]. injection G as <- <-. split; reflexivity. }
  assert (US : forall h s1 e1, unref h s = Ok s1 e1 -> sessions s1 = sessions s /\ next s1 = next s).
  { intros h s1 e1 G. unfold unref in G. destruct (holding h s) as [b|]; [|discriminate]. destruct (freed s b); [discriminate|]. destruct (refcount s b <=? 0); [discriminate|].
    cbv zeta in G. destruct (refcount s b - 1 =? 0); [destruct (waiting _)|]; injection G as <- <-; split; reflexivity. }
  assert (IS : forall l, inv t (set_sessions s l)) by (intros l; apply (inv_same _ s _ I); try reflexivity; apply (inv_scan _ _ I)).
  assert (FG : forall b k c, In (k, c) (forget b (sessions s)) -> (c < next s)%nat) by (intros b k c J; unfold forget in J; apply filter_In in J as (J & _); eauto).
  destruct o as [|r b|r k|r k b|r k|k|r j|j up|j j'|h|r|b|b| | | |]; cbn [step] in ST.
  - destruct (locked s) eqn:LE; [discriminate|]. injection ST as <- <-. split; [|split; [intros k b J; cbn in *; specialize (SE k b J); lia|cbn; lia]].
    inv_fields I. destruct (INEW (next s) (le_n _)) as (N1 & N2 & N3 & N4 & N5). cbn [good_step]. split.
    + split; [|discriminate]. intros b D. cbn. destruct (Nat.eqb_spec b (next s)); auto. subst. pose proof (IDEAD _ D). congruence.
    + constructor; cbn [next refcount listed freed rem sessions holds scan]; intros.
      * destruct (INEW b ltac:(lia)) as (M1 & M2 & M3 & M4 & M5). rewrite upd_other by lia. rewrite times_snoc. cbn [lost]. repeat split; auto; lia.
      * rewrite times_snoc. cbn [lost]. specialize (ICNT b). destruct (Nat.eq_dec b (next s)) as [->|Hne]; [rewrite !upd_same|rewrite !upd_other by auto]; cbn [b2z]; lia.
      * destruct (Nat.eq_dec b (next s)) as [->|Hne]; [congruence|rewrite !upd_other by auto; auto].
      * rewrite IREM. destruct (Nat.eq_dec b (next s)) as [->|Hne]; [rewrite upd_same|rewrite upd_other by auto]; intuition (try lia; try discriminate).
      * exact IND.
      * auto.
      * rewrite !times_snoc. cbn [is_ref is_unref is_lost]. rewrite !Nat.add_0_r. apply IBAL.
      * apply in_snoc. left. destruct (Nat.eq_dec b (next s)) as [->|Hne]; [rewrite upd_same in H0; discriminate|rewrite upd_other in H0 by auto; apply IDEL; auto; lia].
      * apply in_snoc in H as [H|H]; [auto|discriminate].
  - destruct (locked s); [discriminate|]. destruct (listed s b) eqn:L; [|discriminate]. destruct (listed_alive t s b I L) as (A1 & A2 & A3).
    destruct (GS _ _ _ _ _ ST) as (G1 & G2). rewrite G1, G2. split; [apply (inv_gain t s (Req r) b); auto|auto].
  - destruct (locked s); [discriminate|]. destruct (session k s) as [b|] eqn:L; [|discriminate]. apply session_in in L. apply SE in L as A3.
    destruct (GS _ _ _ _ _ ST) as (G1 & G2). rewrite G1, G2. split; [apply (inv_gain t s (Req r) b); auto|auto].
  - destruct (locked s); [discriminate|]. destruct (session k s); [discriminate|]. destruct (listed s b) eqn:L; [|discriminate]. destruct (listed_alive t s b I L) as (A1 & A2 & A3).
    destruct (GS _ _ _ _ _ ST) as (G1 & G2). rewrite G1, G2. split; [apply (inv_gain t (set_sessions s ((k, b) :: sessions s)) (Req r) b); auto|]. split; [|cbn; lia].
    cbn. intros k' b' [E|J]; [injection E as <- <-; exact A3|eauto].
  - destruct (locked s); [discriminate|]. destruct (holding (Req r) s) as [b|] eqn:L; [|discriminate]. destruct (held_alive t s _ b I L) as (A1 & A2 & A3).
    destruct (session k s); injection ST as <- <-; [auto|]. split; [cbn; apply IS|]. split; [|cbn; lia]. cbn. intros k' b' [E|J]; [injection E as <- <-; exact A3|eauto].
  - destruct (locked s); [discriminate|]. injection ST as <- <-. split; [cbn; apply IS|]. split; [|cbn; lia]. cbn. intros k' b' J. apply filter_In in J as (J & _). eauto.
  - destruct (locked s); [discriminate|]. destruct (holding (Req r) s) as [b|] eqn:L; [|discriminate]. destruct (held_alive t s _ b I L) as (A1 & A2 & A3). rewrite A1 in ST.
    destruct (listed s b); [|discriminate]. cbn [negb] in ST. destruct (GS _ _ _ _ _ ST) as (G1 & G2). rewrite G1, G2.
    split; [apply (inv_gain t (set_sessions s (forget b (sessions s))) (Job j) b); auto|]. split; [|cbn; lia]. cbn. eauto.
  - destruct (holding (Job j) s) as [b|] eqn:L; [|discriminate]. destruct (freed s b); [discriminate|]. destruct ((1 <? refcount s b) && negb up); [injection ST as <- <-; auto|].
    destruct (US _ _ _ ST) as (U1 & U2). rewrite U1, U2. split; [apply (inv_unref t s (Job j)); auto|auto].
  - destruct (holding (Job j) s) as [b|] eqn:L; [|discriminate]. destruct (held_alive t s _ b I L) as (A1 & A2 & A3).
    destruct (GS _ _ _ _ _ ST) as (G1 & G2). rewrite G1, G2. split; [apply (inv_gain t s (Job j') b); auto|auto].
  - destruct (US _ _ _ ST) as (U1 & U2). rewrite U1, U2. split; [apply (inv_unref t s h); auto|auto].
  - destruct (holding (Req r) s) as [b|] eqn:L; [|discriminate]. injection ST as <- <-. destruct (held_alive t s _ b I L) as (A1 & A2 & A3). split; [|auto].
    inv_fields I. unfold holding in L. cbn [good_step]. split.
    + split; [|discriminate]. intros b' D. cbn. destruct (Nat.eqb_spec b' b); auto. subst. pose proof (IDEAD _ D). congruence.
    + constructor; cbn [next refcount listed freed rem sessions holds scan set_holds]; intros; auto.
      * destruct (INEW b0 H) as (M1 & M2 & M3 & M4 & M5). rewrite (drop_num (to b0) (Req r) b _ L) in M4. rewrite times_snoc. cbn [lost]. destruct (Nat.eqb_spec b0 b); [lia|]. repeat split; auto; lia.
      * rewrite times_snoc. cbn [lost]. specialize (ICNT b0). rewrite (drop_num (to b0) (Req r) b _ L) in ICNT. unfold to in ICNT at 1. cbn [snd] in ICNT. rewrite Nat.eqb_sym in ICNT. destruct (Nat.eqb b0 b); lia.
      * rewrite !times_snoc. cbn [is_ref is_unref is_lost]. specialize (IBAL h b0). rewrite (drop_num (by_to h b0) (Req r) b _ L) in IBAL. unfold by_to in IBAL at 1. cbn [fst snd] in IBAL.
        destruct (holder_eqb h (Req r) && Nat.eqb b0 b); lia.
      * apply in_snoc. left. auto.
      * apply in_snoc in H as [H|H]; [auto|discriminate].
  - destruct (Nat.ltb b (next s)); [|discriminate]. destruct (freed s b); [discriminate|]. injection ST as <- <-. auto.
  - destruct (locked s) eqn:LE; [discriminate|]. split; [apply (inv_sweep t s b); auto|]. unfold sweep in ST. destruct (listed s b); [|discriminate]. cbn in ST. destruct (refcount s b <=? 0); [discriminate|].
    injection ST as <- <-. cbn. split; [eauto|lia].
  - destruct (locked s) eqn:LE; [discriminate|]. injection ST as <- <-. split; [|auto]. cbn. apply (inv_same _ s _ I); try reflexivity. apply (inv_scan _ _ I).
  - destruct (locked s) eqn:LE; [discriminate|]. destruct (ready s) as [|n]; [discriminate|]. injection ST as <- <-. split; [|auto]. cbn. apply (inv_same _ s _ I); try reflexivity.
    cbn. intros l E. injection E as <-. split; [apply (inv_nodup _ _ I)|intros x; auto].
  - split; [apply (inv_check t s); auto|]. unfold check in ST. destruct (scan s) as [[|b l]|]; try discriminate. destruct (freed s b); [discriminate|]. destruct (refcount s b =? 0); injection ST as <- <-; cbn; eauto.
  - destruct (scan s) as [[|b l]|] eqn:SC; try discriminate. split; [|destruct (rem s); injection ST as <- <-; cbn; eauto].
    destruct (rem s); injection ST as <- <-; cbn; (apply (inv_same _ s _ I); try reflexivity; cbn; congruence).
Qed.

Definition live_sessions (s : state) : Prop := forall k b, In (k, b) (sessions s) -> (b < next s)%nat.

Lemma step_good : forall t s o s' e, good t -> inv t s -> live_sessions s -> step o s = Ok s' e -> good (t ++ e) /\ inv (t ++ e) s' /\ live_sessions s'.
Proof.
  intros t s o s' e G I L ST. destruct (inv_step t s o s' e I L ST) as (GS & L' & _). destruct e as [|x [|y e]]; cbn [good_step] in GS; [|destruct GS as ((G1 & G2) & I')|easy].
  - rewrite app_nil_r. auto.
  - split; [apply good_snoc; auto|auto].
Qed.

Lemma run_good : forall ops t0 s t x, good t0 -> inv t0 s -> live_sessions s -> run s ops = (t, x) ->
  good (t0 ++ t) /\ (forall s', x = Now s' -> inv (t0 ++ t) s' /\ live_sessions s').
Proof.
  induction ops as [|o ops IH]; intros t0 s t x G I L R; cbn [run] in R.
  - injection R as <- <-. rewrite app_nil_r. split; [exact G|]. intros s' E. injection E as <-. auto.
  - destruct (step o s) as [|c|s1 e] eqn:ST; [injection R as <- <-; rewrite app_nil_r; split; [exact G|discriminate]..|].
    destruct (run s1 ops) as (es & x1) eqn:R1. injection R as <- <-. destruct (step_good t0 s o s1 e G I L ST) as (G' & I' & L').
    rewrite app_assoc. exact (IH _ s1 es x1 G' I' L' R1).
Qed.

Lemma good_nil : good [].
Proof. intros [|? ?] b t2 E; discriminate. Qed.

Lemma reach_inv : forall ops t s, run init ops = (t, Now s) -> good t /\ inv t s /\ live_sessions s.
Proof.
  intros ops t s R. destruct (run_good ops [] init t (Now s) good_nil init_inv ltac:(intros k b J; easy) R) as (G & H). destruct (H s eq_refl). auto.
Qed.

Lemma run_app : forall ops1 ops2 s t s1, run s ops1 = (t, Now s1) -> run s (ops1 ++ ops2) = (t ++ fst (run s1 ops2), snd (run s1 ops2)).
Proof.
  induction ops1 as [|o ops1 IH]; intros ops2 s t s1 R; cbn [run app] in *.
  - injection R as <- <-. destruct (run s ops2); reflexivity.
  - destruct (step o s) as [|c|s2 e]; try discriminate. destruct (run s2 ops1) as (es & x1) eqn:R1. injection R as <- ->. rewrite (IH ops2 s2 es s1 R1), app_assoc. reflexivity.
Qed.

(** No crash *)
Definition listed_sessions (s : state) : Prop := forall k b, In (k, b) (sessions s) -> listed s b = true.

Lemma gain_no_crash : forall h b s c, freed s b = false -> gain h b s <> Crash c.
Proof. intros h b s c F. unfold gain. rewrite F. destruct (holding h s); discriminate. Qed.
Lemma unref_no_crash : forall t h s c, inv t s -> unref h s <> Crash c.
Proof.
  intros t h s c I. unfold unref. destruct (holding h s) as [b|] eqn:H; [|discriminate]. destruct (held_alive t s h b I H) as (A1 & A2 & A3). rewrite A1.
  replace (refcount s b <=? 0) with false by lia. discriminate.
Qed.

Lemma careful_step : forall t s o, inv t s -> listed_sessions s -> careful_op s o ->
  (forall c, step o s <> Crash c) /\ (forall s' e, step o s = Ok s' e -> listed_sessions s').
Proof.
  intros t s o I LS C.
  assert (LK : forall b, listed s b = true -> freed s b = false) by (intros b L; apply (listed_alive t s b I L)).
  assert (GS : forall h b s0 s1 e1, gain h b s0 = Ok s1 e1 -> sessions s1 = sessions s0 /\ listed s1 = listed s0).
  { intros h b s0 s1 e1 G. unfold gain in G. destruct (freed s0 b); [discriminate|]. destruct (holding h s0); [discriminate|]. injection G as <- <-. split; reflexivity. }
  assert (US : forall h s1 e1, unref h s = Ok s1 e1 -> listed_sessions s1).
  { intros h s1 e1 G. unfold unref in G. destruct (holding h s) as [b|]; [|discriminate]. destruct (freed s b); [discriminate|]. destruct (refcount s b <=? 0); [discriminate|].
    cbv zeta in G. destruct (refcount s b - 1 =? 0); [destruct (waiting _)|]; injection G as <- <-; exact LS. }
  assert (FG : forall b k c, In (k, c) (forget b (sessions s)) -> listed s c = true /\ c <> b).
  { intros b k c0 J. unfold forget in J. apply filter_In in J as (J & NE). split; [eauto|]. cbn in NE. destruct (Nat.eqb_spec c0 b); [discriminate|auto]. }
  destruct o as [|r b|r k|r k b|r k|k|r j|j up|j j'|h|r|b|b| | | |]; cbn [step careful_op] in *.
  - destruct (locked s); [easy|]. split; [easy|]. intros s' e E. injection E as <- <-. intros k b J. cbn in *. unfold upd. rewrite (LS k b J). destruct (Nat.eqb b (next s)); reflexivity.
  - destruct (locked s); [easy|]. destruct (listed s b) eqn:L; [|easy]. split; [intros c; apply gain_no_crash; auto|]. intros s' e E k0 b0 J. destruct (GS _ _ _ _ _ E) as (G1 & G2). rewrite G1 in J. rewrite G2. eauto.
  - destruct (locked s); [easy|]. destruct (session k s) as [b|] eqn:L; [|easy]. apply session_in, LS in L. split; [intros c; apply gain_no_crash; auto|]. intros s' e E k0 b0 J. destruct (GS _ _ _ _ _ E) as (G1 & G2). rewrite G1 in J. rewrite G2. eauto.
  - destruct (locked s); [easy|]. destruct (session k s); [easy|]. destruct (listed s b) eqn:L; [|easy]. split; [intros c; apply gain_no_crash; cbn; auto|].
    intros s' e E k0 b0 J. destruct (GS _ _ _ _ _ E) as (G1 & G2). rewrite G1 in J. rewrite G2. cbn in *. destruct J as [J|J]; [injection J as <- <-; auto|eauto].
  - destruct (locked s); [easy|]. destruct (holding (Req r) s) as [b|] eqn:L; [|easy]. apply holding_in in L. specialize (C b L). split; [destruct (session k s); discriminate|].
    intros s' e E. destruct (session k s); injection E as <- <-; auto. intros k0 b0 J. cbn in *. destruct J as [J|J]; [injection J as <- <-; auto|eauto].
  - destruct (locked s); [easy|]. split; [easy|]. intros s' e E. injection E as <- <-. intros k0 b0 J. cbn in *. apply filter_In in J as (J & _). eauto.
  - destruct (locked s); [easy|]. destruct (holding (Req r) s) as [b|] eqn:L; [|easy]. destruct (held_alive t s _ b I L) as (A1 & _). rewrite A1. apply holding_in in L. rewrite (C b L). cbn [negb].
    split; [intros c; apply gain_no_crash; auto|]. intros s' e E k0 b0 J. destruct (GS _ _ _ _ _ E) as (G1 & G2). rewrite G1 in J. rewrite G2. cbn in *. apply FG in J. tauto.
  - destruct (holding (Job j) s) as [b|] eqn:L; [|easy]. destruct (held_alive t s _ b I L) as (A1 & _). rewrite A1. destruct ((1 <? refcount s b) && negb up); [split; [easy|intros s' e E; injection E as <- <-; exact LS]|].
    split; [intros c; apply (unref_no_crash t); auto|eauto].
  - destruct (holding (Job j) s) as [b|] eqn:L; [|easy]. destruct (held_alive t s _ b I L) as (A1 & _). split; [intros c; apply gain_no_crash; auto|]. intros s' e E k0 b0 J. destruct (GS _ _ _ _ _ E) as (G1 & G2). rewrite G1 in J. rewrite G2. eauto.
  - split; [intros c; apply (unref_no_crash t); auto|eauto].
  - destruct (holding (Req r) s); [|easy]. split; [easy|]. intros s' e E. injection E as <- <-. exact LS.
  - easy.
  - destruct (locked s); [easy|]. unfold sweep. destruct (listed s b) eqn:L; [|easy]. cbn [negb]. destruct (listed_alive t s b I L) as (_ & A2 & _). replace (refcount s b <=? 0) with false by lia.
    split; [easy|]. intros s' e E. injection E as <- <-. intros k0 b0 J. cbn in *. apply FG in J as (J & NE). rewrite upd_other; auto.
  - destruct (locked s); [easy|]. split; [easy|]. intros s' e E. injection E as <- <-. exact LS.
  - destruct (locked s); [easy|]. destruct (ready s); [easy|]. split; [easy|]. intros s' e E. injection E as <- <-. exact LS.
  - unfold check. destruct (scan s) as [[|b l]|] eqn:SC; [easy| |easy]. destruct (inv_scan _ _ I _ SC) as (_ & S2). assert (R : In b (rem s)) by (apply S2; left; reflexivity). apply (inv_rem _ _ I) in R as (_ & _ & R). rewrite R.
    destruct (refcount s b =? 0); (split; [easy|]); intros s' e E; injection E as <- <-; exact LS.
  - destruct (scan s) as [[|b l]|] eqn:SC; [|easy|easy]. destruct (rem s); (split; [easy|]); intros s' e E; injection E as <- <-; exact LS.
Qed.

Lemma careful_run : forall ops ops0 t0 s, run init ops0 = (t0, Now s) -> inv t0 s -> live_sessions s -> listed_sessions s -> careful (ops0 ++ ops) -> forall t c, run s ops <> (t, Crashed c).
Proof.
  induction ops as [|o ops IH]; intros ops0 t0 s R0 I L LS C t c R; cbn [run] in R; [discriminate|].
  assert (CO : careful_op s o) by (apply (C ops0 o ops t0 s eq_refl R0)). destruct (careful_step t0 s o I LS CO) as (N1 & N2).
  destruct (step o s) as [|c1|s1 e] eqn:ST; [discriminate|exact (N1 _ eq_refl)|]. destruct (run s1 ops) as (es & x1) eqn:R1. injection R as <- ->.
  destruct (inv_step t0 s o s1 e I L ST) as (GS & L' & _).
  assert (I' : inv (t0 ++ e) s1) by (destruct e as [|x [|y e]]; cbn [good_step] in GS; [rewrite app_nil_r; exact GS|apply GS|easy]).
  apply (IH (ops0 ++ [o]) (t0 ++ e) s1) with (t := es) (c := c); auto.
  - rewrite (run_app ops0 [o] init t0 s R0). cbn [run]. rewrite ST. cbn. rewrite app_nil_r. reflexivity.
  - eapply N2. reflexivity.
  - rewrite <- app_assoc. exact C.
Qed.

(** A full round of the remover destroys what nobody holds *)
Lemma check_round : forall l t s, inv t s -> scan s = Some l ->
  exists e s', run s (repeat Check (length l)) = (e, Now s') /\ scan s' = Some [] /\ refcount s' = refcount s /\ (forall b, In b l -> refcount s b = 0 -> In (Destroyed b) e).
Proof.
  induction l as [|b l IH]; intros t s I SC; cbn [length repeat run].
  - exists [], s. repeat split; auto; easy.
  - destruct (inv_scan _ _ I _ SC) as (_ & S2). assert (R : In b (rem s)) by (apply S2; left; reflexivity). apply (inv_rem _ _ I) in R as (_ & _ & R).
    cbn [step]. destruct (check s) as [|c|s1 e] eqn:CK; [unfold check in CK; rewrite SC, R in CK; destruct (refcount s b =? 0); discriminate..|].
    pose proof (inv_check t s s1 e I CK) as GS. assert (I' : inv (t ++ e) s1) by (destruct e as [|x [|y e]]; cbn [good_step] in GS; [rewrite app_nil_r; exact GS|apply GS|easy]).
    assert (K : scan s1 = Some l /\ refcount s1 = refcount s /\ (refcount s b = 0 -> In (Destroyed b) e)).
    { unfold check in CK. rewrite SC, R in CK. destruct (refcount s b =? 0) eqn:Z; injection CK as <- <-; cbn; repeat split; auto. lia. }
    destruct K as (K1 & K2 & K3). destruct (IH _ s1 I' K1) as (e2 & s2 & R2 & Q1 & Q2 & Q3). exists (e ++ e2), s2. rewrite R2. repeat split; auto; [congruence|].
    intros x [<-|J] Z; apply in_or_app; [left; auto|right; apply Q3; auto; rewrite K2; exact Z].
Qed.

Lemma unheld_zero : forall t s b, inv t s -> listed s b = false -> unheld b s -> no_loss b t -> refcount s b = 0.
Proof.
  intros t s b I L U N. rewrite (inv_count _ _ I b), L.
  rewrite (num_none _ (to b) (holds s)), times_num, (num_none _ (lost b) t); [reflexivity| |].
  - intros e J. destruct e; cbn; auto. destruct (Nat.eqb_spec b b0); auto. subst. destruct (N _ J).
  - intros (h & b0) J. unfold to. cbn. destruct (Nat.eqb_spec b0 b); auto. subst. destruct (U _ J).
Qed.

Lemma check_rem : forall l t s, inv t s -> scan s = Some l ->
  exists e s', run s (repeat Check (length l)) = (e, Now s') /\ scan s' = Some [] /\ ready s' = ready s /\ waiting s' = waiting s /\
    (forall b, In b (rem s') -> In b (rem s) /\ (In b l -> refcount s b <> 0)).
Proof.
  induction l as [|b l IH]; intros t s I SC; cbn [length repeat run].
  - exists [], s. repeat split; auto; easy.
  - destruct (inv_scan _ _ I _ SC) as (S1 & S2). assert (R : In b (rem s)) by (apply S2; left; reflexivity). apply (inv_rem _ _ I) in R as (_ & _ & R).
    cbn [step]. destruct (check s) as [|c|s1 e] eqn:CK; [unfold check in CK; rewrite SC, R in CK; destruct (refcount s b =? 0); discriminate..|].
    pose proof (inv_check t s s1 e I CK) as GS. assert (I' : inv (t ++ e) s1) by (destruct e as [|x [|y e]]; cbn [good_step] in GS; [rewrite app_nil_r; exact GS|apply GS|easy]).
    assert (K : scan s1 = Some l /\ refcount s1 = refcount s /\ ready s1 = ready s /\ waiting s1 = waiting s /\ (forall x, In x (rem s1) -> In x (rem s) /\ (x = b -> refcount s b <> 0))).
    { unfold check in CK. rewrite SC, R in CK. destruct (refcount s b =? 0) eqn:Z; injection CK as <- <-; cbn; repeat split; auto.
      - apply filter_In in H. tauto.
      - apply filter_In in H as (_ & H). intros ->. rewrite Nat.eqb_refl in H. discriminate.
      - intros _. lia. }
    destruct K as (K1 & K2 & K3 & K4 & K5). destruct (IH _ s1 I' K1) as (e2 & s2 & R2 & Q1 & Q2 & Q3 & Q4). exists (e ++ e2), s2. rewrite R2.
    split; [reflexivity|]. split; [exact Q1|]. split; [congruence|]. split; [congruence|].
    intros x J. destruct (Q4 x J) as (J1 & J2). destruct (K5 x J1) as (J3 & J4). split; [exact J3|].
    intros [<-|J5]; [auto|]. rewrite <- K2. auto.
Qed.

Lemma remover_round : forall ops t s n, run init ops = (t, Now s) -> scan s = None -> ready s = S n ->
  exists e s', run s (Lock :: repeat Check (length (rem s)) ++ [Wait]) = (e, Now s') /\ scan s' = None /\ ready s' = n /\
    (waiting s' = waiting s /\ rem s' = [] \/ waiting s' = S (waiting s) /\ rem s' <> []) /\
    ((forall b, In b (rem s) -> unheld b s /\ no_loss b t) -> waiting s' = waiting s /\ rem s' = []).
Proof.
  intros ops t s n R SC RD. destruct (reach_inv ops t s R) as (_ & I & _). cbn [run step]. unfold locked. rewrite SC, RD.
  set (s1 := set_scan _ _). assert (I1 : inv t s1).
  { apply (inv_same _ s _ I); try reflexivity. cbn. intros l E. injection E as <-. split; [apply (inv_nodup _ _ I)|intros x; auto]. }
  destruct (check_rem (rem s) t s1 I1 eq_refl) as (e & s2 & R2 & Q1 & Q2 & Q3 & Q4).
  rewrite (run_app _ [Wait] _ _ _ R2). cbn [run step]. rewrite Q1.
  assert (Z : (forall b, In b (rem s) -> unheld b s /\ no_loss b t) -> rem s2 = []).
  { intros H. destruct (rem s2) as [|b r] eqn:E; [reflexivity|]. destruct (Q4 b (or_introl eq_refl)) as (J1 & J2). change (rem s1) with (rem s) in J1.
    destruct (H b J1) as (U & N). destruct (J2 J1). apply (inv_rem _ _ I) in J1. apply (unheld_zero t s b I); tauto. }
  destruct (rem s2) as [|b r] eqn:E; cbn [fst snd app].
  - eexists. eexists. split; [reflexivity|]. cbn. rewrite Q2, Q3. repeat split; auto.
  - eexists. eexists. split; [reflexivity|]. cbn. rewrite Q2, Q3. split; [reflexivity|]. split; [reflexivity|]. split; [right; split; [reflexivity|rewrite E; discriminate]|].
    intros H. discriminate (Z H).
Qed.
