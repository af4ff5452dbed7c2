(** Proofs about string buffers. *)
From Coq Require Import Ascii String List ZArith Bool Lia ZifyBool ZifyNat.
From Verif Require Import Bytes SbufModel SbufSpec.
Import ListNotations.
Open Scope Z_scope.
Local Arguments firstn : simpl never.
Local Arguments skipn : simpl never.

Lemma zlen_app : forall a b, zlen (a ++ b) = zlen a + zlen b.
Proof. intros. unfold zlen. rewrite app_length. lia. Qed.
Lemma zlen_nonneg : forall a, 0 <= zlen a.
Proof. intros. unfold zlen. lia. Qed.

(** ** Sizes *)

Lemma mem2n_spec : forall null n s n', 1 <= s < 2 ^ 64 -> 0 <= n < 2 ^ 64 -> (null = false -> 1 <= n) -> (null = true -> n * s < 2 ^ 64) ->
  mem2n null n s = Some n' -> 0 < n' /\ n' * s < 2 ^ 64 /\ n <= n' /\ (null = false -> n < n' /\ 3 * n <= 2 * n' <= 3 * n + 1).
Proof.
  intros null n s n' S N Z1 Z2 H. unfold mem2n in H. destruct null.
  - destruct (Z.eqb_spec n 0) as [->|NZ]; injection H as <-.
    + assert (0 <= 64 / s) by (apply Z.div_pos; lia). assert (64 / s * s <= 64) by (rewrite Z.mul_comm; apply Z.mul_div_le; lia).
      destruct (Z.eqb_spec (64 / s) 0) as [E|E]; [rewrite E; split; [lia|]; split; [lia|]; split; [lia|discriminate]|].
      split; [lia|]. split; [lia|]. split; [lia|discriminate].
    + specialize (Z2 eq_refl). split; [lia|]. split; [lia|]. split; [lia|discriminate].
  - specialize (Z1 eq_refl). destruct (Z.leb_spec (SIZE_MAX / 3 * 2 / s) n) as [|L]; [discriminate|]. injection H as <-.
    assert (M : SIZE_MAX / 3 * 2 = 12297829382473034410) by reflexivity. rewrite M in L.
    assert (D : 12297829382473034410 / s * s <= 12297829382473034410) by (rewrite Z.mul_comm; apply Z.mul_div_le; lia).
    assert (B : n * s + s <= 12297829382473034410) by nia.
    assert (Sn : n + 1 < 2 ^ 64) by nia. unfold size_t. rewrite (Z.mod_small (n + 1)) by lia.
    assert (H2 : n <= 2 * ((n + 1) / 2) <= n + 1) by (pose proof (Z.div_mod (n + 1) 2 ltac:(lia)); pose proof (Z.mod_pos_bound (n + 1) 2 ltac:(lia)); lia).
    assert (W : n + (n + 1) / 2 < 2 ^ 64) by nia. rewrite Z.mod_small by lia.
    split; [lia|]. split; [nia|]. split; [lia|]. intros _. lia.
Qed.

(** ** Buffers *)

Definition wf (sb : stringbuf) : Prop :=
  match base sb with
  | None => size sb = 0 /\ len sb = 0
  | Some b => zlen b = size sb /\ 64 <= size sb <= PTRDIFF_MAX /\ 0 <= len sb <= size sb
  end.

Section Proofs.
  Variable alloc : allocator.
  Variable nomem : nomem_handler.
  Hypothesis PA : proper alloc.

  Notation grow := (grow alloc nomem).
  Notation expand := (expand alloc nomem).

  Lemma init_wf : wf stringbuf_init. Proof. cbn. auto. Qed.

  Lemma wf_range : forall sb, wf sb -> 0 <= len sb <= size sb /\ 0 <= size sb <= PTRDIFF_MAX.
  Proof. intros sb W. unfold wf in W. destruct (base sb); unfold PTRDIFF_MAX in *; lia. Qed.

  Lemma contents_len : forall sb, wf sb -> zlen (contents sb) = len sb.
  Proof.
    intros sb W. unfold wf in W. unfold contents. destruct (base sb) as [b|]; [|cbn; lia]. unfold zlen in *. rewrite firstn_length. lia.
  Qed.

  (** Growing keeps the text. *)
  Lemma grow_spec : forall sb, wf sb ->
    match grow sb with
    | None => nomem = XNOMEM
    | Some (sb', true) => wf sb' /\ contents sb' = contents sb /\ len sb' = len sb /\ err sb' = err sb /\ base sb' <> None /\
        (base sb = None -> size sb' = 64) /\ (base sb <> None -> size sb < size sb' /\ 3 * size sb <= 2 * size sb' <= 3 * size sb + 1)
    | Some (sb', false) => wf sb' /\ contents sb' = contents sb /\ err sb' = true /\ nomem = LOGNOMEM
    end.
  Proof.
    intros sb W. unfold SbufModel.grow.
    assert (FL : forall k, match (match nomem with XNOMEM => None | LOGNOMEM => Some (mkSb (base sb) (size sb) (len sb) true k, false) end) with
      | None => nomem = XNOMEM
      | Some (sb', true) => wf sb' /\ contents sb' = contents sb /\ len sb' = len sb /\ err sb' = err sb /\ base sb' <> None /\
        (base sb = None -> size sb' = 64) /\ (base sb <> None -> size sb < size sb' /\ 3 * size sb <= 2 * size sb' <= 3 * size sb + 1)
      | Some (sb', false) => wf sb' /\ contents sb' = contents sb /\ err sb' = true /\ nomem = LOGNOMEM
      end) by (intros k; destruct nomem; auto).
    destruct (mem2n _ (size sb) 1) as [n|] eqn:M; [|apply FL].
    destruct (alloc (calls sb) (size_t (n * 1))) as [block|] eqn:A; [|apply FL].
    apply PA in A as [A1 A2]. rewrite Z.mul_1_r in A1. cbv iota.
    pose proof (wf_range sb W) as R. unfold PTRDIFF_MAX in *.
    destruct (mem2n_spec (match base sb with None => true | Some _ => false end) (size sb) 1 n ltac:(lia) ltac:(lia) ltac:(unfold wf in W; destruct (base sb); intros ?; [lia|discriminate]) ltac:(intros _; lia) M) as (M1 & M2 & M3 & M4).
    assert (SN : size_t n = n) by (unfold size_t; rewrite Z.mod_small; lia). rewrite SN in A1.
    assert (MM : n <= 2 ^ 63 - 1) by (rewrite Z.mul_1_r, SN in A2; lia).
    assert (C : forall b, base sb = Some b -> firstn (Z.to_nat (len sb)) (realloc (Some b) block) = firstn (Z.to_nat (len sb)) b /\ zlen (realloc (Some b) block) = n).
    { intros b E. unfold wf in W. rewrite E in W. unfold zlen in *. cbn [realloc]. rewrite (firstn_all2 b) by lia. split.
      - rewrite firstn_app. replace (Z.to_nat (len sb) - length b)%nat with 0%nat by lia. rewrite firstn_O, app_nil_r. auto.
      - rewrite app_length, skipn_length. lia. }
    unfold wf, contents. cbn [base size len err]. destruct (base sb) as [b|] eqn:E.
    - destruct (C b eq_refl) as [C1 C2]. specialize (M4 eq_refl). unfold wf in W. rewrite E in W.
      assert (NB : forall x : bytes, Some x <> None) by discriminate.
      repeat split; auto; try lia; try discriminate.
    - cbn [realloc]. unfold mem2n in M. unfold wf in W. rewrite E in W. destruct W as [W1 W2]. rewrite W1 in M. cbn in M. injection M as <-. rewrite W2. cbn [Z.to_nat]. 
      assert (NB : forall x : bytes, Some x <> None) by discriminate.
      repeat split; auto; try lia. congruence.
  Qed.

  (** ... often enough. *)
  Lemma big_enough : 64 * 3 ^ 160 > 2 ^ 63 * 2 ^ 160. Proof. reflexivity. Qed.

  Definition enough (fuel : nat) (sb : stringbuf) : Prop :=
    match base sb with
    | None => (161 <= fuel)%nat
    | Some _ => exists k, (160 <= fuel + k)%nat /\ 64 * 3 ^ Z.of_nat k <= size sb * 2 ^ Z.of_nat k
    end.
  Lemma enough_turns : forall sb, wf sb -> enough turns sb.
  Proof.
    intros sb W. unfold enough, wf, turns in *. destruct (base sb).
    - exists 0%nat. split; [lia|]. cbn. lia.
    - lia.
  Qed.
  Lemma enough_grow : forall fuel sb sb', wf sb -> enough (S fuel) sb -> grow sb = Some (sb', true) -> enough fuel sb'.
  Proof.
    intros fuel sb sb' W E G. pose proof (grow_spec sb W) as H. rewrite G in H. destruct H as (W' & _ & _ & _ & NB & H1 & H2).
    unfold enough in *. destruct (base sb') as [b'|] eqn:B'; [|congruence]. destruct (base sb) as [b|] eqn:B.
    - destruct E as (k & K1 & K2). exists (S k). split; [lia|]. destruct (H2 ltac:(congruence)) as [_ H3].
      rewrite Nat2Z.inj_succ, !Z.pow_succ_r by lia. assert (0 < 2 ^ Z.of_nat k) by (apply Z.pow_pos_nonneg; lia). nia.
    - exists 0%nat. split; [lia|]. cbn. rewrite (H1 eq_refl). lia.
  Qed.
  Lemma not_enough_zero : forall sb, wf sb -> ~ enough 0 sb.
  Proof.
    intros sb W E. unfold enough, wf in *. destruct (base sb); [|lia]. destruct E as (k & K1 & K2). destruct W as (_ & W & _).
    assert (K : exists j, Z.of_nat k = 160 + j /\ 0 <= j) by (exists (Z.of_nat k - 160); lia). destruct K as (j & KE & J). rewrite KE in K2.
    rewrite !Z.pow_add_r in K2 by lia. assert (P : 0 < 2 ^ j) by (apply Z.pow_pos_nonneg; lia). assert (Q : 2 ^ j <= 3 ^ j) by (apply Z.pow_le_mono_l; lia).
    pose proof big_enough as BE. unfold PTRDIFF_MAX in W. set (a := 3 ^ 160) in *. set (b := 2 ^ 160) in *. assert (0 < b) by reflexivity. nia.
  Qed.

  (** A loop that grows the buffer until the condition holds *)
  Lemma expand_spec : forall fuel sb n, wf sb -> enough fuel sb -> 0 <= n <= PTRDIFF_MAX ->
    match expand fuel sb n with
    | Done sb' true => wf sb' /\ contents sb' = contents sb /\ len sb' = len sb /\ err sb' = false /\ len sb + n <= size sb'
    | Done sb' false => wf sb' /\ contents sb' = contents sb /\ err sb' = true /\ nomem = LOGNOMEM
    | Exit => nomem = XNOMEM
    | _ => False
    end.
  Proof.
    intros fuel. induction fuel as [|fuel IH]; intros sb n W E N; pose proof (wf_range sb W) as R; unfold PTRDIFF_MAX in *;
      assert (T : size_t (len sb + n) = len sb + n) by (unfold size_t; rewrite Z.mod_small; lia); cbn [SbufModel.expand]; rewrite T;
      destruct (Z.gtb_spec (len sb + n) (size sb)) as [G|G].
    - exfalso. eapply not_enough_zero; eauto.
    - unfold wf, contents in *. cbn [base size len err]. auto.
    - pose proof (grow_spec sb W) as H. destruct (grow sb) as [[sb' []]|] eqn:GR; auto.
      destruct H as (W' & C & L & _). pose proof (enough_grow fuel sb sb' W E GR) as E'. specialize (IH sb' n W' E' N).
      destruct (expand fuel sb' n) as [sb'' []| | |]; auto; rewrite <- C; rewrite ?L in IH; auto.
    - unfold wf, contents in *. cbn [base size len err]. auto.
  Qed.

  Lemma expand_ok : forall sb n, wf sb -> 0 <= n <= PTRDIFF_MAX ->
    match stringbuf_expand alloc nomem sb n with
    | Done sb' true => wf sb' /\ contents sb' = contents sb /\ len sb' = len sb /\ err sb' = false /\ len sb + n <= size sb'
    | Done sb' false => wf sb' /\ contents sb' = contents sb /\ err sb' = true /\ nomem = LOGNOMEM
    | Exit => nomem = XNOMEM
    | _ => False
    end.
  Proof. intros sb n W N. apply expand_spec; auto. apply enough_turns; auto. Qed.

  (** Writing at the end *)
  Lemma put_end_spec : forall sb s t k, wf sb -> len sb + zlen (s ++ t) <= size sb ->
    exists b, put_end sb (s ++ t) = Some b /\
      let sb' := mkSb b (size sb) (size_t (len sb + zlen s)) (err sb) k in wf sb' /\ contents sb' = contents sb ++ s /\ len sb' = len sb + zlen s.
  Proof.
    intros sb s t k W L. pose proof (wf_range sb W) as R. pose proof (zlen_nonneg s) as S0. pose proof (zlen_nonneg t) as T0. rewrite zlen_app in L. unfold PTRDIFF_MAX in *.
    assert (E : size_t (len sb + zlen s) = len sb + zlen s) by (unfold size_t; rewrite Z.mod_small; lia).
    unfold put_end. destruct (base sb) as [b|] eqn:B.
    - unfold wf in W. rewrite B in W. destruct W as (W1 & W2 & W3).
      assert (G : exists b', match s ++ t with [] => Some (Some b) | _ :: _ => if len sb + zlen (s ++ t) <=? zlen b then Some (Some (store b (Z.to_nat (len sb)) (s ++ t))) else None end = Some (Some b')
        /\ b' = store b (Z.to_nat (len sb)) (s ++ t)).
      { destruct (s ++ t) as [|c r] eqn:ST.
        - exists b. split; [auto|]. unfold store. cbn [app length]. rewrite Nat.add_0_r, firstn_skipn. auto.
        - replace (len sb + zlen (c :: r) <=? zlen b) with true; [eauto|]. rewrite <- ST, zlen_app. lia. }
      destruct G as (b' & G1 & G2). exists (Some b'). split; [destruct (s ++ t); exact G1|]. cbn zeta. rewrite E. unfold wf, contents. cbn [base size len]. rewrite B.
      assert (ZL : zlen b' = zlen b).
      { subst b'. unfold store, zlen in *. rewrite !app_length, firstn_length, skipn_length. lia. }
      split; [lia|]. split; [|auto]. subst b'. unfold store.
      replace (Z.to_nat (len sb + zlen s)) with (Z.to_nat (len sb) + length s)%nat by (unfold zlen; lia).
      rewrite firstn_app. rewrite (firstn_all2 (firstn (Z.to_nat (len sb)) b)) by (rewrite firstn_length; lia). f_equal.
      rewrite <- app_assoc. rewrite firstn_app. rewrite firstn_length. unfold zlen in *.
      replace (Z.to_nat (len sb) + length s - Nat.min (Z.to_nat (len sb)) (length b))%nat with (length s) by lia.
      rewrite firstn_all, Nat.sub_diag, firstn_O, app_nil_r. auto.
    - unfold wf in W. rewrite B in W. destruct W as [W1 W2]. assert (s = []) by (destruct s; [auto|unfold zlen in *; cbn [length] in *; lia]). assert (t = []) by (destruct t; [auto|unfold zlen in *; cbn [length] in *; lia]). subst s t.
      exists None. split; [auto|]. cbn zeta. rewrite E. unfold wf, contents. cbn [base size len]. rewrite B. cbn. repeat split; auto; lia.
  Qed.

  Definition fine (o : outcome) (before after : bytes) : Prop :=
    match o with
    | Done sb' true => wf sb' /\ contents sb' = after
    | Done sb' false => wf sb' /\ contents sb' = before /\ err sb' = true
    | Exit => nomem = XNOMEM
    | _ => False
    end.

  Lemma add_spec : forall sb s, wf sb -> zlen s <= PTRDIFF_MAX -> fine (stringbuf_add alloc nomem sb s) (contents sb) (contents sb ++ s).
  Proof.
    intros sb s W L. unfold stringbuf_add. pose proof (expand_ok sb (zlen s) W ltac:(pose proof (zlen_nonneg s); lia)) as H.
    destruct (stringbuf_expand alloc nomem sb (zlen s)) as [sb' []| | |]; auto.
    - destruct H as (W' & C & LL & E & S). destruct (put_end_spec sb' s [] (calls sb') W') as (b & P & Q); [rewrite app_nil_r; lia|]. rewrite app_nil_r in P. rewrite P.
      cbn zeta in Q. destruct Q as (Q1 & Q2 & Q3). split; [auto|]. rewrite <- C. auto.
    - cbn. tauto.
  Qed.

  (** formatting: a text that fits with its null character *)
  Lemma vprintf_spec : forall fuel sb t, wf sb -> enough fuel sb -> (forall s, t = Some s -> zlen s < PTRDIFF_MAX) ->
    match vprintf alloc nomem fuel sb t with
    | Done sb' true => wf sb' /\ exists s, t = Some s /\ contents sb' = contents sb ++ s
    | Done sb' false => wf sb' /\ contents sb' = contents sb /\ err sb' = true
    | Exit => nomem = XNOMEM
    | _ => False
    end.
  Proof.
    intros fuel. induction fuel as [|fuel IH]; intros sb t W E L; pose proof (wf_range sb W) as R; cbn [vprintf];
      assert (T : size_t (size sb - len sb) = size sb - len sb) by (unfold size_t, PTRDIFF_MAX in *; rewrite Z.mod_small; lia); rewrite T.
    - exfalso. eapply not_enough_zero; eauto.
    - destruct (match t with Some t => if size sb - len sb <=? zlen t then None else Some t | None => None end) as [s|] eqn:M.
      + destruct t as [s'|]; [|discriminate]. destruct (Z.leb_spec (size sb - len sb) (zlen s')); [discriminate|]. injection M as ->.
        destruct (put_end_spec sb s [NUL] (calls sb) W) as (b & P & Q); [rewrite zlen_app; change (zlen [NUL]) with 1; lia|]. rewrite P. cbn zeta in Q. destruct Q as (Q1 & Q2 & Q3).
        split; [auto|]. eauto.
      + pose proof (grow_spec sb W) as H. destruct (grow sb) as [[sb' []]|] eqn:GR; auto.
        * destruct H as (W' & C & _). pose proof (enough_grow fuel sb sb' W E GR) as E'. specialize (IH sb' t W' E' L). rewrite <- C. exact IH.
        * tauto.
  Qed.
  Lemma ftime_spec : forall fuel sb t, wf sb -> enough fuel sb -> zlen t < PTRDIFF_MAX ->
    match ftime alloc nomem fuel sb t with
    | Done sb' true => wf sb' /\ contents sb' = contents sb ++ t /\ t <> []
    | Done sb' false => wf sb' /\ contents sb' = contents sb /\ err sb' = true
    | Exit => nomem = XNOMEM
    | _ => False
    end.
  Proof.
    intros fuel. induction fuel as [|fuel IH]; intros sb t W E L; pose proof (wf_range sb W) as R; cbn [ftime];
      assert (T : size_t (size sb - len sb) = size sb - len sb) by (unfold size_t, PTRDIFF_MAX in *; rewrite Z.mod_small; lia); rewrite T.
    - exfalso. eapply not_enough_zero; eauto.
    - destruct ((0 <? zlen t) && (zlen t <? size sb - len sb)) eqn:M.
      + destruct (put_end_spec sb t [NUL] (calls sb) W) as (b & P & Q); [rewrite zlen_app; change (zlen [NUL]) with 1; lia|]. rewrite P. cbn zeta in Q. destruct Q as (Q1 & Q2 & Q3).
        split; [auto|]. split; [auto|]. intros ->. discriminate.
      + pose proof (grow_spec sb W) as H. destruct (grow sb) as [[sb' []]|] eqn:GR; auto.
        * destruct H as (W' & C & _). pose proof (enough_grow fuel sb sb' W E GR) as E'. specialize (IH sb' t W' E' L). rewrite <- C. exact IH.
        * tauto.
  Qed.

  Lemma c_str_len : forall s, zlen (c_str s) <= zlen s.
  Proof. induction s as [|c s IH]; cbn; [lia|]. destruct (beq c NUL); unfold zlen in *; cbn [length]; lia. Qed.

  Lemma exec_spec : forall sb o, wf sb -> fits o (contents sb) -> fine (exec alloc nomem sb o) (contents sb) (effect o (contents sb)).
  Proof.
    intros sb o W F. pose proof (wf_range sb W) as R. destruct o as [s|c|s|c n|t|t|n| |n]; cbn [exec effect fits] in *.
    - apply add_spec; auto. lia.
    - apply add_spec; auto. unfold zlen, PTRDIFF_MAX. cbn. lia.
    - apply add_spec; auto. pose proof (c_str_len s). lia.
    - apply add_spec; auto. unfold zlen. rewrite repeat_length. lia.
    - pose proof (vprintf_spec turns sb t W (enough_turns sb W)) as H. unfold stringbuf_vprintf. specialize (H ltac:(intros s ->; auto)).
      destruct (vprintf alloc nomem turns sb t) as [sb' []| | |]; auto. destruct H as (W' & s & -> & C). split; auto.
    - pose proof (ftime_spec turns sb t W (enough_turns sb W) F) as H. unfold stringbuf_strftime.
      destruct (ftime alloc nomem turns sb t) as [sb' []| | |]; auto. destruct H as (W' & C & _). split; auto.
    - unfold stringbuf_truncate. pose proof (contents_len sb W) as CL. destruct (Z.gtb_spec n (size sb)); [lia|]. cbn [fine]. unfold wf, contents in *. cbn [base size len].
      destruct (base sb) as [b|] eqn:B.
      + split; [lia|]. rewrite firstn_firstn. f_equal. lia.
      + split; [lia|]. rewrite firstn_nil. auto.
    - cbn [fine]. unfold wf, contents, stringbuf_reset in *. cbn [base size len]. destruct (base sb) as [b|]; [|intuition]. split; [lia|]. auto.
    - unfold stringbuf_consume. pose proof (contents_len sb W) as CL. destruct (Z.ltb_spec n (len sb)).
      + unfold wf, contents in *. destruct (base sb) as [b|] eqn:B; [|lia]. cbn [fine base size len].
        assert (SL : zlen (store b 0 (firstn (Z.to_nat (len sb - n)) (skipn (Z.to_nat n) b))) = zlen b).
        { unfold store, zlen in *. rewrite !app_length, firstn_O, skipn_length, firstn_length, skipn_length. cbn [length]. lia. }
        unfold wf, contents. cbn [base size len]. split; [lia|]. unfold store. rewrite firstn_O. cbn [app].
        rewrite firstn_app. rewrite firstn_firstn, Nat.min_id. rewrite firstn_length, skipn_length. unfold zlen in *.
        replace (Z.to_nat (len sb - n) - Nat.min (Z.to_nat (len sb - n)) (length b - Z.to_nat n))%nat with 0%nat by lia. rewrite firstn_O, app_nil_r.
        rewrite skipn_firstn_comm. f_equal. lia.
      + cbn [fine]. unfold wf, contents in *. cbn [base size len]. unfold zlen in *. destruct (base sb) as [b|] eqn:B; [|rewrite skipn_nil; intuition]. split; [lia|].
        rewrite firstn_O. symmetry. apply skipn_all2. lia.
  Qed.

  Notation allowed := (allowed alloc nomem).
  Lemma allowed_cons : forall o ops sb t, allowed sb (o :: ops) t -> fits o t /\
    forall sb' r, exec alloc nomem sb o = Done sb' r -> allowed sb' ops (if r then effect o t else t).
  Proof.
    intros o ops sb t A. split.
    - apply (A [] o ops sb []); auto.
    - intros sb' r E ops1 o' ops2 sb'' rs E1 R. apply (A (o :: ops1) o' ops2 sb'' (r :: rs)); [rewrite E1; auto|]. cbn [run]. rewrite E, R. auto.
  Qed.

  Lemma run_spec : forall ops sb, wf sb -> allowed sb ops (contents sb) ->
    match run alloc nomem ops sb with
    | Ran sb' rs => wf sb' /\ length rs = length ops /\ contents sb' = effects ops rs (contents sb)
    | RanExit => nomem = XNOMEM
    | _ => False
    end.
  Proof.
    induction ops as [|o ops IH]; intros sb W A; cbn [run]; [auto|]. apply allowed_cons in A as (F & A).
    pose proof (exec_spec sb o W F) as H. destruct (exec alloc nomem sb o) as [sb' r| | |]; cbn [fine] in H; auto. specialize (A sb' r eq_refl).
    assert (H' : wf sb' /\ contents sb' = if r then effect o (contents sb) else contents sb) by (destruct r; tauto). destruct H' as [W' C].
    specialize (IH sb' W'). rewrite C in IH. specialize (IH A). destruct (run alloc nomem ops sb') as [sb'' rs| | |]; auto.
    destruct IH as (I1 & I2 & I3). split; [auto|]. split; [cbn; lia|]. cbn [effects]. exact I3.
  Qed.

  (** ** Failures *)

  Lemma finish_spec : forall sb, wf sb ->
    match stringbuf_finish alloc nomem sb with
    | Done sb' true => err sb = false /\ wf sb' /\ contents sb' = contents sb ++ [NUL]
    | Done sb' false => True
    | Exit => nomem = XNOMEM
    | _ => False
    end.
  Proof.
    intros sb W. unfold stringbuf_finish. destruct (err sb) eqn:E; [auto|]. pose proof (add_spec sb [NUL] W ltac:(unfold zlen, PTRDIFF_MAX; cbn; lia)) as H.
    unfold stringbuf_add_char. destruct (stringbuf_add alloc nomem sb [NUL]) as [sb' []| | |]; cbn [fine] in H; tauto.
  Qed.

  Lemma run_app : forall ops ops' sb, run alloc nomem (ops ++ ops') sb =
    match run alloc nomem ops sb with
    | Ran sb' rs => match run alloc nomem ops' sb' with Ran sb'' rs' => Ran sb'' (rs ++ rs') | r => r end
    | r => r
    end.
  Proof.
    induction ops as [|o ops IH]; intros ops' sb; cbn [run app].
    - destruct (run alloc nomem ops' sb); auto.
    - destruct (exec alloc nomem sb o) as [sb' r| | |]; auto. rewrite IH. destruct (run alloc nomem ops sb') as [sb'' rs| | |]; auto.
      destruct (run alloc nomem ops' sb''); auto.
  Qed.

  Lemma allowed_app : forall ops ops' sb t, allowed sb (ops ++ ops') t -> allowed sb ops t.
  Proof. intros ops ops' sb t A ops1 o ops2 sb' rs E R. apply (A ops1 o (ops2 ++ ops') sb' rs); auto. rewrite E, <- app_assoc. auto. Qed.

  Lemma run_last_failed : forall ops o sb rs, allowed stringbuf_init (ops ++ [o]) [] -> run alloc nomem (ops ++ [o]) stringbuf_init = Ran sb (rs ++ [false]) ->
    stringbuf_finish alloc nomem sb = Done sb false.
  Proof.
    intros ops o sb rs A R. rewrite run_app in R.
    destruct (run alloc nomem ops stringbuf_init) as [sb1 rs1| | |] eqn:E; try discriminate.
    pose proof (run_spec ops stringbuf_init init_wf (allowed_app _ _ _ _ A)) as H. rewrite E in H. destruct H as (W & L & C).
    pose proof (A ops o [] sb1 rs1 eq_refl E) as F. change (contents stringbuf_init) with (@nil byte) in C. rewrite <- C in F.
    cbn [run] in R. pose proof (exec_spec sb1 o W F) as H. destruct (exec alloc nomem sb1 o) as [sb2 r| | |]; try discriminate. injection R as R1 R2. subst sb2.
    apply app_inj_tail in R2 as [_ ->]. cbn [fine] in H. unfold stringbuf_finish. destruct H as (_ & _ & ->). auto.
  Qed.

  (** ** Without failures *)
  Section Generous.
    Hypothesis GA : generous alloc.
    Definition LIM : Z := 2 ^ 61.
    Lemma grow_ok : forall sb, wf sb -> size sb <= 2 * LIM -> exists sb', grow sb = Some (sb', true).
    Proof.
      intros sb W L. unfold SbufModel.grow, LIM in *. pose proof (wf_range sb W) as R.
      assert (M : exists n, mem2n (match base sb with None => true | Some _ => false end) (size sb) 1 = Some n /\ 0 <= n <= PTRDIFF_MAX).
      { unfold mem2n, wf in *. destruct (base sb) as [b|].
        - change (SIZE_MAX / 3 * 2 / 1) with 12297829382473034410. destruct (Z.leb_spec 12297829382473034410 (size sb)); [lia|]. eexists. split; [reflexivity|].
          unfold size_t. rewrite (Z.mod_small (size sb + 1)) by lia. pose proof (Z.div_mod (size sb + 1) 2 ltac:(lia)). pose proof (Z.mod_pos_bound (size sb + 1) 2 ltac:(lia)).
          rewrite Z.mod_small; unfold PTRDIFF_MAX in *; lia.
        - destruct W as [-> _]. exists 64. split; [reflexivity|]. unfold PTRDIFF_MAX. lia. }
      destruct M as (n & -> & N). assert (E : size_t (n * 1) = n) by (unfold size_t, PTRDIFF_MAX in *; rewrite Z.mod_small; lia). rewrite E.
      destruct (alloc (calls sb) n) as [block|] eqn:A; [eauto|]. exfalso. eapply GA; eauto.
    Qed.
    Lemma expand_true : forall fuel sb n, wf sb -> enough fuel sb -> 0 <= n -> len sb + n <= LIM -> exists sb', expand fuel sb n = Done sb' true.
    Proof.
      intros fuel. induction fuel as [|fuel IH]; intros sb n W E N L; pose proof (wf_range sb W) as R; unfold LIM in *;
      assert (T : size_t (len sb + n) = len sb + n) by (unfold size_t; rewrite Z.mod_small; lia); cbn [SbufModel.expand]; rewrite T;
      destruct (Z.gtb_spec (len sb + n) (size sb)) as [G|G]; eauto.
      - exfalso. eapply not_enough_zero; eauto.
      - destruct (grow_ok sb W ltac:(unfold LIM; lia)) as (sb' & GR). rewrite GR. pose proof (grow_spec sb W) as H. rewrite GR in H. destruct H as (W' & C & LL & _).
        pose proof (enough_grow fuel sb sb' W E GR) as E'. apply IH; auto; lia.
    Qed.
    Lemma vprintf_true : forall fuel sb t, wf sb -> enough fuel sb -> len sb + zlen t + 1 <= LIM -> exists sb', vprintf alloc nomem fuel sb (Some t) = Done sb' true.
    Proof.
      intros fuel. induction fuel as [|fuel IH]; intros sb t W E L; pose proof (wf_range sb W) as R; cbn [vprintf]; pose proof (zlen_nonneg t);
        assert (T : size_t (size sb - len sb) = size sb - len sb) by (unfold size_t, PTRDIFF_MAX in *; rewrite Z.mod_small; lia); rewrite T.
      - exfalso. eapply not_enough_zero; eauto.
      - destruct (Z.leb_spec (size sb - len sb) (zlen t)).
        + destruct (grow_ok sb W ltac:(unfold LIM in *; lia)) as (sb' & GR). rewrite GR. pose proof (grow_spec sb W) as H1. rewrite GR in H1. destruct H1 as (W' & C & LL & _).
          pose proof (enough_grow fuel sb sb' W E GR) as E'. apply IH; auto; lia.
        + destruct (put_end_spec sb t [NUL] (calls sb) W) as (b & P & Q); [rewrite zlen_app; change (zlen [NUL]) with 1; lia|]. rewrite P. eauto.
    Qed.
    Lemma ftime_true : forall fuel sb t, t <> [] -> wf sb -> enough fuel sb -> len sb + zlen t + 1 <= LIM -> exists sb', ftime alloc nomem fuel sb t = Done sb' true.
    Proof.
      intros fuel. induction fuel as [|fuel IH]; intros sb t NE W E L; pose proof (wf_range sb W) as R; cbn [ftime]; pose proof (zlen_nonneg t);
        assert (P : 0 < zlen t) by (destruct t; [congruence|unfold zlen; cbn [length]; lia]);
        assert (T : size_t (size sb - len sb) = size sb - len sb) by (unfold size_t, PTRDIFF_MAX in *; rewrite Z.mod_small; lia); rewrite T.
      - exfalso. eapply not_enough_zero; eauto.
      - destruct (Z.ltb_spec 0 (zlen t)); [|lia]. destruct (Z.ltb_spec (zlen t) (size sb - len sb)); cbn [andb].
        + destruct (put_end_spec sb t [NUL] (calls sb) W) as (b & PE & Q); [rewrite zlen_app; change (zlen [NUL]) with 1; lia|]. rewrite PE. eauto.
        + destruct (grow_ok sb W ltac:(unfold LIM in *; lia)) as (sb' & GR). rewrite GR. pose proof (grow_spec sb W) as H2. rewrite GR in H2. destruct H2 as (W' & C & LL & _).
          pose proof (enough_grow fuel sb sb' W E GR) as E'. apply IH; auto; lia.
    Qed.
    Lemma add_true : forall sb s, wf sb -> len sb + zlen s <= LIM -> exists sb', stringbuf_add alloc nomem sb s = Done sb' true.
    Proof.
      intros sb s W L. pose proof (zlen_nonneg s) as Z0. pose proof (wf_range sb W) as R.
      destruct (expand_true turns sb (zlen s) W (enough_turns sb W) Z0 L) as (sb' & E). pose proof (add_spec sb s W ltac:(unfold LIM, PTRDIFF_MAX in *; lia)) as H.
      unfold stringbuf_add, stringbuf_expand in *. rewrite E in *. destruct (put_end sb' s); [eauto|destruct H].
    Qed.
    Lemma exec_true : forall sb o, wf sb -> fits o (contents sb) -> moderate o -> len sb + amount o <= LIM -> exists sb', exec alloc nomem sb o = Done sb' true.
    Proof.
      intros sb o W F M L. pose proof (contents_len sb W) as CL. pose proof (wf_range sb W) as R. destruct o as [s|c|s|c n|t|t|n| |n]; cbn [exec fits moderate amount] in *.
      - apply add_true; auto. lia.
      - apply add_true; auto.
      - apply add_true; auto. pose proof (c_str_len s). lia.
      - apply add_true; auto. unfold zlen. rewrite repeat_length. lia.
      - destruct t as [t|]; [|easy]. apply vprintf_true; auto; [apply enough_turns; auto|lia].
      - apply ftime_true; auto; [apply enough_turns; auto|lia].
      - unfold stringbuf_truncate. destruct (Z.gtb_spec n (size sb)); [lia|]. eauto.
      - eauto.
      - unfold stringbuf_consume. destruct (Z.ltb_spec n (len sb)); [|eauto]. unfold wf in W. destruct (base sb); [eauto|lia].
    Qed.
    Lemma effect_len : forall o t, zlen (effect o t) <= zlen t + amount o.
    Proof.
      intros o t. unfold zlen. destruct o as [s|c|s|c n|[s|]|s|n| |n]; cbn [effect amount]; rewrite ?app_length, ?firstn_length, ?skipn_length, ?repeat_length; unfold zlen; cbn [length]; try lia.
      pose proof (c_str_len s). unfold zlen in *. lia.
    Qed.
    Lemma total_nonneg : forall ops, 0 <= total ops.
    Proof. induction ops as [|o ops IH]; cbn; [lia|]. assert (0 <= amount o) by (destruct o as [s|c|s|c n|[s|]|s|n| |n]; cbn; try pose proof (zlen_nonneg s); lia). unfold total in *. lia. Qed.

    Lemma run_true : forall ops sb, wf sb -> allowed sb ops (contents sb) -> Forall moderate ops -> len sb + total ops <= LIM ->
      exists sb', run alloc nomem ops sb = Ran sb' (repeat true (length ops)) /\ contents sb' = fold_left (fun t o => effect o t) ops (contents sb).
    Proof.
      induction ops as [|o ops IH]; intros sb W A M L; [cbn; eauto|]. apply Forall_cons_iff in M as [M1 M2]. apply allowed_cons in A as (F & A). cbn [total fold_right] in L. change (fold_right (fun (o : op) (z : Z) => amount o + z) 0 ops) with (total ops) in L.
      pose proof (total_nonneg ops) as T0.
      destruct (exec_true sb o W F M1 ltac:(lia)) as (sb1 & E). pose proof (exec_spec sb o W F) as H. cbn [run]. rewrite E in H. rewrite E. cbn [fine] in H. destruct H as (W1 & C).
      destruct (IH sb1 W1) as (sb2 & R & C2); auto.
      - rewrite C. exact (A sb1 true E).
      - rewrite <- (contents_len sb1 W1), C. pose proof (effect_len o (contents sb)) as EL. rewrite (contents_len sb W) in EL. lia.
      - rewrite R. exists sb2. cbn [length repeat fold_left]. rewrite <- C. auto.
    Qed.
  End Generous.
End Proofs.

(** ** Counterexamples *)

(** An allocator that gives blocks of null characters, except for one call *)
Definition zeros (n : Z) : bytes := repeat NUL (Z.to_nat n).
Definition flaky (bad : nat) : allocator := fun k n => if Nat.eqb k bad then None else if (0 <=? n) && (n <=? 1000) then Some (zeros n) else None.
Lemma flaky_proper : forall bad, proper (flaky bad).
Proof.
  intros bad k n block H. unfold flaky in H. destruct (Nat.eqb k bad); [discriminate|].
  destruct (Z.leb_spec 0 n); [|discriminate]. destruct (Z.leb_spec n 1000); [|discriminate]. injection H as <-.
  unfold zlen, zeros, PTRDIFF_MAX. rewrite repeat_length. lia.
Qed.
(** ... and one that never fails *)
Definition plenty : allocator := fun _ n => if (0 <=? n) && (n <=? PTRDIFF_MAX) then Some (zeros n) else None.
Lemma plenty_proper : proper plenty.
Proof.
  intros k n block H. unfold plenty in H. destruct (Z.leb_spec 0 n); [|discriminate]. destruct (Z.leb_spec n PTRDIFF_MAX); [|discriminate]. injection H as <-.
  unfold zlen, zeros. rewrite repeat_length. lia.
Qed.
Lemma plenty_generous : generous plenty.
Proof. intros k n H. unfold plenty. destruct (Z.leb_spec 0 n); [|lia]. destruct (Z.leb_spec n PTRDIFF_MAX); [|lia]. discriminate. Qed.

(** Deciding whether a concrete program is allowed *)
Fixpoint check (alloc : allocator) (nomem : nomem_handler) (sb : stringbuf) (ops : list op) (t : bytes) : Prop :=
  match ops with
  | [] => True
  | o :: ops => fits o t /\ match exec alloc nomem sb o with Done sb' r => check alloc nomem sb' ops (if r then effect o t else t) | _ => True end
  end.
Lemma check_allowed : forall alloc nomem ops sb t, check alloc nomem sb ops t -> allowed alloc nomem sb ops t.
Proof.
  intros alloc nomem. induction ops as [|o ops IH]; intros sb t C ops1 o' ops2 sb' rs E R.
  - destruct ops1; discriminate.
  - destruct C as [F C]. destruct ops1 as [|o1 ops1].
    + injection E as -> ->. cbn in *. injection R as <- <-. exact F.
    + injection E as -> E. cbn [run] in R. destruct (exec alloc nomem sb o1) as [sb1 r| | |]; try discriminate.
      destruct (run alloc nomem ops1 sb1) as [sb2 rs2| | |] eqn:R1; try discriminate. injection R as -> <-. cbn [effects].
      apply (IH sb1 _ C ops1 o' ops2 sb' rs2 E R1).
Qed.
