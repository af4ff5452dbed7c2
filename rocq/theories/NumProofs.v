(** Proofs about configuration numbers. *)
From Coq Require Import Ascii String List ZArith Lia Bool ZifyBool.
From Verif Require Import Bytes ClenSpec NumModel NumSpec.
Import ListNotations.
Open Scope Z_scope.

Lemma num_digit_decimal : forall c d, decimal c d <-> num_digit 10 c = true /\ d = code c - 48.
Proof.
  intros c d. unfold decimal, digit_of, num_digit. split.
  - intros [H0 H]. assert (Hd : 0 <= d < 10).
    { split; [lia|]. assert (Z.to_nat d < length (lit "0123456789"))%nat by (apply nth_error_Some; congruence).
      change (length (lit "0123456789")) with 10%nat in *. lia. }
    assert (K : d = 0 \/ d = 1 \/ d = 2 \/ d = 3 \/ d = 4 \/ d = 5 \/ d = 6 \/ d = 7 \/ d = 8 \/ d = 9) by lia.
    repeat destruct K as [K|K]; subst; vm_compute in H; injection H as <-; vm_compute; auto.
  - intros [H ->]. split; [unfold num_digit in H; lia|].
    destruct c as [[] [] [] [] [] [] [] []]; vm_compute in H; try discriminate; reflexivity.
Qed.

Lemma num_digit_octal : forall c d, octal c d <-> num_digit 8 c = true /\ d = code c - 48.
Proof.
  intros c d. unfold octal, digit_of, num_digit. split.
  - intros [H0 H]. assert (Hd : 0 <= d < 8).
    { split; [lia|]. assert (Z.to_nat d < length (lit "01234567"))%nat by (apply nth_error_Some; congruence).
      change (length (lit "01234567")) with 8%nat in *. lia. }
    assert (K : d = 0 \/ d = 1 \/ d = 2 \/ d = 3 \/ d = 4 \/ d = 5 \/ d = 6 \/ d = 7) by lia.
    repeat destruct K as [K|K]; subst; vm_compute in H; injection H as <-; vm_compute; auto.
  - intros [H ->]. split; [unfold num_digit in H; lia|].
    destruct c as [[] [] [] [] [] [] [] []]; vm_compute in H; try discriminate; reflexivity.
Qed.

Lemma num_value_snoc : forall base s c, num_value base (s ++ [c]) = num_value base s * base + (code c - 48).
Proof. intros. unfold num_value. rewrite fold_left_app. reflexivity. Qed.

Lemma numeral_value : forall (dig : byte -> Z -> Prop) base s v,
  (forall c d, dig c d <-> num_digit base c = true /\ d = code c - 48) ->
  (numeral dig base s v <-> s <> [] /\ forallb (num_digit base) s = true /\ v = num_value base s).
Proof.
  intros dig base s v Hd. split.
  - intros H. induction H as [c d H|s v c d H IH Hc].
    + apply Hd in H as [H ->]. split; [discriminate|]. split; [simpl; rewrite H; auto|].
      unfold num_value. cbn [fold_left]. lia.
    + apply Hd in Hc as [Hc ->]. destruct IH as (Hn & Hf & ->). split; [destruct s; discriminate|].
      rewrite forallb_app, num_value_snoc. split; [simpl; rewrite Hf, Hc; auto|lia].
  - revert v. induction s as [|c s IH] using rev_ind; intros v (Hn & Hf & ->); [congruence|].
    rewrite forallb_app in Hf. apply andb_true_iff in Hf as [Hf Hc]. simpl in Hc. rewrite andb_true_r in Hc.
    rewrite num_value_snoc. destruct s as [|x s].
    + simpl app. replace (num_value base [] * base + (code c - 48)) with (code c - 48) by (unfold num_value; simpl; lia).
      constructor. apply Hd. auto.
    + replace (num_value base (x :: s) * base + (code c - 48))
        with (base * num_value base (x :: s) + (code c - 48)) by lia.
      constructor; [|apply Hd; auto]. apply IH. split; [discriminate|auto].
Qed.

Lemma num_value_nonneg : forall base s, 0 <= base -> forallb (num_digit base) s = true -> 0 <= num_value base s.
Proof.
  intros base s Hb. induction s as [|c s IH] using rev_ind; intros Hf; [unfold num_value; simpl; lia|].
  rewrite forallb_app in Hf. apply andb_true_iff in Hf as [Hf Hc]. simpl in Hc. rewrite andb_true_r in Hc.
  rewrite num_value_snoc. specialize (IH Hf). unfold num_digit in Hc.
  assert (0 <= num_value base s * base) by (apply Z.mul_nonneg_nonneg; auto). lia.
Qed.

Lemma digit_plain : forall base c, base <= 10 -> num_digit base c = true ->
  is_space c = false /\ beq c "-"%char = false /\ beq c "+"%char = false.
Proof.
  intros base c Hb H. assert (K : num_digit 10 c = true) by (unfold num_digit in *; lia). clear H Hb.
  destruct c as [[] [] [] [] [] [] [] []]; vm_compute in K; try discriminate; auto.
Qed.

Lemma scan_plain : forall base ds rest, base <= 10 -> ds <> [] -> forallb (num_digit base) ds = true ->
  (forall c r, rest = c :: r -> num_digit base c = false) ->
  scan_number base (ds ++ rest) = Some (false, num_value base ds, rest).
Proof.
  intros base ds rest Hb Hn Hf Hr. unfold scan_number.
  assert (Hs : span (num_digit base) (ds ++ rest) = (ds, rest)) by (apply span_unique; [auto|destruct rest; eauto]).
  destruct ds as [|c ds]; [congruence|]. simpl app in *.
  assert (Hc : num_digit base c = true) by (simpl in Hf; apply andb_true_iff in Hf; tauto).
  destruct (digit_plain base c Hb Hc) as (H1 & H2 & H3).
  replace (snd (span is_space (c :: ds ++ rest))) with (c :: ds ++ rest)
    by (cbn [span]; rewrite H1; reflexivity).
  cbv zeta iota. rewrite H2, H3. cbv iota.
  rewrite Hs. reflexivity.
Qed.

Lemma number_token_digits : forall s, number_token s <-> s <> [] /\ forallb (num_digit 10) s = true.
Proof.
  intros s. unfold number_token. rewrite forallb_forall, Forall_forall. split; intros [H1 H2]; split; auto.
  - intros x Hx. destruct (H2 x Hx) as [d Hd]. apply num_digit_decimal in Hd. tauto.
  - intros x Hx. exists (code x - 48). apply num_digit_decimal. auto.
Qed.

Lemma scan_token : forall s, number_token s -> scan_number 10 s = Some (false, num_value 10 s, []).
Proof.
  intros s H. apply number_token_digits in H as [H1 H2].
  rewrite <- (app_nil_r s) at 1. apply scan_plain; auto; [lia|discriminate].
Qed.

Lemma token_numeral : forall s n, number_token s -> (numeral decimal 10 s n <-> n = num_value 10 s).
Proof.
  intros s n H. apply number_token_digits in H as [H1 H2].
  rewrite (numeral_value decimal 10 s n num_digit_decimal). tauto.
Qed.

Lemma token_nonneg : forall s, number_token s -> 0 <= num_value 10 s.
Proof. intros s H. apply number_token_digits in H as [H1 H2]. apply num_value_nonneg; auto; lia. Qed.

Lemma unsigned_iff : forall s n, number_token s ->
  (cfg_assign_unsigned s = Some n <-> numeral decimal 10 s n /\ n <= 4294967295).
Proof.
  intros s n H. rewrite (token_numeral s n H). unfold cfg_assign_unsigned, strtoul. rewrite (scan_token s H).
  pose proof (token_nonneg s H). destruct (ULONG_MAX <? num_value 10 s) eqn:E; simpl.
  - unfold ULONG_MAX in E. split; [discriminate|lia].
  - destruct (UINT_MAX <? num_value 10 s) eqn:E2; unfold UINT_MAX in E2.
    + split; [discriminate|lia].
    + split; [intros [= <-]|intros [-> _]]; auto. lia.
Qed.

Lemma int_iff : forall s n, number_token s ->
  (cfg_assign_int s = Some n <-> numeral decimal 10 s n /\ n <= 2147483647).
Proof.
  intros s n H. rewrite (token_numeral s n H). unfold cfg_assign_int, strtol. rewrite (scan_token s H).
  pose proof (token_nonneg s H). cbv zeta iota. unfold LONG_MAX, LONG_MIN, INT_MIN, INT_MAX.
  destruct (9223372036854775807 <? num_value 10 s) eqn:E; [simpl; split; [discriminate|lia]|].
  destruct (num_value 10 s <? -9223372036854775808) eqn:E1; [lia|]. simpl orb.
  destruct (num_value 10 s <? -2147483648) eqn:E2; [lia|]. simpl orb.
  destruct (2147483647 <? num_value 10 s) eqn:E3.
  - split; [discriminate|lia].
  - split; [intros [= <-]|intros [-> _]]; auto. lia.
Qed.

Lemma range_iff : forall s n min max, number_token s ->
  (cfg_assign_int_range s min max = Some n <->
   numeral decimal 10 s n /\ n <= 2147483647 /\ (0 <= min -> min <= n) /\ (0 < max -> n <= max)).
Proof.
  intros s n min max H. unfold cfg_assign_int_range.
  destruct (cfg_assign_int s) as [m|] eqn:E.
  - apply int_iff in E as [E1 E2]; auto. apply (token_numeral s m H) in E1.
    destruct (((0 <=? min) && (m <? min)) || ((0 <? max) && (max <? m))) eqn:B.
    + split; [discriminate|]. intros (N & _ & B1 & B2). apply (token_numeral s n H) in N. lia.
    + split.
      * intros [= <-]. split; [apply token_numeral; auto|]. lia.
      * intros (N & _). apply (token_numeral s n H) in N. congruence.
  - split; [discriminate|]. intros (N & L & _). exfalso.
    assert (cfg_assign_int s = Some n) by (apply int_iff; auto). congruence.
Qed.

(** octal *)
Lemma scan_octal : forall s, number_token s ->
  strtoul s 8 = (false, 0, s) \/
  exists ds rest, s = ds ++ rest /\ ds <> [] /\ forallb (num_digit 8) ds = true /\
    (forall c r, rest = c :: r -> num_digit 8 c = false) /\
    scan_number 8 s = Some (false, num_value 8 ds, rest).
Proof.
  intros s H. pose proof (span_app (num_digit 8) s) as Hs. pose proof (span_fst_all (num_digit 8) s) as Hf.
  pose proof (span_snd_head (num_digit 8) s) as Hh. destruct (span (num_digit 8) s) as [ds rest] eqn:Es.
  cbn [fst snd] in *. destruct ds as [|c ds].
  - left. simpl in Hs. subst rest. unfold strtoul, scan_number.
    apply number_token_digits in H as [H1 H2]. destruct s as [|c s]; [congruence|].
    simpl in H2. apply andb_true_iff in H2 as [H2 _]. destruct (digit_plain 10 c ltac:(lia) H2) as (K1 & K2 & K3).
    replace (snd (span is_space (c :: s))) with (c :: s) by (cbn [span]; rewrite K1; reflexivity).
    cbv zeta iota. rewrite K2, K3. cbv iota. rewrite Es. reflexivity.
  - right. exists (c :: ds), rest. split; [auto|]. split; [discriminate|]. split; [auto|]. split; [auto|].
    rewrite <- Hs. apply scan_plain; auto; [lia|discriminate].
Qed.

Lemma mode_iff : forall s n, number_token s ->
  (cfg_assign_mode s = Some n <->
   exists v, numeral octal 8 s v /\
     ((v <= 511 /\ n = v) \/ (9223372036854775808 <= v <= 18446744073709551615 /\ n = v mod 4294967296))).
Proof.
  intros s n H. assert (Hne : s <> []) by (apply H). unfold cfg_assign_mode.
  destruct (scan_octal s H) as [E|(ds & rest & Es & Hd & Hf & Hr & E)].
  - rewrite E. cbv zeta iota. assert (at_end s = false) as -> by (destruct s; [congruence|auto]). simpl.
    split; [discriminate|]. intros (v & N & _). exfalso. apply (numeral_value octal 8 s v num_digit_octal) in N.
    destruct N as (N1 & N2 & N3). unfold strtoul in E.
    assert (K : scan_number 8 (s ++ []) = Some (false, num_value 8 s, []))
      by (apply scan_plain; auto; [lia|discriminate]).
    rewrite app_nil_r in K. rewrite K in E. destruct (ULONG_MAX <? num_value 8 s); [discriminate|]. congruence.
  - unfold strtoul. rewrite E. pose proof (num_value_nonneg 8 ds ltac:(lia) Hf) as Hp.
    destruct rest as [|c r].
    + rewrite app_nil_r in Es. subst ds. unfold ulong_to_long, to_uint, LONG_MAX, UINT_MAX, ULONG_MAX.
      assert (NV : forall v, numeral octal 8 s v <-> v = num_value 8 s)
        by (intros v; rewrite (numeral_value octal 8 s v num_digit_octal); tauto).
      destruct (18446744073709551615 <? num_value 8 s) eqn:E1; cbn [orb negb at_end].
      * cbv iota. split; [discriminate|]. intros (v & N & K). apply NV in N. lia.
      * destruct (9223372036854775807 <? num_value 8 s) eqn:E2; cbv zeta iota.
        -- assert ((511 <? num_value 8 s - (18446744073709551615 + 1)) = false) as -> by lia.
           assert (M : (num_value 8 s - (18446744073709551615 + 1)) mod (4294967295 + 1) = num_value 8 s mod 4294967296).
           { replace (num_value 8 s - (18446744073709551615 + 1)) with (num_value 8 s + (-4294967296) * 4294967296) by lia.
             apply Z_mod_plus_full. }
           rewrite M. split.
           ++ intros [= <-]. exists (num_value 8 s). rewrite NV. split; auto. right. split; [lia|auto].
           ++ intros (v & N & K). apply NV in N. subst v. f_equal. lia.
        -- destruct (511 <? num_value 8 s) eqn:E3.
           ++ split; [discriminate|]. intros (v & N & K). apply NV in N. lia.
           ++ rewrite Z.mod_small by lia. split.
              ** intros [= <-]. exists (num_value 8 s). rewrite NV. split; auto. left. lia.
              ** intros (v & N & K). apply NV in N. subst v. f_equal. lia.
    + cbv zeta. destruct (ULONG_MAX <? num_value 8 ds); simpl; (split; [discriminate|]);
        intros (v & N & _); exfalso; apply (numeral_value octal 8 s v num_digit_octal) in N;
        destruct N as (_ & N & _); subst s; rewrite forallb_app in N; apply andb_true_iff in N as [_ N];
        simpl in N; rewrite (Hr c r eq_refl) in N; discriminate.
Qed.

Lemma bool_iff : forall s b, cfg_assign_bool s = Some b <->
  (b = true /\ In s [lit "1"; lit "yes"; lit "true"; lit "on"]) \/
  (b = false /\ In s [lit "0"; lit "no"; lit "false"; lit "off"]).
Proof.
  intros s b. unfold cfg_assign_bool.
  destruct (bytes_eqb s (lit "1") || bytes_eqb s (lit "yes") || bytes_eqb s (lit "true") || bytes_eqb s (lit "on")) eqn:E.
  - rewrite !orb_true_iff, !bytes_eqb_eq in E. split.
    + intros [= <-]. left. split; auto. cbn [In]. intuition.
    + intros [[-> _]|[-> H]]; auto. exfalso. cbn [In] in H. intuition (subst; try discriminate).
  - destruct (bytes_eqb s (lit "0") || bytes_eqb s (lit "no") || bytes_eqb s (lit "false") || bytes_eqb s (lit "off")) eqn:F.
    + rewrite !orb_true_iff, !bytes_eqb_eq in F. split.
      * intros [= <-]. right. split; auto. cbn [In]. intuition.
      * intros [[-> H]|[-> H]]; auto. exfalso. cbn [In] in H. intuition (subst; try discriminate).
    + rewrite !orb_false_iff, !bytes_eqb_neq in E, F. split; [discriminate|].
      intros [[-> H]|[-> H]]; exfalso; cbn [In] in H; intuition congruence.
Qed.

(** Text that goes on after the digits is refused. *)
Lemma trailing_text : forall s c t, number_token s -> ~ (exists d, decimal c d) ->
  cfg_assign_unsigned (s ++ c :: t) = None /\ cfg_assign_int (s ++ c :: t) = None.
Proof.
  intros s c t H N. apply number_token_digits in H as [H1 H2].
  assert (C : num_digit 10 c = false).
  { destruct (num_digit 10 c) eqn:E; auto. destruct N. exists (code c - 48). apply num_digit_decimal. auto. }
  assert (S : scan_number 10 (s ++ c :: t) = Some (false, num_value 10 s, c :: t)).
  { apply scan_plain; auto; [lia|]. intros x r [= <- <-]. exact C. }
  unfold cfg_assign_unsigned, cfg_assign_int, strtoul, strtol. rewrite S. cbv zeta iota.
  split.
  - destruct (ULONG_MAX <? num_value 10 s); reflexivity.
  - destruct (LONG_MAX <? num_value 10 s); [reflexivity|]. destruct (num_value 10 s <? LONG_MIN); reflexivity.
Qed.
