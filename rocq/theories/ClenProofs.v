From Coq Require Import Ascii String List ZArith Lia Bool.
From Coq Require Import ZifyBool ZifyNat ZifyN.
From Verif Require Import Bytes ClenModel ClenSpec.
Import ListNotations.
Open Scope Z_scope.

Ltac Zify.zify_post_hook ::= Z.div_mod_to_equations.

Lemma isws_blank : forall c, isws c = true <-> blank c.
Proof.
  intros c. unfold isws, blank. rewrite orb_true_iff, !beq_eq. reflexivity.
Qed.

Lemma trimwsl_span : forall s, trimwsl s = snd (span isws s).
Proof.
  induction s as [|c s IH]; simpl; [reflexivity|].
  destruct (isws c); [|reflexivity].
  destruct (span isws s); exact IH.
Qed.

Lemma Forall_blank : forall s, Forall blank s <-> forallb isws s = true.
Proof.
  intros s. rewrite forallb_forall, Forall_forall.
  split; intros H c Hc; specialize (H c Hc); now apply isws_blank.
Qed.

Lemma trimwsl_split : forall s, exists l, s = l ++ trimwsl s /\ Forall blank l.
Proof.
  intros s. exists (fst (span isws s)). rewrite trimwsl_span. split.
  - symmetry. apply span_app.
  - apply Forall_blank. apply span_fst_all.
Qed.

Lemma trimwsl_app : forall l s, Forall blank l ->
  (match s with [] => True | c :: _ => ~ blank c end) -> trimwsl (l ++ s) = s.
Proof.
  intros l s Hl Hs. rewrite trimwsl_span, span_unique; [reflexivity| |].
  - now apply Forall_blank.
  - destruct s as [|c s]; [exact I|].
    destruct (isws c) eqn:E; [|reflexivity]. apply isws_blank in E. contradiction.
Qed.

Lemma trimwsl_all : forall l, Forall blank l -> trimwsl l = [].
Proof.
  intros l Hl. rewrite <- (app_nil_r l). apply trimwsl_app; auto.
Qed.

(** *** Digits *)

Lemma decimal_model : forall c d, decimal c d <-> clen_digit 10 c = Some d.
Proof.
  intros c d. unfold decimal, digit_of. split.
  - intros [H0 H]. remember (Z.to_nat d) as k eqn:Ek.
    assert (d = Z.of_nat k) by lia. subst d. clear Ek H0.
    do 10 (destruct k as [|k]; [simpl in H; injection H as <-; reflexivity|]).
    simpl in H. destruct k; discriminate.
  - intros H.
    destruct c as [[] [] [] [] [] [] [] []]; vm_compute in H; try discriminate;
      injection H as <-; split; try lia; reflexivity.
Qed.

Lemma hexadecimal_model : forall c d, hexadecimal c d <-> clen_digit 16 c = Some d.
Proof.
  intros c d. unfold hexadecimal, digit_of. split.
  - intros [[H0 H]|[H0 H]]; remember (Z.to_nat d) as k eqn:Ek;
      assert (d = Z.of_nat k) by lia; subst d; clear Ek H0;
      do 16 (destruct k as [|k]; [simpl in H; injection H as <-; reflexivity|]);
      simpl in H; destruct k; discriminate.
  - intros H.
    destruct c as [[] [] [] [] [] [] [] []]; vm_compute in H; try discriminate;
      injection H as <-; first [ left; split; [lia|reflexivity] | right; split; [lia|reflexivity]].
Qed.

Lemma clen_digit_range : forall base c d,
  (base = 10 \/ base = 16) -> clen_digit base c = Some d -> 0 <= d < base.
Proof.
  intros base c d Hb H. unfold clen_digit in H.
  destruct ((48 <=? code c) && (code c <=? 57)) eqn:E1; [injection H as <-; lia|].
  destruct (base =? 16) eqn:E2; [|discriminate].
  destruct ((97 <=? code c) && (code c <=? 102)) eqn:E3; [injection H as <-; lia|].
  destruct ((65 <=? code c) && (code c <=? 70)) eqn:E4; [injection H as <-; lia|discriminate].
Qed.

Lemma digit_not_ws : forall base c d, clen_digit base c = Some d -> ~ blank c.
Proof.
  intros base c d H [E|E]; subst; unfold clen_digit in H; vm_compute in H;
    destruct base as [|p|p]; try discriminate; repeat (destruct p; try discriminate).
Qed.

Lemma digit_not_semicolon : forall base d, clen_digit base ";"%char <> Some d.
Proof.
  intros base d H. unfold clen_digit in H; vm_compute in H;
    destruct base as [|p|p]; try discriminate; repeat (destruct p; try discriminate).
Qed.

(** *** Value of a digit string, left to right, from an initial value *)

Inductive digits_val (base : Z) : Z -> bytes -> Z -> Prop :=
| dv_nil : forall v, digits_val base v [] v
| dv_cons : forall v c d s w,
    clen_digit base c = Some d -> digits_val base (v * base + d) s w ->
    digits_val base v (c :: s) w.

Lemma digits_val_snoc : forall base v s w c d,
  digits_val base v s w -> clen_digit base c = Some d ->
  digits_val base v (s ++ [c]) (w * base + d).
Proof.
  intros base v s w c d H Hc. induction H as [v|v x dx s w Hx H IH]; simpl.
  - econstructor; [exact Hc|constructor].
  - econstructor; [exact Hx|exact IH].
Qed.

Lemma digits_val_app_inv : forall base a v b w,
  digits_val base v (a ++ b) w -> exists u, digits_val base v a u /\ digits_val base u b w.
Proof.
  intros base a. induction a as [|c a IH]; simpl; intros v b w H.
  - exists v. split; [constructor|exact H].
  - inversion H as [|v' c' d s w' Hc H']; subst.
    destruct (IH _ _ _ H') as [u [H1 H2]]. exists u. split; [|exact H2].
    econstructor; eassumption.
Qed.

Lemma numeral_digits_val : forall (dig : byte -> Z -> Prop) base s v,
  (forall c d, dig c d <-> clen_digit base c = Some d) ->
  (numeral dig base s v <-> s <> [] /\ digits_val base 0 s v).
Proof.
  intros dig base s v Hd. split.
  - intros H. induction H as [c d H|s v c d H IH Hc].
    + split; [discriminate|]. econstructor; [apply Hd; exact H|].
      replace (0 * base + d) with d by lia. constructor.
    + split; [destruct s; discriminate|]. destruct IH as [_ IH].
      replace (base * v + d) with (v * base + d) by lia.
      apply digits_val_snoc; [exact IH|]. now apply Hd.
  - revert v. induction s as [|c s IH] using rev_ind; intros v [Hne H].
    + congruence.
    + apply digits_val_app_inv in H. destruct H as [u [H1 H2]].
      inversion H2 as [|v' c' d s' w Hc H']; subst.
      inversion H'; subst.
      destruct s as [|c' s].
      * inversion H1; subst. simpl. replace (0 * base + d) with d by lia.
        constructor. now apply Hd.
      * replace (u * base + d) with (base * u + d) by lia.
        constructor; [|now apply Hd]. apply IH. split; [discriminate|exact H1].
Qed.

Lemma digits_val_ge : forall base v s w,
  (base = 10 \/ base = 16) -> 0 <= v -> digits_val base v s w -> v <= w.
Proof.
  intros base v s w Hb Hv H. induction H as [v|v c d s w Hc H IH]; [lia|].
  pose proof (clen_digit_range _ _ _ Hb Hc).
  assert (0 <= v * base + d) by nia. specialize (IH H1). nia.
Qed.

Lemma digits_val_fun : forall base v s w1 w2,
  digits_val base v s w1 -> digits_val base v s w2 -> w1 = w2.
Proof.
  intros base v s w1 w2 H. revert w2.
  induction H as [v|v c d s w Hc H IH]; intros w2 H2; inversion H2; subst; auto.
  apply IH. congruence.
Qed.

(** *** The loop *)

Definition stops (base : Z) (r : bytes) : Prop :=
  match r with [] => True | c :: _ => clen_digit base c = None end.

Lemma loop_run : forall base ds rest v w,
  (base = 10 \/ base = 16) ->
  digits_val base v ds w -> stops base rest -> 0 <= v <= CONTENT_LENGTH_MAX ->
  let r := strtoclen_loop base (CONTENT_LENGTH_MAX / base) (CONTENT_LENGTH_MAX mod base)
             (ds ++ rest) v in
  (w <= CONTENT_LENGTH_MAX -> r = (0, w, rest)) /\
  (CONTENT_LENGTH_MAX < w -> fst (fst r) = -1).
Proof.
  intros base ds rest v w Hb H Hr Hv.
  induction H as [v|v c d s w Hc H IH].
  - simpl. split; [|lia]. intros _.
    destruct rest as [|c rest]; simpl; [reflexivity|].
    simpl in Hr. rewrite Hr. reflexivity.
  - simpl. rewrite Hc.
    pose proof (clen_digit_range _ _ _ Hb Hc) as Hd.
    set (M := CONTENT_LENGTH_MAX) in *.
    assert (HM : M = 9223372036854775807) by reflexivity.
    destruct ((M / base <? v) || ((v =? M / base) && (M mod base <? d))) eqn:E.
    + assert (Hgt : M < v * base + d).
      { rewrite HM in *. destruct Hb; subst base; lia. }
      assert (0 <= v * base + d) by nia.
      pose proof (digits_val_ge _ _ _ _ Hb H0 H). simpl. split; [lia|reflexivity].
    + apply IH. rewrite HM in *. destruct Hb; subst base; lia.
Qed.

Lemma scan_exists : forall base s v,
  exists ds rest w, s = ds ++ rest /\ digits_val base v ds w /\ stops base rest.
Proof.
  intros base s. induction s as [|c s IH]; intros v.
  - exists [], [], v. repeat split; constructor.
  - destruct (clen_digit base c) as [d|] eqn:E.
    + destruct (IH (v * base + d)) as [ds [rest [w [H1 [H2 H3]]]]].
      exists (c :: ds), rest, w. subst s. repeat split; auto.
      econstructor; eassumption.
    + exists [], (c :: s), v. repeat split; [constructor|exact E].
Qed.

Lemma strtoclen_char : forall base s ds rest w,
  (base = 10 \/ base = 16) ->
  s = ds ++ rest -> digits_val base 0 ds w -> stops base rest ->
  (ds <> [] /\ w <= CONTENT_LENGTH_MAX -> strtoclen s base = (0, w, rest)) /\
  (ds = [] \/ CONTENT_LENGTH_MAX < w -> fst (fst (strtoclen s base)) = -1).
Proof.
  intros base s ds rest w Hb Hs Hv Hst.
  assert (HM : 0 <= 0 <= CONTENT_LENGTH_MAX) by (unfold CONTENT_LENGTH_MAX; lia).
  destruct (loop_run base ds rest 0 w Hb Hv Hst HM) as [L1 L2].
  pose proof (digits_val_ge _ _ _ _ Hb (Z.le_refl 0) Hv) as Hw.
  rewrite <- Hs in L1, L2. unfold strtoclen. split.
  - intros [Hne Hle]. rewrite (L1 Hle). simpl.
    assert (Hlen : Nat.eqb (length rest) (length s) = false).
    { apply Nat.eqb_neq. rewrite Hs, app_length.
      destruct ds; [congruence|simpl; lia]. }
    rewrite Hlen. destruct (w <? 0) eqn:E; [lia|reflexivity].
  - intros [He|Hgt].
    + subst ds. inversion Hv; subst.
      rewrite L1 by (unfold CONTENT_LENGTH_MAX; lia). simpl.
      rewrite Nat.eqb_refl. reflexivity.
    + specialize (L2 Hgt).
      destruct (strtoclen_loop _ _ _ _ _) as [[rc v] r]; simpl in *. subst rc.
      reflexivity.
Qed.

Lemma max_eq : max_length = CONTENT_LENGTH_MAX.
Proof. reflexivity. Qed.

(** *** Main lemmas *)

Lemma header_length_iff : forall s n,
  content_length_value s n <->
  (get_content_length s CL_HEADER = n /\ n <> NO_CONTENT_LENGTH).
Proof.
  intros s n. split.
  - intros [l [ds [r [Hs [Hl [Hr [Hnum Hmax]]]]]]].
    apply (numeral_digits_val decimal 10 ds n decimal_model) in Hnum.
    destruct Hnum as [Hne Hv].
    assert (Hge : 0 <= n) by (eapply (digits_val_ge 10); eauto; lia).
    split; [|unfold NO_CONTENT_LENGTH; lia].
    unfold get_content_length. simpl.
    assert (Htrim : trimwsl s = ds ++ r).
    { subst s. apply trimwsl_app; [exact Hl|].
      destruct ds as [|c ds]; [congruence|]. simpl.
      inversion Hv as [|v' c' d s' w' Hc H']; subst.
      eapply digit_not_ws; exact Hc. }
    rewrite Htrim.
    assert (Hst : stops 10 r).
    { destruct r as [|c r]; simpl; [exact I|].
      destruct (clen_digit 10 c) as [d|] eqn:E; [|reflexivity].
      inversion Hr; subst. exfalso. eapply digit_not_ws; eauto. }
    destruct (strtoclen_char 10 (ds ++ r) ds r n (or_introl eq_refl) eq_refl Hv Hst)
      as [K _].
    rewrite K by (rewrite <- max_eq; auto). simpl.
    rewrite (trimwsl_all r Hr). reflexivity.
  - intros [H Hn]. unfold get_content_length in H. simpl in H.
    destruct (trimwsl_split s) as [l [Hs Hl]].
    destruct (scan_exists 10 (trimwsl s) 0) as [ds [rest [w [Ht [Hv Hst]]]]].
    destruct (strtoclen_char 10 _ ds rest w (or_introl eq_refl) Ht Hv Hst) as [K1 K2].
    destruct (bytes_eq_dec ds []) as [He|He].
    { specialize (K2 (or_introl He)).
      destruct (strtoclen (trimwsl s) 10) as [[rc v] p]; simpl in *. subst rc.
      simpl in H. congruence. }
    destruct (Z_le_gt_dec w CONTENT_LENGTH_MAX) as [Hle|Hgt].
    2:{ assert (K2' : fst (fst (strtoclen (trimwsl s) 10)) = -1) by (apply K2; right; lia).
        destruct (strtoclen (trimwsl s) 10) as [[rc v] p]; simpl in *. subst rc.
        simpl in H. congruence. }
    rewrite (K1 (conj He Hle)) in H. simpl in H.
    destruct (trimwsl rest) as [|c r'] eqn:Er; [|congruence].
    subst w. exists l, ds, rest. repeat split.
    + rewrite <- Ht. exact Hs.
    + exact Hl.
    + destruct (trimwsl_split rest) as [l' [Hl1 Hl2]].
      rewrite Er, app_nil_r in Hl1. subst l'. exact Hl2.
    + apply (numeral_digits_val decimal 10 ds n decimal_model). auto.
    + rewrite max_eq. exact Hle.
Qed.

Lemma header_length_refused : forall s,
  get_content_length s CL_HEADER = NO_CONTENT_LENGTH <->
  (forall n, ~ content_length_value s n).
Proof.
  intros s. split.
  - intros H n Hn. apply header_length_iff in Hn. destruct Hn as [H1 H2]. congruence.
  - intros H. destruct (Z.eq_dec (get_content_length s CL_HEADER) NO_CONTENT_LENGTH) as [E|E];
      [exact E|].
    exfalso. eapply H. apply header_length_iff. split; [reflexivity|exact E].
Qed.

Lemma header_length_bounds : forall s n,
  get_content_length s CL_HEADER = n -> n <> NO_CONTENT_LENGTH -> 0 <= n <= max_length.
Proof.
  intros s n H Hn.
  assert (Hv : content_length_value s n) by (apply header_length_iff; auto).
  destruct Hv as [l [ds [r [Hs [Hl [Hr [Hnum Hmax]]]]]]].
  apply (numeral_digits_val decimal 10 ds n decimal_model) in Hnum.
  destruct Hnum as [_ Hv]. pose proof (digits_val_ge 10 0 ds n (or_introl eq_refl) (Z.le_refl 0) Hv).
  lia.
Qed.

Lemma chunk_length_iff : forall s n,
  chunk_size_line s n <->
  (get_content_length s CL_CHUNK = n /\ n <> NO_CONTENT_LENGTH).
Proof.
  intros s n. split.
  - intros [ds [b [e [Hs [Hb [He [Hnum Hmax]]]]]]].
    apply (numeral_digits_val hexadecimal 16 ds n hexadecimal_model) in Hnum.
    destruct Hnum as [Hne Hv].
    assert (Hge : 0 <= n) by (eapply (digits_val_ge 16); eauto; lia).
    split; [|unfold NO_CONTENT_LENGTH; lia].
    unfold get_content_length. cbn [cl_mode_is_header negb andb].
    assert (Hst : stops 16 (b ++ e)).
    { destruct b as [|c b]; simpl.
      - destruct He as [->|[e' ->]]; simpl; [exact I|].
        destruct (clen_digit 16 ";"%char) as [d|] eqn:E; [|reflexivity].
        exfalso. eapply digit_not_semicolon; exact E.
      - destruct (clen_digit 16 c) as [d|] eqn:E; [|reflexivity].
        inversion Hb; subst. exfalso. eapply digit_not_ws; eauto. }
    destruct (strtoclen_char 16 s ds (b ++ e) n (or_intror eq_refl) Hs Hv Hst) as [K _].
    rewrite K by (rewrite <- max_eq; auto). cbn [Z.eqb].
    rewrite trimwsl_app; [|exact Hb|].
    + destruct He as [->|[e' ->]]; [reflexivity|]. rewrite beq_refl. reflexivity.
    + destruct He as [->|[e' ->]]; [exact I|]. intros [E|E]; discriminate.
  - intros [H Hn]. unfold get_content_length in H. cbn [cl_mode_is_header negb andb] in H.
    destruct (scan_exists 16 s 0) as [ds [rest [w [Ht [Hv Hst]]]]].
    destruct (strtoclen_char 16 _ ds rest w (or_intror eq_refl) Ht Hv Hst) as [K1 K2].
    destruct (bytes_eq_dec ds []) as [He|He].
    { specialize (K2 (or_introl He)).
      destruct (strtoclen s 16) as [[rc v] p]; simpl in *. subst rc.
      simpl in H. congruence. }
    destruct (Z_le_gt_dec w CONTENT_LENGTH_MAX) as [Hle|Hgt].
    2:{ assert (K2' : fst (fst (strtoclen s 16)) = -1) by (apply K2; right; lia).
        destruct (strtoclen s 16) as [[rc v] p]; simpl in *. subst rc.
        simpl in H. congruence. }
    rewrite (K1 (conj He Hle)) in H. cbn [Z.eqb] in H.
    destruct (trimwsl_split rest) as [b [Hb1 Hb2]].
    assert (Hfin : (trimwsl rest = [] \/ exists e', trimwsl rest = ";"%char :: e') /\ w = n).
    { destruct (trimwsl rest) as [|c r'] eqn:Er; [auto|].
      destruct (beq c ";"%char) eqn:Ec; [|congruence].
      apply beq_eq in Ec. subst c. split; [right; eauto|exact H]. }
    destruct Hfin as [Hfin ->].
    exists ds, b, (trimwsl rest). repeat split.
    + rewrite <- Hb1. exact Ht.
    + exact Hb2.
    + exact Hfin.
    + apply (numeral_digits_val hexadecimal 16 ds n hexadecimal_model). auto.
    + rewrite max_eq. exact Hle.
Qed.

Lemma chunk_length_refused : forall s,
  get_content_length s CL_CHUNK = NO_CONTENT_LENGTH <->
  (forall n, ~ chunk_size_line s n).
Proof.
  intros s. split.
  - intros H n Hn. apply chunk_length_iff in Hn. destruct Hn as [H1 H2]. congruence.
  - intros H. destruct (Z.eq_dec (get_content_length s CL_CHUNK) NO_CONTENT_LENGTH) as [E|E];
      [exact E|].
    exfalso. eapply H. apply chunk_length_iff. split; [reflexivity|exact E].
Qed.

Lemma chunk_length_bounds : forall s n,
  get_content_length s CL_CHUNK = n -> n <> NO_CONTENT_LENGTH -> 0 <= n <= max_length.
Proof.
  intros s n H Hn.
  assert (Hv : chunk_size_line s n) by (apply chunk_length_iff; auto).
  destruct Hv as [l [ds [r [Hs [Hl [Hr [Hnum Hmax]]]]]]].
  apply (numeral_digits_val hexadecimal 16 l n hexadecimal_model) in Hnum.
  destruct Hnum as [_ Hv]. pose proof (digits_val_ge 16 0 l n (or_intror eq_refl) (Z.le_refl 0) Hv).
  lia.
Qed.

Lemma config_length_iff : forall s n,
  assign_content_length s = Some n <-> config_length s n.
Proof.
  intros s n. unfold assign_content_length, config_length.
  destruct (scan_exists 10 s 0) as [ds [rest [w [Ht [Hv Hst]]]]].
  destruct (strtoclen_char 10 _ ds rest w (or_introl eq_refl) Ht Hv Hst) as [K1 K2].
  rewrite (numeral_digits_val decimal 10 s n decimal_model), max_eq.
  split.
  - intros H.
    destruct (bytes_eq_dec ds []) as [He|He].
    { specialize (K2 (or_introl He)).
      destruct (strtoclen s 10) as [[rc v] p]; simpl in *. subst rc. discriminate. }
    destruct (Z_le_gt_dec w CONTENT_LENGTH_MAX) as [Hle|Hgt].
    2:{ assert (K2' : fst (fst (strtoclen s 10)) = -1) by (apply K2; right; lia).
        destruct (strtoclen s 10) as [[rc v] p]; simpl in *. subst rc. discriminate. }
    rewrite (K1 (conj He Hle)) in H. simpl in H.
    destruct rest; [|discriminate]. injection H as <-.
    rewrite app_nil_r in Ht. subst ds. auto.
  - intros [[Hne Hd] Hle].
    destruct (strtoclen_char 10 s s [] n (or_introl eq_refl)) as [K _]; auto.
    + now rewrite app_nil_r.
    + exact I.
    + rewrite K by auto. reflexivity.
Qed.
