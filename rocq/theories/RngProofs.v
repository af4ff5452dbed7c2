(** Proofs about TLS options, renegotiation and waits. *)
From Coq Require Import String List ZArith Bool Lia ZifyBool.
From Verif Require Import Bytes ClenSpec NumModel NumSpec NumProofs RngModel RngSpec.
Import ListNotations.
Local Open Scope list_scope.
Local Open Scope Z_scope.

(** * Options *)

Lemma to_int_range : forall z, -2147483648 <= to_int z < 2147483648.
Proof. intros z. unfold to_int. pose proof (Z.mod_pos_bound (z + 2 ^ 31) (2 ^ 32)). lia. Qed.
Lemma to_int_mod : forall z, to_int z mod 2 ^ 32 = z mod 2 ^ 32.
Proof.
  intros z. unfold to_int. rewrite (Z.mod_eq (z + 2 ^ 31)) by lia.
  replace (z + 2 ^ 31 - 2 ^ 32 * ((z + 2 ^ 31) / 2 ^ 32) - 2 ^ 31) with (z + (- ((z + 2 ^ 31) / 2 ^ 32)) * 2 ^ 32) by lia. apply Z.mod_add. lia.
Qed.
Lemma to_int_small : forall z, -2147483648 <= z < 2147483648 -> to_int z = z.
Proof. intros z H. unfold to_int. rewrite Z.mod_small; lia. Qed.
Lemma to_int_low : forall z i, 0 <= i < 32 -> Z.testbit (to_int z) i = Z.testbit z i.
Proof.
  intros z i H. rewrite <- (Z.mod_pow2_bits_low (to_int z) 32 i) by lia. rewrite to_int_mod. apply Z.mod_pow2_bits_low. lia.
Qed.
Lemma int_high : forall t i, -2147483648 <= t < 2147483648 -> 31 <= i -> Z.testbit t i = (t <? 0).
Proof.
  intros t i H J. destruct (t <? 0) eqn:E.
  - apply Z.bits_above_log2_neg; [lia|]. apply Z.lt_le_trans with 31; [|exact J].
    destruct (Z.eq_dec (Z.pred (- t)) 0) as [->|N]; [cbn; lia|]. apply Z.log2_lt_pow2; lia.
  - destruct (Z.eq_dec t 0) as [->|N]; [apply Z.bits_0|]. apply Z.bits_above_log2; [lia|].
    apply Z.lt_le_trans with 31; [|exact J]. apply Z.log2_lt_pow2; lia.
Qed.

(** The bits of the context *)
Lemma options_bit : forall width o l i, 0 <= i < width -> Z.testbit (ctx_options width o l) i = (Z.testbit o i || Z.testbit (l_enable l) i) && negb (Z.testbit (l_disable l) i).
Proof.
  intros width o l i H. unfold ctx_options, clear_options, set_options. rewrite Z.ldiff_spec, Z.lor_spec. rewrite !Z.mod_pow2_bits_low by lia. reflexivity.
Qed.

Definition known (op_all : Z) (l : listener) (m : Z) (h : option bool) : Prop :=
  l_reneg l = m /\
  (m = 2 -> Z.testbit (l_enable l) 18 = true) /\
  (forall i, 0 <= i -> i <> 18 -> Z.testbit (l_enable l) i =
     if i =? 22 then match h with Some b => b | None => Z.testbit (l_enable (start op_all)) 22 end else Z.testbit (l_enable (start op_all)) i) /\
  (forall i, 0 <= i -> Z.testbit (l_disable l) i =
     if i =? 18 then negb (m =? 2) else if i =? 22 then match h with Some b => negb b | None => false end
     else Z.testbit (l_disable (start op_all)) i).

Lemma parse_app : forall ds ds' l, parse (ds ++ ds') l = match parse ds l with Some l => parse ds' l | None => None end.
Proof. induction ds as [|d ds IH]; intros ds' l; [reflexivity|]. cbn [app parse]. destruct (parse_directive d l); [apply IH|reflexivity]. Qed.

Lemma known_start : forall op_all, known op_all (start op_all) 0 None.
Proof.
  intros op_all. split; [reflexivity|]. split; [discriminate|]. split.
  - intros i H N. destruct (i =? 22) eqn:E; [apply Z.eqb_eq in E; subst i|]; reflexivity.
  - intros i H. destruct (i =? 18) eqn:E; [apply Z.eqb_eq in E; subst i; reflexivity|]. destruct (i =? 22) eqn:F; [apply Z.eqb_eq in F; subst i; reflexivity|reflexivity].
Qed.

Lemma pow2_bit : forall k i, 0 <= k -> Z.testbit (2 ^ k) i = (k =? i).
Proof. intros k i H. apply Z.pow2_bits_eqb. exact H. Qed.

Lemma known_set : forall op_all l m h, known op_all l m h -> known op_all (set_bit CIPHER_SERVER_PREFERENCE l) m (Some true).
Proof.
  intros op_all l m h (A & B & C & D). unfold set_bit, CIPHER_SERVER_PREFERENCE. split; [exact A|]. cbn [l_enable l_disable l_reneg]. split; [|split].
  - intros E. rewrite Z.lor_spec, (B E). reflexivity.
  - intros i H N. rewrite Z.lor_spec, (C i H N), pow2_bit by lia. destruct (i =? 22) eqn:E; [apply Z.eqb_eq in E; subst i; apply orb_true_r|]. replace (22 =? i) with false by lia. apply orb_false_r.
  - intros i H. rewrite Z.ldiff_spec, (D i H), pow2_bit by lia. destruct (i =? 18) eqn:E; [apply Z.eqb_eq in E; subst i; apply andb_true_r|].
    destruct (i =? 22) eqn:F; [apply Z.eqb_eq in F; subst i; cbn [negb]; apply andb_false_r|]. replace (22 =? i) with false by lia. apply andb_true_r.
Qed.
Lemma known_clear : forall op_all l m h, known op_all l m h -> known op_all (clear_bit CIPHER_SERVER_PREFERENCE l) m (Some false).
Proof.
  intros op_all l m h (A & B & C & D). unfold clear_bit, CIPHER_SERVER_PREFERENCE. split; [exact A|]. cbn [l_enable l_disable l_reneg]. split; [|split].
  - intros E. rewrite Z.ldiff_spec, (B E). reflexivity.
  - intros i H N. rewrite Z.ldiff_spec, (C i H N), pow2_bit by lia. destruct (i =? 22) eqn:E; [apply Z.eqb_eq in E; subst i; apply andb_false_r|]. replace (22 =? i) with false by lia. apply andb_true_r.
  - intros i H. rewrite Z.lor_spec, (D i H), pow2_bit by lia. destruct (i =? 18) eqn:E; [apply Z.eqb_eq in E; subst i; apply orb_false_r|].
    destruct (i =? 22) eqn:F; [apply Z.eqb_eq in F; subst i; cbn [negb]; apply orb_true_r|]. replace (22 =? i) with false by lia. apply orb_false_r.
Qed.
Lemma known_mode : forall op_all l m h n, known op_all l m h ->
  known op_all (let l := mkL n (l_enable l) (l_disable l) in if n =? 2 then set_bit UNSAFE_LEGACY l else clear_bit UNSAFE_LEGACY l) n h.
Proof.
  intros op_all l m h n (A & B & C & D). cbn zeta. unfold set_bit, clear_bit, UNSAFE_LEGACY. destruct (n =? 2) eqn:T; (split; [reflexivity|]); cbn [l_enable l_disable l_reneg]; (split; [|split]).
  - intros _. rewrite Z.lor_spec, pow2_bit by lia. apply orb_true_r.
  - intros i H N. rewrite Z.lor_spec, (C i H N), pow2_bit by lia. replace (18 =? i) with false by lia. apply orb_false_r.
  - intros i H. rewrite Z.ldiff_spec, (D i H), pow2_bit by lia. destruct (i =? 18) eqn:E; [apply Z.eqb_eq in E; subst i; rewrite T; apply andb_false_r|].
    replace (18 =? i) with false by lia. apply andb_true_r.
  - lia.
  - intros i H N. rewrite Z.ldiff_spec, (C i H N), pow2_bit by lia. replace (18 =? i) with false by lia. apply andb_true_r.
  - intros i H. rewrite Z.lor_spec, (D i H), pow2_bit by lia. destruct (i =? 18) eqn:E; [apply Z.eqb_eq in E; subst i; rewrite T; apply orb_true_r|].
    replace (18 =? i) with false by lia. apply orb_false_r.
Qed.

Lemma numeral_token : forall w n, numeral decimal 10 w n -> number_token w.
Proof. intros w n H. apply numeral_value in H as (N & V & _); [|apply num_digit_decimal]. apply number_token_digits. split; assumption. Qed.
Lemma numeral_nonneg : forall w n, numeral decimal 10 w n -> 0 <= n.
Proof.
  intros w n H. pose proof (token_nonneg w (numeral_token w n H)) as P. apply numeral_value in H as (_ & _ & ->); [exact P|apply num_digit_decimal].
Qed.

Lemma said_known : forall op_all ds m h, says ds m h -> exists l, parse ds (start op_all) = Some l /\ known op_all l m h.
Proof.
  intros op_all ds m h H. induction H as [|ds m h w n _ (l & P & K) W N|ds m h w _ (l & P & K) W|ds m h w _ (l & P & K) W].
  - exists (start op_all). split; [reflexivity|apply known_start].
  - rewrite parse_app, P. cbn [parse parse_directive]. assert (R : cfg_assign_int_range w 0 2 = Some n).
    { apply range_iff; [exact (numeral_token w n W)|]. pose proof (numeral_nonneg w n W). repeat split; try assumption; lia. }
    rewrite R. eexists. split; [reflexivity|]. apply (known_mode op_all l m h n K).
  - rewrite parse_app, P. cbn [parse parse_directive]. assert (R : cfg_assign_bool w = Some true) by (apply bool_iff; left; split; [reflexivity|exact W]).
    rewrite R. eexists. split; [reflexivity|]. apply (known_set op_all l m h K).
  - rewrite parse_app, P. cbn [parse parse_directive]. assert (R : cfg_assign_bool w = Some false) by (apply bool_iff; right; split; [reflexivity|exact W]).
    rewrite R. eexists. split; [reflexivity|]. apply (known_clear op_all l m h K).
Qed.

Lemma start_enable : forall op_all i, 0 <= i < 32 -> Z.testbit (l_enable (start op_all)) i = (i =? 17) || Z.testbit op_all i.
Proof.
  intros op_all i H. cbn [start l_enable]. rewrite to_int_low, Z.lor_spec, to_int_low by lia. unfold NO_COMPRESSION. rewrite pow2_bit by lia.
  rewrite (Z.eqb_sym 17 i). apply orb_comm.
Qed.
Lemma start_disable : forall op_all i, 0 <= i -> Z.testbit (l_disable (start op_all)) i = (i =? 18) || (i =? 2) || (i =? 11).
Proof.
  intros op_all i H. cbn [start l_disable]. rewrite !Z.lor_spec. unfold UNSAFE_LEGACY, LEGACY_SERVER_CONNECT, DONT_INSERT_EMPTY. rewrite !pow2_bit by lia.
  rewrite (Z.eqb_sym 18 i), (Z.eqb_sym 2 i), (Z.eqb_sym 11 i). destruct (i =? 18), (i =? 2), (i =? 11); reflexivity.
Qed.

Lemma options_said : forall op_all ds m h, says ds m h -> exists l, parse ds (start op_all) = Some l /\ l_reneg l = m /\
  forall width o, 32 <= width ->
    Z.testbit (ctx_options width o l) legacy_bit = (m =? 2) /\
    Z.testbit (ctx_options width o l) order_bit = match h with Some b => b | None => Z.testbit o order_bit || Z.testbit op_all order_bit end /\
    Z.testbit (ctx_options width o l) compression_bit = true /\
    Z.testbit (ctx_options width o l) 2 = false /\ Z.testbit (ctx_options width o l) 11 = false /\
    (forall i, 0 <= i < 32 -> ~ In i named_bits -> Z.testbit (ctx_options width o l) i = Z.testbit o i || Z.testbit op_all i).
Proof.
  intros op_all ds m h H. destruct (said_known op_all ds m h H) as (l & P & A & B & C & D). exists l. split; [exact P|]. split; [exact A|]. intros width o W.
  unfold legacy_bit, order_bit, compression_bit. split; [|split; [|split; [|split; [|split]]]].
  - rewrite options_bit, (D 18) by lia. cbn [Z.eqb Pos.eqb]. rewrite negb_involutive. destruct (m =? 2) eqn:E; [|apply andb_false_r].
    rewrite B by lia. rewrite orb_true_r. reflexivity.
  - rewrite options_bit, (D 22), (C 22), start_enable by lia. cbn [Z.eqb Pos.eqb orb]. destruct h as [b|]; [rewrite negb_involutive; destruct b; [apply andb_true_iff; split; [apply orb_true_r|reflexivity]|apply andb_false_r]|apply andb_true_r].
  - rewrite options_bit, (D 17), (C 17) by lia. cbn [Z.eqb Pos.eqb]. rewrite start_enable, start_disable by lia. destruct (Z.testbit o 17); reflexivity.
  - rewrite options_bit, (D 2), start_disable by lia. cbn [Z.eqb Pos.eqb orb negb]. apply andb_false_r.
  - rewrite options_bit, (D 11), start_disable by lia. cbn [Z.eqb Pos.eqb orb negb]. apply andb_false_r.
  - intros i I N. unfold named_bits, legacy_bit, order_bit, compression_bit in N. cbn [In] in N. rewrite options_bit, (D i), (C i) by lia.
    replace (i =? 18) with false by lia. replace (i =? 22) with false by lia. rewrite start_enable, start_disable by lia. replace (i =? 18) with false by lia. replace (i =? 17) with false by lia. replace (i =? 2) with false by lia. replace (i =? 11) with false by lia.
    cbn [orb negb]. apply andb_true_r.
Qed.

Lemma options_accepted : forall op_all ds l, Forall (fun d => match d with AllowClientRenegotiation w => number_token w | HonorCipherOrder _ => True end) ds ->
  parse ds (start op_all) = Some l -> exists m h, says ds m h.
Proof.
  intros op_all ds. induction ds as [|d ds IH] using rev_ind; intros l T P; [exists 0, None; constructor|].
  apply Forall_app in T as [T1 T2]. rewrite parse_app in P. destruct (parse ds (start op_all)) as [l0|] eqn:Q; [|discriminate].
  destruct (IH l0 T1 eq_refl) as (m & h & H). cbn [parse] in P. destruct d as [w|w]; cbn [parse_directive] in P.
  - destruct (cfg_assign_bool w) as [b|] eqn:B; [|discriminate]. apply bool_iff in B as [[-> B]|[-> B]]; eexists _, _; [eapply says_yes; eassumption|eapply says_no; eassumption].
  - destruct (cfg_assign_int_range w 0 2) as [n|] eqn:B; [|discriminate]. apply range_iff in B as (B & _ & _ & U); [|inversion T2; assumption].
    exists n, h. eapply says_mode; [exact H|exact B|lia].
Qed.

(** The sign of the int is carried over *)
Lemma options_high : forall op_all ds m h l o i, says ds m h -> parse ds (start op_all) = Some l -> Z.testbit op_all 31 = true -> 32 <= i < 64 ->
  Z.testbit (ctx_options 64 o l) i = true.
Proof.
  intros op_all ds m h l o i H P T I. destruct (said_known op_all ds m h H) as (l' & P' & _ & _ & C & D). rewrite P in P'. injection P' as <-.
  rewrite options_bit, (D i), (C i) by lia. replace (i =? 18) with false by lia. replace (i =? 22) with false by lia. rewrite start_disable by lia. replace (i =? 18) with false by lia. replace (i =? 2) with false by lia. replace (i =? 11) with false by lia.
  cbn [orb negb]. rewrite andb_true_r. cbn [start l_enable]. rewrite (int_high (to_int (Z.lor (to_int op_all) NO_COMPRESSION)) i); [|apply to_int_range|lia].
  rewrite <- (int_high (to_int (Z.lor (to_int op_all) NO_COMPRESSION)) 31) by (try apply to_int_range; lia). rewrite to_int_low, Z.lor_spec, to_int_low, T by lia. apply orb_true_r.
Qed.

(** * Renegotiation *)

Lemma done_land : forall w, done w <-> Z.land w CB_HANDSHAKE_DONE <> 0.
Proof.
  intros w. unfold done, CB_HANDSHAKE_DONE. change 0x20 with (2 ^ 5). split.
  - intros H E. assert (X : Z.testbit (Z.land w (2 ^ 5)) 5 = true) by (rewrite Z.land_spec, H; reflexivity). rewrite E in X. discriminate X.
  - intros H. destruct (Z.testbit w 5) eqn:T; [reflexivity|]. exfalso. apply H. apply Z.bits_inj'. intros i I. rewrite Z.land_spec, Z.bits_0, pow2_bit by lia.
    destruct (5 =? i) eqn:E; [apply Z.eqb_eq in E; subst i; rewrite T; reflexivity|apply andb_false_r].
Qed.
Lemma serving_land : forall w, serving w <-> Z.land w CB_ACCEPT_LOOP <> 0.
Proof.
  intros w. unfold serving, CB_ACCEPT_LOOP. change 0x2001 with (Z.lor (2 ^ 0) (2 ^ 13)). split.
  - intros H E. assert (X : Z.testbit (Z.land w (Z.lor (2 ^ 0) (2 ^ 13))) 0 || Z.testbit (Z.land w (Z.lor (2 ^ 0) (2 ^ 13))) 13 = true).
    { rewrite !Z.land_spec. destruct H as [-> | ->]; [reflexivity|]. apply orb_true_r. }
    rewrite E in X. discriminate X.
  - intros H. destruct (Z.testbit w 0) eqn:T; [left; reflexivity|]. destruct (Z.testbit w 13) eqn:U; [right; reflexivity|]. exfalso. apply H.
    apply Z.bits_inj'. intros i I. rewrite Z.land_spec, Z.lor_spec, Z.bits_0, !pow2_bit by lia.
    destruct (0 =? i) eqn:E; [apply Z.eqb_eq in E; subst i; rewrite T; reflexivity|]. destruct (13 =? i) eqn:F; [apply Z.eqb_eq in F; subst i; rewrite U; reflexivity|apply andb_false_r].
Qed.
Lemma hello_eqb : forall s, hello s <-> (s =? CLNT_HELLO_3) || (s =? CLNT_HELLO_23) = true.
Proof. intros s. unfold hello, CLNT_HELLO_3, CLNT_HELLO_23. change (Z.lor 0x110 0x2000) with 0x2110. change (Z.lor 0x210 0x2000) with 0x2210. lia. Qed.

Lemma info_reject : forall w s, serving w -> hello s -> SSLINFO_callback w s REJECT = ABORT.
Proof.
  intros w s W H. unfold SSLINFO_callback. apply serving_land in W. apply Z.eqb_neq in W. rewrite W. cbn [negb reneg_eqb andb]. apply hello_eqb in H. rewrite H. reflexivity.
Qed.
Lemma info_stay : forall w s, ~ (serving w /\ hello s) -> SSLINFO_callback w s REJECT = REJECT.
Proof.
  intros w s N. unfold SSLINFO_callback. cbn [reneg_eqb]. rewrite andb_true_r, andb_false_r. destruct (Z.land w CB_ACCEPT_LOOP =? 0) eqn:E; [reflexivity|]. cbn [negb].
  destruct ((s =? CLNT_HELLO_3) || (s =? CLNT_HELLO_23)) eqn:F; [|reflexivity]. exfalso. apply N. split; [apply serving_land; lia|apply hello_eqb; exact F].
Qed.
Lemma info_init : forall w s, SSLINFO_callback w s INIT = if negb (Z.land w CB_HANDSHAKE_DONE =? 0) then REJECT else INIT.
Proof. intros w s. unfold SSLINFO_callback. cbn [reneg_eqb]. rewrite andb_false_r, andb_true_r. reflexivity. Qed.
Lemma info_other : forall w s r, r = ALLOW \/ r = ABORT -> SSLINFO_callback w s r = r.
Proof. intros w s r [-> | ->]; unfold SSLINFO_callback; cbn [reneg_eqb]; rewrite !andb_false_r; reflexivity. Qed.

Lemma run_app : forall es es' k, run (es ++ es') k = let '(k1, xs) := run es k in let '(k2, ys) := run es' k1 in (k2, xs ++ ys).
Proof.
  induction es as [|e es IH]; intros es' k; [cbn [app run]; destruct (run es' k); reflexivity|]. cbn [app run]. destruct (step e k) as [k1 x]. rewrite IH.
  destruct (run es k1) as [k2 xs]. destruct (run es' k2) as [k3 ys]. reflexivity.
Qed.
Lemma after_app : forall es es' k, after (es ++ es') k = after es' (after es k).
Proof. intros es es' k. unfold after. rewrite run_app. destruct (run es k) as [k1 xs]. cbn [fst]. destruct (run es' k1). reflexivity. Qed.
Lemma after_cons : forall e es k, after (e :: es) k = after es (fst (step e k)).
Proof. intros e es k. unfold after. cbn [run]. destruct (step e k) as [k1 x]. cbn [fst]. destruct (run es k1). reflexivity. Qed.
Lemma results_cons : forall e es k, results (e :: es) k = (e, snd (step e k)) :: results es (fst (step e k)).
Proof. intros e es k. unfold results. cbn [run]. destruct (step e k) as [k1 x]. cbn [fst snd]. destruct (run es k1). reflexivity. Qed.

(** The state moves with Info only *)
Lemma step_reneg : forall e k, c_reneg (fst (step e k)) = match e with Info w s => SSLINFO_callback w s (c_reneg k) | _ => c_reneg k end.
Proof.
  intros e k. destruct e as [w s|to|c ps|c ps]; cbn [step]; try reflexivity; [destruct (c_client k) as [t|]|destruct (c_backend k) as [t|]]; try reflexivity; destruct (bio_callback c t (c_reneg k) ps) as [[x t'] n]; reflexivity.
Qed.

Lemma late_states : forall es k, c_reneg k = REJECT \/ c_reneg k = ABORT -> c_reneg (after es k) = REJECT \/ c_reneg (after es k) = ABORT.
Proof.
  induction es as [|e es IH]; intros k H; [exact H|]. rewrite after_cons. apply IH. rewrite step_reneg. destruct e as [w s| | |]; try exact H.
  destruct H as [-> | ->]; [|right; apply info_other; right; reflexivity]. unfold SSLINFO_callback. destruct (_ && _); [destruct (_ || _)|rewrite andb_false_r]; tauto.
Qed.
Lemma early_states : forall es k, c_reneg k <> ALLOW -> c_reneg (after es k) <> ALLOW.
Proof.
  induction es as [|e es IH]; intros k H; [exact H|]. rewrite after_cons. apply IH. rewrite step_reneg. destruct e as [w s| | |]; try exact H.
  unfold SSLINFO_callback. destruct (_ && _); [destruct (_ || _)|destruct (_ && _)]; congruence.
Qed.
Lemma abort_stays : forall es k, c_reneg k = ABORT -> c_reneg (after es k) = ABORT.
Proof.
  induction es as [|e es IH]; intros k H; [exact H|]. rewrite after_cons. apply IH. rewrite step_reneg. destruct e as [w s| | |]; try exact H. rewrite H. apply info_other. right. reflexivity.
Qed.

Lemma second_aborts : forall es1 w s es2 w' s' k, c_reneg k <> ALLOW -> done w -> serving w' -> hello s' ->
  c_reneg (after (es1 ++ Info w s :: es2 ++ [Info w' s']) k) = ABORT.
Proof.
  intros es1 w s es2 w' s' k K D W H. rewrite after_app, after_cons, after_app, after_cons. unfold after at 1. cbn [run fst]. rewrite step_reneg.
  set (k1 := after es1 k). assert (E1 : c_reneg k1 <> ALLOW) by (apply early_states; exact K).
  assert (E2 : c_reneg (fst (step (Info w s) k1)) = REJECT \/ c_reneg (fst (step (Info w s) k1)) = ABORT).
  { rewrite step_reneg. destruct (c_reneg k1) eqn:R.
    - rewrite info_init. apply done_land in D. apply Z.eqb_neq in D. rewrite D. left. reflexivity.
    - unfold SSLINFO_callback. destruct (_ && _); [destruct (_ || _)|rewrite andb_false_r]; tauto.
    - congruence.
    - right. apply info_other. right. reflexivity. }
  apply (late_states es2) in E2 as [E2|E2]; rewrite E2; [apply info_reject; assumption|apply info_other; right; reflexivity].
Qed.

(** Timeouts of the client's BIO: the one of the listener, or -1 *)
Lemma wait_timeout : forall c t ps, let '(x, t', n) := wait c t ps in t' = t \/ (t' = -1 /\ x = Zero).
Proof.
  intros c t ps. induction ps as [|[p ms] ps IH]; [left; reflexivity|]. cbn [wait]. destruct p as [ev| |[|]]; [destruct c; left; reflexivity|right; split; reflexivity| |left; reflexivity].
  destruct (wait c t ps) as [[x t'] n]. exact IH.
Qed.
Lemma callback_timeout : forall c t r ps, let '(x, t', n) := bio_callback c t r ps in t' = t \/ (t' = -1 /\ x = Zero).
Proof.
  intros c t r ps. unfold bio_callback. destruct c; try (left; reflexivity); destruct (_ || _); try (left; reflexivity); destruct (t * 1000 <? 0); try (left; reflexivity);
    destruct (reneg_eqb r ABORT); try (left; reflexivity); destruct (t * 1000 =? 0); try (left; reflexivity); apply wait_timeout.
Qed.
Lemma client_timeout : forall es k t, c_client k = Some t -> c_client (after es k) = Some t \/ c_client (after es k) = Some (-1).
Proof.
  induction es as [|e es IH]; intros k t H; [left; exact H|]. rewrite after_cons.
  assert (X : c_client (fst (step e k)) = Some t \/ c_client (fst (step e k)) = Some (-1)).
  { destruct e as [w s|to|c ps|c ps]; cbn [step]; try (left; exact H).
    - rewrite H. pose proof (callback_timeout c t (c_reneg k) ps) as C. destruct (bio_callback c t (c_reneg k) ps) as [[x t'] n]. cbn [fst c_client]. destruct C as [-> |[-> _]]; [left|right]; reflexivity.
    - destruct (c_backend k) as [u|]; [|left; exact H]. destruct (bio_callback c u (c_reneg k) ps) as [[x t'] n]. left. exact H. }
  destruct X as [X|X]; [exact (IH _ _ X)|]. destruct (IH _ _ X) as [Y|Y]; right; exact Y.
Qed.

Lemma callback_aborted : forall c t ps, transfer c -> -1 <= t <= longest ->
  bio_callback c t ABORT ps = (Minus1 (if t <? 0 then ETIMEDOUT else ECONNABORTED), t, 0).
Proof.
  intros c t ps T L. unfold longest in L. unfold bio_callback, INT_MIN, INT_MAX. destruct c; try (exfalso; apply T; reflexivity);
    (replace ((t * 1000 <? -2147483648) || (2147483647 <? t * 1000)) with false by lia; replace (t * 1000 <? 0) with (t <? 0) by lia; cbn [reneg_eqb]; destruct (t <? 0); reflexivity).
Qed.

Lemma in_results : forall es k e x, In (e, x) (results es k) -> exists es1 es2, es = es1 ++ e :: es2 /\ x = snd (step e (after es1 k)).
Proof.
  induction es as [|a es IH]; intros k e x H; [destruct H|]. rewrite results_cons in H. destruct H as [H|H].
  - injection H as -> <-. exists [], es. split; reflexivity.
  - destruct (IH _ _ _ H) as (es1 & es2 & -> & ->). exists (a :: es1), es2. split; [reflexivity|]. rewrite after_cons. reflexivity.
Qed.

Lemma aborted_client : forall es k t c ps x, c_reneg k = ABORT -> c_client k = Some t -> -1 <= t <= longest -> transfer c ->
  In (Client_op c ps, x) (results es k) -> x = Some (Minus1 ECONNABORTED, 0) \/ x = Some (Minus1 ETIMEDOUT, 0).
Proof.
  intros es k t c ps x A K L T H. apply in_results in H as (es1 & es2 & -> & ->). cbn [step].
  pose proof (abort_stays es1 k A) as R. rewrite R. destruct (client_timeout es1 k t K) as [E|E]; rewrite E; rewrite callback_aborted by (try exact T; unfold longest in *; lia); cbn [snd].
  - destruct (t <? 0); tauto.
  - right. reflexivity.
Qed.

Lemma client_start : forall allow to, 0 <= to <= longest -> c_client (accept allow to) = Some to.
Proof. intros allow to L. unfold longest in L. cbn [accept c_client]. unfold set_callback. rewrite to_int_small by lia. reflexivity. Qed.

Lemma renegotiation_refused : forall to es1 w s es2 w' s' es3 c ps x, 0 <= to <= longest -> done w -> serving w' -> hello s' -> transfer c ->
  In (Client_op c ps, x) (results es3 (after (es1 ++ Info w s :: es2 ++ [Info w' s']) (accept 0 to))) ->
  x = Some (Minus1 ECONNABORTED, 0) \/ x = Some (Minus1 ETIMEDOUT, 0).
Proof.
  intros to es1 w s es2 w' s' es3 c ps x L D W H T I. unfold longest in L.
  assert (A : c_reneg (after (es1 ++ Info w s :: es2 ++ [Info w' s']) (accept 0 to)) = ABORT) by (apply second_aborts; [discriminate|assumption..]).
  destruct (client_timeout (es1 ++ Info w s :: es2 ++ [Info w' s']) (accept 0 to) to) as [E|E]; [apply client_start; unfold longest; lia| |];
    eapply aborted_client; try eassumption; unfold longest; lia.
Qed.

Lemma backend_timeout : forall es k, Forall bounded es -> (exists t, c_backend k = Some t /\ -1 <= t <= longest) -> exists t, c_backend (after es k) = Some t /\ -1 <= t <= longest.
Proof.
  induction es as [|e es IH]; intros k B H; [exact H|]. rewrite after_cons. apply IH; [inversion B; assumption|]. destruct H as (t & H & L).
  assert (X : bounded e) by (inversion B; assumption). destruct e as [w s|to|c ps|c ps]; cbn [step].
  - exists t. split; assumption.
  - cbn [bounded] in X. unfold longest in *. cbn [fst c_backend]. replace (0 <? to) with true by lia. unfold set_callback. rewrite to_int_small by lia. exists to. split; [reflexivity|lia].
  - destruct (c_client k) as [u|]; [destruct (bio_callback c u (c_reneg k) ps) as [[x t'] n]|]; exists t; split; assumption.
  - rewrite H. pose proof (callback_timeout c t (c_reneg k) ps) as C. destruct (bio_callback c t (c_reneg k) ps) as [[x t'] n]. cbn [fst c_backend]. exists t'. split; [reflexivity|].
    unfold longest in *. lia.
Qed.

Lemma renegotiation_refused_backend : forall to es1 w s es2 w' s' t es3 c ps x, done w -> serving w' -> hello s' -> transfer c -> Forall bounded (Backend t :: es3) ->
  In (Backend_op c ps, x) (results (Backend t :: es3) (after (es1 ++ Info w s :: es2 ++ [Info w' s']) (accept 0 to))) ->
  x = Some (Minus1 ECONNABORTED, 0) \/ x = Some (Minus1 ETIMEDOUT, 0).
Proof.
  intros to es1 w s es2 w' s' t es3 c ps x D W H T B I.
  set (k := after (es1 ++ Info w s :: es2 ++ [Info w' s']) (accept 0 to)) in *.
  assert (A : c_reneg k = ABORT) by (apply second_aborts; [discriminate|assumption..]).
  rewrite results_cons in I. destruct I as [I|I]; [discriminate|]. apply in_results in I as (es4 & es5 & E & ->).
  set (k1 := fst (step (Backend t) k)) in *. cbn [step].
  assert (R : c_reneg (after es4 k1) = ABORT) by (apply abort_stays; unfold k1; rewrite step_reneg; exact A). rewrite R.
  assert (B1 : bounded (Backend t)) by (inversion B; assumption). assert (B2 : Forall bounded es4) by (assert (B3 : Forall bounded es3) by (inversion B; assumption); rewrite E in B3; apply Forall_app in B3 as [B3 _]; exact B3).
  destruct (backend_timeout es4 k1 B2) as (u & U & L).
  { unfold k1. cbn [step fst c_backend]. cbn [bounded] in B1. unfold longest in *. replace (0 <? t) with true by lia. unfold set_callback. rewrite to_int_small by lia. exists t. split; [reflexivity|lia]. }
  rewrite U. rewrite callback_aborted by assumption. cbn [snd]. destruct (u <? 0); tauto.
Qed.

(** * No second handshake *)
Definition alike (k k' : conn) : Prop := c_client k = c_client k' /\ c_backend k = c_backend k'.

Lemma callback_alike : forall c t r r' ps, r <> ABORT -> r' <> ABORT -> bio_callback c t r ps = bio_callback c t r' ps.
Proof. intros c t r r' ps N N'. unfold bio_callback. replace (reneg_eqb r ABORT) with false by (destruct r; try reflexivity; congruence). replace (reneg_eqb r' ABORT) with false by (destruct r'; try reflexivity; congruence). reflexivity. Qed.
Lemma step_alike : forall e k k', alike k k' -> c_reneg k <> ABORT -> c_reneg k' <> ABORT -> snd (step e k) = snd (step e k') /\ alike (fst (step e k)) (fst (step e k')).
Proof.
  intros e k k' [A B] N N'. destruct e as [w s|to|c ps|c ps]; cbn [step].
  - split; [reflexivity|]. split; assumption.
  - split; [reflexivity|]. split; [exact A|reflexivity].
  - rewrite <- A. destruct (c_client k) as [t|] eqn:E; [|split; [reflexivity|split; [cbn [fst]; congruence|exact B]]]. rewrite (callback_alike c t _ _ ps N N'). destruct (bio_callback c t (c_reneg k') ps) as [[x t'] n].
    split; [reflexivity|]. split; [reflexivity|exact B].
  - rewrite <- B. destruct (c_backend k) as [t|] eqn:E; [|split; [reflexivity|split; [exact A|cbn [fst]; congruence]]]. rewrite (callback_alike c t _ _ ps N N'). destruct (bio_callback c t (c_reneg k') ps) as [[x t'] n].
    split; [reflexivity|]. split; [exact A|reflexivity].
Qed.

Definition quiet (es : list event) : Prop := forall w s, In (Info w s) es -> ~ (serving w /\ hello s).
Lemma same_results : forall es k k', alike k k' -> c_reneg k = REJECT -> c_reneg k' = ALLOW -> quiet es -> results es k = results es k'.
Proof.
  induction es as [|e es IH]; intros k k' A R R' Q; [reflexivity|]. rewrite !results_cons. destruct (step_alike e k k' A) as [X Y]; [congruence|congruence|]. rewrite X. f_equal. apply IH.
  - exact Y.
  - rewrite step_reneg. destruct e as [w s| | |]; try exact R. rewrite R. apply info_stay. apply Q. left. reflexivity.
  - rewrite step_reneg. destruct e as [w s| | |]; try exact R'. rewrite R'. apply info_other. left. reflexivity.
  - intros w s I. apply Q. right. exact I.
Qed.
Lemma same_results_init : forall es k k', alike k k' -> c_reneg k = INIT -> c_reneg k' = ALLOW -> ~ again es -> results es k = results es k'.
Proof.
  induction es as [|e es IH]; intros k k' A R R' Q; [reflexivity|]. rewrite !results_cons. destruct (step_alike e k k' A) as [X Y]; [congruence|congruence|]. rewrite X. f_equal.
  assert (R1 : c_reneg (fst (step e k')) = ALLOW) by (rewrite step_reneg; destruct e as [w s| | |]; try exact R'; rewrite R'; apply info_other; left; reflexivity).
  assert (D : (exists w s, e = Info w s /\ done w) \/ c_reneg (fst (step e k)) = INIT).
  { rewrite step_reneg. destruct e as [w s| | |]; try (right; exact R). rewrite R, info_init. destruct (Z.land w CB_HANDSHAKE_DONE =? 0) eqn:E; [right; reflexivity|]. left. exists w, s. split; [reflexivity|]. apply done_land. lia. }
  destruct D as [(w & s & -> & D)|D].
  - apply same_results; try assumption.
    + rewrite step_reneg, R, info_init. apply done_land, Z.eqb_neq in D. rewrite D. reflexivity.
    + intros w' s' I [W H]. apply Q. apply in_split in I as (es2 & es3 & ->). exists [], w, s, es2, w', s', es3. repeat split; assumption.
  - apply IH; try assumption. intros (es1 & w & s & es2 & w' & s' & es3 & -> & H). apply Q. exists (e :: es1), w, s, es2, w', s', es3. split; [reflexivity|exact H].
Qed.

Lemma one_handshake : forall es to, ~ again es -> results es (accept 0 to) = results es (accept 1 to).
Proof. intros es to N. apply same_results_init; [split; reflexivity|reflexivity|reflexivity|exact N]. Qed.

Lemma never_aborted : forall es k e n, c_reneg k = ALLOW -> ~ In (e, Some (Minus1 ECONNABORTED, n)) (results es k).
Proof.
  intros es k e n A H. apply in_results in H as (es1 & es2 & -> & H).
  assert (R : c_reneg (after es1 k) = ALLOW).
  { clear H. revert k A. induction es1 as [|a es1 IH]; intros k A; [exact A|]. rewrite after_cons. apply IH. rewrite step_reneg. destruct a as [w s| | |]; try exact A. rewrite A. apply info_other. left. reflexivity. }
  assert (X : forall c t ps x t' m, bio_callback c t ALLOW ps = (x, t', m) -> x <> Minus1 ECONNABORTED).
  { intros c t ps x t' m. unfold bio_callback. cbn [reneg_eqb].
    assert (W : forall x t' m, wait c t ps = (x, t', m) -> x <> Minus1 ECONNABORTED).
    { induction ps as [|[p ms] ps IH]; intros y t2 m2 E; cbn [wait] in E; [injection E as <- _ _; discriminate|]. destruct p as [ev| |[|]].
      - destruct c; injection E as <- _ _; destruct (_ : bool); discriminate.
      - injection E as <- _ _; discriminate.
      - destruct (wait c t ps) as [[x0 t0] n0]. injection E as <- _ _. eapply IH. reflexivity.
      - injection E as <- _ _; discriminate. }
    intros E. destruct c; [| |injection E as <- _ _; discriminate]; (destruct (_ || _); [injection E as <- _ _; discriminate|]; destruct (t * 1000 <? 0); [injection E as <- _ _; discriminate|]; destruct (t * 1000 =? 0); [injection E as <- _ _; discriminate|]; exact (W _ _ _ E)). }
  destruct e as [w s|to|c ps|c ps]; cbn [step] in H; try discriminate H.
  - destruct (c_client (after es1 k)) as [t|]; [|discriminate H]. rewrite R in H. destruct (bio_callback c t ALLOW ps) as [[x t'] m] eqn:E. cbn [snd] in H. injection H as <- _. exact (X _ _ _ _ _ _ E eq_refl).
  - destruct (c_backend (after es1 k)) as [t|]; [|discriminate H]. rewrite R in H. destruct (bio_callback c t ALLOW ps) as [[x t'] m] eqn:E. cbn [snd] in H. injection H as <- _. exact (X _ _ _ _ _ _ E eq_refl).
Qed.

Lemma modern_numbers : forall es to, (forall w s, In (Info w s) es -> s < 0x2110) -> results es (accept 0 to) = results es (accept 1 to).
Proof.
  intros es to H. apply one_handshake. intros (es1 & w & s & es2 & w' & s' & es3 & -> & _ & _ & X).
  assert (Y : s' < 0x2110) by (apply (H w'); apply in_or_app; right; right; apply in_or_app; right; left; reflexivity). unfold hello in X. lia.
Qed.

(** * Waits *)

Lemma wait_bound : forall c t ps, timely t ps -> 0 <= t -> snd (wait c t ps) <= t * 1000.
Proof.
  intros c t ps H T. destruct ps as [|[p ms] ps]; [cbn; lia|]. assert (X : p <> Failed true /\ 0 <= ms <= t * 1000) by (inversion H; assumption). destruct X as [N B].
  cbn [wait]. destruct p as [ev| |[|]]; [destruct c; cbn [snd]; lia|cbn [snd]; lia|congruence|cbn [snd]; lia].
Qed.
Lemma callback_bound : forall c t r ps, timely t ps -> 0 <= t -> snd (bio_callback c t r ps) <= t * 1000.
Proof.
  intros c t r ps H T. unfold bio_callback. destruct c; cbn [snd]; try lia; (destruct (_ || _); [cbn [snd]; lia|]; destruct (t * 1000 <? 0); [cbn [snd]; lia|]; destruct (reneg_eqb r ABORT); [cbn [snd]; lia|];
    destruct (t * 1000 =? 0); [cbn [snd]; lia|]; apply wait_bound; assumption).
Qed.
Lemma callback_dead : forall c r ps, transfer c -> bio_callback c (-1) r ps = (Minus1 ETIMEDOUT, -1, 0).
Proof. intros c r ps T. unfold bio_callback. destruct c; try reflexivity. exfalso. apply T. reflexivity. Qed.

Lemma waits_bounded : forall allow to es c ps x n, 0 <= to <= longest -> timely to ps ->
  In (Client_op c ps, Some (x, n)) (results es (accept allow to)) -> n <= to * 1000.
Proof.
  intros allow to es c ps x n L T H. apply in_results in H as (es1 & es2 & -> & H). cbn [step] in H.
  destruct (client_timeout es1 (accept allow to) to (client_start allow to L)) as [E|E]; rewrite E in H.
  - pose proof (callback_bound c to (c_reneg (after es1 (accept allow to))) ps T) as B. destruct (bio_callback c to _ ps) as [[y t'] m]. cbn [snd] in *. injection H as -> ->. lia.
  - destruct c; [rewrite callback_dead in H by discriminate|rewrite callback_dead in H by discriminate|]; cbn [snd bio_callback] in H; injection H as _ ->; lia.
Qed.

Lemma dead_after : forall es k, c_client k = Some (-1) -> c_client (after es k) = Some (-1).
Proof. intros es k H. destruct (client_timeout es k (-1) H) as [E|E]; exact E. Qed.

Lemma callback_zero : forall c t r ps t' n, bio_callback c t r ps = (Zero, t', n) -> t' = -1.
Proof.
  intros c t r ps t' n H. assert (W : forall t' n, wait c t ps = (Zero, t', n) -> t' = -1).
  { clear H. clear n t'. induction ps as [|[p ms] ps IH]; intros t' n E; cbn [wait] in E; [discriminate|]. destruct p as [ev| |[|]].
    - destruct c; [destruct (_ || _) in E|destruct (negb _) in E|destruct (negb _) in E]; discriminate.
    - injection E as <- _. reflexivity.
    - destruct (wait c t ps) as [[x0 t0] n0]. injection E as -> -> _. eapply IH. reflexivity.
    - discriminate. }
  unfold bio_callback in H. destruct c; try discriminate; (destruct (_ || _) in H; [discriminate|]; destruct (t * 1000 <? 0); [discriminate|]; destruct (reneg_eqb r ABORT); [discriminate|]; destruct (t * 1000 =? 0); [discriminate|]; exact (W _ _ H)).
Qed.

Lemma client_latch : forall es1 c ps n es2 k, snd (step (Client_op c ps) (after es1 k)) = Some (Zero, n) -> forall c' ps' x, transfer c' ->
  In (Client_op c' ps', x) (results es2 (after (es1 ++ [Client_op c ps]) k)) -> x = Some (Minus1 ETIMEDOUT, 0).
Proof.
  intros es1 c ps n es2 k Z0 c' ps' x T H.
  assert (D : c_client (after (es1 ++ [Client_op c ps]) k) = Some (-1)).
  { rewrite after_app, after_cons. unfold after at 1. cbn [run fst step] in *. destruct (c_client (after es1 k)) as [t|]; [|discriminate Z0].
    destruct (bio_callback c t (c_reneg (after es1 k)) ps) as [[y t'] m] eqn:E. cbn [snd] in Z0. injection Z0 as -> _. apply callback_zero in E. subst t'. reflexivity. }
  apply in_results in H as (es3 & es4 & -> & ->). cbn [step]. rewrite (dead_after es3 _ D), callback_dead by exact T. reflexivity.
Qed.

Lemma backend_latch : forall es1 c ps n es2 k, snd (step (Backend_op c ps) (after es1 k)) = Some (Zero, n) -> Forall no_backend es2 -> forall c' ps' x, transfer c' ->
  In (Backend_op c' ps', x) (results es2 (after (es1 ++ [Backend_op c ps]) k)) -> x = Some (Minus1 ETIMEDOUT, 0).
Proof.
  intros es1 c ps n es2 k Z0 B c' ps' x T H.
  assert (D : c_backend (after (es1 ++ [Backend_op c ps]) k) = Some (-1)).
  { rewrite after_app, after_cons. unfold after at 1. cbn [run fst step] in *. destruct (c_backend (after es1 k)) as [t|]; [|discriminate Z0].
    destruct (bio_callback c t (c_reneg (after es1 k)) ps) as [[y t'] m] eqn:E. cbn [snd] in Z0. injection Z0 as -> _. apply callback_zero in E. subst t'. reflexivity. }
  apply in_results in H as (es3 & es4 & E & ->). assert (B3 : Forall no_backend es3) by (rewrite E in B; apply Forall_app in B as [B _]; exact B). clear E Z0.
  assert (D3 : forall es k, Forall no_backend es -> c_backend k = Some (-1) -> c_backend (after es k) = Some (-1)).
  { clear. induction es as [|e es IH]; intros k B H; [exact H|]. rewrite after_cons. apply IH; [inversion B; assumption|]. assert (X : no_backend e) by (inversion B; assumption).
    destruct e as [w s|to|c ps|c ps]; cbn [step]; [exact H|destruct X| |].
    - destruct (c_client k) as [u|]; [|exact H]. destruct (bio_callback c u (c_reneg k) ps) as [[x t'] n]. exact H.
    - rewrite H. pose proof (callback_timeout c (-1) (c_reneg k) ps) as C. destruct (bio_callback c (-1) (c_reneg k) ps) as [[x t'] n]. cbn [fst c_backend]. destruct C as [-> |[-> _]]; reflexivity. }
  cbn [step]. rewrite (D3 es3 _ B3 D), callback_dead by exact T. reflexivity.
Qed.

Lemma interrupted : forall to bound, 0 < to <= longest -> exists ps, Forall (fun p => 0 <= snd p <= to * 1000) ps /\
  exists n, bound < n /\ results [Client_op BIO_CB_READ ps] (accept 0 to) = [(Client_op BIO_CB_READ ps, Some (Go, n))].
Proof.
  intros to bound L. exists (repeat (Failed true, to * 1000) (Z.to_nat (Z.max 0 bound) + 1) ++ [(Ready POLLIN, 0)]). split.
  - apply Forall_app. split; [|repeat constructor; cbn [snd]; lia]. apply Forall_forall. intros p H. apply repeat_spec in H. subst p. cbn [snd]. lia.
  - assert (W : forall m, wait BIO_CB_READ to (repeat (Failed true, to * 1000) m ++ [(Ready POLLIN, 0)]) = (Go, to, Z.of_nat m * (to * 1000))).
    { induction m as [|m IH]; [reflexivity|]. cbn [repeat app wait]. rewrite IH. f_equal. lia. }
    exists (Z.of_nat (Z.to_nat (Z.max 0 bound) + 1) * (to * 1000)). split; [nia|].
    unfold results. cbn [run step]. rewrite (client_start 0 to) by lia. cbn [accept c_reneg Z.eqb]. unfold bio_callback, INT_MIN, INT_MAX. unfold longest in L.
    replace ((to * 1000 <? -2147483648) || (2147483647 <? to * 1000)) with false by lia. replace (to * 1000 <? 0) with false by lia. replace (to * 1000 =? 0) with false by lia. cbn [reneg_eqb].
    rewrite W. reflexivity.
Qed.

Lemma too_long : forall to allow c ps x, longest < to <= 4294967295 -> transfer c -> results [Client_op c ps] (accept allow to) = [(Client_op c ps, x)] ->
  x = Some (Undefined, 0) \/ x = Some (Minus1 ETIMEDOUT, 0).
Proof.
  intros to allow c ps x L T H. unfold longest in L. unfold results in H. cbn [run step accept c_client] in H. unfold set_callback in H.
  assert (X : to_int to * 1000 < 0 \/ 2147483647 < to_int to * 1000).
  { destruct (Z_lt_le_dec to 2147483648) as [S1|S1]; [rewrite to_int_small by lia; lia|]. left. pose proof (to_int_range to). assert (E : to_int to = to - 4294967296); [|lia].
    unfold to_int. replace ((to + 2 ^ 31) mod 2 ^ 32) with (to + 2 ^ 31 - 2 ^ 32); [lia|]. apply (Z.mod_unique _ _ 1); lia. }
  set (r := c_reneg _) in H. clearbody r. unfold bio_callback, INT_MIN, INT_MAX in H.
  destruct c; try (exfalso; apply T; reflexivity); (destruct ((to_int to * 1000 <? -2147483648) || (2147483647 <? to_int to * 1000)) eqn:E; [cbn [snd] in H; injection H as <-; left; reflexivity|]; replace (to_int to * 1000 <? 0) with true in H by lia; cbn [snd] in H; injection H as <-; right; reflexivity).
Qed.

(** Ready in time, not closed before *)
Lemma served : forall allow to es c ev ms ps, 0 < to <= longest -> allow <> 0 -> (forall e n, ~ In (e, Some (Zero, n)) (results es (accept allow to))) ->
  match c with BIO_CB_READ => Z.testbit ev 0 = true | BIO_CB_WRITE => Z.testbit ev 2 = true | BIO_CB_OTHER => True end ->
  exists n, snd (step (Client_op c ((Ready ev, ms) :: ps)) (after es (accept allow to))) = Some (Go, n).
Proof.
  intros allow to es c ev ms ps L A N H.
  assert (E : c_client (after es (accept allow to)) = Some to).
  { assert (G : forall es k, c_client k = Some to -> (forall e n, ~ In (e, Some (Zero, n)) (results es k)) -> c_client (after es k) = Some to).
    { clear. induction es as [|e es IH]; intros k H N; [exact H|]. rewrite after_cons. apply IH.
      - destruct e as [w s|t|c ps|c ps]; cbn [step]; try exact H.
        + rewrite H. pose proof (callback_timeout c to (c_reneg k) ps) as C. destruct (bio_callback c to (c_reneg k) ps) as [[x t'] n] eqn:B. cbn [fst c_client]. destruct C as [-> |[-> ->]]; [reflexivity|].
          exfalso. apply (N (Client_op c ps) n). rewrite results_cons. left. cbn [step]. rewrite H, B. reflexivity.
        + destruct (c_backend k) as [u|]; [|exact H]. destruct (bio_callback c u (c_reneg k) ps) as [[x t'] n]. exact H.
      - intros e' n I. apply (N e' n). rewrite results_cons. right. exact I. }
    apply G; [apply client_start; lia|exact N]. }
  assert (R : c_reneg (after es (accept allow to)) = ALLOW).
  { assert (G : forall es k, c_reneg k = ALLOW -> c_reneg (after es k) = ALLOW).
    { clear. induction es as [|a es IH]; intros k A; [exact A|]. rewrite after_cons. apply IH. rewrite step_reneg. destruct a as [w s| | |]; try exact A. rewrite A. apply info_other. left. reflexivity. }
    apply G. cbn [accept c_reneg]. apply Z.eqb_neq in A. rewrite A. reflexivity. }
  cbn [step]. rewrite E, R. unfold longest in L. unfold bio_callback, INT_MIN, INT_MAX. cbn [reneg_eqb].
  assert (P : forall k, 0 <= k -> Z.testbit ev k = true -> negb (Z.land ev (2 ^ k) =? 0) = true).
  { intros k K T. apply negb_true_iff, Z.eqb_neq. intros Z0. assert (X : Z.testbit (Z.land ev (2 ^ k)) k = true) by (rewrite Z.land_spec, T, pow2_bit by lia; apply Z.eqb_refl). rewrite Z0, Z.bits_0 in X. discriminate X. }
  destruct c.
  - replace ((to * 1000 <? -2147483648) || (2147483647 <? to * 1000)) with false by lia. replace (to * 1000 <? 0) with false by lia. replace (to * 1000 =? 0) with false by lia.
    cbn [wait]. unfold POLLIN. change 1 with (2 ^ 0) at 1. rewrite (P 0) by (try exact H; lia). cbn [orb snd]. exists ms. reflexivity.
  - replace ((to * 1000 <? -2147483648) || (2147483647 <? to * 1000)) with false by lia. replace (to * 1000 <? 0) with false by lia. replace (to * 1000 =? 0) with false by lia.
    cbn [wait]. unfold POLLOUT. change 4 with (2 ^ 2) at 1. rewrite (P 2) by (try exact H; lia). cbn [snd]. exists ms. reflexivity.
  - exists 0. reflexivity.
Qed.

(** Zero is no limit *)
Lemma no_limit : forall allow es c ps x, allow <> 0 -> In (Client_op c ps, x) (results es (accept allow 0)) -> x = Some (Go, 0).
Proof.
  intros allow es c ps x A H. apply in_results in H as (es1 & es2 & -> & ->).
  assert (G : forall es k, c_reneg k = ALLOW -> c_client k = Some 0 -> c_reneg (after es k) = ALLOW /\ c_client (after es k) = Some 0).
  { clear. induction es as [|a es IH]; intros k A H; [split; assumption|]. rewrite after_cons. apply IH.
    - rewrite step_reneg. destruct a as [w s| | |]; try exact A. rewrite A. apply info_other. left. reflexivity.
    - destruct a as [w s|t|c ps|c ps]; cbn [step]; try exact H.
      + rewrite H, A. unfold bio_callback. destruct c; reflexivity.
      + destruct (c_backend k) as [u|]; [|exact H]. destruct (bio_callback c u (c_reneg k) ps) as [[x t'] n]. exact H. }
  destruct (G es1 (accept allow 0)) as [R E]; [cbn [accept c_reneg]; apply Z.eqb_neq in A; rewrite A; reflexivity|reflexivity|].
  cbn [step]. rewrite R, E. destruct c; reflexivity.
Qed.

Lemma body_waits : forall to a, 0 <= to <= longest -> is_readable false to (Some a) = Yes <-> a <= to * 1000.
Proof.
  intros to a L. unfold longest in L. unfold is_readable, INT_MIN, INT_MAX. rewrite to_int_small by lia. cbn zeta. replace ((to * 1000 <? -2147483648) || (2147483647 <? to * 1000)) with false by lia.
  replace (to * 1000 <? 0) with false by lia. cbn [orb]. destruct (a <=? to * 1000) eqn:E; split; intros H; try reflexivity; try discriminate; lia.
Qed.
Lemma body_not_awaited : forall a, 0 < a -> is_readable false 0 (Some a) = No.
Proof. intros a H. unfold is_readable. cbn. destruct (a <=? 0) eqn:E; [lia|reflexivity]. Qed.
