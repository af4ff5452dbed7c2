From Coq Require Import Ascii String List ZArith Bool Lia ZifyBool ZifyNat.
From Verif Require Import Bytes LogModel LogSpec.
Import ListNotations.
Open Scope Z_scope.

(** ** Numbers *)

Lemma value_app : forall a n b, value (a ++ b) n = value b (value a n).
Proof. induction a as [|d a IH]; intros n b; cbn [app value]; auto. Qed.
Lemma value_ge : forall a n, 0 <= n -> Forall (fun c => 48 <= code c <= 57) a -> n * 10 ^ Z.of_nat (length a) <= value a n.
Proof.
  induction a as [|d a IH]; intros n Hn H; cbn [value length]; [cbn; lia|]. inversion H; subst.
  etransitivity; [|apply IH; auto; lia]. rewrite Nat2Z.inj_succ, Z.pow_succ_r by lia.
  replace (n * (10 * 10 ^ Z.of_nat (length a))) with ((10 * n) * 10 ^ Z.of_nat (length a)) by ring.
  apply Z.mul_le_mono_nonneg_r; [apply Z.pow_nonneg; lia|lia].
Qed.
Lemma code_ascii : forall n, 0 <= n < 256 -> code (ascii_of_N (Z.to_N n)) = n.
Proof. intros n H. unfold code. rewrite N_ascii_embedding by lia. lia. Qed.
Lemma ascii_code : forall d, ascii_of_N (Z.to_N (code d)) = d.
Proof. intros d. unfold code. rewrite N2Z.id. apply ascii_N_embedding. Qed.
Lemma zero_char : forall d, code d = 48 -> d = "0"%char.
Proof. intros d H. apply code_inj. rewrite H. reflexivity. Qed.

Lemma decimal_pos : forall n s, decimal n s -> (1 < length s)%nat -> 10 ^ Z.of_nat (length s - 1) <= n.
Proof.
  intros n s (_ & Hd & <- & Hz) Hl. destruct s as [|d s]; [cbn in Hl; lia|]. inversion Hd; subst. cbn [value length].
  replace (S (length s) - 1)%nat with (length s) by lia. assert (d <> "0"%char) by (intros ->; apply (Hz Hl); reflexivity).
  assert (code d <> 48) by (intros K; apply zero_char in K; auto).
  pose proof (value_ge s (10 * 0 + (code d - 48)) ltac:(lia) H2). nia.
Qed.

Lemma digits_decimal : forall s n fuel acc, decimal n s -> (length s <= fuel)%nat -> digits fuel n acc = s ++ acc.
Proof.
  induction s as [|d s IH] using rev_ind; intros n fuel acc Hd Hf; [destruct Hd as [H _]; congruence|].
  pose proof (decimal_pos _ _ Hd) as Hp. destruct Hd as (_ & Hd & Hv & Hz). rewrite value_app in Hv. cbn [value] in Hv. rewrite app_length in *. cbn [length] in *.
  apply Forall_app in Hd as [Hs Hd]. inversion Hd; subst. destruct fuel as [|fuel]; [lia|]. cbn [digits].
  set (m := value s 0) in *. assert (Hm : 0 <= m) by (pose proof (value_ge s 0 ltac:(lia) Hs); unfold m; nia).
  replace ((10 * m + (code d - 48)) mod 10) with (code d - 48) by (rewrite Z.add_comm, Z.mul_comm, Z.mod_add, Z.mod_small; lia).
  replace (48 + (code d - 48)) with (code d) by lia. rewrite ascii_code.
  destruct (Z.ltb_spec (10 * m + (code d - 48)) 10).
  - destruct s as [|x s]; [reflexivity|]. exfalso. specialize (Hp ltac:(cbn; lia)).
    assert (10 ^ 1 <= 10 ^ Z.of_nat (length (x :: s) + 1 - 1)) by (apply Z.pow_le_mono_r; cbn; lia). lia.
  - rewrite <- app_assoc. cbn [app].
    replace ((10 * m + (code d - 48)) / 10) with m by (rewrite Z.add_comm, Z.mul_comm, Z.div_add, Z.div_small; lia).
    apply IH; [|lia]. split; [|split; [auto|split; [reflexivity|]]].
    + intros ->. cbn in m. lia.
    + intros Hl. destruct s as [|x s]; [cbn in Hl; lia|]. apply Hz. cbn [length]. lia.
Qed.

Lemma decimal_fmt : forall n s, 0 <= n -> decimal n s -> fmt_ld n = s.
Proof.
  intros n s Hn H. unfold fmt_ld. destruct (Z.ltb_spec n 0); [lia|]. rewrite (digits_decimal s), app_nil_r; auto.
  destruct (Nat.le_gt_cases (length s) 1) as [K|K]; [lia|]. pose proof (decimal_pos _ _ H K) as Hp.
  assert (2 ^ Z.of_nat (length s - 1) <= n).
  { etransitivity; [|exact Hp]. apply Z.pow_le_mono_l. lia. }
  assert (Z.of_nat (length s - 1) <= Z.log2 n) by (apply Z.log2_le_pow2; lia). lia.
Qed.
Lemma decimal_nonneg : forall n s, decimal n s -> 0 <= n.
Proof. intros n s (_ & Hd & <- & _). pose proof (value_ge s 0 ltac:(lia) Hd). nia. Qed.
Lemma decimal_w_strip : forall s n, s <> [] -> Forall (fun c => 48 <= code c <= 57) s -> value s 0 = n -> exists k s', s = repeat "0"%char k ++ s' /\ decimal n s'.
Proof.
  induction s as [|d s IH]; intros n Hn Hd Hv; [congruence|]. inversion Hd; subst. destruct (Z.eq_dec (code d) 48) as [E|E].
  - apply zero_char in E as ->. destruct s as [|x s].
    + exists 0%nat, ["0"%char]. split; [reflexivity|]. split; [discriminate|]. split; [auto|]. split; [reflexivity|]. cbn. lia.
    + destruct (IH (value (x :: s) 0) ltac:(discriminate) H2 eq_refl) as (k & s' & E & D). exists (S k), s'. split; [cbn; now rewrite <- E|]. exact D.
  - exists 0%nat, (d :: s). split; [reflexivity|]. split; [discriminate|]. split; [auto|]. split; [reflexivity|]. intros _ [= ->]. apply E. reflexivity.
Qed.
Lemma decimal_w_fmt : forall w n s, (0 < w)%nat -> decimal_w w n s -> fmt_pad "0"%char w n = s.
Proof.
  intros w n s Hw (Hl & Hd & Hv). destruct (decimal_w_strip s n) as (k & s' & -> & D); auto; [intros ->; cbn in Hl; lia|].
  unfold fmt_pad. rewrite (decimal_fmt n s') by (auto; eapply decimal_nonneg; eauto). f_equal. f_equal. rewrite app_length, repeat_length in Hl. lia.
Qed.
Lemma status_fmt : forall n s, 100 <= n <= 999 -> decimal n s -> fmt_pad SP 3 n = s.
Proof.
  intros n s Hn H. unfold fmt_pad. rewrite (decimal_fmt n s) by (auto; lia). destruct H as (_ & Hd & Hv & Hz).
  assert (3 <= length s)%nat.
  { destruct s as [|a [|b [|c s]]]; cbn [length]; try lia; exfalso; cbn [value] in Hv; repeat match goal with H : Forall _ (_ :: _) |- _ => inversion H; clear H; subst end; lia. }
  replace (3 - length s)%nat with 0%nat by lia. reflexivity.
Qed.

(** ** Anonymous addresses *)

Lemma after_last_spec : forall c s, match after_last c s with
  | Some p => exists q r, s = q ++ c :: r /\ ~ In c r /\ p = q ++ [c]
  | None => ~ In c s end.
Proof.
  intros c. induction s as [|x s IH]; cbn [after_last]; [auto|]. destruct (after_last c s) as [p|].
  - destruct IH as (q & r & -> & H & ->). exists (x :: q), r. auto.
  - destruct (beq x c) eqn:E.
    + apply beq_eq in E. subst x. exists [], s. auto.
    + apply beq_neq in E. intros [K|K]; auto.
Qed.
Lemma last_split : forall (c : byte) q r q' r', ~ In c r -> ~ In c r' -> q ++ c :: r = q' ++ c :: r' -> q = q' /\ r = r'.
Proof.
  induction q as [|x q IH]; intros r [|y q'] r' H H' E; cbn [app] in E.
  - injection E as ->. auto.
  - injection E as <- ->. exfalso. apply H. apply in_or_app. right. left. auto.
  - injection E as -> <-. exfalso. apply H'. apply in_or_app. right. left. auto.
  - injection E as -> E. destruct (IH _ _ _ H H' E) as [-> ->]. auto.
Qed.
Lemma anon_spec : forall a v, hidden a v -> anon_ip true a = v.
Proof.
  intros a v H. unfold anon_ip. pose proof (after_last_spec "."%char a) as D. pose proof (after_last_spec ":"%char a) as C.
  destruct H as [(p & r & Ea & N & ->)|[(N & p & r & Ea & N' & ->)|(N & N' & ->)]].
  - destruct (after_last "."%char a) as [p'|].
    + destruct D as (q & r' & Ea' & N2 & ->). rewrite Ea in Ea'. apply last_split in Ea' as [<- <-]; auto. now rewrite <- app_assoc.
    + exfalso. apply D. rewrite Ea. apply in_or_app. right. left. auto.
  - destruct (after_last "."%char a) as [p'|]; [destruct D as (q & r' & -> & _); exfalso; apply N; apply in_or_app; right; left; auto|].
    destruct (after_last ":"%char a) as [p'|].
    + destruct C as (q & r' & Ea' & N2 & ->). rewrite Ea in Ea'. apply last_split in Ea' as [<- <-]; auto. now rewrite <- app_assoc.
    + exfalso. apply C. rewrite Ea. apply in_or_app. right. left. auto.
  - destruct (after_last "."%char a) as [p'|]; [destruct D as (q & r' & -> & _); exfalso; apply N; apply in_or_app; right; left; auto|].
    destruct (after_last ":"%char a) as [p'|]; [destruct C as (q & r' & -> & _); exfalso; apply N'; apply in_or_app; right; left; auto|]. reflexivity.
Qed.
Lemma remote_spec : forall an q v, remote an q v -> anon_addr2str an (q_remote q) = v.
Proof.
  intros an q v. unfold remote, anon_addr2str. destruct (q_remote q); [|auto]. destruct an; [apply anon_spec|auto].
Qed.

(** ** Time *)

Lemma diff_spec : forall a b, normal a -> normal b -> nanos b <= nanos a ->
  tv_sec (timespec_sub a b) * 1000000000 + tv_nsec (timespec_sub a b) = nanos a - nanos b /\ 0 <= tv_sec (timespec_sub a b) /\ 0 <= tv_nsec (timespec_sub a b) < 1000000000.
Proof.
  intros [s n] [s' n']. unfold normal, nanos, timespec_sub. cbn [tv_sec tv_nsec]. intros. destruct (Z.ltb_spec (n - n') 0); cbn [tv_sec tv_nsec]; lia.
Qed.
Lemma unit_div : forall s n u, 0 < u -> (u | 1000000000) -> (s * 1000000000 + n) / u = s * (1000000000 / u) + n / u.
Proof.
  intros s n u Hu [k E]. rewrite E. rewrite Z.div_mul by lia. replace (s * (k * u) + n) with (n + (s * k) * u) by ring. rewrite Z.div_add by lia. lia.
Qed.

(** ** One conversion *)

Lemma strip_spec : forall p s, strip_prefix p s = None \/ exists r, strip_prefix p s = Some r /\ s = p ++ r.
Proof.
  induction p as [|x p IH]; intros s; [right; exists s; auto|]. destruct s as [|y s]; [auto|]. cbn [strip_prefix]. destruct (beq x y) eqn:E; [|auto].
  apply beq_eq in E. subst y. destruct (IH s) as [K|(r & K & ->)]; [auto|]. right. exists r. auto.
Qed.
Lemma strip_app : forall p r, strip_prefix p (p ++ r) = Some r.
Proof. induction p as [|x p IH]; intros r; cbn [app strip_prefix]; auto. rewrite beq_refl. auto. Qed.
Lemma not_keyword : forall f, ~ In f keywords -> argprt_find timeprt f = None.
Proof.
  intros f H. unfold argprt_find. destruct (find (fun e => bytes_eqb (lit (fst e)) f) timeprt) as [e|] eqn:E; [|reflexivity]. exfalso. apply H.
  apply find_some in E as [H1 H2]. apply bytes_eqb_eq in H2. subst f.
  assert (K : In (fst e) ["s"; "sec"; "msec"; "usec"; "msec_frac"; "usec_frac"]%string) by (cbn in H1; intuition (subst; cbn; auto 8)). apply in_map. exact K.
Qed.
Lemma p_time_split : forall prog pre f,
  (pre = [] /\ (forall r, f <> lit "begin:" ++ r) /\ (forall r, f <> lit "end:" ++ r) \/ pre = lit "begin:" \/ pre = lit "end:") ->
  f <> [] -> p_time prog (Some (pre ++ f)) =
    let e := match pre with "e"%char :: _ => true | _ => false end in
    match argprt_find timeprt f with None => Some (add_instr prog i_timefmt e (Some f)) | Some p => Some (add_instr prog p e None) end.
Proof.
  intros prog pre f H Hf. unfold p_time.
  assert (E : match strip_prefix (lit "begin:") (pre ++ f) with
        | Some a => (false, a)
        | None => match strip_prefix (lit "end:") (pre ++ f) with Some a => (true, a) | None => (false, pre ++ f) end
        end = (match pre with "e"%char :: _ => true | _ => false end, f)).
  { destruct H as [(-> & Hb & He)|[-> | ->]].
    - cbn [app]. destruct (strip_spec (lit "begin:") f) as [-> |(r & _ & E)]; [|exfalso; eapply Hb; eauto].
      destruct (strip_spec (lit "end:") f) as [-> |(r & _ & E)]; [|exfalso; eapply He; eauto]. reflexivity.
    - rewrite strip_app. reflexivity.
    - rewrite strip_app. reflexivity. }
  rewrite E. destruct f; [congruence|reflexivity].
Qed.

Lemma nonempty_arg : forall (n : bytes), n <> [] -> match Some n with Some [] => None | a => a end = Some n.
Proof. intros [|c n] H; [congruence|reflexivity]. Qed.

Lemma conv_spec : forall an q a c v, timed q -> means an q (Conv a c) v -> forall prog upto,
  exists i, compile_spec prog a c upto = (Some (prog ++ [i]), []) /\ print_instr an q i = v.
Proof.
  intros an q a c v (Hs & He & Hle & Hb) H prog upto.
  pose proof (diff_spec _ _ He Hs Hle) as (Hd & Hd1 & Hd2). remember (Conv a c) as it eqn:Ei.
  destruct H; try discriminate; injection Ei as Ea Ec; subst a c;
    try (eexists; split; [reflexivity|]; unfold print_instr; cbn [snd fst prt arg at_end print_str]; try reflexivity; try (apply remote_spec; assumption); try (match goal with E : _ = Some _ |- _ => rewrite E; reflexivity end); fail).
  - eexists; split; [reflexivity|]. unfold print_instr. cbn [snd fst prt]. destruct (q_forwarded q); [congruence|]. apply remote_spec; auto.
  - eexists; split; [reflexivity|]. unfold print_instr. cbn [snd fst prt]. apply decimal_fmt; auto.
  - eexists; split; [reflexivity|]. unfold print_instr. cbn [snd fst prt]. destruct (Z.eqb_spec (q_res_bytes q) 0) as [E|E]; destruct (Z.ltb_spec 0 (q_res_bytes q)); try lia; [congruence|]. apply decimal_fmt; auto.
  - eexists; split; [cbn [compile_spec find_spec]; unfold compile_spec, find_spec; cbn; unfold add_instr; reflexivity|]. unfold print_instr. cbn [snd fst prt arg].
    destruct n; [congruence|]. reflexivity.
  - eexists; split; [unfold compile_spec, find_spec; cbn; unfold add_instr; reflexivity|]. unfold print_instr. cbn [snd fst prt arg].
    destruct n; [congruence|]. reflexivity.
  - eexists; split; [reflexivity|]. unfold print_instr. cbn [snd fst prt]. unfold be_service_name. rewrite H, H0. reflexivity.
  - eexists; split; [reflexivity|]. unfold print_instr. cbn [snd fst prt]. apply status_fmt; auto.
  - assert (Hc : pre = [] /\ (forall r, f <> lit "begin:" ++ r) /\ (forall r, f <> lit "end:" ++ r) \/ pre = lit "begin:" \/ pre = lit "end:") by tauto.
    unfold compile_spec. change (find_spec "t") with (Some (Time, OPT_ARG)). cbv iota beta. change (beq "t" "%") with false. cbv iota.
    rewrite (p_time_split prog pre f Hc H0). rewrite (not_keyword f) by auto. cbv iota beta zeta. unfold add_instr. eexists; split; [reflexivity|].
    unfold print_instr. cbn [snd fst prt arg at_end]. destruct f as [|x f]; [congruence|]. destruct H as [[[(-> & _)| ->] ->]|[-> ->]]; reflexivity.
  - assert (Hf : f <> [] /\ (forall r, f <> lit "begin:" ++ r) /\ (forall r, f <> lit "end:" ++ r)).
    { destruct H0 as [[-> _]|[[-> _]|[[-> _]|[-> _]]]]; repeat split; discriminate. }
    assert (Hc : pre = [] /\ (forall r, f <> lit "begin:" ++ r) /\ (forall r, f <> lit "end:" ++ r) \/ pre = lit "begin:" \/ pre = lit "end:") by tauto.
    unfold compile_spec. change (find_spec "t") with (Some (Time, OPT_ARG)). cbv iota beta. change (beq "t" "%") with false. cbv iota.
    rewrite (p_time_split prog pre f Hc) by tauto.
    assert (Ht : normal t) by (destruct H as [[_ ->]|[_ ->]]; auto). destruct Ht as [T1 T2].
    set (e := match pre with "e"%char :: _ => true | _ => false end).
    assert (Hts : (if e then q_end q else q_start q) = t) by (unfold e; destruct H as [[[-> | ->] ->]|[-> ->]]; reflexivity).
    destruct H0 as [[-> D]|[[-> D]|[[-> D]|[-> D]]]].
    + exists (mkI i_time_msec None e). split; [reflexivity|]. unfold print_instr. cbn [snd fst prt at_end]. rewrite Hts. apply decimal_fmt; [unfold MILLI, MICRO; apply Z.add_nonneg_nonneg; [lia|apply Z.div_pos; lia]|].
      unfold nanos in D. rewrite unit_div in D by (try lia; exists 1000; lia). exact D.
    + exists (mkI i_time_usec None e). split; [reflexivity|]. unfold print_instr. cbn [snd fst prt at_end]. rewrite Hts. apply decimal_fmt; [unfold MILLI, MICRO; apply Z.add_nonneg_nonneg; [lia|apply Z.div_pos; lia]|].
      unfold nanos in D. rewrite unit_div in D by (try lia; exists 1000000; lia). exact D.
    + exists (mkI i_time_msec_frac None e). split; [reflexivity|]. unfold print_instr. cbn [snd fst prt at_end]. rewrite Hts. apply decimal_w_fmt; [lia|exact D].
    + exists (mkI i_time_usec_frac None e). split; [reflexivity|]. unfold print_instr. cbn [snd fst prt at_end]. rewrite Hts. apply decimal_w_fmt; [lia|exact D].
  - eexists; split; [reflexivity|]. unfold print_instr. cbn [snd fst prt]. apply decimal_fmt; [lia|]. rewrite <- Hd in H. rewrite unit_div in H by (try lia; exists 1; lia).
    rewrite (Z.div_small (tv_nsec _)) in H by lia. replace (tv_sec (timespec_sub (q_end q) (q_start q)) * (1000000000 / 1000000000) + 0) with (tv_sec (timespec_sub (q_end q) (q_start q))) in H by (change (1000000000 / 1000000000) with 1; lia). exact H.
  - rewrite <- Hd in H0. cbn [In] in H. destruct H as [H|[H|[H|[]]]]; injection H as <- <-; (eexists; split; [reflexivity|]); unfold print_instr; cbn [snd fst prt].
    + apply decimal_fmt; [lia|]. rewrite unit_div in H0 by (try lia; exists 1; lia).
      rewrite (Z.div_small (tv_nsec _)) in H0 by lia. replace (tv_sec (timespec_sub (q_end q) (q_start q)) * (1000000000 / 1000000000) + 0) with (tv_sec (timespec_sub (q_end q) (q_start q))) in H0 by (change (1000000000 / 1000000000) with 1; lia). exact H0.
    + rewrite unit_div in H0 by (try lia; exists 1000; lia). apply decimal_fmt; [unfold MILLI, MICRO; apply Z.add_nonneg_nonneg; [lia|apply Z.div_pos; lia]|]. exact H0.
    + rewrite unit_div in H0 by (try lia; exists 1000000; lia). apply decimal_fmt; [unfold MILLI, MICRO; apply Z.add_nonneg_nonneg; [lia|apply Z.div_pos; lia]|]. exact H0.
  - rewrite <- Hd in H, H0. eexists; split; [reflexivity|]. unfold print_instr; cbn [snd fst prt].
    rewrite (decimal_fmt _ a0); [f_equal; f_equal; apply decimal_w_fmt; [lia|]|lia|].
    + rewrite unit_div in H0 by (try lia; exists 1000; lia). change (1000000000 / 1000000) with 1000 in H0. rewrite Z.add_comm, Z.mod_add, Z.mod_small in H0; [exact H0| |lia].
      split; [apply Z.div_pos; lia|apply Z.div_lt_upper_bound; lia].
    + rewrite unit_div in H by (try lia; exists 1; lia). rewrite (Z.div_small (tv_nsec _)) in H by lia.
      replace (tv_sec (timespec_sub (q_end q) (q_start q)) * (1000000000 / 1000000000) + 0) with (tv_sec (timespec_sub (q_end q) (q_start q))) in H by (change (1000000000 / 1000000000) with 1; lia). exact H.
  - eexists; split; [reflexivity|]. unfold print_instr. cbn [snd fst prt]. subst v. destruct (q_user q); reflexivity.
Qed.

(** ** The whole format *)

Lemma split_spec : forall c s, match split_at c s with Some (a, b) => s = a ++ c :: b /\ ~ In c a | None => ~ In c s end.
Proof.
  intros c. induction s as [|x s IH]; cbn [split_at]; [auto|]. destruct (beq x c) eqn:E.
  - apply beq_eq in E. subst x. auto.
  - apply beq_neq in E. destruct (split_at c s) as [[a b]|].
    + destruct IH as [-> H]. split; [reflexivity|]. intros [K|K]; auto.
    + intros [K|K]; auto.
Qed.
Lemma split_app : forall c a b, ~ In c a -> split_at c (a ++ c :: b) = Some (a, b).
Proof.
  intros c. induction a as [|x a IH]; intros b H; cbn [app split_at].
  - rewrite beq_refl. reflexivity.
  - replace (beq x c) with false by (symmetry; apply beq_neq; intros ->; apply H; left; auto). rewrite IH by (intros K; apply H; right; auto). reflexivity.
Qed.
Lemma split_none : forall c s, ~ In c s -> split_at c s = None.
Proof. intros c s H. pose proof (split_spec c s) as K. destruct (split_at c s) as [[a b]|]; auto. destruct K as [-> _]. exfalso. apply H. apply in_or_app. right. left. auto. Qed.

Inductive conv_at : bytes -> item -> bytes -> list item -> Prop :=
| at_conv : forall c r l, c <> "{"%char -> (c = ">"%char -> hd_error r <> Some "s"%char) -> parses r l -> conv_at (c :: r) (Conv None c) r l
| at_arg : forall a c r l, ~ In "}"%char a -> parses r l -> conv_at ("{"%char :: a ++ "}"%char :: c :: r) (Conv (Some a) c) r l
| at_first : forall r l, parses r l -> conv_at (">"%char :: "s"%char :: r) First_line r l.

Lemma parse_inv : forall s l, parses s l -> exists text,
  ~ In "%"%char text /\ ((s = text /\ l = map Char text) \/ exists p i r l', s = text ++ "%"%char :: p /\ l = map Char text ++ i :: l' /\ conv_at p i r l').
Proof.
  induction 1 as [|c s l Hc H IH|c s l H1 H2 H|a c s l H1 H|s l H].
  - exists []. split; [auto|]. left. auto.
  - destruct IH as (text & Hn & IH). exists (c :: text). split; [intros [K|K]; auto|]. destruct IH as [[-> ->]|(p & i & r & l' & -> & -> & C)].
    + left. auto.
    + right. exists p, i, r, l'. auto.
  - exists []. split; [auto|]. right. exists (c :: s), (Conv None c), s, l. repeat split; auto. constructor; auto.
  - exists []. split; [auto|]. right. exists ("{"%char :: a ++ "}"%char :: c :: s), (Conv (Some a) c), s, l. repeat split; auto. constructor; auto.
  - exists []. split; [auto|]. right. exists (">"%char :: "s"%char :: s), First_line, s, l. repeat split; auto. constructor; auto.
Qed.

Lemma chars_mean : forall an q text l vs, Forall2 (means an q) (map Char text ++ l) vs -> exists vs', vs = map (fun c => [c]) text ++ vs' /\ Forall2 (means an q) l vs'.
Proof.
  intros an q. induction text as [|c text IH]; intros l vs H; cbn [map app] in *; [eauto|]. inversion H as [|x y l1 l2 Hx Hl]; subst.
  destruct (IH _ _ Hl) as (vs' & -> & H'). exists vs'. inversion Hx; subst. auto.
Qed.
Lemma concat_chars : forall text : bytes, concat (map (fun c => [c]) text) = text.
Proof. induction text; cbn; congruence. Qed.
Lemma print_text : forall an q prog text, exists p, (match text with [] => prog | _ => add_instr prog i_print false (Some text) end) = prog ++ p /\ http_log an p q = text.
Proof.
  intros an q prog [|c text].
  - exists []. rewrite app_nil_r. auto.
  - exists [mkI i_print (Some (c :: text)) false]. split; [reflexivity|]. unfold http_log. cbn. now rewrite app_nil_r.
Qed.
Lemma http_log_app : forall an q a b, http_log an (a ++ b) q = http_log an a q ++ http_log an b q.
Proof. intros. unfold http_log. now rewrite map_app, concat_app. Qed.

Lemma compile_ok : forall an q, timed q -> forall fuel s l, (length s < fuel)%nat -> parses s l -> forall vs, Forall2 (means an q) l vs ->
  forall prog diags, exists p, compile_loop fuel s prog diags = Prog (prog ++ p) diags /\ http_log an p q = concat vs.
Proof.
  intros an q Hq. induction fuel as [|fuel IH]; intros s l Hf Hp vs Hv prog diags; [lia|].
  destruct (parse_inv s l Hp) as (text & Hn & [[-> ->]|(p & i & r & l' & -> & -> & C)]).
  - cbn [compile_loop]. rewrite split_none by auto. destruct (print_text an q prog text) as (p & E & Ep). exists p. rewrite E. split; [reflexivity|].
    rewrite <- (app_nil_r (map Char text)) in Hv. apply chars_mean in Hv as (vs' & -> & Hv). inversion Hv; subst. rewrite concat_app, concat_chars. cbn. rewrite app_nil_r. auto.
  - apply chars_mean in Hv as (vs' & -> & Hv). inversion Hv as [|? v ? vs2 Hi Hl]; subst. clear Hv. rewrite concat_app, concat_chars. cbn [concat].
    destruct (print_text an q prog text) as (pt & E & Ept). rewrite app_length in Hf. cbn [length] in Hf.
    assert (K : forall a c, (exists i, compile_spec (prog ++ pt) a c (firstn (length (text ++ "%"%char :: p) - length r) (text ++ "%"%char :: p)) = (Some ((prog ++ pt) ++ [i]), []) /\ print_instr an q i = v) ->
      (length r < length p)%nat -> parses r l' ->
      exists p0, (match compile_spec (prog ++ pt) a c (firstn (length (text ++ "%"%char :: p) - length r) (text ++ "%"%char :: p)) with
        | (Some prog, d) => compile_loop fuel r prog (diags ++ d) | (None, d) => Failed (diags ++ d) end) = Prog (prog ++ p0) diags /\ http_log an p0 q = text ++ v ++ concat vs2).
    { intros a c (i0 & -> & Ei) Hr Hpr. rewrite app_nil_r. destruct (IH r l' ltac:(lia) Hpr vs2 Hl ((prog ++ pt) ++ [i0]) diags) as (p0 & E0 & Ep0).
      exists (pt ++ [i0] ++ p0). rewrite E0. split; [now rewrite <- !app_assoc|]. rewrite !http_log_app, Ept, Ep0. unfold http_log at 1. cbn [map concat]. rewrite app_nil_r, Ei. reflexivity. }
    cbn [compile_loop]. rewrite split_app by auto. rewrite E.
    destruct C as [c r l' N1 N2 Hr|a c r l' N Hr|r l' Hr].
    + assert (Eg : beq c ">" && match r with s :: _ => beq s "s" | [] => false end = false).
      { apply andb_false_iff. destruct (beq c ">") eqn:E1; [|auto]. right. apply beq_eq in E1. specialize (N2 E1). destruct r as [|s r]; [auto|]. apply beq_neq. intros ->. apply N2. reflexivity. }
      rewrite Eg. apply beq_neq in N1. rewrite N1. apply K; [apply conv_spec; auto|cbn; lia|auto].
    + change (beq "{" ">") with false. change (beq "{" "{") with true. cbn [andb]. cbv iota. rewrite split_app by auto.
      apply K; [apply conv_spec; auto|cbn [length]; rewrite app_length; cbn [length]; lia|auto].
    + change (beq ">" ">") with true. change (beq "s" "s") with true. cbn [andb]. apply K; [|cbn; lia|auto].
      inversion Hi; subst. eexists. split; [reflexivity|]. reflexivity.
Qed.

(** ** Diagnostics *)

Lemma diags_grow : forall fuel s prog diags p d, compile_loop fuel s prog diags = Prog p d -> exists e, d = diags ++ e.
Proof.
  induction fuel as [|fuel IH]; intros s prog diags p d H; [discriminate|]. cbn [compile_loop] in H.
  destruct (split_at "%" s) as [[text q]|]; [|injection H as _ <-; exists []; now rewrite app_nil_r].
  set (prog1 := match text with [] => prog | _ => add_instr prog i_print false (Some text) end) in *.
  assert (K : forall a p0, (match p0 with [] => Over_read | c :: r =>
      match compile_spec prog1 a c (firstn (length s - length r) s) with (Some prog, d) => compile_loop fuel r prog (diags ++ d) | (None, d) => Failed (diags ++ d) end end) = Prog p d -> exists e, d = diags ++ e).
  { intros a [|c r] K; [discriminate|]. destruct (compile_spec _ a c _) as [[pr|] dd]; [|discriminate]. apply IH in K as [e ->]. exists (dd ++ e). now rewrite app_assoc. }
  destruct q as [|c r]; [discriminate|]. destruct (_ && _); [eapply K; exact H|]. destruct (beq c "{"); [|eapply (K None (c :: r)); exact H].
  destruct (split_at "}" r) as [[a q]|]; [eapply K; exact H|]. apply IH in H as [e ->]. exists ([true] ++ e). now rewrite app_assoc.
Qed.
Lemma find_spec_known : forall c, find_spec c <> None -> conversion c.
Proof.
  intros c H. unfold find_spec in H. destruct (find _ http_log_spec) as [e|] eqn:E; [|congruence]. apply find_some in E as [H1 H2]. apply beq_eq in H2. subst c.
  unfold conversion. cbn in H1. cbn. intuition (subst; cbn; auto 30).
Qed.
Lemma compile_silent : forall fuel s prog diags p d, compile_loop fuel s prog diags = Prog p d -> ~ In true d ->
  exists l, parses s l /\ Forall known_item l.
Proof.
  assert (Chars : forall text s l, ~ In "%"%char text -> parses s l -> Forall known_item l -> exists l', parses (text ++ s) l' /\ Forall known_item l').
  { induction text as [|c text IH]; intros s l Hn Hp Hk; [eauto|]. assert (Ht : ~ In "%"%char text) by (intros K; apply Hn; right; auto). destruct (IH s l Ht Hp Hk) as (l' & H1 & H2).
    exists (Char c :: l'). split; [|constructor; auto; exact I]. constructor; auto. intros ->. apply Hn. left. auto. }
  induction fuel as [|fuel IH]; intros s prog diags p d H Hd; [discriminate|]. cbn [compile_loop] in H.
  pose proof (split_spec "%"%char s) as Hsp. destruct (split_at "%" s) as [[text q]|].
  2:{ rewrite <- (app_nil_r s). eapply Chars; [auto|constructor|constructor]. }
  destruct Hsp as [-> Hn].
  set (prog1 := match text with [] => prog | _ => add_instr prog i_print false (Some text) end) in *.
  assert (K : forall a p0, (match p0 with [] => Over_read | c :: r =>
      match compile_spec prog1 a c (firstn (length (text ++ "%"%char :: q) - length r) (text ++ "%"%char :: q)) with (Some prog, d) => compile_loop fuel r prog (diags ++ d) | (None, d) => Failed (diags ++ d) end end) = Prog p d ->
      exists c r l, p0 = c :: r /\ (conversion c /\ (In c ["i"; "I"; "L"; "N"]%char -> a <> None)) /\ parses r l /\ Forall known_item l).
  { intros a [|c r] K; [discriminate|]. destruct (compile_spec _ a c _) as [[pr|] dd] eqn:Ec; [|discriminate].
    destruct (diags_grow _ _ _ _ _ _ K) as [e Ee]. assert (Hdd : ~ In true dd) by (intros Ht; apply Hd; rewrite Ee; apply in_or_app; left; apply in_or_app; auto).
    apply IH in K as (l & H1 & H2); auto. exists c, r, l. split; [reflexivity|]. split; [|auto]. split; [|intros Ic ->; unfold compile_spec in Ec; destruct Ic as [<-|[<-|[<-|[<-|[]]]]]; discriminate Ec]. apply find_spec_known. intros En. unfold compile_spec in Ec. rewrite En in Ec. injection Ec as _ <-. apply Hdd. left. auto. }
  assert (Fin : forall i r p0, (forall l, parses r l -> parses ("%"%char :: p0) (i :: l)) -> known_item i -> (exists l, parses r l /\ Forall known_item l) -> exists l, parses (text ++ "%"%char :: p0) l /\ Forall known_item l).
  { intros i r p0 H1 H2 (l & H3 & H4). apply (Chars text _ (i :: l) Hn (H1 l H3)). constructor; auto. }
  destruct q as [|c r]; [discriminate|]. destruct (_ && _) eqn:E1.
  - apply andb_true_iff in E1 as [E1 E2]. apply beq_eq in E1. subst c. destruct r as [|s0 r]; [discriminate|]. apply beq_eq in E2. subst s0.
    apply (K (Some (lit "1")) ("s"%char :: r)) in H as (c & r' & l & [= <- <-] & H2 & H3 & H4). eapply (Fin First_line r); [|exact I|eauto]. intros l' Hl'. apply (parse_first r l' Hl').
  - destruct (beq c "{") eqn:E2.
    + apply beq_eq in E2. subst c. pose proof (split_spec "}"%char r) as Hs2. destruct (split_at "}" r) as [[a q]|].
      * destruct Hs2 as [-> Ha]. apply (K (Some a) q) in H as (c & r' & l & -> & H2 & H3 & H4). eapply (Fin (Conv (Some a) c) r'); [|exact H2|eauto]. intros l' Hl'. apply (parse_arg a c r' l' Ha Hl').
      * destruct (diags_grow _ _ _ _ _ _ H) as [e ->]. exfalso. apply Hd. apply in_or_app. left. apply in_or_app. right. left. auto.
    + apply beq_neq in E2. apply (K None (c :: r)) in H as (c' & r' & l & [= <- <-] & H2 & H3 & H4). eapply (Fin (Conv None c) r); [|exact H2|eauto].
      intros l' Hl'. apply parse_conv; auto. intros -> Hh. change (beq ">" ">") with true in E1. cbn [andb] in E1. destruct r as [|s0 r]; [discriminate|]. injection Hh as ->. discriminate.
Qed.

(** ** Table *)

Lemma find_app : forall t name p n, find_log_prog (t ++ [(name, p)]) n =
  match find_log_prog t n with Some i => Some i | None => if bytes_eqb name n then Some (length t) else None end.
Proof.
  induction t as [|[m q] t IH]; intros name p n; cbn [app find_log_prog length]; [destruct (bytes_eqb name n); reflexivity|].
  destruct (bytes_eqb m n); auto. rewrite IH. destruct (find_log_prog t n); cbn [option_map]; auto. destruct (bytes_eqb name n); reflexivity.
Qed.
Lemma find_lt : forall t n i, find_log_prog t n = Some i -> (i < length t)%nat.
Proof.
  induction t as [|[m q] t IH]; intros n i H; cbn [find_log_prog length] in *; [discriminate|]. destruct (bytes_eqb m n); [injection H as <-; lia|].
  destruct (find_log_prog t n) as [j|] eqn:E; [|discriminate]. injection H as <-. specialize (IH _ _ E). lia.
Qed.
Lemma define_ok : forall t name fmt t' i, define t name fmt = Defined t' i ->
  find_log_prog t name = None /\ find_log_prog t' name = Some i /\
  (exists p, nth_error t' i = Some (name, p) /\ accept (http_log_format_compile fmt) = Some p) /\
  (forall n j, find_log_prog t n = Some j -> find_log_prog t' n = Some j /\ nth_error t' j = nth_error t j) /\ (length t' <= MAX_HTTP_LOG_FORMATS \/ MAX_HTTP_LOG_FORMATS < length t)%nat.
Proof.
  intros t name fmt t' i H. unfold define in H. destruct (find_log_prog t name) eqn:E; [discriminate|].
  destruct (Nat.eqb_spec (length t) MAX_HTTP_LOG_FORMATS) as [|Hl]; [discriminate|].
  assert (exists p, accept (http_log_format_compile fmt) = Some p /\ t' = t ++ [(name, p)] /\ i = length t) as (p & Ea & -> & ->).
  { destruct (http_log_format_compile fmt) as [p d|d|]; [|discriminate|discriminate]. destruct (accept (Prog p d)) as [p'|]; [|discriminate]. injection H as <- <-. eauto. }
  split; [auto|]. split; [rewrite find_app, E, bytes_eqb_refl; reflexivity|]. split; [exists p; rewrite nth_error_app2, Nat.sub_diag by lia; auto|].
  split.
  - intros n j Hn. rewrite find_app, Hn. split; auto. apply nth_error_app1. eapply find_lt; eauto.
  - rewrite app_length. cbn [length]. lia.
Qed.
Lemma trailing_percent : forall text, ~ In "%"%char text -> http_log_format_compile (text ++ lit "%") = Over_read.
Proof. intros text H. unfold http_log_format_compile. cbn [compile_loop]. change (lit "%") with ["%"%char]. rewrite split_app by auto. reflexivity. Qed.
