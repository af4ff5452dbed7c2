(** Proofs: the meaning of escapes. *)
From Coq Require Import Ascii String List ZArith Bool Lia ZifyBool ZifyNat Arith.
From Verif Require Import Bytes JsonModel JsonSpec JsonProofs JsonTextProofs JsonGramProofs.
Import ListNotations.
Local Open Scope nat_scope.
Local Open Scope string_scope.
Local Open Scope list_scope.

Lemma escape_in : forall c o, escape c = Some o -> In (o, c) escapes.
Proof. intros [[] [] [] [] [] [] [] []] o H; cbn in H; try discriminate; injection H as <-; cbn; auto 12. Qed.

Lemma written_means : forall s, printable s -> denotes (escape_text s) s.
Proof.
  intros s P. induction P as [|c s H P IH]; cbn [escape_text]; [constructor|].
  pose proof (printable_char c H) as X. destruct (escape c) as [o|] eqn:E.
  - constructor; [apply escape_in; exact E|exact IH].
  - destruct X as (A & B & C). constructor; auto.
Qed.

Lemma escape_reads : forall e c, In (e, c) escapes ->
  (unescape e = Some c \/ (unescape e = None /\ e = c /\ is_xdigit e = false)) /\ (is_xdigit e = true -> c = "008"%char \/ c = "012"%char).
Proof.
  intros e c H. cbn in H. repeat (destruct H as [H|H]; [injection H as <- <-; cbn; split; auto; discriminate|]). elim H.
Qed.

Lemma hex_denotes : forall n t s rest, denotes t s -> ~ (exists a b, s = a ++ b /\ length a = n /\ Forall is_hex a) ->
  hex_run n (t ++ QUOTE :: rest) = Some false.
Proof.
  induction n as [|n IH]; intros t s rest D H; [exfalso; apply H; exists [], s; auto|].
  inversion D as [|c t' s' C1 C2 C3 D' E1 E2|e c t' s' I D' E1 E2]; subst; cbn [app hex_run]; [reflexivity| |reflexivity].
  destruct (is_xdigit c) eqn:X; auto. apply IH with s'; [exact D'|]. intros (a & b & -> & L & F). apply H.
  exists (c :: a), b. split; [auto|]. split; [cbn; lia|]. constructor; auto.
Qed.

Lemma hex_run_first : forall n c r, is_xdigit c = false -> hex_run (S n) (c :: r) = Some false.
Proof. intros n c r H. cbn [hex_run]. rewrite H. reflexivity. Qed.

Lemma len_denotes : forall t s, denotes t s -> forall fuel rest len, plain s -> length (t ++ QUOTE :: rest) < fuel ->
  text_len fuel (t ++ QUOTE :: rest) len = ScanLen (len + length s).
Proof.
  induction 1 as [|c t s C1 C2 C3 D IH|e c t s I D IH]; intros fuel rest len P F; (destruct fuel as [|fuel]; [lia|]); cbn [app] in F |- *; cbn [text_len].
  - change (beq QUOTE """"%char) with true. cbv iota. f_equal. cbn [length]. lia.
  - assert (beq c """"%char = false) as -> by (apply Ascii.eqb_neq; exact C2).
    assert (beq c "\"%char = false) as -> by (apply Ascii.eqb_neq; exact C3).
    cbn [length] in F. rewrite IH; [|eapply plain_tail; eauto|lia]. f_equal. cbn [length]. lia.
  - change (beq "\"%char """"%char) with false. change (beq "\"%char "\"%char) with true. cbv iota.
    destruct (escape_reads _ _ I) as [_ X].
    assert (HR : hex_run 4 (e :: t ++ QUOTE :: rest) = Some false).
    { destruct (is_xdigit e) eqn:XE; [|apply hex_run_first; exact XE]. cbn [hex_run]. rewrite XE.
      change (hex_run 3 (t ++ QUOTE :: rest) = Some false). eapply hex_denotes; [exact D|]. eapply plain_head; eauto. }
    rewrite HR. cbn [length] in F. rewrite IH; [|eapply plain_tail; eauto|lia]. f_equal. cbn [length]. lia.
Qed.

Lemma copy_denotes : forall t s, denotes t s -> forall fuel rest, length (t ++ QUOTE :: rest) < fuel ->
  text_copy fuel (t ++ QUOTE :: rest) = Some (s, rest).
Proof.
  induction 1 as [|c t s C1 C2 C3 D IH|e c t s I D IH]; intros fuel rest F; (destruct fuel as [|fuel]; [lia|]); cbn [app] in F |- *; cbn [text_copy].
  - reflexivity.
  - assert (beq c """"%char = false) as -> by (apply Ascii.eqb_neq; exact C2).
    assert (beq c "\"%char = false) as -> by (apply Ascii.eqb_neq; exact C3).
    cbn [length] in F. rewrite IH by lia. reflexivity.
  - change (beq "\"%char """"%char) with false. change (beq "\"%char "\"%char) with true. cbv iota.
    cbn [length] in F. destruct (escape_reads _ _ I) as [[U|(U & -> & XE)] _]; rewrite U.
    + rewrite IH by lia. reflexivity.
    + rewrite hex_run_first by exact XE. rewrite IH by lia. reflexivity.
Qed.

Lemma get_text_denotes : forall t s rest, denotes t s -> plain s -> j_get_text (t ++ QUOTE :: rest) = Text s rest.
Proof.
  intros t s rest D P. unfold j_get_text. rewrite (len_denotes _ _ D) by (auto; lia). rewrite (copy_denotes _ _ D) by lia.
  destruct (Nat.ltb _ _) eqn:L; auto. apply Nat.ltb_lt in L. lia.
Qed.

Lemma string_means : forall N t s rest, denotes t s -> plain s ->
  json_parse_string N (""""%char :: t ++ """"%char :: rest) = POk N (JString N s) rest.
Proof.
  intros N t s rest D P. unfold json_parse_string. cbn [length JsonModel.parse].
  assert (Y : forall x, SKIPWS (""""%char :: x) = """"%char :: x) by (intros y; apply (skip_ws [] """"%char y); auto). rewrite Y.
  change (beq """"%char "["%char) with false. change (beq """"%char "]"%char) with false. change (beq """"%char "{"%char) with false.
  change (beq """"%char "}"%char) with false. change (beq """"%char """"%char) with true. cbv iota.
  change """"%char with QUOTE. rewrite (get_text_denotes _ _ _ D P). reflexivity.
Qed.

(** ** UTF-8 *)

Lemma code_ascii : forall z, (0 <= z < 256)%Z -> code (ascii_of_N (Z.to_N z)) = z.
Proof. intros z H. unfold code. rewrite N_ascii_embedding by lia. lia. Qed.

Lemma utf8_ok : forall wc, (0 <= wc < 65536)%Z -> exists t, utf8_wctomb wc = Some t /\ utf8 wc t.
Proof.
  intros wc H. unfold utf8_wctomb. cbv zeta.
  assert (E1 : (wc = wc / 64 * 64 + wc mod 64)%Z) by (pose proof (Z.div_mod wc 64); lia).
  assert (M1 : (0 <= wc mod 64 < 64)%Z) by (apply Z.mod_pos_bound; lia).
  assert (E2 : (wc / 64 = wc / 64 / 64 * 64 + wc / 64 mod 64)%Z) by (pose proof (Z.div_mod (wc / 64) 64); lia).
  assert (M2 : (0 <= (wc / 64) mod 64 < 64)%Z) by (apply Z.mod_pos_bound; lia).
  assert (D2 : (wc / 64 ^ 2 = wc / 64 / 64)%Z) by (rewrite Z.div_div by lia; reflexivity).
  destruct (wc <? 128)%Z eqn:A; [|destruct (wc <? 2048)%Z eqn:B; [|destruct (wc <? 65536)%Z eqn:C; [|lia]]]; eexists; (split; [reflexivity|]).
  - replace wc with (code (ascii_of_N (Z.to_N wc))) at 1 by (apply code_ascii; lia). constructor. rewrite code_ascii; lia.
  - cbn [utf8_tail app]. change (64 ^ Z.of_nat 1)%Z with 64%Z. rewrite E1 at 1.
    apply u_two; [|split; [apply code_ascii; lia|lia]|lia]. rewrite code_ascii; lia.
  - cbn [utf8_tail app]. change (64 ^ Z.of_nat 2)%Z with (64 ^ 2)%Z. rewrite D2.
    rewrite E1 at 1. rewrite E2 at 1. apply u_three; [|split; [apply code_ascii; lia|lia]|split; [apply code_ascii; lia|lia]|lia].
    rewrite code_ascii; lia.
Qed.

Lemma digit_bound : forall x v, digit_value x v -> (0 <= v < 16)%Z.
Proof.
  intros x v [[X P]|[X P]].
  - assert (L : Z.to_nat v < length (lit "0123456789abcdef")) by (apply nth_error_Some; congruence).
    change (length (lit "0123456789abcdef")) with 16 in L. lia.
  - assert (L : Z.to_nat v < length (lit "0123456789ABCDEF")) by (apply nth_error_Some; congruence).
    change (length (lit "0123456789ABCDEF")) with 16 in L. lia.
Qed.
Lemma hex_value_ok : forall c v, digit_value c v -> is_xdigit c = true /\ hex_value c = v.
Proof.
  intros c v H. pose proof (digit_bound c v H) as B.
  assert (L : Z.to_nat v < 16) by lia. replace v with (Z.of_nat (Z.to_nat v)) by lia.
  destruct H as [[H _]|[H _]]; generalize dependent (Z.to_nat v); intros n H L; clear B;
    do 16 (destruct n as [|n]; [cbn in H; injection H as <-; split; reflexivity|]); lia.
Qed.

Lemma four_digits : forall a b c d va vb vc vd rest, digit_value a va -> digit_value b vb -> digit_value c vc -> digit_value d vd ->
  match rest with [] => True | x :: _ => is_xdigit x = false end ->
  wide_char (a :: b :: c :: d :: rest) = (((va * 16 + vb) * 16 + vc) * 16 + vd)%Z /\
  (0 <= ((va * 16 + vb) * 16 + vc) * 16 + vd < 65536)%Z.
Proof.
  intros a b c d va vb vc vd rest A B C D R.
  pose proof (digit_bound _ _ A); pose proof (digit_bound _ _ B); pose proof (digit_bound _ _ C); pose proof (digit_bound _ _ D).
  destruct (hex_value_ok _ _ A) as [A1 A2]. destruct (hex_value_ok _ _ B) as [B1 B2]. destruct (hex_value_ok _ _ C) as [C1 C2]. destruct (hex_value_ok _ _ D) as [D1 D2].
  split; [|lia]. unfold wide_char. cbn [strtoul16]. rewrite A1, B1, C1, D1, A2, B2, C2, D2.
  replace (strtoul16 rest _) with (((va * 16 + vb) * 16 + vc) * 16 + vd)%Z.
  2:{ destruct rest as [|x rest]; cbn [strtoul16]; [lia|rewrite R; lia]. }
  destruct (2 ^ 64 <=? _)%Z eqn:K; [lia|]. apply Z.mod_small. lia.
Qed.
