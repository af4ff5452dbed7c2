(** Proofs: what is written is a JSON text; the reader ends and stays in bounds. *)
From Coq Require Import Ascii String List ZArith Bool Lia ZifyBool ZifyNat Arith Sorted.
From Verif Require Import Bytes JsonModel JsonSpec JsonProofs JsonTextProofs.
Import ListNotations.
Local Open Scope nat_scope.
Local Open Scope string_scope.
Local Open Scope list_scope.

(** ** The grammar *)

Lemma ws_nil : ws []. Proof. constructor. Qed.
Lemma ws_space : forall w, Forall (fun x => ISSPACE x = true) w -> ws w.
Proof.
  intros w F. unfold ws. rewrite Forall_forall in *. intros c H. specialize (F c H).
  revert F. clear. destruct c as [[] [] [] [] [] [] [] []]; cbn; try discriminate; auto 6.
Qed.

Lemma printable_char : forall c, (32 <= code c)%Z \/ In c ["008"%char; "012"%char; LF; CR; TAB] ->
  match escape c with Some o => In o (lit """\/bfnrt") | None => (32 <= code c)%Z /\ c <> """"%char /\ c <> "\"%char end.
Proof.
  intros c H. destruct (escape c) eqn:E.
  - revert E. clear. destruct c as [[] [] [] [] [] [] [] []]; cbn; try discriminate; intros X; injection X as <-; auto 10.
  - split; [|split; intros ->; discriminate E]. destruct H as [H|H]; auto.
    exfalso. cbn in H. repeat (destruct H as [<-|H]; [discriminate E|]). destruct H.
Qed.
Lemma escape_chars : forall s, printable s -> chars (escape_text s).
Proof.
  intros s P. induction P as [|c s H P IH]; cbn [escape_text]; [constructor|].
  apply printable_char in H. destruct (escape c) as [o|]; [apply ch_escape; auto|]. destruct H as (H1 & H2 & H3). apply ch_char; auto.
Qed.
Lemma escape_string : forall s, printable s -> string_text (json_format_escape s).
Proof. intros s P. unfold json_format_escape. cbn [app]. constructor. apply escape_chars; auto. Qed.

Section Grammar.
  Variable N : numbers.
  Variable fmt : format.

  Lemma more_elements : forall level ts t w, Forall json_text ts -> json_text t -> ws w ->
    elements (w ++ t ++ more fmt level ts ++ close fmt level).
  Proof.
    intros level ts. induction ts as [|t' ts IH]; intros t w F T W.
    - unfold more. cbn [map concat app]. apply el_one; auto. apply ws_space, close_ws.
    - inversion F; subst. unfold more. cbn [map concat]. fold (more fmt level ts). unfold json_format_delim. fold (gap fmt level).
      rewrite <- !app_assoc. apply (el_more w t [] _ W T ws_nil).
      apply IH; auto. apply ws_space, gap_ws.
  Qed.
  Lemma array_text : forall level ts, Forall json_text ts -> json_text (lit "[" ++ enclose fmt level ts ++ lit "]").
  Proof.
    intros level ts F. destruct F as [|t ts T F].
    - apply (jt_array0 [] ws_nil).
    - rewrite enclose_ws. apply jt_array. apply more_elements; auto. apply ws_space, lead_ws.
  Qed.
  Lemma more_members : forall level ts p w, Forall (fun p => printable (fst p) /\ json_text (snd p)) ts ->
    printable (fst p) -> json_text (snd p) -> ws w ->
    members_text (w ++ member fmt (fst p) (snd p) ++ more fmt level (members fmt ts) ++ close fmt level).
  Proof.
    intros level ts. induction ts as [|p' ts IH]; intros p w F K T W.
    - unfold more, members. cbn [map concat app]. apply mb_one. unfold member. rewrite <- !app_assoc.
      apply (mb_intro w (json_format_escape (fst p)) [] (if_indent fmt [SP]) (snd p) (close fmt level)); auto using escape_string, ws_nil.
      + apply ws_space, if_indent_ws. repeat constructor.
      + apply ws_space, close_ws.
    - inversion F as [|? ? [F1 F2] F3]; subst. unfold more, members. cbn [map concat]. fold (members fmt ts). fold (more fmt level (members fmt ts)).
      unfold json_format_delim. fold (gap fmt level).
      replace (w ++ member fmt (fst p) (snd p) ++ ((([","%char] ++ gap fmt level) ++ member fmt (fst p') (snd p')) ++ more fmt level (members fmt ts)) ++ close fmt level)
        with ((w ++ member fmt (fst p) (snd p)) ++ ","%char :: (gap fmt level ++ member fmt (fst p') (snd p') ++ more fmt level (members fmt ts) ++ close fmt level))
        by (rewrite <- !app_assoc; reflexivity).
      apply mb_more.
      + replace (w ++ member fmt (fst p) (snd p)) with (w ++ json_format_escape (fst p) ++ [] ++ ":"%char :: if_indent fmt [SP] ++ snd p ++ []) by (rewrite app_nil_r; reflexivity).
        apply mb_intro; auto using escape_string, ws_nil. apply ws_space, if_indent_ws. repeat constructor.
      + apply IH; auto. apply ws_space, gap_ws.
  Qed.
  Lemma object_text : forall level ts, Forall (fun p => printable (fst p) /\ json_text (snd p)) ts ->
    json_text (lit "{" ++ enclose fmt level (members fmt ts) ++ lit "}").
  Proof.
    intros level ts F. destruct F as [|t ts [K T] F].
    - apply (jt_object0 [] ws_nil).
    - unfold members. cbn [map]. fold (members fmt ts). rewrite enclose_ws. apply jt_object. apply more_members; auto. apply ws_space, lead_ws.
  Qed.

  Lemma value_text : forall v level, writable N (f_precision fmt) v -> json_text (json_value_format N fmt v level).
  Proof.
    intros v. induction v as [|b|d|d|s|l IH|l IH] using (jv_nest N); intros level W; cbn [json_value_format].
    - apply jt_word. cbn. auto.
    - apply jt_word. destruct b; cbn; auto.
    - apply jt_number. inversion W; auto.
    - apply jt_number. inversion W; auto.
    - apply jt_string, escape_string. inversion W; auto.
    - inversion W as [| | | | |? F|]; subst. apply array_text. clear W. induction IH as [|v l H IH IH']; cbn [map]; [constructor|].
      inversion F as [|? ? F1 F2]; subst. constructor; auto.
    - inversion W as [| | | | | |? F]; subst.
      set (tl := map (fun p => (fst p, json_value_format N fmt (snd p) (S level))) l).
      assert (E : map (fun p => json_format_escape (fst p) ++ lit ":" ++ if_indent fmt [SP] ++ json_value_format N fmt (snd p) (S level)) l = members fmt tl).
      { unfold members, tl. rewrite map_map. reflexivity. }
      rewrite E. apply object_text. unfold tl. clear W E tl. induction IH as [|p l H IH IH']; cbn [map]; [constructor|].
      inversion F as [|? ? [F1 F1'] F2]; subst. constructor; auto. cbn [fst snd]. auto.
  Qed.
End Grammar.

(** ** The reader ends *)

Lemma skipws_suffix : forall s, exists p, s = p ++ SKIPWS s.
Proof.
  intros s. unfold SKIPWS. induction s as [|c s [p IH]]; cbn [span]; [exists []; auto|].
  destruct (ISSPACE c); [|exists []; auto]. destruct (span ISSPACE s) as [a b]. cbn [snd] in *. exists (c :: p). cbn. congruence.
Qed.
Lemma word_suffix : forall w s r, word w s = Some r -> s = w ++ r.
Proof.
  intros w. induction w as [|a w IH]; intros s r H; cbn [word] in H; [injection H as H; exact H|]. destruct s as [|b s]; [discriminate|].
  destruct (beq a b) eqn:E; [|discriminate]. apply beq_eq in E. subst. cbn. f_equal. auto.
Qed.
Lemma text_copy_suffix : forall fuel p s rest, text_copy fuel p = Some (s, rest) -> exists q, q <> [] /\ p = q ++ rest.
Proof.
  intros fuel. induction fuel as [|fuel IH]; intros p s rest H; [discriminate|]. cbn [text_copy] in H. destruct p as [|c r]; [discriminate|].
  assert (A : forall t x, option_map (fun x : bytes * bytes => (t ++ fst x, snd x)) (text_copy fuel x) = Some (s, rest) -> exists q, q <> [] /\ x = q ++ rest).
  { intros t x K. destruct (text_copy fuel x) as [[s' r']|] eqn:E; [|discriminate]. injection K as K1 K2. cbn [snd] in K2. subst r'. eauto. }
  destruct (beq c """"%char).
  { injection H as _ H. subst. exists [c]. split; [discriminate|auto]. }
  destruct (beq c "\"%char).
  - destruct r as [|d r']; [discriminate|]. destruct (unescape d).
    { apply A in H as (q & Q & ->). exists (c :: d :: q). split; [discriminate|auto]. }
    destruct (hex_run 4 (d :: r')) as [[]|]; [| |discriminate].
    + destruct (utf8_wctomb (wide_char (d :: r'))) as [t|]; [|discriminate]. apply A in H as (q & Q & E).
      exists (c :: firstn 4 (d :: r') ++ q). split; [discriminate|]. cbn [app]. rewrite <- app_assoc, <- E, firstn_skipn. auto.
    + apply A in H as (q & Q & ->). exists (c :: d :: q). split; [discriminate|auto].
  - apply A in H as (q & Q & ->). exists (c :: q). split; [discriminate|auto].
Qed.
Lemma get_text_suffix : forall p s rest, j_get_text p = Text s rest -> exists q, q <> [] /\ p = q ++ rest.
Proof.
  intros p s rest H. unfold j_get_text in H. destruct (text_len _ _ _); try discriminate. destruct (text_copy _ _) as [[s' r']|] eqn:E; [|discriminate].
  destruct (Nat.ltb _ _); [discriminate|]. injection H as <- <-. eapply text_copy_suffix; eauto.
Qed.

Section Ends.
  Variable N : numbers.
  Hypothesis SN : stops_within N.

  (** [bad] is a result which is not made up by the functions around the loop. *)
  Section Keeps.
    Variable bad : parsed N.
    Hypothesis bad_ok : forall v r, bad <> POk N v r.
    Hypothesis bad_err : forall e, bad <> PErr N e.

    Lemma after_keeps : forall k ctx input, (forall ctx x, (exists p, input = p ++ x) -> k ctx x <> bad) -> after_value N k ctx input <> bad.
    Proof.
      intros k ctx input K. unfold after_value. destruct (skipws_suffix input) as [p E]. destruct (SKIPWS input) as [|c r]; [intros X; eapply bad_err; eauto|].
      destruct (beq c ","%char); [apply K; exists (p ++ [c]); rewrite <- app_assoc; auto|].
      destruct (beq c "]"%char || beq c "}"%char); [apply K; eauto|]. intros X; eapply bad_err; eauto.
    Qed.
  End Keeps.

  Lemma deliver_total : forall k v ctx input, (forall ctx x, (exists p, input = p ++ x) -> k ctx x <> PFuel N) -> deliver N k v ctx input <> PFuel N.
  Proof.
    intros k v ctx input K. unfold deliver. destruct ctx as [|[l|o [key|]] ctx]; try discriminate.
    - apply after_keeps; auto; discriminate.
    - destruct (json_object_set o key v); [|discriminate]. apply after_keeps; auto; discriminate.
  Qed.

  Lemma number_not_delim : forall c, starts_number c = true -> ISSPACE c = false /\ beq c ","%char = false /\ beq c "]"%char = false /\ beq c "}"%char = false.
  Proof. intros [[] [] [] [] [] [] [] []] H; try discriminate H; repeat split. Qed.

  Lemma parse_total : forall fuel ctx input, length input < fuel -> parse N fuel ctx input <> PFuel N.
  Proof.
    intros fuel. induction fuel as [|fuel IH]; intros ctx input L; [lia|]. cbn [parse].
    destruct (skipws_suffix input) as [p E]. destruct (SKIPWS input) as [|c r]; [discriminate|].
    assert (Lr : length r < fuel) by (subst input; rewrite app_length in L; cbn in L; lia).
    assert (K : forall ctx x, (exists q, r = q ++ x) -> parse N fuel ctx x <> PFuel N).
    { intros ctx' x [q ->]. apply IH. rewrite app_length in Lr. lia. }
    assert (D : forall v ctx x, (exists q, r = q ++ x) -> deliver N (parse N fuel) v ctx x <> PFuel N).
    { intros v ctx' x [q Q]. apply deliver_total. intros ctx'' y [q' Q']. apply K. exists (q ++ q'). rewrite <- app_assoc. congruence. }
    assert (R0 : exists q, r = q ++ r) by (exists []; auto).
    destruct (beq c "["%char); [auto|].
    destruct (beq c "]"%char); [destruct ctx as [|[l|o key] ctx]; try discriminate; auto|].
    destruct (beq c "{"%char); [auto|].
    destruct (beq c "}"%char); [destruct ctx as [|[l|o key] ctx]; try discriminate; auto|].
    destruct (beq c """"%char).
    { destruct (j_get_text r) as [s rest| |] eqn:T; try discriminate. apply get_text_suffix in T as (q & _ & Q).
      assert (R1 : exists q, r = q ++ rest) by eauto.
      destruct ctx as [|[l|o [key|]] ctx]; auto.
      destruct (skipws_suffix rest) as [q' Q']. destruct (SKIPWS rest) as [|c' rest']; [discriminate|].
      destruct (beq c' ":"%char); [|discriminate]. apply K. exists (q ++ q' ++ [c']). rewrite Q, Q', <- !app_assoc. reflexivity. }
    destruct (starts_number c) eqn:SC.
    { destruct (strtod N (c :: r)) as [[d|] rest] eqn:S; [|discriminate]. apply SN in S as [q Q].
      destruct q as [|q0 q].
      - cbn in Q. subst rest. apply number_not_delim in SC as (S1 & S2 & S3 & S4).
        assert (AV : forall k ctx, after_value N k ctx (c :: r) <> PFuel N).
        { intros k ctx'. unfold after_value. assert (Y : SKIPWS (c :: r) = c :: r) by (apply (skip_ws [] c r); auto). rewrite Y, S2, S3, S4. discriminate. }
        unfold deliver. destruct ctx as [|[l|o [key|]] ctx]; try discriminate; auto. destruct (json_object_set o key (JNumber N d)); [auto|discriminate].
      - injection Q as <- Q. apply D. eauto. }
    assert (W : forall w0 w rest, word (w0 :: w) (c :: r) = Some rest -> exists q, r = q ++ rest).
    { intros w0 w rest H. apply word_suffix in H. injection H as _ H. eauto. }
    destruct (word (lit "null") (c :: r)) eqn:W1; [apply D; eapply W; exact W1|].
    destruct (word (lit "true") (c :: r)) eqn:W2; [apply D; eapply W; exact W2|].
    destruct (word (lit "false") (c :: r)) eqn:W3; [apply D; eapply W; exact W3|]. discriminate.
  Qed.
  Lemma total : forall input, json_parse_string N input <> PFuel N.
  Proof. intros input. apply parse_total. lia. Qed.

  (** ** ... within bounds *)

  Lemma no_hex_suffix : forall p t, no_hex_escape (p ++ t) -> no_hex_escape t.
  Proof. intros p t H pre r ->. apply (H (p ++ pre)). rewrite <- app_assoc. auto. Qed.
  Lemma no_hex_run : forall r, no_hex_escape ("\"%char :: r) -> hex_run 4 r = Some false.
  Proof.
    intros r H. destruct (H [] r eq_refl) as (a & c & b & -> & L & C). clear H. unfold is_hex in C.
    assert (G : forall n a, length a < n -> hex_run n (a ++ c :: b) = Some false).
    { clear - C. intros n. induction n as [|n IH]; intros a L; [lia|]. destruct a as [|x a]; cbn [app hex_run].
      - destruct (is_xdigit c); [exfalso; auto|auto].
      - destruct (is_xdigit x); auto. apply IH. cbn in L. lia. }
    apply G. auto.
  Qed.
  Lemma text_bounds : forall fuel p len, no_hex_escape p -> length p < fuel ->
    text_len fuel p len = ScanBad \/ exists s rest, text_len fuel p len = ScanLen (len + length s) /\ text_copy fuel p = Some (s, rest).
  Proof.
    intros fuel. induction fuel as [|fuel IH]; intros p len H L; [lia|]. cbn [text_len text_copy]. destruct p as [|c r]; [auto|].
    cbn [length] in L. destruct (beq c """"%char).
    { right. exists [], r. split; [f_equal; cbn; lia|auto]. }
    assert (G : forall x r', no_hex_escape r' -> length r' < fuel -> text_len fuel r' (len + 1) = ScanBad \/
      exists s rest, text_len fuel r' (len + 1) = ScanLen (len + length s) /\ option_map (fun y => ([x] ++ fst y, snd y)) (text_copy fuel r') = Some (s, rest)).
    { intros x r' H' L'. destruct (IH r' (len + 1) H' L') as [E|(s & rest & E1 & E2)]; [auto|]. right. exists (x :: s), rest. rewrite E1, E2. split; [f_equal; cbn; lia|auto]. }
    destruct (beq c "\"%char) eqn:B.
    - apply beq_eq in B. subst c. rewrite (no_hex_run r) by auto. destruct r as [|d r']; [auto|].
      assert (H' : no_hex_escape r') by (apply (no_hex_suffix ["\"%char; d]); auto). cbn [length] in L.
      destruct (unescape d) as [o|]; apply G; auto; lia.
    - apply G; [apply (no_hex_suffix [c]); auto|lia].
  Qed.
  Lemma get_text_bounds : forall p, no_hex_escape p -> j_get_text p <> TextOut.
  Proof.
    intros p H. unfold j_get_text. destruct (text_bounds (S (length p)) p 1 H ltac:(lia)) as [E|(s & rest & E1 & E2)]; [rewrite E; discriminate|].
    rewrite E1, E2. replace (Nat.ltb (1 + length s) (length s + 1)) with false by lia. discriminate.
  Qed.

  Definition sound (ctx : list (context N)) : Prop := Forall (fun c => match c with CArray _ _ => True | CObject _ o _ => inv o end) ctx.

  Lemma deliver_bounds : forall k v ctx input, sound ctx -> (forall ctx x, sound ctx -> (exists p, input = p ++ x) -> k ctx x <> PCrash N) -> deliver N k v ctx input <> PCrash N.
  Proof.
    intros k v ctx input S K.
    assert (A : forall ctx, sound ctx -> after_value N k ctx input <> PCrash N).
    { intros ctx' S'. unfold after_value. destruct (skipws_suffix input) as [p E]. destruct (SKIPWS input) as [|c r]; [discriminate|].
      destruct (beq c ","%char); [apply K; auto; exists (p ++ [c]); rewrite <- app_assoc; auto|].
      destruct (beq c "]"%char || beq c "}"%char); [apply K; eauto|discriminate]. }
    unfold deliver. destruct ctx as [|[l|o [key|]] ctx]; try discriminate; inversion S as [|? ? S1 S2]; subst.
    - apply A. constructor; auto.
    - destruct (set_spec o key v S1) as (o' & -> & I & _). apply A. constructor; auto.
  Qed.
  Lemma parse_bounds : forall fuel ctx input, no_hex_escape input -> sound ctx -> parse N fuel ctx input <> PCrash N.
  Proof.
    intros fuel. induction fuel as [|fuel IH]; intros ctx input NH S; [discriminate|]. cbn [parse].
    destruct (skipws_suffix input) as [p E]. destruct (SKIPWS input) as [|c r]; [discriminate|].
    assert (Hr : no_hex_escape (c :: r)) by (apply (no_hex_suffix p); subst; auto).
    assert (Hr' : no_hex_escape r) by (apply (no_hex_suffix [c]); auto).
    assert (K : forall ctx x, sound ctx -> (exists q, c :: r = q ++ x) -> parse N fuel ctx x <> PCrash N).
    { intros ctx' x S' [q Q]. apply IH; auto. rewrite Q in Hr. eapply no_hex_suffix; eauto. }
    assert (D : forall v ctx x, sound ctx -> (exists q, c :: r = q ++ x) -> deliver N (parse N fuel) v ctx x <> PCrash N).
    { intros v ctx' x S' [q Q]. apply deliver_bounds; auto. intros ctx'' y S'' [q' Q']. apply K; auto. exists (q ++ q'). rewrite <- app_assoc. congruence. }
    assert (R0 : exists q, c :: r = q ++ r) by (exists [c]; auto).
    assert (S' : sound (tl ctx)) by (destruct S; [constructor|auto]).
    destruct (beq c "["%char); [apply K; auto; constructor; auto|].
    destruct (beq c "]"%char); [destruct ctx as [|[l|o key] ctx]; try discriminate; auto|].
    destruct (beq c "{"%char); [apply K; auto; constructor; auto; apply inv_new|].
    destruct (beq c "}"%char); [destruct ctx as [|[l|o key] ctx]; try discriminate; auto|].
    destruct (beq c """"%char).
    { pose proof (get_text_bounds r Hr') as TB. destruct (j_get_text r) as [s rest| |] eqn:T; try discriminate; [|congruence]. apply get_text_suffix in T as (q & _ & Q).
      assert (R1 : exists q, c :: r = q ++ rest) by (exists (c :: q); rewrite Q; auto).
      destruct ctx as [|[l|o [key|]] ctx]; auto.
      destruct (skipws_suffix rest) as [q' Q']. destruct (SKIPWS rest) as [|c' rest']; [discriminate|].
      destruct (beq c' ":"%char); [|discriminate]. apply K; [inversion S; subst; constructor; auto|]. exists (c :: q ++ q' ++ [c']). rewrite Q, Q'. cbn [app]. rewrite <- !app_assoc. reflexivity. }
    destruct (starts_number c) eqn:SC.
    { destruct (strtod N (c :: r)) as [[d|] rest] eqn:SD; [|discriminate]. apply SN in SD as [q Q]. apply D; eauto. }
    assert (W : forall w rest, word w (c :: r) = Some rest -> exists q, c :: r = q ++ rest).
    { intros w rest H. apply word_suffix in H. eauto. }
    destruct (word (lit "null") (c :: r)) eqn:W1; [apply D; eauto|].
    destruct (word (lit "true") (c :: r)) eqn:W2; [apply D; eauto|].
    destruct (word (lit "false") (c :: r)) eqn:W3; [apply D; eauto|]. discriminate.
  Qed.
  Lemma bounds : forall input, no_hex_escape input -> json_parse_string N input <> PCrash N.
  Proof. intros input H. apply parse_bounds; auto. constructor. Qed.
End Ends.
