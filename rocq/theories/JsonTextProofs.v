(** Proofs: what is written is read back. *)
From Coq Require Import Ascii String List ZArith Bool Lia ZifyBool ZifyNat Arith Sorted.
From Verif Require Import Bytes JsonModel JsonSpec JsonProofs.
Import ListNotations.
Local Open Scope nat_scope.
Local Open Scope string_scope.
Local Open Scope list_scope.

Definition QUOTE : byte := """"%char.
Definition BSL : byte := "\"%char.

(** ** Strings *)

Lemma escape_cases : forall c, match escape c with
  | Some o => unescape o = Some c /\ (is_xdigit o = true -> c = "008"%char \/ c = "012"%char)
  | None => beq c QUOTE = false /\ beq c BSL = false
  end.
Proof. intros [[] [] [] [] [] [] [] []]; cbn; auto; split; auto; discriminate. Qed.
Lemma hex_not_escaped : forall c, is_xdigit c = true -> escape c = None.
Proof. intros [[] [] [] [] [] [] [] []]; cbn; auto; discriminate. Qed.

Lemma hex_escaped : forall n s rest, ~ (exists a b, s = a ++ b /\ length a = n /\ Forall is_hex a) ->
  hex_run n (escape_text s ++ QUOTE :: rest) = Some false.
Proof.
  induction n as [|n IH]; intros s rest H; [exfalso; apply H; exists [], s; auto|].
  destruct s as [|c s]; cbn [escape_text].
  - reflexivity.
  - destruct (escape c) as [o|] eqn:E; cbn [app hex_run].
    + reflexivity.
    + destruct (is_xdigit c) eqn:X; auto. apply IH. intros (a & b & -> & L & F). apply H.
      exists (c :: a), b. split; [auto|]. split; [cbn; lia|]. constructor; auto.
Qed.

Lemma plain_tail : forall c s, plain (c :: s) -> plain s.
Proof.
  intros c s [N H]. split; [intros X; apply N; right; auto|].
  intros pre c' x y z post -> K. apply (H (c :: pre) c' x y z post); auto.
Qed.
Lemma plain_head : forall c s, plain (c :: s) -> c = "008"%char \/ c = "012"%char ->
  ~ (exists a b, s = a ++ b /\ length a = 3 /\ Forall is_hex a).
Proof.
  intros c s [_ H] K (a & b & -> & L & F). destruct a as [|x [|y [|z [|]]]]; try discriminate.
  inversion F as [|? ? F1 F']; subst. inversion F' as [|? ? F2 F'']; subst. inversion F'' as [|? ? F3 _]; subst.
  apply (H [] c x y z b); auto.
Qed.

Lemma text_len_ok : forall s fuel rest len, plain s -> length (escape_text s ++ QUOTE :: rest) < fuel ->
  text_len fuel (escape_text s ++ QUOTE :: rest) len = ScanLen (len + length s).
Proof.
  induction s as [|c s IH]; intros fuel rest len P F; (destruct fuel as [|fuel]; [lia|]).
  - cbn [escape_text app text_len length]. change (beq QUOTE """"%char) with true. cbv iota. f_equal. lia.
  - cbn [escape_text]. cbn [escape_text] in F. pose proof (escape_cases c) as C. destruct (escape c) as [o|] eqn:E.
    + destruct C as [C1 C2]. cbn [app] in F |- *. cbn [text_len]. change (beq "\"%char """"%char) with false. change (beq "\"%char "\"%char) with true. cbv iota.
      assert (HR : hex_run 4 (o :: escape_text s ++ QUOTE :: rest) = Some false).
      { cbn [hex_run]. destruct (is_xdigit o) eqn:X; auto. change (hex_run 3 (escape_text s ++ QUOTE :: rest) = Some false). apply hex_escaped.
        eapply plain_head; eauto. }
      rewrite HR. cbn [length] in F. rewrite IH; [|eapply plain_tail; eauto|lia].
      f_equal. cbn [length]. lia.
    + destruct C as [C1 C2]. cbn [app] in F |- *. cbn [text_len]. change """"%char with QUOTE. rewrite C1. change "\"%char with BSL. rewrite C2.
      cbn [length] in F. rewrite IH; [|eapply plain_tail; eauto|lia]. f_equal. cbn [length]. lia.
Qed.

Lemma text_copy_ok : forall s fuel rest, length (escape_text s ++ QUOTE :: rest) < fuel ->
  text_copy fuel (escape_text s ++ QUOTE :: rest) = Some (s, rest).
Proof.
  induction s as [|c s IH]; intros fuel rest F; (destruct fuel as [|fuel]; [lia|]).
  - reflexivity.
  - cbn [escape_text]. cbn [escape_text] in F. pose proof (escape_cases c) as C. destruct (escape c) as [o|] eqn:E.
    + destruct C as [C1 C2]. cbn [app] in F |- *. cbn [text_copy]. change (beq "\"%char """"%char) with false. change (beq "\"%char "\"%char) with true. cbv iota.
      rewrite C1. cbn [length] in F. rewrite IH by lia. reflexivity.
    + destruct C as [C1 C2]. cbn [app] in F |- *. cbn [text_copy]. change """"%char with QUOTE. rewrite C1. change "\"%char with BSL. rewrite C2.
      cbn [length] in F. rewrite IH by lia. reflexivity.
Qed.

Lemma get_text_ok : forall s rest, plain s -> j_get_text (escape_text s ++ QUOTE :: rest) = Text s rest.
Proof.
  intros s rest P. unfold j_get_text. rewrite text_len_ok by (auto; lia). rewrite text_copy_ok by lia.
  destruct (Nat.ltb _ _) eqn:L; auto. apply Nat.ltb_lt in L. lia.
Qed.

(** ** White space *)

Lemma skip_ws : forall w c r, Forall (fun x => ISSPACE x = true) w -> ISSPACE c = false -> SKIPWS (w ++ c :: r) = c :: r.
Proof.
  intros w c r F H. unfold SKIPWS. induction F as [|x w Hx F IH]; cbn [app span]; [rewrite H; auto|].
  rewrite Hx. destruct (span ISSPACE (w ++ c :: r)). auto.
Qed.
Lemma indent_ws : forall fmt n, Forall (fun x => ISSPACE x = true) (json_format_indent fmt n).
Proof. intros fmt n. unfold json_format_indent. apply Forall_forall. intros x Hx. apply repeat_spec in Hx. subst. reflexivity. Qed.
Lemma if_indent_ws : forall fmt w, Forall (fun x => ISSPACE x = true) w -> Forall (fun x => ISSPACE x = true) (if_indent fmt w).
Proof. intros fmt w F. unfold if_indent. destruct (f_indent fmt); auto. Qed.

Section Roundtrip.
  Variable N : numbers.
  Variable fmt : format.
  Notation jv := (jv N).
  Notation parse := (parse N).
  Notation context := (context N).

  (** The context is not waiting for a key. *)
  Definition open (ctx : list context) : Prop := match ctx with CObject _ _ None :: _ => False | _ => True end.

  (** The text [t] is read as [v]. *)
  Definition reads (t : bytes) (v : jv) : Prop :=
    (exists c r, t = c :: r /\ ISSPACE c = false) /\
    exists k, 1 <= k <= length t /\
    forall fuel ctx rest, ends_value rest -> open ctx -> parse (k + fuel) ctx (t ++ rest) = deliver N (parse fuel) v ctx rest.

  Lemma parse_ws : forall fuel ctx w t, Forall (fun x => ISSPACE x = true) w -> (exists c r, t = c :: r /\ ISSPACE c = false) ->
    parse (S fuel) ctx (w ++ t) = parse (S fuel) ctx t.
  Proof.
    intros fuel ctx w t F (c & r & -> & H). cbn [JsonModel.parse]. rewrite (skip_ws w c r) by auto.
    assert (E : SKIPWS (c :: r) = c :: r) by (apply (skip_ws [] c r); auto). rewrite E. reflexivity.
  Qed.
  Lemma parse_ws' : forall k fuel ctx w t rest, 1 <= k -> Forall (fun x => ISSPACE x = true) w -> (exists c r, t = c :: r /\ ISSPACE c = false) ->
    parse (k + fuel) ctx (w ++ t ++ rest) = parse (k + fuel) ctx (t ++ rest).
  Proof.
    intros k fuel ctx w t rest K F (c & r & -> & H). destruct k as [|k]; [lia|]. cbn [plus]. apply parse_ws; auto. exists c, (r ++ rest). auto.
  Qed.

  Lemma after_end : forall (k : list context -> bytes -> parsed N) ctx w c rest, Forall (fun x => ISSPACE x = true) w -> c = "]"%char \/ c = "}"%char ->
    after_value N k ctx (w ++ c :: rest) = k ctx (c :: rest).
  Proof.
    intros k ctx w c rest F H. unfold after_value. rewrite skip_ws; auto; [|destruct H as [->| ->]; reflexivity].
    destruct H as [->| ->]; reflexivity.
  Qed.
  Lemma after_comma : forall (k : list context -> bytes -> parsed N) ctx rest, after_value N k ctx (","%char :: rest) = k ctx rest.
  Proof. intros. reflexivity. Qed.

  (** The white space after a comma. *)
  Definition gap (level : nat) : bytes := match f_indent fmt with O => [SP] | _ => LF :: json_format_indent fmt level end.
  Lemma gap_ws : forall level, Forall (fun x => ISSPACE x = true) (gap level).
  Proof.
    intros level. unfold gap. destruct (f_indent fmt); [repeat constructor|]. constructor; [reflexivity|apply indent_ws].
  Qed.
  Definition close (level : nat) : bytes := if_indent fmt (LF :: json_format_indent fmt (level - 1)).
  Lemma close_ws : forall level, Forall (fun x => ISSPACE x = true) (close level).
  Proof. intros level. apply if_indent_ws. constructor; [reflexivity|apply indent_ws]. Qed.
  Lemma close_ends : forall level c rest, c = "]"%char \/ c = "}"%char -> ends_value (close level ++ c :: rest).
  Proof.
    intros level c rest H. unfold close, if_indent. destruct (f_indent fmt); cbn [app ends_value In]; [destruct H as [->| ->]; auto 10|auto].
  Qed.

  Definition more (level : nat) (ts : list bytes) : bytes := concat (map (fun i => json_format_delim fmt level ++ i) ts).

  Lemma enclose_ws : forall level i ts, enclose fmt level (i :: ts) =
    (if_indent fmt [LF] ++ json_format_indent fmt level) ++ i ++ more level ts ++ close level.
  Proof. intros level i ts. unfold enclose, more, close. rewrite <- app_assoc. auto. Qed.
  Lemma lead_ws : forall level, Forall (fun x => ISSPACE x = true) (if_indent fmt [LF] ++ json_format_indent fmt level).
  Proof. intros level. apply Forall_app. split; [apply if_indent_ws; repeat constructor|apply indent_ws]. Qed.

  (** *** Arrays *)

  Lemma items_read : forall level ts vs, Forall2 reads ts vs -> forall t v l w, reads t v -> Forall (fun x => ISSPACE x = true) w ->
    exists k, 1 <= k <= length (t ++ more level ts) /\ forall ctx rest fuel,
      parse (k + fuel) (CArray N l :: ctx) (w ++ t ++ more level ts ++ close level ++ "]"%char :: rest) =
      parse fuel (CArray N (l ++ v :: vs) :: ctx) ("]"%char :: rest).
  Proof.
    intros level ts vs F. induction F as [|t' v' ts vs R' F IH]; intros t v l w R W.
    - destruct R as (H0 & k & Hk & R0). exists k. unfold more. cbn [map concat app]. rewrite app_nil_r. split; [auto|]. intros ctx rest fuel.
      rewrite (parse_ws' k) by (auto; lia). rewrite R0; [|apply close_ends; auto|exact I].
      cbn [deliver]. rewrite after_end; auto. apply close_ws.
    - destruct R as (H0 & k0 & Hk0 & R0). destruct (IH t' v' (l ++ [v]) (gap level) R' (gap_ws level)) as (k & Hk & E).
      exists (k0 + k). unfold more. cbn [map concat]. fold (more level ts). split; [rewrite !app_length in *; lia|]. intros ctx rest fuel.
      rewrite <- !app_assoc. rewrite <- Nat.add_assoc. rewrite (parse_ws' k0) by (auto; lia). rewrite R0; [|cbn; auto|exact I].
      cbn [deliver]. unfold json_format_delim. cbn [app]. rewrite after_comma. fold (gap level).
      rewrite E. rewrite <- app_assoc. reflexivity.
  Qed.

  Lemma array_reads : forall level l vs, Forall2 reads l vs ->
    reads (lit "[" ++ enclose fmt level l ++ lit "]") (JArray N vs).
  Proof.
    intros level l vs F. split; [exists "["%char, (enclose fmt level l ++ lit "]"); auto|].
    inversion F as [|t v ts vs' R F' E1 E2]; subst.
    - exists 2. split; [cbn; lia|]. intros fuel ctx rest E O. reflexivity.
    - destruct (items_read level ts vs' F' t v [] (if_indent fmt [LF] ++ json_format_indent fmt level) R (lead_ws level)) as (k & Hk & K).
      rewrite enclose_ws. cbn [lit list_ascii_of_string app]. exists (S (k + 1)). split.
      { cbn [length]. rewrite !app_length in *. cbn [length]. lia. }
      intros fuel ctx rest E O. replace (S (k + 1) + fuel) with (S (k + S fuel)) by lia.
      rewrite <- !app_assoc. cbn [app]. cbn [JsonModel.parse].
      assert (X : forall x, SKIPWS ("["%char :: x) = "["%char :: x) by (intros x; apply (skip_ws [] "["%char x); auto). rewrite X.
      change (beq "["%char "["%char) with true. cbv iota.
      specialize (K ctx rest (S fuel)). rewrite <- !app_assoc in K. cbn [app] in K. rewrite K.
      cbn [JsonModel.parse].
      assert (Y : forall x, SKIPWS ("]"%char :: x) = "]"%char :: x) by (intros x; apply (skip_ws [] "]"%char x); auto). rewrite Y.
      reflexivity.
  Qed.

  (** *** Objects *)

  Definition member (k : bytes) (t : bytes) : bytes := json_format_escape k ++ lit ":" ++ if_indent fmt [SP] ++ t.

  Lemma quote_step : forall fuel ctx o key x, plain key ->
    parse (S fuel) (CObject N o None :: ctx) (json_format_escape key ++ lit ":" ++ x) = parse fuel (CObject N o (Some key) :: ctx) x.
  Proof.
    intros fuel ctx o key x P. unfold json_format_escape. rewrite <- !app_assoc. cbn [app lit list_ascii_of_string JsonModel.parse].
    assert (Y : forall x, SKIPWS (""""%char :: x) = """"%char :: x) by (intros y; apply (skip_ws [] """"%char y); auto). rewrite Y.
    change (beq """"%char "["%char) with false. change (beq """"%char "]"%char) with false. change (beq """"%char "{"%char) with false.
    change (beq """"%char "}"%char) with false. change (beq """"%char """"%char) with true. cbv iota.
    change """"%char with QUOTE. rewrite get_text_ok by auto.
    assert (Z : SKIPWS (":"%char :: x) = ":"%char :: x) by (apply (skip_ws [] ":"%char x); auto). rewrite Z. reflexivity.
  Qed.

  Lemma member_reads : forall k t v, plain k -> reads t v ->
    exists n, 1 <= n <= length (member k t) /\ forall fuel ctx ps w rest, Forall (fun x => ISSPACE x = true) w -> ends_value rest ->
      Forall (fun x => lt x k) (keys ps) ->
      parse (n + fuel) (CObject N (mkObj ps (length ps)) None :: ctx) (w ++ member k t ++ rest) =
      after_value N (parse fuel) (CObject N (mkObj (ps ++ [(k, v)]) (length (ps ++ [(k, v)]))) None :: ctx) rest.
  Proof.
    intros k t v P (H0 & n & Hn & R). exists (S n). split.
    { unfold member, json_format_escape. rewrite !app_length. cbn [length]. lia. }
    intros fuel ctx ps w rest W E L. cbn [plus]. rewrite parse_ws; auto.
    2:{ unfold member, json_format_escape. cbn [app]. eexists. eexists. split; [reflexivity|reflexivity]. }
    unfold member. rewrite <- !app_assoc. rewrite quote_step by auto. rewrite (parse_ws' n) by (auto; try lia; apply if_indent_ws; repeat constructor).
    rewrite R; auto; [|exact I]. cbn [deliver]. rewrite set_last by auto. reflexivity.
  Qed.

  Definition pair_reads (p : bytes * bytes) (v : bytes * jv) : Prop := fst p = fst v /\ plain (fst p) /\ reads (snd p) (snd v).
  Definition members (l : list (bytes * bytes)) : list bytes := map (fun p => member (fst p) (snd p)) l.

  Lemma pairs_read : forall level ts vs, Forall2 pair_reads ts vs -> forall t v ps w, pair_reads t v -> Forall (fun x => ISSPACE x = true) w ->
    StronglySorted lt (keys (ps ++ v :: vs)) ->
    exists k, 1 <= k <= length (member (fst t) (snd t) ++ more level (members ts)) /\ forall ctx rest fuel,
      parse (k + fuel) (CObject N (mkObj ps (length ps)) None :: ctx)
        (w ++ member (fst t) (snd t) ++ more level (members ts) ++ close level ++ "}"%char :: rest) =
      parse fuel (CObject N (mkObj (ps ++ v :: vs) (length (ps ++ v :: vs))) None :: ctx) ("}"%char :: rest).
  Proof.
    intros level ts vs F. induction F as [|t' v' ts vs R' F IH]; intros t v ps w (K1 & K2 & K3) W S;
      destruct (member_reads (fst t) (snd t) (snd v) K2 K3) as (n & Hn & M).
    - exists n. unfold more, members. cbn [map concat app]. rewrite app_nil_r. split; [auto|]. intros ctx rest fuel. rewrite M; auto.
      + rewrite K1. destruct v as [kv vv]. cbn [fst snd]. apply after_end; auto. apply close_ws.
      + apply close_ends. auto.
      + unfold keys in *. rewrite map_app in S. apply sorted_app in S as (_ & _ & S3). apply Forall_forall. intros x Hx. rewrite K1. apply S3; auto. left. auto.
    - destruct (IH t' v' (ps ++ [v]) (gap level) R' (gap_ws level)) as (k & Hk & E); [rewrite <- app_assoc; auto|].
      exists (n + k). unfold more, members. cbn [map concat]. fold (members ts). fold (more level (members ts)). split; [rewrite !app_length in *; lia|].
      intros ctx rest fuel. rewrite <- !app_assoc. rewrite <- Nat.add_assoc. rewrite M; auto.
      + rewrite K1. destruct v as [kv vv]. cbn [fst snd]. unfold json_format_delim. cbn [app]. rewrite after_comma. fold (gap level). rewrite E.
        rewrite <- !app_assoc. reflexivity.
      + cbn. auto.
      + unfold keys in *. rewrite map_app in S. apply sorted_app in S as (_ & _ & S3). apply Forall_forall. intros x Hx. rewrite K1. apply S3; auto. left. auto.
  Qed.

  Lemma object_reads : forall level l vs, Forall2 pair_reads l vs -> StronglySorted lt (keys vs) ->
    reads (lit "{" ++ enclose fmt level (members l) ++ lit "}") (JObject N vs).
  Proof.
    intros level l vs F S. split; [exists "{"%char, (enclose fmt level (members l) ++ lit "}"); auto|].
    inversion F as [|t v ts vs' R F' E1 E2]; subst.
    - exists 2. split; [cbn; lia|]. intros fuel ctx rest E O. reflexivity.
    - destruct (pairs_read level ts vs' F' t v [] (if_indent fmt [LF] ++ json_format_indent fmt level) R (lead_ws level) S) as (k & Hk & K).
      unfold members. cbn [map]. fold (members ts). rewrite enclose_ws. cbn [lit list_ascii_of_string app]. exists (Datatypes.S (k + 1)). split.
      { cbn [length]. rewrite !app_length in *. cbn [length]. lia. }
      intros fuel ctx rest E O. replace (Datatypes.S (k + 1) + fuel) with (Datatypes.S (k + Datatypes.S fuel)) by lia.
      rewrite <- !app_assoc. cbn [app]. cbn [JsonModel.parse].
      assert (X : forall x, SKIPWS ("{"%char :: x) = "{"%char :: x) by (intros x; apply (skip_ws [] "{"%char x); auto). rewrite X.
      change (beq "{"%char "["%char) with false. change (beq "{"%char "]"%char) with false. change (beq "{"%char "{"%char) with true. cbv iota.
      specialize (K ctx rest (Datatypes.S fuel)). rewrite <- !app_assoc in K. cbn [app length] in K. unfold json_new_object. rewrite K.
      cbn [JsonModel.parse].
      assert (Y : forall x, SKIPWS ("}"%char :: x) = "}"%char :: x) by (intros x; apply (skip_ws [] "}"%char x); auto). rewrite Y.
      reflexivity.
  Qed.

  (** *** Scalars *)

  Lemma null_reads : reads (lit "null") (JNull N).
  Proof. split; [eexists; eexists; split; reflexivity|]. exists 1. split; [cbn; lia|]. intros. reflexivity. Qed.
  Lemma bool_reads : forall b : bool, reads (if b then lit "true" else lit "false") (JBool N b).
  Proof.
    intros b. split; [destruct b; eexists; eexists; split; reflexivity|]. exists 1. split; [destruct b; cbn; lia|].
    intros. destruct b; reflexivity.
  Qed.
  Lemma string_reads : forall s, plain s -> reads (json_format_escape s) (JString N s).
  Proof.
    intros s P. unfold json_format_escape. split; [eexists; eexists; split; reflexivity|]. exists 1. split; [cbn; lia|].
    intros fuel ctx rest E O. cbn [plus app]. rewrite <- app_assoc. cbn [app JsonModel.parse].
    assert (Y : forall x, SKIPWS (""""%char :: x) = """"%char :: x) by (intros y; apply (skip_ws [] """"%char y); auto). rewrite Y.
    change (beq """"%char "["%char) with false. change (beq """"%char "]"%char) with false. change (beq """"%char "{"%char) with false.
    change (beq """"%char "}"%char) with false. change (beq """"%char """"%char) with true. cbv iota.
    change """"%char with QUOTE. rewrite get_text_ok by auto. destruct ctx as [|[l|o [key|]] ctx]; auto. destruct O.
  Qed.
  Lemma number_reads : forall t d, readable N t d -> reads t (JNumber N d).
  Proof.
    intros t d ((c & r & -> & C) & H). assert (X : ISSPACE c = false) by (clear H; destruct c as [[] [] [] [] [] [] [] []]; try reflexivity; discriminate C).
    split; [exists c, r; auto|]. exists 1. split; [cbn; lia|]. intros fuel ctx rest E O. cbn [plus app JsonModel.parse].
    assert (Y : SKIPWS (c :: r ++ rest) = c :: r ++ rest) by (apply (skip_ws [] c (r ++ rest)); auto). rewrite Y.
    specialize (H rest E). cbn [app] in H. rewrite H, C.
    assert (Z : beq c "["%char = false /\ beq c "]"%char = false /\ beq c "{"%char = false /\ beq c "}"%char = false /\ beq c """"%char = false).
    { clear - C. destruct c as [[] [] [] [] [] [] [] []]; try discriminate C; repeat split. }
    destruct Z as (-> & -> & -> & -> & ->). reflexivity.
  Qed.

  (** *** Values *)

  Section JvInd.
    Variable P : jv -> Prop.
    Hypothesis Hnull : P (JNull N).
    Hypothesis Hbool : forall b, P (JBool N b).
    Hypothesis Hnum : forall d, P (JNumber N d).
    Hypothesis Hint : forall d, P (JInteger N d).
    Hypothesis Hstr : forall s, P (JString N s).
    Hypothesis Harr : forall l, Forall P l -> P (JArray N l).
    Hypothesis Hobj : forall l : list (bytes * jv), Forall (fun p => P (snd p)) l -> P (JObject N l).
    Fixpoint jv_nest (v : jv) : P v :=
      match v with
      | JNull _ => Hnull
      | JBool _ b => Hbool b
      | JNumber _ d => Hnum d
      | JInteger _ d => Hint d
      | JString _ s => Hstr s
      | JArray _ l => Harr l ((fix go l := match l return Forall P l with [] => Forall_nil P | x :: l' => @Forall_cons _ P x l' (jv_nest x) (go l') end) l)
      | JObject _ l => Hobj l ((fix go l := match l return Forall (fun p => P (snd p)) l with
          | [] => Forall_nil _ | x :: l' => @Forall_cons _ (fun p => P (snd p)) x l' (jv_nest (snd x)) (go l') end) l)
      end.
  End JvInd.

  Lemma sorted_lt : forall ks, StronglySorted precedes ks -> StronglySorted lt ks.
  Proof.
    intros ks S. induction S as [|k ks S IH F]; constructor; auto. rewrite Forall_forall in *. intros x Hx. apply lt_precedes. auto.
  Qed.

  Lemma value_reads : forall v level, good N (f_precision fmt) v -> reads (json_value_format N fmt v level) (as_read N v).
  Proof.
    intros v. induction v as [|b|d|d|s|l IH|l IH] using jv_nest; intros level G; cbn [json_value_format as_read].
    - apply null_reads.
    - apply bool_reads.
    - apply number_reads. inversion G; auto.
    - apply number_reads. inversion G; auto.
    - apply string_reads. inversion G; auto.
    - inversion G as [| | | | |? F|]; subst. apply array_reads. clear G. induction IH as [|v l H IH IH']; cbn [map]; [constructor|].
      inversion F as [|? ? F1 F2]; subst. constructor; auto.
    - inversion G as [| | | | | |? F S]; subst.
      set (tl := map (fun p => (fst p, json_value_format N fmt (snd p) (Datatypes.S level))) l).
      assert (E : map (fun p => json_format_escape (fst p) ++ lit ":" ++ if_indent fmt [SP] ++ json_value_format N fmt (snd p) (Datatypes.S level)) l = members tl).
      { unfold members, tl. rewrite map_map. reflexivity. }
      rewrite E. apply object_reads.
      + unfold tl. clear G S E tl. induction IH as [|p l H IH IH']; cbn [map]; [constructor|].
        inversion F as [|? ? [F1 F1'] F2]; subst. constructor; auto. split; [reflexivity|]. cbn [fst snd]. auto.
      + apply sorted_lt. unfold keys. rewrite map_map. cbn [fst]. exact S.
  Qed.

  Lemma roundtrip : forall v level rest, good N (f_precision fmt) v -> ends_value rest ->
    json_parse_string N (json_value_format N fmt v level ++ rest) = POk N (as_read N v) rest.
  Proof.
    intros v level rest G E. destruct (value_reads v level G) as (_ & k & Hk & R). unfold json_parse_string.
    rewrite app_length. replace (S (length (json_value_format N fmt v level) + length rest)) with
      (k + (S (length (json_value_format N fmt v level)) + length rest - k)) by lia.
    rewrite R; auto. exact I.
  Qed.
End Roundtrip.
