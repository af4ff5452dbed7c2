(** Proofs about the tokens of a template *)
From Coq Require Import Ascii String List ZArith Bool Lia.
From Verif Require Import Bytes TplModel TplSpec.
Import ListNotations.
Local Open Scope nat_scope.
Local Open Scope string_scope.
Local Open Scope list_scope.

Ltac chr := vm_compute; congruence.

(** ** Spans *)
Lemma span_all : forall p w r, (forall c, In c w -> p c = true) ->
  (forall c r', r = c :: r' -> p c = false) -> span p (w ++ r) = (w, r).
Proof.
  induction w as [|c w IH]; intros r A B; cbn [app].
  - destruct r as [|c r]; cbn [span]; [reflexivity|]. rewrite (B c r) by reflexivity. reflexivity.
  - cbn [span]. rewrite (A c) by (left; reflexivity). rewrite IH; [reflexivity| |exact B].
    intros d I. apply A. right. exact I.
Qed.
Lemma head_false : forall (p : byte -> bool) c0 r0, p c0 = false -> forall c r', c0 :: r0 = c :: r' -> p c = false.
Proof. intros p c0 r0 H c r' E. injection E as <- <-. exact H. Qed.

Lemma starts_app : forall s b, starts s (s ++ b) = true.
Proof. induction s as [|c s IH]; intros b; [reflexivity|]. cbn [app starts]. rewrite beq_refl. apply IH. Qed.
Lemma starts_true : forall s b, starts s b = true -> exists r, b = s ++ r.
Proof.
  induction s as [|c s IH]; intros b H; [exists b; reflexivity|].
  destruct b as [|d b]; [discriminate|]. cbn [starts] in H. apply andb_prop in H. destruct H as [H1 H2].
  apply beq_eq in H1. subst d. destruct (IH _ H2) as (r & ->). exists r. reflexivity.
Qed.

(** ** Blanks *)
Lemma blank_app : forall a, blank a -> forall b, blank b -> blank (a ++ b).
Proof.
  induction 1 as [|c a H B IH|t a H B IH]; intros b D; [exact D| |].
  - cbn [app]. constructor; [exact H|]. apply IH, D.
  - rewrite <- !app_assoc. constructor; [exact H|]. apply IH, D.
Qed.
Lemma slash_not_space : is_space "/"%char = false. Proof. reflexivity. Qed.
Lemma blank_tail : forall c b, is_space c = true -> blank (c :: b) -> blank b.
Proof.
  intros c b H B. remember (c :: b) as l eqn:E. destruct B as [|c' b' H' B'|t b' H' B']; [discriminate| |].
  - injection E as _ ->. exact B'.
  - exfalso. cbn in E. injection E as E _. subst c. discriminate.
Qed.

Lemma comment_skip : forall t, ~ occurs (lit "*/") t -> forall a r,
  skip true a (t ++ lit "*/" ++ r) = skip false (rev (t ++ lit "*/") ++ a) r.
Proof.
  induction t as [|c t IH]; intros N a r.
  - reflexivity.
  - assert (N' : ~ occurs (lit "*/") t).
    { intros (x & y & E). apply N. exists (c :: x), y. rewrite E. reflexivity. }
    cbn [app rev]. rewrite <- app_assoc. cbn [app].
    change (skip true a (c :: t ++ lit "*/" ++ r)) with
      (if beq c "*"%char then
          match t ++ lit "*/" ++ r with
          | [] => SkLoop
          | d :: r' => if beq d "/"%char then skip false (d :: c :: a) r' else skip true (c :: a) (t ++ lit "*/" ++ r)
          end
        else skip true (c :: a) (t ++ lit "*/" ++ r)).
    destruct (beq c "*"%char) eqn:C.
    + apply beq_eq in C. subst c. destruct t as [|d t].
      * reflexivity.
      * cbn [app]. destruct (beq d "/"%char) eqn:D.
        -- apply beq_eq in D. subst d. exfalso. apply N. exists [], t. reflexivity.
        -- change (d :: t ++ lit "*/" ++ r) with ((d :: t) ++ lit "*/" ++ r). apply IH, N'.
    + apply IH, N'.
Qed.

Lemma skip_blank : forall b, blank b -> forall a r, skip false a (b ++ r) = skip false (rev b ++ a) r.
Proof.
  induction 1 as [|c b H B IH|t b H B IH]; intros a r; [reflexivity| |].
  - cbn [app rev]. cbn [skip]. rewrite H. rewrite IH, <- app_assoc. reflexivity.
  - rewrite <- !app_assoc. change (lit "/*" ++ t ++ lit "*/" ++ b ++ r) with
      ("/"%char :: "*"%char :: t ++ lit "*/" ++ b ++ r).
    cbn [skip]. rewrite slash_not_space. rewrite !beq_refl.
    rewrite comment_skip by exact H. rewrite IH. f_equal.
    change (lit "/*" ++ t ++ lit "*/" ++ b) with ("/"%char :: "*"%char :: t ++ lit "*/" ++ b).
    cbn [rev]. rewrite !rev_app_distr, <- !app_assoc. reflexivity.
Qed.

(** A character at which skipping stops *)
Definition solid (c : byte) : Prop := is_space c = false /\ c <> "/"%char.
Lemma skip_solid : forall c a r, solid c -> skip false a (c :: r) = SkAt a (c :: r).
Proof.
  intros c a r (A & B). cbn [skip]. rewrite A. destruct (beq c "/"%char) eqn:E; [|reflexivity].
  apply beq_eq in E. contradiction.
Qed.
Lemma lex_blank : forall b, blank b -> forall a r, lex a (b ++ r) = lex (rev b ++ a) r.
Proof. intros b B a r. unfold lex. rewrite skip_blank by exact B. reflexivity. Qed.
Lemma lex_solid : forall c a r, solid c -> lex a (c :: r) = token_at a (c :: r).
Proof. intros c a r H. unfold lex. rewrite skip_solid by exact H. reflexivity. Qed.

(** ** Words *)
Lemma run_word : forall p mk w a r, (forall c, In c w -> p c = true) ->
  (forall c r', r = c :: r' -> p c = false) -> r <> [] ->
  run p mk a (w ++ r) = Lex (mk w) None (rev w ++ a) r.
Proof.
  intros p mk w a r A B N. unfold run. rewrite (span_all p w r A B). destruct r; [contradiction|reflexivity].
Qed.

Lemma alpha_space : forall c, is_alpha c = true -> solid c.
Proof.
  intros c H. split.
  - destruct (is_space c) eqn:E; [|reflexivity]. revert H E. unfold is_alpha, is_upper, is_lower, is_space.
    destruct c as [[] [] [] [] [] [] [] []]; cbn; congruence.
  - intros ->. discriminate.
Qed.
Lemma digit_solid : forall c, is_digit c = true -> solid c.
Proof.
  intros c H. split.
  - destruct c as [[] [] [] [] [] [] [] []]; revert H; cbn; congruence.
  - intros ->. discriminate.
Qed.
Lemma digit_not_alpha : forall c, is_digit c = true -> is_alpha c = false.
Proof. intros c. destruct c as [[] [] [] [] [] [] [] []]; cbn; congruence. Qed.
Lemma alnum_ident : forall c, is_alpha c = true -> ident_char c = true.
Proof. intros c H. unfold ident_char, is_alnum. rewrite H. reflexivity. Qed.
Lemma alpha_attr : forall c, is_alpha c = true -> attr_char c = true.
Proof. intros c H. unfold attr_char, is_alnum. rewrite H. reflexivity. Qed.

Lemma name_chars : forall s, name s -> (forall c, In c s -> ident_char c = true).
Proof.
  intros s (c & r & -> & A & B) d [<-|I]; [apply alnum_ident, A|]. unfold ident_char.
  destruct (B d I) as [H| ->]; [rewrite H; reflexivity|]. reflexivity.
Qed.
Lemma attr_chars : forall s, attr_name s -> (forall c, In c s -> attr_char c = true).
Proof.
  intros s (c & r & -> & A & B) d [<-|I]; [apply alpha_attr, A|]. unfold attr_char.
  destruct (B d I) as [H|[->| ->]]; [rewrite H; reflexivity| |]; reflexivity.
Qed.

(** What ends a word, a number, a chain of attributes *)
Definition breaks (r : bytes) : Prop :=
  exists c r', r = c :: r' /\ attr_char c = false /\ c <> "."%char.
Lemma breaks_ident : forall r, breaks r -> forall c r', r = c :: r' -> ident_char c = false.
Proof.
  intros r (d & r1 & -> & A & _) c r' E. injection E as <- <-. unfold ident_char. unfold attr_char in A.
  apply orb_false_iff in A. apply A.
Qed.
Lemma breaks_attr : forall r, breaks r -> forall c r', r = c :: r' -> attr_char c = false.
Proof. intros r (d & r1 & -> & A & _) c r' E. injection E as <- <-. exact A. Qed.
Lemma breaks_nil : forall r, breaks r -> r <> [].
Proof. intros r (c & r' & -> & _). discriminate. Qed.
Lemma breaks_digit : forall c r', breaks (c :: r') -> is_digit c = false.
Proof.
  intros c r' (d & r1 & E & A & _). injection E as <- <-. unfold attr_char, is_alnum in A.
  repeat (apply orb_false_iff in A; destruct A as [A ?]). assumption.
Qed.
Lemma breaks_alpha : forall c r', breaks (c :: r') -> is_alpha c = false.
Proof.
  intros c r' (d & r1 & E & A & _). injection E as <- <-. unfold attr_char, is_alnum in A.
  do 3 (apply orb_false_iff in A; destruct A as [A ?]). exact A.
Qed.
Lemma space_attr : forall c, is_space c = true -> attr_char c = false.
Proof. intros c. destruct c as [[] [] [] [] [] [] [] []]; cbn; congruence. Qed.
Lemma space_breaks : forall r, space_first r -> breaks r.
Proof.
  intros r (c & r' & -> & H). exists c, r'. split; [reflexivity|]. split; [apply space_attr, H|]. intros ->. discriminate.
Qed.

Lemma lex_ident : forall a w r, name w -> breaks r -> lex a (w ++ r) = Lex (TIdent w) None (rev w ++ a) r.
Proof.
  intros a w r N B. pose proof (name_chars w N) as C. destruct N as (c & w' & -> & A & _).
  cbn [app]. rewrite lex_solid by (apply alpha_space, A). unfold token_at. rewrite A.
  change (c :: w' ++ r) with ((c :: w') ++ r). apply run_word; [exact C|apply breaks_ident, B|apply breaks_nil, B].
Qed.
(** ... where another character than one of a name follows *)
Lemma lex_word : forall a w r, name w -> r <> [] -> (forall c r', r = c :: r' -> ident_char c = false) ->
  lex a (w ++ r) = Lex (TIdent w) None (rev w ++ a) r.
Proof.
  intros a w r N B D. pose proof (name_chars w N) as C. destruct N as (c & w' & -> & A & _).
  cbn [app]. rewrite lex_solid by (apply alpha_space, A). unfold token_at. rewrite A.
  change (c :: w' ++ r) with ((c :: w') ++ r). apply run_word; assumption.
Qed.

Lemma lex_attr : forall a w r, attr_name w -> breaks r \/ (exists r', r = "."%char :: r') ->
  lex a ("."%char :: w ++ r) = Lex (TAttr w) None (rev w ++ "."%char :: a) r.
Proof.
  intros a w r N B. pose proof (attr_chars w N) as C. destruct N as (c & w' & -> & A & _).
  rewrite lex_solid by (split; [reflexivity|discriminate]). unfold token_at.
  change (is_alpha "."%char) with false. change (is_digit "."%char) with false. cbn [beq].
  change (beq "."%char """"%char) with false. change (beq "."%char "."%char) with true.
  cbn iota. cbn [app head_is]. rewrite A. change (c :: w' ++ r) with ((c :: w') ++ r).
  apply run_word; [exact C| |].
  - destruct B as [B|(r' & ->)]; [apply breaks_attr, B|]. intros d r1 E. injection E as <- <-. reflexivity.
  - destruct B as [B|(r' & ->)]; [apply breaks_nil, B|discriminate].
Qed.

Lemma lex_var : forall a w r, name w -> r <> [] -> (forall c r', r = c :: r' -> ident_char c = false) ->
  lex a ("$"%char :: w ++ r) = Lex (TVar w) None (rev w ++ "$"%char :: a) r.
Proof.
  intros a w r N D B. pose proof (name_chars w N) as C. destruct N as (c & w' & -> & A & _).
  rewrite lex_solid by (split; [reflexivity|discriminate]). unfold token_at.
  change (is_alpha "$"%char) with false. change (is_digit "$"%char) with false.
  change (beq "$"%char """"%char) with false. change (beq "$"%char "."%char) with false.
  change (beq "$"%char "-"%char) with false. change (beq "$"%char "$"%char) with true.
  cbn iota. cbn [app head_is andb]. rewrite A. change (c :: w' ++ r) with ((c :: w') ++ r).
  apply run_word; assumption.
Qed.

Lemma lex_dot : forall a r, breaks r -> lex a (lit "." ++ r) = Lex TDot None ("."%char :: a) r.
Proof.
  intros a r (c & r' & -> & A & B). change (lit "." ++ c :: r') with ("."%char :: c :: r').
  rewrite lex_solid by (split; [reflexivity|discriminate]).
  unfold token_at. cbn [head_is]. replace (is_alpha c) with false.
  2:{ symmetry. apply (breaks_alpha c r'). exists c, r'. auto. }
  reflexivity.
Qed.

(** ** Numbers *)
Lemma digit_code : forall c, is_digit c = true -> (0 <= code c - 48 <= 9)%Z.
Proof. intros c H. unfold is_digit in H. lia. Qed.
Lemma value_from_ge : forall s n, (0 <= n)%Z -> (forall c, In c s -> is_digit c = true) -> (n <= value_from n s)%Z.
Proof.
  induction s as [|c s IH]; intros n N D; cbn [value_from]; [lia|].
  pose proof (digit_code c (D c (or_introl eq_refl))). specialize (IH (n * 10 + (code c - 48))%Z).
  assert (n * 10 + (code c - 48) <= value_from (n * 10 + (code c - 48)) s)%Z.
  { apply IH; [lia|]. intros d I. apply D. right. exact I. }
  lia.
Qed.
Lemma digits_read : forall sign s n a r, (0 <= n)%Z -> (forall c, In c s -> is_digit c = true) ->
  (value_from n s <= LONG_MAX)%Z -> (exists c r', r = c :: r' /\ is_digit c = false) ->
  digits sign n a (s ++ r) = Lex (TNum (sign * value_from n s)) None (rev s ++ a) r.
Proof.
  induction s as [|c s IH]; intros n a r N D V B.
  - destruct B as (c & r' & -> & B). cbn [app digits value_from rev]. rewrite B. reflexivity.
  - cbn [app digits value_from rev]. cbn [value_from] in V.
    pose proof (D c (or_introl eq_refl)) as Dc. rewrite Dc. pose proof (digit_code c Dc) as R.
    assert (Ds : forall d, In d s -> is_digit d = true) by (intros d I; apply D; right; exact I).
    assert (G : (n * 10 + (code c - 48) <= value_from (n * 10 + (code c - 48)) s)%Z) by (apply value_from_ge; [lia|exact Ds]).
    replace (LONG_MAX - n <? code c - 48)%Z with false by (unfold LONG_MAX in *; lia).
    replace (LONG_MAX <? n * 10 + (code c - 48))%Z with false by lia.
    rewrite IH; [|lia|exact Ds|exact V|exact B]. rewrite <- app_assoc. reflexivity.
Qed.

Lemma lex_number : forall a n s r, number n s -> breaks r -> lex a (s ++ r) = Lex (TNum n) None (rev s ++ a) r.
Proof.
  intros a n s r H B.
  assert (E : exists c r', r = c :: r' /\ is_digit c = false).
  { pose proof B as (c & r' & -> & _). exists c, r'. split; [reflexivity|]. apply (breaks_digit c r' B). }
  destruct H as [s N D V|s N D V].
  - destruct s as [|c s]; [contradiction|]. pose proof (D c (or_introl eq_refl)) as Dc.
    cbn [app]. rewrite lex_solid by (apply digit_solid, Dc). unfold token_at.
    rewrite (digit_not_alpha c Dc), Dc. change (c :: s ++ r) with ((c :: s) ++ r).
    rewrite digits_read; [|lia|exact D|exact V|exact E]. rewrite Z.mul_1_l. reflexivity.
  - destruct s as [|c s]; [contradiction|]. pose proof (D c (or_introl eq_refl)) as Dc.
    change (("-"%char :: c :: s) ++ r) with ("-"%char :: (c :: s) ++ r).
    rewrite lex_solid by (split; [reflexivity|discriminate]). unfold token_at.
    change (is_alpha "-"%char) with false. change (is_digit "-"%char) with false.
    change (beq "-"%char """"%char) with false. change (beq "-"%char "."%char) with false.
    change (beq "-"%char "-"%char) with true. cbn iota.
    replace (head_is is_digit ((c :: s) ++ r)) with true by (symmetry; exact Dc). cbn [andb].
    rewrite digits_read; [|lia|exact D|exact V|exact E].
    replace (-1 * value_from 0 (c :: s))%Z with (- value_from 0 (c :: s))%Z by lia.
    cbn [rev]. rewrite <- !app_assoc. reflexivity.
Qed.

(** ** Strings *)
Lemma unescape_known : forall e c, In (e, c) escapes -> e <> """"%char /\ unescape e = [c].
Proof.
  intros e c H. unfold escapes in H.
  repeat (destruct H as [H|H]; [injection H as <- <-; split; [discriminate|reflexivity]|]). contradiction.
Qed.
Lemma unescape_other : forall e, (forall c, ~ In (e, c) escapes) -> unescape e = ["\"%char; e].
Proof.
  intros e H. unfold unescape.
  repeat match goal with
         | |- (if beq e ?k then _ else _) = _ =>
             let E := fresh in destruct (beq e k) eqn:E;
             [apply beq_eq in E; subst e; exfalso; eapply H; cbn; tauto|]
         end.
  reflexivity.
Qed.
Lemma quoted_read : forall s t, in_quotes s t -> forall a r,
  exists e, quoted a (t ++ """"%char :: r) = (Some (s, """"%char :: rev t ++ a, r), e).
Proof.
  induction 1 as [|c s t C1 C2 H IH|e c s t C H IH|e s t C1 C2 H IH]; intros a r.
  - exists a. reflexivity.
  - cbn [app quoted]. replace (beq c """"%char) with false by (symmetry; apply beq_neq, C1).
    replace (beq c "\"%char) with false by (symmetry; apply beq_neq, C2).
    destruct (IH (c :: a) r) as (x & ->). exists x. cbn [rev]. rewrite <- app_assoc. reflexivity.
  - destruct (unescape_known e c C) as (Q & U).
    cbn [app quoted]. change (beq "\"%char """"%char) with false. rewrite (beq_refl "\"%char).
    replace (beq e """"%char) with false by (symmetry; apply beq_neq, Q).
    destruct (IH (e :: "\"%char :: a) r) as (x & ->). exists x. rewrite U. cbn [rev]. rewrite <- !app_assoc. reflexivity.
  - cbn [app quoted]. change (beq "\"%char """"%char) with false. rewrite (beq_refl "\"%char).
    replace (beq e """"%char) with false by (symmetry; apply beq_neq, C1).
    destruct (IH (e :: "\"%char :: a) r) as (x & ->). exists x. rewrite (unescape_other e C2).
    cbn [rev]. rewrite <- !app_assoc. reflexivity.
Qed.
Lemma lex_string : forall a s t r, in_quotes s t ->
  lex a (""""%char :: t ++ lit """" ++ r) = Lex (TStr s) None (rev (""""%char :: t ++ lit """") ++ a) r.
Proof.
  intros a s t r H. rewrite lex_solid by (split; [reflexivity|discriminate]). unfold token_at.
  change (is_alpha """"%char) with false. change (is_digit """"%char) with false.
  rewrite (beq_refl """"%char). cbn iota.
  destruct (quoted_read s t H (""""%char :: a) r) as (e & E).
  change (lit """" ++ r) with (""""%char :: r). rewrite E.
  change (lit """") with [""""%char]. cbn [rev]. rewrite rev_app_distr. cbn [rev app]. rewrite <- app_assoc. reflexivity.
Qed.

(** ** Punctuation *)
Definition mark (c : byte) : Prop := In c (lit "()|=,_").
Lemma lex_mark : forall c a r, mark c -> lex a (c :: r) = Lex (TChar c) None (c :: a) r.
Proof.
  intros c a r H. unfold mark in H. cbn in H.
  repeat (destruct H as [H|H]; [subst c; reflexivity|]). contradiction.
Qed.

(** Where one goes on after an action that trims what follows, or not *)
Definition place (trim : bool) (a b : bytes) : bytes * bytes :=
  if trim then (rev (fst (span is_space b)) ++ a, snd (span is_space b)) else (a, b).

Lemma lex_end : forall a r, lex a (lit "}}" ++ r) = Lex TEnd None (rev (lit "}}") ++ a) r.
Proof. intros a r. reflexivity. Qed.
Lemma lex_trim_end : forall a r, head_is is_space a = true -> 2 <= length a ->
  lex a (lit "-}}" ++ r) = Lex TEnd None (fst (place true (rev (lit "-}}") ++ a) r)) (snd (place true (rev (lit "-}}") ++ a) r)).
Proof.
  intros a r H L. change (lit "-}}" ++ r) with ("-"%char :: "}"%char :: "}"%char :: r).
  rewrite lex_solid by (split; [reflexivity|discriminate]). unfold token_at.
  change (is_alpha "-"%char) with false. change (is_digit "-"%char) with false.
  change (beq "-"%char """"%char) with false. change (beq "-"%char "."%char) with false.
  rewrite (beq_refl "-"%char). change (beq "-"%char "$"%char) with false. cbn iota.
  cbn [head_is andb]. change (is_digit "}"%char) with false. cbn iota.
  change (starts (lit "{{") ("-"%char :: "}"%char :: "}"%char :: r)) with false.
  change (starts (lit "}}") ("-"%char :: "}"%char :: "}"%char :: r)) with false. cbn iota.
  replace (Nat.ltb 1 (length a)) with true by (symmetry; apply Nat.ltb_lt; lia).
  replace (starts (lit "}}") ("}"%char :: "}"%char :: r)) with true by reflexivity.
  change (match a with [] => false | c :: _ => is_space c end) with (head_is is_space a).
  rewrite H. cbn [andb skipn]. unfold place, lex_forth, forth. cbn [fst snd].
  pose proof (span_app is_space r) as E. destruct (span is_space r) as [w x]. cbn [fst snd] in *. subst r.
  cbn [Nat.add firstn skipn]. rewrite firstn_app, skipn_app, Nat.sub_diag, firstn_all, skipn_all. cbn [firstn skipn app].
  rewrite app_nil_r. cbn [rev]. rewrite <- !app_assoc. reflexivity.
Qed.

Lemma rev_space_last : forall b, space_last b -> exists c t, rev b = c :: t /\ is_space c = true.
Proof. intros b (r & c & -> & H). exists c, (rev r). rewrite rev_app_distr. split; [reflexivity|exact H]. Qed.

(** The end of an action *)
Lemma lex_close : forall b r a R, blank b -> (r = true -> head_is is_space (rev b ++ a) = true /\ 2 <= length (rev b ++ a)) ->
  lex a (b ++ dash r ++ lit "}}" ++ R) =
  Lex TEnd None (fst (place r (rev (b ++ dash r ++ lit "}}") ++ a) R)) (snd (place r (rev (b ++ dash r ++ lit "}}") ++ a) R)).
Proof.
  intros b r a R B H. rewrite lex_blank by exact B. destruct r; cbn [dash].
  - destruct (H eq_refl) as (H1 & H2). change (lit "-" ++ lit "}}" ++ R) with (lit "-}}" ++ R).
    rewrite lex_trim_end by assumption. rewrite rev_app_distr, <- app_assoc. reflexivity.
  - cbn [app]. rewrite lex_end. cbn [place fst snd]. rewrite rev_app_distr, <- app_assoc. reflexivity.
Qed.
