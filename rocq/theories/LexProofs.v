From Coq Require Import Ascii String List ZArith Bool Lia ZifyBool ZifyNat.
From Verif Require Import Bytes LexModel LexSpec.
Import ListNotations.
Open Scope Z_scope.

(** ** Characters *)

Ltac each_byte c := destruct c as [[] [] [] [] [] [] [] []].

Lemma space_iff : forall c, is_space c = true <-> spacing c.
Proof.
  intros c. unfold spacing, blank. split.
  - intros H. each_byte c; vm_compute in H; try discriminate; solve [right; reflexivity|left; vm_compute; tauto].
  - intros [H| ->]; [|reflexivity]. unfold is_space. cbn [In] in H. lia.
Qed.
Lemma blank_iff : forall c, blank c <-> is_space c = true /\ c <> LF.
Proof.
  intros c. unfold blank. split.
  - intros H. split; [unfold is_space; cbn [In] in H; lia|]. intros ->. vm_compute in H. intuition discriminate.
  - intros [H K]. apply space_iff in H as [H| ->]; [exact H|exfalso; apply K; reflexivity].
Qed.
Lemma letter_iff : forall c, is_ident_start c = true <-> letter c.
Proof.
  intros c. unfold letter, is_ident_start, is_alpha, is_upper, is_lower. rewrite orb_true_iff, beq_eq. split.
  - intros [H| ->]; [lia|right; right; reflexivity].
  - intros [H|[H|H]]; [left; lia|left; lia|]. right. each_byte c; vm_compute in H; try discriminate; reflexivity.
Qed.
Lemma digit_iff : forall c, is_digit c = true <-> digit c.
Proof. intros c. unfold is_digit, digit. lia. Qed.
Lemma cont_iff : forall c, is_ident_cont c = true <-> letter c \/ digit c.
Proof. intros c. unfold is_ident_cont. rewrite orb_true_iff, letter_iff, digit_iff. tauto. Qed.
Lemma letter_not_space : forall c, letter c \/ digit c -> ~ spacing c.
Proof. intros c H K. apply space_iff in K. unfold letter, digit, is_space in *. lia. Qed.
Lemma letter_digit : forall c, letter c -> digit c -> False.
Proof. intros c H K. unfold letter, digit in *. lia. Qed.
Lemma cont_not_special : forall c, letter c \/ digit c -> c <> quote /\ c <> "#"%char.
Proof. intros c H. split; intros ->; unfold letter, digit in H; vm_compute in H; intuition congruence. Qed.

(** ** Positions *)

Lemma got_line : forall c l, c <> LF -> line (got c l) = line l.
Proof. intros c l H. unfold got. apply beq_neq in H. rewrite H. destruct (beq c TAB); reflexivity. Qed.
Lemma got_LF : forall l, got LF l = mkLoc (line l + 1) 0 (col l).
Proof. reflexivity. Qed.
Lemma unget_line : forall c l, line (ungot c (got c l)) = line l.
Proof. intros c l. unfold ungot, got. destruct (beq c LF); [cbn; lia|]. destruct (beq c TAB); reflexivity. Qed.
Lemma not_space_LF : forall c, is_space c = false -> c <> LF.
Proof. intros c H ->. discriminate. Qed.

(** ** Loops *)

Lemma comment_spec : forall s l b s' l', skip_comment s l = (b, s', l') ->
  if b then (exists body, s = body ++ LF :: s' /\ ~ In LF body /\ line l' = line l + 1) else (~ In LF s /\ s' = []).
Proof.
  induction s as [|c s IH]; intros l b s' l' H; cbn [skip_comment] in H.
  - injection H as <- <- <-. auto.
  - destruct (beq c LF) eqn:E.
    + apply beq_eq in E. subst c. injection H as <- <- <-. exists []. auto.
    + apply beq_neq in E. apply IH in H. destruct b.
      * destruct H as (body & -> & Hn & Hl). exists (c :: body). rewrite got_line in Hl by auto. split; [reflexivity|]. split; [|auto].
        intros [K|K]; auto.
      * destruct H as [H ->]. split; auto. intros [K|K]; auto.
Qed.

Ltac cong := unfold DQ, BSL, HASH, LF, quote, backslash, newline in *; congruence.

Lemma string_spec : forall n s, (length s <= n)%nat -> forall l buf r s' l', read_string s l buf = (r, s', l') ->
  match r with
  | Some v => exists b w, s = b ++ DQ :: s' /\ denotes b w /\ v = buf ++ w /\ line l' = line l
  | None => ~ exists b w r, s = b ++ DQ :: r /\ denotes b w
  end.
Proof.
  induction n as [|n IH]; intros s Hn l buf r s' l' H.
  - destruct s; [|cbn in Hn; lia]. injection H as <- <- <-. intros (b & w & r & E & _). destruct b; (discriminate || cong).
  - destruct s as [|c s]; [injection H as <- <- <-; intros (b & w & r & E & _); destruct b; (discriminate || cong)|].
    cbn [length] in Hn. cbn [read_string] in H. destruct (beq c DQ) eqn:E1.
    { apply beq_eq in E1. subst c. injection H as <- <- <-. exists [], []. rewrite app_nil_r. repeat split; auto. constructor. }
    apply beq_neq in E1. destruct (beq c BSL) eqn:E2.
    { apply beq_eq in E2. subst c. destruct s as [|d s].
      - injection H as <- <- <-. intros (b & w & r & E & K). destruct b as [|x [|y b]]; try (discriminate || cong).
      - destruct (beq d LF) eqn:E3.
        + apply beq_eq in E3. subst d. injection H as <- <- <-. intros (b & w & r & E & K).
          destruct K as [|c s0 v0 N1 N2 N3 K|c s0 v0 N3 K]; [(discriminate || cong)|injection E as E _; cong|injection E as E _; cong].
        + apply beq_neq in E3. apply IH in H; [|cbn [length] in Hn; lia]. destruct r as [v|].
          * destruct H as (b & w & -> & D & -> & Hl). exists (BSL :: d :: b), (d :: w). rewrite !got_line in Hl by (auto; (discriminate || cong)).
            split; [reflexivity|]. split; [apply den_escape; auto|]. split; [now rewrite <- app_assoc|auto].
          * intros (b & w & r & E & K). apply H. destruct K as [|c s0 v0 N1 N2 N3 K|c s0 v0 N3 K].
            -- (discriminate || cong).
            -- injection E as E _. cong.
            -- injection E as -> E. eauto. }
    apply beq_neq in E2. destruct (beq c LF) eqn:E3.
    { apply beq_eq in E3. subst c. injection H as <- <- <-. intros (b & w & r & E & K).
      destruct K as [|c s0 v0 N1 N2 N3 K|c s0 v0 N3 K]; [(discriminate || cong)|injection E as E _; cong|(discriminate || cong)]. }
    apply beq_neq in E3. apply IH in H; [|lia]. destruct r as [v|].
    + destruct H as (b & w & -> & D & -> & Hl). exists (c :: b), (c :: w). rewrite got_line in Hl by auto.
      split; [reflexivity|]. split; [apply den_char; auto|]. split; [now rewrite <- app_assoc|auto].
    + intros (b & w & r & E & K). apply H. destruct K as [|x s0 v0 N1 N2 N3 K|x s0 v0 N3 K].
      * injection E as E _. cong.
      * injection E as _ E. eauto.
      * injection E as E _. cong.
Qed.

Lemma ident_spec : forall s l buf buf' o s' l', read_ident s l buf = (buf', o, s', l') ->
  exists w, buf' = buf ++ w /\ Forall (fun c => is_ident_cont c = true) w /\
    match o with
    | None => s = w /\ s' = [] /\ line l' = line l
    | Some d => s = w ++ d :: s' /\ is_ident_cont d = false /\ exists l0, l' = got d l0 /\ line l0 = line l
    end.
Proof.
  induction s as [|c s IH]; intros l buf buf' o s' l' H; cbn [read_ident] in H.
  - injection H as <- <- <- <-. exists []. rewrite app_nil_r. auto 8.
  - destruct (is_ident_cont c) eqn:E.
    + apply IH in H as (w & -> & Hw & Ho). assert (Hc : c <> LF) by (intros ->; discriminate).
      exists (c :: w). rewrite <- app_assoc. split; [reflexivity|]. split; [auto|]. rewrite got_line in Ho by auto.
      destruct o as [d|].
      * destruct Ho as (-> & H1 & H2). auto.
      * destruct Ho as (-> & H1 & H2). auto.
    + injection H as <- <- <- <-. exists []. rewrite app_nil_r. split; auto. split; auto. split; auto. split; auto. exists l. auto.
Qed.

Lemma word_spec : forall s l buf num buf' num' s' l', read_word s l buf num = (buf', num', s', l') ->
  exists w, buf' = buf ++ w /\ s = w ++ s' /\ Forall (fun c => is_space c = false) w /\ num' = num && forallb is_digit w /\
    (s' = [] \/ exists c r, s' = c :: r /\ is_space c = true) /\ line l' = line l.
Proof.
  induction s as [|c s IH]; intros l buf num buf' num' s' l' H; cbn [read_word] in H.
  - injection H as <- <- <- <-. exists []. rewrite app_nil_r, andb_true_r. auto 9.
  - destruct (is_space c) eqn:E.
    + injection H as <- <- <- <-. exists []. rewrite app_nil_r, andb_true_r. split; auto. split; auto. split; auto. split; auto. split; [eauto|]. apply unget_line.
    + apply IH in H as (w & -> & -> & Hw & -> & Hs & Hl). exists (c :: w). rewrite got_line in Hl by (apply not_space_LF; auto).
      rewrite <- app_assoc. cbn [forallb]. rewrite andb_assoc. repeat split; auto.
Qed.

(** ** One token *)

Lemma cstr_id : forall b, cstring b -> cstr b = b.
Proof.
  intros b H. unfold cstr. rewrite <- (app_nil_r b) at 1. rewrite span_unique; auto.
  apply forallb_forall. intros x Hx. apply negb_true_iff, beq_neq. intros ->. auto.
Qed.
Lemma denotes_cstring : forall b v, denotes b v -> cstring b -> cstring v.
Proof.
  induction 1; intros H'; auto.
  - intros [E|E]; [apply H'; left; auto|]. apply IHdenotes; auto. intros K. apply H'. right; auto.
  - intros [E|E]; [apply H'; right; left; auto|]. apply IHdenotes; auto. intros K. apply H'. right; right; auto.
Qed.
Lemma cstring_app : forall a b, cstring (a ++ b) <-> cstring a /\ cstring b.
Proof. intros a b. unfold cstring. rewrite in_app_iff. tauto. Qed.

Lemma forallb_Forall : forall (f : byte -> bool) (P : byte -> Prop) w, (forall c, f c = true <-> P c) -> (forallb f w = true <-> Forall P w).
Proof. intros f P w H. rewrite forallb_forall, Forall_forall. split; intros K x Hx; apply H; auto. Qed.

Definition goes (t : token) (s s' : bytes) (l l' : locus) : Prop :=
  match type t with
  | T_EOF => lexes (line l) s []
  | T_ERROR => lexes (line l) s [view t]
  | _ => (length s' < length s)%nat /\ cstring s' /\ forall ts, lexes (line l') s' ts -> lexes (line l) s (view t :: ts)
  end.

Lemma goes_line : forall t s s' l l1 l', line l = line l1 -> goes t s s' l l' -> goes t s s' l1 l'.
Proof. intros t s s' l l1 l' H G. unfold goes in *. rewrite H in G. exact G. Qed.

(** the word from [pre], already read, and [c] *)
Lemma word_token : forall pre c s l t s' l' b buf num,
  read_word s l ((pre ++ [c])) (is_digit c) = (buf, num, s', l') ->
  t = mkTok (if num then T_NUMBER else T_LITERAL) (cstr buf) (fst b) (snd b) (line l') (col l') -> snd b = snd b -> fst b = line l ->
  cstring (pre ++ c :: s) -> is_space c = false ->
  (pre = [] /\ is_ident_start c = false /\ c <> DQ /\ c <> HASH \/
   exists p0 pr, pre = p0 :: pr /\ is_ident_start p0 = true /\ Forall (fun x => is_ident_cont x = true) pr /\ is_ident_cont c = false) ->
  goes t (pre ++ c :: s) s' l l'.
Proof.
  intros pre c s l t s' l' b buf num H -> _ Hb Hc Hsp Hpre. apply word_spec in H as (w & -> & -> & Hw & -> & Hs & Hl).
  set (W := (pre ++ [c]) ++ w).
  assert (HWs : pre ++ c :: w ++ s' = W ++ s') by (unfold W; rewrite <- !app_assoc; reflexivity).
  assert (Hns : Forall (fun c => ~ spacing c) W).
  { unfold W. rewrite !Forall_app. repeat split.
    - destruct Hpre as [[-> _]|(p0 & pr & -> & H1 & H2 & _)]; [constructor|]. constructor.
      + apply letter_not_space. left. apply letter_iff; auto.
      + eapply Forall_impl; [|exact H2]. intros x Hx. apply letter_not_space. apply cont_iff; auto.
    - constructor; [|constructor]. intros K. apply space_iff in K. cong.
    - eapply Forall_impl; [|exact Hw]. intros x Hx K. apply space_iff in K. cong. }
  assert (HW : word W).
  { split; auto. unfold W. destruct Hpre as [(-> & H1 & H2 & H3)|(p0 & pr & -> & H1 & _)].
    - exists c, w. auto.
    - exists p0, ((pr ++ [c]) ++ w). split; [reflexivity|]. apply cont_not_special. left. apply letter_iff; auto. }
  assert (Hcw : cstring W /\ cstring s').
  { rewrite HWs in Hc. apply cstring_app in Hc. auto. }
  assert (Hk : kind W (if is_digit c && forallb is_digit w then Number W else Literal W)).
  { destruct Hpre as [(-> & H1 & H2 & H3)|(p0 & pr & -> & H1 & H2 & H3)].
    - unfold W. cbn [app]. destruct (is_digit c && forallb is_digit w) eqn:E.
      + apply kind_number; [discriminate|]. apply (forallb_Forall is_digit digit (c :: w) digit_iff). exact E.
      + apply kind_literal.
        * intros K. apply (forallb_Forall is_digit digit (c :: w) digit_iff) in K. cbn [forallb] in K. cong.
        * intros (x & r & [= <- <-] & K & _). apply letter_iff in K. cong.
    - assert (Hd : is_digit c = false) by (unfold is_ident_cont in H3; apply orb_false_iff in H3; tauto). rewrite Hd. cbn [andb].
      apply kind_literal; unfold W.
      * intros K. rewrite !Forall_app in K. destruct K as [[_ K] _]. inversion K; subst. apply digit_iff in H4. cong.
      * intros (x & r & E & _ & K). cbn [app] in E. injection E as _ <-. rewrite !Forall_app in K. destruct K as [[_ K] _]. inversion K; subst.
        apply cont_iff in H4. cong. }
  assert (Hnext : s' = [] \/ exists c r, s' = c :: r /\ spacing c).
  { destruct Hs as [-> |(d & r & -> & K)]; [auto|]. right. exists d, r. split; auto. apply space_iff; auto. }
  rewrite HWs. fold W. rewrite (cstr_id W) by tauto.
  assert (Hlt : (length s' < length (W ++ s'))%nat) by (rewrite app_length; destruct HW as (_ & x & r & -> & _); cbn; lia).
  unfold goes, view, lex_of. destruct (is_digit c && forallb is_digit w); cbn [type str beg_line];
    (split; [exact Hlt|]; split; [tauto|]; intros ts Hts; rewrite Hl in Hts; rewrite Hb; apply lex_word; auto).
Qed.

Lemma scan_step : forall s l b t s' l', cstring s -> scan s l b = (t, s', l') -> goes t s s' l l'.
Proof.
  induction s as [|c s IH]; intros l b t s' l' Hc H.
  - injection H as <- <- <-. constructor.
  - cbn [scan] in H. assert (Hcs : cstring s) by (intros K; apply Hc; right; auto).
    destruct (beq c HASH) eqn:E1.
    { apply beq_eq in E1. subst c. destruct (skip_comment s (got HASH l)) as [[[] s1] l1] eqn:E.
      - injection H as <- <- <-. apply comment_spec in E as (body & -> & Hb & Hl). rewrite got_line in Hl by discriminate.
        unfold goes, view, lex_of. cbn [type beg_line fst]. split; [cbn [length]; rewrite app_length; cbn [length]; lia|].
        split; [apply cstring_app in Hcs as [_ K]; intros K'; apply K; right; auto|].
        intros ts Hts. rewrite Hl in *. replace (line l + 1 - 1) with (line l) by lia. apply lex_comment; auto.
      - injection H as <- <- <-. apply comment_spec in E as [Hn ->]. apply lex_comment_end; auto. }
    apply beq_neq in E1. destruct (beq c LF) eqn:E2.
    { apply beq_eq in E2. subst c. injection H as <- <- <-. unfold goes, view, lex_of. cbn [type beg_line fst]. rewrite got_LF. cbn [line].
      split; [cbn [length]; lia|]. split; [auto|]. intros ts Hts. replace (line l + 1 - 1) with (line l) by lia. apply lex_newline; auto. }
    apply beq_neq in E2. destruct (is_space c) eqn:E3.
    { apply IH in H; auto. assert (Hb : blank c) by (apply blank_iff; auto). unfold goes in *. rewrite got_line in H by auto.
      destruct (type t); try (constructor; auto; fail); (destruct H as (H1 & H2 & H3); split; [cbn [length]; lia|]; split; [auto|]; intros ts Hts; constructor; auto). }
    destruct (beq c DQ) eqn:E4.
    { apply beq_eq in E4. subst c. destruct (read_string s (got DQ l) []) as [[[v|] s1] l1] eqn:E.
      - injection H as <- <- <-. apply (string_spec (length s) s (le_n _)) in E as (b' & w & -> & D & -> & Hl). cbn [app] in *.
        rewrite got_line in Hl by discriminate.
        apply cstring_app in Hcs as [Hb Hs]. assert (Hw : cstring w) by (eapply denotes_cstring; eauto).
        unfold goes, view, lex_of. cbn [type str beg_line fst]. rewrite cstr_id by auto. split; [cbn [length]; rewrite app_length; cbn [length]; lia|].
        split; [intros K; apply Hs; right; auto|]. intros ts Hts. rewrite Hl in Hts. apply lex_quoted; auto.
      - injection H as <- <- <-. apply (string_spec (length s) s (le_n _)) in E. unfold goes, view, lex_of. cbn [type beg_line fst].
        apply lex_malformed. exact E. }
    apply beq_neq in E4. destruct (is_ident_start c) eqn:E5.
    + destruct (read_ident s (got c l) [c]) as [[[buf o] s1] l1] eqn:E. apply ident_spec in E as (w & -> & Hw & Ho).
      assert (Hwd : forall r, cstring (c :: w ++ r) -> (r = [] \/ exists d r', r = d :: r' /\ spacing d) -> forall ln n,
        lexes ln r n -> lexes ln (c :: w ++ r) ((Ident (cstr ([c] ++ w)), ln) :: n)).
      { intros r Hcr Hr ln n Hn. rewrite cstr_id by (apply (cstring_app (c :: w) r) in Hcr; tauto).
        change (c :: w ++ r) with (([c] ++ w) ++ r). apply lex_word; auto.
        - split.
          + constructor; [apply letter_not_space; left; apply letter_iff; auto|]. eapply Forall_impl; [|exact Hw]. intros x Hx. apply letter_not_space, cont_iff; auto.
          + exists c, w. auto.
        - apply kind_ident; [apply letter_iff; auto|]. eapply Forall_impl; [|exact Hw]. intros x Hx. apply cont_iff; auto. }
      destruct o as [d|].
      * destruct Ho as (-> & Hd & l0 & -> & Hl0). rewrite got_line in Hl0 by (intros ->; discriminate). destruct (is_space d) eqn:E6.
        -- injection H as <- <- <-. unfold goes, view, lex_of. cbn [type str beg_line fst]. split; [cbn [length]; rewrite app_length; cbn [length]; lia|].
           split; [apply (cstring_app (c :: w) (d :: s1)) in Hc; tauto|]. intros ts Hts. rewrite unget_line, Hl0 in Hts. rewrite got_line by (intros ->; discriminate).
           apply Hwd; auto. right. exists d, s1. split; auto. apply space_iff; auto.
        -- destruct (read_word s1 (got d l0) (([c] ++ w) ++ [d]) (is_digit d)) as [[[buf num] s2] l2] eqn:Er. injection H as <- <- <-.
           pose proof (word_token ([c] ++ w) d s1 (got d l0) _ s2 l2 (line (got c l), col (got c l)) buf num Er eq_refl eq_refl) as T.
           rewrite (got_line d) in T by (apply not_space_LF; auto).
           assert (G : goes (mkTok (if num then T_NUMBER else T_LITERAL) (cstr buf) (line (got c l)) (col (got c l)) (line l2) (col l2)) (c :: w ++ d :: s1) s2 (got d l0) l2).
           { apply T; auto.
             - cbn [fst]. rewrite got_line by auto. auto.
             - right. exists c, w. auto. }
           eapply goes_line; [|exact G]. rewrite got_line by (apply not_space_LF; auto). auto.
      * destruct Ho as (-> & -> & Hl). injection H as <- <- <-. unfold goes, view, lex_of. cbn [type str beg_line fst]. split; [cbn [length]; lia|].
        split; [intros []|]. intros ts Hts. rewrite got_line in Hl by auto. rewrite Hl in Hts. rewrite got_line by auto. rewrite <- (app_nil_r w) at 1. apply Hwd; auto. rewrite app_nil_r. auto.
    + destruct (read_word s (got c l) ([] ++ [c]) (is_digit c)) as [[[buf num] s2] l2] eqn:Er. injection H as <- <- <-.
      pose proof (word_token [] c s (got c l) _ s2 l2 (line (got c l), col (got c l)) buf num Er eq_refl eq_refl) as T. cbn [app fst snd] in T.
      assert (G : goes (mkTok (if num then T_NUMBER else T_LITERAL) (cstr buf) (line (got c l)) (col (got c l)) (line l2) (col l2)) (c :: s) s2 (got c l) l2).
      { apply T; auto. }
      eapply goes_line; [|exact G]. apply got_line; auto.
Qed.

(** ** All tokens *)

Lemma reads_all : forall n s l t0, (length s <= n)%nat -> cstring s -> exists ts, reads (mkIn s l t0 []) ts /\ lexes (line l) s (map view ts).
Proof.
  induction n as [|n IH]; intros s l t0 Hn Hc.
  - destruct s; [|cbn in Hn; lia]. exists []. split; [|constructor]. eapply reads_eof; [reflexivity|reflexivity].
  - destruct (scan s l (beg_line t0, beg_col t0)) as [[t s'] l'] eqn:E. pose proof (scan_step _ _ _ _ _ _ Hc E) as G.
    assert (Eg : input_gettkn (mkIn s l t0 []) = (t, mkIn s' l' t [])) by (unfold input_gettkn; cbn [putback rest loc tok]; rewrite E; reflexivity).
    unfold goes in G. destruct (type t) eqn:Et.
    1:{ exists []. split; [eapply reads_eof; eauto|exact G]. }
    6:{ exists [t]. split; [eapply reads_error; eauto|exact G]. }
    all: destruct G as (G1 & G2 & G3); destruct (IH s' l' t ltac:(lia) G2) as (ts & H1 & H2); exists (t :: ts);
      (split; [eapply reads_next; eauto; cong|cbn [map]; auto]).
Qed.

Lemma reads_fun : forall i ts, reads i ts -> forall ts', reads i ts' -> ts = ts'.
Proof.
  induction 1 as [i t i' E K|i t i' E K|i t i' ts E K1 K2 H IH]; intros ts' H'; inversion H'; subst; try cong.
  assert (i' = i'0) as <- by cong. f_equal; [cong|auto].
Qed.

(** ** The structure is unambiguous *)

Lemma denotes_split : forall b v, denotes b v -> forall b' v' r r', denotes b' v' -> b ++ quote :: r = b' ++ quote :: r' -> b = b' /\ v = v' /\ r = r'.
Proof.
  induction 1 as [|c s v N1 N2 N3 D IH|c s v N D IH]; intros b' v' r r' D' E; inversion D'; subst; cbn [app] in E.
  - injection E as E. auto.
  - injection E as E _. cong.
  - discriminate.
  - injection E as E _. cong.
  - injection E as <- E. destruct (IH _ _ _ _ H2 E) as (-> & -> & ->). auto.
  - injection E as E _. cong.
  - discriminate.
  - injection E as E _. cong.
  - injection E as <- E. destruct (IH _ _ _ _ H0 E) as (-> & -> & ->). auto.
Qed.
Lemma split_first : forall (p : byte -> Prop) w w' s s', Forall (fun c => ~ p c) w -> Forall (fun c => ~ p c) w' ->
  (s = [] \/ exists c r, s = c :: r /\ p c) -> (s' = [] \/ exists c r, s' = c :: r /\ p c) -> w ++ s = w' ++ s' -> w = w' /\ s = s'.
Proof.
  induction w as [|x w IH]; intros [|y w'] s s' H H' Hs Hs' E; cbn [app] in E; auto.
  - exfalso. inversion H'; subst. destruct Hs as [Hs|(c & r & Hs & K)]; [discriminate|]. injection Hs as <- _. auto.
  - exfalso. inversion H; subst. destruct Hs' as [Hs'|(c & r & Hs' & K)]; [discriminate|]. injection Hs' as <- _. auto.
  - inversion H; inversion H'; subst. injection E as <- E. destruct (IH w' s s') as [-> ->]; auto.
Qed.
Lemma kind_fun : forall w t t', kind w t -> kind w t' -> t = t'.
Proof.
  intros w t t' H H'. destruct H as [c r L F|w N F|w N1 N2]; inversion H'; subst; auto.
  - exfalso. inversion H0; subst. eapply letter_digit; eauto.
  - exfalso. apply H0. eauto.
  - exfalso. inversion F; subst. eapply letter_digit; eauto.
  - exfalso. auto.
  - exfalso. apply N2. eauto.
  - exfalso. auto.
Qed.

Lemma lex_inv : forall n s ts, lexes n s ts ->
  match s with
  | [] => ts = []
  | c :: r =>
      (blank c -> lexes n r ts) /\
      (c = newline -> exists ts', ts = (Newline, n) :: ts' /\ lexes (n + 1) r ts') /\
      (c = "#"%char -> (~ In newline r /\ ts = []) \/ exists b s' ts', r = b ++ newline :: s' /\ ~ In newline b /\ ts = (Newline, n) :: ts' /\ lexes (n + 1) s' ts') /\
      (c = quote -> (ts = [(Malformed, n)] /\ ~ (exists b v r', r = b ++ quote :: r' /\ denotes b v)) \/
         exists b v s' ts', r = b ++ quote :: s' /\ denotes b v /\ ts = (Quoted v, n) :: ts' /\ lexes n s' ts') /\
      (~ spacing c -> c <> "#"%char -> c <> quote -> exists w s' t ts', s = w ++ s' /\ word w /\ kind w t /\
         (s' = [] \/ exists c r, s' = c :: r /\ spacing c) /\ ts = (t, n) :: ts' /\ lexes n s' ts')
  end.
Proof.
  intros n s ts H. destruct H as [n|n c s ts B H|n s ts H|n b s ts N H|n b N|n b v s ts D H|n s N|n w s t ts W K S H].
  - reflexivity.
  - assert (c <> newline /\ c <> "#"%char /\ c <> quote) as (H1 & H2 & H3) by (repeat split; intros ->; vm_compute in B; intuition discriminate).
    repeat split; auto; try cong. intros F. exfalso. apply F. left; auto.
  - repeat split; try discriminate; eauto.
    + intros B. exfalso. vm_compute in B; intuition discriminate.
    + intros F. exfalso. apply F. right; reflexivity.
  - repeat split; try discriminate; try cong.
    + intros B. exfalso. vm_compute in B; intuition discriminate.
    + intros _. right. eauto 7.
  - repeat split; try discriminate; try cong.
    + intros B. exfalso. vm_compute in B; intuition discriminate.
    + intros _. left. auto.
  - repeat split; try discriminate; try cong.
    + intros B. exfalso. vm_compute in B; intuition discriminate.
    + intros _. right. eauto 8.
  - repeat split; try discriminate; try cong.
    + intros B. exfalso. vm_compute in B; intuition discriminate.
    + intros _. left. auto.
  - pose proof W as (F & c & r & -> & Q1 & Q2). cbn [app]. inversion F as [|x y Hx Hy]; subst. repeat split.
    + intros B. exfalso. apply Hx. left; auto.
    + intros ->. exfalso. apply Hx. right; reflexivity.
    + cong.
    + cong.
    + intros _ _ _. exists (c :: r), s, t, ts. auto 7.
Qed.

Lemma lexes_fun : forall n s ts, lexes n s ts -> forall ts', lexes n s ts' -> ts = ts'.
Proof.
  induction 1 as [n|n c s ts B H IH|n s ts H IH|n b s ts N H IH|n b N|n b v s ts D H IH|n s N|n w s t ts W K S H IH]; intros ts' H'; pose proof (lex_inv _ _ _ H') as I.
  - cbn in I. auto.
  - destruct I as (I & _). auto.
  - destruct I as (_ & I & _). destruct (I eq_refl) as (ts2 & -> & I2). f_equal. auto.
  - destruct I as (_ & _ & I & _). destruct (I eq_refl) as [[F _]|(b' & s' & ts2 & E & N' & -> & I2)].
    + exfalso. apply F. apply in_or_app. right. left; auto.
    + apply (split_first (fun c => c = newline)) in E as [-> E].
      * injection E as ->. f_equal. auto.
      * apply Forall_forall. intros x Hx ->. auto.
      * apply Forall_forall. intros x Hx ->. auto.
      * right. eauto.
      * right. eauto.
  - destruct I as (_ & _ & I & _). destruct (I eq_refl) as [[_ ->]|(b' & s' & ts2 & -> & _)]; auto.
    exfalso. apply N. apply in_or_app. right. left; auto.
  - destruct I as (_ & _ & _ & I & _). destruct (I eq_refl) as [[_ F]|(b' & v' & s' & ts2 & E & D' & -> & I2)].
    + exfalso. apply F. eauto.
    + destruct (denotes_split _ _ D _ _ _ _ D' E) as (-> & -> & ->). f_equal. auto.
  - destruct I as (_ & _ & _ & I & _). destruct (I eq_refl) as [[-> _]|(b' & v' & s' & ts2 & E & D' & _)]; auto.
    exfalso. apply N. eauto.
  - pose proof W as (F & c & r & -> & Q1 & Q2). cbn [app] in I. destruct I as (_ & _ & _ & _ & I).
    inversion F as [|x y Hx Hy]; subst. destruct (I Hx Q2 Q1) as (w' & s' & t' & ts2 & E & (F' & _) & K' & S' & -> & I2).
    change (c :: r ++ s) with ((c :: r) ++ s) in E. apply (split_first spacing) in E as [<- <-]; auto.
    f_equal; [|auto]. f_equal. eapply kind_fun; eauto.
Qed.

(** ** Quoting *)

Lemma escape_denotes : forall v, ~ In newline v -> denotes (escape v) v.
Proof.
  induction v as [|c v IH]; intros H; cbn [escape]; [constructor|].
  assert (Hc : c <> newline) by (intros ->; apply H; left; auto). assert (Hv : ~ In newline v) by (intros K; apply H; right; auto).
  destruct (Ascii.eqb_spec c quote) as [-> |N1]; [apply den_escape; auto|].
  destruct (Ascii.eqb_spec c backslash) as [-> |N2]; [apply den_escape; auto|]. apply den_char; auto.
Qed.

(** ** Putting back *)

Lemma put_all_spec : forall ts i, put_all i ts = if Nat.leb (length ts + length (putback i)) MAX_PUTBACK || Nat.eqb (length ts) 0 then Some (mkIn (rest i) (loc i) (tok i) (ts ++ putback i)) else None.
Proof.
  induction ts as [|t ts IH]; intros i; cbn [put_all].
  - rewrite orb_true_r. destruct i; reflexivity.
  - rewrite IH. unfold input_putback. cbn [length Nat.eqb]. rewrite orb_false_r. destruct (Nat.leb_spec (length ts + length (putback i)) MAX_PUTBACK) as [H|H]; cbn [orb].
    + cbn [putback rest loc tok app]. rewrite app_length.
      destruct (Nat.ltb_spec (length ts + length (putback i)) MAX_PUTBACK); destruct (Nat.leb_spec (S (length ts) + length (putback i)) MAX_PUTBACK); auto; lia.
    + destruct (Nat.leb_spec (S (length ts) + length (putback i)) MAX_PUTBACK); [lia|]. destruct ts; [|reflexivity].
      cbn [length Nat.eqb app putback rest loc tok]. cbn in H. destruct (Nat.ltb_spec (length (putback i)) MAX_PUTBACK); [lia|reflexivity].
Qed.
Lemma get_back : forall ts s l t0 p, fst (get_n (length ts) (mkIn s l t0 (ts ++ p))) = ts /\
  rest (snd (get_n (length ts) (mkIn s l t0 (ts ++ p)))) = s /\ loc (snd (get_n (length ts) (mkIn s l t0 (ts ++ p)))) = l /\
  putback (snd (get_n (length ts) (mkIn s l t0 (ts ++ p)))) = p.
Proof.
  induction ts as [|t ts IH]; intros s l t0 p; cbn [length get_n app]; [auto|].
  unfold input_gettkn. cbn [putback rest loc]. specialize (IH s l t p). destruct (get_n (length ts) (mkIn s l t (ts ++ p))) as [a b]. cbn [fst snd] in *.
  destruct IH as (-> & H2 & H3 & H4). auto.
Qed.

(** ** Text up to End *)

Lemma line_start_first : forall buf k, ~ In LF buf -> line_start buf k = 0%nat.
Proof.
  intros buf. induction k as [|k IH]; intros H; cbn [line_start]; auto.
  destruct (beq (nth (S k) buf NUL) LF) eqn:E; [|auto]. apply beq_eq in E. exfalso. apply H.
  destruct (Nat.lt_ge_cases (S k) (length buf)) as [K|K]; [rewrite <- E; apply nth_In; auto|]. rewrite nth_overflow in E by auto. discriminate.
Qed.
Lemma line_start_after : forall pre l j, ~ In LF l -> pre <> [] -> (j <= length l)%nat ->
  line_start ((pre ++ [LF]) ++ l) (length pre + j) = S (length pre).
Proof.
  intros pre l j Hl Hp. induction j as [|j IH]; intros Hj.
  - rewrite Nat.add_0_r. destruct pre as [|x pre]; [cong|]. cbn [length line_start].
    rewrite app_nth1 by (rewrite app_length; cbn; lia). rewrite app_nth2 by (cbn; lia). cbn [length]. rewrite Nat.sub_diag. reflexivity.
  - replace (length pre + S j)%nat with (S (length pre + j)) by lia. cbn [line_start].
    replace (beq (nth (S (length pre + j)) ((pre ++ [LF]) ++ l) NUL) LF) with false; [apply IH; lia|].
    symmetry. apply beq_neq. rewrite app_nth2 by (rewrite app_length; cbn; lia). rewrite app_length. cbn [length].
    replace (S (length pre + j) - (length pre + 1))%nat with j by lia. intros K. apply Hl. rewrite <- K. apply nth_In. lia.
Qed.

Lemma read_line : forall l s buf, ~ In LF l -> cfg_read_to_end (l ++ LF :: s) buf = cfg_read_to_end (LF :: s) (buf ++ l).
Proof.
  induction l as [|c l IH]; intros s buf H; [now rewrite app_nil_r|]. cbn [app].
  transitivity (if beq c LF then R_EOF else cfg_read_to_end (l ++ LF :: s) (buf ++ [c])).
  { cbn [cfg_read_to_end]. destruct (Ascii.eqb_spec c LF) as [-> |N]; [exfalso; apply H; left; auto|]. replace (beq c LF) with false by (symmetry; apply beq_neq; auto). reflexivity. }
  assert (E : beq c LF = false) by (apply beq_neq; intros ->; apply H; left; auto). rewrite E. rewrite IH by (intros K; apply H; right; auto).
  now rewrite <- app_assoc.
Qed.

Lemma span_trim : forall a w, Forall (fun c => is_space c = true) a -> (w = [] \/ exists c r, w = c :: r /\ is_space c = false) -> span is_space (a ++ w) = (a, w).
Proof.
  intros a w Ha Hw. apply span_unique; [apply forallb_forall; rewrite Forall_forall in Ha; auto|]. destruct Hw as [-> |(c & r & -> & K)]; auto.
Qed.
Lemma is_end_iff : forall l, ~ In LF l -> (is_end l = true <-> end_line l).
Proof.
  intros l Hl. unfold is_end, trim, ci_eqb. rewrite bytes_eqb_eq.
  assert (E0 : lower (lit "end") = lit "end") by reflexivity. rewrite E0. split.
  - intros H. pose proof (span_app is_space l) as A. pose proof (span_fst_all is_space l) as B.
    set (a := fst (span is_space l)) in *. set (s1 := snd (span is_space l)) in *.
    pose proof (span_app is_space (rev s1)) as C. pose proof (span_fst_all is_space (rev s1)) as D.
    set (b := fst (span is_space (rev s1))) in *. set (w := snd (span is_space (rev s1))) in *. clearbody a s1 b w.
    assert (E1 : s1 = rev w ++ rev b) by (rewrite <- (rev_involutive s1), <- C, rev_app_distr; reflexivity).
    exists a, (rev w), (rev b). subst l. rewrite E1 in *.
    split; [reflexivity|]. assert (Hbl : forall x, is_space x = true -> x <> LF -> blank x) by (intros x ? ?; apply blank_iff; auto).
    split; [|split; [|auto]].
    + apply Forall_forall. intros x Hx. apply Hbl; [rewrite forallb_forall in B; auto|]. intros ->. apply Hl. apply in_or_app. auto.
    + apply Forall_forall. intros x Hx. apply Hbl; [rewrite forallb_forall in D; apply D; apply in_rev; auto|].
      intros ->. apply Hl. apply in_or_app. right. apply in_or_app. auto.
  - intros (a & w & b & -> & Ha & Hb & Hw).
    assert (Hsp : forall x, Forall blank x -> Forall (fun c => is_space c = true) x) by (intros x K; eapply Forall_impl; [|exact K]; intros y Hy; apply blank_iff in Hy; tauto).
    destruct w as [|x [|y [|z [|? ?]]]]; try discriminate. cbn [lower map] in Hw. injection Hw as E1 E2 E3.
    assert (K : forall q d, to_lower q = d -> In d (lit "end") -> is_space q = false).
    { intros q d <- Hd. destruct (is_space q) eqn:E; auto. exfalso. each_byte q; vm_compute in E; try discriminate; vm_compute in Hd; intuition discriminate. }
    assert (Kx : is_space x = false) by (eapply K; [exact E1|cbn; auto]). assert (Kz : is_space z = false) by (eapply K; [exact E3|cbn; auto]).
    rewrite (span_trim a ([x; y; z] ++ b)) by (auto; right; exists x, ([y; z] ++ b); auto). cbn [snd]. rewrite rev_app_distr.
    rewrite (span_trim (rev b) (rev [x; y; z])) by (try (apply Forall_rev; auto); right; exists z, [y; x]; auto). cbn [snd]. rewrite rev_involutive.
    cbn [lower map]. rewrite E1, E2, E3. reflexivity.
Qed.

(** reading whole lines with a nonempty buffer that ends in a newline, or an empty one *)
Lemma read_lines : forall ls buf r, Forall (fun l => ~ In LF l /\ is_end l = false) ls ->
  (buf = [] /\ (forall l, hd_error ls = Some l -> l <> []) \/ exists pre, pre <> [] /\ buf = pre ++ [LF]) ->
  cfg_read_to_end (unlines ls ++ r) buf = cfg_read_to_end r (buf ++ unlines ls).
Proof.
  induction ls as [|l ls IH]; intros buf r Hl Hb; [cbn; now rewrite app_nil_r|].
  apply Forall_cons_iff in Hl as [[Hn He] Hl]. unfold unlines. cbn [map concat]. fold (unlines ls). rewrite <- !app_assoc. cbn [app].
  rewrite read_line by auto. cbn [cfg_read_to_end]. change (beq LF LF) with true. cbv iota.
  assert (Hne : buf ++ l <> []).
  { destruct Hb as [[-> K]|(pre & K & ->)]; [apply (K l eq_refl)|destruct pre; discriminate]. }
  assert (Hs : skipn (line_start (buf ++ l) (length (buf ++ l) - 1)) (buf ++ l) = l).
  { destruct Hb as [[-> K]|(pre & K & ->)].
    - cbn [app]. rewrite line_start_first by auto. reflexivity.
    - replace (length ((pre ++ [LF]) ++ l) - 1)%nat with (length pre + length l)%nat by (rewrite !app_length; cbn; lia).
      rewrite line_start_after by auto. replace (S (length pre)) with (length (pre ++ [LF])) by (rewrite app_length; cbn; lia).
      rewrite skipn_app, skipn_all, Nat.sub_diag. reflexivity. }
  destruct (buf ++ l) as [|x w] eqn:E; [cong|]. rewrite <- E in *. rewrite Hs, He. rewrite IH; auto.
  - f_equal. rewrite <- !app_assoc. reflexivity.
  - right. exists (buf ++ l). auto.
Qed.

Lemma read_end : forall e buf r, ~ In LF e -> is_end e = true -> (buf = [] \/ exists pre, pre <> [] /\ buf = pre ++ [LF]) ->
  cfg_read_to_end (e ++ LF :: r) buf = R_TEXT buf r.
Proof.
  intros e buf r Hn He Hb. rewrite read_line by auto. cbn [cfg_read_to_end]. change (beq LF LF) with true. cbv iota.
  assert (Hne : e <> []) by (intros ->; discriminate).
  assert (Hs : line_start (buf ++ e) (length (buf ++ e) - 1) = length buf).
  { destruct Hb as [-> |(pre & K & ->)].
    - cbn [app]. apply line_start_first; auto.
    - replace (length ((pre ++ [LF]) ++ e) - 1)%nat with (length pre + length e)%nat by (rewrite !app_length; cbn; lia).
      rewrite line_start_after by auto. rewrite app_length. cbn. lia. }
  destruct (buf ++ e) as [|x w] eqn:E; [destruct buf, e; try discriminate; cong|]. rewrite <- E in *. rewrite Hs.
  rewrite skipn_app, skipn_all, Nat.sub_diag. cbn [skipn app]. rewrite He. rewrite firstn_app, firstn_all, Nat.sub_diag. cbn. now rewrite app_nil_r.
Qed.
Lemma unlines_end : forall ls, ls <> [] -> (forall l, hd_error ls = Some l -> l <> []) -> exists pre, pre <> [] /\ unlines ls = pre ++ [LF].
Proof.
  intros ls H Hh. destruct ls as [|l ls]; [cong|]. specialize (Hh l eq_refl). clear H. revert l Hh.
  induction ls as [|l' ls IH] using rev_ind; intros l Hl.
  - exists l. unfold unlines. cbn. rewrite app_nil_r. auto.
  - exists (unlines (l :: ls) ++ l'). split; [|unfold unlines; cbn [map concat app]; rewrite map_app, concat_app; cbn; rewrite app_nil_r, !app_assoc; reflexivity].
    unfold unlines. cbn. destruct l; [cong|discriminate].
Qed.
Lemma read_text : forall ls e r, Forall (fun l => ~ In newline l /\ ~ end_line l) ls -> (forall l, hd_error ls = Some l -> l <> []) ->
  ~ In newline e -> end_line e -> cfg_read_to_end (unlines ls ++ e ++ newline :: r) [] = R_TEXT (unlines ls) r.
Proof.
  intros ls e r Hl Hh Hn He. rewrite read_lines.
  - cbn [app]. apply read_end; auto; [apply is_end_iff; auto|]. destruct ls as [|l ls]; [left; reflexivity|]. right. apply unlines_end; [discriminate|auto].
  - eapply Forall_impl; [|exact Hl]. intros l [K1 K2]. split; auto. destruct (is_end l) eqn:E; auto. exfalso. apply K2, is_end_iff; auto.
  - left. auto.
Qed.
Lemma read_text_eof : forall ls l, Forall (fun l => ~ In newline l /\ ~ end_line l) ls -> (forall l, hd_error ls = Some l -> l <> []) ->
  ~ In newline l -> cfg_read_to_end (unlines ls ++ l) [] = R_EOF.
Proof.
  intros ls l Hl Hh Hn. rewrite read_lines.
  - generalize ([] ++ unlines ls). induction l as [|c l IH]; intros buf; cbn [cfg_read_to_end]; auto.
    assert (E : beq c LF = false) by (apply beq_neq; intros ->; apply Hn; left; auto). rewrite E. apply IH. intros K. apply Hn. right; auto.
  - eapply Forall_impl; [|exact Hl]. intros l' [K1 K2]. split; auto. destruct (is_end l') eqn:E; auto. exfalso. apply K2, is_end_iff; auto.
  - left. auto.
Qed.

(** ** Included files *)

Lemma gettkn_ids : forall st, exists pre, map fst st = pre ++ map fst (snd (gettkn st)).
Proof.
  induction st as [|[id i] st IH]; [exists []; reflexivity|]. cbn [gettkn]. destruct (input_gettkn i) as [t i'].
  destruct (type t); try (exists []; reflexivity). destruct IH as [pre IH]. exists (id :: pre). cbn [map fst app]. now rewrite IH.
Qed.
Lemma stack_nodup : forall ops st, NoDup (map fst st) -> NoDup (map fst (fold_left stack_step ops st)).
Proof.
  induction ops as [|o ops IH]; intros st H; cbn [fold_left]; auto. apply IH. destruct o as [id text|]; cbn [stack_step].
  - unfold push_input. destruct (existsb (fun e => Z.eqb (fst e) id) st) eqn:E; auto. cbn [map fst]. constructor; auto.
    intros K. apply in_map_iff in K as (e & K1 & K2). assert (existsb (fun e => Z.eqb (fst e) id) st = true) by (apply existsb_exists; exists e; split; auto; apply Z.eqb_eq; auto). cong.
  - destruct (gettkn_ids st) as [pre E]. rewrite E in H. clear -H. induction pre; cbn in H; auto. inversion H; auto.
Qed.

Lemma stack_concat : forall i ts, reads i ts -> forall id st ts', stack_reads st ts' ->
  stack_reads ((id, i) :: st) (if existsb (fun t => match type t with T_ERROR => true | _ => false end) ts then ts else ts ++ ts').
Proof.
  induction 1 as [i t i' E K|i t i' E K|i t i' ts E K1 K2 H IH]; intros id st ts' H'.
  - cbn [existsb app]. destruct H' as [st st' G|st t0 st' G T|st t0 st' ts G T R].
    + eapply sr_eof. cbn [gettkn]. rewrite E, K. exact G.
    + eapply sr_error; [|exact T]. cbn [gettkn]. rewrite E, K. exact G.
    + eapply sr_next; [|exact T|exact R]. cbn [gettkn]. rewrite E, K. exact G.
  - cbn [existsb]. rewrite K. cbn [orb]. eapply sr_error; [|exact K]. cbn [gettkn]. rewrite E, K. reflexivity.
  - cbn [existsb]. replace (match type t with T_ERROR => true | _ => false end) with false by (destruct (type t); congruence). cbn [orb].
    specialize (IH id st ts' H').
    assert (G : gettkn ((id, i) :: st) = (Some t, (id, i') :: st)) by (cbn [gettkn]; rewrite E; destruct (type t) eqn:Et; congruence).
    destruct (existsb _ ts); [exact (sr_next _ _ _ _ G K2 IH)|exact (sr_next _ _ _ (ts ++ ts') G K2 IH)].
Qed.

(** ** For the theorems *)

Lemma quote_value : forall v, cstring v -> ~ In newline v ->
  exists t, reads (input_open (quote :: escape v ++ [quote])) [t] /\ type t = T_STRING /\ str t = v.
Proof.
  intros v Hc Hn. pose proof (escape_denotes v Hn) as D.
  assert (Hce : cstring (escape v)).
  { clear - Hc. induction v as [|c v IH]; [intros []|]. assert (c <> NUL) by (intros ->; apply Hc; left; auto). assert (cstring v) by (intros K; apply Hc; right; auto).
    cbn [escape]. unfold cstring in *. destruct (Ascii.eqb c quote); [|destruct (Ascii.eqb c backslash)]; cbn [In]; intuition discriminate. }
  assert (Hcs : cstring (quote :: escape v ++ [quote])).
  { intros [K|K]; [discriminate|]. apply in_app_or in K as [K|[K|[]]]; [auto|discriminate]. }
  destruct (reads_all _ (quote :: escape v ++ [quote]) (mkLoc 1 0 0) (mkTok T_EOF [] 0 0 0 0) (le_n _) Hcs) as (ts & H1 & H2).
  assert (E : map view ts = [(Quoted v, 1)]).
  { eapply lexes_fun; [exact H2|]. apply lex_quoted; [auto|]. constructor. }
  destruct ts as [|t [|? ?]]; try discriminate. exists t. split; [exact H1|]. unfold view, lex_of in E. cbn [map] in E.
  destruct (type t); try discriminate. injection E as E _. auto.
Qed.

Lemma put_get : forall i ts i', ts <> [] -> put_all i ts = Some i' ->
  (length ts + length (putback i) <= 3)%nat /\
  let (ts', i'') := get_n (length ts) i' in ts' = ts /\ rest i'' = rest i /\ loc i'' = loc i /\ putback i'' = putback i.
Proof.
  intros i ts i' Hn H. rewrite put_all_spec in H. destruct ts as [|t ts]; [congruence|]. cbn [length Nat.eqb] in H. rewrite orb_false_r in H.
  destruct (Nat.leb_spec (S (length ts) + length (putback i)) MAX_PUTBACK) as [K|K]; [|discriminate]. assert (E : i' = mkIn (rest i) (loc i) (tok i) ((t :: ts) ++ putback i)) by congruence.
  split; [exact K|]. pose proof (get_back (t :: ts) (rest i) (loc i) (tok i) (putback i)) as G. rewrite <- E in G.
  destruct (get_n (length (t :: ts)) i') as [ts' i'']. cbn [fst snd] in G. exact G.
Qed.
Lemma put_room : forall i ts, (length ts + length (putback i) <= 3)%nat -> exists i', put_all i ts = Some i'.
Proof.
  intros i ts H. rewrite put_all_spec. change MAX_PUTBACK with 3%nat. destruct (Nat.leb_spec (length ts + length (putback i)) 3); [|lia]. eexists. reflexivity.
Qed.
