(** Lemmas about AnsModel. *)
From Coq Require Import Ascii String List ZArith Bool Lia.
From Verif Require Import Bytes ClenSpec TokSpec ReqSpec FrameSpec RespSpec NumSpec StreamModel NumModel NumProofs HdrProofs JsonModel AnsModel AnsSpec.
Import ListNotations.
Local Open Scope string_scope.
Local Open Scope list_scope.
Local Open Scope Z_scope.

(** ** Lines *)
Lemma gets_line : forall t n rest, ~ In LF t -> Z.of_nat (length t) < n -> gets n (t ++ LF :: rest) = (t ++ [LF], rest).
Proof.
  induction t as [|c t IH]; intros n rest H L; cbn [gets app length] in *.
  - destruct (Z.leb_spec n 0); [lia|]. rewrite beq_refl. reflexivity.
  - destruct (Z.leb_spec n 0); [lia|]. destruct (beq c LF) eqn:E; [apply beq_eq in E; subst; exfalso; apply H; left; reflexivity|].
    rewrite IH; [reflexivity|intros I; apply H; right; exact I|lia].
Qed.

Lemma drop_last_eq : forall c l, drop_last c (l ++ [c]) = l.
Proof. intros c l. unfold drop_last. rewrite rev_unit, beq_refl. apply rev_involutive. Qed.

Lemma xgets_line : forall t rest, fit t -> xgets (t ++ CRLF ++ rest) = (t, rest).
Proof.
  intros t rest (R & L & _ & B). unfold xgets. replace (t ++ CRLF ++ rest) with ((t ++ [CR]) ++ LF :: rest) by (rewrite <- app_assoc; reflexivity).
  rewrite gets_line.
  - rewrite drop_last_eq, drop_last_eq. reflexivity.
  - intros I. apply in_app_or in I. destruct I as [I|[I|[]]]; [exact (L I)|discriminate I].
  - rewrite app_length. cbn [length]. unfold MAXBUF. lia.
Qed.

Lemma cstr_all : forall t, ~ In NUL t -> cstr_of t = t.
Proof.
  induction t as [|c t IH]; intros H; [reflexivity|]. cbn [cstr_of]. destruct (beq c NUL) eqn:E; [apply beq_eq in E; subst; exfalso; apply H; left; reflexivity|].
  rewrite IH; [reflexivity|intros I; apply H; right; exact I].
Qed.

Lemma fit_cstr : forall t, fit t -> cstr_of t = t.
Proof. intros t (_ & _ & N & _). apply cstr_all, N. Qed.

Lemma xgets_end : forall rest, xgets (CRLF ++ rest) = ([], rest).
Proof. reflexivity. Qed.

(** ** The status line *)
Lemma prefix_app : forall p s, after_prefix p (p ++ s) = Some s.
Proof. induction p as [|c p IH]; intros s; [reflexivity|]. cbn [after_prefix app]. rewrite beq_refl. apply IH. Qed.

Lemma prefix_split : forall p s r, after_prefix p s = Some r -> s = p ++ r.
Proof.
  induction p as [|c p IH]; intros s r H; cbn [after_prefix] in H; [injection H as ->; reflexivity|]. destruct s as [|x s]; [discriminate|].
  destruct (beq c x) eqn:E; [|discriminate]. apply beq_eq in E. subst. cbn [app]. f_equal. apply IH, H.
Qed.

Lemma blank_space : forall bl, Forall blank bl -> forallb is_space bl = true.
Proof. intros bl H. induction H as [|c bl [-> | ->] _ IH]; [reflexivity|exact IH|exact IH]. Qed.

Lemma digit_space : forall c d, decimal c d -> is_space c = false /\ num_digit 10 c = true /\ d = code c - 48.
Proof. intros c d H. apply num_digit_decimal in H as [H E]. destruct (digit_plain 10 c ltac:(lia) H) as [S _]. auto. Qed.

Lemma skip_spaces : forall bl a s, Forall blank bl -> is_space a = false -> snd (span is_space (bl ++ a :: s)) = a :: s.
Proof. intros bl a s B A. rewrite (span_unique is_space bl (a :: s) (blank_space bl B) A). reflexivity. Qed.

Lemma scan_rest : forall s neg v rest, scan_number 10 s = Some (neg, v, rest) -> exists q, s = q ++ rest.
Proof.
  intros s neg v rest H. unfold scan_number in H.
  pose proof (span_app is_space s) as E1. set (s1 := snd (span is_space s)) in *.
  assert (X : exists sg neg' s2, s1 = sg ++ s2 /\ match s1 with
    | c :: r => if beq c "-"%char then (true, r) else if beq c "+"%char then (false, r) else (false, s1)
    | [] => (false, s1) end = (neg', s2)).
  { destruct s1 as [|c r]; [exists [], false, []; auto|]. destruct (beq c "-"%char); [exists [c], true, r; auto|].
    destruct (beq c "+"%char); [exists [c], false, r; auto|exists [], false, (c :: r); auto]. }
  destruct X as (sg & neg' & s2 & X1 & X2). rewrite X2 in H. pose proof (span_app (num_digit 10) s2) as E2.
  destruct (span (num_digit 10) s2) as [ds r2]. destruct ds as [|d ds]; [discriminate|]. injection H as _ _ <-.
  exists (fst (span is_space s) ++ sg ++ d :: ds). transitivity (fst (span is_space s) ++ s1); [symmetry; exact E1|]. rewrite X1, <- E2. cbn [fst snd]. rewrite <- !app_assoc. reflexivity.
Qed.

Lemma strtol_rest : forall s b v e, strtol s 10 = (b, v, e) -> exists q, s = q ++ e.
Proof.
  intros s b v e H. unfold strtol in H. destruct (scan_number 10 s) as [[[neg n] r]|] eqn:E; [|injection H as _ _ ->; exists []; reflexivity].
  assert (r = e) as -> by (destruct (LONG_MAX <? _); [|destruct (_ <? LONG_MIN)]; injection H; auto). eapply scan_rest, E.
Qed.

Lemma status_line_read : forall line v code, status_line line v code -> exists t, response_line line = Got (code, t, v).
Proof.
  intros line v cd (dv & bl & a & b & c & tail & x & y & z & -> & V & NB & B & A & Bd & Cd & X & -> & T).
  unfold response_line. rewrite prefix_app. cbn [app].
  assert (EV : code dv - 48 = v) by (destruct V as [[-> ->]|[-> ->]]; reflexivity). rewrite EV.
  assert (GV : ((v =? 0) || (v =? 1)) = true) by (destruct V as [[_ ->]|[_ ->]]; reflexivity). rewrite GV. cbn [negb].
  destruct (digit_space a x A) as (SA & DA & ->). destruct (digit_space b y Bd) as (_ & DB & ->). destruct (digit_space c z Cd) as (_ & DC & ->).
  assert (HS : head_space (bl ++ a :: b :: c :: tail) = true) by (destruct B as [|s bl [-> | ->] B]; [congruence|reflexivity|reflexivity]).
  rewrite HS. cbn [negb]. rewrite skip_spaces by assumption.
  assert (NT : strtol (a :: b :: c :: tail) 10 = (false, num_value 10 [a; b; c], tail)).
  { unfold strtol. change (a :: b :: c :: tail) with ([a; b; c] ++ tail). rewrite scan_plain; [|lia|discriminate|cbn [forallb]; rewrite DA, DB, DC; reflexivity|].
    - cbv zeta iota. unfold num_digit in *. destruct (Z.ltb_spec LONG_MAX (num_value 10 [a; b; c])) as [Y|Y];
        [exfalso; unfold num_value, LONG_MAX in Y; cbn [fold_left] in Y; lia|].
      destruct (Z.ltb_spec (num_value 10 [a; b; c]) LONG_MIN) as [W|W]; [exfalso; unfold num_value, LONG_MIN in W; cbn [fold_left] in W; lia|reflexivity].
    - intros q r ->. destruct T as [T|(t & u & T & [-> | ->])]; [discriminate T|injection T as -> _; reflexivity|injection T as -> _; reflexivity]. }
  rewrite NT. cbv beta iota. assert (EC : num_value 10 [a; b; c] = 100 * (code a - 48) + 10 * (code b - 48) + (code c - 48)) by (unfold num_value; cbn [fold_left]; lia).
  rewrite EC. unfold num_digit in *. destruct (Z.leb_spec (100 * (code a - 48) + 10 * (code b - 48) + (code c - 48)) 0); [lia|].
  cbn [length]. replace (length tail + 3)%nat with (S (S (S (length tail)))) by lia. rewrite Nat.eqb_refl. cbn [orb negb]. eexists. reflexivity.
Qed.

Lemma take_all : forall t n, Z.of_nat (length t) <= n -> take n t = t.
Proof.
  induction t as [|c t IH]; intros n L; [reflexivity|]. cbn [take length] in *. destruct (Z.leb_spec n 0); [lia|]. rewrite IH by lia. reflexivity.
Qed.

Lemma reason_read : forall line t cd t' v, fit line -> reason line t -> response_line line = Got (cd, t', v) -> t' = t.
Proof.
  intros line t cd t' v F (pre & a & b & c & x & y & z & sp & -> & (dv & bl & -> & B) & A & _ & _ & S & NH) H.
  unfold response_line in H. rewrite <- !app_assoc in H. rewrite prefix_app in H. cbn [app] in H.
  destruct (negb ((code dv - 48 =? 0) || (code dv - 48 =? 1))); [discriminate|].
  destruct (negb (head_space (bl ++ a :: b :: c :: sp ++ t))); [discriminate|].
  destruct (digit_space a x A) as (SA & _ & _). rewrite skip_spaces in H by assumption.
  destruct (strtol (a :: b :: c :: sp ++ t) 10) as [[q n] e] eqn:E. destruct (strtol_rest _ _ _ _ E) as (p & Ep).
  destruct (n <=? 0); [discriminate|]. destruct (Nat.eqb_spec (length (a :: b :: c :: sp ++ t)) (length e + 3)) as [EL|NE]; [|discriminate].
  cbn [orb negb] in H. injection H as _ <- _.
  assert (e = sp ++ t).
  { assert (length p = 3%nat) by (pose proof (f_equal (@length _) Ep) as X; rewrite app_length in X; lia).
    destruct p as [|p1 [|p2 [|p3 [|p4 p]]]]; try discriminate. injection Ep as _ _ _ ->. reflexivity. }
  subst e. rewrite (span_unique _ sp t).
  - cbn [snd]. apply take_all. destruct F as (_ & _ & _ & F). rewrite !app_length in F. unfold MAXBUF. lia.
  - clear - S. induction S as [|s sp -> _ IH]; [reflexivity|exact IH].
  - destruct t as [|h t]; [exact Logic.I|]. apply orb_false_iff. split; [apply beq_neq; intros ->; apply NH; reflexivity|].
    apply beq_neq. intros ->. destruct F as (_ & F & _). apply F, in_or_app. right. apply in_or_app. right. apply in_or_app. right. left. reflexivity.
Qed.

Lemma read_status : forall N line v code t s, fit line -> status_line line v code -> reason line t -> code <> 200 ->
  read_response N (line ++ CRLF ++ s) = Fails (Status t).
Proof.
  intros N line v cd t s F S R NC. unfold read_response. rewrite xgets_line, fit_cstr by exact F.
  destruct (status_line_read line v cd S) as (t' & E). rewrite E. rewrite (reason_read line t cd t' v F R E).
  destruct (Z.eqb_spec cd 200); [congruence|reflexivity].
Qed.

(** ** Header lines *)
Lemma lower_colon : forall c, to_lower c = ":"%char -> c = ":"%char.
Proof. intros c H. destruct c as [[] [] [] [] [] [] [] []]; vm_compute in H; try discriminate H; reflexivity. Qed.

Lemma value_named : forall m n r, ~ In ":"%char m -> ~ In ":"%char n ->
  header_value m (n ++ ":"%char :: r) = if ci_eqb n m then Some r else None.
Proof.
  induction m as [|a m IH]; intros n r M Nn.
  - destruct n as [|b n]; [reflexivity|]. cbn [app header_value]. destruct (beq b ":"%char) eqn:E; [apply beq_eq in E; subst; exfalso; apply Nn; left; reflexivity|reflexivity].
  - destruct n as [|b n]; cbn [app header_value].
    + destruct (beq (to_lower a) (to_lower ":"%char)) eqn:E; [|reflexivity]. apply beq_eq in E. change (to_lower ":"%char) with ":"%char in E.
      apply lower_colon in E. subst. exfalso. apply M. left. reflexivity.
    + change (ci_eqb (b :: n) (a :: m)) with (beq (to_lower b) (to_lower a) && ci_eqb n m).
      destruct (beq (to_lower a) (to_lower b)) eqn:E.
      * apply beq_eq in E. rewrite E, beq_refl. cbn [andb]. apply IH; intros I; [apply M|apply Nn]; right; exact I.
      * destruct (beq (to_lower b) (to_lower a)) eqn:E2; [|reflexivity]. apply beq_eq in E2. rewrite E2, beq_refl in E. discriminate.
Qed.

Lemma token_colon : forall n, Forall token_char n -> ~ In ":"%char n.
Proof. intros n T I. rewrite Forall_forall in T. apply T in I. apply hname_token in I. discriminate I. Qed.

Lemma skip_blanks : forall b v, Forall blank b -> (forall c u, v = c :: u -> ~ blank c) -> snd (span blanks (b ++ v)) = v.
Proof.
  intros b v B V. rewrite (span_unique blanks b v); [reflexivity| |].
  - clear - B. induction B as [|c b [-> | ->] _ IH]; [reflexivity|exact IH|exact IH].
  - destruct v as [|c u]; [exact Logic.I|]. specialize (V c u eq_refl). unfold blanks. apply orb_false_iff.
    split; apply beq_neq; intros ->; apply V; [left|right]; reflexivity.
Qed.

Lemma scan_blanks : forall b s, Forall blank b -> scan_number 10 (b ++ s) = scan_number 10 s.
Proof.
  intros b s B. assert (E : snd (span is_space (b ++ s)) = snd (span is_space s)).
  { induction B as [|c b H _ IH]; [reflexivity|]. cbn [app span]. replace (is_space c) with true by (destruct H as [-> | ->]; reflexivity).
    destruct (span is_space (b ++ s)) as [p q]. exact IH. }
  unfold scan_number. rewrite E. reflexivity.
Qed.

Lemma token_strtol : forall b w, Forall blank b -> number_token w -> num_value 10 w <= LONG_MAX -> strtol (b ++ w) 10 = (false, num_value 10 w, []).
Proof.
  intros b w B T L. pose proof (token_nonneg w T) as P. unfold strtol. rewrite scan_blanks, scan_token by assumption. cbv zeta.
  destruct (Z.ltb_spec LONG_MAX (num_value 10 w)); [lia|]. destruct (Z.ltb_spec (num_value 10 w) LONG_MIN); [unfold LONG_MIN in *; lia|reflexivity].
Qed.

Definition field_step (st : state) (f : field) : state :=
  if is_named (lit "Content-Length") f then mkState (num_value 10 (snd f)) (close st)
  else if is_named (lit "Connection") f then mkState (clen st) (ci_eqb (snd f) (lit "close")) else st.
Definition usable (f : field) : Prop :=
  (is_named (lit "Content-Length") f = true -> number_token (snd f) /\ num_value 10 (snd f) <= LONG_MAX) /\
  (is_named (lit "Content-Type") f = true -> snd f = lit "application/json").

Lemma names_apart : forall (a b : string) f, ci_eqb (lit a) (lit b) = false -> is_named (lit a) f = true -> is_named (lit b) f = false.
Proof.
  intros a b f H E. destruct (is_named (lit b) f) eqn:F; [|reflexivity]. unfold is_named in *. apply ci_eqb_eq in E, F.
  assert (X : ci_eqb (lit a) (lit b) = true) by (apply ci_eqb_eq; congruence). congruence.
Qed.

Lemma header_line_step : forall st t f, field_line t (fst f) (snd f) -> usable f -> header_line st t = Got (field_step st f).
Proof.
  intros st t [n v] (b & -> & NE & TC & B & NB) [UL UT]. cbn [fst snd] in *. unfold header_line, field_step. pose proof (token_colon n TC) as NC.
  rewrite !value_named; try exact NC; try (cbn; intuition discriminate). unfold is_named in *. cbn [fst snd] in *.
  destruct (ci_eqb n (lit "Content-Length")) eqn:E1.
  - destruct (UL eq_refl) as [T L]. rewrite (token_strtol b v B T L). reflexivity.
  - destruct (ci_eqb n (lit "Content-Type")) eqn:E2.
    + rewrite (UT eq_refl), skip_blanks; [|exact B|intros c u H; injection H as <- _; intros [X|X]; discriminate X].
      rewrite bytes_eqb_refl. pose proof (names_apart "Content-Type" "Connection" (n, v) eq_refl E2) as E3. unfold is_named in E3. cbn [fst] in E3. rewrite E3. reflexivity.
    + destruct (ci_eqb n (lit "Connection")) eqn:E3; [|reflexivity]. rewrite skip_blanks by assumption. reflexivity.
Qed.

Lemma header_lines_read : forall texts fs, Forall2 (fun t f => field_line t (fst f) (snd f)) texts fs -> Forall fit texts -> Forall usable fs ->
  forall fuel st rest, (length texts < fuel)%nat ->
  header_lines fuel st (concat (map (fun t => t ++ CRLF) texts) ++ CRLF ++ rest) = Got (fold_left field_step fs st, rest).
Proof.
  intros texts fs H. induction H as [|t f texts fs FL _ IH]; intros F U fuel st rest L; (destruct fuel as [|fuel]; [cbn [length] in L; lia|]); cbn [header_lines].
  - cbn [map concat app]. rewrite xgets_end. reflexivity.
  - inversion F as [|? ? Ft Fs]; subst. inversion U as [|? ? Uf Us]; subst. cbn [map concat]. rewrite <- !app_assoc. rewrite xgets_line by exact Ft.
    destruct t as [|c t]; [destruct FL as (b & E & NE & _); destruct (fst f); [congruence|discriminate E]|]. rewrite fit_cstr by exact Ft.
    rewrite (header_line_step st _ f FL Uf). cbn [fold_left]. apply IH; [exact Fs|exact Us|cbn [length] in L; lia].
Qed.

Lemma fields_state : forall fs st, fold_left field_step fs st =
  mkState (fold_left (fun _ w => num_value 10 w) (values "Content-Length" fs) (clen st))
          (fold_left (fun _ w => ci_eqb w (lit "close")) (values "Connection" fs) (close st)).
Proof.
  induction fs as [|f fs IH]; intros st; [destruct st; reflexivity|]. cbn [fold_left]. rewrite IH. unfold field_step, values. cbn [filter].
  destruct (is_named (lit "Content-Length") f) eqn:E1.
  - rewrite (names_apart "Content-Length" "Connection" f eq_refl E1). reflexivity.
  - destruct (is_named (lit "Connection") f) eqn:E2; reflexivity.
Qed.

Lemma count_texts : forall texts rest, (length texts < S (length (concat (map (fun t => t ++ CRLF) texts) ++ CRLF ++ rest)))%nat.
Proof.
  intros texts rest. rewrite app_length. assert (length texts <= length (concat (map (fun t => t ++ CRLF) texts)))%nat; [|lia].
  induction texts as [|t texts IH]; [reflexivity|]. cbn [map concat length]. rewrite !app_length. change (length CRLF) with 2%nat. lia.
Qed.

(** ** The whole answer *)
Definition outcome N (p : parsed N) : got (jv N) :=
  match p with POk _ v _ => Got v | PErr _ e => Fails (Bad_json e) | PCrash _ => Unset | PFuel _ => Stuck end.

Lemma read_head : forall N s line v fs rest, answer s line v 200 fs rest -> Forall usable fs ->
  read_response N s = match content (fold_left field_step fs (mkState (-1) false)) v rest with
    | Got text => outcome N (json_parse_string N text) | Fails c => Fails c | Unset => Unset | Stuck => Stuck end.
Proof.
  intros N s line v fs rest (texts & -> & FL & FT & SL & F2) U. unfold read_response, head_text. rewrite <- !app_assoc.
  rewrite xgets_line, fit_cstr by exact FL. destruct (status_line_read line v 200 SL) as (t & E). rewrite E. cbn [negb Z.eqb Pos.eqb].
  rewrite (header_lines_read texts fs F2 FT U) by apply count_texts. destruct (content _ v rest); reflexivity.
Qed.

Lemma in_values : forall n fs f, In f fs -> is_named (lit n) f = true -> In (snd f) (values n fs).
Proof. intros n fs f I E. unfold values. apply in_map. apply filter_In. auto. Qed.

Lemma read_json : forall N s line v fs body rest, answer s line v 200 fs (body ++ rest) -> json_fields v fs body rest ->
  ~ In NUL body -> Z.of_nat (length body) <= INT_MAX -> read_response N s = outcome N (json_parse_string N body).
Proof.
  intros N s line v fs body rest A [CT CL] NN L.
  assert (U : Forall usable fs).
  { apply Forall_forall. intros f I. split; intros E; apply (in_values _ _ _ I) in E.
    - destruct CL as [(w & W & T & M)|(W & _)]; rewrite W in E; [|destruct E]. destruct E as [<-|[]].
      split; [exact T|]. apply (token_numeral w _ T) in M. rewrite <- M. unfold INT_MAX, LONG_MAX in *. lia.
    - rewrite Forall_forall in CT. apply CT, E. }
  rewrite (read_head N s line v fs _ A U), fields_state. cbn [clen close]. unfold content. cbn [clen close].
  destruct CL as [(w & W & T & M)|(W & -> & CL)]; rewrite W; cbn [fold_left].
  - apply (token_numeral w _ T) in M. rewrite <- M. destruct (Z.eqb_spec (Z.of_nat (length body)) (-1)); [lia|]. cbn [negb].
    destruct (Z.ltb_spec (Z.of_nat (length body)) 0); [lia|]. destruct (Z.ltb_spec INT_MAX (Z.of_nat (length body))); [lia|].
    destruct (Z.ltb_spec (Z.of_nat (length (body ++ rest))) (Z.of_nat (length body))) as [X|X]; [rewrite app_length in X; lia|].
    rewrite Nat2Z.id, firstn_app, Nat.sub_diag, firstn_all, app_nil_r, cstr_all by exact NN. reflexivity.
  - cbn [Z.eqb Pos.eqb negb]. rewrite app_nil_r in *.
    assert (Y : fold_left (fun _ w => ci_eqb w (lit "close")) (values "Connection" fs) false || (v =? 0) = true).
    { destruct CL as [-> |(us & w & E & SLt)]; [apply orb_true_r|]. rewrite E, fold_left_app. cbn [fold_left].
      assert (X : ci_eqb w (lit "close") = true) by (apply ci_eqb_eq; exact SLt). rewrite X. reflexivity. }
    rewrite Y, cstr_all by exact NN. reflexivity.
Qed.
