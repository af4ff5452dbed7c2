(** Proofs about the directives of DirModel. *)
From Coq Require Import Ascii String List ZArith Bool Arith Lia ZifyBool.
From Verif Require Import Bytes ClenSpec NumSpec NumProofs ReplyModel ReplySpec ReplyProofs DirModel DirSpec.
From Verif Require NumModel LexSpec LexModel KeyModel.
Import ListNotations.
Open Scope string_scope.
Open Scope list_scope.
Open Scope Z_scope.

(** ** Numbers *)
Lemma atoi_value : forall w n, value w n -> n < 9223372036854775808 -> atoi w = to_int n.
Proof.
  intros w n [T V] L. unfold atoi, NumModel.strtol. rewrite (scan_token w T). apply (token_numeral w n T) in V.
  pose proof (token_nonneg w T). rewrite <- V in *. cbv zeta iota. unfold NumModel.LONG_MAX, NumModel.LONG_MIN.
  destruct (Z.ltb_spec 9223372036854775807 n); [lia|]. destruct (Z.ltb_spec n (-9223372036854775808)); [lia|]. reflexivity.
Qed.
Lemma value_nonneg : forall w n, value w n -> 0 <= n.
Proof. intros w n [T V]. apply (token_numeral w n T) in V. pose proof (token_nonneg w T). lia. Qed.
Lemma atoi_small : forall w n, value w n -> n < 2147483648 -> atoi w = n.
Proof.
  intros w n V L. rewrite (atoi_value w n V) by lia. pose proof (value_nonneg w n V). unfold to_int.
  rewrite Z.mod_small by lia. lia.
Qed.
Lemma to_int_shift : forall c k, 0 <= c < 2147483648 -> to_int (c + 4294967296 * k) = c.
Proof.
  intros c k H. unfold to_int. replace (c + 4294967296 * k + 2147483648) with (c + 2147483648 + k * 4294967296) by lia.
  rewrite Z.mod_add by lia. rewrite Z.mod_small by lia. lia.
Qed.

(** ** Redirect *)
Lemma not_nl_all : forall s, ~ In LF s -> forallb not_nl s = true.
Proof.
  intros s N. apply forallb_forall. intros x H. unfold not_nl. destruct (beq x LF) eqn:E; [|reflexivity].
  apply beq_eq in E. subst. contradiction.
Qed.
Lemma host_char_all : forall s, ~ In LF s -> ~ In "/"%char s -> forallb host_char s = true.
Proof.
  intros s N M. apply forallb_forall. intros x H. unfold host_char, not_nl. destruct (beq x LF) eqn:E; [apply beq_eq in E; subst; contradiction|].
  destruct (beq x "/"%char) eqn:F; [apply beq_eq in F; subst; contradiction|]. reflexivity.
Qed.
Lemma scheme_len_some : forall s n, scheme_len s = Some n ->
  same_word (firstn n s) (lit "http://") \/ same_word (firstn n s) (lit "https://").
Proof.
  intros s n H. unfold scheme_len in H. destruct (ci_eqb (firstn 7 s) (lit "http://")) eqn:E.
  - injection H as <-. left. apply ci_eqb_eq, E.
  - destruct (ci_eqb (firstn 8 s) (lit "https://")) eqn:F; [|discriminate]. injection H as <-. right. apply ci_eqb_eq, F.
Qed.
Lemma same_word_length : forall a b, same_word a b -> length a = length b.
Proof. intros a b H. apply ci_eqb_length, ci_eqb_eq, H. Qed.
Lemma firstn_exact : forall A (a b : list A) n, length a = n -> firstn n (a ++ b) = a.
Proof. intros A a b n <-. rewrite firstn_app, Nat.sub_diag, firstn_all, firstn_O, app_nil_r. reflexivity. Qed.
Lemma skipn_exact : forall A (a b : list A) n, length a = n -> skipn n (a ++ b) = b.
Proof. intros A a b n <-. rewrite skipn_app, Nat.sub_diag, skipn_all. reflexivity. Qed.
Lemma scheme_len_of : forall s r, same_word s (lit "http://") \/ same_word s (lit "https://") ->
  scheme_len (s ++ r) = Some (length s).
Proof.
  intros s r [H|H]; pose proof (same_word_length _ _ H) as L; cbn in L; unfold scheme_len.
  - rewrite (firstn_exact _ s r 7 L). replace (ci_eqb s (lit "http://")) with true by (symmetry; apply ci_eqb_eq, H). congruence.
  - destruct (ci_eqb (firstn 7 (s ++ r)) (lit "http://")) eqn:E.
    + exfalso. apply ci_eqb_eq in E. unfold same_word in H.
      assert (K : lower (firstn 7 s) = firstn 7 (lower s)) by (unfold lower; symmetry; apply firstn_map).
      rewrite H in K. rewrite firstn_app in E. replace (7 - length s)%nat with O in E by lia.
      rewrite firstn_O, app_nil_r in E. rewrite E in K. vm_compute in K. discriminate K.
    + rewrite (firstn_exact _ s r 8 L). replace (ci_eqb s (lit "https://")) with true by (symmetry; apply ci_eqb_eq, H). congruence.
Qed.

Lemma begins_iff : forall u a p, ~ In LF u ->
  (begins u a p <-> exists n h, scheme_len u = Some n /\ span host_char (skipn n u) = (h, p) /\ h <> [] /\ a = firstn n u ++ h).
Proof.
  intros u a p N. split.
  - intros (s & h & K & Hh & Ns & Ea & Eu & P). subst a. exists (length s), h. rewrite <- app_assoc in Eu. subst u.
    split; [apply scheme_len_of, K|]. rewrite (skipn_exact _ s _ _ eq_refl), (firstn_exact _ s _ _ eq_refl).
    split; [|auto]. apply span_unique.
    + apply host_char_all; [|exact Ns]. intros I. apply N. apply in_or_app. right. apply in_or_app. left. exact I.
    + destruct P as [->|(q & ->)]; [exact Logic.I|reflexivity].
  - intros (n & h & S & E & Hh & ->). exists (firstn n u), h. split; [apply scheme_len_some, S|]. split; [exact Hh|].
    pose proof (span_fst_all host_char (skipn n u)) as A. rewrite E in A. cbn in A.
    pose proof (span_app host_char (skipn n u)) as B. rewrite E in B. cbn in B.
    split; [|split; [reflexivity|split]].
    + intros I. rewrite forallb_forall in A. specialize (A _ I). discriminate A.
    + rewrite <- app_assoc, B. symmetry. apply firstn_skipn.
    + destruct p as [|c q]; [left; reflexivity|right]. exists q.
      assert (C : host_char c = false) by (apply (span_snd_head host_char (skipn n u) c q); rewrite E; reflexivity).
      unfold host_char, not_nl in C. destruct (beq c LF) eqn:F.
      * exfalso. apply beq_eq in F. subst c. apply N. rewrite <- (firstn_skipn n u). apply in_or_app. right. rewrite <- B.
        apply in_or_app. right. left. reflexivity.
      * destruct (beq c "/"%char) eqn:G; [|discriminate]. apply beq_eq in G. subst c. reflexivity.
Qed.
Lemma begins_unique : forall u a p a' p', ~ In LF u -> begins u a p -> begins u a' p' -> a' = a /\ p' = p.
Proof.
  intros u a p a' p' N B B'. apply (begins_iff u a p N) in B. apply (begins_iff u a' p' N) in B'.
  destruct B as (n & h & S & E & Hh & ->). destruct B' as (n' & h' & S' & E' & Hh' & ->). rewrite S in S'. injection S' as <-.
  rewrite E in E'. injection E' as <- <-. auto.
Qed.
Lemma begins_parts : forall u a p, begins u a p -> parts u a p.
Proof.
  intros u a p B. exists [], a. split; [reflexivity|]. assert (E : u = a ++ p) by (destruct B as (s & h & _ & _ & _ & _ & E & _); exact E).
  split; [exact E|]. split; [rewrite <- E; exact B|]. intros x y H. destruct x; [|discriminate]. destruct y; [congruence|discriminate].
Qed.
Lemma parts_cons : forall c u a p, (~ exists a' p', begins (c :: u) a' p') -> parts u a p -> parts (c :: u) (c :: a) p.
Proof.
  intros c u a p N (pre & b & -> & E & B & F). exists (c :: pre), b. split; [reflexivity|]. split; [subst u; reflexivity|].
  split; [exact B|]. intros x y H Hy. destruct x as [|d x].
  - cbn in H. subst y. rewrite E in N. exact N.
  - injection H as -> ->. apply (F x y); auto.
Qed.
Lemma parts_inv : forall u a p, parts u a p ->
  begins u a p \/ ((~ exists a' p', begins u a' p') /\ exists c u' a', u = c :: u' /\ a = c :: a' /\ parts u' a' p).
Proof.
  intros u a p (pre & b & -> & E & B & F). destruct pre as [|c pre]; [left; rewrite E; exact B|right]. split.
  - rewrite E. apply (F [] (c :: pre)); [reflexivity|discriminate].
  - exists c, (pre ++ b ++ p), (pre ++ b). split; [exact E|]. split; [reflexivity|]. exists pre, b. split; [reflexivity|].
    split; [reflexivity|]. split; [exact B|]. intros x y H Hy. apply (F (c :: x) y); [cbn; congruence|exact Hy].
Qed.
Definition later (s : bytes) : option (bytes * bytes * bytes) :=
  match s with
  | [] => None
  | c :: s' => match location s' with Some (a, p, r) => Some (c :: a, p, r) | None => None end
  end.
Lemma location_step : forall u, location u =
  match scheme_len u with
  | Some n =>
      match span host_char (skipn n u) with
      | ([], _) => later u
      | (h, r) => let '(p, r) := span not_nl r in Some (firstn n u ++ h, p, r)
      end
  | None => later u
  end.
Proof. intros [|c u]; reflexivity. Qed.
Lemma location_begins : forall u a p, ~ In LF u -> begins u a p -> location u = Some (a, p, []).
Proof.
  intros u a p N B. pose proof B as B0. apply (begins_iff u a p N) in B. destruct B as (n & h & S & E & Hh & ->).
  rewrite location_step, S, E. destruct h as [|x h]; [congruence|].
  rewrite <- (app_nil_r p) at 1. rewrite span_unique; [reflexivity| |exact Logic.I]. apply not_nl_all. intros I. apply N.
  destruct B0 as (s & h' & _ & _ & _ & _ & -> & _). apply in_or_app. right. exact I.
Qed.
Lemma location_none : forall u, ~ In LF u -> (~ exists a p, begins u a p) -> location u = later u.
Proof.
  intros u N B. rewrite location_step. destruct (scheme_len u) as [n|] eqn:S; [|reflexivity].
  destruct (span host_char (skipn n u)) as [h r] eqn:E. destruct h as [|x h]; [reflexivity|].
  exfalso. apply B. exists (firstn n u ++ x :: h), r. apply (begins_iff u _ _ N). exists n, (x :: h).
  split; [exact S|]. split; [exact E|]. split; [discriminate|reflexivity].
Qed.
Lemma begins_dec : forall u, ~ In LF u -> (exists a p, begins u a p) \/ ~ exists a p, begins u a p.
Proof.
  intros u N. destruct (scheme_len u) as [n|] eqn:S.
  - destruct (span host_char (skipn n u)) as [h r] eqn:E. destruct h as [|x h].
    + right. intros (a & p & B). apply (begins_iff u a p N) in B. destruct B as (n' & h' & S' & E' & Hh & _).
      rewrite S in S'. injection S' as <-. rewrite E in E'. injection E' as <- <-. congruence.
    + left. exists (firstn n u ++ x :: h), r. apply (begins_iff u _ _ N). exists n, (x :: h).
      split; [exact S|]. split; [exact E|]. split; [discriminate|reflexivity].
  - right. intros (a & p & B). apply (begins_iff u a p N) in B. destruct B as (n' & h' & S' & _). congruence.
Qed.
Lemma location_parts : forall u, ~ In LF u ->
  (forall a p r, location u = Some (a, p, r) -> r = [] /\ parts u a p) /\
  (forall a p, parts u a p -> location u = Some (a, p, [])).
Proof.
  induction u as [|c u IH]; intros N.
  - split.
    + intros a p r H. discriminate H.
    + intros a p H. apply parts_inv in H. destruct H as [B|(_ & c & u' & a' & E & _)]; [|discriminate]. apply location_begins; assumption.
  - assert (N' : ~ In LF u) by (intros I; apply N; right; exact I). destruct (IH N') as [IH1 IH2].
    destruct (begins_dec (c :: u) N) as [(a0 & p0 & B)|B].
    + split.
      * intros a p r H. rewrite (location_begins _ _ _ N B) in H. injection H as <- <- <-. split; [reflexivity|]. apply begins_parts, B.
      * intros a p H. apply parts_inv in H. destruct H as [B'|(NB & _)]; [|exfalso; apply NB; exists a0, p0; exact B].
        apply location_begins; assumption.
    + rewrite (location_none _ N B). cbn [later]. split.
      * intros a p r H. destruct (location u) as [[[a' p'] r']|]; [|discriminate]. injection H as <- <- <-.
        destruct (IH1 _ _ _ eq_refl) as [-> P]. split; [reflexivity|]. apply parts_cons; assumption.
      * intros a p H. apply parts_inv in H. destruct H as [B'|(_ & c' & u' & a' & E & -> & P)]; [exfalso; apply B; exists a, p; exact B'|].
        injection E as <- <-. rewrite (IH2 _ _ P). reflexivity.
Qed.
Lemma parts_app : forall u a p, parts u a p -> u = a ++ p.
Proof. intros u a p (pre & b & -> & -> & _). apply app_assoc. Qed.
Lemma parts_path : forall u a p, parts u a p -> p = [] \/ exists q, p = "/"%char :: q.
Proof. intros u a p (pre & b & _ & _ & (s & h & _ & _ & _ & _ & _ & P) & _). exact P. Qed.

(** What is kept of a redirect *)
Definition kept (u a p : bytes) : bytes := if Nat.eqb (length p) 1 then a else u.
Lemma redirect_to_iff : forall c u r, ~ In LF u ->
  (redirect_to c u = Some r <-> exists a p, parts u a p /\
     rd_status r = c /\ rd_url r = (if bytes_eqb p (lit "/") then a else u) /\ (rd_has_uri r = false <-> p = [])).
Proof.
  intros c u r N. destruct (location_parts u N) as [L1 L2]. unfold redirect_to.
  assert (K : forall a p, parts u a p -> Nat.eqb (length p) 1 = bytes_eqb p (lit "/")).
  { intros a p P. destruct (parts_path _ _ _ P) as [->|(q & ->)]; [reflexivity|]. destruct q as [|x q]; [reflexivity|].
    cbn [length]. destruct (bytes_eqb ("/"%char :: x :: q) (lit "/")) eqn:E; [|reflexivity]. apply bytes_eqb_eq in E. discriminate E. }
  split.
  - destruct (location u) as [[[a p] t]|]; [|discriminate]. intros [= <-]. destruct (L1 _ _ _ eq_refl) as [-> P].
    exists a, p. split; [exact P|]. cbn [rd_status rd_url rd_has_uri]. split; [reflexivity|]. rewrite (K _ _ P). split; [reflexivity|].
    destruct p as [|x p]; cbn; [tauto|]. split; discriminate.
  - intros (a & p & P & S & U & H). rewrite (L2 _ _ P). rewrite (K _ _ P). destruct r as [s0 u0 h0]. cbn in S, U, H. subst s0 u0.
    f_equal. f_equal. destruct p as [|x p]; cbn.
    + symmetry. apply H. reflexivity.
    + destruct h0; [reflexivity|]. exfalso. destruct H as [H _]. specialize (H eq_refl). discriminate H.
Qed.
Lemma redirect_code_iff : forall n, redirect_code n = true <-> In n redirect_codes.
Proof.
  intros n. unfold redirect_code. rewrite existsb_exists. split.
  - intros (x & I & E). apply Z.eqb_eq in E. subst x. exact I.
  - intros I. exists n. split; [exact I|apply Z.eqb_refl].
Qed.
Lemma parse_redirect_iff : forall w n u rest r k, value w n -> n < 2147483648 -> ~ In LF u ->
  (parse_redirect_backend (Number w :: LexSpec.Quoted u :: rest) = Some (r, k) <->
   k = 2%nat /\ In n redirect_codes /\ redirect_to n u = Some r).
Proof.
  intros w n u rest r k V L N. cbn [parse_redirect_backend]. rewrite (atoi_small w n V L).
  destruct (redirect_code n) eqn:E.
  - apply redirect_code_iff in E. destruct (redirect_to n u) as [r'|]; cbn [option_map].
    + split; [intros [= <- <-]; auto|]. intros (-> & _ & [= <-]). reflexivity.
    + split; [discriminate|]. intros (_ & _ & H). discriminate H.
  - split; [discriminate|]. intros (_ & I & _). apply redirect_code_iff in I. congruence.
Qed.

(** ** Error *)
Lemma cstr_as_string : forall c t, LexModel.cstr c = t <-> as_string c t.
Proof.
  intros c t. unfold LexModel.cstr, as_string. set (f := fun x => negb (beq x NUL)). split.
  - intros <-. split.
    + intros I. pose proof (span_fst_all f c) as A. rewrite forallb_forall in A. specialize (A _ I). discriminate A.
    + pose proof (span_app f c) as B. destruct (snd (span f c)) as [|x r] eqn:E.
      * left. rewrite app_nil_r in B. symmetry. exact B.
      * right. exists r. pose proof (span_snd_head f c x r E) as H. unfold f in H. destruct (beq x NUL) eqn:F; [|discriminate].
        apply beq_eq in F. subst x. symmetry. exact B.
  - intros [N H]. assert (A : forallb f t = true).
    { apply forallb_forall. intros x I. unfold f. destruct (beq x NUL) eqn:F; [|reflexivity]. apply beq_eq in F. subst. contradiction. }
    destruct H as [->|(r & ->)].
    + rewrite <- (app_nil_r t) at 1. rewrite span_unique; [reflexivity|exact A|exact Logic.I].
    + rewrite span_unique; [reflexivity|exact A|reflexivity].
Qed.
Lemma known_code : forall n, http_status_to_pound n = -1 <-> ~ exists ph, In (n, ph) phrases.
Proof.
  intros n. split.
  - intros E (ph & I). destruct (to_pound n ph I) as (R & _). lia.
  - intros N. apply to_pound_none. intros ph I. apply N. exists ph. exact I.
Qed.

(** ** Sessions *)
Lemma kw_names : forall A (tab : list (bytes * A)) w v, NoDup (map (fun x => lower (fst x)) tab) ->
  (kw_to_tok tab true w = Some v <-> exists k, In (k, v) tab /\ lower k = lower w).
Proof.
  intros A tab w v. induction tab as [|[k x] tab IH]; intros D; cbn [kw_to_tok].
  - split; [discriminate|]. intros (k & [] & _).
  - cbn [map fst] in D. inversion D as [|y l D1 D2]; subst. destruct (ci_eqb k w) eqn:E.
    + apply ci_eqb_eq in E. split.
      * intros [= <-]. exists k. split; [left; reflexivity|exact E].
      * intros (k' & [K1|K1] & K2); [injection K1 as _ <-; reflexivity|]. exfalso. apply D1. apply in_map_iff. exists (k', v).
        split; [cbn [fst]; congruence|exact K1].
    + rewrite (IH D2). split.
      * intros (k' & I & H). exists k'. split; [right; exact I|exact H].
      * intros (k' & [K1|K1] & K2); [|exists k'; auto]. injection K1 as <- _. apply ci_eqb_eq in K2. congruence.
Qed.
Ltac nodup := repeat constructor; cbn; let H := fresh in intros H; repeat (destruct H as [H|H]; [discriminate H|]); exact H.
Lemma sess_words : forall w t, kw_to_tok sess_type_tab true w = Some t <-> exists name, In (name, t) type_names /\ same_word w (lit name).
Proof.
  intros w t. rewrite kw_names by nodup. split.
  - intros (k & I & E). unfold same_word. rewrite <- E. cbn in I.
    repeat (destruct I as [[= <- <-]|I]); try destruct I;
      [exists "ip"|exists "cookie"|exists "url"|exists "parm"|exists "basic"|exists "header"]; (split; [cbn; tauto|reflexivity]).
  - intros (name & I & E). unfold same_word in E. rewrite E. cbn in I.
    repeat (destruct I as [[= <- <-]|I]); try destruct I;
      [exists (lit "IP")|exists (lit "COOKIE")|exists (lit "URL")|exists (lit "PARM")|exists (lit "BASIC")|exists (lit "HEADER")];
      (split; [cbn; tauto|reflexivity]).
Qed.
Lemma says_statement : forall s k t, sess_number t ->
  (forall s', session_statement s k t = Some s' -> exists x, says (k, t) x /\ s' = settled s [x]) /\
  (forall x, says (k, t) x -> session_statement s k t = Some (settled s [x])).
Proof.
  intros s k t T. split.
  - intros s' H. unfold session_statement in H. destruct k, t; try discriminate.
    + destruct (kw_to_tok sess_type_tab true w) as [ty|] eqn:E; [|discriminate]. injection H as <-. apply sess_words in E.
      destruct E as (name & I & W). exists (SType ty). split; [econstructor; eassumption|reflexivity].
    + destruct (NumModel.cfg_assign_unsigned w) as [n|] eqn:E; [|discriminate]. injection H as <-.
      apply (unsigned_iff w n T) in E. destruct E as [E L]. exists (STtl n). split; [|reflexivity].
      constructor; [split; assumption|lia].
    + injection H as <-. exists (SId v). split; [constructor|reflexivity].
  - intros x H. inversion H as [w name ty I W|w n V L|i]; subst; cbn [session_statement settled].
    + replace (kw_to_tok sess_type_tab true w) with (Some ty); [reflexivity|]. symmetry. apply sess_words. exists name. auto.
    + replace (NumModel.cfg_assign_unsigned w) with (Some n); [reflexivity|]. symmetry. destruct V as [V1 V2].
      apply (unsigned_iff w n V1). split; [exact V2|lia].
    + reflexivity.
Qed.
Lemma settled_app : forall l s l', settled s (l ++ l') = settled (settled s l) l'.
Proof. induction l as [|x l IH]; intros s l'; [reflexivity|]. destruct x; cbn [app settled]; apply IH. Qed.
Lemma statements_iff : forall l s s', Forall (fun x => sess_number (snd x)) l ->
  (session_statements s l = Some s' <-> exists xs, Forall2 says l xs /\ s' = settled s xs).
Proof.
  induction l as [|[k t] l IH]; intros s s' F; cbn [session_statements].
  - split.
    + intros [= <-]. exists []. split; [constructor|reflexivity].
    + intros (xs & H & ->). inversion H. reflexivity.
  - inversion F as [|y l0 T F']; subst. cbn in T. destruct (says_statement s k t T) as [S1 S2]. split.
    + destruct (session_statement s k t) as [s1|] eqn:E; [|discriminate]. intros H. destruct (S1 _ eq_refl) as (x & X & ->).
      apply (IH _ _ F') in H. destruct H as (xs & H & ->). exists (x :: xs). split; [constructor; assumption|].
      change (x :: xs) with ([x] ++ xs). symmetry. apply settled_app.
    + intros (xs & H & ->). inversion H as [|y x l1 xs' X H']; subst. rewrite (S2 _ X). apply (IH _ _ F'). exists xs'.
      split; [exact H'|]. change (x :: xs') with ([x] ++ xs'). apply settled_app.
Qed.
Lemma check_complete : forall s, session_check s = true <-> complete s.
Proof.
  intros [ty ttl id]. unfold session_check, complete, needs_id. cbn [se_type se_ttl se_id In].
  destruct ty, id; cbn; destruct (Z.eqb_spec ttl 0); cbn; split; intros H; try discriminate H; try (destruct H as (H1 & H2 & H3));
    try congruence; try (repeat split; try congruence; intuition congruence); exfalso; apply H3; tauto.
Qed.
Lemma parse_session_iff : forall s l s', Forall (fun x => sess_number (snd x)) l ->
  (parse_session s l = Some s' <-> exists xs, Forall2 says l xs /\ s' = settled s xs /\ complete s').
Proof.
  intros s l s' F. unfold parse_session. split.
  - destruct (session_statements s l) as [s1|] eqn:E; [|discriminate]. destruct (session_check s1) eqn:C; [|discriminate].
    intros [= <-]. apply (statements_iff l s s1 F) in E. destruct E as (xs & H & ->). exists xs. split; [exact H|].
    split; [reflexivity|apply check_complete, C].
  - intros (xs & H & -> & C). replace (session_statements s l) with (Some (settled s xs)).
    + apply check_complete in C. rewrite C. reflexivity.
    + symmetry. apply (statements_iff l s _ F). exists xs. auto.
Qed.

(** ** LogSuppress *)
Lemma unq_text : forall t w, unq t w -> unquoted t = Some w.
Proof. intros t w [->|[->| ->]]; reflexivity. Qed.
Definition bits (cs : list Z) : Z := fold_right (fun c m => Z.lor (Z.shiftl 1 c) m) 0 cs.
Lemma bits_test : forall cs c, (forall x, In x cs -> 0 <= x) -> 0 <= c -> (Z.testbit (bits cs) c = true <-> In c cs).
Proof.
  induction cs as [|x cs IH]; intros c P C; cbn [bits fold_right In].
  - rewrite Z.testbit_0_l. split; [discriminate|tauto].
  - rewrite Z.lor_spec, orb_true_iff. fold (bits cs). rewrite IH; [|intros y I; apply P; right; exact I|exact C].
    rewrite Z.shiftl_spec by exact C. rewrite <- (Z.pow_0_r 2) at 1. rewrite Z.pow2_bits_eqb by lia. 
    split; (intros [H|H]; [left|right; exact H]).
    + apply Z.eqb_eq in H. lia.
    + apply Z.eqb_eq. lia.
Qed.
Definition digit_classes : list (bytes * list Z) := [(lit "1", [1]); (lit "2", [2]); (lit "3", [3]); (lit "4", [4]); (lit "5", [5])].
(** The words the code knows: those of the manual, and "6" *)
Definition knows (w : bytes) (cs : list Z) : Prop := stands_for w cs \/ (w = lit "6" /\ cs = [6]).
Lemma stands_in : forall w cs, stands_for w cs -> forall x, In x cs -> 1 <= x <= 5.
Proof.
  intros w cs (name & I & _) x X. cbn in I. repeat (destruct I as [[= <- <-]|I]; [cbn in X; lia|]). destruct I.
Qed.
Lemma status_table_nodup : NoDup (map (fun x => lower (fst x)) status_table).
Proof. nodup. Qed.
Lemma to_lower_digit : forall c, is_digit (to_lower c) = is_digit c.
Proof. intros [[] [] [] [] [] [] [] []]; reflexivity. Qed.
Lemma to_lower_of_digit : forall c, is_digit c = true -> to_lower c = c.
Proof. intros [[] [] [] [] [] [] [] []] H; try reflexivity; discriminate H. Qed.
Lemma named_class : forall w m, kw_to_tok status_table true w = Some m ->
  exists cs, stands_for w cs /\ m = bits cs.
Proof.
  intros w m H. apply (kw_names _ status_table w m status_table_nodup) in H. destruct H as (k & I & E).
  unfold status_table in I. cbn [In] in I.
  repeat (destruct I as [[= <- <-]|I]); [exists [1; 2; 3; 4; 5]|exists [1]|exists [2]|exists [3]|exists [4]|exists [5]|destruct I];
    (split; [|reflexivity]);
    [exists "all"|exists "info"|exists "success"|exists "redirect"|exists "clterr"|exists "srverr"];
    (split; [cbn; tauto|unfold same_word; symmetry; exact E]).
Qed.
Lemma status_word_some : forall w m, status_word w = Some m -> exists cs, knows w cs /\ m = bits cs.
Proof.
  intros w m H. unfold status_word in H. destruct w as [|c [|d w]].
  - apply named_class in H. destruct H as (cs & S & E). exists cs. split; [left; exact S|exact E].
  - destruct (is_digit c) eqn:D.
    + destruct ((code c - 48 <=? 0) || (Z.of_nat (S (length status_table)) <=? code c - 48)) eqn:R; [discriminate|].
      injection H as <-. apply orb_false_iff in R. destruct R as [R1 R2]. apply Z.leb_gt in R1, R2. cbn in R2.
      assert (C : c = "1"%char \/ c = "2"%char \/ c = "3"%char \/ c = "4"%char \/ c = "5"%char \/ c = "6"%char).
      { assert (K : code c = 49 \/ code c = 50 \/ code c = 51 \/ code c = 52 \/ code c = 53 \/ code c = 54) by lia.
        destruct K as [K|[K|[K|[K|[K|K]]]]]; [left|right; left|do 2 right; left|do 3 right; left|do 4 right; left|do 5 right];
          apply code_inj; exact K. }
      destruct C as [->|[->|[->|[->|[->| ->]]]]];
        [exists [1]|exists [2]|exists [3]|exists [4]|exists [5]|exists [6]]; (split; [|reflexivity]);
        [left; exists "1"|left; exists "2"|left; exists "3"|left; exists "4"|left; exists "5"|right; auto]; (split; [cbn; tauto|reflexivity]).
    + apply named_class in H. destruct H as (cs & S & E). exists cs. split; [left; exact S|exact E].
  - apply named_class in H. destruct H as (cs & S & E). exists cs. split; [left; exact S|exact E].
Qed.
Lemma lower_single : forall w c, is_digit c = true -> lower w = [c] -> w = [c].
Proof.
  intros [|x [|y w]] c D H; try discriminate H. cbn in H. injection H as H. f_equal.
  assert (Dx : is_digit x = true) by (rewrite <- to_lower_digit, H; exact D). rewrite (to_lower_of_digit x Dx) in H. exact H.
Qed.
Lemma named_word : forall w name cs, In (name, cs) [("info", [1]); ("success", [2]); ("redirect", [3]); ("clterr", [4]); ("srverr", [5]); ("all", [1;2;3;4;5])] ->
  same_word w (lit name) -> status_word w = Some (bits cs).
Proof.
  intros w name cs I W. assert (K : kw_to_tok status_table true w = Some (bits cs)).
  { apply (kw_names _ status_table w _ status_table_nodup). exists (lit name). unfold same_word in W. split; [|symmetry; exact W].
    cbn in I. repeat (destruct I as [[= <- <-]|I]); try destruct I; unfold status_table; cbn [In];
      [right; left|do 2 right; left|do 3 right; left|do 4 right; left|do 5 right; left|left]; reflexivity. }
  unfold status_word. pose proof (same_word_length _ _ W) as L. destruct w as [|c [|d w]]; [exact K| |exact K].
  exfalso. cbn in I. repeat (destruct I as [[= <- <-]|I]; [discriminate L|]). destruct I.
Qed.
Lemma status_word_knows : forall w cs, knows w cs -> status_word w = Some (bits cs).
Proof.
  intros w cs [(name & I & W)|(-> & ->)]; [|reflexivity]. cbn in I.
  repeat (destruct I as [[= <- <-]|I]);
    try (eapply named_word; [|exact W]; cbn; tauto);
    try (apply lower_single in W; [subst w; reflexivity|reflexivity]); destruct I.
Qed.
Lemma knows_nonneg : forall w cs, knows w cs -> forall x, In x cs -> 0 <= x.
Proof.
  intros w cs [S|(_ & ->)] x I; [pose proof (stands_in _ _ S x I); lia|]. cbn in I. lia.
Qed.
Lemma loop_words : forall ts ws r rest, Forall2 unq ts ws -> no_word r -> forall acc,
  (forall m k, log_suppress_loop acc (ts ++ r :: rest) = Some (m, k) ->
     k = length ts /\ Forall (fun w => exists cs, knows w cs) ws /\
     forall c, 0 <= c -> (Z.testbit m c = true <-> Z.testbit acc c = true \/ exists w cs, In w ws /\ knows w cs /\ In c cs)) /\
  (Forall (fun w => exists cs, knows w cs) ws -> exists m, log_suppress_loop acc (ts ++ r :: rest) = Some (m, length ts)).
Proof.
  intros ts ws r rest F R. induction F as [|t w ts ws U F IH]; intros acc; cbn [app log_suppress_loop].
  - assert (E : match r with LexSpec.Malformed => None | _ => match unquoted r with
        | Some w => match status_word w with Some n => match log_suppress_loop (Z.lor acc n) rest with Some (r, k) => Some (r, S k) | None => None end | None => None end
        | None => Some (acc, 0%nat) end end = Some (acc, 0%nat)) by (destruct R as [->|(v & ->)]; reflexivity).
    rewrite E. split.
    + intros m k [= <- <-]. split; [reflexivity|]. split; [constructor|]. intros c C. split; [auto|].
      intros [H|(w & cs & [] & _)]. exact H.
    + intros _. exists acc. reflexivity.
  - assert (E : forall X, match t with LexSpec.Malformed => None | _ => match unquoted t with
        | Some w => X w | None => Some (acc, 0%nat) end end = X w) by (intros X; destruct U as [->|[->| ->]]; reflexivity).
    rewrite (E (fun w => match status_word w with Some n => match log_suppress_loop (Z.lor acc n) (ts ++ r :: rest) with Some (r, k) => Some (r, S k) | None => None end | None => None end)).
    clear E. split.
    + intros m k H. destruct (status_word w) as [n|] eqn:W; [|discriminate].
      destruct (log_suppress_loop (Z.lor acc n) (ts ++ r :: rest)) as [[m' k']|] eqn:L; [|discriminate]. injection H as <- <-.
      destruct (IH (Z.lor acc n)) as [IH1 _]. destruct (IH1 _ _ L) as (-> & Fk & T).
      destruct (status_word_some _ _ W) as (cs & K & ->). split; [reflexivity|]. split; [constructor; [exists cs; exact K|exact Fk]|].
      intros c C. rewrite (T c C), Z.lor_spec, orb_true_iff, (bits_test cs c (knows_nonneg _ _ K) C). split.
      * intros [[H|H]|(w' & cs' & I & K' & H)]; [left; exact H|right; exists w, cs; cbn; auto|right; exists w', cs'; cbn; auto].
      * intros [H|(w' & cs' & [<-|I] & K' & H)]; [left; left; exact H| |right; exists w', cs'; auto].
        left. right. pose proof (status_word_knows _ _ K') as E. rewrite W in E. injection E as E.
        apply (bits_test cs c (knows_nonneg _ _ K) C). rewrite E. apply (bits_test cs' c (knows_nonneg _ _ K') C). exact H.
    + intros Fk. inversion Fk as [|y l (cs & K) Fk']; subst. rewrite (status_word_knows _ _ K).
      destruct (IH (Z.lor acc (bits cs))) as [_ IH2]. destruct (IH2 Fk') as (m & ->). exists m. reflexivity.
Qed.
Lemma STATUS_MASK_land : forall s m, 0 <= s -> (Z.land (STATUS_MASK s) m =? 0) = negb (Z.testbit m (s / 100)).
Proof.
  intros s m P. assert (Q : 0 <= s / 100) by (apply Z.div_pos; lia). unfold STATUS_MASK.
  assert (B : forall i, 0 <= i -> Z.testbit (Z.shiftl 1 (s / 100)) i = (i =? s / 100)).
  { intros i I. rewrite Z.shiftl_1_l. rewrite Z.pow2_bits_eqb by exact Q. apply Z.eqb_sym. }
  destruct (Z.testbit m (s / 100)) eqn:T; cbn.
  - apply Z.eqb_neq. intros E. assert (K : Z.testbit (Z.land (Z.shiftl 1 (s / 100)) m) (s / 100) = true).
    { rewrite Z.land_spec, B, Z.eqb_refl, T by exact Q. reflexivity. }
    rewrite E, Z.testbit_0_l in K. discriminate K.
  - apply Z.eqb_eq. apply Z.bits_inj'. intros i I. rewrite Z.land_spec, (B i I), Z.testbit_0_l.
    destruct (Z.eqb_spec i (s / 100)) as [->|]; [rewrite T|]; reflexivity.
Qed.
Lemma parse_log_suppress_loop : forall ts ws r rest, Forall2 unq ts ws -> ws <> [] ->
  parse_log_suppress (ts ++ r :: rest) = log_suppress_loop 0 (ts ++ r :: rest).
Proof.
  intros ts ws r rest F N. destruct F as [|t w ts ws U F]; [congruence|]. cbn [app parse_log_suppress]. rewrite (unq_text _ _ U). reflexivity.
Qed.
Lemma log_suppress_logs : forall ts ws r rest m k, Forall2 unq ts ws -> no_word r -> ws <> [] ->
  parse_log_suppress (ts ++ r :: rest) = Some (m, k) -> k = length ts /\
  forall status, 100 <= status <= 599 -> (logs m status = false <-> covered ws status).
Proof.
  intros ts ws r rest m k F R N H. rewrite (parse_log_suppress_loop _ _ _ _ F N) in H.
  destruct (loop_words ts ws r rest F R 0) as [L _]. destruct (L _ _ H) as (-> & _ & T). split; [reflexivity|].
  intros st B. assert (Q : 1 <= st / 100 <= 5).
  { split; [apply Z.div_le_lower_bound; lia|]. assert (st / 100 < 6) by (apply Z.div_lt_upper_bound; lia). lia. }
  unfold logs. rewrite STATUS_MASK_land by lia. rewrite negb_false_iff, T by lia. rewrite Z.testbit_0_l.
  unfold covered. split.
  - intros [E|(w & cs & I & [S|(-> & ->)] & C)]; [discriminate E|exists w, cs; auto|]. cbn in C. lia.
  - intros (w & cs & I & S & C). right. exists w, cs. split; [exact I|]. split; [left; exact S|exact C].
Qed.

(** ** HeaderOption *)
Definition opt_tab_nodup : NoDup (map (fun x => lower (fst x)) hdr_options).
Proof. nodup. Qed.
Lemma hdr_names : forall w n, kw_to_tok hdr_options true w = Some n <->
  (same_word w (lit "forwarded") /\ n = mkHo true false) \/ (same_word w (lit "ssl") /\ n = mkHo false true) \/
  (same_word w (lit "all") /\ n = mkHo true true).
Proof.
  intros w n. rewrite (kw_names _ hdr_options w n opt_tab_nodup). unfold same_word. split.
  - intros (k & I & E). cbn in I. repeat (destruct I as [[= <- <-]|I]); [left|right; left|right; right|destruct I]; (split; [symmetry; exact E|reflexivity]).
  - intros [[E ->]|[[E ->]|[E ->]]]; eexists; (split; [|symmetry; exact E]); cbn; tauto.
Qed.
Lemma no_prefix : forall w x, (ci_eqb (firstn 3 w) (lit "no-") = true /\ same_word (skipn 3 w) x) <-> same_word w (lit "no-" ++ x).
Proof.
  intros w x. unfold same_word. rewrite ci_eqb_eq. split.
  - intros [A B]. rewrite <- (firstn_skipn 3 w), !lower_app, A, B. reflexivity.
  - intros H. assert (A : lower (firstn 3 w) = firstn 3 (lower w)) by (unfold lower; symmetry; apply firstn_map).
    assert (B : lower (skipn 3 w) = skipn 3 (lower w)) by (unfold lower; symmetry; apply skipn_map).
    rewrite A, B, H, lower_app. split; reflexivity.
Qed.
Lemma same_trans : forall w a b, same_word w a -> same_word w b -> lower a = lower b.
Proof. intros w a b A B. unfold same_word in *. congruence. Qed.
Ltac clash := repeat match goal with f : feature |- _ => destruct f end; cbn [feature_name] in *; match goal with
  | A : same_word ?w ?a, B : same_word ?w ?b |- _ => exfalso; let X := fresh in pose proof (same_trans w a b A B) as X; vm_compute in X; discriminate X
  end.
Lemma header_option_some : forall o w o', header_option o w = Some o' ->
  known_option w /\ forall f, has o' f = true <-> (turns_on w f \/ (has o f = true /\ ~ turns_off w f)).
Proof.
  intros o w o' H. unfold header_option in H. destruct (ci_eqb w (lit "none")) eqn:N.
  - injection H as <-. apply ci_eqb_eq in N. fold (same_word w (lit "none")) in N. split; [exists Forwarded; right; left; exact N|].
    intros f. unfold turns_on, turns_off. split; [destruct f; discriminate|]. intros [[A|A]|[_ A]]; [clash|destruct f; clash|]. exfalso. apply A. left. exact N.
  - cbv zeta in H. destruct (ci_eqb (firstn 3 w) (lit "no-")) eqn:P.
    + destruct (kw_to_tok hdr_options true (skipn 3 w)) as [n|] eqn:K; [|discriminate]. injection H as <-.
      assert (C : (same_word w (lit "no-" ++ lit "forwarded") /\ n = mkHo true false) \/ (same_word w (lit "no-" ++ lit "ssl") /\ n = mkHo false true) \/
                  (same_word w (lit "no-" ++ lit "all") /\ n = mkHo true true)).
      { apply hdr_names in K. destruct K as [[E ->]|[[E ->]|[E ->]]]; [left|right; left|right; right]; (split; [|reflexivity]); apply no_prefix; auto. }
      clear K P N. unfold known_option, turns_on, turns_off.
      destruct C as [[E ->]|[[E ->]|[E ->]]].
      * split; [exists Forwarded; right; right; right; exact E|]. intros f. destruct f; cbn [has ho_forwarded ho_ssl feature_name].
        -- rewrite andb_true_iff. split; [intros [_ X]; discriminate X|]. intros [[A|A]|[_ A]]; [clash|clash|]. exfalso. apply A. right. right. exact E.
        -- rewrite andb_true_r. split; [intros X; right; split; [exact X|]; intros [A|[A|A]]; clash|]. intros [[A|A]|[A _]]; [clash|clash|exact A].
      * split; [exists Ssl; right; right; right; exact E|]. intros f. destruct f; cbn [has ho_forwarded ho_ssl feature_name].
        -- rewrite andb_true_r. split; [intros X; right; split; [exact X|]; intros [A|[A|A]]; clash|]. intros [[A|A]|[A _]]; [clash|clash|exact A].
        -- rewrite andb_true_iff. split; [intros [_ X]; discriminate X|]. intros [[A|A]|[_ A]]; [clash|clash|]. exfalso. apply A. right. right. exact E.
      * split; [exists Ssl; right; right; left; exact E|]. intros f.
        assert (Z : has {| ho_forwarded := ho_forwarded o && negb true; ho_ssl := ho_ssl o && negb true |} f = false) by (destruct f; cbn; apply andb_false_r).
        cbn [ho_forwarded ho_ssl] in *. rewrite Z. split; [discriminate|]. intros [[A|A]|[_ A]]; [clash|destruct f; clash|]. exfalso. apply A. right. left. exact E.
    + destruct (kw_to_tok hdr_options true w) as [n|] eqn:K; [|discriminate]. injection H as <-. apply hdr_names in K.
      unfold known_option, turns_on, turns_off. destruct K as [[E ->]|[[E ->]|[E ->]]].
      * split; [exists Forwarded; left; right; exact E|]. intros f. destruct f; cbn [has ho_forwarded ho_ssl feature_name].
        -- rewrite orb_true_r. split; [intros _; left; right; exact E|reflexivity].
        -- rewrite orb_false_r. split; [intros X; right; split; [exact X|]; intros [A|[A|A]]; clash|]. intros [[A|A]|[A _]]; [clash|clash|exact A].
      * split; [exists Ssl; left; right; exact E|]. intros f. destruct f; cbn [has ho_forwarded ho_ssl feature_name].
        -- rewrite orb_false_r. split; [intros X; right; split; [exact X|]; intros [A|[A|A]]; clash|]. intros [[A|A]|[A _]]; [clash|clash|exact A].
        -- rewrite orb_true_r. split; [intros _; left; right; exact E|reflexivity].
      * split; [exists Ssl; left; left; exact E|]. intros f.
        assert (Z : has {| ho_forwarded := ho_forwarded o || true; ho_ssl := ho_ssl o || true |} f = true) by (destruct f; cbn; apply orb_true_r).
        cbn [ho_forwarded ho_ssl] in *. rewrite Z. split; [intros _; left; left; exact E|reflexivity].
Qed.
Lemma header_option_known : forall o w, known_option w -> header_option o w <> None.
Proof.
  intros o w (f & H). unfold header_option. destruct (ci_eqb w (lit "none")) eqn:N; [discriminate|]. cbv zeta.
  destruct (ci_eqb (firstn 3 w) (lit "no-")) eqn:P.
  - assert (C : exists x, (x = lit "forwarded" \/ x = lit "ssl" \/ x = lit "all") /\ same_word w (lit "no-" ++ x)).
    { destruct H as [[A|A]|[A|[A|A]]].
      - exfalso. apply ci_eqb_eq in P. assert (X : lower (firstn 3 w) = firstn 3 (lower w)) by (unfold lower; symmetry; apply firstn_map).
        rewrite P in X. unfold same_word in A. rewrite A in X. discriminate X.
      - exfalso. apply ci_eqb_eq in P. assert (X : lower (firstn 3 w) = firstn 3 (lower w)) by (unfold lower; symmetry; apply firstn_map).
        rewrite P in X. unfold same_word in A. rewrite A in X. destruct f; discriminate X.
      - exfalso. apply ci_eqb_eq in A. congruence.
      - exists (lit "all"). auto.
      - destruct f; [exists (lit "forwarded")|exists (lit "ssl")]; auto. }
    destruct C as (x & X & W). apply no_prefix in W. destruct W as [_ W].
    destruct (kw_to_tok hdr_options true (skipn 3 w)) as [n|] eqn:K; [discriminate|]. exfalso.
    destruct X as [->|[->| ->]];
      [assert (Y : kw_to_tok hdr_options true (skipn 3 w) = Some (mkHo true false))|assert (Y : kw_to_tok hdr_options true (skipn 3 w) = Some (mkHo false true))
      |assert (Y : kw_to_tok hdr_options true (skipn 3 w) = Some (mkHo true true))]; try (apply hdr_names; tauto); congruence.
  - assert (C : exists n, kw_to_tok hdr_options true w = Some n).
    { destruct H as [[A|A]|[A|[A|A]]].
      - exists (mkHo true true). apply hdr_names. auto.
      - destruct f; [exists (mkHo true false)|exists (mkHo false true)]; apply hdr_names; auto.
      - exfalso. apply ci_eqb_eq in A. congruence.
      - exfalso. change (lit "no-all") with (lit "no-" ++ lit "all") in A. apply no_prefix in A. destruct A as [A _]. congruence.
      - exfalso. apply no_prefix in A. destruct A as [A _]. congruence. }
    destruct C as (n & ->). discriminate.
Qed.
Lemma ends_on_cons : forall b b' w ws f, (b' = true <-> (turns_on w f \/ (b = true /\ ~ turns_off w f))) ->
  (ends_on b' ws f <-> ends_on b (w :: ws) f).
Proof.
  intros b b' w ws f B. split.
  - intros [[E F]|(l1 & w' & l2 & -> & T & F)].
    + apply B in E. destruct E as [T|[E N]].
      * right. exists [], w, ws. auto.
      * left. split; [exact E|]. constructor; assumption.
    + right. exists (w :: l1), w', l2. auto.
  - intros [[E F]|(l1 & w' & l2 & E & T & F)].
    + inversion F as [|x l N F']; subst. left. split; [apply B; right; auto|exact F'].
    + destruct l1 as [|x l1].
      * injection E as <- <-. left. split; [apply B; left; exact T|exact F].
      * injection E as <- ->. right. exists l1, w', l2. auto.
Qed.
Lemma header_options_words : forall ts ws rest, Forall2 opt_word ts ws -> forall o,
  (forall o' k, parse_header_options o (ts ++ LexSpec.Newline :: rest) = Some (o', k) ->
     k = length ts /\ Forall known_option ws /\ forall f, has o' f = true <-> ends_on (has o f) ws f) /\
  (Forall known_option ws -> exists o', parse_header_options o (ts ++ LexSpec.Newline :: rest) = Some (o', length ts)).
Proof.
  intros ts ws rest F. induction F as [|t w ts ws U F IH]; intros o.
  - cbn. split.
    + intros o' k [= <- <-]. split; [reflexivity|]. split; [constructor|]. intros f. unfold ends_on. split.
      * intros H. left. auto.
      * intros [[H _]|(l1 & w & l2 & E & _)]; [exact H|]. destruct l1; discriminate E.
    + intros _. exists o. reflexivity.
  - assert (E : parse_header_options o ((t :: ts) ++ LexSpec.Newline :: rest) =
      match header_option o w with None => None | Some o => match parse_header_options o (ts ++ LexSpec.Newline :: rest) with Some (o, k) => Some (o, S k) | None => None end end)
      by (destruct U as [->| ->]; reflexivity).
    rewrite E. clear E. split.
    + intros o' k H. destruct (header_option o w) as [o1|] eqn:E; [|discriminate]. destruct (header_option_some _ _ _ E) as [K S].
      destruct (parse_header_options o1 (ts ++ LexSpec.Newline :: rest)) as [[o2 k']|] eqn:P; [|discriminate]. injection H as <- <-.
      destruct (IH o1) as [IH1 _]. destruct (IH1 _ _ P) as (-> & Fk & T). split; [reflexivity|]. split; [constructor; assumption|].
      intros f. rewrite T. apply ends_on_cons, S.
    + intros Fk. inversion Fk as [|x l K Fk']; subst. destruct (header_option o w) as [o1|] eqn:E; [|exfalso; revert E; apply header_option_known, K].
      destruct (IH o1) as [_ IH2]. destruct (IH2 Fk') as (o' & ->). exists o'. reflexivity.
Qed.

(** ** Disable *)
Lemma kw_exact : forall A (tab : list (bytes * A)) w v, kw_to_tok tab false w = Some v -> In (w, v) tab.
Proof.
  intros A tab w v. induction tab as [|[k x] tab IH]; cbn [kw_to_tok]; [discriminate|].
  destruct (bytes_eqb k w) eqn:E; intros H; [|right; apply IH, H]. apply bytes_eqb_eq in E. injection H as <-. subst k. left. reflexivity.
Qed.
Lemma proto_words : forall w l, kw_to_tok proto_tab false w = Some l -> exists name v, In (name, v) proto_names /\ w = lit name /\
  forall x, In x l <-> age x <= age v.
Proof.
  intros w l H. apply kw_exact in H. cbn in H.
  repeat (destruct H as [[= <- <-]|H]);
    [exists "SSLv2", SSLv2|exists "SSLv3", SSLv3|exists "TLSv1", TLSv1|exists "TLSv1_1", TLSv1_1|exists "TLSv1_2", TLSv1_2|destruct H];
    (split; [cbn; tauto|]; split; [reflexivity|]; intros x; destruct x; cbn; intuition (try congruence; try lia)).
Qed.
Lemma proto_known : forall name v, In (name, v) proto_names -> exists l, kw_to_tok proto_tab false (lit name) = Some l.
Proof. intros name v I. cbn in I. repeat (destruct I as [[= <- <-]|I]; [eexists; reflexivity|]). destruct I. Qed.
Lemma names_inj : forall n v n' v', In (n, v) proto_names -> In (n', v') proto_names -> lit n = lit n' -> v = v'.
Proof.
  intros n v n' v' I I' E. cbn in I, I'.
  repeat (destruct I as [[= <- <-]|I]); try destruct I; repeat (destruct I' as [[= <- <-]|I']); try destruct I'; try reflexivity; discriminate E.
Qed.
Lemma proto_eqb_eq : forall a b, proto_eqb a b = true <-> a = b.
Proof. intros a b. destruct a, b; cbn; split; congruence. Qed.
Lemma takes_iff : forall opts v, takes opts v = false <-> In v opts.
Proof.
  intros opts v. unfold takes. rewrite negb_false_iff, existsb_exists. split.
  - intros (x & I & E). apply proto_eqb_eq in E. subst. exact I.
  - intros I. exists v. split; [exact I|apply proto_eqb_eq; reflexivity].
Qed.
Definition names_proto (w : bytes) (v : proto) : Prop := exists name, In (name, v) proto_names /\ w = lit name.
Lemma disables_iff : forall ws opts,
  (forall o, disables opts ws = Some o -> Forall (fun w => exists v, names_proto w v) ws /\
     forall x, In x o <-> In x opts \/ exists w v, In w ws /\ names_proto w v /\ age x <= age v) /\
  (Forall (fun w => exists v, names_proto w v) ws -> disables opts ws <> None).
Proof.
  induction ws as [|w ws IH]; intros opts; cbn [disables].
  - split.
    + intros o [= <-]. split; [constructor|]. intros x. split; [auto|]. intros [H|(w & v & [] & _)]. exact H.
    + discriminate.
  - cbn [set_proto_opt]. split.
    + intros o H. destruct (kw_to_tok proto_tab false w) as [l|] eqn:K; [|discriminate]. cbn [option_map] in H.
      destruct (proto_words _ _ K) as (name & v & I & -> & A). destruct (IH (opts ++ l)) as [IH1 _]. destruct (IH1 _ H) as [F T].
      split; [constructor; [exists v, name; auto|exact F]|]. intros x. rewrite T, in_app_iff, A. split.
      * intros [[P|P]|(w & v' & I' & N & P)]; [left; exact P| |].
        -- right. exists (lit name), v. split; [left; reflexivity|]. split; [exists name; auto|exact P].
        -- right. exists w, v'. split; [right; exact I'|auto].
      * intros [P|(w & v' & [<-|I'] & N & P)]; [left; left; exact P| |].
        -- left. right. destruct N as (name' & I' & E). rewrite (names_inj _ _ _ _ I I' E). exact P.
        -- right. exists w, v'. auto.
    + intros F. inversion F as [|y l (v & name & I & ->) F']; subst. destruct (proto_known _ _ I) as (l & ->). cbn [option_map].
      apply IH, F'.
Qed.
Lemma disables_backend_some : forall ws opts, disables_backend (Some opts) ws = option_map Some (disables opts ws).
Proof.
  induction ws as [|w ws IH]; intros opts; [reflexivity|]. cbn [disables_backend disables disable_proto set_proto_opt].
  destruct (kw_to_tok proto_tab false w) as [l|]; [|reflexivity]. cbn [option_map app]. apply IH.
Qed.
Lemma disables_backend_none : forall w ws, disables_backend None (w :: ws) = None.
Proof. reflexivity. Qed.
