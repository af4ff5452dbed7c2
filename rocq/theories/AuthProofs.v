(** Proofs about basic authentication. *)
From Coq Require Import Ascii String List ZArith Bool Lia ZifyBool ZifyNat Arith.
From Verif Require Import Bytes ReqModel XpdSpec AuthModel AuthSpec.
Import ListNotations.
Local Open Scope nat_scope.
Local Open Scope string_scope.
Local Open Scope list_scope.
Local Arguments firstn : simpl never.

(** ** Strings *)

Lemma span_take : forall p a b, Forall (fun c => p c = true) a -> (forall c r, b = c :: r -> p c = false) ->
  span p (a ++ b) = (a, b).
Proof.
  intros p a b F H. induction F as [|c a Hc F IH]; cbn [app].
  - destruct b as [|c b]; auto. cbn [span]. rewrite (H c b eq_refl). auto.
  - cbn [span]. rewrite Hc, IH. auto.
Qed.
Lemma span_split : forall p s, exists a b, s = a ++ b /\ span p s = (a, b) /\ Forall (fun c => p c = true) a /\
  (forall c r, b = c :: r -> p c = false).
Proof.
  intros p s. exists (fst (span p s)), (snd (span p s)). split; [symmetry; apply span_app|].
  split; [destruct (span p s); auto|]. split.
  - apply Forall_forall. apply forallb_forall. apply span_fst_all.
  - intros c r E. eapply span_snd_head; eauto.
Qed.

Lemma not_colon_all : forall s, ~ In ":"%char s <-> Forall (fun c => negb (beq c ":"%char) = true) s.
Proof.
  intros s. rewrite Forall_forall. split.
  - intros H c Hc. destruct (beq c ":"%char) eqn:E; auto. apply beq_eq in E. subst. tauto.
  - intros H Hc. apply H in Hc. discriminate.
Qed.
Lemma span_colon : forall u p, ~ In ":"%char u -> span (fun c => negb (beq c ":"%char)) (u ++ ":"%char :: p) = (u, ":"%char :: p).
Proof.
  intros u p H. apply span_take; [apply not_colon_all; auto|]. intros c r E. injection E as <- _. reflexivity.
Qed.
Lemma span_no_colon : forall u, ~ In ":"%char u -> span (fun c => negb (beq c ":"%char)) u = (u, []).
Proof.
  intros u H. rewrite <- (app_nil_r u) at 1. apply span_take; [apply not_colon_all; auto|]. discriminate.
Qed.
Lemma colon_split : forall s, (exists u p, s = u ++ ":"%char :: p /\ ~ In ":"%char u /\ span (fun c => negb (beq c ":"%char)) s = (u, ":"%char :: p)) \/
  (~ In ":"%char s /\ span (fun c => negb (beq c ":"%char)) s = (s, [])).
Proof.
  intros s. destruct (span_split (fun c => negb (beq c ":"%char)) s) as (a & b & E & S & F & N).
  destruct b as [|c b].
  - right. rewrite app_nil_r in E. subst a. split; auto. apply not_colon_all. auto.
  - left. specialize (N c b eq_refl). destruct (beq c ":"%char) eqn:C; [|discriminate]. apply beq_eq in C. subst c.
    exists a, b. split; [auto|split; [apply not_colon_all; auto|auto]].
Qed.

Lemma cut_free : forall s, ~ In NUL s -> cut s = s.
Proof.
  intros s H. unfold cut. rewrite <- (app_nil_r s) at 1. rewrite span_take; auto; [|discriminate].
  apply Forall_forall. intros c Hc. destruct (beq c NUL) eqn:E; auto. apply beq_eq in E. subst. tauto.
Qed.
Lemma cut_upto : forall s t, upto_nul s t <-> cut s = t.
Proof.
  intros s t. split.
  - intros [H [->|[r ->]]]; [apply cut_free; auto|]. unfold cut. rewrite span_take; auto.
    + apply Forall_forall. intros c Hc. destruct (beq c NUL) eqn:E; auto. apply beq_eq in E. subst. tauto.
    + intros c r' E. injection E as <- _. reflexivity.
  - intros <-. unfold cut. destruct (span_split (fun c => negb (beq c NUL)) s) as (a & b & E & -> & F & N). cbn [fst]. split.
    + intros H. rewrite Forall_forall in F. apply F in H. discriminate.
    + destruct b as [|c b]; [rewrite app_nil_r in E; auto|]. right. exists b. rewrite E.
      specialize (N c b eq_refl). destruct (beq c NUL) eqn:C; [|discriminate]. apply beq_eq in C. subst. auto.
Qed.

(** ** The file *)

Lemma fgets_line : forall l n t, ~ In LF l -> length l < n -> fgets n (l ++ LF :: t) = (l ++ [LF], t).
Proof.
  induction l as [|c l IH]; intros n t H L; (destruct n as [|n]; [cbn in L; lia|]); cbn [app fgets]; auto.
  destruct (beq c LF) eqn:E; [apply beq_eq in E; subst; exfalso; apply H; left; auto|].
  rewrite IH; auto; [intros X; apply H; right; auto|cbn in L; lia].
Qed.
Lemma fgets_last : forall l n, ~ In LF l -> length l <= n -> fgets n l = (l, []).
Proof.
  induction l as [|c l IH]; intros n H L; (destruct n as [|n]); try (cbn in L; lia); cbn [fgets]; auto.
  destruct (beq c LF) eqn:E; [apply beq_eq in E; subst; exfalso; apply H; left; auto|].
  rewrite IH; auto; [intros X; apply H; right; auto|cbn in L; lia].
Qed.

Definition blankb (c : byte) : bool := beq c SP || beq c TAB.
Lemma blankb_iff : forall c, blankb c = true <-> blank c.
Proof. intros c. unfold blankb, blank. rewrite orb_true_iff, !beq_eq. tauto. Qed.

Definition ending (e : bytes) : Prop := e = [] \/ e = [LF].

Lemma drop_ending : forall q e, ending e -> ~ In LF q -> drop_newline (q ++ e) = q.
Proof.
  intros q e [->| ->] H; unfold drop_newline.
  - rewrite app_nil_r. destruct (rev q) as [|c r] eqn:R; auto. destruct (beq c LF) eqn:E; auto.
    apply beq_eq in E. subst c. exfalso. apply H. apply in_rev. rewrite R. left. auto.
  - rewrite rev_app_distr. cbn [rev app]. change (beq LF LF) with true. cbv iota. apply rev_involutive.
Qed.

Lemma line_cut : forall l e, ending e -> ~ In NUL l -> cut (l ++ e) = l ++ e.
Proof.
  intros l e E H. apply cut_free. intros X. apply in_app_iff in X as [X|X]; auto.
  destruct E as [->| ->]; [destruct X|]. destruct X as [X|[]]. discriminate.
Qed.

Lemma entry_pass : forall l e u p, ending e -> ~ In NUL l -> ~ In LF l -> entry_line l u p -> pass_line (l ++ e) = Some (u, p).
Proof.
  intros l e u p He N L (w & -> & W & C & B). unfold pass_line. rewrite line_cut by auto.
  rewrite <- app_assoc. fold blankb.
  rewrite (span_take (fun c => beq c SP || beq c TAB)).
  2:{ apply Forall_forall. intros c Hc. rewrite Forall_forall in W. apply blankb_iff. auto. }
  2:{ intros c r E. change (blankb c = false). destruct u as [|d u]; cbn [app] in E.
      - injection E as <- _. reflexivity.
      - injection E as <- _. destruct (blankb d) eqn:D; auto. apply blankb_iff in D. exfalso. apply B. exists d, u. auto. }
  cbn [snd]. assert (D : drop_newline ((u ++ lit ":" ++ p) ++ e) = u ++ lit ":" ++ p).
  { apply drop_ending; auto. intros X. apply L. apply in_app_iff. auto. }
  destruct ((u ++ lit ":" ++ p) ++ e) as [|c r] eqn:Q.
  { destruct u; discriminate. }
  assert (Hc : beq c "#"%char = false).
  { apply beq_neq. intros ->. destruct u as [|d u]; cbn [app] in Q; [discriminate|]. injection Q as -> _.
    apply B. exists "#"%char, u. auto. }
  rewrite Hc. rewrite D. change (lit ":" ++ p) with (":"%char :: p). rewrite span_colon by auto. auto.
Qed.

Lemma pass_entry : forall l e u p, ending e -> ~ In NUL l -> ~ In LF l -> pass_line (l ++ e) = Some (u, p) -> entry_line l u p.
Proof.
  intros l e u p He N L H. unfold pass_line in H. rewrite line_cut in H by auto.
  destruct (span_split blankb l) as (w & q & E & _ & W & Q).
  assert (S : snd (span (fun c => beq c SP || beq c TAB) (l ++ e)) = q ++ e).
  { rewrite E, <- app_assoc. rewrite span_take; auto.
    intros c r X. destruct q as [|d q]; [|injection X as <- _; apply (Q d q eq_refl)].
    destruct He as [->| ->]; [discriminate|]. injection X as <- _. reflexivity. }
  rewrite S in H. assert (Lq : ~ In LF q). { intros X. apply L. rewrite E. apply in_app_iff. auto. }
  destruct (q ++ e) as [|c r] eqn:QE; [discriminate|]. destruct (beq c "#"%char) eqn:C; [discriminate|].
  rewrite <- QE, drop_ending in H by auto.
  destruct (colon_split q) as [(u' & p' & E1 & N1 & S1)|[N1 S1]]; rewrite S1 in H; [|discriminate].
  injection H as <- <-. exists w. rewrite E, E1. split; [auto|]. split; [|split; [auto|]].
  - apply Forall_forall. intros x Hx. rewrite Forall_forall in W. apply blankb_iff. auto.
  - intros (d & r' & -> & B). cbn [app] in E1. subst q. cbn [app] in QE. injection QE as <- _. destruct B as [B| ->]; [|discriminate].
    apply blankb_iff in B. rewrite (Q d _ eq_refl) in B. discriminate.
Qed.

Lemma scan_entries : forall ls t, text_of ls t -> Forall proper_line ls -> forall fuel, length t <= fuel ->
  entries ls (scan_file fuel t).
Proof.
  intros ls t T. induction T as [|l Hl|l ls t T IH]; intros F fuel Hf.
  - destruct fuel; constructor.
  - inversion F as [|? ? (HL & HN & Hn) _]; subst. destruct fuel as [|fuel]; [destruct l; [congruence|cbn in Hf; lia]|].
    assert (P : entries [l] (match pass_line l with Some up => [up] | None => [] end)).
    { destruct (pass_line l) as [[u p]|] eqn:P.
      - apply en_entry; [|constructor]. rewrite <- (app_nil_r l) in P. eapply pass_entry; eauto. left. auto.
      - apply en_other; [|constructor]. intros (u & p & X). apply (entry_pass l []) in X; auto; [|left; auto].
        rewrite app_nil_r in X. congruence. }
    destruct l as [|c l]; [congruence|]. cbn [scan_file]. rewrite fgets_last by (auto; lia).
    destruct (pass_line (c :: l)); destruct fuel; cbn [scan_file]; auto.
  - inversion F as [|? ? (HL & HN & Hn) F']; subst. rewrite app_length in Hf. cbn in Hf.
    destruct fuel as [|fuel]; [lia|].
    assert (X : exists c r, l ++ [LF] ++ t = c :: r) by (destruct l; cbn; eauto).
    destruct X as (c & r & X). cbn [scan_file]. rewrite X. rewrite <- X. cbn [app]. rewrite fgets_line by (auto; lia).
    assert (Hf' : length t <= fuel) by lia. specialize (IH F' fuel Hf').
    destruct (pass_line (l ++ [LF])) as [[u p]|] eqn:P.
    + apply en_entry; auto. eapply pass_entry; eauto. right. auto.
    + apply en_other; auto. intros (u & p & Y). apply (entry_pass l [LF]) in Y; auto; [congruence|right; auto].
Qed.

Lemma file_entries : forall ls t, text_of ls t -> Forall proper_line ls -> entries ls (pass_entries t).
Proof. intros. apply scan_entries; auto. Qed.

(** ** Schemes *)

Lemma after_prefix_iff : forall pfx s r, after_prefix pfx s = Some r <-> s = pfx ++ r.
Proof.
  induction pfx as [|a pfx IH]; intros s r; cbn [after_prefix app].
  - split; congruence.
  - destruct s as [|b s]; [split; discriminate|]. destruct (beq a b) eqn:E.
    + apply beq_eq in E. subst. rewrite IH. split; congruence.
    + apply beq_neq in E. split; [discriminate|]. intros X. injection X as -> _. congruence.
Qed.
Lemma strcmp_eq : forall a b, strcmp a b = Equal <-> a = b.
Proof. intros a b. unfold strcmp. rewrite <- bytes_eqb_eq. destruct (bytes_eqb a b); split; congruence. Qed.
Lemma strcmp_def : forall a b, strcmp a b <> Unset.
Proof. intros a b. unfold strcmp. destruct (bytes_eqb a b); discriminate. Qed.

Inductive prefix_of (h : bytes) : Prop :=
| po_apr : forall r, h = lit "$apr1$" ++ r -> r <> [] -> prefix_of h
| po_sha : forall r, h = lit "{SHA}" ++ r -> r <> [] -> prefix_of h
| po_none : ~ hashed h -> prefix_of h.

Lemma tab_test : forall pfx h, Nat.ltb (length pfx) (length h) && match after_prefix pfx h with Some _ => true | None => false end = true <->
  exists r, h = pfx ++ r /\ r <> [].
Proof.
  intros pfx h. rewrite andb_true_iff, Nat.ltb_lt. destruct (after_prefix pfx h) as [r|] eqn:E.
  - apply after_prefix_iff in E. subst h. rewrite app_length. split.
    + intros [H _]. exists r. split; auto. intros ->. cbn in H. lia.
    + intros (r' & X & Y). apply app_inv_head in X. subst r'. split; auto. destruct r; [congruence|cbn; lia].
  - split; [intros [_ H]; discriminate|]. intros (r & X & _). apply after_prefix_iff in X. congruence.
Qed.
Lemma tab_test_no : forall pfx h, ~ (exists r, h = pfx ++ r /\ r <> []) ->
  Nat.ltb (length pfx) (length h) && match after_prefix pfx h with Some _ => true | None => false end = false.
Proof. intros pfx h H. apply not_true_iff_false. rewrite tab_test. auto. Qed.

Lemma match_apr : forall l pass r, r <> [] -> auth_match l pass (lit "$apr1$" ++ r) = auth_apr l pass (lit "$apr1$" ++ r).
Proof.
  intros l pass r H. unfold auth_match, auth_match_tab. cbn [auth_match_loop].
  rewrite (proj2 (tab_test (lit "$apr1$") _)) by eauto.
  destruct (auth_apr l pass _); auto.
Qed.
Lemma match_sha : forall l pass r, r <> [] -> auth_match l pass (lit "{SHA}" ++ r) = auth_sha1 l pass (lit "{SHA}" ++ r).
Proof.
  intros l pass r H. unfold auth_match, auth_match_tab. cbn [auth_match_loop].
  rewrite (tab_test_no (lit "$apr1$")) by (intros (x & X & _); discriminate).
  rewrite (proj2 (tab_test (lit "{SHA}") _)) by eauto.
  destruct (auth_sha1 l pass _); auto.
Qed.
Lemma match_other : forall l pass h, ~ hashed h -> h <> [] -> auth_match l pass h =
  match auth_crypt l pass h with Equal => Equal | Unset => Unset | Differ => auth_plain l pass h end.
Proof.
  intros l pass h H N. unfold auth_match, auth_match_tab. cbn [auth_match_loop].
  rewrite (tab_test_no (lit "$apr1$")) by (intros (x & X & Y); apply H; rewrite X; constructor; auto).
  rewrite (tab_test_no (lit "{SHA}")) by (intros (x & X & Y); apply H; rewrite X; constructor; auto).
  rewrite (proj2 (tab_test [] h)) by (exists h; auto).
  destruct (auth_crypt l pass h); auto. cbn. destruct (auth_plain l pass h); auto.
Qed.
Lemma match_empty : forall l pass, auth_match l pass [] = Differ.
Proof. intros. reflexivity. Qed.

Lemma hashed_inv : forall h, hashed h -> (exists r, h = lit "$apr1$" ++ r /\ r <> []) \/ (exists r, h = lit "{SHA}" ++ r /\ r <> []).
Proof. intros h [r H|r H]; eauto. Qed.

Lemma classify : forall h, h = [] \/ (exists r, h = lit "$apr1$" ++ r /\ r <> []) \/ (exists r, h = lit "{SHA}" ++ r /\ r <> []) \/
  (h <> [] /\ ~ hashed h).
Proof.
  intros h. destruct h as [|c h]; [auto|]. right. remember (c :: h) as x eqn:Ex.
  assert (Nx : x <> []) by congruence. clear Ex.
  destruct (after_prefix (lit "$apr1$") x) as [r|] eqn:E1.
  - apply after_prefix_iff in E1. destruct r as [|y r].
    + right. right. split; [auto|]. intros K. apply hashed_inv in K as [(r' & X & Hr)|(r' & X & Hr)]; rewrite E1 in X.
      * apply app_inv_head in X. congruence.
      * discriminate.
    + left. exists (y :: r). split; [auto|discriminate].
  - right. destruct (after_prefix (lit "{SHA}") x) as [r|] eqn:E2.
    + apply after_prefix_iff in E2. destruct r as [|y r].
      * right. split; [auto|]. intros K. apply hashed_inv in K as [(r' & X & Hr)|(r' & X & Hr)]; rewrite E2 in X.
        -- discriminate.
        -- apply app_inv_head in X. congruence.
      * left. exists (y :: r). split; [auto|discriminate].
    + right. split; [auto|]. intros K. apply hashed_inv in K as [(r' & X & Hr)|(r' & X & Hr)]; apply after_prefix_iff in X; congruence.
Qed.

Lemma firstn_exact : forall (a : bytes), firstn (length a) a = a.
Proof. intros. apply firstn_all. Qed.

Lemma sha_equal : forall l pass r, sound_lib l -> (auth_sha1 l pass (lit "{SHA}" ++ r) = Equal <-> b64 l (r ++ [LF]) = sha1 l pass).
Proof.
  intros l pass r [Hs _]. unfold auth_sha1. change (skipn 5 (lit "{SHA}" ++ r)) with r. set (d := b64 l (r ++ [LF])).
  specialize (Hs pass). split.
  - intros H. destruct d as [|c d']; [discriminate|]. destruct (Nat.ltb _ _); [discriminate|].
    destruct (bytes_eqb _ _) eqn:E; [|discriminate]. destruct (Nat.eqb _ _) eqn:L; [|discriminate].
    apply bytes_eqb_eq in E. apply Nat.eqb_eq in L. rewrite <- E, L, <- Hs. apply firstn_all.
  - intros ->. rewrite firstn_all. destruct (sha1 l pass) as [|c s'] eqn:S; [discriminate|].
    rewrite Hs. cbn [Nat.ltb Nat.leb]. rewrite bytes_eqb_refl. reflexivity.
Qed.

Lemma crypt_equal : forall l pass h, auth_crypt l pass h = Equal <-> crypt l pass h = Some h.
Proof.
  intros l pass h. unfold auth_crypt. destruct (crypt l pass h) as [c|]; [|split; discriminate].
  rewrite strcmp_eq. split; congruence.
Qed.
Lemma crypt_def : forall l pass h, auth_crypt l pass h <> Unset.
Proof. intros l pass h. unfold auth_crypt. destruct (crypt l pass h); [apply strcmp_def|discriminate]. Qed.

Lemma verifies_inv : forall l pass h, verifies l pass h ->
  (exists r, h = lit "$apr1$" ++ r /\ r <> [] /\ apr_md5_encode l pass h 120 = Some h) \/
  (exists r, h = lit "{SHA}" ++ r /\ r <> [] /\ b64 l (r ++ [LF]) = sha1 l pass) \/
  (~ hashed h /\ h <> [] /\ (crypt l pass h = Some h \/ pass = h)).
Proof. intros l pass h [r H E|r H E|h' N H E|h' N H E]; eauto 10. Qed.

Lemma match_verifies : forall l pass h, sound_lib l -> (auth_match l pass h = Equal <-> verifies l pass h).
Proof.
  intros l pass h Hl. destruct (classify h) as [->|[(r & -> & Hr)|[(r & -> & Hr)|[Hn Hh]]]].
  - rewrite match_empty. split; [discriminate|]. intros V. apply verifies_inv in V as [(r & X & _)|[(r & X & _)|(_ & X & _)]]; first [discriminate X|congruence].
  - rewrite match_apr by auto. unfold auth_apr. split.
    + destruct (apr_md5_encode l pass (lit "$apr1$" ++ r) 120) as [c|] eqn:E; [|discriminate]. rewrite strcmp_eq.
      intros ->. apply vf_apr; auto.
    + intros V. apply verifies_inv in V as [(r' & X & Hr' & E)|[(r' & X & Hr' & E)|(X & _)]].
      * rewrite E. apply strcmp_eq. auto.
      * discriminate.
      * exfalso. apply X. constructor. auto.
  - rewrite match_sha by auto. rewrite sha_equal by auto. split.
    + intros E. apply vf_sha; auto.
    + intros V. apply verifies_inv in V as [(r' & X & Hr' & E)|[(r' & X & Hr' & E)|(X & _)]].
      * discriminate.
      * apply app_inv_head in X. subst. auto.
      * exfalso. apply X. apply ha_sha. auto.
  - rewrite match_other by auto. split.
    + intros H. destruct (auth_crypt l pass h) eqn:C; try discriminate.
      * apply crypt_equal in C. apply vf_crypt; auto.
      * apply strcmp_eq in H. apply vf_plain; auto.
    + intros V. apply verifies_inv in V as [(r' & X & Hr' & E)|[(r' & X & Hr' & E)|(_ & _ & [E|E])]].
      * exfalso. apply Hh. rewrite X. constructor. auto.
      * exfalso. apply Hh. rewrite X. apply ha_sha. auto.
      * apply crypt_equal in E. rewrite E. auto.
      * subst pass. destruct (auth_crypt l h h) eqn:C; auto; [apply strcmp_eq; auto|]. apply crypt_def in C. destruct C.
Qed.

Lemma salt_len_def : forall s, In "$"%char s \/ 8 <= length s -> salt_len s <> None.
Proof.
  intros s H. unfold salt_len. destruct (Nat.ltb _ _) eqn:L; [discriminate|]. destruct (Nat.leb 8 (length s)) eqn:L8; [discriminate|].
  apply Nat.leb_gt in L8. destruct H as [H|H]; [|lia]. rewrite firstn_all2 in L by lia. exfalso.
  destruct (span_split (fun c => negb (beq c "$"%char)) s) as (a & b & E & Sp & F & N). rewrite Sp in L. cbn [fst] in L.
  apply Nat.ltb_ge in L. rewrite E, app_length in L. destruct b; [|cbn in L; lia]. rewrite app_nil_r in E. subst a.
  rewrite Forall_forall in F. apply F in H. discriminate.
Qed.

Lemma match_def : forall l pass h, sane l h -> auth_match l pass h <> Unset.
Proof.
  intros l pass h [H1 H2]. destruct (classify h) as [->|[(r & -> & Hr)|[(r & -> & Hr)|[Hn Hh]]]].
  - rewrite match_empty. discriminate.
  - rewrite match_apr by auto. unfold auth_apr, apr_md5_encode. change APR1_ID_STR with (lit "$apr1$").
    rewrite (proj2 (after_prefix_iff (lit "$apr1$") _ r) eq_refl).
    destruct (salt_len r) eqn:S; [apply strcmp_def|]. exfalso. apply (salt_len_def r); auto.
  - rewrite match_sha by auto. unfold auth_sha1. change (skipn 5 (lit "{SHA}" ++ r)) with r.
    specialize (H2 r eq_refl). destruct (b64 l (r ++ [LF])) as [|c d] eqn:E; [discriminate|].
    destruct H2 as [H2|H2]; [discriminate|]. destruct (Nat.ltb _ _) eqn:L; [discriminate|].
    destruct (bytes_eqb _ _); [|discriminate]. apply Nat.ltb_ge in L.
    rewrite (proj2 (Nat.eqb_eq _ _)) by lia. discriminate.
  - rewrite match_other by auto. destruct (auth_crypt l pass h) eqn:C; try discriminate; [apply strcmp_def|].
    apply crypt_def in C. destruct C.
Qed.

(** ** Entries produced by the same scheme *)

Lemma to64_length : forall n v, length (to64 v n) = n.
Proof. induction n; intros; cbn [to64 length]; auto. Qed.
Lemma apr_text_length : forall f, length (apr_text f) = 22.
Proof. intros f. unfold apr_text. rewrite !app_length, !to64_length. reflexivity. Qed.

Definition salt_of (s : bytes) (slen : nat) : Prop := slen <= 8 /\ slen <= length s /\ ~ In "$"%char (firstn slen s) /\
  (slen < 8 -> exists r, skipn slen s = "$"%char :: r).

Lemma salt_len_of : forall s n, salt_len s = Some n -> salt_of s n.
Proof.
  intros s n H. unfold salt_len in H.
  destruct (span_split (fun c => negb (beq c "$"%char)) (firstn 8 s)) as (a & b & E & Sp & F & N). rewrite Sp in H. cbn [fst] in H.
  assert (L8 : length (firstn 8 s) <= 8) by (rewrite firstn_length; lia).
  assert (La : length a + length b = length (firstn 8 s)) by (rewrite E, app_length; auto).
  assert (Es : s = a ++ b ++ skipn 8 s) by (rewrite <- (firstn_skipn 8 s) at 1; rewrite E, app_assoc; auto).
  assert (Na : ~ In "$"%char a). { intros X. rewrite Forall_forall in F. apply F in X. discriminate. }
  destruct (Nat.ltb (length a) (length (firstn 8 s))) eqn:L.
  - injection H as <-. apply Nat.ltb_lt in L. destruct b as [|c b]; [cbn in La; lia|]. specialize (N c b eq_refl).
    destruct (beq c "$"%char) eqn:C; [|discriminate]. apply beq_eq in C. subst c. split; [lia|]. split; [rewrite Es, app_length; lia|].
    rewrite Es. split.
    + rewrite firstn_app, firstn_all, Nat.sub_diag. change (firstn 0 ?x) with (@nil ascii). rewrite app_nil_r. auto.
    + intros _. rewrite skipn_app, skipn_all, Nat.sub_diag. cbn. eauto.
  - apply Nat.ltb_ge in L. destruct (Nat.leb 8 (length s)) eqn:L2; [|discriminate]. injection H as <-. apply Nat.leb_le in L2.
    assert (L3 : length (firstn 8 s) = 8) by (rewrite firstn_length; lia).
    split; [lia|]. split; [lia|]. destruct b; [|cbn in La; lia]. rewrite app_nil_r in E. split; [rewrite E; auto|lia].
Qed.

Lemma salt_len_dollar : forall a r, ~ In "$"%char a -> length a <= 8 -> salt_len (a ++ "$"%char :: r) = Some (length a).
Proof.
  intros a r H L. unfold salt_len. destruct (Nat.eq_dec (length a) 8) as [E|E].
  - rewrite firstn_app, <- E, Nat.sub_diag, firstn_all. change (firstn 0 ?x) with (@nil ascii). rewrite app_nil_r.
    rewrite <- (app_nil_r a) at 1. rewrite span_take; [|apply Forall_forall; intros c Hc; destruct (beq c "$"%char) eqn:X; auto; apply beq_eq in X; subst; tauto|discriminate].
    cbn [fst]. rewrite Nat.ltb_irrefl, app_length. rewrite (proj2 (Nat.leb_le _ _)) by lia. auto.
  - rewrite firstn_app. rewrite (firstn_all2 a) by lia. destruct (8 - length a) as [|k] eqn:K; [lia|].
    change (firstn (S k) ("$"%char :: r)) with ("$"%char :: firstn k r).
    rewrite span_take; [|apply Forall_forall; intros c Hc; destruct (beq c "$"%char) eqn:X; auto; apply beq_eq in X; subst; tauto|].
    2:{ intros c q X. injection X as <- _. reflexivity. }
    cbn [fst]. rewrite app_length. cbn [length]. rewrite (proj2 (Nat.ltb_lt _ _)) by lia. auto.
Qed.

Lemma passwd_form : forall l pw s, exists f, apr_passwd l pw s = lit "$apr1$" ++ s ++ lit "$" ++ apr_text f.
Proof. intros l pw s. unfold apr_passwd. eexists. reflexivity. Qed.
Lemma passwd_whole : forall l pw s, length s <= 8 -> firstn (120 - 1) (apr_passwd l pw s) = apr_passwd l pw s.
Proof.
  intros l pw s L. destruct (passwd_form l pw s) as [f ->]. apply firstn_all2. rewrite !app_length, apr_text_length.
  change (length (lit "$apr1$")) with 6. change (length (lit "$")) with 1. lia.
Qed.

Lemma apr_shape : forall l pw salt h, apr_md5_encode l pw salt 120 = Some h ->
  exists s, h = apr_passwd l pw s /\ length s <= 8 /\ ~ In "$"%char s.
Proof.
  intros l pw salt h H. unfold apr_md5_encode in H.
  set (s0 := match after_prefix APR1_ID_STR salt with Some s => s | None => salt end) in H.
  destruct (salt_len s0) as [n|] eqn:S; [|discriminate]. apply salt_len_of in S as (A & B & C & D).
  assert (Ls : length (firstn n s0) = n) by (rewrite firstn_length; lia).
  cbv zeta in H. rewrite passwd_whole in H by lia. exists (firstn n s0).
  split; [congruence|]. split; [lia|auto].
Qed.

Lemma apr_again : forall l pw salt h, apr_md5_encode l pw salt 120 = Some h -> apr_md5_encode l pw h 120 = Some h.
Proof.
  intros l pw salt h H. destruct (apr_shape l pw salt h H) as (s & E & L & N). destruct (passwd_form l pw s) as [f F].
  unfold apr_md5_encode. change APR1_ID_STR with (lit "$apr1$"). rewrite E, F.
  rewrite (proj2 (after_prefix_iff (lit "$apr1$") _ _) eq_refl). change (lit "$" ++ apr_text f) with ("$"%char :: apr_text f).
  rewrite salt_len_dollar by auto. rewrite firstn_app, Nat.sub_diag, firstn_all. change (firstn 0 ?x) with (@nil ascii).
  rewrite app_nil_r, passwd_whole by auto. rewrite F. reflexivity.
Qed.
Lemma apr_length : forall l pw salt h, apr_md5_encode l pw salt 120 = Some h -> length h < 38.
Proof.
  intros l pw salt h H. destruct (apr_shape l pw salt h H) as (s & E & L & N). destruct (passwd_form l pw s) as [f F].
  rewrite E, F. rewrite !app_length, apr_text_length.
  change (length (lit "$apr1$")) with 6. change (length (lit "$")) with 1. lia.
Qed.
Lemma apr_verifies : forall l pw salt h, apr_md5_encode l pw salt 120 = Some h -> verifies l pw h.
Proof.
  intros l pw salt h H. pose proof (apr_again _ _ _ _ H) as A. destruct (apr_shape l pw salt h H) as (s & E & L & N).
  destruct (passwd_form l pw s) as [f F]. rewrite E, F in A |- *. apply vf_apr; auto. intros X. destruct s; discriminate.
Qed.

(** ** Credentials *)

Lemma rtrim_split : forall s, exists w, s = rtrim s ++ w /\ Forall space w.
Proof.
  intros s. unfold rtrim. destruct (span_split is_space (rev s)) as (a & b & E & -> & F & N). cbn [snd].
  exists (rev a). split; [rewrite <- rev_app_distr, <- E, rev_involutive; auto|].
  apply Forall_rev. exact F.
Qed.

Lemma quoted_never : forall l v, get_basic_auth l v <> NotBasic -> forall b w t, v = b ++ w ++ t -> lower b = lit "basic" ->
  Forall space w -> ~ begins (fun c => c = """"%char) t.
Proof.
  intros l v H b w t -> B W (c & t' & -> & ->). apply H. clear H. unfold get_basic_auth.
  assert (Lb : length b = 5). { apply (f_equal (@length _)) in B. unfold lower in B. rewrite map_length in B. exact B. }
  rewrite <- Lb. rewrite firstn_app, firstn_all, Nat.sub_diag. change (firstn 0 ?x) with (@nil ascii). rewrite app_nil_r.
  destruct (ci_eqb b (lit "Basic")); [|reflexivity]. cbn [negb].
  rewrite skipn_app, skipn_all, Nat.sub_diag. cbn [skipn app].
  rewrite span_take; [|exact W|intros c r X; injection X as <- _; reflexivity]. cbn [snd].
  destruct (rtrim_split t') as (z & E & Z). set (q := rtrim t') in *. clearbody q.
  destruct q as [|x q]; [auto|]. rewrite E. rewrite nth_error_app2 by lia. rewrite Nat.sub_diag.
  destruct z as [|y z]; [reflexivity|]. cbn [nth_error]. inversion Z as [|? ? Y _]; subst.
  destruct y as [[] [] [] [] [] [] [] []]; try discriminate Y; reflexivity.
Qed.

Definition decode (l : lib) (text : bytes) : cred :=
  let buf := firstn MAXBUF (b64 l (text ++ [LF])) in
  match buf with
  | [] => BadCreds
  | _ => match span (fun c => negb (beq c ":"%char)) buf with
         | (user, _ :: pass) => Creds (cut user) (cut pass)
         | (_, []) => BadCreds
         end
  end.

Lemma auth_plain_form : forall l b w t, lower b = lit "basic" -> Forall space w ->
  ~ begins (fun c => space c \/ c = """"%char) t -> get_basic_auth l (b ++ w ++ t) = decode l t.
Proof.
  intros l b w t B W N. unfold get_basic_auth.
  assert (Lb : length b = 5). { apply (f_equal (@length _)) in B. unfold lower in B. rewrite map_length in B. exact B. }
  rewrite <- Lb. rewrite firstn_app, firstn_all, Nat.sub_diag. change (firstn 0 ?x) with (@nil ascii). rewrite app_nil_r.
  rewrite (proj2 (ci_eqb_eq b (lit "Basic"))) by (rewrite B; reflexivity). cbn [negb].
  rewrite skipn_app, skipn_all, Nat.sub_diag. cbn [skipn app].
  rewrite span_take; [|exact W|].
  2:{ intros c r ->. destruct (is_space c) eqn:S; auto. exfalso. apply N. exists c, r. auto. }
  cbn [snd]. fold (decode l t).
  destruct t as [|c t]; [reflexivity|]. destruct c as [[] [] [] [] [] [] [] []]; try reflexivity.
  exfalso. apply N. exists """"%char, t. auto.
Qed.

Lemma basic_split : forall v, ci_eqb (firstn 5 v) (lit "Basic") = true -> exists b w t, v = b ++ w ++ t /\ lower b = lit "basic" /\
  Forall space w /\ ~ begins space t.
Proof.
  intros v H. apply ci_eqb_eq in H. destruct (span_split is_space (skipn 5 v)) as (a & t & E & _ & F & N).
  exists (firstn 5 v), a, t. rewrite <- E, firstn_skipn. split; [auto|]. split; [exact H|]. split; [exact F|].
  intros (c & r & -> & S). unfold space in S. rewrite (N c r eq_refl) in S. discriminate.
Qed.

Lemma decode_creds : forall l t u p, sound_lib l -> length t < MAXBUF ->
  (decode l t = Creds u p <-> exists u' p', b64 l (t ++ [LF]) = u' ++ lit ":" ++ p' /\ ~ In ":"%char u' /\ upto_nul u' u /\ upto_nul p' p).
Proof.
  intros l t u p [_ Hl] L. unfold decode. cbv zeta. specialize (Hl (t ++ [LF])). rewrite app_length in Hl. cbn [length] in Hl.
  rewrite firstn_all2 by lia. split.
  - intros H. destruct (b64 l (t ++ [LF])) as [|c d] eqn:E; [discriminate|]. rewrite <- E in *. clear E.
    destruct (colon_split (b64 l (t ++ [LF]))) as [(u' & p' & E1 & N1 & S1)|[N1 S1]]; rewrite S1 in H; [|discriminate].
    injection H as <- <-. exists u', p'. split; [auto|]. split; [auto|]. split; apply cut_upto; auto.
  - intros (u' & p' & E & N & U & P). rewrite E. change (lit ":" ++ p') with (":"%char :: p').
    destruct (u' ++ ":"%char :: p') as [|c d] eqn:D; [destruct u'; discriminate|]. rewrite <- D. rewrite span_colon by auto.
    apply cut_upto in U. apply cut_upto in P. congruence.
Qed.

Lemma creds_carries : forall l v u p, sound_lib l -> length v < MAXBUF -> (get_basic_auth l v = Creds u p <-> carries l v u p).
Proof.
  intros l v u p Hl L. split.
  - intros H. destruct (ci_eqb (firstn 5 v) (lit "Basic")) eqn:B.
    2:{ unfold get_basic_auth in H. rewrite B in H. discriminate. }
    apply basic_split in B as (b & w & t & E & B & W & N).
    assert (Q : ~ begins (fun c => c = """"%char) t) by (apply (quoted_never l v) with b w; auto; congruence).
    assert (N' : ~ begins (fun c => space c \/ c = """"%char) t).
    { intros (c & r & X & [Y|Y]); [apply N|apply Q]; exists c, r; auto. }
    rewrite E, auth_plain_form in H by auto. rewrite E, !app_length in L. apply decode_creds in H as (u' & p' & X); auto; [|lia].
    exists b, w, t, u', p'. tauto.
  - intros (b & w & t & u' & p' & E & B & W & N & X). rewrite E, auth_plain_form by auto. rewrite E, !app_length in L.
    apply decode_creds; auto; [lia|]. exists u', p'. tauto.
Qed.

Lemma locate_first : forall hs, match http_header_list_locate hs is_authorization with
  | Some h => exists pre post, hs = pre ++ h :: post /\ h_code h = HEADER_AUTHORIZATION /\ Forall (fun x => h_code x <> HEADER_AUTHORIZATION) pre
  | None => Forall (fun x => h_code x <> HEADER_AUTHORIZATION) hs
  end.
Proof.
  induction hs as [|h hs IH]; cbn [http_header_list_locate]; [constructor|].
  destruct (is_authorization (h_code h)) eqn:E.
  - exists [], hs. split; [auto|]. split; [|constructor]. destruct (h_code h); try discriminate; auto.
  - assert (N : h_code h <> HEADER_AUTHORIZATION) by (destruct (h_code h); discriminate).
    destruct (http_header_list_locate hs is_authorization) as [x|].
    + destruct IH as (pre & post & -> & H1 & H2). exists (h :: pre), post. auto.
    + constructor; auto.
Qed.

Lemma authorization_fun : forall hs v v', authorization hs v -> authorization hs v' -> v = v'.
Proof.
  intros hs v v' (a & h & b & -> & H1 & H2 & F) (a' & h' & b' & E & H1' & H2' & F'). subst v v'.
  assert (K : http_header_list_locate (a ++ h :: b) is_authorization = Some h).
  { clear - F H1. induction F as [|x a Hx F IH]; cbn [app http_header_list_locate]; [rewrite H1; auto|].
    destruct (is_authorization (h_code x)) eqn:I; auto. destruct (h_code x); try discriminate. congruence. }
  assert (K' : http_header_list_locate (a' ++ h' :: b') is_authorization = Some h').
  { clear - F' H1'. induction F' as [|x a Hx F IH]; cbn [app http_header_list_locate]; [rewrite H1'; auto|].
    destruct (is_authorization (h_code x)) eqn:I; auto. destruct (h_code x); try discriminate. congruence. }
  rewrite E in K. congruence.
Qed.

(** ** The decision *)

Lemma find_grants : forall l es u p, sound_lib l -> (find_user l es u p = Equal <-> grants l es u p).
Proof.
  intros l es u p Hl. induction es as [|[u' h] es IH]; cbn [find_user].
  - split; [discriminate|]. intros (pre & h & post & E & _). destruct pre; discriminate.
  - destruct (bytes_eqb u u') eqn:E.
    + apply bytes_eqb_eq in E. subst u'. rewrite match_verifies by auto. split.
      * intros V. exists [], h, es. auto.
      * intros (pre & h' & post & X & N & V). destruct pre as [|[a b] pre]; cbn [app] in X.
        -- congruence.
        -- injection X as <- <- _. exfalso. apply N. left. auto.
    + apply bytes_eqb_neq in E. rewrite IH. split.
      * intros (pre & h' & post & -> & N & V). exists ((u', h) :: pre), h', post. split; [auto|]. split; [|auto].
        intros [X|X]; auto.
      * intros (pre & h' & post & X & N & V). destruct pre as [|[a b] pre]; cbn [app] in X.
        -- congruence.
        -- injection X as -> -> ->. exists pre, h', post. split; [auto|]. split; [|auto]. intros Y. apply N. right. auto.
Qed.
Lemma find_def : forall l es u p, Forall (fun e => sane l (snd e)) es -> find_user l es u p <> Unset.
Proof.
  intros l es u p F. induction F as [|[u' h] es H F IH]; cbn [find_user]; [discriminate|].
  destruct (bytes_eqb u u'); auto. apply match_def. auto.
Qed.

Lemma auth_granted : forall l pwf fs hs, sound_lib l -> Forall (fun h => length (h_val h) < MAXBUF) hs ->
  (fst (basic_auth l pwf fs hs) = Some 0%Z <->
   exists v u p, authorization hs v /\ carries l v u p /\ grants l (pw_head (pass_file_fill pwf fs)) u p).
Proof.
  intros l pwf fs hs Hl F. unfold basic_auth, http_request_get_basic_auth. pose proof (locate_first hs) as K.
  destruct (http_header_list_locate hs is_authorization) as [h|] eqn:E.
  - destruct K as (pre & post & K1 & K2 & K3).
    assert (A : authorization hs (h_val h)) by (exists pre, h, post; auto).
    assert (L : length (h_val h) < MAXBUF).
    { rewrite Forall_forall in F. apply F. rewrite K1. apply in_or_app. right. left. auto. }
    split.
    + destruct (get_basic_auth l (h_val h)) as [u p| |] eqn:G; cbn [fst]; try discriminate. intros H.
      apply creds_carries in G; auto. exists (h_val h), u, p. split; [auto|]. split; [auto|]. apply find_grants; auto.
      destruct (find_user _ _ _ _); congruence.
    + intros (v & u & p & A' & C & G). rewrite (authorization_fun _ _ _ A' A) in C. apply creds_carries in C; auto.
      rewrite C. cbn [fst]. apply find_grants in G; auto. rewrite G. auto.
  - cbn [fst]. split; [discriminate|]. intros (v & u & p & (a & h & b & -> & H1 & _) & _).
    rewrite Forall_forall in K. exfalso. apply (K h); auto. apply in_or_app. right. left. auto.
Qed.
Lemma auth_defined : forall l pwf fs hs, Forall (fun e => sane l (snd e)) (pw_head (pass_file_fill pwf fs)) ->
  exists r, fst (basic_auth l pwf fs hs) = Some r /\ (r = 0 \/ r = 1 \/ r = -1)%Z.
Proof.
  intros l pwf fs hs F. unfold basic_auth. destruct (http_request_get_basic_auth l hs) as [u p| |]; cbn [fst]; eauto.
  pose proof (find_def l _ u p F). destruct (find_user _ _ _ _); eauto. congruence.
Qed.

(** ** Histories *)

Lemma timespec_eq : forall a b, (timespec_cmp a b = 0)%Z <-> a = b.
Proof.
  intros [a1 a2] [b1 b2]. unfold timespec_cmp. cbn [fst snd].
  destruct (a1 <? b1)%Z eqn:E1; [split; [discriminate|intros X; injection X; lia]|].
  destruct (a1 >? b1)%Z eqn:E2; [split; [discriminate|intros X; injection X; lia]|].
  destruct (a2 <? b2)%Z eqn:E3; [split; [discriminate|intros X; injection X; lia]|].
  destruct (a2 >? b2)%Z eqn:E4; [split; [discriminate|intros X; injection X; lia]|].
  split; auto. intros _. f_equal; lia.
Qed.

Definition runs (vs : list fs_view) : pass_file := fold_left pass_file_fill vs pwf_init.

Lemma runs_inv : forall vs, timed vs -> runs vs = pwf_init \/ exists m t, In (FsFile m t) vs /\ runs vs = mkPwf m (pass_entries t).
Proof.
  induction vs as [|v vs IH] using rev_ind; intros T; [left; auto|].
  assert (T' : timed vs).
  { destruct T as [T1 T2]. split.
    - intros m t t' H1 H2. eapply T1; apply in_or_app; left; eauto.
    - intros t H. eapply T2. apply in_or_app. left. eauto. }
  specialize (IH T'). unfold runs in *. rewrite fold_left_app. cbn [fold_left].
  assert (KEEP : fold_left pass_file_fill vs pwf_init = pwf_init \/
    (exists m t, In (FsFile m t) (vs ++ [v]) /\ fold_left pass_file_fill vs pwf_init = mkPwf m (pass_entries t))).
  { destruct IH as [IH|(m & t & H & E)]; [auto|]. right. exists m, t. split; auto. apply in_or_app. auto. }
  destruct v as [| | |m t]; cbn [pass_file_fill]; auto.
  destruct (_ =? _)%Z; auto. right. exists m, t. split; auto. apply in_or_app. right. left. auto.
Qed.

Lemma runs_file : forall vs m t, timed (vs ++ [FsFile m t]) -> pw_head (runs (vs ++ [FsFile m t])) = pass_entries t.
Proof.
  intros vs m t T.
  assert (T' : timed vs).
  { destruct T as [T1 T2]. split.
    - intros m' t1 t2 H1 H2. eapply T1; apply in_or_app; left; eauto.
    - intros t1 H. eapply T2. apply in_or_app. left. eauto. }
  pose proof (runs_inv vs T') as I. unfold runs in *. rewrite fold_left_app. cbn [fold_left pass_file_fill].
  destruct (timespec_cmp _ m =? 0)%Z eqn:E; auto. apply Z.eqb_eq, timespec_eq in E.
  destruct T as [T1 T2]. destruct I as [I|(m' & t' & H & I)]; rewrite I in E |- *; cbn [pw_mtim pwf_init pw_head] in *; subst m.
  - exfalso. apply (T2 t). apply in_or_app. right. left. auto.
  - f_equal. apply (T1 m'); apply in_or_app; [left; auto|right; left; auto].
Qed.
Lemma runs_none : forall vs, pw_head (runs (vs ++ [FsNone])) = [].
Proof. intros vs. unfold runs. rewrite fold_left_app. reflexivity. Qed.
Lemma runs_error : forall vs v, v = FsError \/ v = FsStatError -> runs (vs ++ [v]) = runs vs.
Proof. intros vs v H. unfold runs. rewrite fold_left_app. destruct H as [->| ->]; reflexivity. Qed.

Lemma entry_fun : forall l u p u' p', entry_line l u p -> entry_line l u' p' -> u = u' /\ p = p'.
Proof.
  intros l u p u' p' (w & E & W & C & B) (w' & E' & W' & C' & B').
  assert (K : forall w u p, Forall blank w -> ~ begins (fun c => blank c \/ c = "#"%char) u ->
    span blankb (w ++ u ++ lit ":" ++ p) = (w, u ++ lit ":" ++ p)).
  { intros a b c Ha Hb. apply span_take.
    - apply Forall_forall. intros x Hx. rewrite Forall_forall in Ha. apply blankb_iff. auto.
    - intros x r X. destruct b as [|y b]; cbn [app] in X; [injection X as <- _; reflexivity|]. injection X as <- _.
      destruct (blankb y) eqn:D; auto. apply blankb_iff in D. exfalso. apply Hb. exists y, b. auto. }
  pose proof (K _ _ p W B) as K1. pose proof (K _ _ p' W' B') as K2. rewrite <- E in K1. rewrite <- E' in K2. rewrite K1 in K2.
  injection K2 as _ X. pose proof (span_colon u p C) as S1. pose proof (span_colon u' p' C') as S2.
  change (lit ":" ++ p) with (":"%char :: p) in X. change (lit ":" ++ p') with (":"%char :: p') in X. rewrite X, S2 in S1.
  injection S1 as -> ->. auto.
Qed.
Lemma entries_fun : forall ls es es', entries ls es -> entries ls es' -> es = es'.
Proof.
  intros ls es es' H. revert es'. induction H as [|line u p ls es L H IH|line ls es L H IH]; intros es' H'.
  - inversion H'. auto.
  - inversion H' as [|? u' p' ? es2 L' H2|? ? es2 L' H2]; subst.
    + destruct (entry_fun _ _ _ _ _ L L') as [<- <-]. f_equal. auto.
    + exfalso. eauto.
  - inversion H' as [|? u' p' ? es2 L' H2|? ? es2 L' H2]; subst; auto. exfalso. eauto.
Qed.

Lemma granted_file : forall l vs m t ls hs, sound_lib l -> Forall (fun h => length (h_val h) < MAXBUF) hs ->
  timed (vs ++ [FsFile m t]) -> text_of ls t -> Forall proper_line ls ->
  (fst (basic_auth l (runs vs) (FsFile m t) hs) = Some 0%Z <->
   exists es v u p, entries ls es /\ authorization hs v /\ carries l v u p /\ grants l es u p).
Proof.
  intros l vs m t ls hs Hl F T X P. rewrite auth_granted by auto.
  assert (E : pw_head (pass_file_fill (runs vs) (FsFile m t)) = pass_entries t).
  { rewrite <- (runs_file vs m t T). unfold runs at 2. rewrite fold_left_app. reflexivity. }
  rewrite E. pose proof (file_entries ls t X P) as N. split.
  - intros (v & u & p & A). exists (pass_entries t), v, u, p. tauto.
  - intros (es & v & u & p & A & B). rewrite (entries_fun _ _ _ A N) in B. eauto.
Qed.
