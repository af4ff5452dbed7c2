(** The reader of templates stays within its text (for C69). *)
From Coq Require Import Ascii String List ZArith Bool Lia.
From Verif Require Import Bytes TplModel.
Import ListNotations.
Local Open Scope string_scope.
Local Open Scope list_scope.
Local Open Scope nat_scope.

Definition txt (a b : bytes) : bytes := rev a ++ b.
Lemma txt_cons : forall a c b, txt (c :: a) b = txt a (c :: b).
Proof. intros a c b. unfold txt. cbn [rev]. rewrite <- app_assoc. reflexivity. Qed.
Lemma txt_rev : forall w a b, txt (rev w ++ a) b = txt a (w ++ b).
Proof. intros w a b. unfold txt. rewrite rev_app_distr, rev_involutive, <- app_assoc. reflexivity. Qed.

Definition skip_text (s : skipped) (t : bytes) : Prop :=
  match s with SkAt a b => txt a b = t | SkEof a => txt a [] = t | SkErr a => txt a [] = t | SkLoop => True end.
Lemma skip_txt : forall n b inc a, length b <= n -> skip_text (skip inc a b) (txt a b).
Proof.
  induction n as [|n IH]; intros [|c r] inc a L; cbn [skip]; try (destruct inc; reflexivity); [cbn in L; lia|].
  assert (S1 : forall inc, skip_text (skip inc (c :: a) r) (txt a (c :: r))) by (intros inc'; rewrite <- txt_cons; apply IH; cbn in L; lia).
  assert (S2 : forall inc d r', r = d :: r' -> skip_text (skip inc (d :: c :: a) r') (txt a (c :: r))) by (intros inc' d r' ->; rewrite <- !txt_cons; apply IH; cbn in L; lia).
  destruct inc.
  - destruct (beq c "*"); [|apply S1]. destruct r as [|d r']; [exact Logic.I|]. destruct (beq d "/"); [apply S2; reflexivity|apply S1].
  - destruct (is_space c); [apply S1|]. destruct (beq c "/"); [|reflexivity]. destruct r as [|d r']; [reflexivity|]. destruct (beq d "*"); [apply S2; reflexivity|reflexivity].
Qed.

Definition lex_text (l : lexed) (t : bytes) : Prop := match l with Lex _ _ a b => txt a b = t | _ => True end.
Lemma removelast_skipn : forall w : bytes, removelast w ++ skipn (length (removelast w)) w = w.
Proof.
  intros w. destruct w as [|c w] using rev_ind; [reflexivity|]. rewrite removelast_last, skipn_app, skipn_all, Nat.sub_diag. reflexivity.
Qed.
Lemma run_txt : forall p mk a b, lex_text (run p mk a b) (txt a b).
Proof.
  intros p mk a b. unfold run. pose proof (span_app p b) as E. destruct (span p b) as [w r]. cbn [fst snd] in E. destruct r as [|c r]; cbn [lex_text].
  - rewrite app_nil_r in E. subst w. rewrite txt_rev, removelast_skipn. reflexivity.
  - rewrite txt_rev, E. reflexivity.
Qed.
Lemma digits_txt : forall sign b n a, lex_text (digits sign n a b) (txt a b).
Proof.
  intros sign. induction b as [|c b IH]; intros n a; cbn [digits].
  - destruct a as [|c a]; cbn [lex_text]; [reflexivity|]. symmetry. apply txt_cons.
  - destruct (is_digit c); [|reflexivity]. destruct (_ <? _)%Z; [apply txt_cons|]. destruct (_ <? _)%Z; [exact Logic.I|]. rewrite <- txt_cons. apply IH.
Qed.
Lemma quoted_txt : forall n b a, length b <= n -> match quoted a b with (Some (_, a', b'), _) => txt a' b' = txt a b | (None, e) => txt e [] = txt a b end.
Proof.
  induction n as [|n IH]; intros [|c r] a L; cbn [quoted]; [reflexivity|cbn in L; lia|reflexivity|].
  destruct (beq c """"); [apply txt_cons|]. destruct (beq c "\").
  - destruct r as [|d r']; [apply txt_cons|]. destruct (beq d """"); [rewrite !txt_cons; reflexivity|].
    specialize (IH r' (d :: c :: a) ltac:(cbn in L; lia)). destruct (quoted (d :: c :: a) r') as [[[[s a'] b']|] e]; rewrite !txt_cons in IH; exact IH.
  - specialize (IH r (c :: a) ltac:(cbn in L; lia)). destruct (quoted (c :: a) r) as [[[[s a'] b']|] e]; rewrite !txt_cons in IH; exact IH.
Qed.
Lemma forth_txt : forall t n a b, lex_text (lex_forth t n a b) (txt a b).
Proof. intros t n a b. unfold lex_forth, forth. cbn [lex_text]. rewrite txt_rev, firstn_skipn. reflexivity. Qed.
Lemma token_txt : forall a b, lex_text (token_at a b) (txt a b).
Proof.
  intros a [|c r]; [reflexivity|]. unfold token_at. destruct (is_alpha c); [apply run_txt|]. destruct (is_digit c); [apply digits_txt|].
  destruct (beq c """").
  { pose proof (quoted_txt _ r (c :: a) (le_n _)) as Q. destruct (quoted (c :: a) r) as [[[[s a'] b']|] e]; cbn [lex_text]; rewrite txt_cons in Q; exact Q. }
  destruct (beq c "."); [destruct (head_is is_alpha r); [rewrite <- txt_cons; apply run_txt|apply forth_txt]|].
  destruct (_ && _); [rewrite <- txt_cons; apply digits_txt|]. destruct (_ && _); [rewrite <- txt_cons; apply run_txt|].
  destruct (starts _ _); [apply forth_txt|]. destruct (starts _ _); [apply forth_txt|]. destruct (_ && _); apply forth_txt.
Qed.
Lemma lex_txt : forall a b, lex_text (lex a b) (txt a b).
Proof.
  intros a b. unfold lex. pose proof (skip_txt _ b false a (le_n _)) as S. destruct (skip false a b) as [a' b'|a'|a'|]; cbn [skip_text] in S; try exact S. rewrite <- S. apply token_txt.
Qed.

(** The text of an input, and results that keep it *)
Definition whole (i : input) : bytes := txt (pre i) (post i).
Definition keeps {A : Type} (f : A -> input) (t : bytes) (o : out A) : Prop := match o with Ret a => whole (f a) = t | _ => True end.
Definition same (i : input) : input := i.

Lemma bind_keeps : forall (A B : Type) (f : A -> input) (g : B -> input) t (o : out A) (k : A -> out B),
  keeps f t o -> (forall a, whole (f a) = t -> keeps g t (k a)) -> keeps g t (bind o k).
Proof. intros A B f g t o k O K. destruct o as [a|w| |]; cbn [bind]; try exact Logic.I. apply K, O. Qed.

Lemma gettok_keeps : forall i t, whole i = t -> keeps same t (gettok i).
Proof.
  intros i t E. unfold gettok. destruct (ready i); [destruct (tok i); exact E|]. unfold took. pose proof (lex_txt (pre i) (post i)) as L.
  destruct (lex (pre i) (post i)) as [k e a b| |]; cbn [lex_text] in L; try exact Logic.I. destruct e; cbn [keeps same]; rewrite <- E; exact L.
Qed.
Lemma putback_keeps : forall i t, whole i = t -> keeps same t (putback i).
Proof. intros i t E. unfold putback. destruct (ready i); [exact Logic.I|exact E]. Qed.
Lemma upto_app : forall b, fst (upto b) ++ snd (upto b) = b.
Proof.
  induction b as [|c b IH]; [reflexivity|]. change (upto (c :: b)) with (if starts (lit "{{") (c :: b) then ([], c :: b) else let (t, r) := upto b in (c :: t, r)).
  destruct (starts (lit "{{") (c :: b)); [reflexivity|]. destruct (upto b) as [t r]. cbn [fst snd app] in *. rewrite IH. reflexivity.
Qed.
Lemma gettext_keeps : forall i t, whole i = t -> keeps same t (gettext i).
Proof.
  intros i t E. unfold gettext. pose proof (upto_app (post i)) as U. destruct (upto (post i)) as [w r]. cbn [fst snd] in U.
  set (trim := starts (lit "{{-") r && head_is is_space (skipn 3 r)).
  assert (M : whole (move (rev w ++ pre i) r i) = t) by (unfold whole; cbn [move pre post]; rewrite txt_rev, U; exact E).
  assert (X : keeps same t (match (if trim then rtrim w else w) with [] => gettok (move (rev w ++ pre i) r i) | t' => Ret (set_tok (TText t') (move (rev w ++ pre i) r i)) end)).
  { destruct (if trim then rtrim w else w); [apply gettok_keeps, M|exact M]. }
  destruct w as [|c w]; [|exact X]. destruct r as [|d r]; [exact X|]. unfold forth. cbv beta iota.
  match goal with |- keeps _ _ (Ret (set_tok _ (move (rev (firstn ?n _) ++ _) _ _))) => change (txt (rev (firstn n (d :: r)) ++ pre i) (skipn n (d :: r)) = t) end.
  rewrite txt_rev, firstn_skipn.
  cbn [app] in U. rewrite U. exact E.
Qed.

Ltac keep :=
  lazymatch goal with
  | |- keeps _ _ (match ?x with _ => _ end) => first [destruct x eqn:? | destruct x]; keep
  | |- keeps _ _ (Ret _) => try assumption
  | |- _ => idtac
  end.

Lemma attrs_keeps : forall fuel c i t, whole i = t -> keeps snd t (attrs fuel c i).
Proof.
  induction fuel as [|fuel IH]; intros c i t E; cbn [attrs]; [exact Logic.I|]. destruct (head_is is_space (post i)); [exact E|].
  apply (bind_keeps _ _ same); [apply gettok_keeps, E|]. intros j J. unfold same in J.
  destruct (tok j); try (apply IH, J); (apply (bind_keeps _ _ same); [apply putback_keeps, J|intros k K; exact K]).
Qed.

Lemma scan_keeps : forall fuel,
  (forall head i t, whole i = t -> keeps snd t (scan_arg fuel head i)) /\
  (forall i t, whole i = t -> keeps snd t (scan_args fuel i)) /\
  (forall head i t, whole i = t -> keeps snd t (scan_pipeline fuel head i)).
Proof.
  induction fuel as [|fuel (IA & IAS & IP)]; [repeat split; intros; exact Logic.I|].
  assert (PB : forall (head : list cmd) j t, whole j = t -> keeps (A := bool * list cmd * input) snd t (do i <- putback j; Ret (false, head, i))).
  { intros head j t J. apply (bind_keeps _ _ same); [apply putback_keeps, J|]. intros k K. exact K. }
  split; [|split].
  - intros head i t E. cbn [scan_arg]. cbv zeta. apply (bind_keeps _ _ same); [apply gettok_keeps, E|]. intros j J. unfold same in J.
    assert (CH : forall c, keeps (A := bool * list cmd * input) snd t (do r <- attrs fuel c j; Ret (true, head ++ [fst r], snd r))).
    { intros c. apply (bind_keeps _ _ snd); [apply attrs_keeps, J|]. intros k K. exact K. }
    destruct (tok j); try exact J; try (apply PB, J); try apply CH.
    all: try (destruct (bytes_eqb _ _); [exact J|]; destruct (bytes_eqb _ _); [exact J|]; destruct (find_func _); [|exact J];
              apply (bind_keeps _ _ snd); [apply IAS, J|]; intros k K; exact K).
    all: try (destruct (beq _ "("); [|apply PB, J]; apply (bind_keeps _ _ snd); [apply IP, J|]; intros [p k] K; cbn [fst snd] in *;
              destruct (tok k); try exact K; destruct (beq _ _); [|exact K]; apply (bind_keeps _ _ snd); [apply attrs_keeps, K|]; intros m M; exact M).
  - intros i t E. cbn [scan_args]. apply (bind_keeps _ _ snd); [apply IA, E|]. intros [[ok p] j] J. cbn [snd] in J. destruct ok; [|exact J].
    apply (bind_keeps _ _ snd); [apply IAS, J|]. intros k K. exact K.
  - intros head i t E. cbn [scan_pipeline]. apply (bind_keeps _ _ snd); [apply IA, E|]. intros [[ok p] j] J. cbn [snd] in J. destruct ok; [|exact J].
    apply (bind_keeps _ _ same); [apply gettok_keeps, J|]. intros k K. unfold same in K. destruct (tok k); try exact K. destruct (beq _ _); [apply IP, K|exact K].
Qed.

Lemma freed_whole : forall v i, whole (freed v i) = whole i.
Proof. intros [v|] i; reflexivity. Qed.
Lemma bad_whole : forall i, whole (bad_token i) = whole i.
Proof. intros i. unfold bad_token. destruct (error i); reflexivity. Qed.
Lemma with_keeps : forall i t, whole i = t -> keeps snd t (parse_with_var i).
Proof.
  intros i t E. unfold parse_with_var. apply (bind_keeps _ _ same); [apply gettok_keeps, E|]. intros j J. unfold same in J. destruct (var_of j) as [v|].
  - apply (bind_keeps _ _ same); [apply gettok_keeps, J|]. intros k K. unfold same in K. destruct (is_char "=" k); [exact K|]. cbn [keeps snd]. rewrite freed_whole. exact E.
  - apply (bind_keeps _ _ same); [apply putback_keeps, J|]. intros k K. exact K.
Qed.
Lemma range_keeps : forall i t, whole i = t -> keeps snd t (parse_range_vars i).
Proof.
  intros i t E. unfold parse_range_vars. apply (bind_keeps _ _ same); [apply gettok_keeps, E|]. intros j J. unfold same in J.
  assert (F : forall a b k, whole k = t -> whole (set_error ERR_BADTOK (freed a (freed b k))) = t) by (intros [a|] [b|] k K; exact K).
  destruct (var_of j) as [v|].
  - apply (bind_keeps _ _ same); [apply gettok_keeps, J|]. intros k K. unfold same in K. destruct (is_char "," k); [|exact (F v None k K)].
    apply (bind_keeps _ _ same); [apply gettok_keeps, K|]. intros l L. unfold same in L. destruct (var_of l) as [u|]; [|exact (F v None l L)].
    apply (bind_keeps _ _ same); [apply gettok_keeps, L|]. intros m M. unfold same in M. destruct (is_char "=" m); [exact M|exact (F v u m M)].
  - apply (bind_keeps _ _ same); [apply putback_keeps, J|]. intros k K. exact K.
Qed.

Lemma action_keeps : forall fuel,
  (forall tb inh i t, whole i = t -> keeps snd t (scan_action fuel tb inh i)) /\
  (forall p inh i t, whole i = t -> keeps snd t (run_parser fuel p inh i)).
Proof.
  induction fuel as [|fuel (IS & IR)]; [split; intros; exact Logic.I|].
  assert (IP : forall head i t, whole i = t -> keeps snd t (scan_pipeline fuel head i)) by (intros head i t E; apply (proj2 (proj2 (scan_keeps fuel))), E).
  assert (B : forall i t, whole i = t -> whole (bad_token i) = t) by (intros i t E; rewrite bad_whole; exact E).
  split.
  - intros tb inh i t E. cbn [scan_action]. apply (bind_keeps _ _ same); [apply gettext_keeps, E|]. intros j J. unfold same in J.
    destruct (tok j) eqn:TJ; try exact J.
    all: try (apply (bind_keeps _ _ snd); [apply IS; exact J|]; intros [[acts els] k] K; exact K).
    apply (bind_keeps _ _ same); [apply gettok_keeps, J|]. intros k K. unfold same in K.
    set (fp := match tok k with TIdent w => find_action_parser tb inh w | _ => None end).
    assert (R : forall p, keeps (A := list act * list act * input) snd t (do r <- run_parser fuel p inh k;
              let '(a, els, st, i) := r in
              match st with
              | St_err => Ret (a, els, bad_token i)
              | _ =>
                  if negb (is_end i) && (match error i with None => true | Some _ => false end)
                  then Ret (a, els, bad_token i)
                  else
                    match st with
                    | St_end => Ret (a, els, i)
                    | _ =>
                        do r <- scan_action fuel tb inh i;
                        let '(acts, els, i) := r in Ret (a ++ acts, els, i)
                    end
              end)).
    { intros p. apply (bind_keeps _ _ snd); [apply IR, K|]. intros [[[a els] st] m] M. cbn [snd] in M.
      assert (SA : keeps (A := list act * list act * input) snd t (do r <- scan_action fuel tb inh m; let '(acts, els, i) := r in Ret (a ++ acts, els, i))).
      { apply (bind_keeps _ _ snd); [apply IS, M|]. intros [[acts els'] n] NN. exact NN. }
      destruct st; try (apply B, M); (destruct (negb (is_end m) && _); [apply B, M|]); [exact SA|exact M]. }
    assert (Q : keeps (A := list act * list act * input) snd t (do i <- putback k;
              do r <- scan_pipeline fuel [] i;
              let '(p, i) := r in
              if is_end i then
                do r <- scan_action fuel tb inh i;
                let '(acts, els, i) := r in Ret (APipe p :: acts, els, i)
              else Ret ([APipe p], [], bad_token i))).
    { apply (bind_keeps _ _ same); [apply putback_keeps, K|]. intros m M. apply (bind_keeps _ _ snd); [apply IP, M|]. intros [p n] NN. cbn [snd] in NN.
      destruct (is_end n); [|apply B, NN]. apply (bind_keeps _ _ snd); [apply IS, NN|]. intros [[acts els'] o] O. exact O. }
    destruct (tok k); destruct fp as [p|]; first [exact (R p)|exact Q|apply IS, K].
  - intros p inh i t E. cbn [run_parser].
    assert (G : forall (A : Type) (g : A -> input) (k : input -> out A), (forall j, whole j = t -> keeps g t (k j)) -> keeps g t (bind (gettok i) k)).
    { intros A g k H. apply (bind_keeps _ _ same); [apply gettok_keeps, E|]. intros j J. apply H, J. }
    assert (SP : forall (A : Type) (g : A -> input) head j (k : list cmd * input -> out A), whole j = t -> (forall c m, whole m = t -> keeps g t (k (c, m))) -> keeps g t (bind (scan_pipeline fuel head j) k)).
    { intros A g head j k J H. apply (bind_keeps _ _ snd); [apply IP, J|]. intros [c m] M. apply H, M. }
    assert (SC : forall (A : Type) (g : A -> input) tb inh' j (k : list act * list act * input -> out A), whole j = t -> (forall a b m, whole m = t -> keeps g t (k (a, b, m))) -> keeps g t (bind (scan_action fuel tb inh' j) k)).
    { intros A g tb inh' j k J H. apply (bind_keeps _ _ snd); [apply IS, J|]. intros [[a b] m] M. apply H, M. }
    destruct p.
    + apply SP; [exact E|]. intros c m M. destruct (is_end m); [|apply B, M]. apply SC; [exact M|]. intros a b n NN. exact NN.
    + apply (bind_keeps _ _ snd); [apply with_keeps, E|]. intros [[v|] j] J; cbn [snd] in J; [|exact J].
      apply SP; [exact J|]. intros c m M. destruct (is_end m); [|apply B, M]. apply SC; [exact M|]. intros a b n NN. exact NN.
    + apply (bind_keeps _ _ snd); [apply range_keeps, E|]. intros [[[v w]|] j] J; cbn [snd] in J; [|exact J].
      apply SP; [exact J|]. intros c m M. destruct (is_end m); [|apply B, M]. apply SC; [exact M|]. intros a b n NN. exact NN.
    + apply G. intros j J. destruct (tok j); try (apply B, J). apply SP; [exact J|]. intros c m M. destruct (is_end m); [|apply B, M].
      destruct (template_lookup _ _); [exact M|]. apply SC; [exact M|]. intros a b n NN. destruct (error n); exact NN.
    + apply G. intros j J. destruct (tok j); try (apply B, J). apply (bind_keeps _ _ same); [apply gettok_keeps, J|]. intros m M. unfold same in M. destruct (is_end m); [|apply B, M].
      apply SC; [exact M|]. intros a b n NN. destruct (error n); exact NN.
    + apply G. intros j J. destruct (tok j); try (apply B, J). apply SP; [exact J|]. intros c m M. destruct (is_end m); [|apply B, M].
      destruct (template_lookup _ _); exact M.
    + apply G. intros j J. destruct (tok j); try exact J.
      * destruct (bytes_eqb _ _); [|exact J]. apply (bind_keeps _ _ snd); [apply IR, J|]. intros [[[a b] st] m] M. exact M.
      * apply SC; [exact J|]. intros a b m M. exact M.
    + apply G. intros j J. destruct (is_end j); [|exact J]. apply SC; [exact J|]. intros a b m M. exact M.
    + apply G. intros j J. destruct (is_end j); exact J.
    + apply G. intros j J. destruct (is_end j); exact J.
    + apply G. intros j J. destruct (is_end j); exact J.
Qed.

(** The position of an error is one of the text *)
Lemma error_within : forall fuel T text e off, template_parse fuel T text = Ret (PErr e off) -> exists a z, text = a ++ z /\ length a = off.
Proof.
  intros fuel T text e off H. unfold template_parse in H. pose proof (proj1 (action_keeps fuel) NoLocal false (mkIn [] text TEof false None T false) text eq_refl) as K.
  destruct (scan_action fuel NoLocal false (mkIn [] text TEof false None T false)) as [[[acts els] i]|w| |]; try discriminate H. cbn [bind keeps snd] in *.
  destruct (error i) as [e'|]; [|discriminate H]. destruct (dangling i); [discriminate H|]. injection H as _ <-. exists (rev (pre i)), (post i). split; [symmetry; exact K|apply rev_length].
Qed.
