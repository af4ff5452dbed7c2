(** Proofs about how the actions of a template are read *)
From Coq Require Import Ascii String List ZArith Bool Lia.
From Verif Require Import Bytes TplModel TplSpec TplLexProofs TplPipeProofs TplProofs.
Import ListNotations.
Local Open Scope nat_scope.
Local Open Scope string_scope.
Local Open Scope list_scope.

(** ** The steps of scan_action *)
Definition after_tok (fuel : nat) (t : table) (inh : bool) (i : input) : out (list act * list act * input) :=
  match tok i, (match tok i with TIdent w => find_action_parser t inh w | _ => None end) with
  | TEnd, _ => scan_action fuel t inh i
  | _, Some p =>
      do r <- run_parser fuel p inh i;
      let '(a, els, st, i) := r in
      match st with
      | St_err => Ret (a, els, bad_token i)
      | _ =>
          if negb (is_end i) && (match error i with None => true | Some _ => false end)
          then Ret (a, els, bad_token i)
          else
            match st with
            | St_end => Ret (a, els, i)
            | _ =>
                do r <- scan_action fuel t inh i;
                let '(acts, els, i) := r in Ret (a ++ acts, els, i)
            end
      end
  | _, None =>
      do i <- putback i;
      do r <- scan_pipeline fuel [] i;
      let '(p, i) := r in
      if is_end i then
        do r <- scan_action fuel t inh i;
        let '(acts, els, i) := r in Ret (APipe p :: acts, els, i)
      else Ret ([APipe p], [], bad_token i)
  end.

Lemma rev2 : forall p b0 a (x : bytes), p ++ b0 = x -> rev b0 ++ rev p ++ a = rev x ++ a.
Proof. intros p b0 a x <-. rewrite rev_app_distr, <- app_assoc. reflexivity. Qed.

(** The token after the opening delimiter *)
Lemma scan_open : forall l b x a, blank b -> opening l b -> no_dash x ->
  forall t a' b', lex (rev (lit "{{" ++ dash l ++ b) ++ a) x = Lex t None a' b' ->
  forall fuel tab inh tk T,
    scan_action (S fuel) tab inh (st (a, lit "{{" ++ dash l ++ b ++ x) tk T) = after_tok fuel tab inh (st (a', b') t T).
Proof.
  intros l b x a B O N t a' b' L fuel tab inh tk T.
  destruct (gettext_open l b x a B O N) as (p & b0 & E & B0 & _ & G).
  rewrite scan_action_S. destruct (G (st (a, lit "{{" ++ dash l ++ b ++ x) tk T) eq_refl eq_refl eq_refl) as (-> & _).
  cbn [bind at_tok tok].
  rewrite (gettok_sits (at_tok TBeg (rev p ++ a) (b0 ++ x) (st (a, lit "{{" ++ dash l ++ b ++ x) tk T))
             (rev p ++ a) (b0 ++ x) t a' b' (sits_at _ _ _ _)).
  - reflexivity.
  - rewrite lex_blank by exact B0. rewrite (rev2 p b0 a _ E). exact L.
Qed.

Lemma name_no_dash : forall w y, name w -> no_dash (w ++ y).
Proof.
  intros w y (c & r & -> & A & _). cbn [app no_dash]. destruct (r ++ y); [exact I|]. intros ->. discriminate.
Qed.

(** What may follow a word *)
Definition word_end (y : bytes) : Prop := y <> [] /\ forall c r', y = c :: r' -> ident_char c = false.
Lemma breaks_word_end : forall y, breaks y -> word_end y.
Proof. intros y B. split; [apply breaks_nil, B|apply breaks_ident, B]. Qed.

Lemma scan_word : forall l b w y a, blank b -> opening l b -> name w -> word_end y ->
  forall fuel tab inh tk T,
    scan_action (S fuel) tab inh (st (a, lit "{{" ++ dash l ++ b ++ w ++ y) tk T)
    = after_tok fuel tab inh (st (rev (lit "{{" ++ dash l ++ b ++ w) ++ a, y) (TIdent w) T).
Proof.
  intros l b w y a B O N (Y1 & Y2) fuel tab inh tk T.
  rewrite (scan_open l b (w ++ y) a B O (name_no_dash w y N) _ _ _ (lex_word _ w y N Y1 Y2)).
  do 2 f_equal. f_equal. repeat rewrite rev_app_distr. rewrite <- !app_assoc. reflexivity.
Qed.

Lemma after_ok : forall fuel tab inh i w p a e j, tok i = TIdent w -> find_action_parser tab inh w = Some p ->
  run_parser fuel p inh i = Ret (a, e, St_ok, j) -> tok j = TEnd ->
  after_tok fuel tab inh i = do r <- scan_action fuel tab inh j; let '(acts, els, i) := r in Ret (a ++ acts, els, i).
Proof.
  intros fuel tab inh i w p a e j Ti F R Tj. unfold after_tok. rewrite Ti, F, R. cbn [bind]. unfold is_end. rewrite Tj. reflexivity.
Qed.
Lemma after_end : forall fuel tab inh i w p a e j, tok i = TIdent w -> find_action_parser tab inh w = Some p ->
  run_parser fuel p inh i = Ret (a, e, St_end, j) -> tok j = TEnd ->
  after_tok fuel tab inh i = Ret (a, e, j).
Proof.
  intros fuel tab inh i w p a e j Ti F R Tj. unfold after_tok. rewrite Ti, F, R. cbn [bind]. unfold is_end. rewrite Tj. reflexivity.
Qed.

(** ** The closing delimiter *)
Lemma close_breaks : forall b r R, blank b -> closing r b -> breaks (b ++ dash r ++ lit "}}" ++ R).
Proof.
  intros b r R B C. destruct r.
  - destruct (C eq_refl) as (y & c & E & _). destruct b as [|d b]; [destruct y; discriminate|].
    cbn [app]. exists d, (b ++ dash true ++ lit "}}" ++ R). split; [reflexivity|].
    destruct (blank_head d b B) as [H| ->]; [|split; [reflexivity|discriminate]].
    split; [apply space_attr, H|]. intros ->. discriminate.
  - apply blank_breaks; [exact B|]. apply mark_breaks. cbn; auto 10.
Qed.
Lemma close_lex : forall b r R a, blank b -> closing r b -> 1 <= length a ->
  lex a (b ++ dash r ++ lit "}}" ++ R) =
  Lex TEnd None (fst (place r (rev (b ++ dash r ++ lit "}}") ++ a) R)) (snd (place r (rev (b ++ dash r ++ lit "}}") ++ a) R)).
Proof.
  intros b r R a B C L. apply lex_close; [exact B|]. intros ->.
  destruct (rev_space_last b (C eq_refl)) as (c & t & -> & H). split; [exact H|]. cbn [app length]. rewrite app_length. lia.
Qed.
Lemma close_closes : forall b r R a, blank b -> closing r b -> 1 <= length a ->
  closes a (b ++ dash r ++ lit "}}" ++ R) TEnd (fst (place r (rev (b ++ dash r ++ lit "}}") ++ a) R))
    (snd (place r (rev (b ++ dash r ++ lit "}}") ++ a) R)).
Proof.
  intros b r R a B C L. split; [apply close_breaks; assumption|]. split; [left; reflexivity|apply close_lex; assumption].
Qed.
Lemma st_eq : forall ab t T, mkIn (fst ab) (snd ab) t false None T false = st ab t T.
Proof. reflexivity. Qed.

(** A pipeline up to the end of the action *)
Lemma pipe_close : forall p s b1 b' r a R T i, pipeline p s -> blank b1 -> blank b' -> closing r b' -> 1 <= length a ->
  error i = None -> tmpls i = T -> dangling i = false ->
  sits i a (b1 ++ s ++ b' ++ dash r ++ lit "}}" ++ R) ->
  exists N, forall fuel, N <= fuel ->
    scan_pipeline fuel [] i = Ret (p, st (place r (rev (b1 ++ s ++ b' ++ dash r ++ lit "}}") ++ a) R) TEnd T).
Proof.
  intros p s b1 b' r a R T i P B1 B' C L E1 E2 E3 H.
  assert (L' : 1 <= length (rev (b1 ++ s) ++ a)) by (rewrite app_length; lia).
  destruct (pipeline_read p s P [] a b1 _ i _ _ _ B1 (close_closes b' r R _ B' C L') ltac:(discriminate) H) as (N & E).
  exists N. intros fuel F. rewrite E by exact F. cbn [app]. unfold at_tok. rewrite E1, E2, E3.
  replace (rev (b1 ++ s ++ b' ++ dash r ++ lit "}}") ++ a) with (rev (b' ++ dash r ++ lit "}}") ++ rev (b1 ++ s) ++ a).
  2:{ rewrite (app_assoc b1 s), (rev_app_distr (b1 ++ s)), <- !app_assoc. reflexivity. }
  reflexivity.
Qed.

Lemma len1 : forall (x : bytes) (a : bytes), x <> [] -> 1 <= length (rev x ++ a).
Proof. intros x a H. rewrite app_length, rev_length. destruct x; [contradiction|cbn; lia]. Qed.
Ltac nonempty := first [discriminate | apply len1; discriminate].

Lemma sits_st : forall a b t T, sits (st (a, b) t T) a b.
Proof. intros a b t T. left. repeat split. Qed.

(** {{word}} *)
Lemma word_scan : forall l w r s R a, word_tag l w r s -> name w -> opens l (s ++ R)
  /\ forall fuel tab inh tk T, exists i, tok i = TIdent w
     /\ gettok i = Ret (st (place r (rev s ++ a) R) TEnd T)
     /\ scan_action (S fuel) tab inh (st (a, s ++ R) tk T) = after_tok fuel tab inh i.
Proof.
  intros l w r s R a W N. destruct W as [b b' B B' O C].
  split.
  { rewrite <- !app_assoc. apply opens_tag; [exact B|exact O|]. apply name_no_dash, N. }
  intros fuel tab inh tk T.
  exists (st (rev (lit "{{" ++ dash l ++ b ++ w) ++ a, b' ++ dash r ++ lit "}}" ++ R) (TIdent w) T).
  split; [reflexivity|]. split.
  - rewrite (gettok_sits _ _ _ _ _ _ (sits_st _ _ _ _)
               (close_lex b' r R _ B' C (len1 (lit "{{" ++ dash l ++ b ++ w) a ltac:(discriminate)))).
    unfold at_tok. rewrite <- st_eq. cbn [error tmpls dangling st].
    replace (rev (lit "{{" ++ dash l ++ b ++ w ++ b' ++ dash r ++ lit "}}") ++ a) with
      (rev (b' ++ dash r ++ lit "}}") ++ rev (lit "{{" ++ dash l ++ b ++ w) ++ a); [reflexivity|].
    repeat rewrite rev_app_distr. rewrite <- !app_assoc. reflexivity.
  - rewrite <- !app_assoc. apply scan_word; [exact B|exact O|exact N|]. apply breaks_word_end, close_breaks; assumption.
Qed.

Lemma name_lit : forall s c r, lit s = c :: r -> is_alpha c = true -> forallb is_alnum r = true -> name (lit s).
Proof.
  intros s c r E A F. exists c, r. split; [exact E|]. split; [exact A|]. intros d I. left.
  rewrite forallb_forall in F. apply F, I.
Qed.
Lemma name_end : name (lit "end"). Proof. eapply name_lit; reflexivity. Qed.
Lemma name_else : name (lit "else"). Proof. eapply name_lit; reflexivity. Qed.
Lemma name_if : name (lit "if"). Proof. eapply name_lit; reflexivity. Qed.
Lemma name_with : name (lit "with"). Proof. eapply name_lit; reflexivity. Qed.
Lemma name_range : name (lit "range"). Proof. eapply name_lit; reflexivity. Qed.
Lemma name_break : name (lit "break"). Proof. eapply name_lit; reflexivity. Qed.
Lemma name_continue : name (lit "continue"). Proof. eapply name_lit; reflexivity. Qed.
Lemma name_define : name (lit "define"). Proof. eapply name_lit; reflexivity. Qed.
Lemma name_template : name (lit "template"). Proof. eapply name_lit; reflexivity. Qed.
Lemma name_block : name (lit "block"). Proof. eapply name_lit; reflexivity. Qed.

(** {{end}} *)
Lemma end_read : forall l r e R a tab inh T, word_tag l (lit "end") r e -> tab <> NoLocal ->
  opens l (e ++ R)
  /\ forall tk, scans tab inh (st (a, e ++ R) tk T) ([], [], st (place r (rev e ++ a) R) TEnd T).
Proof.
  intros l r e R a tab inh T W N. destruct (word_scan l _ r e R a W name_end) as (O & H). split; [exact O|].
  intros tk. exists 2. intros fuel F. destruct fuel as [|[|fuel]]; [lia|lia|].
  destruct (H (S fuel) tab inh tk T) as (i & I1 & I2 & ->).
  apply (after_end _ _ _ _ (lit "end") P_end); [exact I1| | |reflexivity].
  - destruct tab, inh; try reflexivity; contradiction.
  - change (run_parser (S fuel) P_end inh i) with (do i <- gettok i; if is_end i then Ret ([], [], St_end, i) else Ret ([], [], St_err, i) : out parsed).
    rewrite I2. reflexivity.
Qed.

(** ** Definitions *)
Lemma lookup_none : forall n T, template_lookup n T = None <-> ~ defined n T.
Proof.
  intros n T. unfold template_lookup, defined. induction T as [|(m, b) T IH]; cbn [find].
  - split; [intros _ (x & [])|reflexivity].
  - cbn [fst]. destruct (bytes_eqb m n) eqn:E; cbn [option_map].
    + apply bytes_eqb_eq in E. subst m. split; [discriminate|]. intros H. exfalso. apply H. exists b. left. reflexivity.
    + rewrite IH. split; intros H (x & I).
      * destruct I as [I|I]; [injection I as -> ->; rewrite bytes_eqb_refl in E; discriminate|]. apply H. exists x. exact I.
      * apply H. exists x. right. exact I.
Qed.
Lemma lookup_some : forall n T, defined n T -> exists b, template_lookup n T = Some b.
Proof.
  intros n T D. destruct (template_lookup n T) as [b|] eqn:E; [exists b; reflexivity|].
  apply lookup_none in E. contradiction.
Qed.
Lemma define_is : forall n b T T', defining n b T T' -> template_define n b T = T'.
Proof.
  intros n b T T' [(T1 & b0 & T2 & -> & N & ->)|(N & ->)].
  - induction T1 as [|(m, c) T1 IH]; cbn [app template_define].
    + rewrite bytes_eqb_refl. reflexivity.
    + destruct (bytes_eqb m n) eqn:E.
      * apply bytes_eqb_eq in E. subst m. exfalso. apply N. exists c. left. reflexivity.
      * rewrite IH; [reflexivity|]. intros (x & I). apply N. exists x. right. exact I.
  - induction T as [|(m, c) T IH]; cbn [app template_define]; [reflexivity|].
    destruct (bytes_eqb m n) eqn:E.
    + apply bytes_eqb_eq in E. subst m. exfalso. apply N. exists c. left. reflexivity.
    + rewrite IH; [reflexivity|]. intros (x & I). apply N. exists x. right. exact I.
Qed.
