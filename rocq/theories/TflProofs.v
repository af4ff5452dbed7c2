(** Proofs for C69. *)
From Coq Require Import Ascii String List ZArith Bool Lia.
From Verif Require Import Bytes StreamModel TplModel TflModel TflSpec.
From Verif Require JsonModel TevModel AnsModel.
Import ListNotations.
Local Open Scope string_scope.
Local Open Scope list_scope.
Local Open Scope nat_scope.

Lemma stands_expand : forall home el f, stands_for home el f -> expand home el = f /\ el <> [].
Proof.
  intros home el f H. destruct H as [c r NE| |r|c r NE]; (split; [|discriminate]); cbn [expand lit].
  - destruct (beq c "~") eqn:B; [apply beq_eq in B; congruence|reflexivity].
  - reflexivity.
  - reflexivity.
  - unfold expand. cbn [beq]. change (beq "~" "~") with true. cbv iota. destruct (beq c "/") eqn:B; [apply beq_eq in B; congruence|reflexivity].
Qed.
Lemma expand_stands : forall home el, el <> [] -> stands_for home el (expand home el).
Proof.
  intros home [|c r] NE; [congruence|]. unfold expand. destruct (beq c "~") eqn:B.
  - apply beq_eq in B. subst c. destruct r as [|d r]; [exact (home_itself home)|]. destruct (beq d "/") eqn:D.
    + apply beq_eq in D. subst d. exact (home_slash home r).
    + apply (home_file home d r). intros ->. discriminate D.
  - apply plain_name. intros ->. discriminate B.
Qed.

Lemma try_gives : forall fs home name el f n, el <> [] -> (try_element fs home name el = Some (f, n) <-> gives fs home name el f n).
Proof.
  intros fs home name el f n NE. split.
  - unfold try_element. pose proof (expand_stands home el NE) as S. destruct (fs (expand home el)) as [| | |t|] eqn:E; try discriminate.
    + change (lit "/" ++ name) with ("/"%char :: name). destruct (fs (expand home el ++ "/"%char :: name)) as [| | |t|] eqn:I; try discriminate; intros [= <- <-];
        (apply in_directory; [exact S|exact E|exact I|split; discriminate]).
    + intros [= <- <-]. apply the_file; assumption.
  - intros G. unfold try_element. destruct G as [el f t S E|el d n S E I [O1 O2]]; destruct (stands_expand _ _ _ S) as [X _]; rewrite X, E; [reflexivity|].
    change (lit "/" ++ name) with ("/"%char :: name). rewrite I. destruct n; congruence.
Qed.
Lemma try_none : forall fs home name el, el <> [] -> try_element fs home name el = None -> forall f n, ~ gives fs home name el f n.
Proof. intros fs home name el NE T f n G. apply (try_gives fs home name el f n NE) in G. congruence. Qed.
Lemma empty_gives : forall fs home name f n, ~ gives fs home name [] f n.
Proof. intros fs home name f n G. inversion G; subst; match goal with H : stands_for _ [] _ |- _ => inversion H end. Qed.

Lemma span_element : forall el r, ~ In ":"%char el -> span not_colon (el ++ ":"%char :: r) = (el, ":"%char :: r).
Proof.
  induction el as [|c el IH]; intros r NI; cbn [app span]; [reflexivity|].
  assert (X : not_colon c = true) by (unfold not_colon; destruct (beq c ":") eqn:B; [apply beq_eq in B; subst; exfalso; apply NI; left; reflexivity|reflexivity]).
  rewrite X, IH; [reflexivity|intros I; apply NI; right; exact I].
Qed.
Lemma span_element_end : forall el, ~ In ":"%char el -> span not_colon el = (el, []).
Proof.
  induction el as [|c el IH]; intros NI; cbn [span]; [reflexivity|].
  assert (X : not_colon c = true) by (unfold not_colon; destruct (beq c ":") eqn:B; [apply beq_eq in B; subst; exfalso; apply NI; left; reflexivity|reflexivity]).
  rewrite X, IH; [reflexivity|intros I; apply NI; right; exact I].
Qed.

(** What the search amounts to *)
Fixpoint first_of (fs : bytes -> node) (home name : bytes) (els : list bytes) : found :=
  match els with
  | [] => Not_found
  | [] :: els => first_of fs home name els
  | el :: els => match try_element fs home name el with Some (f, n) => Found f n | None => first_of fs home name els end
  end.
Lemma search_first : forall fs home name p els, elements p els -> forall fuel, length p <= fuel -> search fs home fuel name p = first_of fs home name els.
Proof.
  intros fs home name p els E. induction E as [el NI|el p els NI E IH]; intros fuel L.
  - destruct el as [|c el]; [destruct fuel; reflexivity|]. destruct fuel as [|fuel]; [cbn in L; lia|]. cbn [search]. rewrite span_element_end by exact NI. cbn [first_of]. reflexivity.
  - rewrite app_length in L. cbn [length] in L. destruct fuel as [|fuel]; [lia|].
    assert (X : search fs home (S fuel) name (el ++ ":"%char :: p) =
      let next := search fs home fuel name p in match el with [] => next | _ :: _ => match try_element fs home name el with Some (f, n) => Found f n | None => next end end).
    { destruct el as [|c el]; [reflexivity|]. change ((c :: el) ++ ":"%char :: p) with (c :: (el ++ ":"%char :: p)). cbn [search].
      change (c :: (el ++ ":"%char :: p)) with ((c :: el) ++ ":"%char :: p). rewrite span_element by exact NI. reflexivity. }
    rewrite X. cbv zeta. rewrite IH by lia. destruct el; reflexivity.
Qed.
Lemma first_spec : forall fs home name els, 
  (forall f n, first_of fs home name els = Found f n <-> first_given fs home name els f n) /\
  (first_of fs home name els = Not_found <-> forall e g m, In e els -> ~ gives fs home name e g m) /\ first_of fs home name els <> Cannot_open.
Proof.
  intros fs home name els. induction els as [|el els IH].
  - split; [|split; [|discriminate]].
    + intros f n. split; [discriminate|]. intros (b & e & a & E & _). destruct b; discriminate.
    + split; [intros _ e g m []|reflexivity].
  - destruct IH as (IF & IN & IC).
    assert (Skip : (forall g m, ~ gives fs home name el g m) -> first_of fs home name (el :: els) = first_of fs home name els ->
      (forall f n, first_of fs home name (el :: els) = Found f n <-> first_given fs home name (el :: els) f n) /\
      (first_of fs home name (el :: els) = Not_found <-> forall e g m, In e (el :: els) -> ~ gives fs home name e g m) /\ first_of fs home name (el :: els) <> Cannot_open).
    { intros NG ->. split; [|split; [|exact IC]].
      - intros f n. rewrite IF. split.
        + intros (b & e & a & -> & NB & G). exists (el :: b), e, a. split; [reflexivity|]. split; [|exact G]. intros x g m [<-|I]; [apply NG|apply NB, I].
        + intros ([|x b] & e & a & E & NB & G); injection E as -> ->; [exfalso; exact (NG _ _ G)|]. exists b, e, a. split; [reflexivity|]. split; [|exact G]. intros y g m I. apply NB. right. exact I.
      - rewrite IN. split; [intros H e g m [<-|I]; [apply NG|apply H, I]|intros H e g m I; apply H; right; exact I]. }
    destruct el as [|c el]; [apply Skip; [intros; apply empty_gives|reflexivity]|].
    destruct (try_element fs home name (c :: el)) as [[f n]|] eqn:T.
    + cbn [first_of]. rewrite T. apply try_gives in T; [|discriminate]. split; [|split; [|discriminate]].
      * intros f' n'. split.
        -- intros [= <- <-]. exists [], (c :: el), els. split; [reflexivity|]. split; [intros e g m []|exact T].
        -- intros ([|x b] & e & a & E & NB & G); injection E; intros; subst.
           ++ apply try_gives in T; [|discriminate]. apply try_gives in G; [|discriminate]. rewrite T in G. injection G as -> ->. reflexivity.
           ++ exfalso. exact (NB _ _ _ (or_introl eq_refl) T).
      * split; [discriminate|]. intros H. exfalso. exact (H _ _ _ (or_introl eq_refl) T).
    + apply Skip; [exact (try_none fs home name (c :: el) ltac:(discriminate) T)|]. cbn [first_of]. rewrite T. reflexivity.
Qed.

Lemma has_prefix_spec : forall p name, has_prefix p name = true <-> exists r, name = p ++ r.
Proof.
  intros p name. unfold has_prefix. rewrite bytes_eqb_eq. split.
  - intros E. exists (skipn (length p) name). rewrite <- E at 1. symmetry. apply firstn_skipn.
  - intros (r & ->). rewrite firstn_app, Nat.sub_diag, firstn_all, firstn_O, app_nil_r. reflexivity.
Qed.
Lemma rooted_spec : forall name, (has_prefix (lit "/") name || has_prefix (lit "./") name || has_prefix (lit "../") name) = true <-> rooted name.
Proof.
  intros name. rewrite !orb_true_iff, !has_prefix_spec. unfold rooted. split.
  - intros [[(r & E)|(r & E)]|(r & E)]; exists r; auto.
  - intros (r & [E|[E|E]]); [left; left|left; right|right]; exists r; exact E.
Qed.

Lemma find_searched : forall fs home path name els, elements path els -> ~ rooted name ->
  (forall f n, find_template_file fs home path name = Found f n <-> first_given fs home name els f n) /\
  (find_template_file fs home path name = Not_found <-> forall e g m, In e els -> ~ gives fs home name e g m) /\ find_template_file fs home path name <> Cannot_open.
Proof.
  intros fs home path name els E NR. unfold find_template_file.
  destruct (has_prefix (lit "/") name || has_prefix (lit "./") name || has_prefix (lit "../") name) eqn:P; [apply rooted_spec in P; contradiction|].
  rewrite (search_first fs home name path els E _ (le_n _)). apply first_spec.
Qed.
Lemma find_rooted : forall fs home path name, rooted name ->
  find_template_file fs home path name = match fs name with Missing | Denied => Cannot_open | n => Found name n end.
Proof. intros fs home path name R. apply rooted_spec in R. unfold find_template_file. rewrite R. reflexivity. Qed.

(** Positions *)
Lemma line_start_cur : forall text x y z, text = x ++ y ++ z -> ~ In LF y -> (x = [] \/ exists x', x = x' ++ [LF]) ->
  line_start text (length x + length y) = length x.
Proof.
  intros text x y. induction y as [|c y IH] using rev_ind; intros z -> NI X.
  - rewrite Nat.add_0_r. destruct X as [->|(x' & ->)]; [reflexivity|]. rewrite app_length. cbn [length]. rewrite Nat.add_1_r. cbn [line_start].
    rewrite <- app_assoc, app_nth2, Nat.sub_diag by lia. cbn [app nth]. change (beq LF LF) with true. reflexivity.
  - rewrite app_length. cbn [length]. replace (length x + (length y + 1)) with (S (length x + length y)) by lia. cbn [line_start].
    assert (Y : nth (length x + length y) (x ++ (y ++ [c]) ++ z) NUL = c).
    { rewrite <- app_assoc. rewrite app_nth2 by lia. replace (length x + length y - length x) with (length y) by lia. rewrite app_nth2 by lia. rewrite Nat.sub_diag. reflexivity. }
    rewrite Y. destruct (beq c LF) eqn:B; [apply beq_eq in B; subst c; exfalso; apply NI; apply in_or_app; right; left; reflexivity|].
    apply (IH (c :: z)); [rewrite <- app_assoc; reflexivity|intros I; apply NI; apply in_or_app; left; exact I|exact X].
Qed.
Definition nl (l : bytes) : bytes := l ++ [LF].
Lemma lines_end : forall lines, concat (map nl lines) = [] \/ exists x', concat (map nl lines) = x' ++ [LF].
Proof.
  intros lines. destruct lines as [|l lines] using rev_ind; [left; reflexivity|right]. rewrite map_app, concat_app. cbn [map concat]. rewrite app_nil_r.
  exists (concat (map nl lines) ++ l). unfold nl at 2. rewrite app_assoc. reflexivity.
Qed.
Lemma line_no_count : forall lines cur z fuel, Forall (fun l => ~ In LF l) lines -> ~ In LF cur -> length (concat (map nl lines)) + length cur < fuel ->
  line_no fuel (concat (map nl lines) ++ cur ++ z) (length (concat (map nl lines)) + length cur) = length lines + 1.
Proof.
  intros lines. induction lines as [|l lines IH] using rev_ind; intros cur z fuel F NC L; (destruct fuel as [|fuel]; [lia|]).
  - cbn [map concat length app Nat.add] in *. cbn [line_no]. rewrite (line_start_cur (cur ++ z) [] cur z eq_refl NC (or_introl eq_refl) : line_start (cur ++ z) (length cur) = 0). reflexivity.
  - cbn [line_no]. rewrite (line_start_cur _ _ cur z eq_refl NC (lines_end _)).
    assert (C : concat (map nl (lines ++ [l])) = concat (map nl lines) ++ l ++ [LF]) by (rewrite map_app, concat_app; cbn [map concat]; rewrite app_nil_r; reflexivity).
    rewrite C in *. rewrite !app_length in *. cbn [length] in *.
    replace (length (concat (map nl lines)) + (length l + 1)) with (S (length (concat (map nl lines)) + length l)) by lia.
    apply Forall_app in F. destruct F as [F1 F2]. inversion F2 as [|? ? N2 _]; subst.
    replace ((concat (map nl lines) ++ l ++ [LF]) ++ cur ++ z) with (concat (map nl lines) ++ l ++ (LF :: cur ++ z)) by (rewrite <- !app_assoc; reflexivity).
    rewrite IH; [lia|exact F1|exact N2|lia].
Qed.
Lemma split_lines : forall t, exists lines cur, t = concat (map nl lines) ++ cur /\ Forall (fun l => ~ In LF l) lines /\ ~ In LF cur.
Proof.
  intros t. induction t as [|c t IH] using rev_ind; [exists [], []; repeat split; [constructor|intros []]|]. destruct IH as (lines & cur & -> & F & NC).
  destruct (beq c LF) eqn:B.
  - apply beq_eq in B. subst c. exists (lines ++ [cur]), []. split; [|split; [apply Forall_app; split; [exact F|constructor; [exact NC|constructor]]|intros []]].
    rewrite map_app, concat_app, app_nil_r. cbn [map concat]. rewrite app_nil_r, <- app_assoc. reflexivity.
  - exists lines, (cur ++ [c]). split; [rewrite app_assoc; reflexivity|]. split; [exact F|]. intros I. apply in_app_or in I. destruct I as [I|E0]; [exact (NC I)|destruct E0 as [E0|[]]; subst c; discriminate B].
Qed.
Lemma position : forall a z, is_at a (line_no (S (length a)) (a ++ z) (length a)) (length a - line_start (a ++ z) (length a)).
Proof.
  intros a z. destruct (split_lines a) as (lines & cur & -> & F & NC). exists lines, cur. split; [reflexivity|]. split; [exact F|]. split; [exact NC|].
  rewrite <- app_assoc, app_length. split.
  - apply line_no_count; [exact F|exact NC|lia].
  - rewrite (line_start_cur _ _ cur z eq_refl NC (lines_end _)). lia.
Qed.
