(** Proofs about whole templates *)
From Coq Require Import Ascii String List ZArith Bool Lia.
From Verif Require Import Bytes TplModel TplSpec TplLexProofs TplPipeProofs TplProofs TplActProofs TplTagProofs.
Import ListNotations.
Local Open Scope nat_scope.
Local Open Scope string_scope.
Local Open Scope list_scope.

Notation templates := (list (bytes * list act)).

Definition Pbody (loop before : bool) (T : templates) (t : bytes) (n : next) (acts : list act) (T' : templates) : Prop :=
  forall tab a R x els k, follows n R ->
  (forall tk, scans tab loop (st (rev t ++ a, R) tk T') (x, els, k)) ->
  forall tk, scans tab loop (st (place before a (t ++ R)) tk T) (acts ++ x, els, k).
Definition Ptag (loop l : bool) (T : templates) (s : bytes) (acts : list act) (T' : templates) (r : bool) : Prop :=
  (forall X, opens l (s ++ X))
  /\ forall tab a R x els k,
     (forall tk, scans tab loop (st (place r (rev s ++ a) R) tk T') (x, els, k)) ->
     forall tk, scans tab loop (st (a, s ++ R) tk T) (acts ++ x, els, k).
Definition rest_tab (elif : bool) : table := if elif then CondTab else WithTab.
Definition Prest (elif loop r : bool) (T : templates) (t : bytes) (yes no : list act) (T' : templates) (r' : bool) : Prop :=
  forall a R tk, scans (rest_tab elif) loop (st (place r a (t ++ R)) tk T) (yes, no, st (place r' (rev t ++ a) R) TEnd T').

Scheme body_ind' := Minimality for body Sort Prop
  with tag_ind' := Minimality for tag Sort Prop
  with rest_ind' := Minimality for rest Sort Prop.
Combined Scheme written_ind from body_ind', tag_ind', rest_ind'.

(** A body up to its end *)
Lemma to_end : forall loop r T t l acts T1 e r' tab a R, Pbody loop r T t (Tag l) acts T1 -> word_tag l (lit "end") r' e ->
  tab <> NoLocal ->
  forall tk, scans tab loop (st (place r a (t ++ e ++ R)) tk T) (acts, [], st (place r' (rev (t ++ e) ++ a) R) TEnd T1).
Proof.
  intros loop r T t l acts T1 e r' tab a R B W N tk. rewrite <- (app_nil_r acts).
  destruct (end_read l r' e R (rev t ++ a) tab loop T1 W N) as (O & H).
  apply B; [exact O|]. intros tk'. rewrite rev_app_distr, <- app_assoc. apply H.
Qed.

Lemma quoted_lex : forall a n t y, in_quotes n t ->
  lex a ((""""%char :: t ++ lit """") ++ y) = Lex (TStr n) None (rev (""""%char :: t ++ lit """") ++ a) y.
Proof. intros a n t y Q. cbn [app]. rewrite <- app_assoc. apply (lex_string a n t y Q). Qed.

Lemma written_read :
  (forall loop before T t n acts T', body loop before T t n acts T' -> Pbody loop before T t n acts T')
  /\ (forall loop l T s acts T' r, tag loop l T s acts T' r -> Ptag loop l T s acts T' r)
  /\ (forall elif loop r T t yes no T' r', rest elif loop r T t yes no T' r' -> Prest elif loop r T t yes no T' r').
Proof.
  apply written_ind.
  - (* only text *)
    intros loop before T t n u P Tr tab a R x els k F H. apply (chunk_read n t before u R a); assumption.
  - (* text and an action *)
    intros loop before T t u l s acts T1 r t' n acts' T2 P Tr _ (O & A) _ B tab a R x els k F H tk.
    rewrite <- !app_assoc.
    apply (chunk_read (Tag l) t before u (s ++ t' ++ R) a tab loop T _ els k P Tr (O _)). clear tk. intros tk.
    apply A. apply B; [exact F|]. intros tk'.
    replace (rev t' ++ rev s ++ rev t ++ a) with (rev (t ++ s ++ t') ++ a) by pos. apply H.
  - (* {{}} *)
    intros loop l T s r W. split.
    + intros X. apply (empty_read l r s X [] NoLocal false T ([], [], st ([], []) TEof T) W).
    + intros tab a R x els k. apply (empty_read l r s R a tab loop T (x, els, k) W).
  - (* a pipeline *)
    intros loop l T p s r W. split.
    + intros X. apply (pipe_read l p r s X [] NoLocal false T [] [] (st ([], []) TEof T) W).
    + intros tab a R x els k. apply (pipe_read l p r s R a tab loop T x els k W).
  - (* break *)
    intros l T s r [b b' B B' O C]. split.
    { intros X. rewrite <- !app_assoc. apply keyword_opens; [exact B|exact O|apply name_break]. }
    intros tab a R x els k H tk. rewrite <- !app_assoc.
    apply (keyword_read l b (lit "break") (b' ++ dash r ++ lit "}}" ++ R) a tab true P_break T [ABreak] [] _ x els k B O name_break
             (breaks_word_end _ (close_breaks b' r R B' C))) with (4 := H TEnd).
    + destruct tab; reflexivity.
    + exists 1. intros [|fuel] F; [lia|]. cbn [run_parser].
      rewrite (ready_tok _ _ _ T _ _ _ (ready_st _ _ _ _) (close_lex b' r R _ B' C (len1 (lit "{{" ++ dash l ++ b ++ lit "break") a ltac:(discriminate)))).
      cbn [bind is_end tok st]. do 2 f_equal. unfold st. cbn [fst snd].
      replace (rev (lit "{{" ++ dash l ++ b ++ lit "break" ++ b' ++ dash r ++ lit "}}") ++ a)
        with (rev (b' ++ dash r ++ lit "}}") ++ rev (lit "{{" ++ dash l ++ b ++ lit "break") ++ a) by pos. reflexivity.
    + reflexivity.
  - (* continue *)
    intros l T s r [b b' B B' O C]. split.
    { intros X. rewrite <- !app_assoc. apply keyword_opens; [exact B|exact O|apply name_continue]. }
    intros tab a R x els k H tk. rewrite <- !app_assoc.
    apply (keyword_read l b (lit "continue") (b' ++ dash r ++ lit "}}" ++ R) a tab true P_continue T [AContinue] [] _ x els k B O name_continue
             (breaks_word_end _ (close_breaks b' r R B' C))) with (4 := H TEnd).
    + destruct tab; reflexivity.
    + exists 1. intros [|fuel] F; [lia|]. cbn [run_parser].
      rewrite (ready_tok _ _ _ T _ _ _ (ready_st _ _ _ _) (close_lex b' r R _ B' C (len1 (lit "{{" ++ dash l ++ b ++ lit "continue") a ltac:(discriminate)))).
      cbn [bind is_end tok st]. do 2 f_equal. unfold st. cbn [fst snd].
      replace (rev (lit "{{" ++ dash l ++ b ++ lit "continue" ++ b' ++ dash r ++ lit "}}") ++ a)
        with (rev (b' ++ dash r ++ lit "}}") ++ rev (lit "{{" ++ dash l ++ b ++ lit "continue") ++ a) by pos. reflexivity.
    + reflexivity.
  - (* if *)
    intros loop l T w p s r t yes no T' r' (b1 & -> & B1 & N1) [b s0 b' B P B' O C] _ IH. split.
    { intros X. rewrite <- !app_assoc. apply keyword_opens; [exact B|exact O|apply name_if]. }
    intros tab a R x els k H tk. rewrite <- !app_assoc.
    pose proof (IH (rev (lit "{{" ++ dash l ++ b ++ (lit "if" ++ b1) ++ s0 ++ b' ++ dash r ++ lit "}}") ++ a) R TEnd) as I0.
    apply (keyword_read l b (lit "if") (b1 ++ s0 ++ b' ++ dash r ++ lit "}}" ++ t ++ R) a tab loop P_if T [ACond p no yes] []
             (st (place r' (rev t ++ rev (lit "{{" ++ dash l ++ b ++ (lit "if" ++ b1) ++ s0 ++ b' ++ dash r ++ lit "}}") ++ a) R) TEnd T')
             x els k B O name_if (blank_word_end _ _ B1 N1)).
    + destruct tab, loop; reflexivity.
    + apply (if_runs loop p s0 b1 b' r (rev (lit "{{" ++ dash l ++ b ++ lit "if") ++ a) (t ++ R) T); try assumption.
      * apply len1. discriminate.
      * apply ready_st.
      * replace (rev (b1 ++ s0 ++ b' ++ dash r ++ lit "}}") ++ rev (lit "{{" ++ dash l ++ b ++ lit "if") ++ a)
          with (rev (lit "{{" ++ dash l ++ b ++ (lit "if" ++ b1) ++ s0 ++ b' ++ dash r ++ lit "}}") ++ a) by pos. exact I0.
      * reflexivity.
    + reflexivity.
    + specialize (H TEnd).
      replace (rev t ++ rev (lit "{{" ++ dash l ++ b ++ (lit "if" ++ b1) ++ s0 ++ b' ++ dash r ++ lit "}}") ++ a)
        with (rev ((lit "{{" ++ dash l ++ b ++ (lit "if" ++ b1) ++ s0 ++ b' ++ dash r ++ lit "}}") ++ t) ++ a) by pos. exact H.
  - (* with *)
    intros loop l T w v p s r t yes no T' r' W [b s0 b' B P B' O C] _ IH. split.
    { intros X. destruct (with_var_read v p w s0 b' r X [] T TEof W P B' C) as (y & _ & _ & _ & -> & _).
      rewrite <- !app_assoc. apply keyword_opens; [exact B|exact O|apply name_with]. }
    intros tab a R x els k H tk.
    pose proof (IH (rev (lit "{{" ++ dash l ++ b ++ w ++ s0 ++ b' ++ dash r ++ lit "}}") ++ a) R TEnd) as (N & E).
    destruct (with_var_read v p w s0 b' r (t ++ R) (rev (lit "{{" ++ dash l ++ b ++ lit "with") ++ a) T (TIdent (lit "with")) W P B' C)
      as (y & a2 & b2 & i & -> & Y & V & B2 & Ep & La & Hi).
    destruct (pipe_ready p s0 b2 b' r a2 (t ++ R) T i P B2 B' C) as (M & E').
    { pose proof (len1 (lit "{{" ++ dash l ++ b ++ lit "with") a ltac:(discriminate)). lia. }
    { exact Hi. }
    assert (Q : rev (b2 ++ s0 ++ b' ++ dash r ++ lit "}}") ++ a2
                = rev (lit "{{" ++ dash l ++ b ++ (lit "with" ++ y) ++ s0 ++ b' ++ dash r ++ lit "}}") ++ a).
    { rewrite (rev_app_distr b2), <- app_assoc, Ep. pos. }
    rewrite Q in E'.
    rewrite <- !app_assoc.
    apply (keyword_read l b (lit "with") (y ++ s0 ++ b' ++ dash r ++ lit "}}" ++ t ++ R) a tab loop P_with T [AWith v p no yes] []
             (st (place r' (rev t ++ rev (lit "{{" ++ dash l ++ b ++ (lit "with" ++ y) ++ s0 ++ b' ++ dash r ++ lit "}}") ++ a) R) TEnd T')
             x els k B O name_with (Y _)).
    + destruct tab, loop; reflexivity.
    + exists (S (N + M)). intros [|fuel] F; [lia|]. cbn [run_parser]. rewrite V. cbn [bind].
      rewrite E' by lia. cbn [bind is_end tok st]. rewrite E by lia. reflexivity.
    + reflexivity.
    + specialize (H TEnd).
      replace (rev t ++ rev (lit "{{" ++ dash l ++ b ++ (lit "with" ++ y) ++ s0 ++ b' ++ dash r ++ lit "}}") ++ a)
        with (rev ((lit "{{" ++ dash l ++ b ++ (lit "with" ++ y) ++ s0 ++ b' ++ dash r ++ lit "}}") ++ t) ++ a) by pos. exact H.
  - (* range *)
    intros loop l T w v0 v p s r t yes no T' r' W [b s0 b' B P B' O C] _ IH. split.
    { intros X. destruct (range_vars_read v0 v p w s0 b' r X [] T TEof W P B' C) as (y & _ & _ & _ & -> & _).
      rewrite <- !app_assoc. apply keyword_opens; [exact B|exact O|apply name_range]. }
    intros tab a R x els k H tk.
    pose proof (IH (rev (lit "{{" ++ dash l ++ b ++ w ++ s0 ++ b' ++ dash r ++ lit "}}") ++ a) R TEnd) as (N & E).
    destruct (range_vars_read v0 v p w s0 b' r (t ++ R) (rev (lit "{{" ++ dash l ++ b ++ lit "range") ++ a) T (TIdent (lit "range")) W P B' C)
      as (y & a2 & b2 & i & -> & Y & V & B2 & Ep & La & Hi).
    destruct (pipe_ready p s0 b2 b' r a2 (t ++ R) T i P B2 B' C) as (M & E').
    { pose proof (len1 (lit "{{" ++ dash l ++ b ++ lit "range") a ltac:(discriminate)). lia. }
    { exact Hi. }
    assert (Q : rev (b2 ++ s0 ++ b' ++ dash r ++ lit "}}") ++ a2
                = rev (lit "{{" ++ dash l ++ b ++ (lit "range" ++ y) ++ s0 ++ b' ++ dash r ++ lit "}}") ++ a).
    { rewrite (rev_app_distr b2), <- app_assoc, Ep. pos. }
    rewrite Q in E'.
    rewrite <- !app_assoc.
    apply (keyword_read l b (lit "range") (y ++ s0 ++ b' ++ dash r ++ lit "}}" ++ t ++ R) a tab loop P_range T [ARange v0 v p no yes] []
             (st (place r' (rev t ++ rev (lit "{{" ++ dash l ++ b ++ (lit "range" ++ y) ++ s0 ++ b' ++ dash r ++ lit "}}") ++ a) R) TEnd T')
             x els k B O name_range (Y _)).
    + destruct tab, loop; reflexivity.
    + exists (S (N + M)). intros [|fuel] F; [lia|]. cbn [run_parser]. rewrite V. cbn [bind].
      rewrite E' by lia. cbn [bind is_end tok st]. rewrite E by lia. reflexivity.
    + reflexivity.
    + specialize (H TEnd).
      replace (rev t ++ rev (lit "{{" ++ dash l ++ b ++ (lit "range" ++ y) ++ s0 ++ b' ++ dash r ++ lit "}}") ++ a)
        with (rev ((lit "{{" ++ dash l ++ b ++ (lit "range" ++ y) ++ s0 ++ b' ++ dash r ++ lit "}}") ++ t) ++ a) by pos. exact H.
  - (* define *)
    intros loop l T w n s r t e acts T1 T' l' r' (b1 & q & -> & B1 & Qq) [b b' B B' O C] _ IH We D. split.
    { intros X. rewrite <- !app_assoc. apply keyword_opens; [exact B|exact O|apply name_define]. }
    intros tab a R x els k H tk. remember (""""%char :: q ++ lit """") as Q eqn:EQ.
    set (s0 := lit "{{" ++ dash l ++ b ++ (lit "define" ++ b1 ++ Q) ++ b' ++ dash r ++ lit "}}") in *.
    destruct (to_end false r T t l' acts T1 e r' EndTab (rev s0 ++ a) R IH We ltac:(discriminate) TEnd) as (N & E).
    unfold s0 at 1. rewrite <- !app_assoc.
    apply (keyword_read l b (lit "define") (b1 ++ Q ++ b' ++ dash r ++ lit "}}" ++ t ++ e ++ R) a tab loop P_define T [] []
             (st (place r' (rev (t ++ e) ++ rev s0 ++ a) R) TEnd T') x els k B O name_define).
    + rewrite EQ. apply (quote_word_end b1); exact B1.
    + destruct tab, loop; reflexivity.
    + exists (S N). intros [|fuel] F; [lia|]. cbn [run_parser].
      rewrite (ready_blank _ _ b1 (Q ++ b' ++ dash r ++ lit "}}" ++ t ++ e ++ R) T (TStr n)
                 (rev Q ++ rev b1 ++ rev (lit "{{" ++ dash l ++ b ++ lit "define") ++ a) (b' ++ dash r ++ lit "}}" ++ t ++ e ++ R) B1 (ready_st _ _ _ _)).
      2:{ rewrite EQ. apply quoted_lex, Qq. }
      cbn [bind]. change (tok (st _ (TStr n) T)) with (TStr n). cbn iota beta.
      rewrite (ready_tok _ _ _ T _ _ _ (ready_st _ _ _ _)
        (close_lex b' r (t ++ e ++ R) (rev Q ++ rev b1 ++ rev (lit "{{" ++ dash l ++ b ++ lit "define") ++ a) B' C
           ltac:(rewrite EQ; cbn [rev]; rewrite !app_length; cbn; lia))).
      cbn [bind is_end]. change (tok (st _ TEnd T)) with TEnd. cbn iota beta.
      replace (rev (b' ++ dash r ++ lit "}}") ++ rev Q ++ rev b1 ++ rev (lit "{{" ++ dash l ++ b ++ lit "define") ++ a)
        with (rev s0 ++ a) by (unfold s0; pos).
      assert (Z : scan_action fuel EndTab false (st (place r (rev s0 ++ a) (t ++ e ++ R)) TEnd T)
                  = Ret (acts, [], st (place r' (rev (t ++ e) ++ rev s0 ++ a) R) TEnd T1)) by (apply E; lia).
      unfold st in Z |- *. cbn [fst snd]. rewrite Z. cbn [bind TplModel.error]. rewrite <- (define_is n acts T1 T' D). reflexivity.
    + reflexivity.
    + specialize (H TEnd). replace (rev (t ++ e) ++ rev s0 ++ a) with (rev (s0 ++ t ++ e) ++ a); [exact H|].
      rewrite (rev_app_distr s0), <- app_assoc. reflexivity.
  - (* template *)
    intros loop l T w b0 n p s r (b1 & q & -> & B1 & Qq) B0 [b s0 b' B P B' O C] D. split.
    { intros X. rewrite <- !app_assoc. apply keyword_opens; [exact B|exact O|apply name_template]. }
    intros tab a R x els k H tk. remember (""""%char :: q ++ lit """") as Q eqn:EQ.
    rewrite <- !app_assoc.
    destruct (pipe_ready p s0 b0 b' r (rev Q ++ rev b1 ++ rev (lit "{{" ++ dash l ++ b ++ lit "template") ++ a) R T
                (st (rev Q ++ rev b1 ++ rev (lit "{{" ++ dash l ++ b ++ lit "template") ++ a, b0 ++ s0 ++ b' ++ dash r ++ lit "}}" ++ R) (TStr n) T)
                P B0 B' C) as (M & E').
    { rewrite EQ; cbn [rev]; rewrite !app_length; cbn; lia. }
    { apply ready_st. }
    apply (keyword_read l b (lit "template") (b1 ++ Q ++ b0 ++ s0 ++ b' ++ dash r ++ lit "}}" ++ R) a tab loop P_template T [ABlock n p] [] _ x els k B O name_template)
      with (5 := H TEnd).
    + rewrite EQ. apply (quote_word_end b1); exact B1.
    + destruct tab, loop; reflexivity.
    + exists (S M). intros [|fuel] F; [lia|]. cbn [run_parser].
      rewrite (ready_blank _ _ b1 (Q ++ b0 ++ s0 ++ b' ++ dash r ++ lit "}}" ++ R) T (TStr n)
                 (rev Q ++ rev b1 ++ rev (lit "{{" ++ dash l ++ b ++ lit "template") ++ a) (b0 ++ s0 ++ b' ++ dash r ++ lit "}}" ++ R) B1 (ready_st _ _ _ _)).
      2:{ rewrite EQ. apply quoted_lex, Qq. }
      cbn [bind]. change (tok (st _ (TStr n) T)) with (TStr n). cbn iota beta.
      rewrite E' by lia. cbn [bind is_end]. change (tok (st _ TEnd T)) with TEnd. cbn iota beta.
      destruct (lookup_some n T D) as (body & Eb). change (tmpls (st _ TEnd T)) with T. rewrite Eb.
      do 3 f_equal. f_equal. pos.
    + reflexivity.
  - (* block, already defined *)
    intros loop l T w b0 n p s r (b1 & q & -> & B1 & Qq) B0 [b s0 b' B P B' O C] D. split.
    { intros X. rewrite <- !app_assoc. apply keyword_opens; [exact B|exact O|apply name_block]. }
    intros tab a R x els k H tk. remember (""""%char :: q ++ lit """") as Q eqn:EQ.
    rewrite <- !app_assoc.
    destruct (pipe_ready p s0 b0 b' r (rev Q ++ rev b1 ++ rev (lit "{{" ++ dash l ++ b ++ lit "block") ++ a) R T
                (st (rev Q ++ rev b1 ++ rev (lit "{{" ++ dash l ++ b ++ lit "block") ++ a, b0 ++ s0 ++ b' ++ dash r ++ lit "}}" ++ R) (TStr n) T)
                P B0 B' C) as (M & E').
    { rewrite EQ; cbn [rev]; rewrite !app_length; cbn; lia. }
    { apply ready_st. }
    apply (keyword_read l b (lit "block") (b1 ++ Q ++ b0 ++ s0 ++ b' ++ dash r ++ lit "}}" ++ R) a tab loop P_block T [ABlock n p] [] _ x els k B O name_block)
      with (5 := H TEnd).
    + rewrite EQ. apply (quote_word_end b1); exact B1.
    + destruct tab, loop; reflexivity.
    + exists (S M). intros [|fuel] F; [lia|]. cbn [run_parser].
      rewrite (ready_blank _ _ b1 (Q ++ b0 ++ s0 ++ b' ++ dash r ++ lit "}}" ++ R) T (TStr n)
                 (rev Q ++ rev b1 ++ rev (lit "{{" ++ dash l ++ b ++ lit "block") ++ a) (b0 ++ s0 ++ b' ++ dash r ++ lit "}}" ++ R) B1 (ready_st _ _ _ _)).
      2:{ rewrite EQ. apply quoted_lex, Qq. }
      cbn [bind]. change (tok (st _ (TStr n) T)) with (TStr n). cbn iota beta.
      rewrite E' by lia. cbn [bind is_end]. change (tok (st _ TEnd T)) with TEnd. cbn iota beta.
      destruct (lookup_some n T D) as (body & Eb). change (tmpls (st _ TEnd T)) with T. rewrite Eb.
      do 3 f_equal. f_equal. pos.
    + reflexivity.
  - (* block, with its definition *)
    intros loop l T w b0 n p s r t e acts T1 T' l' r' (b1 & q & -> & B1 & Qq) B0 [b s0 b' B P B' O C] Nd _ IH We D. split.
    { intros X. rewrite <- !app_assoc. apply keyword_opens; [exact B|exact O|apply name_block]. }
    intros tab a R x els k H tk. remember (""""%char :: q ++ lit """") as Q eqn:EQ.
    set (tg := lit "{{" ++ dash l ++ b ++ ((lit "block" ++ b1 ++ Q) ++ b0) ++ s0 ++ b' ++ dash r ++ lit "}}") in *.
    destruct (to_end false r T t l' acts T1 e r' EndTab (rev tg ++ a) R IH We ltac:(discriminate) TEnd) as (N & E).
    unfold tg at 1. rewrite <- !app_assoc.
    destruct (pipe_ready p s0 b0 b' r (rev Q ++ rev b1 ++ rev (lit "{{" ++ dash l ++ b ++ lit "block") ++ a) (t ++ e ++ R) T
                (st (rev Q ++ rev b1 ++ rev (lit "{{" ++ dash l ++ b ++ lit "block") ++ a, b0 ++ s0 ++ b' ++ dash r ++ lit "}}" ++ t ++ e ++ R) (TStr n) T)
                P B0 B' C) as (M & E').
    { rewrite EQ; cbn [rev]; rewrite !app_length; cbn; lia. }
    { apply ready_st. }
    replace (rev (b0 ++ s0 ++ b' ++ dash r ++ lit "}}") ++ rev Q ++ rev b1 ++ rev (lit "{{" ++ dash l ++ b ++ lit "block") ++ a)
      with (rev tg ++ a) in E' by (unfold tg; pos).
    apply (keyword_read l b (lit "block") (b1 ++ Q ++ b0 ++ s0 ++ b' ++ dash r ++ lit "}}" ++ t ++ e ++ R) a tab loop P_block T [ABlock n p] []
             (st (place r' (rev (t ++ e) ++ rev tg ++ a) R) TEnd T') x els k B O name_block).
    + rewrite EQ. apply (quote_word_end b1); exact B1.
    + destruct tab, loop; reflexivity.
    + exists (S (N + M)). intros [|fuel] F; [lia|]. cbn [run_parser].
      rewrite (ready_blank _ _ b1 (Q ++ b0 ++ s0 ++ b' ++ dash r ++ lit "}}" ++ t ++ e ++ R) T (TStr n)
                 (rev Q ++ rev b1 ++ rev (lit "{{" ++ dash l ++ b ++ lit "block") ++ a) (b0 ++ s0 ++ b' ++ dash r ++ lit "}}" ++ t ++ e ++ R) B1 (ready_st _ _ _ _)).
      2:{ rewrite EQ. apply quoted_lex, Qq. }
      cbn [bind]. change (tok (st _ (TStr n) T)) with (TStr n). cbn iota beta.
      rewrite E' by lia. cbn [bind is_end]. change (tok (st _ TEnd T)) with TEnd. cbn iota beta.
      change (tmpls (st _ TEnd T)) with T. rewrite (proj2 (lookup_none n T) Nd).
      rewrite E by lia. cbn [bind]. change (error (st _ TEnd T1)) with (@None err). cbn iota beta.
      rewrite <- (define_is n acts T1 T' D). reflexivity.
    + reflexivity.
    + specialize (H TEnd). replace (rev (t ++ e) ++ rev tg ++ a) with (rev (tg ++ t ++ e) ++ a); [exact H|].
      rewrite (rev_app_distr tg), <- app_assoc. reflexivity.
  - (* ... {{end}} *)
    intros elif loop r T t yes T1 l e r' _ IH W a R tk. rewrite <- app_assoc.
    apply (to_end loop r T t l yes T1 e r' (rest_tab elif) a R IH W). destruct elif; discriminate.
  - (* ... {{else}} ... {{end}} *)
    intros elif loop r T t yes T1 l s r1 u no T2 l' e r' _ IH W _ IH' W' a R tk.
    rewrite <- !app_assoc. rewrite <- (app_nil_r yes).
    destruct (word_scan l _ r1 s (u ++ e ++ R) (rev t ++ a) W name_else) as (O & S0).
    apply IH; [exact O|]. clear tk. intros tk.
    destruct (to_end loop r1 T1 u l' no T2 e r' EndTab (rev s ++ rev t ++ a) R IH' W' ltac:(discriminate) TEnd) as (N & E).
    exists (S (S N)). intros fuel F. destruct fuel as [|[|fuel]]; [lia|lia|].
    destruct (S0 (S fuel) (rest_tab elif) loop tk T1) as (i & I1 & I2 & ->).
    replace (rev (t ++ s ++ u ++ e) ++ a) with (rev (u ++ e) ++ rev s ++ rev t ++ a) by pos.
    destruct elif.
    + apply (after_end _ _ _ _ (lit "else") P_elseif); [exact I1|destruct loop; reflexivity| |reflexivity].
      cbn [run_parser]. rewrite I2. cbn [bind]. change (tok (st _ TEnd T1)) with TEnd. cbn iota beta. rewrite E by lia. reflexivity.
    + apply (after_end _ _ _ _ (lit "else") P_elsewith); [exact I1|destruct loop; reflexivity| |reflexivity].
      cbn [run_parser]. rewrite I2. cbn [bind is_end]. change (tok (st _ TEnd T1)) with TEnd. cbn iota beta. rewrite E by lia. reflexivity.
  - (* ... {{else if ...}} ... *)
    intros loop r T t yes T1 l w p s r1 u yes' no' T2 r' _ IH (b1 & b2 & -> & B1 & N1 & B2 & N2) [b s0 b' B P B' O C] _ IH' a R tk.
    set (tg := lit "{{" ++ dash l ++ b ++ (lit "else" ++ b1 ++ lit "if" ++ b2) ++ s0 ++ b' ++ dash r1 ++ lit "}}") in *.
    rewrite <- !app_assoc. rewrite <- (app_nil_r yes).
    apply IH.
    { unfold tg. cbn [follows]. rewrite <- !app_assoc. apply keyword_opens; [exact B|exact O|apply name_else]. }
    clear tk. intros tk.
    pose proof (IH' (rev tg ++ rev t ++ a) R TEnd) as I0.
    replace (rev (t ++ tg ++ u) ++ a) with (rev u ++ rev tg ++ rev t ++ a) by pos.
    unfold tg at 1. rewrite <- !app_assoc.
    apply (keyword_ends l b (lit "else") (b1 ++ lit "if" ++ b2 ++ s0 ++ b' ++ dash r1 ++ lit "}}" ++ u ++ R) (rev t ++ a) (rest_tab true) loop P_elseif T1
             [] [ACond p no' yes'] (st (place r' (rev u ++ rev tg ++ rev t ++ a) R) TEnd T2) B O name_else (blank_word_end _ _ B1 N1)).
    + destruct loop; reflexivity.
    + destruct (if_runs loop p s0 b2 b' r1 (rev (lit "if") ++ rev b1 ++ rev (lit "{{" ++ dash l ++ b ++ lit "else") ++ rev t ++ a) (u ++ R) T1
                  (st (rev (lit "if") ++ rev b1 ++ rev (lit "{{" ++ dash l ++ b ++ lit "else") ++ rev t ++ a, b2 ++ s0 ++ b' ++ dash r1 ++ lit "}}" ++ u ++ R) (TIdent (lit "if")) T1)
                  yes' no' (st (place r' (rev u ++ rev tg ++ rev t ++ a) R) TEnd T2) P B2 B' C) as (N & E).
      { cbn; lia. }
      { apply ready_st. }
      { replace (rev (b2 ++ s0 ++ b' ++ dash r1 ++ lit "}}") ++ rev (lit "if") ++ rev b1 ++ rev (lit "{{" ++ dash l ++ b ++ lit "else") ++ rev t ++ a)
          with (rev tg ++ rev t ++ a) by (unfold tg; pos). exact I0. }
      { reflexivity. }
      exists (S N). intros [|fuel] F; [lia|]. cbn [run_parser].
      rewrite (ready_blank _ _ b1 (lit "if" ++ b2 ++ s0 ++ b' ++ dash r1 ++ lit "}}" ++ u ++ R) T1 (TIdent (lit "if"))
                 (rev (lit "if") ++ rev b1 ++ rev (lit "{{" ++ dash l ++ b ++ lit "else") ++ rev t ++ a)
                 (b2 ++ s0 ++ b' ++ dash r1 ++ lit "}}" ++ u ++ R) B1 (ready_st _ _ _ _)).
      2:{ destruct (blank_word_end b2 (s0 ++ b' ++ dash r1 ++ lit "}}" ++ u ++ R) B2 N2) as (Y1 & Y2). apply lex_word; [apply name_if|exact Y1|exact Y2]. }
      cbn [bind]. change (tok (st _ (TIdent (lit "if")) T1)) with (TIdent (lit "if")). cbn iota beta.
      rewrite bytes_eqb_refl. rewrite E by lia. reflexivity.
    + reflexivity.
Qed.

Lemma template_read : forall T t acts T', template_text T t acts T' ->
  exists N, forall fuel, N <= fuel -> template_parse fuel T t = Ret (POk acts T').
Proof.
  intros T t acts T' H. apply written_read in H.
  destruct (H NoLocal [] [] [] [] (st (rev t ++ [], []) TEof T') eq_refl) with (tk := TEof) as (N & E).
  - intros tk. exists 1. intros [|fuel] F; [lia|]. reflexivity.
  - exists N. intros fuel F. unfold template_parse.
    change (mkIn [] t TEof false None T false) with (st ([], t) TEof T).
    specialize (E fuel F). unfold place in E. rewrite !app_nil_r in E. rewrite E. reflexivity.
Qed.
