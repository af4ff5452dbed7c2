(** Proofs about texts with a fault *)
From Coq Require Import Ascii String List ZArith Bool Lia.
From Verif Require Import Bytes TplModel TplSpec TplLexProofs TplPipeProofs TplProofs TplActProofs TplTagProofs TplBodyProofs.
Import ListNotations.
Local Open Scope nat_scope.
Local Open Scope string_scope.
Local Open Scope list_scope.

Definition tab_of (c : place_in) : table :=
  match c with Outside => NoLocal | In_if => CondTab | In_with => WithTab | In_last => EndTab end.
(** Scanning ends with an error *)
Definition fails (tab : table) (inh : bool) (ab : bytes * bytes) (T : templates) (e : err) : Prop :=
  exists x els k, error k = Some e /\ dangling k = false /\ forall tk, scans tab inh (st ab tk T) (x, els, k).

Lemma bad_idem : forall k e, error k = Some e -> bad_token k = k.
Proof. intros k e E. unfold bad_token. rewrite E. reflexivity. Qed.

(** A word that begins no action and is no function *)
Lemma word_fails : forall l b w y a tab inh T, blank b -> opening l b -> name w -> word_end y ->
  find_action_parser tab inh w = None -> find_func w = false -> bytes_eqb w (lit "true") = false -> bytes_eqb w (lit "false") = false ->
  fails tab inh (a, lit "{{" ++ dash l ++ b ++ w ++ y) T ERR_BADTOK.
Proof.
  intros l b w y a tab inh T B O N Y P F X1 X2.
  set (a' := rev (lit "{{" ++ dash l ++ b ++ w) ++ a).
  exists [APipe []], [], (mkIn a' y TEof false (Some ERR_BADTOK) T false).
  split; [reflexivity|]. split; [reflexivity|]. intros tk. exists 3. intros fuel L.
  destruct fuel as [|[|[|fuel]]]; try lia.
  rewrite (scan_word l b w y a B O N Y). fold a'. unfold after_tok. cbn [st tok]. rewrite P.
  match goal with |- context [putback ?i] => change (putback i) with (Ret (set_ready true i)) end. cbn [bind].
  rewrite scan_pipeline_S, scan_arg_S.
  match goal with |- context [gettok (set_ready true ?i)] => change (gettok (set_ready true i)) with (Ret i) end. cbn [bind].
  unfold arg_step. change (tok (st (a', y) (TIdent w) T)) with (TIdent w). cbn iota. rewrite X1, X2, F. reflexivity.
Qed.

(** An action that begins with a keyword, with an error inside *)
Lemma keyword_fails : forall l b w y a tab inh P T e,
  blank b -> opening l b -> name w -> word_end y -> find_action_parser tab inh w = Some P ->
  (exists x els s k, s <> St_ok /\ error k = Some e /\ dangling k = false
    /\ runs P inh (st (rev (lit "{{" ++ dash l ++ b ++ w) ++ a, y) (TIdent w) T) (x, els, s, k)) ->
  fails tab inh (a, lit "{{" ++ dash l ++ b ++ w ++ y) T e.
Proof.
  intros l b w y a tab inh P T e B O N Y F (x & els & s & k & S0 & E & D & (M & R)).
  exists x, els, k. split; [exact E|]. split; [exact D|]. intros tk. exists (S M). intros fuel L. destruct fuel as [|fuel]; [lia|].
  rewrite (scan_word l b w y a B O N Y). unfold after_tok. change (tok (st _ (TIdent w) T)) with (TIdent w). cbn iota. rewrite F, R by lia.
  cbn [bind]. destruct s; [contradiction| |].
  - rewrite E. rewrite andb_false_r. reflexivity.
  - rewrite (bad_idem k e E). reflexivity.
Qed.

(** After a text that is right *)
Lemma body_fails : forall loop before T t l acts T1 c R a e, body loop before T t (Tag l) acts T1 -> opens l R ->
  fails (tab_of c) loop (rev t ++ a, R) T1 e -> fails (tab_of c) loop (place before a (t ++ R)) T e.
Proof.
  intros loop before T t l acts T1 c R a e B O (x & els & k & E & D & H).
  exists (acts ++ x), els, k. split; [exact E|]. split; [exact D|].
  apply (proj1 written_read loop before T t (Tag l) acts T1 B (tab_of c) a R x els k O H).
Qed.

Lemma word_tag_words : forall l w r s R, word_tag l w r s -> exists b y, s ++ R = lit "{{" ++ dash l ++ b ++ w ++ y /\ blank b /\ opening l b /\ word_end y.
Proof.
  intros l w r s R [b b' B B' O C]. exists b, (b' ++ dash r ++ lit "}}" ++ R).
  split; [rewrite <- !app_assoc; reflexivity|]. split; [exact B|]. split; [exact O|]. apply breaks_word_end, close_breaks; assumption.
Qed.
Lemma in_words : forall w ws, existsb (bytes_eqb w) ws = true <-> In w ws.
Proof.
  intros w ws. rewrite existsb_exists. split.
  - intros (x & H & E). apply bytes_eqb_eq in E. subst x. exact H.
  - intros H. exists w. split; [exact H|apply bytes_eqb_refl].
Qed.
Lemma not_word : forall w s, w <> s -> bytes_eqb w s = false.
Proof. intros w s H. destruct (bytes_eqb w s) eqn:E; [apply bytes_eqb_eq in E; contradiction|reflexivity]. Qed.
Lemma no_parser : forall tab inh w, ~ In w action_words -> find_action_parser tab inh w = None.
Proof.
  intros tab inh w N. unfold find_action_parser.
  destruct (find (fun p => bytes_eqb (fst p) w) (top_parser_tab ++ local_table tab ++ (if inh then range_inherit else []))) as [p|] eqn:E; [|reflexivity].
  exfalso. apply find_some in E. destruct E as (I0 & E). apply bytes_eqb_eq in E. subst w. apply N.
  destruct tab, inh; cbn in I0; repeat (destruct I0 as [I0|I0]; [subst p; cbn; auto 20|]); contradiction.
Qed.

Lemma tag_fails : forall c loop l T s e R a, bad_tag c loop l T s e -> opens l (s ++ R) /\ fails (tab_of c) loop (a, s ++ R) T e.
Proof.
  intros c loop l T s e R a H. destruct H as [loop l T r s W|c loop l T r s C W|c l T w r s C W|c loop l T w r s N F A W|c loop l T w b n p r s (b1 & q & -> & B1 & Qq) B0 W Nd].
  - destruct (word_tag_words l _ r s R W) as (b & y & -> & B & O & Y).
    split; [apply keyword_opens; [exact B|exact O|apply name_end]|].
    apply word_fails; try assumption; try reflexivity; [apply name_end|destruct loop; reflexivity].
  - destruct (word_tag_words l _ r s R W) as (b & y & -> & B & O & Y).
    split; [apply keyword_opens; [exact B|exact O|apply name_else]|].
    apply word_fails; try assumption; try reflexivity; [apply name_else|destruct C as [->| ->], loop; reflexivity].
  - destruct (word_tag_words l _ r s R W) as (b & y & -> & B & O & Y).
    assert (N : name w) by (destruct C as [->| ->]; [apply name_break|apply name_continue]).
    split; [apply keyword_opens; assumption|].
    apply word_fails; try assumption; destruct C as [->| ->]; try reflexivity; destruct c; reflexivity.
  - destruct (word_tag_words l _ r s R W) as (b & y & -> & B & O & Y).
    split; [apply keyword_opens; assumption|].
    apply word_fails; try assumption.
    + apply no_parser, A.
    + destruct (find_func w) eqn:E; [|reflexivity]. apply in_words in E. contradiction.
    + apply not_word. intros ->. apply A. cbn; auto 20.
    + apply not_word. intros ->. apply A. cbn; auto 20.
  - destruct W as [b2 s0 b' B P B' O C]. rewrite <- !app_assoc.
    split; [apply keyword_opens; [exact B|exact O|apply name_template]|].
    remember (""""%char :: q ++ lit """") as Q eqn:EQ.
    destruct (pipe_ready p s0 b b' r (rev Q ++ rev b1 ++ rev (lit "{{" ++ dash l ++ b2 ++ lit "template") ++ a) R T
                (st (rev Q ++ rev b1 ++ rev (lit "{{" ++ dash l ++ b2 ++ lit "template") ++ a, b ++ s0 ++ b' ++ dash r ++ lit "}}" ++ R) (TStr n) T)
                P B0 B' C) as (M & E').
    { rewrite EQ; cbn [rev]; rewrite !app_length; cbn; lia. }
    { apply ready_st. }
    apply (keyword_fails l b2 (lit "template") (b1 ++ Q ++ b ++ s0 ++ b' ++ dash r ++ lit "}}" ++ R) a _ loop P_template T ERR_NOTMPL B O name_template).
    + rewrite EQ. apply (quote_word_end b1); exact B1.
    + destruct c, loop; reflexivity.
    + eexists [], [], St_err, (set_error ERR_NOTMPL (st _ TEnd T)). split; [discriminate|]. split; [reflexivity|]. split; [reflexivity|].
      exists (S M). intros [|fuel] F; [lia|]. cbn [run_parser].
      rewrite (ready_blank _ _ b1 (Q ++ b ++ s0 ++ b' ++ dash r ++ lit "}}" ++ R) T (TStr n)
                 (rev Q ++ rev b1 ++ rev (lit "{{" ++ dash l ++ b2 ++ lit "template") ++ a) (b ++ s0 ++ b' ++ dash r ++ lit "}}" ++ R) B1 (ready_st _ _ _ _)).
      2:{ rewrite EQ. apply quoted_lex, Qq. }
      cbn [bind]. change (tok (st _ (TStr n) T)) with (TStr n). cbn iota beta.
      rewrite E' by lia. cbn [bind is_end]. change (tok (st _ TEnd T)) with TEnd. cbn iota beta.
      change (tmpls (st _ TEnd T)) with T. rewrite (proj2 (lookup_none n T) Nd). reflexivity.
Qed.

(** What the parsers of if and so on do if the rest has a fault, or the text ends *)
Definition lacks (tab : table) (inh : bool) (ab : bytes * bytes) (T : templates) : Prop :=
  exists x els k, error k = None /\ dangling k = false /\ tok k = TEof /\ forall tk, scans tab inh (st ab tk T) (x, els, k).

Lemma parent : forall l b w y a tab inh P T e,
  blank b -> opening l b -> name w -> word_end y -> find_action_parser tab inh w = Some P ->
  (exists x els s k, dangling k = false
    /\ ((error k = Some e /\ s <> St_ok) \/ (error k = None /\ tok k = TEof /\ s <> St_err /\ e = ERR_BADTOK))
    /\ runs P inh (st (rev (lit "{{" ++ dash l ++ b ++ w) ++ a, y) (TIdent w) T) (x, els, s, k)) ->
  fails tab inh (a, lit "{{" ++ dash l ++ b ++ w ++ y) T e.
Proof.
  intros l b w y a tab inh P T e B O N Y F (x & els & s & k & D & [(E & S0)|(E & Tk & S0 & ->)] & R).
  - apply (keyword_fails l b w y a tab inh P T e B O N Y F). exists x, els, s, k. auto.
  - destruct R as (M & R). exists x, els, (bad_token k). unfold bad_token. rewrite E.
    split; [reflexivity|]. split; [exact D|]. intros tk. exists (S M). intros fuel L. destruct fuel as [|fuel]; [lia|].
    rewrite (scan_word l b w y a B O N Y). unfold after_tok. change (tok (st _ (TIdent w) T)) with (TIdent w). cbn iota. rewrite F, R by lia.
    cbn [bind]. unfold is_end, bad_token. rewrite E, Tk. destruct s; [reflexivity|reflexivity|contradiction].
Qed.

Definition Pfaulty (c : place_in) (loop before : bool) (T : templates) (t : bytes) (e : err) : Prop :=
  forall a, fails (tab_of c) loop (place before a t) T e
    \/ (c <> Outside /\ e = ERR_BADTOK /\ lacks (tab_of c) loop (place before a t) T).

Lemma if_fails : forall inh p s b1 b' r a R T i e, pipeline p s -> blank b1 -> blank b' -> closing r b' -> 1 <= length a ->
  ready_at i a (b1 ++ s ++ b' ++ dash r ++ lit "}}" ++ R) T ->
  fails CondTab inh (place r (rev (b1 ++ s ++ b' ++ dash r ++ lit "}}") ++ a) R) T e
    \/ (e = ERR_BADTOK /\ lacks CondTab inh (place r (rev (b1 ++ s ++ b' ++ dash r ++ lit "}}") ++ a) R) T) ->
  exists x els st k, dangling k = false
    /\ ((error k = Some e /\ st = St_err) \/ (error k = None /\ tok k = TEof /\ st = St_ok /\ e = ERR_BADTOK))
    /\ runs P_if inh i (x, els, st, k).
Proof.
  intros inh p s b1 b' r a R T i e P B1 B' C L H G.
  destruct (pipe_ready p s b1 b' r a R T i P B1 B' C L H) as (N & E).
  destruct G as [(x & els & k & Ek & D & G)|(-> & x & els & k & Ek & D & Tk & G)]; destruct (G TEnd) as (M & G').
  - exists [ACond p els x], [], St_err, k. split; [exact D|]. split; [left; split; [exact Ek|reflexivity]|].
    exists (S (N + M)). intros fuel F. destruct fuel as [|fuel]; [lia|].
    cbn [run_parser]. rewrite E by lia. cbn [bind is_end tok st]. rewrite G' by lia. cbn [bind]. unfold by_error. rewrite Ek. reflexivity.
  - exists [ACond p els x], [], St_ok, k. split; [exact D|]. split; [right; repeat split; assumption|].
    exists (S (N + M)). intros fuel F. destruct fuel as [|fuel]; [lia|].
    cbn [run_parser]. rewrite E by lia. cbn [bind is_end tok st]. rewrite G' by lia. cbn [bind]. unfold by_error. rewrite Ek. reflexivity.
Qed.

Lemma faulty_fails : forall c loop before T t e, faulty c loop before T t e -> Pfaulty c loop before T t e.
Proof.
  induction 1 as
    [c loop before T t acts T1 C Bo
    |c loop before T t l acts T1 s R e Bo Bad
    |c loop before T t l acts T1 w p r s u e Bo (b1 & -> & B1 & N1) [b s0 b' B P B' O C] Fu IH
    |c loop before T t l acts T1 v w p r s u e Bo W [b s0 b' B P B' O C] Fu IH
    |c loop before T t l acts T1 v0 v w p r s u e Bo W [b s0 b' B P B' O C] Fu IH
    |c loop before T t l acts T1 n w r s u e Bo (b1 & q & -> & B1 & Qq) [b b' B B' O C] Fu IH
    |c loop before T t l acts T1 n w b0 p r s u e Bo (b1 & q & -> & B1 & Qq) B0 [b s0 b' B P B' O C] Nd Fu IH
    |c loop before T t l acts T1 r s u e Cc Bo W Fu IH
    |loop before T t l acts T1 w p r s u e Bo (b1 & b2 & -> & B1 & N1 & B2 & N2) [b s0 b' B P B' O C] Fu IH];
  intros a.
  - right. split; [exact C|]. split; [reflexivity|].
    exists (acts ++ []), [], (st (rev t ++ a, []) TEof T1). split; [reflexivity|]. split; [reflexivity|]. split; [reflexivity|].
    replace (place before a t) with (place before a (t ++ [])) by (rewrite app_nil_r; reflexivity).
    apply (proj1 written_read loop before T t At_end acts T1 Bo (tab_of c) a [] [] [] _ eq_refl).
    intros tk. exists 1. intros [|fuel] F; [lia|]. reflexivity.
  - left. destruct (tag_fails c loop l T1 s e R (rev t ++ a) Bad) as (O & F). exact (body_fails _ _ _ _ _ _ _ c _ a e Bo O F).
  - (* if *)
    left. refine (body_fails _ _ _ _ _ _ _ c _ a e Bo _ _); rewrite <- !app_assoc.
    { apply keyword_opens; [exact B|exact O|apply name_if]. }
    set (a0 := rev t ++ a).
    apply (parent l b (lit "if") _ a0 _ loop P_if T1 e B O name_if (blank_word_end _ _ B1 N1)); [destruct c, loop; reflexivity|].
    destruct (if_fails loop p s0 b1 b' r (rev (lit "{{" ++ dash l ++ b ++ lit "if") ++ a0) u T1
                (st (rev (lit "{{" ++ dash l ++ b ++ lit "if") ++ a0, b1 ++ s0 ++ b' ++ dash r ++ lit "}}" ++ u) (TIdent (lit "if")) T1) e P B1 B' C)
      as (x & els & sx & k & D & K & R0).
    { apply len1. discriminate. }
    { apply ready_st. }
    { destruct (IH (rev (b1 ++ s0 ++ b' ++ dash r ++ lit "}}") ++ rev (lit "{{" ++ dash l ++ b ++ lit "if") ++ a0)) as [G|(_ & G)]; [left; exact G|right; exact G]. }
    exists x, els, sx, k. split; [exact D|]. split; [|exact R0].
    destruct K as [(E & ->)|(E & Tk & -> & ->)]; [left; split; [exact E|discriminate]|right; repeat split; try assumption; discriminate].
  - (* with *)
    left.
    destruct (with_var_read v p w s0 b' r u (rev (lit "{{" ++ dash l ++ b ++ lit "with") ++ rev t ++ a) T1 (TIdent (lit "with")) W P B' C)
      as (y & a2 & b2 & i & -> & Y & V & B2 & Ep & La & Hi).
    refine (body_fails _ _ _ _ _ _ _ c _ a e Bo _ _); rewrite <- !app_assoc.
    { apply keyword_opens; [exact B|exact O|apply name_with]. }
    destruct (pipe_ready p s0 b2 b' r a2 u T1 i P B2 B' C) as (N & E).
    { pose proof (len1 (lit "{{" ++ dash l ++ b ++ lit "with") (rev t ++ a) ltac:(discriminate)). lia. }
    { exact Hi. }
    apply (parent l b (lit "with") _ (rev t ++ a) _ loop P_with T1 e B O name_with (Y _)); [destruct c, loop; reflexivity|].
    destruct (IH (rev (b2 ++ s0 ++ b' ++ dash r ++ lit "}}") ++ a2)) as [(x & els & k & Ek & D & G)|(_ & -> & x & els & k & Ek & D & Tk & G)];
      destruct (G TEnd) as (M & G').
    + exists [AWith v p els x], [], St_err, k. split; [exact D|]. split; [left; split; [exact Ek|discriminate]|].
      exists (S (N + M)). intros [|fuel] F; [lia|]. cbn [run_parser]. rewrite V. cbn [bind]. rewrite E by lia. cbn [bind is_end tok st].
      cbn [tab_of] in G'. rewrite G' by lia. cbn [bind]. unfold by_error. rewrite Ek. reflexivity.
    + exists [AWith v p els x], [], St_ok, k. split; [exact D|]. split; [right; repeat split; try assumption; discriminate|].
      exists (S (N + M)). intros [|fuel] F; [lia|]. cbn [run_parser]. rewrite V. cbn [bind]. rewrite E by lia. cbn [bind is_end tok st].
      cbn [tab_of] in G'. rewrite G' by lia. cbn [bind]. unfold by_error. rewrite Ek. reflexivity.
  - (* range *)
    left.
    destruct (range_vars_read v0 v p w s0 b' r u (rev (lit "{{" ++ dash l ++ b ++ lit "range") ++ rev t ++ a) T1 (TIdent (lit "range")) W P B' C)
      as (y & a2 & b2 & i & -> & Y & V & B2 & Ep & La & Hi).
    refine (body_fails _ _ _ _ _ _ _ c _ a e Bo _ _); rewrite <- !app_assoc.
    { apply keyword_opens; [exact B|exact O|apply name_range]. }
    destruct (pipe_ready p s0 b2 b' r a2 u T1 i P B2 B' C) as (N & E).
    { pose proof (len1 (lit "{{" ++ dash l ++ b ++ lit "range") (rev t ++ a) ltac:(discriminate)). lia. }
    { exact Hi. }
    apply (parent l b (lit "range") _ (rev t ++ a) _ loop P_range T1 e B O name_range (Y _)); [destruct c, loop; reflexivity|].
    destruct (IH (rev (b2 ++ s0 ++ b' ++ dash r ++ lit "}}") ++ a2)) as [(x & els & k & Ek & D & G)|(_ & -> & x & els & k & Ek & D & Tk & G)];
      destruct (G TEnd) as (M & G').
    + exists [ARange v0 v p els x], [], St_err, k. split; [exact D|]. split; [left; split; [exact Ek|discriminate]|].
      exists (S (N + M)). intros [|fuel] F; [lia|]. cbn [run_parser]. rewrite V. cbn [bind]. rewrite E by lia. cbn [bind is_end tok st].
      cbn [tab_of] in G'. rewrite G' by lia. cbn [bind]. unfold by_error. rewrite Ek. reflexivity.
    + exists [ARange v0 v p els x], [], St_ok, k. split; [exact D|]. split; [right; repeat split; try assumption; discriminate|].
      exists (S (N + M)). intros [|fuel] F; [lia|]. cbn [run_parser]. rewrite V. cbn [bind]. rewrite E by lia. cbn [bind is_end tok st].
      cbn [tab_of] in G'. rewrite G' by lia. cbn [bind]. unfold by_error. rewrite Ek. reflexivity.
  - (* define *)
    left. refine (body_fails _ _ _ _ _ _ _ c _ a e Bo _ _); rewrite <- !app_assoc.
    { apply keyword_opens; [exact B|exact O|apply name_define]. }
    remember (""""%char :: q ++ lit """") as Q eqn:EQ. set (a0 := rev t ++ a).
    apply (parent l b (lit "define") (b1 ++ Q ++ b' ++ dash r ++ lit "}}" ++ u) a0 _ loop P_define T1 e B O name_define);
      [rewrite EQ; apply (quote_word_end b1); exact B1|destruct c, loop; reflexivity|].
    set (a1 := rev (lit "{{" ++ dash l ++ b ++ lit "define") ++ a0) in *.
    assert (T0 : gettok (st (a1, b1 ++ Q ++ b' ++ dash r ++ lit "}}" ++ u) (TIdent (lit "define")) T1)
                 = Ret (st (rev Q ++ rev b1 ++ a1, b' ++ dash r ++ lit "}}" ++ u) (TStr n) T1)).
    { apply (ready_blank _ a1 b1 (Q ++ b' ++ dash r ++ lit "}}" ++ u)); [exact B1|apply ready_st|]. rewrite EQ. apply quoted_lex, Qq. }
    assert (T2 : gettok (st (rev Q ++ rev b1 ++ a1, b' ++ dash r ++ lit "}}" ++ u) (TStr n) T1)
                 = Ret (st (place r (rev (b' ++ dash r ++ lit "}}") ++ rev Q ++ rev b1 ++ a1) u) TEnd T1)).
    { rewrite (ready_tok _ _ _ T1 _ _ _ (ready_st _ _ _ _) (close_lex b' r u (rev Q ++ rev b1 ++ a1) B' C
           ltac:(rewrite EQ; cbn [rev]; rewrite !app_length; cbn; lia))). reflexivity. }
    destruct (IH (rev (b' ++ dash r ++ lit "}}") ++ rev Q ++ rev b1 ++ a1)) as [(x & els & k & Ek & D & G)|(_ & -> & x & els & k & Ek & D & Tk & G)];
      destruct (G TEnd) as (M & G'); cbn [tab_of] in G'.
    + exists [], [], St_err, (set_dangling false k). split; [reflexivity|]. split; [left; split; [exact Ek|discriminate]|].
      exists (S M). intros [|fuel] F; [lia|]. cbn [run_parser]. rewrite T0. cbn [bind]. change (tok (st _ (TStr n) T1)) with (TStr n). cbn iota beta.
      rewrite T2. cbn [bind is_end]. change (tok (st _ TEnd T1)) with TEnd. cbn iota beta. rewrite G' by lia. cbn [bind]. rewrite Ek. reflexivity.
    + exists [], [], St_ok, (set_tmpls (template_define n x (tmpls k)) k). split; [exact D|].
      split; [right; repeat split; try assumption; discriminate|].
      exists (S M). intros [|fuel] F; [lia|]. cbn [run_parser]. rewrite T0. cbn [bind]. change (tok (st _ (TStr n) T1)) with (TStr n). cbn iota beta.
      rewrite T2. cbn [bind is_end]. change (tok (st _ TEnd T1)) with TEnd. cbn iota beta. rewrite G' by lia. cbn [bind]. rewrite Ek. reflexivity.
  - (* block *)
    left. refine (body_fails _ _ _ _ _ _ _ c _ a e Bo _ _); rewrite <- !app_assoc.
    { apply keyword_opens; [exact B|exact O|apply name_block]. }
    remember (""""%char :: q ++ lit """") as Q eqn:EQ. set (a0 := rev t ++ a).
    apply (parent l b (lit "block") (b1 ++ Q ++ b0 ++ s0 ++ b' ++ dash r ++ lit "}}" ++ u) a0 _ loop P_block T1 e B O name_block);
      [rewrite EQ; apply (quote_word_end b1); exact B1|destruct c, loop; reflexivity|].
    set (a1 := rev (lit "{{" ++ dash l ++ b ++ lit "block") ++ a0) in *.
    assert (T0 : gettok (st (a1, b1 ++ Q ++ b0 ++ s0 ++ b' ++ dash r ++ lit "}}" ++ u) (TIdent (lit "block")) T1)
                 = Ret (st (rev Q ++ rev b1 ++ a1, b0 ++ s0 ++ b' ++ dash r ++ lit "}}" ++ u) (TStr n) T1)).
    { apply (ready_blank _ a1 b1 (Q ++ b0 ++ s0 ++ b' ++ dash r ++ lit "}}" ++ u)); [exact B1|apply ready_st|]. rewrite EQ. apply quoted_lex, Qq. }
    destruct (pipe_ready p s0 b0 b' r (rev Q ++ rev b1 ++ a1) u T1
                (st (rev Q ++ rev b1 ++ a1, b0 ++ s0 ++ b' ++ dash r ++ lit "}}" ++ u) (TStr n) T1) P B0 B' C) as (N & E').
    { rewrite EQ; cbn [rev]; rewrite !app_length; cbn; lia. }
    { apply ready_st. }
    destruct (IH (rev (b0 ++ s0 ++ b' ++ dash r ++ lit "}}") ++ rev Q ++ rev b1 ++ a1)) as [(x & els & k & Ek & D & G)|(_ & -> & x & els & k & Ek & D & Tk & G)];
      destruct (G TEnd) as (M & G'); cbn [tab_of] in G'.
    + exists [], [], St_err, (set_dangling false k). split; [reflexivity|]. split; [left; split; [exact Ek|discriminate]|].
      exists (S (N + M)). intros [|fuel] F; [lia|]. cbn [run_parser]. rewrite T0. cbn [bind]. change (tok (st _ (TStr n) T1)) with (TStr n). cbn iota beta.
      rewrite E' by lia. cbn [bind is_end]. change (tok (st _ TEnd T1)) with TEnd. cbn iota beta.
      change (tmpls (st _ TEnd T1)) with T1. rewrite (proj2 (lookup_none n T1) Nd). rewrite G' by lia. cbn [bind]. rewrite Ek. reflexivity.
    + exists [ABlock n p], [], St_ok, (set_tmpls (template_define n x (tmpls k)) k). split; [exact D|].
      split; [right; repeat split; try assumption; discriminate|].
      exists (S (N + M)). intros [|fuel] F; [lia|]. cbn [run_parser]. rewrite T0. cbn [bind]. change (tok (st _ (TStr n) T1)) with (TStr n). cbn iota beta.
      rewrite E' by lia. cbn [bind is_end]. change (tok (st _ TEnd T1)) with TEnd. cbn iota beta.
      change (tmpls (st _ TEnd T1)) with T1. rewrite (proj2 (lookup_none n T1) Nd). rewrite G' by lia. cbn [bind]. rewrite Ek. reflexivity.
  - (* else *)
    left. destruct W as [b b' B B' O C].
    refine (body_fails _ _ _ _ _ _ _ c _ a e Bo _ _); rewrite <- !app_assoc.
    { apply keyword_opens; [exact B|exact O|apply name_else]. }
    set (a0 := rev t ++ a). set (a1 := rev (lit "{{" ++ dash l ++ b ++ lit "else") ++ a0).
    assert (T2 : gettok (st (a1, b' ++ dash r ++ lit "}}" ++ u) (TIdent (lit "else")) T1)
                 = Ret (st (place r (rev (b' ++ dash r ++ lit "}}") ++ a1) u) TEnd T1)).
    { rewrite (ready_tok _ _ _ T1 _ _ _ (ready_st _ _ _ _) (close_lex b' r u a1 B' C (len1 (lit "{{" ++ dash l ++ b ++ lit "else") a0 ltac:(discriminate)))).
      reflexivity. }
    assert (K : exists x els s k, dangling k = false
      /\ ((error k = Some e /\ s <> St_ok) \/ (error k = None /\ tok k = TEof /\ s <> St_err /\ e = ERR_BADTOK))
      /\ forall P, P = P_elseif \/ P = P_elsewith -> runs P loop (st (a1, b' ++ dash r ++ lit "}}" ++ u) (TIdent (lit "else")) T1) (x, els, s, k)).
    { destruct (IH (rev (b' ++ dash r ++ lit "}}") ++ a1)) as [(x & els & k & Ek & D & G)|(_ & -> & x & els & k & Ek & D & Tk & G)];
        destruct (G TEnd) as (M & G'); cbn [tab_of] in G'; exists [], x, St_end, k; (split; [exact D|]); split.
      - left. split; [exact Ek|discriminate].
      - intros P HP. exists (S M). intros [|fuel] F; [lia|]. destruct HP as [->| ->]; cbn [run_parser]; rewrite T2; cbn [bind is_end].
        + change (tok (st (place r (rev (b' ++ dash r ++ lit "}}") ++ a1) u) TEnd T1)) with TEnd. cbn iota beta. rewrite G' by lia. reflexivity.
        + change (tok (st (place r (rev (b' ++ dash r ++ lit "}}") ++ a1) u) TEnd T1)) with TEnd. cbn iota beta. rewrite G' by lia. reflexivity.
      - right. repeat split; try assumption. discriminate.
      - intros P HP. exists (S M). intros [|fuel] F; [lia|]. destruct HP as [->| ->]; cbn [run_parser]; rewrite T2; cbn [bind is_end].
        + change (tok (st (place r (rev (b' ++ dash r ++ lit "}}") ++ a1) u) TEnd T1)) with TEnd. cbn iota beta. rewrite G' by lia. reflexivity.
        + change (tok (st (place r (rev (b' ++ dash r ++ lit "}}") ++ a1) u) TEnd T1)) with TEnd. cbn iota beta. rewrite G' by lia. reflexivity. }
    destruct K as (x & els & s & k & D & K & R0).
    destruct Cc as [->| ->].
    + apply (parent l b (lit "else") _ a0 _ loop P_elseif T1 e B O name_else (breaks_word_end _ (close_breaks b' r u B' C))); [destruct loop; reflexivity|].
      exists x, els, s, k. split; [exact D|]. split; [exact K|]. apply R0. left. reflexivity.
    + apply (parent l b (lit "else") _ a0 _ loop P_elsewith T1 e B O name_else (breaks_word_end _ (close_breaks b' r u B' C))); [destruct loop; reflexivity|].
      exists x, els, s, k. split; [exact D|]. split; [exact K|]. apply R0. right. reflexivity.
  - (* else if *)
    left. refine (body_fails _ _ _ _ _ _ _ In_if _ a e Bo _ _); rewrite <- !app_assoc.
    { apply keyword_opens; [exact B|exact O|apply name_else]. }
    set (a0 := rev t ++ a). set (a1 := rev (lit "{{" ++ dash l ++ b ++ lit "else") ++ a0).
    apply (parent l b (lit "else") (b1 ++ lit "if" ++ b2 ++ s0 ++ b' ++ dash r ++ lit "}}" ++ u) a0 _ loop P_elseif T1 e B O name_else (blank_word_end _ _ B1 N1)); [destruct loop; reflexivity|].
    fold a1.
    assert (T0 : gettok (st (a1, b1 ++ lit "if" ++ b2 ++ s0 ++ b' ++ dash r ++ lit "}}" ++ u) (TIdent (lit "else")) T1)
                 = Ret (st (rev (lit "if") ++ rev b1 ++ a1, b2 ++ s0 ++ b' ++ dash r ++ lit "}}" ++ u) (TIdent (lit "if")) T1)).
    { apply (ready_blank _ a1 b1 (lit "if" ++ b2 ++ s0 ++ b' ++ dash r ++ lit "}}" ++ u)); [exact B1|apply ready_st|].
      destruct (blank_word_end b2 (s0 ++ b' ++ dash r ++ lit "}}" ++ u) B2 N2) as (Y1 & Y2). apply lex_word; [apply name_if|exact Y1|exact Y2]. }
    destruct (if_fails loop p s0 b2 b' r (rev (lit "if") ++ rev b1 ++ a1) u T1
                (st (rev (lit "if") ++ rev b1 ++ a1, b2 ++ s0 ++ b' ++ dash r ++ lit "}}" ++ u) (TIdent (lit "if")) T1) e P B2 B' C)
      as (x & els & sx & k & D & K & (M & R0)).
    { cbn; lia. }
    { apply ready_st. }
    { destruct (IH (rev (b2 ++ s0 ++ b' ++ dash r ++ lit "}}") ++ rev (lit "if") ++ rev b1 ++ a1)) as [G|(_ & G)]; [left; exact G|right; exact G]. }
    exists [], x, St_end, k. split; [exact D|]. split.
    + destruct K as [(E & ->)|(E & Tk & -> & ->)]; [left; split; [exact E|discriminate]|right; repeat split; try assumption; discriminate].
    + exists (S M). intros [|fuel] F; [lia|]. cbn [run_parser]. rewrite T0. cbn [bind].
      change (tok (st _ (TIdent (lit "if")) T1)) with (TIdent (lit "if")). cbn iota beta. rewrite bytes_eqb_refl. rewrite R0 by lia. reflexivity.
Qed.

Lemma faulty_refused : forall T t e, faulty Outside false false T t e ->
  exists N off, forall fuel, N <= fuel -> template_parse fuel T t = Ret (PErr e off).
Proof.
  intros T t e H. destruct (faulty_fails _ _ _ _ _ _ H []) as [(x & els & k & Ek & D & G)|(C & _)]; [|contradiction].
  destruct (G TEof) as (N & E). exists N, (length (pre k)). intros fuel F. unfold template_parse.
  change (mkIn [] t TEof false None T false) with (st (place false [] t) TEof T). cbn [tab_of] in E. rewrite E by exact F.
  cbn [bind]. rewrite Ek, D. reflexivity.
Qed.
