(** C57: how the statements of a configuration are read. *)
From Coq Require Import Ascii String List ZArith Bool Arith.
From Verif Require Import Bytes CfgModel CfgSpec CfgProofs.
From Verif Require LexSpec.
Import ListNotations.
Open Scope nat_scope.

(** A keyword stands for the first entry with that name, without regard to case, in the
    table written out (the tables it refers to in their places); an alias stands for the
    keyword before it; and a keyword without such an entry is not found. *)
Theorem C57_keyword : forall conf (tab : list (entry conf)) w,
  (forall a wh d, parser_find tab w = Found a wh d <-> means tab w a wh d) /\
  (parser_find tab w = NotFound <-> unknown tab w) /\
  (exists ls, written None tab ls /\ forall ls', written None tab ls' -> ls' = ls).
Proof.
  intros conf tab w. split; [intros a wh d; apply find_means|]. split; [apply find_unknown|].
  exists (write conf None tab). split; [apply written_write|]. intros ls' W. apply written_unique, W.
Qed.
Print Assumptions C57_keyword.

(** A file is accepted, and gives a configuration, exactly if its tokens are a text of the
    grammar that makes that configuration: statements take effect in the order of the text,
    blocks extend to their End, the rest of a line is never ignored, and the text of an
    included file stands in the place of the Include; unless a file includes a file that is
    being read. *)
Theorem C57_grammar : forall conf (tables : nat -> list (entry conf)) file strict t c name id ts c',
  file name = Some (id, ts) -> ~ recursive tables file strict t c name ->
  (accepts tables file strict t c name c' <-> exists h r, text tables file strict t false false c ts h c' r).
Proof. exact accepts_text. Qed.
Print Assumptions C57_grammar.

(** Include: the statement and the text of the file are interchangeable. *)
Theorem C57_include : forall conf (tables : nat -> list (entry conf)) file strict t me c w f id ts' ts h c' r,
  unknown (tables t) w -> same_word w (lit "include") -> file f = Some (id, ts') ->
  (text tables file strict t false me c (Ident w :: Quoted f :: ts) h c' r <-> text tables file strict t false me c (ts' ++ ts) h c' r).
Proof. exact text_include. Qed.
Print Assumptions C57_include.

(** An Include of a file that is being read, or of one that cannot be read, is refused,
    wherever it is met. *)
Theorem C57_include_refused : forall conf (tables : nat -> list (entry conf)) file strict n t me c id0 w f ts st,
  unknown (tables t) w -> same_word w (lit "include") ->
  (file f = None -> cfgparser tables file strict (S n) t false me c ((id0, Ident w :: Quoted f :: ts) :: st) = Refused) /\
  (forall id ts', file f = Some (id, ts') -> In id (id0 :: map fst st) ->
     cfgparser tables file strict (S n) t false me c ((id0, Ident w :: Quoted f :: ts) :: st) = Recursive).
Proof.
  intros conf tables file strict n t me c id0 w f ts st U W. split.
  - intros E. apply include_missing; assumption.
  - intros id ts' E I. eapply include_recursive; eassumption.
Qed.
Print Assumptions C57_include_refused.

(** Reading ends, whatever the tables and the statements do and however the files include
    one another, if there are finitely many of them; and the outcome is a single one. *)
Theorem C57_ends : forall conf (tables : nat -> list (entry conf)) file strict ids M t c name,
  (forall f id ts, file f = Some (id, ts) -> In id ids /\ length ts <= M) ->
  exists r, r <> Fuel /\ exists n, forall m, n <= m -> cfgparser_parse tables file strict m t c name = r.
Proof.
  intros conf tables file strict ids M t c name F. destruct (parse_ends conf tables file strict ids M t c name F) as (n & H).
  exists (cfgparser_parse tables file strict n t c name). split; [apply H, Nat.le_refl|]. exists n. intros m L.
  eapply parse_once; [reflexivity|reflexivity|apply H, L|apply H, Nat.le_refl].
Qed.
Print Assumptions C57_ends.

(** A block that must be closed is never ended by the end of the file. *)
Theorem C57_closed : forall conf (tables : nat -> list (entry conf)) file strict t one c ts h c' r,
  text tables file strict t one true c ts h c' r -> h <> AtEof.
Proof. intros conf tables file strict t one c ts h c' r T. exact (text_ends _ _ _ _ _ _ _ _ _ _ _ _ T eq_refl). Qed.
Print Assumptions C57_closed.

(** Expected: a number, a string or another token in the place of a keyword is a syntax
    error.  It is reported as one, but the configuration is accepted all the same, as if the
    token were not there: the rest of its line is then read as a statement. *)
Theorem C57_misplaced_refuted : forall conf (tables : nat -> list (entry conf)) file strict t one me c k ts h c' r,
  misplaced k -> (text tables file strict t one me c (k :: ts) h c' r <-> text tables file strict t one me c ts h c' r).
Proof. exact text_misplaced. Qed.
Print Assumptions C57_misplaced_refuted.

(** ** The Rewrite section *)
Definition main (ts : list tok) (f : bytes) : option (Z * list tok) :=
  if bytes_eqb f (lit "main") then Some (1%Z, ts)
  else if bytes_eqb f (lit "more") then Some (2%Z, [Ident (lit "setpath"); Quoted (lit "/x"); Newline])
  else if bytes_eqb f (lit "loop") then Some (3%Z, [Newline; Ident (lit "Include"); Quoted (lit "main")]) else None.
Definition read (t : nat) (ts : list tok) : result (list event) := cfgparser_parse rewrite_tables (main ts) false 50 t [] (lit "main").

(** Expected: [NOT] negates the condition that follows it, so that in
    "NOT NOT Path a", "Header b" the second condition is not negated.  The parser of the
    outer NOT goes on after the inner one: the next condition is made part of it; and if the
    next statement is not a condition, the configuration is refused. *)
Theorem C57_not_not_refuted :
  read T_RULE [Ident (lit "NOT"); Ident (lit "NOT"); Ident (lit "Path"); Quoted (lit "a"); Newline;
               Ident (lit "Header"); Quoted (lit "b"); Newline; Ident (lit "End"); Newline] =
    Accepted Ended (rev [Enter (lit "NOT"); Enter (lit "NOT"); Stmt (lit "Path") [lit "a"]; Leave (lit "NOT");
                         Stmt (lit "Header") [lit "b"]; Leave (lit "NOT")]) [(1%Z, [Newline])] /\
  read T_RULE [Ident (lit "NOT"); Ident (lit "NOT"); Ident (lit "Path"); Quoted (lit "a"); Newline;
               Ident (lit "SetURL"); Quoted (lit "b"); Newline; Ident (lit "End"); Newline] = Refused /\
  read T_RULE [Ident (lit "NOT"); Ident (lit "Path"); Quoted (lit "a"); Newline;
               Ident (lit "Header"); Quoted (lit "b"); Newline; Ident (lit "End"); Newline] =
    Accepted Ended (rev [Enter (lit "NOT"); Stmt (lit "Path") [lit "a"]; Leave (lit "NOT"); Stmt (lit "Header") [lit "b"]]) [(1%Z, [Newline])].
Proof. vm_compute. auto. Qed.
Print Assumptions C57_not_not_refuted.

(** Expected: the rules for responses take the conditions and the actions that apply to
    responses only.  The Else of an Else of such a rule, its Match and its NOT take those of
    requests; elsewhere in the rule the same statements are refused. *)
Theorem C57_response_refuted :
  read T_RESPONSE [Ident (lit "Else"); Newline; Ident (lit "Else"); Newline; Ident (lit "SetURL"); Quoted (lit "b"); Newline;
                   Ident (lit "End"); Newline] =
    Accepted Ended (rev [Enter (lit "Else"); Enter (lit "Else"); Stmt (lit "SetURL") [lit "b"]; Leave (lit "Else"); Leave (lit "Else")]) [(1%Z, [Newline])] /\
  read T_RESPONSE [Ident (lit "Not"); Ident (lit "Path"); Quoted (lit "b"); Newline; Ident (lit "End"); Newline] =
    Accepted Ended (rev [Enter (lit "NOT"); Stmt (lit "Path") [lit "b"]; Leave (lit "NOT")]) [(1%Z, [Newline])] /\
  read T_RESPONSE [Ident (lit "Else"); Newline; Ident (lit "SetURL"); Quoted (lit "b"); Newline; Ident (lit "End"); Newline] = Refused /\
  read T_RESPONSE [Ident (lit "Path"); Quoted (lit "b"); Newline; Ident (lit "End"); Newline] = Refused.
Proof. vm_compute. auto. Qed.
Print Assumptions C57_response_refuted.

(** *** Cases *)
(** A rule with a nested rule, two Else parts with one End, an alias and an included file *)
Example C57_rule :
  read T_RULE [Ident (lit "HEADREQUIRE"); Quoted (lit "h"); Newline; Ident (lit "Rewrite"); Newline;
               Ident (lit "SetURL"); Quoted (lit "u"); Newline; Ident (lit "End"); Newline;
               Ident (lit "Include"); Quoted (lit "more"); Newline;
               Ident (lit "Else"); Newline; Ident (lit "Path"); Quoted (lit "p"); Newline;
               Ident (lit "Else"); Newline; Ident (lit "SetQuery"); Quoted (lit "q"); Newline; Ident (lit "END"); Newline] =
  Accepted Ended (rev [Stmt (lit "Header") [lit "h"]; Enter (lit "Rewrite"); Stmt (lit "SetURL") [lit "u"]; Leave (lit "Rewrite");
                       Stmt (lit "SetPath") [lit "/x"];
                       Enter (lit "Else"); Stmt (lit "Path") [lit "p"]; Enter (lit "Else"); Stmt (lit "SetQuery") [lit "q"]; Leave (lit "Else"); Leave (lit "Else")])
    [(1%Z, [Newline])].
Proof. vm_compute. reflexivity. Qed.
(** A file that includes itself through another one *)
Example C57_loop : read T_RULE [Ident (lit "Include"); Quoted (lit "loop"); Newline] = Recursive.
Proof. vm_compute. reflexivity. Qed.
(** The hypotheses of C57_grammar and C57_ends hold of a file *)
Example C57_holds : let ts := [Ident (lit "Include"); Quoted (lit "more"); Newline] in
  accepts rewrite_tables (main ts) false T_RULE [] (lit "main") [Stmt (lit "SetPath") [lit "/x"]] /\
  ~ recursive rewrite_tables (main ts) false T_RULE [] (lit "main") /\
  (forall f id ts', main ts f = Some (id, ts') -> In id [1%Z; 2%Z; 3%Z] /\ length ts' <= 3).
Proof.
  intros ts.
  assert (A : cfgparser_parse rewrite_tables (main ts) false 50 T_RULE [] (lit "main") = Accepted AtEof [Stmt (lit "SetPath") [lit "/x"]] [])
    by (vm_compute; reflexivity).
  split; [exists 50, AtEof, []; exact A|]. split.
  - intros (n & R).
    discriminate (parse_once _ _ _ _ _ _ _ _ _ _ _ A R ltac:(discriminate) ltac:(discriminate)).
  - intros f id ts' E. unfold main in E. destruct (bytes_eqb f (lit "main")).
    { injection E as <- <-. cbn. auto. }
    destruct (bytes_eqb f (lit "more")); [injection E as <- <-; cbn; auto|].
    destruct (bytes_eqb f (lit "loop")); [injection E as <- <-; cbn; auto|discriminate].
Qed.
(** A deprecated keyword that stands for the one before it, found through the reference *)
Example C57_alias : means (rewrite_tables T_NEGATE) (lit "headrequire") (one_string (lit "Header")) 0%Z true.
Proof. apply find_means. vm_compute. reflexivity. Qed.
Example C57_unknown : unknown (rewrite_tables T_RULE) (lit "Include") /\ unknown (rewrite_tables T_RESPONSE) (lit "SetURL").
Proof. split; apply find_unknown; vm_compute; reflexivity. Qed.
(** A table with an alias that stands for nothing does not occur *)
Example C57_no_assertion : forall t, t <= 5 -> Forall (fun l : line (list event) => snd (fst l) <> None) (write _ None (rewrite_tables t)).
Proof.
  intros t L. do 6 (destruct t as [|t]; [repeat (constructor; [discriminate|]); constructor|]). exfalso. do 5 apply le_S_n in L. inversion L.
Qed.
