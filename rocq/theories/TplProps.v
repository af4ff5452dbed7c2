(** C63: reading the text of an output template. *)
From Coq Require Import Ascii String List ZArith Bool Lia.
From Verif Require Import Bytes TplModel TplSpec TplLexProofs TplPipeProofs TplProofs TplActProofs TplTagProofs TplBodyProofs TplBadProofs TplFindProofs.
Import ListNotations.
Local Open Scope nat_scope.
Local Open Scope string_scope.
Local Open Scope list_scope.

(** Every text written as the manual says (text, actions with or without trimming, comments, pipelines
    nested to any depth, if and else if, with, range, define, template, block) is read, and what is read is the
    tree it stands for, with the templates it defines.  Partial: strings with a quote in them, a with or a range of a variable
    and a template without an argument are excluded (the refuted theorems below), and a block whose name is
    already defined has no body. *)
Theorem C63_reads_partial : forall T t acts T', template_text T t acts T' ->
  exists N, forall fuel, N <= fuel -> template_parse fuel T t = Ret (POk acts T').
Proof. exact template_read. Qed.
Print Assumptions C63_reads_partial.

(** No text can be read in two ways. *)
Theorem C63_unambiguous : forall T t acts1 T1 acts2 T2,
  template_text T t acts1 T1 -> template_text T t acts2 T2 -> acts1 = acts2 /\ T1 = T2.
Proof.
  intros T t acts1 T1 acts2 T2 H1 H2. apply template_read in H1, H2. destruct H1 as (N1 & E1), H2 as (N2 & E2).
  specialize (E1 (N1 + N2) ltac:(lia)). specialize (E2 (N1 + N2) ltac:(lia)). rewrite E1 in E2. injection E2 as -> ->. split; reflexivity.
Qed.
Print Assumptions C63_unambiguous.

(** A text that begins as a template does but then has, at whatever depth, an end or an else of nothing, a break or
    continue outside of a range, an unknown word instead of an action, a template that is not defined, or that ends before
    an action does, is refused with the error that says so.  Partial: these are not all the texts that are wrong; some others
    are not refused (the refuted theorems below). *)
Theorem C63_refuses_partial : forall T t e, faulty Outside false false T t e ->
  exists N off, forall fuel, N <= fuel -> template_parse fuel T t = Ret (PErr e off).
Proof. exact faulty_refused. Qed.
Print Assumptions C63_refuses_partial.

(** Reading a text need not come to an end: if it ends in a function and a digit, the
    digit is read as an argument again and again (and an argument added each time). *)
Theorem C63_ends_refuted : forall f d T fuel, In f functions -> is_digit d = true ->
  template_parse fuel T (lit "{{" ++ f ++ lit " " ++ [d]) = Fuel.
Proof. intros f d T fuel. exact (digit_loops f d T fuel). Qed.
Print Assumptions C63_ends_refuted.

(** A text that ends in an asterisk within a comment is never read to its end: the asterisk
    is read again and again. *)
Theorem C63_comment_refuted : forall t T fuel, ~ occurs (lit "*/") t ->
  template_parse (S fuel) T (lit "{{/*" ++ t ++ lit "*") = Loop.
Proof. intros t T fuel. exact (comment_loops t T fuel). Qed.
Print Assumptions C63_comment_refuted.

(** A string that lacks its end is not reported as an error if the action begins with it: an
    assertion fails. *)
Theorem C63_string_refuted : forall t T fuel, ~ In """"%char t ->
  template_parse (3 + fuel) T (lit "{{""" ++ t) = Wrong Assertion.
Proof. intros t T fuel. exact (string_asserts t T fuel). Qed.
Print Assumptions C63_string_refuted.

(** A variable is a pipeline, yet with and range of a variable are refused whatever follows, and
    the name of the variable is freed twice. *)
Theorem C63_with_variable_refuted : forall v R T fuel, name v ->
  pipeline [CVar v] ("$"%char :: v)
  /\ template_parse (3 + fuel) T (lit "{{with $" ++ v ++ lit "}}" ++ R) = Wrong Double_free
  /\ template_parse (3 + fuel) T (lit "{{range $" ++ v ++ lit "}}" ++ R) = Wrong Double_free.
Proof.
  intros v R T fuel V. split; [apply p_one, c_term, t_base, b_var, V|].
  split; [exact (with_double v R T fuel V)|exact (range_double v R T fuel V)].
Qed.
Print Assumptions C63_with_variable_refuted.

(** A quote after a backslash is not part of the string: it ends it. *)
Theorem C63_quote_refuted : forall fuel,
  template_parse (6 + fuel) [] (lit "{{""a\""}}") = Ret (POk [APipe [CArg (LStr (lit "a"""))]] [])
  /\ template_parse (6 + fuel) [] (lit "{{""a\""b""}}") = Ret (PErr ERR_BADTOK 7).
Proof. intros fuel. split; reflexivity. Qed.
Print Assumptions C63_quote_refuted.

(** A word that is no function is not reported where it stands among the arguments of one: it
    is left out. *)
Theorem C63_function_refuted : forall w T fuel, name w -> ~ In w functions -> w <> lit "true" -> w <> lit "false" ->
  template_parse (6 + fuel) T (lit "{{len . " ++ w ++ lit "}}") = Ret (POk [APipe [CCall (lit "len") [[CDot]]]] T).
Proof. exact unknown_dropped. Qed.
Print Assumptions C63_function_refuted.

(** A number that no long holds is not always reported: the multiplication
    overflows first. *)
Theorem C63_number_refuted : forall T fuel,
  template_parse (3 + fuel) T (lit "{{92233720368547758070}}") = Wrong Overflow.
Proof. reflexivity. Qed.
Print Assumptions C63_number_refuted.

(** A number with a fraction, which the manual allows, is refused. *)
Theorem C63_fraction_refuted : forall T fuel, template_parse (6 + fuel) T (lit "{{1.5}}") = Ret (PErr ERR_BADTOK 4).
Proof. reflexivity. Qed.
Print Assumptions C63_fraction_refuted.

(** A template without an argument, which the manual allows, is refused if it is the last action or another
    action follows at once; and if text follows, a text is added that is a null pointer. *)
Theorem C63_template_refuted : forall fuel T, T = [(lit "a", [AText (lit "x")])] ->
  template_parse (6 + fuel) T (lit "{{template ""a""}}") = Ret (PErr ERR_BADTOK 16)
  /\ template_parse (6 + fuel) T (lit "{{template ""a""}}{{.}}") = Ret (PErr ERR_BADTOK 18)
  /\ template_parse (6 + fuel) T (lit "{{template ""a""}}y") = Ret (POk [ABlock (lit "a") []; AText (lit "y"); ANull] T).
Proof. intros fuel T ->. split; [|split]; reflexivity. Qed.
Print Assumptions C63_template_refuted.

(** A block whose name has been defined before is not a definition and the use of it: what
    follows it is not taken as its body, and the end of it is an error. *)
Theorem C63_block_refuted : forall fuel,
  template_parse (9 + fuel) [] (lit "{{define ""a""}}x{{end}}{{template ""a"" .}}")
    = Ret (POk [ABlock (lit "a") [CDot]] [(lit "a", [AText (lit "x")])])
  /\ template_parse (9 + fuel) [] (lit "{{define ""a""}}x{{end}}{{block ""a"" .}}y{{end}}") = Ret (PErr ERR_BADTOK 43).
Proof. intros fuel. split; reflexivity. Qed.
Print Assumptions C63_block_refuted.

(** A text that meets the hypothesis of the first theorem: trimming, an if, an else. *)
Example C63_reads_example :
  template_text [] (lit "a {{- if .x}}b{{else}}{{len . | eq 3}}{{end}}")
    [AText (lit "a"); ACond [CAttr (lit "x")] [APipe [CCall (lit "len") [[CDot]]; CCall (lit "eq") [[CArg (LInt 3)]]]] [AText (lit "b")]] [].
Proof.
  assert (SB : blank (lit " ")) by (apply bl_space; [reflexivity|apply bl_nil]).
  assert (SF : space_first (lit " ")) by (exists " "%char, []; split; reflexivity).
  assert (NO : forall t, forallb (fun c => negb (beq c "{"%char)) t = true -> forall n, plain n t).
  { intros t H n. rewrite forallb_forall in H. destruct n as [|l]; cbn [plain]; intros (x & y & E).
    - assert (I0 : In "{"%char t) by (rewrite E; apply in_or_app; right; left; reflexivity). apply H in I0. discriminate.
    - assert (E' : t ++ lit "{" = (x ++ lit "{") ++ lit "{" ++ y) by (rewrite E, <- app_assoc; reflexivity).
      assert (I0 : In "{"%char t \/ t = x).
      { destruct y as [|c y] using rev_ind.
        - rewrite app_nil_r in E'. apply app_inj_tail in E'. left. rewrite (proj1 E'). apply in_or_app. right. left. reflexivity.
        - rewrite !app_assoc in E'. apply app_inj_tail in E'. left. rewrite (proj1 E'). apply in_or_app. left.
          apply in_or_app. right. left. reflexivity. }
      destruct I0 as [I0| ->]; [apply H in I0; discriminate|]. apply (f_equal (@length _)) in E. rewrite !app_length in E. cbn in E. lia. }
  refine (bo_tag false false [] (lit "a ") (lit "a") true (lit "{{- if .x}}b{{else}}{{len . | eq 3}}{{end}}") [ACond [CAttr (lit "x")] [APipe [CCall (lit "len") [[CDot]]; CCall (lit "eq") [[CArg (LInt 3)]]]] [AText (lit "b")]] [] false [] At_end [] [] _ _ _ _).
  - apply NO. reflexivity.
  - exists (lit "a "). split; [reflexivity|]. exists (lit " "). split; [reflexivity|]. split.
    + intros c [<-|[]]. reflexivity.
    + intros (r & c & E & C). destruct r as [|d r]; [injection E as <-; discriminate|]. injection E as _ E. destruct r; discriminate.
  - refine (ta_if false true [] (lit "if ") _ (lit "{{- if .x}}") false (lit "b{{else}}{{len . | eq 3}}{{end}}") _ _ [] false _ _ _).
    + exists (lit " "). split; [reflexivity|]. split; [exact SB|discriminate].
    + refine (pt true (lit "if ") _ false (lit " ") (lit ".x") [] SB _ bl_nil (fun _ => SF) _); [|discriminate].
      apply p_one, c_term, t_base, (b_attr (lit "x")). exists "x"%char, []. repeat split. intros d [].
    + refine (re_else true false false [] (lit "b") _ [] false (lit "{{else}}") false (lit "{{len . | eq 3}}") _ [] false (lit "{{end}}") false _ _ _ _).
      * apply (bo_end false false [] (lit "b") (Tag false) (lit "b")); [apply NO; reflexivity|]. exists (lit "b"). split; reflexivity.
      * refine (wt false (lit "else") false [] [] bl_nil bl_nil _ _); discriminate.
      * refine (bo_tag false false [] [] [] false (lit "{{len . | eq 3}}") [APipe [CCall (lit "len") [[CDot]]; CCall (lit "eq") [[CArg (LInt 3)]]]] [] false [] (Tag false) [] [] _ _ _ _).
        -- apply NO. reflexivity.
        -- exists []. split; reflexivity.
        -- apply ta_pipe. refine (pt false [] _ false [] (lit "len . | eq 3") [] bl_nil _ bl_nil _ _); [|discriminate|discriminate].
           refine (p_more _ (lit "len .") (lit " ") (lit " ") _ (lit "eq 3") _ SB SB _).
           ++ apply (c_call (lit "len") _ (lit " .")); [cbn; auto 10|]. apply (a_cons (lit " ") CDot (lit ".") [] []); [exact SB|exact SF|constructor|constructor].
           ++ apply p_one, (c_call (lit "eq") _ (lit " 3")); [cbn; auto 10|].
              apply (a_cons (lit " ") (CArg (LInt 3)) (lit "3") [] []); [exact SB|exact SF| |constructor].
              apply t_number. apply (nm_plus (lit "3")); [discriminate|intros c [<-|[]]; reflexivity|discriminate].
        -- apply (bo_end false false [] [] (Tag false) []); [apply NO; reflexivity|]. exists []. split; reflexivity.
      * refine (wt false (lit "end") false [] [] bl_nil bl_nil _ _); discriminate.
  - apply (bo_end false false [] [] At_end []); [apply NO; reflexivity|]. exists []. split; reflexivity.
Qed.
Print Assumptions C63_reads_example.

(** ... and what the code makes of another one. *)
Example C63_more :
  template_parse 40 [] (lit "{{define ""row""}}{{.name | printf ""%s""}}{{end}}{{range $i, $e = .list -}}
   {{if eq $i 1}}{{break}}{{end}}{{template ""row"" $e.x}}{{end}}")
  = Ret (POk
     [ARange (Some (lit "i")) (Some (lit "e")) [CAttr (lit "list")] []
        [ACond [CCall (lit "eq") [[CVar (lit "i")]; [CArg (LInt 1)]]] [] [ABreak];
         ABlock (lit "row") [CWith [CVar (lit "e")] [CAttr (lit "x")]]]]
     [(lit "row", [APipe [CAttr (lit "name"); CCall (lit "printf") [[CArg (LStr (lit "%s"))]]]])]).
Proof. reflexivity. Qed.

(** The other hypotheses are met by concrete words. *)
Example C63_words : In (lit "printf") functions /\ is_digit "7"%char = true /\ name (lit "x1")
  /\ (name (lit "foo") /\ ~ In (lit "foo") functions /\ lit "foo" <> lit "true" /\ lit "foo" <> lit "false")
  /\ ~ occurs (lit "*/") (lit " x * ") /\ ~ In """"%char (lit "abc").
Proof.
  split; [cbn; auto 20|]. split; [reflexivity|]. split; [eapply name_lit; reflexivity|].
  split; [split; [eapply name_lit; reflexivity|]; split; [intros H; cbn in H; repeat (destruct H as [H|H]; [discriminate|]); exact H|split; discriminate]|].
  split.
  - intros (a & b & E). apply (f_equal (existsb (beq "/"%char))) in E. rewrite !existsb_app in E.
    change (existsb (beq "/"%char) (lit "*/")) with true in E. rewrite orb_true_l, orb_true_r in E. discriminate.
  - intros H. cbn in H. repeat (destruct H as [H|H]; [discriminate|]). exact H.
Qed.

(** A text with a fault: a template that is not defined, in the else of an if that is never ended. *)
Example C63_faulty : faulty Outside false false [] (lit "{{if .}}{{else}}{{template ""x"" .}}y") ERR_NOTMPL.
Proof.
  assert (SB : blank (lit " ")) by (apply bl_space; [reflexivity|apply bl_nil]).
  assert (E0 : forall loop l, body loop false [] [] (Tag l) [] []).
  { intros loop l. apply (bo_end loop false [] [] (Tag l) []).
    - cbn [plain app]. intros (x & y & E). apply (f_equal (@length _)) in E. rewrite !app_length in E. cbn in E. lia.
    - exists []. split; [reflexivity|]. destruct l; [|reflexivity]. exists []. split; [reflexivity|]. split; [intros c []|].
      intros (r & c & E & _). destruct r; discriminate. }
  assert (PD : pipeline [CDot] (lit ".")) by (apply p_one, c_term, t_dot).
  refine (fa_if Outside false false [] [] false [] [] (lit "if ") [CDot] false (lit "{{if .}}") (lit "{{else}}{{template ""x"" .}}y") ERR_NOTMPL (E0 _ _) _ _ _).
  - exists (lit " "). split; [reflexivity|]. split; [exact SB|discriminate].
  - refine (pt false (lit "if ") _ false [] (lit ".") [] bl_nil PD bl_nil _ _); discriminate.
  - refine (fa_else In_if false false [] [] false [] [] false (lit "{{else}}") (lit "{{template ""x"" .}}y") ERR_NOTMPL (or_introl eq_refl) (E0 _ _) _ _).
    + refine (wt false (lit "else") false [] [] bl_nil bl_nil _ _); discriminate.
    + refine (fa_tag In_last false false [] [] false [] [] (lit "{{template ""x"" .}}") (lit "y") ERR_NOTMPL (E0 _ _) _).
      refine (bd_template In_last false false [] (lit "template ""x""") (lit " ") (lit "x") [CDot] false _ _ SB _ _).
      * exists (lit " "), (lit "x"). split; [reflexivity|]. split; [exact SB|]. apply q_char; [discriminate|discriminate|constructor].
      * refine (pt false (lit "template ""x"" ") _ false [] (lit ".") [] bl_nil PD bl_nil _ _); discriminate.
      * intros (b & []).
Qed.
