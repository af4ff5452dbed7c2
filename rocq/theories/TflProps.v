(** C69: where poundctl finds its templates, and what its commands show in the end. *)
From Coq Require Import Ascii String List ZArith Bool Lia QArith.
From Verif Require Import Bytes StreamModel NumModel TplModel TflModel TflSpec TflProofs TflMoreProofs.
From Verif Require JsonModel JsonSpec TevModel TevSpec TevProps TplSpec TplProps AnsModel AnsMoreProofs CtlModel PtlModel TflTextProofs.
Import ListNotations.
Local Open Scope string_scope.
Local Open Scope list_scope.
Local Open Scope nat_scope.

(** The template file is looked for in the elements of the search path, from left to right: the first that is a
    regular file, or a directory in which a file of that name can be opened, gives it; if none does, none is read. *)
Theorem C69_search_partial : forall fs home path name els, elements path els -> ~ rooted name ->
  (forall f n, find_template_file fs home path name = Found f n <-> first_given fs home name els f n) /\
  (find_template_file fs home path name = Not_found <-> forall e f n, In e els -> ~ gives fs home name e f n).
Proof. intros fs home path name els E NR. destruct (find_searched fs home path name els E NR) as (A & B & _). split; [exact A|exact B]. Qed.
Print Assumptions C69_search_partial.

(** A name that begins with /, ./ or ../ is used as it is. *)
Theorem C69_rooted : forall fs home path name, rooted name ->
  (can_open (fs name) -> find_template_file fs home path name = Found name (fs name)) /\
  (~ can_open (fs name) -> find_template_file fs home path name = Cannot_open).
Proof.
  intros fs home path name R. rewrite (find_rooted fs home path name R). unfold can_open. destruct (fs name); split; intros H; try reflexivity; exfalso.
  - destruct H as [H _]. congruence.
  - destruct H as [_ H]. congruence.
  - apply H; split; discriminate.
  - apply H; split; discriminate.
  - apply H; split; discriminate.
Qed.
Print Assumptions C69_rooted.

(** What is shown in the end: the output of the template of that name in that file, for the value the daemon sent.
    Partial: the file has no null character and breaks are placed in ranges (C64), and see C63, C64 and C68. *)
Theorem C69_list_partial : forall fs home N (A : TevModel.arith N) printf path file f text acts T name b v i pages out,
  TevSpec.sane A -> find_template_file fs home path file = Found f (Regular text) -> text <> [] -> ~ In NUL text ->
  TplSpec.template_text [] text acts T -> TevSpec.stands_for T name b -> (forall n c, In (n, c) T -> TevSpec.placed false c) ->
  JsonSpec.good N 0 v -> ~ In NUL (JsonModel.json_value_format N (JsonModel.mkFormat i 0) v 0) ->
  (Z.of_nat (length (JsonModel.json_value_format N (JsonModel.mkFormat i 0) v 0)) <= INT_MAX)%Z ->
  TevSpec.runs N A printf T (JsonSpec.as_read N v) (TevSpec.unset N) b out TevSpec.Through ->
  exists n, forall fuel, n <= fuel ->
    show fs home N A printf fuel path file name None (AnsModel.sent N pages i v CtlModel.OK) = AnsModel.Exit 0 out.
Proof.
  intros fs home N A printf path file f text acts T name b v i pages out SA F NE NN TT ST PL G NV LV R.
  destruct (read_good fs home path file f text acts T F NE NN TT) as (n1 & R1).
  assert (IB : In (name, b) T) by (destruct ST as (T1 & T2 & -> & _); apply in_or_app; right; left; reflexivity).
  destruct (TevProps.C64_outputs_partial N A printf T _ b out SA PL (PL _ _ IB) (read_formed N v G) R) as (n2 & R2).
  exists (n1 + n2). intros fuel L. unfold show. rewrite (R1 fuel ltac:(lia)). cbn [after_reading]. rewrite (lookup_stands T name b ST). cbn [option_map].
  unfold AnsModel.command_show, AnsModel.sent. rewrite (AnsMoreProofs.read_reply N v i G NV LV). rewrite (R2 fuel ltac:(lia)). reflexivity.
Qed.
Print Assumptions C69_list_partial.

(** If running it ends with a message, the exit status is 1, and what comes before was output. *)
Theorem C69_stops_partial : forall fs home N (A : TevModel.arith N) printf path file f text acts T name b v i pages out x,
  TevSpec.sane A -> find_template_file fs home path file = Found f (Regular text) -> text <> [] -> ~ In NUL text ->
  TplSpec.template_text [] text acts T -> TevSpec.stands_for T name b -> (forall n c, In (n, c) T -> TevSpec.placed false c) ->
  JsonSpec.good N 0 v -> ~ In NUL (JsonModel.json_value_format N (JsonModel.mkFormat i 0) v 0) ->
  (Z.of_nat (length (JsonModel.json_value_format N (JsonModel.mkFormat i 0) v 0)) <= INT_MAX)%Z ->
  TevSpec.aborts N A printf T (JsonSpec.as_read N v) (TevSpec.unset N) b out x -> x <> TevModel.Assertion ->
  exists n, forall fuel, n <= fuel ->
    show fs home N A printf fuel path file name None (AnsModel.sent N pages i v CtlModel.OK) = AnsModel.Exit 1 out.
Proof.
  intros fs home N A printf path file f text acts T name b v i pages out x SA F NE NN TT ST PL G NV LV R NX.
  destruct (read_good fs home path file f text acts T F NE NN TT) as (n1 & R1).
  assert (IB : In (name, b) T) by (destruct ST as (T1 & T2 & -> & _); apply in_or_app; right; left; reflexivity).
  destruct (TevProps.C64_errors_partial N A printf T _ b out x SA PL (PL _ _ IB) (read_formed N v G) R) as (n2 & R2).
  exists (n1 + n2). intros fuel L. unfold show. rewrite (R1 fuel ltac:(lia)). cbn [after_reading]. rewrite (lookup_stands T name b ST). cbn [option_map].
  unfold AnsModel.command_show, AnsModel.sent. rewrite (AnsMoreProofs.read_reply N v i G NV LV). rewrite (R2 fuel ltac:(lia)). destruct x; try reflexivity. congruence.
Qed.
Print Assumptions C69_stops_partial.

(** A template that is not defined is an error, a file with a fault too.  The message names a line and a column, those
    of a character of the file. *)
Theorem C69_undefined : forall fs home N (A : TevModel.arith N) printf path file name f text acts T s,
  (find_template_file fs home path file = Not_found \/
   (find_template_file fs home path file = Found f (Regular text) /\ text <> [] /\ ~ In NUL text /\ TplSpec.template_text [] text acts T /\ ~ In name (map fst T))) ->
  forall v, AnsModel.read_response N s = AnsModel.Got v ->
  exists n, forall fuel, n <= fuel -> show fs home N A printf fuel path file name None s = AnsModel.Exit 1 [].
Proof.
  intros fs home N A printf path file name f text acts T s [NF|(F & NE & NN & TT & NI)] v RV.
  - exists 0. intros fuel _. unfold show, read_template. rewrite NF. cbn [after_reading template_lookup find option_map]. unfold AnsModel.command_show. rewrite RV. reflexivity.
  - destruct (read_good fs home path file f text acts T F NE NN TT) as (n & R). exists n. intros fuel L. unfold show. rewrite (R fuel L). cbn [after_reading].
    rewrite (lookup_none T name NI). unfold AnsModel.command_show. rewrite RV. reflexivity.
Qed.
Print Assumptions C69_undefined.
Theorem C69_fault_partial : forall fs home path file f text e, find_template_file fs home path file = Found f (Regular text) -> text <> [] -> ~ In NUL text ->
  TplSpec.faulty TplSpec.Outside false false [] text e ->
  exists n line col, (forall fuel, n <= fuel -> read_template fs home fuel path file = Faulty e line col) /\ exists a z, text = a ++ z /\ is_at a line col.
Proof. exact read_bad. Qed.
Print Assumptions C69_fault_partial.
Theorem C69_position : forall fs home fuel path file e line col, read_template fs home fuel path file = Faulty e line col ->
  exists f text a z, find_template_file fs home path file = Found f (Regular text) /\ text = a ++ z /\ is_at a line col.
Proof. exact faulty_at. Qed.
Print Assumptions C69_position.

(** *** Examples *)
Definition sample_fs (n : bytes) : node :=
  if bytes_eqb n (lit "/root/t") then Directory else if bytes_eqb n (lit "/root/t/poundctl.tmpl") then Regular (lit "{{define ""default""}}x{{end}}")
  else if bytes_eqb n (lit "/etc/x") then Special else if bytes_eqb n (lit "/usr/f") then Regular (lit "f") else if bytes_eqb n (lit "/usr") then Directory else Missing.
Example C69_case : elements (lit "/none::/etc/x:/usr:~t:/usr/f") [lit "/none"; []; lit "/etc/x"; lit "/usr"; lit "~t"; lit "/usr/f"] /\
  first_given sample_fs (lit "/root") (lit "poundctl.tmpl") [lit "/none"; []; lit "/etc/x"; lit "/usr"; lit "~t"; lit "/usr/f"] (lit "/root/t/poundctl.tmpl") (Regular (lit "{{define ""default""}}x{{end}}")).
Proof.
  assert (E : elements (lit "/none::/etc/x:/usr:~t:/usr/f") [lit "/none"; []; lit "/etc/x"; lit "/usr"; lit "~t"; lit "/usr/f"]).
  { refine (one_more (lit "/none") _ _ _ (one_more [] _ _ _ (one_more (lit "/etc/x") _ _ _ (one_more (lit "/usr") _ _ _ (one_more (lit "~t") _ _ _ (last_one (lit "/usr/f") _)))))); cbn; intuition discriminate. }
  split; [exact E|]. apply (C69_search_partial sample_fs (lit "/root") _ (lit "poundctl.tmpl") _ E).
  - intros (r & [X|[X|X]]); discriminate X.
  - vm_compute. reflexivity.
Qed.
Example C69_case2 : forall N A printf pages, show sample_fs (lit "/root") N A printf 20 (lit "/none::/etc/x:/usr:~t:/usr/f") (lit "poundctl.tmpl") (lit "default") None
    (AnsModel.sent N pages 0 (JsonModel.JBool N true) CtlModel.OK) = AnsModel.Exit 0 (lit "x").
Proof.
  intros N A printf pages. unfold show. change (read_template sample_fs (lit "/root") 20 (lit "/none::/etc/x:/usr:~t:/usr/f") (lit "poundctl.tmpl")) with (Templates [(lit "default", [AText (lit "x")])]).
  cbn [after_reading]. change (template_lookup (lit "default") [(lit "default", [AText (lit "x")])]) with (Some [AText (lit "x")]). cbn [option_map].
  unfold AnsModel.command_show, AnsModel.sent. rewrite (AnsMoreProofs.read_reply N (JsonModel.JBool N true) 0); [reflexivity|constructor|cbn; intuition discriminate|cbn; unfold INT_MAX; lia].
Qed.
Example C69_case3 : read_template (fun _ => Regular (lit "a" ++ [LF] ++ lit "bc{{end}}")) [] 30 [] (lit "./x") = Faulty ERR_BADTOK 2 7.
Proof. vm_compute. reflexivity. Qed.

(** Refuted: that a template file requested by option or TemplateFile is used verbatim and the search path not searched
    (poundctl.8).  If some element of the path is a regular file, such as the default ~/.poundctl.tmpl, it may be read instead, whatever the name. *)
Theorem C69_verbatim_refuted : forall fs home el path name t, stands_for home el (expand home el) -> ~ In ":"%char el -> fs (expand home el) = Regular t ->
  ~ rooted name -> forall n, fs name = n -> find_template_file fs home (el ++ ":"%char :: path) name = Found (expand home el) (Regular t).
Proof.
  intros fs home el path name t S NI E NR n _. assert (X : exists els, elements path els).
  { clear. remember (length path) as k eqn:K. assert (L : length path <= k) by lia. clear K. revert path L. induction k as [|k IH]; intros path L.
    - destruct path; [|cbn in L; lia]. exists [[]]. apply last_one. intros [].
    - pose proof (span_app not_colon path) as SA. pose proof (span_fst_all not_colon path) as SF. pose proof (span_snd_head not_colon path) as SH.
      destruct (span not_colon path) as [w r]. cbn [fst snd] in *.
      assert (NW : ~ In ":"%char w) by (intros I; rewrite forallb_forall in SF; apply SF in I; discriminate I).
      destruct r as [|c r]; [rewrite app_nil_r in SA; subst w; exists [path]; apply last_one, NW|].
      specialize (SH c r eq_refl). unfold not_colon in SH. apply negb_false_iff in SH. apply beq_eq in SH. subst c path.
      destruct (IH r) as (els & EL); [rewrite app_length in L; cbn [length] in L; lia|]. exists (w :: els). apply one_more; assumption. }
  destruct X as (els & EL). apply (C69_search_partial fs home _ name (el :: els) (one_more el path els NI EL) NR).
  exists [], el, els. split; [reflexivity|]. split; [intros e g m []|]. apply the_file; assumption.
Qed.
Print Assumptions C69_verbatim_refuted.

(** Refuted: that commands which show nothing by a template do not depend on the file.  A fault in it ends also disable, off, enable and on,
    and JSON output, before anything is asked. *)
Theorem C69_unneeded_refuted : forall fs home N (A : TevModel.arith N) printf path file f text e json name s,
  find_template_file fs home path file = Found f (Regular text) -> text <> [] -> ~ In NUL text -> TplSpec.faulty TplSpec.Outside false false [] text e ->
  exists n, forall fuel, n <= fuel -> switch fs home N fuel path file json s = AnsModel.Exit 1 [] /\ show fs home N A printf fuel path file name json s = AnsModel.Exit 1 [].
Proof.
  intros fs home N A printf path file f text e json name s F NE NN TF. destruct (read_bad fs home path file f text e F NE NN TF) as (n & line & col & R & _).
  exists n. intros fuel L. unfold switch, show. rewrite (R fuel L). split; reflexivity.
Qed.
Print Assumptions C69_unneeded_refuted.

(** Refuted: that an empty file, which defines no template, is read as one.  It is taken for an error of reading. *)
Theorem C69_empty_refuted : forall fs home fuel path file f, find_template_file fs home path file = Found f (Regular []) ->
  TplSpec.template_text [] [] [] [] /\ read_template fs home fuel path file = Unreadable.
Proof.
  intros fs home fuel path file f F. split; [|unfold read_template; rewrite F; reflexivity].
  apply (TplSpec.bo_end false false [] [] TplSpec.At_end []); [|exists []; split; reflexivity]. intros (x & y & E). destruct x; discriminate E.
Qed.
Print Assumptions C69_empty_refuted.

(** Refuted: that option -T sets the template file and -t the name of the template (poundctl.8, SYNOPSIS and OPTIONS): it
    is the other way round. *)
Theorem C69_options_refuted : forall s file name, exists s', PtlModel.options s [PtlModel.OptT file; PtlModel.Optt name] = Some s' /\
  PtlModel.tmpl_file s' = name /\ PtlModel.tmpl_name s' = file.
Proof. intros s file name. eexists. split; [reflexivity|]. split; reflexivity. Qed.
Print Assumptions C69_options_refuted.
