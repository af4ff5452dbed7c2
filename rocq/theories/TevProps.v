(** C64: what running an output template outputs. *)
From Coq Require Import Ascii String List ZArith QArith Bool Lia Sorted.
From Verif Require Import Bytes TplModel TevModel TevSpec TevProofs TevRunProofs TevErrProofs TevEndProofs TevFindProofs.
From Verif Require JsonModel.
Import ListNotations.
Local Open Scope nat_scope.
Local Open Scope string_scope.
Local Open Scope list_scope.

(** Every template outputs, for every value it is given, what the manual says it does: the texts, the values of the
    pipelines, the branches of if and with, the elements of range with dot or the variables set, and the templates it
    uses, to any depth; whatever the arithmetic of doubles and printf.  Partial: continue stands directly in the body of
    a range, no break ends more than that (the refuted theorems below), and functions are given arguments that the
    manual provides for. *)
Theorem C64_outputs_partial : forall N (A : arith N) printf T d acts out, sane A ->
  (forall n b, In (n, b) T -> placed false b) -> placed false acts -> formed N d ->
  runs N A printf T d (unset N) acts out Through ->
  exists n, forall fuel, n <= fuel -> template_run N A printf T fuel d acts = Ran out false.
Proof. intros N A printf T d acts out S B P F H. exact (template_runs N A S printf T B d acts out H P F). Qed.
Print Assumptions C64_outputs_partial.

(** If an argument is missing, there is one too many, values cannot be compared, are not numbers or have no such
    element, then the program exits with a message that says which of these it was, and it has output what
    comes before.  Partial: as above. *)
Theorem C64_errors_partial : forall N (A : arith N) printf T d acts out x, sane A ->
  (forall n b, In (n, b) T -> placed false b) -> placed false acts -> formed N d ->
  aborts N A printf T d (unset N) acts out x ->
  exists n, forall fuel, n <= fuel -> template_run N A printf T fuel d acts = Exited out x.
Proof. intros N A printf T d acts out x S B P F H. exact (template_aborts N A S printf T B d acts out x H P F). Qed.
Print Assumptions C64_errors_partial.

(** What a template means is not ambiguous, and it is never an error as well. *)
Theorem C64_unambiguous : forall N (A : arith N) printf T d acts out, sane A ->
  (forall n b, In (n, b) T -> placed false b) -> placed false acts -> formed N d ->
  runs N A printf T d (unset N) acts out Through ->
  (forall out', runs N A printf T d (unset N) acts out' Through -> out' = out)
  /\ (forall out' x, ~ aborts N A printf T d (unset N) acts out' x).
Proof.
  intros N A printf T d acts out S B P F H. destruct (template_runs N A S printf T B d acts out H P F) as (n & E). split.
  - intros out' H'. destruct (template_runs N A S printf T B d acts out' H' P F) as (n' & E').
    specialize (E (n + n') ltac:(lia)). specialize (E' (n + n') ltac:(lia)). rewrite E in E'. injection E' as ->. reflexivity.
  - intros out' x H'. destruct (template_aborts N A S printf T B d acts out' x H' P F) as (n' & E').
    specialize (E (n + n') ltac:(lia)). specialize (E' (n + n') ltac:(lia)). rewrite E in E'. discriminate.
Qed.
Print Assumptions C64_unambiguous.

(** Running any template comes to an end, with one result, if no template uses itself, directly or through others
    (the rank of a template is greater than of those it uses).  Partial: see C64_ends_refuted. *)
Theorem C64_ends_partial : forall N (A : arith N) printf T (rank : bytes -> nat),
  (forall args, printf args <> Deep) -> (forall n b m, In (n, b) T -> uses b m -> rank m < rank n) ->
  forall d acts, exists n r, r <> RDeep /\ forall fuel, n <= fuel -> template_run N A printf T fuel d acts = r.
Proof. intros N A printf T rank HP R d acts. exact (run_finishes N A printf HP T rank R acts (mkEnv N d JsonModel.json_new_object)). Qed.
Print Assumptions C64_ends_partial.

(** A template may use itself, if it is defined twice, and then running it never ends, whatever the value. *)
Theorem C64_ends_refuted :
  (forall fuel, template_parse (20 + fuel) [] (lit "{{define ""a""}}{{end}}{{define ""a""}}{{template ""a"" .}}{{end}}{{template ""a"" .}}")
    = Ret (POk [ABlock (lit "a") [CDot]] [(lit "a", [ABlock (lit "a") [CDot]])]))
  /\ forall N (A : arith N) printf d fuel,
    template_run N A printf [(lit "a", [ABlock (lit "a") [CDot]])] fuel d [ABlock (lit "a") [CDot]] = RDeep.
Proof. split; [reflexivity|]. intros N A printf d fuel. apply circle. Qed.
Print Assumptions C64_ends_refuted.

(** continue within an if does not stop the iteration: only the rest of the if is left out, and what follows it
    is output. *)
Theorem C64_continue_refuted :
  (forall fuel, template_parse (30 + fuel) [] (lit "{{range .}}{{if .}}a{{continue}}b{{end}}c{{end}}")
    = Ret (POk [ARange None None [CDot] [] [ACond [CDot] [] [AText (lit "a"); AContinue; AText (lit "b")]; AText (lit "c")]] []))
  /\ forall N (A : arith N) printf T v a b c fuel, sane A -> full N A v ->
    let acts := [ARange None None [CDot] [] [ACond [CDot] [] [AText a; AContinue; AText b]; AText c]] in
    runs N A printf T (JsonModel.JArray N [v]) (unset N) acts a Through
    /\ template_run N A printf T (9 + fuel) (JsonModel.JArray N [v]) acts = Ran (a ++ c) false.
Proof.
  split; [reflexivity|]. intros N A printf T v a b c fuel S F. split.
  - exact (continue_means N A printf T v a b c F).
  - exact (continue_runs_on N A S printf T fuel v a b c F).
Qed.
Print Assumptions C64_continue_refuted.

(** break where a range has no elements ends not the range, but everything: whatever follows is not output. *)
Theorem C64_break_refuted : forall N (A : arith N) printf T a yes acts fuel,
  template_run N A printf T (9 + fuel) (JsonModel.JArray N []) (ARange None None [CDot] [AText a; ABreak] yes :: acts) = Ran a true.
Proof. intros N A printf T a yes acts fuel. apply else_break. Qed.
Print Assumptions C64_break_refuted.

(** A number that is not zero is empty if it is between -0.001 and 0.001. *)
Theorem C64_small_refuted : forall printf T fuel,
  template_run rationals rational_arith printf T (9 + fuel) (JsonModel.JNumber rationals (1 # 2000))
    [ACond [CDot] [AText (lit "zero")] [AText (lit "not zero")]] = Ran (lit "zero") false.
Proof. reflexivity. Qed.
Print Assumptions C64_small_refuted.

(** A number and an integer are compared without the fraction: 3/2 equals 1 and is not greater. *)
Theorem C64_compare_refuted : forall printf,
  let call := call rationals rational_arith printf in
  let number := JsonModel.JNumber rationals (3 # 2) in
  let integer := literal_value rationals rational_arith (LInt 1) in
  call (lit "eq") [number; integer] = Val (JsonModel.JBool rationals true)
  /\ call (lit "gt") [number; integer] = Val (JsonModel.JBool rationals false).
Proof. split; reflexivity. Qed.
Print Assumptions C64_compare_refuted.

(** true equals false. *)
Theorem C64_bool_refuted : forall N (A : arith N) printf a b,
  call N A printf (lit "eq") [JsonModel.JBool N a; JsonModel.JBool N b] = Val (JsonModel.JBool N true).
Proof. reflexivity. Qed.
Print Assumptions C64_bool_refuted.

(** The value of [and] and [or] is not true or false, but one of the arguments. *)
Theorem C64_and_refuted : forall printf T fuel d,
  template_run rationals rational_arith printf T (9 + fuel) d [APipe [CCall (lit "and") [[CArg (LInt 1)]; [CArg (LInt 2)]]]] = Ran (lit "2") false.
Proof. reflexivity. Qed.
Print Assumptions C64_and_refuted.

(** Indexing an array by a number beyond its end is neither an error nor null: the value is the array. *)
Theorem C64_index_refuted : forall N (A : arith N) printf l z, sane A -> exact z -> (Z.of_nat (length l) <= z)%Z ->
  call N A printf (lit "index") [JsonModel.JArray N l; JsonModel.JInteger N (of_long A z)] = Val (JsonModel.JArray N l).
Proof. intros N A printf l z S E L. exact (index_beyond N A S printf l z E L). Qed.
Print Assumptions C64_index_refuted.

(** [and], [or] and [index] without arguments are read, but then a pointer is followed that is null or
    not set. *)
Theorem C64_no_arguments_refuted : forall f, In f [lit "and"; lit "or"; lit "index"] ->
  (forall fuel, template_parse (20 + fuel) [] (lit "{{" ++ f ++ lit "}}") = Ret (POk [APipe [CCall f []]] []))
  /\ forall N (A : arith N) printf T d fuel, template_run N A printf T (9 + fuel) d [APipe [CCall f []]] = RUndef.
Proof. intros f H. destruct H as [<-|[<-|[<-|[]]]]; split; reflexivity. Qed.
Print Assumptions C64_no_arguments_refuted.

(** A template used without an argument, if text follows, makes the program follow a null pointer. *)
Theorem C64_template_refuted : forall N (A : arith N) printf d fuel, let T := [(lit "a", [AText (lit "x")])] in
  template_parse (6 + fuel) T (lit "{{template ""a""}}y") = Ret (POk [ABlock (lit "a") []; AText (lit "y"); ANull] T)
  /\ template_run N A printf T (9 + fuel) d [ABlock (lit "a") []; AText (lit "y"); ANull] = RUndef.
Proof. split; reflexivity. Qed.
Print Assumptions C64_template_refuted.

(** Numbers are output without a fraction: 3/2 is output as 2, and so is div 3 2. *)
Theorem C64_fraction_refuted : forall printf T fuel d,
  let run := template_run rationals rational_arith printf T (9 + fuel) in
  run (JsonModel.JNumber rationals (3 # 2)) [APipe [CDot]] = Ran (lit "2") false
  /\ run d [APipe [CCall (lit "div") [[CArg (LInt 3)]; [CArg (LInt 2)]]]] = Ran (lit "2") false.
Proof. split; reflexivity. Qed.
Print Assumptions C64_fraction_refuted.

(** The scope of a variable does not end with the action that declares it: it can be seen in a template
    that is used there, though defined elsewhere. *)
Theorem C64_scope_refuted : forall printf d s fuel, s <> [] ->
  let T := [(lit "a", [APipe [CVar (lit "x")]])] in
  template_run rationals rational_arith printf T (9 + fuel) d [AWith (Some (lit "x")) [CArg (LStr s)] [] [ABlock (lit "a") [CDot]]] = Ran s false.
Proof. intros printf d [|c s] fuel H; [congruence|]. cbn. rewrite !app_nil_r. reflexivity. Qed.
Print Assumptions C64_scope_refuted.

(** A template that meets the hypotheses: a range with variables over an object, an if, a template. *)
Definition sample : JsonModel.jv rationals :=
  JsonModel.JObject rationals [(lit "a", JsonModel.JInteger rationals (inject_Z 1)); (lit "b", JsonModel.JString rationals (lit "z"))].
Example C64_sample : sane rational_arith /\ formed rationals sample
  /\ placed false [ARange (Some (lit "k")) (Some (lit "v")) [CDot] [] [ABlock (lit "t") [CVar (lit "v")]; AContinue]; AText (lit "!")]
  /\ runs rationals rational_arith (fun _ => Stop Few) [(lit "t", [APipe [CVar (lit "k")]; APipe [CDot]])] sample (unset rationals)
      [ARange (Some (lit "k")) (Some (lit "v")) [CDot] [] [ABlock (lit "t") [CVar (lit "v")]; AContinue]; AText (lit "!")] (lit "a1bz!") Through.
Proof.
  split; [exact rationals_sane|]. split.
  { apply fm_object; [repeat constructor|]. cbn [map fst]. constructor; [constructor; [constructor|constructor]|constructor; [|constructor]].
    right. exists [], "a"%char, "b"%char, [], []. split; [reflexivity|]. split; [reflexivity|]. reflexivity. }
  split; [repeat constructor|].
  change (lit "a1bz!") with (lit "a1bz" ++ lit "!"). apply ru_next; [|change (lit "!") with (lit "!" ++ []); apply ru_next; [apply do_text|apply ru_nil]].
  eapply do_range; [eapply va_first; [apply on_dot|apply pi_end]|apply me_object|discriminate|].
  assert (B : forall d V, value rationals rational_arith (fun _ => Stop Few) d V [CVar (lit "v")] (V (lit "v"))).
  { intros d V. eapply va_first; [apply on_var|apply pi_end]. }
  assert (K : forall d V, value rationals rational_arith (fun _ => Stop Few) d V [CVar (lit "k")] (V (lit "k"))).
  { intros d V. eapply va_first; [apply on_var|apply pi_end]. }
  assert (D : forall d V, value rationals rational_arith (fun _ => Stop Few) d V [CDot] d).
  { intros d V. eapply va_first; [apply on_dot|apply pi_end]. }
  cbn [map fst snd sample]. change (lit "a1bz") with (lit "a1" ++ lit "bz" ++ []).
  apply lo_next with (e := Continued); [|right; reflexivity|apply lo_next with (e := Continued); [|right; reflexivity|apply lo_end]].
  - change (lit "a1") with (lit "a1" ++ []). apply ru_next; [|apply ru_continue].
    eapply do_template; [apply B|exists [], []; split; [reflexivity|intros []]|].
    change (lit "a1") with (lit "a" ++ lit "1" ++ []). apply ru_next; [|apply ru_next; [|apply ru_nil]].
    + eapply do_pipe; [apply K|]. right. left. reflexivity.
    + eapply do_pipe; [apply D|]. right. right. split; [discriminate|]. split; [discriminate|]. apply (js_integer rationals (inject_Z 1)).
  - change (lit "bz") with (lit "bz" ++ []). apply ru_next; [|apply ru_continue].
    eapply do_template; [apply B|exists [], []; split; [reflexivity|intros []]|].
    change (lit "bz") with (lit "b" ++ lit "z" ++ []). apply ru_next; [|apply ru_next; [|apply ru_nil]].
    + eapply do_pipe; [apply K|]. right. left. reflexivity.
    + eapply do_pipe; [apply D|]. right. left. reflexivity.
Qed.

(** ... and one with an error: eq of a number and a string, after some text. *)
Example C64_error :
  aborts rationals rational_arith (fun _ => Stop Few) [] sample (unset rationals)
    [AText (lit "x"); APipe [CAttr (lit "a"); CCall (lit "eq") [[CArg (LStr (lit "b"))]]]; AText (lit "y")] (lit "x") Not_comparable.
Proof.
  change (lit "x") with (lit "x" ++ []) at 2. apply ab_later; [apply do_text|]. apply ab_here. apply at_pipe.
  apply sp_later with (v := JsonModel.JInteger rationals (inject_Z 1)).
  - apply on_attr. left. eexists. split; [reflexivity|]. left. reflexivity.
  - apply sd_here. eapply sa_call_piped.
    + apply vs_cons; [eapply va_first; [apply on_arg; reflexivity|apply pi_end]|apply vs_nil].
    + apply rf_compare with (cs := [Eq]); [left; reflexivity|]. left. discriminate.
Qed.

(** ... and templates that do not use themselves: one uses the other. *)
Example C64_rank : let T := [(lit "bb", [ACond [CDot] [] [ABlock (lit "a") [CDot]]]); (lit "a", [AText (lit "x")])] in
  forall n b m, In (n, b) T -> uses b m -> length m < length n.
Proof.
  intros T n b m I U. destruct I as [E|[E|[]]]; injection E as <- <-.
  - inversion U as [a acts k V| |p no yes acts k V| |]; subst; [inversion V|].
    destruct V as [V|V]; inversion V as [a acts k W|k p' acts| | |]; subst; [inversion W|cbn; lia].
  - inversion U as [a acts k V| | | |]; subst. inversion V.
Qed.
