(** What a template outputs (doc/poundctl.tmpl.5), independently of how it is run. *)
From Coq Require Import Ascii String List ZArith QArith Bool Sorted.
From Verif Require Import Bytes TplModel TevModel.
From Verif Require JsonModel JsonSpec LogModel.
Import ListNotations.
Local Open Scope nat_scope.
Local Open Scope string_scope.
Local Open Scope list_scope.

(** What is assumed of doubles: the integers they represent exactly are converted,
    compared and found to be zero as integers are; nothing is less than something
    that is less than it. *)
Definition exact (z : Z) : Prop := (- 2 ^ 53 <= z <= 2 ^ 53)%Z.
Definition sane {N : JsonModel.numbers} (A : arith N) : Prop :=
  (forall z, exact z -> to_long A (of_long A z) = Some z)
  /\ (forall x y, exact x -> exact y -> ltb A (of_long A x) (of_long A y) = Z.ltb x y)
  /\ (forall x y, ltb A x y = true -> ltb A y x = false)
  /\ leb A (minus_milli A) (of_long A 0) = true /\ leb A (of_long A 0) (milli A) = true.

Section Meaning.
  Variable N : JsonModel.numbers.
  Variable A : arith N.
  Notation jv := (JsonModel.jv N).
  Notation JNull := (JsonModel.JNull N).
  Notation JBool := (JsonModel.JBool N).
  Notation JNumber := (JsonModel.JNumber N).
  Notation JInteger := (JsonModel.JInteger N).
  Notation JString := (JsonModel.JString N).
  Notation JArray := (JsonModel.JArray N).
  Notation JObject := (JsonModel.JObject N).
  Variable printf : list jv -> ev bytes.

  (** Values as the program builds them: the keys of an object are in order (C32) *)
  Inductive formed : jv -> Prop :=
  | fm_null : formed JNull
  | fm_bool : forall b, formed (JBool b)
  | fm_number : forall n, formed (JNumber n)
  | fm_integer : forall n, formed (JInteger n)
  | fm_string : forall s, formed (JString s)
  | fm_array : forall l, Forall formed l -> formed (JArray l)
  | fm_object : forall l, Forall (fun p => formed (snd p)) l -> StronglySorted JsonSpec.precedes (map fst l) ->
      formed (JObject l).

  (** ** Values *)

  (** An integral number *)
  Definition whole (v : jv) (z : Z) : Prop := exact z /\ (v = JNumber (of_long A z) \/ v = JInteger (of_long A z)).
  Definition number (v : jv) (n : JsonModel.dbl N) : Prop := v = JNumber n \/ v = JInteger n.

  (** The empty values, and the others.  (Numbers close to zero are neither: see
      C64_small_refuted.) *)
  Inductive empty : jv -> Prop :=
  | em_null : empty JNull
  | em_false : empty (JBool false)
  | em_zero : forall v, whole v 0 -> empty v
  | em_string : empty (JString [])
  | em_array : empty (JArray [])
  | em_object : empty (JObject []).
  Inductive full : jv -> Prop :=
  | fl_true : full (JBool true)
  | fl_integer : forall z, exact z -> z <> 0%Z -> full (JInteger (of_long A z))
  | fl_number : forall n, leb A n (milli A) = false \/ leb A (minus_milli A) n = false -> full (JNumber n)
  | fl_string : forall s, s <> [] -> full (JString s)
  | fl_array : forall l, l <> [] -> full (JArray l)
  | fl_object : forall l, l <> [] -> full (JObject l).

  (** The order of numbers and of strings.  (An integer and a number that is not
      integral have none: see C64_compare_refuted.) *)
  Inductive order : jv -> jv -> comparison -> Prop :=
  | or_whole : forall a b x y, whole a x -> whole b y -> order a b (x ?= y)%Z
  | or_lt : forall x y, ltb A x y = true -> order (JNumber x) (JNumber y) Lt
  | or_gt : forall x y, ltb A y x = true -> order (JNumber x) (JNumber y) Gt
  | or_eq : forall x y, ltb A x y = false -> ltb A y x = false -> order (JNumber x) (JNumber y) Eq
  | or_same : forall s, order (JString s) (JString s) Eq
  | or_before : forall s t, JsonSpec.precedes s t -> order (JString s) (JString t) Lt
  | or_after : forall s t, JsonSpec.precedes t s -> order (JString s) (JString t) Gt.

  (** An element of an array, counted from zero, and an attribute of an object *)
  Inductive item : jv -> jv -> jv -> Prop :=
  | it_array : forall l k z v, whole k z -> nth_error l (Z.to_nat z) = Some v -> (0 <= z)%Z -> item (JArray l) k v
  | it_object : forall l k v, In (k, v) l -> item (JObject l) (JString k) v.
  Inductive items : jv -> list jv -> jv -> Prop :=
  | its_nil : forall v, items v [] v
  | its_cons : forall v k w ks u, item v k w -> items w ks u -> items v (k :: ks) u.

  Inductive size : jv -> nat -> Prop :=
  | sz_null : size JNull 0
  | sz_true : size (JBool true) 4
  | sz_false : size (JBool false) 0
  | sz_string : forall s, size (JString s) (length s)
  | sz_array : forall l, size (JArray l) (length l)
  | sz_object : forall l, size (JObject l) (length l).

  Definition type_of (v : jv) (t : bytes) : Prop :=
    (v = JNull /\ t = lit "null") \/ (exists b, v = JBool b /\ t = lit "bool")
    \/ (exists n, v = JNumber n /\ t = lit "number") \/ (exists n, v = JInteger n /\ t = lit "integer")
    \/ (exists s, v = JString s /\ t = lit "string") \/ (exists l, v = JArray l /\ t = lit "array")
    \/ (exists l, v = JObject l /\ t = lit "object").

  (** ** Functions *)

  (** The comparisons and the results they are true for *)
  Definition tests : list (bytes * list comparison) :=
    [(lit "eq", [Eq]); (lit "ne", [Lt; Gt]); (lit "lt", [Lt]); (lit "le", [Lt; Eq]); (lit "gt", [Gt]); (lit "ge", [Gt; Eq])].
  Definition operations : list (bytes * (JsonModel.dbl N -> JsonModel.dbl N -> JsonModel.dbl N)) :=
    [(lit "add", plus A); (lit "sub", minus A); (lit "mul", times A)].

  (** [calls f args v]: the value of the function for these arguments.  [and] is the
      first empty argument or the last one, [or] the first one not empty or the last. *)
  Inductive calls : bytes -> list jv -> jv -> Prop :=
  | f_and : forall a v b, Forall full a -> empty v \/ (full v /\ b = []) -> calls (lit "and") (a ++ v :: b) v
  | f_or : forall a v b, Forall empty a -> full v \/ (empty v /\ b = []) -> calls (lit "or") (a ++ v :: b) v
  | f_index : forall v ks w, items v ks w -> calls (lit "index") (v :: ks) w
  | f_len : forall v n, size v n -> calls (lit "len") [v] (JInteger (of_long A (Z.of_nat n)))
  | f_not_empty : forall v, empty v -> calls (lit "not") [v] (JBool true)
  | f_not_full : forall v, full v -> calls (lit "not") [v] (JBool false)
  | f_true : forall f cs a b c, In (f, cs) tests -> order a b c -> In c cs -> calls f [a; b] (JBool true)
  | f_false : forall f cs a b c, In (f, cs) tests -> order a b c -> ~ In c cs -> calls f [a; b] (JBool false)
  | f_even : forall v z, whole v z -> calls (lit "even") [v] (JBool (Z.even z))
  | f_typeof : forall v t, type_of v t -> calls (lit "typeof") [v] (JString t)
  | f_exists : forall l k, In k (map fst l) -> calls (lit "exists") [JObject l; JString k] (JBool true)
  | f_exists_not : forall l k, ~ In k (map fst l) -> calls (lit "exists") [JObject l; JString k] (JBool false)
  | f_operation : forall f op v n args ns, In (f, op) operations -> number v n -> Forall2 number args ns ->
      calls f (v :: args) (JNumber (fold_left op ns n))
  | f_div : forall a b x y, number a x -> number b y -> calls (lit "div") [a; b] (JNumber (over A x y))
  | f_printf : forall args s, printf args = Val s -> calls (lit "printf") args (JString s).

  (** ** Pipelines *)

  (** Variables that are not set are null *)
  Definition variables := bytes -> jv.
  Definition unset : variables := fun _ => JNull.
  Definition set (x : bytes) (v : jv) (V : variables) : variables := fun y => if bytes_eqb y x then v else V y.
  Definition set_if (x : option bytes) (v : jv) (V : variables) : variables :=
    match x with Some x => set x v V | None => V end.

  Definition constant (l : literal) (v : jv) : Prop :=
    match l with LInt z => v = JInteger (of_long A z) | LStr s => v = JString s | LBool b => v = JBool b end.

  (** The attribute of a value; null if there is none *)
  Definition attribute_of (d : jv) (a : bytes) (v : jv) : Prop :=
    (exists l, d = JObject l /\ In (a, v) l)
    \/ (v = JNull /\ forall l w, d = JObject l -> ~ In (a, w) l).

  (** [value d V p v]: the value of a pipeline, with dot [d]; [values]: of the arguments
      of a call; [piped prev]: of the rest of a pipeline, after the value [prev];
      [one prev]: of a single command. *)
  Inductive value : jv -> variables -> list cmd -> jv -> Prop :=
  | va_empty : forall d V, value d V [] JNull
  | va_first : forall d V c p v w, one d V None c v -> piped d V v p w -> value d V (c :: p) w
  with piped : jv -> variables -> jv -> list cmd -> jv -> Prop :=
  | pi_end : forall d V v, piped d V v [] v
  | pi_next : forall d V prev c p v w, one d V (Some prev) c v -> piped d V v p w -> piped d V prev (c :: p) w
  with one : jv -> variables -> option jv -> cmd -> jv -> Prop :=
  | on_arg : forall d V prev l v, constant l v -> one d V prev (CArg l) v
  | on_dot : forall d V prev, one d V prev CDot d
  | on_attr : forall d V prev a v, attribute_of d a v -> one d V prev (CAttr a) v
  | on_var : forall d V prev x, one d V prev (CVar x) (V x)
  | on_group : forall d V prev p v, value d V p v -> one d V prev (CPipe p) v
  | on_with : forall d V prev p q v w, value d V p v -> value v V q w -> one d V prev (CWith p q) w
  | on_call : forall d V f args vs v, values d V args vs -> calls f vs v -> one d V None (CCall f args) v
  | on_call_piped : forall d V prev f args vs v, values d V args vs -> calls f (vs ++ [prev]) v ->
      one d V (Some prev) (CCall f args) v
  with values : jv -> variables -> list (list cmd) -> list jv -> Prop :=
  | vs_nil : forall d V, values d V [] []
  | vs_cons : forall d V p v ps vs, value d V p v -> values d V ps vs -> values d V (p :: ps) (v :: vs).

  (** ** The text of a value *)

  Definition escapes : list (byte * byte) :=
    [("\"%char, "\"%char); (""""%char, """"%char); ("008"%char, "b"%char); ("012"%char, "f"%char);
     ("010"%char, "n"%char); ("013"%char, "r"%char); ("009"%char, "t"%char)].
  Inductive quoted : bytes -> bytes -> Prop :=
  | qu_nil : quoted [] []
  | qu_escape : forall c e s t, In (c, e) escapes -> quoted s t -> quoted (c :: s) ("\"%char :: e :: t)
  | qu_char : forall c s t, ~ In c (map fst escapes) -> quoted s t -> quoted (c :: s) (c :: t).
  Definition separated (ts : list bytes) (t : bytes) : Prop :=
    match ts with [] => t = [] | u :: us => t = u ++ concat (map (fun u => lit ", " ++ u) us) end.
  (** JSON, numbers without a fraction (see C64_fraction_refuted) *)
  Inductive json : jv -> bytes -> Prop :=
  | js_null : json JNull (lit "null")
  | js_true : json (JBool true) (lit "true")
  | js_false : json (JBool false) (lit "false")
  | js_number : forall n, json (JNumber n) (JsonModel.print_num N 0 n)
  | js_integer : forall n, json (JInteger n) (JsonModel.print_int N n)
  | js_string : forall s t, quoted s t -> json (JString s) (lit """" ++ t ++ lit """")
  | js_array : forall l ts t, Forall2 json l ts -> separated ts t -> json (JArray l) (lit "[" ++ t ++ lit "]")
  | js_object : forall l ts t,
      Forall2 (fun p t => exists k u, quoted (fst p) k /\ json (snd p) u /\ t = lit """" ++ k ++ lit """:" ++ u) l ts ->
      separated ts t -> json (JObject l) (lit "{" ++ t ++ lit "}").
  Definition shown (v : jv) (t : bytes) : Prop :=
    (v = JNull /\ t = []) \/ (v = JString t)
    \/ (v <> JNull /\ (forall s, v <> JString s) /\ json v t).

  (** ** Actions *)

  (** How a list of actions ends: at its end, with break or with continue *)
  Inductive ending := Through | Broken | Continued.

  (** The elements of a value, with their keys.  Other values have none. *)
  Fixpoint numbered (i : Z) (l : list jv) : list (jv * jv) :=
    match l with [] => [] | v :: l => (JInteger (of_long A i), v) :: numbered (i + 1) l end.
  Inductive members : jv -> list (jv * jv) -> Prop :=
  | me_array : forall l, members (JArray l) (numbered 0 l)
  | me_object : forall l, members (JObject l) (map (fun p => (JString (fst p), snd p)) l)
  | me_other : forall v, (forall l, v <> JArray l) -> (forall l, v <> JObject l) -> members v [].

  (** Dot and variables within a range: with a variable dot remains *)
  Definition range_dot (kx vx : option bytes) (d v : jv) : jv :=
    match kx, vx with None, None => v | _, _ => d end.
  Definition range_vars (kx vx : option bytes) (V : variables) (k v : jv) : variables := set_if vx v (set_if kx k V).

  Variable T : list (bytes * list act).
  Definition stands_for (n : bytes) (b : list act) : Prop :=
    exists T1 T2, T = T1 ++ (n, b) :: T2 /\ ~ In n (map fst T1).

  (** [runs d V acts out e]: what actions output, with dot [d]; [does]: a single one;
      [loops]: the body of a range for each of the elements *)
  Inductive runs : jv -> variables -> list act -> bytes -> ending -> Prop :=
  | ru_nil : forall d V, runs d V [] [] Through
  | ru_break : forall d V acts, runs d V (ABreak :: acts) [] Broken
  | ru_continue : forall d V acts, runs d V (AContinue :: acts) [] Continued
  | ru_next : forall d V a acts o o' e, does d V a o Through -> runs d V acts o' e -> runs d V (a :: acts) (o ++ o') e
  | ru_leave : forall d V a acts o e, does d V a o e -> e <> Through -> runs d V (a :: acts) o e
  with does : jv -> variables -> act -> bytes -> ending -> Prop :=
  | do_text : forall d V s, does d V (AText s) s Through
  | do_pipe : forall d V p v t, value d V p v -> shown v t -> does d V (APipe p) t Through
  | do_if : forall d V p no yes v o e, value d V p v -> full v -> runs d V yes o e -> does d V (ACond p no yes) o e
  | do_else : forall d V p no yes v o e, value d V p v -> empty v -> runs d V no o e -> does d V (ACond p no yes) o e
  | do_with : forall d V p no yes v o e, value d V p v -> full v -> runs v V yes o e -> does d V (AWith None p no yes) o e
  | do_with_var : forall d V x p no yes v o e, value d V p v -> full v -> runs d (set x v V) yes o e ->
      does d V (AWith (Some x) p no yes) o e
  | do_with_else : forall d V x p no yes v o e, value d V p v -> empty v -> runs d V no o e -> does d V (AWith x p no yes) o e
  | do_range : forall d V kx vx p no yes v l o, value d V p v -> members v l -> l <> [] -> loops d V kx vx yes l o ->
      does d V (ARange kx vx p no yes) o Through
  | do_range_else : forall d V kx vx p no yes v o e, value d V p v -> members v [] -> runs d V no o e ->
      does d V (ARange kx vx p no yes) o e
  | do_template : forall d V n arg v b o, value d V arg v -> stands_for n b -> runs v V b o Through ->
      does d V (ABlock n arg) o Through
  with loops : jv -> variables -> option bytes -> option bytes -> list act -> list (jv * jv) -> bytes -> Prop :=
  | lo_end : forall d V kx vx yes, loops d V kx vx yes [] []
  | lo_next : forall d V kx vx yes k v l o e o', runs (range_dot kx vx d v) (range_vars kx vx V k v) yes o e ->
      e = Through \/ e = Continued -> loops d V kx vx yes l o' -> loops d V kx vx yes ((k, v) :: l) (o ++ o')
  | lo_break : forall d V kx vx yes k v l o, runs (range_dot kx vx d v) (range_vars kx vx V k v) yes o Broken ->
      loops d V kx vx yes ((k, v) :: l) o.

  (** ** Errors *)

  (** Calls that are errors: too few or too many arguments, values that cannot be
      compared, that are no numbers, that have no elements or not this one *)
  Definition of_one : list bytes := map lit ["not"; "len"; "even"; "typeof"].
  Definition of_two : list bytes := map lit ["eq"; "ne"; "lt"; "le"; "gt"; "ge"; "exists"; "div"].
  Definition no_number (v : jv) : Prop := forall n, ~ number v n.
  Inductive kind := Nothing | Truth | Count | Word | Many_values.
  Definition kind_of (v : jv) : kind :=
    match v with
    | JsonModel.JNull _ => Nothing | JsonModel.JBool _ _ => Truth
    | JsonModel.JNumber _ _ | JsonModel.JInteger _ _ => Count
    | JsonModel.JString _ _ => Word | JsonModel.JArray _ _ | JsonModel.JObject _ _ => Many_values
    end.
  Inductive refused : bytes -> list jv -> complaint -> Prop :=
  | rf_none : forall f, In f of_one -> refused f [] Few
  | rf_more : forall f a b l, In f of_one -> refused f (a :: b :: l) Many
  | rf_few : forall f l, In f of_two -> length l < 2 -> refused f l Few
  | rf_many : forall f l, In f of_two -> 2 < length l -> refused f l Many
  | rf_compare : forall f cs a b, In (f, cs) tests -> kind_of a <> kind_of b \/ kind_of a = Many_values ->
      refused f [a; b] Not_comparable
  | rf_no_numbers : forall f op, In (f, op) operations -> refused f [] Few
  | rf_operation : forall f op l v l' ns, In (f, op) operations -> Forall2 number l ns -> no_number v ->
      refused f (l ++ v :: l') Bad_type
  | rf_div : forall a b, no_number a \/ no_number b -> refused (lit "div") [a; b] Bad_type
  | rf_attribute : forall v ks l k ks', items v ks (JObject l) -> ~ In k (map fst l) ->
      refused (lit "index") (v :: ks ++ JString k :: ks') No_attribute
  | rf_index : forall v ks w k ks', items v ks w -> kind_of w <> Many_values ->
      refused (lit "index") (v :: ks ++ k :: ks') Not_indexed
  | rf_printf : forall args c, printf args = Stop c -> refused (lit "printf") args c.

  (** The evaluation of a pipeline meets such a call *)
  Inductive stops : jv -> variables -> list cmd -> complaint -> Prop :=
  | sp_first : forall d V c p x, stops_at d V None c x -> stops d V (c :: p) x
  | sp_later : forall d V c p v x, one d V None c v -> stops_piped d V v p x -> stops d V (c :: p) x
  with stops_piped : jv -> variables -> jv -> list cmd -> complaint -> Prop :=
  | sd_here : forall d V prev c p x, stops_at d V (Some prev) c x -> stops_piped d V prev (c :: p) x
  | sd_later : forall d V prev c p v x, one d V (Some prev) c v -> stops_piped d V v p x -> stops_piped d V prev (c :: p) x
  with stops_at : jv -> variables -> option jv -> cmd -> complaint -> Prop :=
  | sa_group : forall d V prev p x, stops d V p x -> stops_at d V prev (CPipe p) x
  | sa_dot : forall d V prev p q x, stops d V p x -> stops_at d V prev (CWith p q) x
  | sa_body : forall d V prev p q v x, value d V p v -> stops v V q x -> stops_at d V prev (CWith p q) x
  | sa_args : forall d V prev f ps vs p ps' x, values d V ps vs -> stops d V p x -> stops_at d V prev (CCall f (ps ++ p :: ps')) x
  | sa_call : forall d V f args vs x, values d V args vs -> refused f vs x -> stops_at d V None (CCall f args) x
  | sa_call_piped : forall d V prev f args vs x, values d V args vs -> refused f (vs ++ [prev]) x ->
      stops_at d V (Some prev) (CCall f args) x.

  (** [aborts d V acts out c]: what was output before that *)
  Inductive aborts : jv -> variables -> list act -> bytes -> complaint -> Prop :=
  | ab_later : forall d V a acts o o' x, does d V a o Through -> aborts d V acts o' x -> aborts d V (a :: acts) (o ++ o') x
  | ab_here : forall d V a acts o x, aborts_at d V a o x -> aborts d V (a :: acts) o x
  with aborts_at : jv -> variables -> act -> bytes -> complaint -> Prop :=
  | at_pipe : forall d V p x, stops d V p x -> aborts_at d V (APipe p) [] x
  | at_cond : forall d V p no yes x, stops d V p x -> aborts_at d V (ACond p no yes) [] x
  | at_with : forall d V y p no yes x, stops d V p x -> aborts_at d V (AWith y p no yes) [] x
  | at_range : forall d V kx vx p no yes x, stops d V p x -> aborts_at d V (ARange kx vx p no yes) [] x
  | at_arg : forall d V n arg x, stops d V arg x -> aborts_at d V (ABlock n arg) [] x
  | at_if : forall d V p no yes v o x, value d V p v -> full v -> aborts d V yes o x -> aborts_at d V (ACond p no yes) o x
  | at_else : forall d V p no yes v o x, value d V p v -> empty v -> aborts d V no o x -> aborts_at d V (ACond p no yes) o x
  | at_with_body : forall d V p no yes v o x, value d V p v -> full v -> aborts v V yes o x ->
      aborts_at d V (AWith None p no yes) o x
  | at_with_var : forall d V y p no yes v o x, value d V p v -> full v -> aborts d (set y v V) yes o x ->
      aborts_at d V (AWith (Some y) p no yes) o x
  | at_with_else : forall d V y p no yes v o x, value d V p v -> empty v -> aborts d V no o x -> aborts_at d V (AWith y p no yes) o x
  | at_range_body : forall d V kx vx p no yes v l o x, value d V p v -> members v l -> loop_aborts d V kx vx yes l o x ->
      aborts_at d V (ARange kx vx p no yes) o x
  | at_range_else : forall d V kx vx p no yes v o x, value d V p v -> members v [] -> aborts d V no o x ->
      aborts_at d V (ARange kx vx p no yes) o x
  | at_template : forall d V n arg v b o x, value d V arg v -> stands_for n b -> aborts v V b o x ->
      aborts_at d V (ABlock n arg) o x
  with loop_aborts : jv -> variables -> option bytes -> option bytes -> list act -> list (jv * jv) -> bytes -> complaint -> Prop :=
  | la_here : forall d V kx vx yes k v l o x, aborts (range_dot kx vx d v) (range_vars kx vx V k v) yes o x ->
      loop_aborts d V kx vx yes ((k, v) :: l) o x
  | la_later : forall d V kx vx yes k v l o e o' x, runs (range_dot kx vx d v) (range_vars kx vx V k v) yes o e ->
      e = Through \/ e = Continued -> loop_aborts d V kx vx yes l o' x -> loop_aborts d V kx vx yes ((k, v) :: l) (o ++ o') x.
End Meaning.

(** Where continue stands: directly in the body of a range ([direct]), not within
    another action there (see C64_continue_refuted) *)
Inductive placed : bool -> list act -> Prop :=
| pl_nil : forall b, placed b []
| pl_text : forall b s acts, placed b acts -> placed b (AText s :: acts)
| pl_pipe : forall b p acts, placed b acts -> placed b (APipe p :: acts)
| pl_break : forall b acts, placed b acts -> placed b (ABreak :: acts)
| pl_block : forall b n p acts, placed b acts -> placed b (ABlock n p :: acts)
| pl_continue : forall acts, placed true acts -> placed true (AContinue :: acts)
| pl_if : forall b p no yes acts, placed false no -> placed false yes -> placed b acts -> placed b (ACond p no yes :: acts)
| pl_with : forall b x p no yes acts, placed false no -> placed false yes -> placed b acts -> placed b (AWith x p no yes :: acts)
| pl_range : forall b kx vx p no yes acts, placed false no -> placed true yes -> placed b acts ->
    placed b (ARange kx vx p no yes :: acts).

(** The templates that a list of actions uses *)
Inductive uses : list act -> bytes -> Prop :=
| us_later : forall a acts n, uses acts n -> uses (a :: acts) n
| us_block : forall n p acts, uses (ABlock n p :: acts) n
| us_if : forall p no yes acts n, uses no n \/ uses yes n -> uses (ACond p no yes :: acts) n
| us_with : forall x p no yes acts n, uses no n \/ uses yes n -> uses (AWith x p no yes :: acts) n
| us_range : forall kx vx p no yes acts n, uses no n \/ uses yes n -> uses (ARange kx vx p no yes :: acts) n.

(** ** Numbers without errors of rounding, for examples *)

(** The nearest integer, and of two equally near the even one, as printf does *)
Definition nearest (q : Q) : Z :=
  let f := (Qnum q / Zpos (Qden q))%Z in
  let r := (Qnum q mod Zpos (Qden q))%Z in
  if (2 * r <? Zpos (Qden q))%Z then f
  else if (Zpos (Qden q) <? 2 * r)%Z then (f + 1)%Z
  else if Z.even f then f else (f + 1)%Z.
Definition rationals : JsonModel.numbers :=
  JsonModel.mkNumbers Q (fun q => LogModel.fmt_ld (nearest q)) (fun _ q => LogModel.fmt_ld (nearest q)) (fun s => (None, s)).
Definition rational_arith : arith rationals :=
  mkArith rationals inject_Z
    (fun q => let z := Z.quot (Qnum q) (Zpos (Qden q)) in if (Z.abs z <? 2 ^ 63)%Z then Some z else None)
    (fun x y => negb (Qle_bool y x)) Qle_bool Qplus Qminus Qmult Qdiv (1 # 1000) (- 1 # 1000) (fun _ => []).
