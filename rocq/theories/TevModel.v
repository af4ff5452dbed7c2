(** Model of src/tmpl.c, second part: how poundctl runs a template that it has read.
    Definitions only.  Memory allocation does not fail. *)
From Coq Require Import Ascii String List ZArith Bool.
From Verif Require Import Bytes TplModel.
From Verif Require JsonModel NumModel LogModel.
Import ListNotations.
Local Open Scope nat_scope.
Local Open Scope string_scope.
Local Open Scope list_scope.

(** Arithmetic of doubles is a parameter, as their texts are (JsonModel.numbers):
    conversion of a long to a double and back (None: the value does not fit and the
    behaviour is undefined), comparison, the four operations, the constants of
    src/tmpl.c 345 and the format %g (466). *)
Record arith (N : JsonModel.numbers) := mkArith {
  of_long : Z -> JsonModel.dbl N;
  to_long : JsonModel.dbl N -> option Z;
  ltb : JsonModel.dbl N -> JsonModel.dbl N -> bool;
  leb : JsonModel.dbl N -> JsonModel.dbl N -> bool;
  plus : JsonModel.dbl N -> JsonModel.dbl N -> JsonModel.dbl N;
  minus : JsonModel.dbl N -> JsonModel.dbl N -> JsonModel.dbl N;
  times : JsonModel.dbl N -> JsonModel.dbl N -> JsonModel.dbl N;
  over : JsonModel.dbl N -> JsonModel.dbl N -> JsonModel.dbl N;
  milli : JsonModel.dbl N;
  minus_milli : JsonModel.dbl N;
  print_g : JsonModel.dbl N -> bytes
}.
Arguments of_long {N}.
Arguments to_long {N}.
Arguments ltb {N}.
Arguments leb {N}.
Arguments plus {N}.
Arguments minus {N}.
Arguments times {N}.
Arguments over {N}.
Arguments milli {N}.
Arguments minus_milli {N}.
Arguments print_g {N}.

(** Why the program exits: too few or too many arguments, types that cannot be
    compared, an argument of a bad type, an attribute that does not exist, a value
    that cannot be indexed; in printf: the format is no string, it requests more
    arguments than there are or one of another type, an assertion fails *)
Inductive complaint := Few | Many | Not_comparable | Bad_type | No_attribute | Not_indexed
  | Bad_format | Requested | Mismatch | Assertion.

(** The result of an evaluation: a value, exit with a message, undefined behaviour
    (a pointer that is null or not set, a conversion that does not fit), or the
    recursion of the model is cut off. *)
Inductive ev (A : Type) := Val (a : A) | Stop (c : complaint) | Undef | Deep.
Arguments Val {A}.
Arguments Stop {A}.
Arguments Undef {A}.
Arguments Deep {A}.
Definition andthen {A B : Type} (o : ev A) (k : A -> ev B) : ev B :=
  match o with Val a => k a | Stop c => Stop c | Undef => Undef | Deep => Deep end.
Notation "'let!' x <- o ; k" := (andthen o (fun x => k)) (at level 200, x pattern, o at level 100, k at level 200).

Section Eval.
  Variable N : JsonModel.numbers.
  Variable A : arith N.
  Notation jv := (JsonModel.jv N).
  Notation JNull := (JsonModel.JNull N).
  Notation JBool := (JsonModel.JBool N).
  Notation JNumber := (JsonModel.JNumber N).
  Notation JInteger := (JsonModel.JInteger N).
  Notation JString := (JsonModel.JString N).
  Notation JArray := (JsonModel.JArray N).
  Notation JObject := (JsonModel.JObject N).

  (** printf (src/tmpl.c 854-1490) is a parameter here; TfmModel.v *)
  Variable printf : list jv -> ev bytes.

  (** The pairs of an object are in a list, their number in pair_count *)
  Definition object_of (l : list (bytes * jv)) : JsonModel.object jv := JsonModel.mkObj l (length l).

  (** json_object_get (src/json.c 726-744) *)
  Definition attribute (l : list (bytes * jv)) (name : bytes) : ev (option jv) :=
    match JsonModel.json_object_get (object_of l) name with Some r => Val r | None => Undef end.

  (** A conversion to long *)
  Definition long (n : JsonModel.dbl N) : ev Z := match to_long A n with Some z => Val z | None => Undef end.

  (** src/tmpl.c 334-361 *)
  Definition is_empty (v : jv) : ev bool :=
    match v with
    | JsonModel.JNull _ => Val true
    | JsonModel.JBool _ b => Val (negb b)
    | JsonModel.JNumber _ n => Val (leb A (minus_milli A) n && leb A n (milli A))
    | JsonModel.JInteger _ n => let! z <- long n; Val (z =? 0)%Z
    | JsonModel.JString _ s => Val (match s with [] => true | _ => false end)
    | JsonModel.JArray _ l => Val (match l with [] => true | _ => false end)
    | JsonModel.JObject _ l => Val (Nat.eqb (length l) 0)
    end.

  (** src/tmpl.c 376-389 and 391-405 *)
  Definition single_arg (args : list jv) : ev jv :=
    match args with [] => Stop Few | [a] => Val a | _ :: _ :: _ => Stop Many end.
  Definition two_args (args : list jv) : ev (jv * jv) :=
    match args with [] | [_] => Stop Few | [a; b] => Val (a, b) | _ :: _ :: _ :: _ => Stop Many end.

  (** src/tmpl.c 407-420; without arguments [res] is not set *)
  Fixpoint func_and (args : list jv) : ev jv :=
    match args with
    | [] => Undef
    | [a] => let! e <- is_empty a; Val a
    | a :: args => let! e <- is_empty a; if e then Val a else func_and args
    end.
  (** src/tmpl.c 422-435 *)
  Fixpoint func_or (args : list jv) : ev jv :=
    match args with
    | [] => Undef
    | [a] => let! e <- is_empty a; Val a
    | a :: args => let! e <- is_empty a; if negb e then Val a else func_or args
    end.

  (** src/tmpl.c 437-475: the argument of json_new_integer, then converted to long
      and kept as a double.  The value of strtol is at most LONG_MAX. *)
  Definition json_cast_to_integer (v : jv) : ev (JsonModel.dbl N) :=
    let! n <- match v with
              | JsonModel.JNull _ => Val (of_long A 0)
              | JsonModel.JBool _ b => Val (of_long A (if b then 1 else 0))
              | JsonModel.JNumber _ n | JsonModel.JInteger _ n => Val n
              | JsonModel.JString _ s =>
                  let '(range, z, rest) := NumModel.strtol s 10 in
                  Val (of_long A (if (range || match rest with [] => false | _ => true end)%bool then 0%Z else z))
              | JsonModel.JArray _ l => Val (of_long A (Z.of_nat (length l)))
              | JsonModel.JObject _ l => Val (of_long A (Z.of_nat (length l)))
              end;
    let! z <- long n; Val (of_long A z).

  (** src/tmpl.c 477-524.  For an array the number is read from the wrong member of
      the union. *)
  Definition json_cast_to_string (v : jv) : ev bytes :=
    match v with
    | JsonModel.JNull _ => Val []
    | JsonModel.JBool _ b => Val (if b then lit "true" else [])
    | JsonModel.JNumber _ n => Val (print_g A n)
    | JsonModel.JInteger _ n => let! z <- long n; Val (LogModel.fmt_ld z)
    | JsonModel.JString _ s => Val s
    | JsonModel.JArray _ _ => Undef
    | JsonModel.JObject _ l => Val (LogModel.fmt_ld (Z.of_nat (length l)))
    end.

  (** src/tmpl.c 534-556.  json_array_get leaves [v] as it is where there is no such
      element. *)
  Fixpoint index_by (v : jv) (args : list jv) : ev jv :=
    match args with
    | [] => Val v
    | a :: args =>
        match v with
        | JsonModel.JArray _ l =>
            let! n <- json_cast_to_integer a;
            let! z <- long n;
            if (z <? 0)%Z then Undef
            else if (z <? Z.of_nat (length l))%Z
            then match nth_error l (Z.to_nat z) with Some v => index_by v args | None => Undef end
            else index_by v args
        | JsonModel.JObject _ l =>
            let! k <- json_cast_to_string a;
            let! r <- attribute l k;
            match r with Some v => index_by v args | None => Stop No_attribute end
        | _ => Stop Not_indexed
        end
    end.
  (** src/tmpl.c 526-558 *)
  Definition func_index (args : list jv) : ev jv :=
    match args with [] => Undef | v :: args => index_by v args end.

  (** src/tmpl.c 560-596 *)
  Definition func_len (args : list jv) : ev jv :=
    let! v <- single_arg args;
    let! n <- match v with
              | JsonModel.JNull _ => Val 0
              | JsonModel.JBool _ _ | JsonModel.JNumber _ _ | JsonModel.JInteger _ _ =>
                  let! s <- json_cast_to_string v; Val (length s)
              | JsonModel.JString _ s => Val (length s)
              | JsonModel.JArray _ l => Val (length l)
              | JsonModel.JObject _ l => Val (length l)
              end;
    Val (JInteger (of_long A (Z.of_nat n))).

  (** src/tmpl.c 598-602 *)
  Definition func_not (args : list jv) : ev jv :=
    let! v <- single_arg args; let! e <- is_empty v; Val (JBool e).

  (** src/tmpl.c 604-679: the comparison for each two types *)
  Definition json_number_cmp (a b : JsonModel.dbl N) : comparison :=
    if ltb A a b then Lt else if ltb A b a then Gt else Eq.
  Definition json_integer_cmp (a b : JsonModel.dbl N) : ev comparison :=
    let! x <- long a; let! y <- long b;
    Val (if (x <? y)%Z then Lt else if (y <? x)%Z then Gt else Eq).
  Definition json_cmp (args : list jv) : ev comparison :=
    let! p <- two_args args;
    let '(a, b) := p in
    match a, b with
    | JsonModel.JNull _, JsonModel.JNull _ => Val Eq
    | JsonModel.JBool _ _, JsonModel.JBool _ _ => Val Eq
    | JsonModel.JNumber _ x, JsonModel.JNumber _ y => Val (json_number_cmp x y)
    | JsonModel.JNumber _ x, JsonModel.JInteger _ y => json_integer_cmp x y
    | JsonModel.JInteger _ x, JsonModel.JNumber _ y => json_integer_cmp x y
    | JsonModel.JInteger _ x, JsonModel.JInteger _ y => json_integer_cmp x y
    | JsonModel.JString _ x, JsonModel.JString _ y => Val (JsonModel.strcmp x y)
    | _, _ => Stop Not_comparable
    end.
  (** src/tmpl.c 681-715 *)
  Definition compare_with (test : comparison -> bool) (args : list jv) : ev jv :=
    let! c <- json_cmp args; Val (JBool (test c)).

  (** src/tmpl.c 717-725 *)
  Definition func_even (args : list jv) : ev jv :=
    let! v <- single_arg args;
    let! n <- json_cast_to_integer v;
    let! z <- long n; Val (JBool (Z.rem z 2 =? 0)%Z).

  (** src/tmpl.c 727-742 *)
  Definition type_name (v : jv) : bytes :=
    match v with
    | JsonModel.JNull _ => lit "null"
    | JsonModel.JBool _ _ => lit "bool"
    | JsonModel.JNumber _ _ => lit "number"
    | JsonModel.JInteger _ _ => lit "integer"
    | JsonModel.JString _ _ => lit "string"
    | JsonModel.JArray _ _ => lit "array"
    | JsonModel.JObject _ _ => lit "object"
    end.
  Definition func_typeof (args : list jv) : ev jv := let! v <- single_arg args; Val (JString (type_name v)).

  (** src/tmpl.c 744-763.  The messages on standard error are left out. *)
  Definition func_exists (args : list jv) : ev jv :=
    let! p <- two_args args;
    match p with
    | (JsonModel.JObject _ l, JsonModel.JString _ s) =>
        let! r <- attribute l s; Val (JBool (match r with Some _ => true | None => false end))
    | _ => Val (JBool false)
    end.

  (** src/tmpl.c 765-770 *)
  Definition numeric (v : jv) : ev (JsonModel.dbl N) :=
    match v with JsonModel.JNumber _ n | JsonModel.JInteger _ n => Val n | _ => Stop Bad_type end.
  Fixpoint fold_numeric (op : JsonModel.dbl N -> JsonModel.dbl N -> JsonModel.dbl N) (n : JsonModel.dbl N)
    (args : list jv) : ev (JsonModel.dbl N) :=
    match args with
    | [] => Val n
    | a :: args => let! m <- numeric a; fold_numeric op (op n m) args
    end.
  (** src/tmpl.c 772-833 *)
  Definition arithmetic (op : JsonModel.dbl N -> JsonModel.dbl N -> JsonModel.dbl N) (args : list jv) : ev jv :=
    match args with
    | [] => Stop Few
    | a :: args => let! n <- numeric a; let! n <- fold_numeric op n args; Val (JNumber n)
    end.
  (** src/tmpl.c 835-844 *)
  Definition func_div (args : list jv) : ev jv :=
    let! p <- two_args args;
    let '(a, b) := p in
    let! x <- numeric a; let! y <- numeric b; Val (JNumber (over A x y)).

  Definition func_printf (args : list jv) : ev jv := let! s <- printf args; Val (JString s).

  Definition is_eq (c : comparison) : bool := match c with Eq => true | _ => false end.
  Definition is_lt (c : comparison) : bool := match c with Lt => true | _ => false end.
  Definition is_gt (c : comparison) : bool := match c with Gt => true | _ => false end.

  (** src/tmpl.c 1496-1538.  A call of another name is not in a tree that was read. *)
  Definition func_tab : list (bytes * (list jv -> ev jv)) :=
    [ (lit "and", func_and); (lit "or", func_or); (lit "index", func_index); (lit "len", func_len);
      (lit "not", func_not); (lit "eq", compare_with is_eq); (lit "ne", compare_with (fun c => negb (is_eq c)));
      (lit "lt", compare_with is_lt); (lit "le", compare_with (fun c => negb (is_gt c)));
      (lit "gt", compare_with is_gt); (lit "ge", compare_with (fun c => negb (is_lt c)));
      (lit "even", func_even); (lit "printf", func_printf); (lit "typeof", func_typeof);
      (lit "exists", func_exists); (lit "add", arithmetic (plus A)); (lit "sub", arithmetic (minus A));
      (lit "mul", arithmetic (times A)); (lit "div", func_div) ].
  Definition call (f : bytes) (args : list jv) : ev jv :=
    match find (fun d => bytes_eqb (fst d) f) func_tab with Some d => snd d args | None => Undef end.

  (** struct tmpl_env (src/tmpl.c 80-86), without the file *)
  Record env := mkEnv { dot : jv; vars : JsonModel.object jv }.

  Definition literal_value (l : literal) : jv :=
    match l with LInt z => JInteger (of_long A z) | LStr s => JString s | LBool b => JBool b end.

  (** src/tmpl.c 244-329.  [prev] is the value of the command before, None at the
      first.  An environment that is copied is the same one here: nothing changes
      it but with and range, which set theirs. *)
  Fixpoint pipeline_eval (fuel : nat) (e : env) (prev : option jv) (p : list cmd) : ev jv :=
    match fuel with
    | O => Deep
    | S fuel =>
        match p with
        | [] => Val (match prev with Some v => v | None => JNull end)
        | c :: p =>
            let! v <- match c with
                      | CArg l => Val (literal_value l)
                      | CCall f args =>
                          let! vs <- eval_args fuel e args;
                          call f (vs ++ match prev with Some v => [v] | None => [] end)
                      | CDot => Val (dot e)
                      | CAttr a =>
                          match dot e with
                          | JsonModel.JObject _ l =>
                              let! r <- attribute l a; Val (match r with Some v => v | None => JNull end)
                          | _ => Val JNull
                          end
                      | CVar x =>
                          match JsonModel.json_object_get (vars e) x with
                          | Some (Some v) => Val v
                          | Some None => Val JNull
                          | None => Undef
                          end
                      | CPipe q => pipeline_eval fuel e None q
                      | CWith d b =>
                          let! v <- pipeline_eval fuel e None d;
                          pipeline_eval fuel (mkEnv v (vars e)) None b
                      end;
            pipeline_eval fuel e (Some v) p
        end
    end
  with eval_args (fuel : nat) (e : env) (args : list (list cmd)) : ev (list jv) :=
    match fuel with
    | O => Deep
    | S fuel =>
        match args with
        | [] => Val []
        | a :: args => let! v <- pipeline_eval fuel e None a; let! vs <- eval_args fuel e args; Val (v :: vs)
        end
    end.

  (** src/tmpl.c 2190-2213 *)
  Definition print_json (v : jv) : bytes :=
    match v with
    | JsonModel.JNull _ => []
    | JsonModel.JString _ s => s
    | v => JsonModel.json_value_format N (JsonModel.mkFormat 0 0) v 0
    end.

  (** What an action list does: the output, and if tmpl_action_eval returned
      non-zero; exit, with the output before it *)
  Inductive ran := Ran (out : bytes) (res : bool) | Exited (out : bytes) (c : complaint) | RUndef | RDeep.
  Definition after (o : bytes) (r : ran) : ran :=
    match r with Ran out res => Ran (o ++ out) res | Exited out c => Exited (o ++ out) c | RUndef => RUndef | RDeep => RDeep end.
  Definition with_value {B : Type} (o : ev B) (k : B -> ran) : ran :=
    match o with Val v => k v | Stop c => Exited [] c | Undef => RUndef | Deep => RDeep end.
  Notation "'run!' x <- o ; k" := (with_value o (fun x => k)) (at level 200, x pattern, o at level 100, k at level 200).

  (** json_object_set on the variables (src/json.c 704-724) *)
  Definition set_var (x : bytes) (v : jv) (e : env) : ev env :=
    match JsonModel.json_object_set (vars e) x v with Some o => Val (mkEnv (dot e) o) | None => Undef end.
  Definition set_opt (x : option bytes) (v : jv) (e : env) : ev env :=
    match x with Some x => set_var x v e | None => Val e end.

  (** src/tmpl.c 2356-2372 and 2392-2407: what is set for an element *)
  Definition set_element (kx vx : option bytes) (k v : jv) (e : env) : ev env :=
    match kx, vx with
    | None, None => Val (mkEnv v (vars e))
    | _, _ => let! e <- set_opt kx k e; set_opt vx v e
    end.

  (** The elements that range visits, with their keys; None: it does not *)
  Fixpoint number_from (i : Z) (l : list jv) : list (jv * jv) :=
    match l with [] => [] | v :: l => (JInteger (of_long A i), v) :: number_from (i + 1) l end.
  Definition elements (v : jv) : option (list (jv * jv)) :=
    match v with
    | JsonModel.JArray _ [] => None
    | JsonModel.JArray _ l => Some (number_from 0 l)
    | JsonModel.JObject _ [] => None
    | JsonModel.JObject _ l => Some (map (fun p => (JString (fst p), snd p)) l)
    | _ => None
    end.

  (** The templates defined *)
  Variable T : list (bytes * list act).

  (** src/tmpl.c 2272-2445.  [iterate]: the loops 2354-2375 and 2390-2410, whose
      environment is kept from one element to the next. *)
  Fixpoint action_eval (fuel : nat) (e : env) (acts : list act) : ran :=
    match fuel with
    | O => RDeep
    | S fuel =>
        match acts with
        | [] => Ran [] false
        | a :: acts =>
            let next (r : ran) : ran :=
              match r with
              | Ran o false => after o (action_eval fuel e acts)
              | _ => r
              end in
            match a with
            | AText s => next (Ran s false)
            | ANull => RUndef
            | APipe p => next (run! v <- pipeline_eval fuel e None p; Ran (print_json v) false)
            | ACond p no yes =>
                next (run! v <- pipeline_eval fuel e None p;
                      run! m <- is_empty v;
                      action_eval fuel e (if m then no else yes))
            | AWith x p no yes =>
                next (run! v <- pipeline_eval fuel e None p;
                      run! m <- is_empty v;
                      if m then action_eval fuel e no
                      else match x with
                           | Some x => run! e <- set_var x v e; action_eval fuel e yes
                           | None => action_eval fuel (mkEnv v (vars e)) yes
                           end)
            | ARange kx vx p no yes =>
                next (run! v <- pipeline_eval fuel e None p;
                      match elements v with
                      | Some l => iterate fuel e kx vx yes l
                      | None => action_eval fuel e no
                      end)
            | ABlock name arg =>
                next (run! v <- pipeline_eval fuel e None arg;
                      match template_lookup name T with
                      | Some body =>
                          match action_eval fuel (mkEnv v (vars e)) body with
                          | Ran o _ => Ran o false
                          | r => r
                          end
                      | None => RUndef
                      end)
            | AContinue => Ran [] false
            | ABreak => Ran [] true
            end
        end
    end
  with iterate (fuel : nat) (e : env) (kx vx : option bytes) (yes : list act) (l : list (jv * jv)) : ran :=
    match fuel with
    | O => RDeep
    | S fuel =>
        match l with
        | [] => Ran [] false
        | (k, v) :: l =>
            run! e <- set_element kx vx k v e;
            match action_eval fuel e yes with
            | Ran o true => Ran o false
            | Ran o false => after o (iterate fuel e kx vx yes l)
            | r => r
            end
        end
    end.

  (** template_run (src/tmpl.c 3131-3140) *)
  Definition template_run (fuel : nat) (v : jv) (acts : list act) : ran :=
    action_eval fuel (mkEnv v JsonModel.json_new_object) acts.
End Eval.
