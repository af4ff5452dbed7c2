(** Model of src/json.c: objects, formatting and parsing.  Definitions only.
    Memory allocation does not fail. *)
From Coq Require Import Ascii String List ZArith Bool.
From Verif Require Import Bytes.
Import ListNotations.
Local Open Scope nat_scope.
Local Open Scope string_scope.
Local Open Scope list_scope.

(** ** Objects *)

(** strcmp on C strings, which compares unsigned characters *)
Fixpoint strcmp (a b : bytes) : comparison :=
  match a, b with
  | [], [] => Eq
  | [], _ :: _ => Lt
  | _ :: _, [] => Gt
  | x :: a, y :: b => match (code x ?= code y)%Z with Eq => strcmp a b | c => c end
  end.

Section Object.
  Context {V : Type}.

  (** struct json_object: pair_head and pair_count *)
  Record object := mkObj { pairs : list (bytes * V); pair_count : nat }.

  (** src/json.c 552-564 *)
  Definition json_new_object : object := mkObj [] 0.

  (** Where the search ends: a pair, or the element (NULL if None) after which to
      look for the place of a new one.  Null: a NULL pointer is dereferenced. *)
  Inductive place := Found (i : nat) | After (l : option nat) | Null.

  Definition key_at (ps : list (bytes * V)) (i : nat) : option bytes := option_map fst (nth_error ps i).

  (** src/json.c 629-657, elements being denoted by their position.  [fuel] is
      count, which decreases. *)
  Fixpoint search (fuel : nat) (ps : list (bytes * V)) (name : bytes) (l count : nat) : place :=
    match fuel with
    | O => After (Some l)
    | S fuel =>
        match count with
        | O => After (Some l)
        | _ =>
            let n := Nat.div2 count in
            let m := l + n in
            match key_at ps m with
            | None => Null
            | Some k =>
                match strcmp k name with
                | Eq => Found m
                | c =>
                    match n with
                    | O => After (Some l)
                    | _ =>
                        match c with
                        | Lt => search fuel ps name m (count - n)
                        | _ => search fuel ps name l n
                        end
                    end
                end
            end
        end
    end.

  (** src/json.c 613-659 *)
  Definition lookup (o : object) (name : bytes) : place :=
    if Nat.eqb (pair_count o) 0 then After None
    else
      match key_at (pairs o) 0, key_at (pairs o) (length (pairs o) - 1) with
      | Some first, Some last =>
          match strcmp first name with
          | Gt => After None
          | _ =>
              match strcmp last name with
              | Lt => After (Some (length (pairs o) - 1))
              | _ => search (pair_count o) (pairs o) name 0 (pair_count o)
              end
          end
      | _, _ => Null
      end.

  (** src/json.c 693-694: go on while the next key is smaller *)
  Fixpoint smaller (name : bytes) (ps : list (bytes * V)) : list (bytes * V) * list (bytes * V) :=
    match ps with
    | [] => ([], [])
    | p :: ps' =>
        match strcmp (fst p) name with
        | Lt => let (a, b) := smaller name ps' in (p :: a, b)
        | _ => ([], ps)
        end
    end.

  (** src/json.c 685-698: insert the new pair *)
  Definition install (o : object) (l : option nat) (name : bytes) (v : V) : object :=
    let ps := pairs o in
    mkObj (match l with
           | None => (name, v) :: ps
           | Some l =>
               let (a, b) := smaller name (skipn (S l) ps) in
               firstn (S l) ps ++ a ++ (name, v) :: b
           end) (S (pair_count o)).

  (** src/json.c 721-722: replace the value of a pair *)
  Fixpoint replace (ps : list (bytes * V)) (i : nat) (v : V) : list (bytes * V) :=
    match ps, i with
    | [], _ => []
    | p :: ps, O => (fst p, v) :: ps
    | p :: ps, S i => p :: replace ps i v
    end.

  (** src/json.c 704-724; None: a NULL pointer is dereferenced *)
  Definition json_object_set (o : object) (name : bytes) (v : V) : option object :=
    match lookup o name with
    | Found i => Some (mkObj (replace (pairs o) i v) (pair_count o))
    | After l => Some (install o l name v)
    | Null => None
    end.

  (** src/json.c 726-744; None: a NULL pointer is dereferenced; Some None: ENOENT *)
  Definition json_object_get (o : object) (name : bytes) : option (option V) :=
    match lookup o name with
    | Found i => Some (option_map snd (nth_error (pairs o) i))
    | After _ => Some None
    | Null => None
    end.

  (** src/json.c 779-816.  pair_count is left as it is. *)
  Definition json_object_filter (o : object) (pred : bytes -> V -> bool) : object :=
    mkObj (filter (fun p => negb (pred (fst p) (snd p))) (pairs o)) (pair_count o).
End Object.
Arguments object : clear implicits.

(** ** Values *)

(** Floating point numbers and their texts are a parameter: printing as an integer
    (src/json.c 286-288) and with a precision (265-270), reading with strtod (the
    rest of the text; None: HUGE_VAL). *)
Record numbers := mkNumbers {
  dbl : Type;
  print_int : dbl -> bytes;
  print_num : Z -> dbl -> bytes;
  strtod : bytes -> option dbl * bytes
}.

Section Values.
  Variable N : numbers.

  (** struct json_value *)
  Inductive jv :=
  | JNull
  | JBool (b : bool)
  | JNumber (n : dbl N)
  | JInteger (n : dbl N)
  | JString (s : bytes)
  | JArray (l : list jv)
  | JObject (l : list (bytes * jv)).

  (** ** Formatting *)

  (** src/json.c 331-346 with un = ESCAPE.  The loop ends before the last pair of
      the table, which is the one of the slash. *)
  Definition transtab : list (byte * byte) :=
    [ ("\"%char, "\"%char); (""""%char, """"%char); ("b"%char, "008"%char); ("f"%char, "012"%char);
      ("n"%char, "010"%char); ("r"%char, "013"%char); ("t"%char, "009"%char) ].
  Definition escape (c : byte) : option byte :=
    option_map fst (find (fun p => beq (snd p) c) transtab).
  (** ... and with un = UNESCAPE *)
  Definition unescape (c : byte) : option byte :=
    option_map snd (find (fun p => beq (fst p) c) transtab).

  (** src/json.c 348-364 *)
  Fixpoint escape_text (s : bytes) : bytes :=
    match s with
    | [] => []
    | c :: s => match escape c with Some o => "\"%char :: o :: escape_text s | None => c :: escape_text s end
    end.
  Definition json_format_escape (s : bytes) : bytes := [""""%char] ++ escape_text s ++ [""""%char].

  (** struct json_format *)
  Record format := mkFormat { f_indent : nat; f_precision : Z }.

  (** src/json.c 57-63 *)
  Definition json_format_indent (fmt : format) (level : nat) : bytes := repeat SP (level * f_indent fmt).
  Definition if_indent (fmt : format) (s : bytes) : bytes := match f_indent fmt with O => [] | _ => s end.
  (** src/json.c 65-76 *)
  Definition json_format_delim (fmt : format) (level : nat) : bytes :=
    [","%char] ++ match f_indent fmt with O => [SP] | _ => LF :: json_format_indent fmt level end.

  (** src/json.c 526-549 and 746-774, between the brackets.  (That an object has
      pairs is decided there by pair_count.) *)
  Definition enclose (fmt : format) (level : nat) (items : list bytes) : bytes :=
    match items with
    | [] => []
    | i :: items =>
        if_indent fmt [LF] ++ json_format_indent fmt level ++ i
        ++ concat (map (fun i => json_format_delim fmt level ++ i) items)
        ++ if_indent fmt (LF :: json_format_indent fmt (level - 1))
    end.

  (** src/json.c 172-189 and the functions of the table *)
  Fixpoint json_value_format (fmt : format) (v : jv) (level : nat) : bytes :=
    let level := S level in
    match v with
    | JNull => lit "null"
    | JBool b => if b then lit "true" else lit "false"
    | JNumber n => print_num N (f_precision fmt) n
    | JInteger n => print_int N n
    | JString s => json_format_escape s
    | JArray l => lit "[" ++ enclose fmt level (map (fun v => json_value_format fmt v level) l) ++ lit "]"
    | JObject l =>
        lit "{" ++ enclose fmt level
          (map (fun p => json_format_escape (fst p) ++ lit ":" ++ if_indent fmt [SP] ++ json_value_format fmt (snd p) level) l)
        ++ lit "}"
    end.

  (** ** Parsing *)

  (** src/json.c 819-821 *)
  Definition ISSPACE (c : byte) : bool := beq c SP || beq c TAB || beq c LF || beq c CR.
  Definition SKIPWS (s : bytes) : bytes := snd (span ISSPACE s).

  (** ISHEX on four characters.  strchr finds the terminating null character, too,
      so that at the end of the text the test goes on to what follows it: None. *)
  Fixpoint hex_run (n : nat) (s : bytes) : option bool :=
    match n with
    | O => Some true
    | S n =>
        match s with
        | [] => None
        | c :: s => if is_xdigit c then hex_run n s else Some false
        end
    end.

  Definition hex_value (c : byte) : Z :=
    (if is_digit c then code c - 48 else if is_upper c then code c - 55 else code c - 87)%Z.
  (** strtoul (s, NULL, 16), converted to unsigned int, for a text that begins with a digit *)
  Fixpoint strtoul16 (s : bytes) (acc : Z) : Z :=
    match s with
    | [] => acc
    | c :: s => if is_xdigit c then strtoul16 s (acc * 16 + hex_value c) else acc
    end%Z.
  Definition wide_char (s : bytes) : Z :=
    let v := strtoul16 s 0%Z in
    (if 2 ^ 64 <=? v then 2 ^ 32 - 1 else v mod 2 ^ 32)%Z.

  (** src/json.c 887-935; None: -1 *)
  Fixpoint utf8_tail (n : nat) (wc : Z) : bytes :=
    match n with
    | O => []
    | S n => utf8_tail n (wc / 64) ++ [ascii_of_N (Z.to_N (128 + wc mod 64))]
    end%Z.
  Definition utf8_wctomb (wc : Z) : option bytes :=
    let lead (mark : Z) (n : nat) := ascii_of_N (Z.to_N (mark + wc / 64 ^ Z.of_nat n)) :: utf8_tail n wc in
    (if wc <? 128 then Some [ascii_of_N (Z.to_N wc)]
     else if wc <? 2048 then Some (lead 192 1%nat)
     else if wc <? 65536 then Some (lead 224 2%nat)
     else if wc <? 2097152 then Some (lead 240 3%nat)
     else if wc <? 67108864 then Some (lead 248 4%nat)
     else if wc <=? 2147483647 then Some (lead 252 5%nat)
     else None)%Z.

  Inductive scan := ScanLen (len : nat) | ScanBad | ScanOut.

  (** src/json.c 947-972: the size of the result.  [p] is the text after the opening
      quotation mark.  The conversion of four hexadecimal digits is given the
      pointer to the backslash, reads no digit and counts one byte; five
      characters after the backslash are skipped.  ScanOut: reads past the end. *)
  Fixpoint text_len (fuel : nat) (p : bytes) (len : nat) : scan :=
    match fuel with
    | O => ScanOut
    | S fuel =>
        match p with
        | [] => ScanBad
        | c :: r =>
            if beq c """"%char then ScanLen len
            else if beq c "\"%char
            then match hex_run 4 r with
                 | None => ScanOut
                 | Some true =>
                     if Nat.ltb (length r) 5 then ScanOut else text_len fuel (skipn 5 r) (len + 1)
                 | Some false =>
                     match r with
                     | [] => ScanBad
                     | _ :: r => text_len fuel r (len + 1)
                     end
                 end
            else text_len fuel r (len + 1)
        end
    end.

  (** src/json.c 982-1013: the characters and the rest after the closing quotation
      mark.  None: reads or copies out of bounds. *)
  Fixpoint text_copy (fuel : nat) (p : bytes) : option (bytes * bytes) :=
    match fuel with
    | O => None
    | S fuel =>
        let add (t : bytes) (x : option (bytes * bytes)) := option_map (fun x => (t ++ fst x, snd x)) x in
        match p with
        | [] => None
        | c :: r =>
            if beq c """"%char then Some ([], r)
            else if beq c "\"%char
            then match r with
                 | [] => None
                 | d :: r' =>
                     match unescape d with
                     | Some o => add [o] (text_copy fuel r')
                     | None =>
                         match hex_run 4 r with
                         | None => None
                         | Some true =>
                             match utf8_wctomb (wide_char r) with
                             | Some t => add t (text_copy fuel (skipn 4 r))
                             | None => None
                             end
                         | Some false => add [d] (text_copy fuel r')
                         end
                     end
                 end
            else add [c] (text_copy fuel r)
        end
    end.

  (** The result of j_get_text; TextOut: memory error, which includes writing past
      the allocated size *)
  Inductive text := Text (s rest : bytes) | TextBad | TextOut.

  (** src/json.c 937-1017; [input] starts after the quotation mark *)
  Definition j_get_text (input : bytes) : text :=
    match text_len (S (length input)) input 1 with
    | ScanOut => TextOut
    | ScanBad => TextBad
    | ScanLen len =>
        match text_copy (S (length input)) input with
        | None => TextOut
        | Some (s, rest) => if Nat.ltb len (length s + 1) then TextOut else Text s rest
        end
    end.

  (** struct j_context *)
  Inductive context :=
  | CArray (l : list jv)
  | CObject (o : object jv) (key : option bytes).

  Inductive jerr := JSON_E_BADTOK | JSON_E_BADDELIM | JSON_E_BADSTRING.
  Inductive parsed := POk (v : jv) (rest : bytes) | PErr (e : jerr) | PCrash | PFuel.

  (** strncmp (input, word, strlen (word)) == 0 *)
  Fixpoint word (w s : bytes) : option bytes :=
    match w, s with
    | [], s => Some s
    | a :: w, b :: s => if beq a b then word w s else None
    | _ :: _, [] => None
    end.

  Definition starts_number (c : byte) : bool := is_digit c || existsb (beq c) (lit "-+.").

  (** src/json.c 1198-1211: what follows a value; [k] continues the loop *)
  Definition after_value (k : list context -> bytes -> parsed) (ctx : list context) (input : bytes) : parsed :=
    match SKIPWS input with
    | [] => PErr JSON_E_BADDELIM
    | c :: input' =>
        if beq c ","%char then k ctx input'
        else if beq c "]"%char || beq c "}"%char then k ctx (c :: input')
        else PErr JSON_E_BADDELIM
    end.

  (** src/json.c 1156-1196: a value is delivered *)
  Definition deliver (k : list context -> bytes -> parsed) (v : jv) (ctx : list context) (input : bytes) : parsed :=
    match ctx with
    | [] => POk v input
    | CArray l :: ctx => after_value k (CArray (l ++ [v]) :: ctx) input
    | CObject o None :: _ => PErr JSON_E_BADTOK
    | CObject o (Some key) :: ctx =>
        match json_object_set o key v with
        | Some o => after_value k (CObject o None :: ctx) input
        | None => PCrash
        end
    end.

  (** src/json.c 1019-1219.  A value is never NULL after the switch. *)
  Fixpoint parse (fuel : nat) (ctx : list context) (input : bytes) : parsed :=
    match fuel with
    | O => PFuel
    | S fuel =>
        let k := parse fuel in
        match SKIPWS input with
        | [] => PErr JSON_E_BADTOK
        | c :: input' =>
            if beq c "["%char then k (CArray [] :: ctx) input'
            else if beq c "]"%char
            then match ctx with
                 | CArray l :: ctx => deliver k (JArray l) ctx input'
                 | _ => PErr JSON_E_BADTOK
                 end
            else if beq c "{"%char then k (CObject json_new_object None :: ctx) input'
            else if beq c "}"%char
            then match ctx with
                 | CObject o _ :: ctx => deliver k (JObject (pairs o)) ctx input'
                 | _ => PErr JSON_E_BADTOK
                 end
            else if beq c """"%char
            then match j_get_text input' with
                 | TextOut => PCrash
                 | TextBad => PErr JSON_E_BADSTRING
                 | Text s rest =>
                     match ctx with
                     | CObject o None :: ctx =>
                         match SKIPWS rest with
                         | c :: rest => if beq c ":"%char then k (CObject o (Some s) :: ctx) rest
                                        else PErr JSON_E_BADDELIM
                         | [] => PErr JSON_E_BADDELIM
                         end
                     | _ => deliver k (JString s) ctx rest
                     end
                 end
            else if starts_number c
            then match strtod N (c :: input') with
                 | (Some d, rest) => deliver k (JNumber d) ctx rest
                 | (None, _) => PErr JSON_E_BADTOK
                 end
            else
              match word (lit "null") (c :: input') with
              | Some rest => deliver k JNull ctx rest
              | None =>
                  match word (lit "true") (c :: input') with
                  | Some rest => deliver k (JBool true) ctx rest
                  | None =>
                      match word (lit "false") (c :: input') with
                      | Some rest => deliver k (JBool false) ctx rest
                      | None => PErr JSON_E_BADTOK
                      end
                  end
              end
        end
    end.

  (** Every turn of the loop takes a character, see C33_total. *)
  Definition json_parse_string (input : bytes) : parsed := parse (S (length input)) [] input.
End Values.
