(** Model of src/tmpl.c, third part: the function printf of templates (854-1490).
    Definitions only.  Memory allocation does not fail, texts are shorter than 4GB and
    contain no null character. *)
From Coq Require Import Ascii String List ZArith Bool.
From Verif Require Import Bytes TevModel.
From Verif Require JsonModel.
Import ListNotations.
Local Open Scope string_scope.
Local Open Scope list_scope.
Local Open Scope Z_scope.

(** ** Numbers as the C library prints them *)

(** %lu, %lo, %x and %X for n >= 0, with at most [fuel] digits *)
Definition digit (alphabet : bytes) (d : Z) : byte := nth (Z.to_nat d) alphabet "?"%char.
Fixpoint digits (alphabet : bytes) (base : Z) (fuel : nat) (n : Z) (acc : bytes) : bytes :=
  match fuel with
  | O => acc
  | S f =>
      let acc := digit alphabet (n mod base) :: acc in
      if n <? base then acc else digits alphabet base f (n / base) acc
  end.
Definition in_base (alphabet : bytes) (n : Z) : bytes :=
  digits alphabet (Z.of_nat (length alphabet)) (S (Z.to_nat (Z.log2 n))) n [].

Definition uint (z : Z) : Z := z mod 2 ^ 32.
Definition ulong (z : Z) : Z := z mod 2 ^ 64.
Definition size (s : bytes) : Z := Z.of_nat (length s).
Definition fill (c : byte) (n : Z) : bytes := repeat c (Z.to_nat n).

(** src/tmpl.c 853-858 *)
Record flags := mkFlags { alt : bool; zero : bool; left : bool; space : bool; sign : bool }.

(** What the C library makes of %e, %E, %f, %F, %g and %G is a parameter: flags,
    width, precision (None: not given), the letter and the number. *)
Definition float_format (N : JsonModel.numbers) : Type := flags -> Z -> option Z -> byte -> JsonModel.dbl N -> bytes.

(** src/tmpl.c 860-871 *)
Inductive format_state := Copy | Pos | Flags | Width | Width_arg | Prec | Prec_arg | Conv.

Section Printf.
  Variable N : JsonModel.numbers.
  Variable A : arith N.
  Variable F : float_format N.
  Notation jv := (JsonModel.jv N).

  (** src/tmpl.c 873-882: the number and what follows; arithmetic of unsigned int *)
  Fixpoint get_num_from (n : Z) (s : bytes) : Z * bytes :=
    match s with
    | c :: s' => if is_digit c then get_num_from (uint (n * 10 + (code c - 48))) s' else (n, s)
    | [] => (n, [])
    end.
  Definition get_num (s : bytes) : Z * bytes := get_num_from 0 s.

  (** src/tmpl.c 884-895.  With no arguments at all a null pointer is followed. *)
  Definition va_arg_n (args : list jv) (n : Z) : ev jv :=
    if n =? 0 then Stop Assertion
    else match args with
         | [] => Undef
         | _ => if n <=? Z.of_nat (length args)
                then match nth_error args (Z.to_nat (n - 1)) with Some v => Val v | None => Undef end
                else Stop Requested
         end.
  (** src/tmpl.c 898-904, 906-912, 914-920 *)
  Definition arg_integer (args : list jv) (n : Z) : ev Z :=
    let! v <- va_arg_n args n;
    match v with JsonModel.JInteger _ d | JsonModel.JNumber _ d => long N A d | _ => Stop Mismatch end.
  Definition arg_number (args : list jv) (n : Z) : ev (JsonModel.dbl N) :=
    let! v <- va_arg_n args n;
    match v with JsonModel.JInteger _ d | JsonModel.JNumber _ d => Val d | _ => Stop Mismatch end.
  Definition arg_string (args : list jv) (n : Z) : ev bytes :=
    let! v <- va_arg_n args n; json_cast_to_string N A v.

  (** The variables of func_printf (954-967).  [rest]: the format from cur on; [begun]:
      from start on; [next]: i; [out]: the contents of sb; [room]: the size of tmpbuf,
      0 before it is used. *)
  Record st := mkSt { state : format_state; rest : bytes; begun : bytes; next : Z; argnum : Z; altpos : bool;
                      fl : flags; width : Z; prec : Z; has_prec : bool; out : bytes; room : Z }.
  Definition no_flags : flags := mkFlags false false false false false.
  Definition init (format : bytes) : st := mkSt Copy format [] 1 0 false no_flags 0 0 false [] 0.
  Definition go (q : format_state) (r : bytes) (s : st) : st :=
    mkSt q r (begun s) (next s) (argnum s) (altpos s) (fl s) (width s) (prec s) (has_prec s) (out s) (room s).
  Definition emit (o : bytes) (s : st) : st :=
    mkSt (state s) (rest s) (begun s) (next s) (argnum s) (altpos s) (fl s) (width s) (prec s) (has_prec s) (out s ++ o) (room s).
  Definition set_fl (f : flags) (s : st) : st :=
    mkSt (state s) (rest s) (begun s) (next s) (argnum s) (altpos s) f (width s) (prec s) (has_prec s) (out s) (room s).
  Definition set_width (w : Z) (s : st) : st :=
    mkSt (state s) (rest s) (begun s) (next s) (argnum s) (altpos s) (fl s) w (prec s) (has_prec s) (out s) (room s).
  Definition set_prec (p : Z) (s : st) : st :=
    mkSt (state s) (rest s) (begun s) (next s) (argnum s) (altpos s) (fl s) (width s) p (has_prec s) (out s) (room s).
  Definition set_has_prec (s : st) : st :=
    mkSt (state s) (rest s) (begun s) (next s) (argnum s) (altpos s) (fl s) (width s) (prec s) true (out s) (room s).
  Definition set_next (i : Z) (s : st) : st :=
    mkSt (state s) (rest s) (begun s) i (argnum s) (altpos s) (fl s) (width s) (prec s) (has_prec s) (out s) (room s).
  Definition set_room (r : Z) (s : st) : st :=
    mkSt (state s) (rest s) (begun s) (next s) (argnum s) (altpos s) (fl s) (width s) (prec s) (has_prec s) (out s) r.

  (** src/tmpl.c 985-996 *)
  Definition begin_conv (r : bytes) (s : st) : st :=
    mkSt Pos r (rest s) (next s) (argnum s) false no_flags 0 0 false (out s) (room s).
  (** src/tmpl.c 1015-1017 *)
  Definition set_pos (n : Z) (s : st) : st :=
    mkSt (state s) (rest s) (begun s) (next s) (uint (n - 1)) true (fl s) (width s) (prec s) (has_prec s) (out s) (room s).

  (** src/tmpl.c 1086-1091, 1100-1109.  The opposite of LONG_MIN is not defined. *)
  Definition take_width (num : Z) (s : st) : ev st :=
    if num =? - 2 ^ 63 then Undef
    else let f := fl s in
         let s := if num <? 0 then set_fl (mkFlags (alt f) (zero f) (left f) true (sign f)) s else s in
         Val (set_width (uint (Z.abs num)) s).
  (** src/tmpl.c 1147-1148, 1154-1155 *)
  Definition take_prec (num : Z) (s : st) : st := if 0 <? num then set_prec (uint num) s else s.

  (** src/tmpl.c 1201-1205 and elsewhere *)
  Definition settle (f : flags) (prec : Z) : flags :=
    mkFlags (alt f) (zero f && negb ((0 <? prec) || left f)) (left f) (space f && negb (sign f)) (sign f).

  (** tmpbuf after it was used for at most 63 characters, or for more: it starts with 64
      bytes and grows by half (src/mem.c 21-52, 205-240) *)
  Definition room_small (r : Z) : Z := if r =? 0 then 64 else r.
  Fixpoint room_for (fuel : nat) (n r : Z) : Z :=
    match fuel with
    | O => r
    | S fuel => if r <=? n then room_for fuel n (if r =? 0 then 64 else r + (r + 1) / 2) else r
    end.

  (** The zeros before the digits (1216-1220, 1276-1281, 1323-1328, 1377-1381), with
      [slots] bytes before the digits: undefined if they go beyond the end of tmpbuf *)
  Definition with_zeros (slots prec : Z) (room : Z) (ds : bytes) : ev bytes :=
    if (0 <? prec) && (size ds <? prec)
    then if slots + prec + 1 <=? room then Val (fill "0" (prec - size ds) ++ ds) else Undef
    else Val ds.

  (** The width (1239-1257, 1283-1294, 1336-1354, 1389-1400): [n] characters of
      [text], of which the first [first] stay in front if it is filled with zeros *)
  Definition field (f : flags) (width : Z) (first : nat) (text : bytes) (n : Z) : bytes :=
    let c := if zero f then "0"%char else " "%char in
    let text := firstn (Z.to_nat n) text in
    if (0 <? width) && (n <? width)
    then if left f then text ++ fill c (width - n)
         else if zero f then firstn first text ++ fill c (width - n) ++ skipn first text
         else fill c (width - n) ++ text
    else text.

  (** src/tmpl.c 1163-1187; width + 1 is an unsigned int *)
  Definition conv_s (f : flags) (width prec : Z) (str : bytes) : ev bytes :=
    let n := if (0 <? prec) && (prec <? size str) then prec else size str in
    let str := firstn (Z.to_nat n) str in
    if width =? 0 then Val str
    else let width := if width <? n then n else width in
         if uint (width + 1) =? 0 then Undef
         else Val (if left f then str ++ fill " " (width - n) else fill " " (width - n) ++ str).

  (** src/tmpl.c 1189-1260 *)
  Definition conv_d (f : flags) (width prec room num : Z) : ev bytes :=
    if num =? - 2 ^ 63 then Undef
    else let f := settle f prec in
         let! str <- with_zeros 1 prec room (in_base (lit "0123456789") (Z.abs num));
         let sgn : bytes := if sign f then [if num <? 0 then "-"%char else "+"%char]
                            else if space f then [if num <? 0 then "-"%char else " "%char]
                            else if num <? 0 then ["-"%char] else [] in
         let text := (sgn ++ str)%list in
         Val (field f width (length sgn) text (size text)).

  (** src/tmpl.c 1262-1295 *)
  Definition conv_u (f : flags) (width prec room num : Z) : ev bytes :=
    let f := settle f prec in
    let! str <- with_zeros 0 prec room (in_base (lit "0123456789") (ulong num));
    Val (field f width 0 str (size str)).

  (** src/tmpl.c 1297-1355; a long is passed for %x, of which 32 bits are taken *)
  Definition conv_x (c : byte) (f : flags) (width prec room num : Z) : ev bytes :=
    let f := settle f prec in
    let alphabet := if beq c "x" then lit "0123456789abcdef" else lit "0123456789ABCDEF" in
    let! str <- with_zeros 2 prec room (in_base alphabet (uint num));
    let text := if alt f then "0"%char :: c :: str else str in
    Val (field f width (if alt f then 2 else 0) text (size text)).

  (** src/tmpl.c 1357-1401; n is not changed for the zeros *)
  Definition conv_o (f : flags) (width prec room num : Z) : ev bytes :=
    let f := settle f prec in
    let ds := in_base (lit "01234567") (ulong num) in
    let! str <- with_zeros 1 prec room ds;
    let more := alt f && negb (match str with c :: _ => beq c "0" | [] => false end) in
    let text := if more then "0"%char :: str else str in
    Val (field f width 0 text (if more then size ds + 1 else size ds)).

  (** src/tmpl.c 1403-1469.  With a width and without a precision it is prec that is
      passed as the width; it is 0 then. *)
  Definition conv_f (c : byte) (f : flags) (width prec : Z) (has_prec : bool) (d : JsonModel.dbl N) : bytes :=
    let f := settle f prec in
    F f (if has_prec then width else 0) (if has_prec then Some prec else None) c d.

  (** src/tmpl.c 1158-1483 *)
  Definition convert (args : list jv) (c : byte) (r : bytes) (s : st) : ev st :=
    let n := if altpos s then argnum s else next s in
    let s := if altpos s then s else set_next (next s + 1) s in
    let f := fl s in
    let ends (o : bytes) (room : Z) := Val (go Copy r (set_room room (emit o s))) in
    let small := room_small (room s) in
    if beq c "s" then let! str <- arg_string args n; let! o <- conv_s f (width s) (prec s) str; ends o (room s)
    else if beq c "i" || beq c "d" then
      let! num <- arg_integer args n; let! o <- conv_d f (width s) (prec s) small num; ends o small
    else if beq c "u" then
      let! num <- arg_integer args n; let! o <- conv_u f (width s) (prec s) small num; ends o small
    else if beq c "x" || beq c "X" then
      let! num <- arg_integer args n; let! o <- conv_x c f (width s) (prec s) small num; ends o small
    else if beq c "o" then
      let! num <- arg_integer args n; let! o <- conv_o f (width s) (prec s) small num; ends o small
    else if existsb (beq c) (lit "eEfFgG") then
      let! d <- arg_number args n;
      let o := conv_f c f (width s) (prec s) (has_prec s) d in
      ends o (room_for (S (length o)) (size o) (room s))
    else if beq c "v" then
      let! v <- va_arg_n args n;
      ends (JsonModel.json_value_format N (JsonModel.mkFormat 0 0) v 0) (room s)
    else ends (firstn (length (begun s) - length r) (begun s)) (room s).

  (** src/tmpl.c 983-1485: one turn of the loop, at the character [c] *)
  Definition step (args : list jv) (s : st) (c : byte) (r : bytes) : ev st :=
    let here := c :: r in
    match state s with
    | Copy => if beq c "%" then Val (begin_conv r s) else Val (go Copy r (emit [c] s))
    | Pos =>
        if beq c "%" then Val (go Copy r (emit ["%"%char] s))
        else if is_digit c
        then match get_num here with
             | (n, d :: r') => if beq d "$" then Val (go Flags r' (set_pos n s)) else Val (go Flags here s)
             | _ => Val (go Flags here s)
             end
        else Val (go Flags here s)
    | Flags =>
        let f := fl s in
        if beq c "#" then Val (go Flags r (set_fl (mkFlags true (zero f) (left f) (space f) (sign f)) s))
        else if beq c "0" then Val (go Flags r (set_fl (mkFlags (alt f) true (left f) (space f) (sign f)) s))
        else if beq c "-" then Val (go Flags r (set_fl (mkFlags (alt f) (zero f) true (space f) (sign f)) s))
        else if beq c " " then Val (go Flags r (set_fl (mkFlags (alt f) (zero f) (left f) true (sign f)) s))
        else if beq c "+" then Val (go Flags r (set_fl (mkFlags (alt f) (zero f) (left f) (space f) true) s))
        else Val (go Width here s)
    | Width =>
        if is_digit c then let (w, r') := get_num here in Val (go Prec r' (set_width w s))
        else if beq c "*" then Val (go Width_arg r s)
        else Val (go Prec here s)
    | Width_arg =>
        let own := let! num <- arg_integer args (next s);
                   take_width num (go Prec here (set_next (next s + 1) s)) in
        if is_digit c
        then match get_num here with
             | (n, d :: r') =>
                 if beq d "$" then let! num <- arg_integer args n; take_width num (go Prec r' s) else own
             | _ => own
             end
        else own
    | Prec =>
        if beq c "."
        then match r with
             | d :: r' =>
                 if is_digit d then let (p, r'') := get_num r in Val (go Conv r'' (set_prec p (set_has_prec s)))
                 else if beq d "*" then Val (go Prec_arg r' (set_has_prec s))
                 else Val (go Conv r (set_has_prec s))
             | [] => Val (go Conv r (set_has_prec s))
             end
        else Val (go Conv here s)
    | Prec_arg =>
        let own := let! num <- arg_integer args (next s); Val (take_prec num (go Conv here s)) in
        if is_digit c
        then match get_num here with
             | (n, d :: r') =>
                 if beq d "$" then let! num <- arg_integer args n; Val (take_prec num (go Conv r' s)) else own
             | _ => own
             end
        else own
    | Conv => convert args c r s
    end.

  (** src/tmpl.c 981-1486 *)
  Fixpoint loop (fuel : nat) (args : list jv) (s : st) : ev bytes :=
    match fuel with
    | O => Deep
    | S fuel =>
        match rest s with
        | [] => Val (out s)
        | c :: r => let! s <- step args s c r; loop fuel args s
        end
    end.

  (** src/tmpl.c 952-1491; there are at most eight turns for a character *)
  Definition func_printf (args : list jv) : ev bytes :=
    match args with
    | [] => Stop Few
    | JsonModel.JString _ format :: args => loop (S (8 * length format)) args (init format)
    | _ :: _ => Stop Bad_format
    end.
End Printf.
