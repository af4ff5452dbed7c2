(** Numbers in the configuration file. *)
From Coq Require Import Ascii String List ZArith Bool.
From Verif Require Import Bytes.
Import ListNotations.
Open Scope Z_scope.

(** LP64: limits.h *)
Definition ULONG_MAX : Z := 18446744073709551615.
Definition LONG_MAX : Z := 9223372036854775807.
Definition LONG_MIN : Z := -9223372036854775808.
Definition UINT_MAX : Z := 4294967295.
Definition INT_MAX : Z := 2147483647.
Definition INT_MIN : Z := -2147483648.

(** A digit of a base of at most 10, as strtoul of the C library sees it. *)
Definition num_digit (base : Z) (c : byte) : bool :=
  (48 <=? code c) && (code c <? 48 + base).
Definition num_value (base : Z) (ds : bytes) : Z :=
  fold_left (fun v c => v * base + (code c - 48)) ds 0.

(** What strtoul and strtol of the C library scan: white space, a sign and the
    digits.  Result: is the number negative, its absolute value and the rest;
    None if there is no digit (then endptr is the beginning of the string). *)
Definition scan_number (base : Z) (s : bytes) : option (bool * Z * bytes) :=
  let s1 := snd (span is_space s) in
  let '(neg, s2) :=
    match s1 with
    | c :: r => if beq c "-"%char then (true, r) else if beq c "+"%char then (false, r) else (false, s1)
    | [] => (false, s1)
    end in
  let (ds, rest) := span (num_digit base) s2 in
  match ds with
  | [] => None
  | _ => Some (neg, num_value base ds, rest)
  end.

(** strtoul (s, &end, base): (errno is set, value, end).  The base is at most 10. *)
Definition strtoul (s : bytes) (base : Z) : bool * Z * bytes :=
  match scan_number base s with
  | None => (false, 0, s)
  | Some (neg, v, rest) =>
      if ULONG_MAX <? v then (true, ULONG_MAX, rest)
      else (false, if neg then (- v) mod (ULONG_MAX + 1) else v, rest)
  end.

(** strtol (s, &end, base) *)
Definition strtol (s : bytes) (base : Z) : bool * Z * bytes :=
  match scan_number base s with
  | None => (false, 0, s)
  | Some (neg, v, rest) =>
      let n := if neg then - v else v in
      if LONG_MAX <? n then (true, LONG_MAX, rest)
      else if n <? LONG_MIN then (true, LONG_MIN, rest)
      else (false, n, rest)
  end.

Definition at_end (rest : bytes) : bool := match rest with [] => true | _ => false end.

(** Conversion of an unsigned long to long. *)
Definition ulong_to_long (n : Z) : Z := if LONG_MAX <? n then n - (ULONG_MAX + 1) else n.
(** Conversion of a long to a 32-bit unsigned integer type *)
Definition to_uint (n : Z) : Z := n mod (UINT_MAX + 1).

(** cfgparser.c:1279-1298, cfg_assign_unsigned; also cfg_assign_timeout
    (cfgparser.h:221).  The argument is the text of the token. *)
Definition cfg_assign_unsigned (tok : bytes) : option Z :=
  let '(errno, n, p) := strtoul tok 10 in
  if errno || negb (at_end p) || (UINT_MAX <? n) then None else Some n.

(** cfgparser.c:1300-1319, cfg_assign_int *)
Definition cfg_assign_int (tok : bytes) : option Z :=
  let '(errno, n, p) := strtol tok 10 in
  if errno || negb (at_end p) || (n <? INT_MIN) || (INT_MAX <? n) then None else Some n.

(** cfgparser.c:1321-1341, cfg_assign_int_range *)
Definition cfg_assign_int_range (tok : bytes) (min max : Z) : option Z :=
  match cfg_assign_int tok with
  | None => None
  | Some n =>
      if ((0 <=? min) && (n <? min)) || ((0 <? max) && (max <? n)) then None else Some n
  end.

(** cfgparser.c:1343-1359, cfg_assign_mode.  [n] is a long, so the result of
    strtoul is converted; mode_t is a 32-bit unsigned type. *)
Definition cfg_assign_mode (tok : bytes) : option Z :=
  let '(errno, v, p) := strtoul tok 8 in
  let n := ulong_to_long v in
  if errno || negb (at_end p) || (511 <? n) then None else Some (to_uint n).

(** cfgparser.c:1250-1276, cfg_assign_bool *)
Definition cfg_assign_bool (tok : bytes) : option bool :=
  if bytes_eqb tok (lit "1") || bytes_eqb tok (lit "yes")
     || bytes_eqb tok (lit "true") || bytes_eqb tok (lit "on") then Some true
  else if bytes_eqb tok (lit "0") || bytes_eqb tok (lit "no")
     || bytes_eqb tok (lit "false") || bytes_eqb tok (lit "off") then Some false
  else None.
