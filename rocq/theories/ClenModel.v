(** Model of the length parsers of src/http.c (lines 239-251, 1256-1345).
    Definitions only. *)
From Coq Require Import Ascii List ZArith Bool.
From Verif Require Import Bytes.
Import ListNotations.
Open Scope Z_scope.

(** src/pound.h: CONTENT_LENGTH is [long long]; CONTENT_LENGTH_MAX its maximum,
    NO_CONTENT_LENGTH is -1. *)
Definition CONTENT_LENGTH_MAX : Z := 2 ^ 63 - 1.
Definition NO_CONTENT_LENGTH : Z := -1.

(** src/http.c 239-243 *)
Definition isws (c : byte) : bool := beq c SP || beq c TAB.

(** src/http.c 245-251: skip leading blanks; the [*s] test is the end of the
    list here. *)
Fixpoint trimwsl (s : bytes) : bytes :=
  match s with
  | [] => []
  | c :: s' => if isws c then trimwsl s' else s
  end.

(** src/http.c 1281-1293: digit of the given base, or break.  The C code
    compares an [int] holding a signed char; bytes above 127 are negative there
    and fail every range test, exactly as codes above 127 do here. *)
Definition clen_digit (base : Z) (c : byte) : option Z :=
  if (48 <=? code c) && (code c <=? 57) then Some (code c - 48)
  else if base =? 16 then
    if (97 <=? code c) && (code c <=? 102) then Some (code c - (97 - 10))
    else if (65 <=? code c) && (code c <=? 70) then Some (code c - (65 - 10))
    else None
  else None.

(** src/http.c 1279-1305: the conversion loop.  Returns (rc, val, s): [s] is the
    position at which the loop stopped, i.e. the rest of the string. *)
Fixpoint strtoclen_loop (base cutoff cutlim : Z) (s : bytes) (val : Z)
  : Z * Z * bytes :=
  match s with
  | [] => (0, val, s)
  | c :: s' =>
      match clen_digit base c with
      | None => (0, val, s)
      | Some d =>
          if (cutoff <? val) || ((val =? cutoff) && (cutlim <? d))
          then (-1, val, s)
          else strtoclen_loop base cutoff cutlim s' (val * base + d)
      end
  end.

(** src/http.c 1269-1318.  Result: (rc, *retval, *endptr).  [s == arg] is
    decided by comparing the lengths of the two suffixes of the same string. *)
Definition strtoclen (arg : bytes) (base : Z) : Z * Z * bytes :=
  let cutoff := CONTENT_LENGTH_MAX / base in
  let cutlim := CONTENT_LENGTH_MAX mod base in
  let '(rc, val, s) := strtoclen_loop base cutoff cutlim arg 0 in
  let rc :=
    if rc =? 0 then
      if Nat.eqb (length s) (length arg) then -1
      else if val <? 0 then -1
      else rc
    else rc in
  (rc, val, s).

(** src/http.c 1320-1324 *)
Inductive cl_mode := CL_HEADER | CL_CHUNK.

Definition cl_mode_is_header (m : cl_mode) : bool :=
  match m with CL_HEADER => true | CL_CHUNK => false end.

(** src/http.c 1326-1345 *)
Definition get_content_length (arg : bytes) (mode : cl_mode) : Z :=
  let arg := if cl_mode_is_header mode then trimwsl arg else arg in
  let base := if cl_mode_is_header mode then 10 else 16 in
  let '(rc, n, p) := strtoclen arg base in
  if rc =? 0 then
    match trimwsl p with
    | [] => n
    | c :: _ =>
        if negb (cl_mode_is_header mode) && beq c ";"%char then n
        else NO_CONTENT_LENGTH
    end
  else NO_CONTENT_LENGTH.

(** src/config.c 277-294, [assign_CONTENT_LENGTH], after the token has been
    read: the stored value, or None for a configuration error. *)
Definition assign_content_length (tok : bytes) : option Z :=
  let '(rc, n, p) := strtoclen tok 10 in
  if negb (rc =? 0) then None
  else match p with [] => Some n | _ => None end.
