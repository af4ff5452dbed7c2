(** Model of the comma-separated list search of src/http.c (1837-1876).
    Definitions only. *)
From Coq Require Import Ascii List ZArith Bool.
From Verif Require Import Bytes.
Import ListNotations.

Definition COMMA : byte := ","%char.

(** The loop of src/http.c 1856-1857: leading [isspace] characters are skipped.
    [isspace] of a negative char (undefined in C) is taken as false, the value
    it has in the C locale. *)
Fixpoint skip_space (s : bytes) : bytes :=
  match s with
  | [] => []
  | c :: s' => if is_space c then skip_space s' else s
  end.

(** src/http.c 1861-1863: drop trailing [isspace] characters of the item. *)
Definition trim_right (s : bytes) : bytes := rev (skip_space (rev s)).

(** strncasecmp / strncmp on items of equal length. *)
Definition str_eqb (ci : bool) (a b : bytes) : bool :=
  if ci then ci_eqb a b else bytes_eqb a b.

(** src/http.c 1846-1876.  A pointer into the string is the suffix it points
    to.  Result: None when the function returns NULL; otherwise the returned
    pointer and the value stored through [nextp].  ([nextp] is left unset in the
    first kind of NULL return; no caller reads it then.)  The loop is run with
    fuel; [cs_locate_token] supplies enough (each turn moves forward). *)
Fixpoint cs_locate_loop (fuel : nat) (subj tok : bytes) (ci : bool)
  : option (bytes * bytes) :=
  match fuel with
  | O => None
  | S fuel' =>
      match skip_space subj with
      | [] => None
      | subj =>
          let (item, rest) := span (fun c => negb (beq c COMMA)) subj in
          let next := match rest with [] => [] | _ :: r => r end in
          let i := trim_right item in
          if Nat.eqb (length i) (length tok) && str_eqb ci i tok
          then Some (subj, next)
          else cs_locate_loop fuel' next tok ci
      end
  end.

Definition cs_locate_token (subj tok : bytes) (ci : bool) : option (bytes * bytes) :=
  cs_locate_loop (S (length subj)) subj tok ci.
