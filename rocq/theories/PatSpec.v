(** String containment, independently of the model. *)
From Coq Require Import Ascii String List ZArith Bool.
From Verif Require Import Bytes.
Import ListNotations.

(** Equality of strings, ignoring the case of ASCII letters if [ci] is set. *)
Definition same (ci : bool) (a b : bytes) : Prop :=
  if ci then map to_lower a = map to_lower b else a = b.

Definition starts_with (ci : bool) (p s : bytes) : Prop := exists a b, s = a ++ b /\ same ci a p.
Definition ends_with (ci : bool) (p s : bytes) : Prop := exists a b, s = a ++ b /\ same ci b p.
Definition contains (ci : bool) (p s : bytes) : Prop := exists a b c, s = a ++ b ++ c /\ same ci b p.

Definition is_suffix_of (u p : bytes) : Prop := exists a, p = a ++ u.
Definition is_prefix_of (u p : bytes) : Prop := exists a, p = u ++ a.

(** The pattern [p] is one on which the skip table is wrong: some proper suffix [u] of
    [p], following a character [x], is also a prefix of [p]; not all shorter suffixes
    are; and wherever else [u] stands in [p] after a character, that character is [x]. *)
Definition misleading (p : bytes) : Prop :=
  exists a x u, p = a ++ x :: u /\ u <> [] /\ is_prefix_of u p /\
    (exists v, v <> [] /\ is_suffix_of v u /\ v <> u /\ ~ is_prefix_of v p) /\
    (forall l y r, p = l ++ y :: u ++ r -> r <> [] -> y = x).

(** [p] in upper case, if case is ignored *)
Definition to_upper (c : byte) : byte := if is_lower c then ascii_of_N (N_of_ascii c - 32) else c.
Definition folded (ci : bool) (p : bytes) : bytes := if ci then map to_upper p else p.
