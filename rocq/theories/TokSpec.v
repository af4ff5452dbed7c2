(** Comma-separated lists, independently of the model. *)
From Coq Require Import Ascii List.
From Verif Require Import Bytes.
Import ListNotations.

Definition white (c : byte) : Prop :=
  In c [" "%char; "009"%char; "010"%char; "011"%char; "012"%char; "013"%char].

(** [e] is an element of the list [s] standing after [pre] and before [post]:
    it has no comma, starts at the beginning or after a comma, and ends at the
    end or before a comma. *)
Definition element_at (s pre e post : bytes) : Prop :=
  s = pre ++ e ++ post /\ ~ In ","%char e /\
  (pre = [] \/ exists p, pre = p ++ [","%char]) /\
  (post = [] \/ exists q, post = ","%char :: q).

Definition element (s e : bytes) : Prop := exists pre post, element_at s pre e post.

(** [t] is [e] without its surrounding white space. *)
Definition stripped (e t : bytes) : Prop :=
  exists l r, e = l ++ t ++ r /\ Forall white l /\ Forall white r /\
    (forall c u, t = c :: u -> ~ white c) /\ (forall c u, t = u ++ [c] -> ~ white c).

(** Equality ignoring ASCII case. *)
Definition same_letters (a b : bytes) : Prop := map to_lower a = map to_lower b.
