(** Vocabulary of the properties of the life of a backend. *)
From Coq Require Import List Arith ZArith Bool.
From Verif Require Import RefModel.
Import ListNotations.

(** How often [h] got / dropped a reference to [b] *)
Definition is_ref (h : holder) (b : nat) (e : event) : bool := match e with Ref h' b' => holder_eqb h h' && Nat.eqb b b' | _ => false end.
Definition is_unref (h : holder) (b : nat) (e : event) : bool := match e with Unref h' b' => holder_eqb h h' && Nat.eqb b b' | _ => false end.
Definition times (f : event -> bool) (t : list event) : nat := length (filter f t).

(** The events that concern [b] *)
Definition about (b : nat) (e : event) : bool :=
  match e with Listed b' | Delisted b' | Ref _ b' | Unref _ b' | Lost _ b' | Destroyed b' => Nat.eqb b b' end.

(** Nobody has a pointer to [b] of which he will drop the reference, and nobody forgot to *)
Definition unheld (b : nat) (s : state) : Prop := forall h, ~ In (h, b) (holds s).
Definition no_loss (b : nat) (t : list event) : Prop := forall h, ~ In (Lost h b) t.

(** A request touches only what it may: it does not read a backend after it dropped it, and when
    it reports a failed connection or remembers a session, its backend has not been removed in
    the meantime. *)
Definition careful_op (s : state) (o : op) : Prop :=
  match o with
  | Peek _ => False
  | Kill r _ | Remember r _ => forall b, In (Req r, b) (holds s) -> listed s b = true
  | _ => True
  end.
Definition careful (ops : list op) : Prop :=
  forall ops1 o ops2 t s, ops = ops1 ++ o :: ops2 -> run init ops1 = (t, Now s) -> careful_op s o.

(** No thread of the program, except a new request or update, can do anything. *)
Definition remover_stuck (s : state) : Prop :=
  forall o, In o [Lock; Check; Wait] -> step o s = Blocked.
