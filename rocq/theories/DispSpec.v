(** Specification of the dispatcher: what each listener is to get. *)
From Coq Require Import List Arith Bool.
From Verif Require Import DispModel.
Import ListNotations.

Section Spec.
  Variable accept : nat -> option nat.
  Variable enqueue : nat -> bool.
  (** A connection is accepted; it is served if the listener is enabled, else closed. *)
  Definition serve (l : listener) : list event :=
    Accept (sock l) ::
    match accept (sock l) with
    | None => []
    | Some c => [if negb (disabled l) && enqueue c then Enqueue (sock l) c else Close c]
    end.
  Definition expected (ls : list listener) (ready : list bool) : list event :=
    flat_map (fun p => if snd p : bool then serve (fst p) else []) (combine ls ready).
End Spec.
