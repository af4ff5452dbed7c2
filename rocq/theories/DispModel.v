(** Model of the dispatcher, thr_dispatch, src/pound.c 470-538. *)
From Coq Require Import List Arith Bool.
Import ListNotations.

(** LISTENER: the members used here *)
Record listener := mkLst { sock : nat; disabled : bool }.

(** What the dispatcher does.  Out: the poll array is read out of bounds. *)
Inductive event :=
| Accept (sock : nat)
| Enqueue (sock client : nat)
| Close (client : nat)
| Out.

Section Dispatch.
  (** accept on a socket gives a descriptor or fails; pound_http_enqueue succeeds or fails (C28) *)
  Variable accept : nat -> option nat.
  Variable enqueue : nat -> bool.

  (** pound.c 502-534: [polls] says which elements of the array are ready (POLLIN or
      POLLPRI in revents).  A disabled listener is left with [continue], which skips i++. *)
  Fixpoint pass (ls : list listener) (polls : list bool) (i : nat) : list event :=
    match ls with
    | [] => []
    | l :: ls =>
        match nth_error polls i with
        | None => [Out]
        | Some false => pass ls polls (S i)
        | Some true =>
            Accept (sock l) ::
            match accept (sock l) with
            | None => pass ls polls (S i)
            | Some c =>
                if disabled l then Close c :: pass ls polls i
                else (if enqueue c then Enqueue (sock l) c else Close c) :: pass ls polls (S i)
            end
        end
    end.
  (** pound.c 501 *)
  Definition dispatch (ls : list listener) (polls : list bool) : list event := pass ls polls 0.
End Dispatch.
