(** What is said of password files that are read by several workers (C82). *)
From Coq Require Import List Arith Bool.
From Verif Require Import Bytes AurModel.
Import ListNotations.

(** What the file says about a user: the last line with that name counts *)
Definition verdict (matches : bytes -> bytes -> bool) (c : list entry) (n k : bytes) : bool :=
  match find (fun e => bytes_eqb (user e) n) (rev c) with Some e => matches k (pass e) | None => false end.

(** The list that starts at [p] *)
Inductive spells (h : list node) : option nat -> list entry -> Prop :=
| sp_nil : spells h None []
| sp_cons a e n l : nth_error h a = Some (Node e n) -> spells h n l -> spells h (Some a) (e :: l).

(** The file has been read *)
Definition loaded (s : state) (t : nat) (c : list entry) : Prop :=
  disk s = Some (t, c) /\ mtim (mem s) = Some t /\ spells (heap (mem s)) (head (mem s)) (rev c).

Definition idle (s : state) : Prop := ws s = [].
Definition saves (l : list event) : Prop := exists c, In (Save c) l.
