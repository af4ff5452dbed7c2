(** Model of the linked lists, src/list.h.  A memory holds list heads and elements.
    An element is a number, 0 is NULL; reading or writing a field of NULL has no
    result (None).  The macros take the name of the link field; here every element
    has one pair of links for doubly linked and one link for singly linked lists. *)
From Coq Require Import List Arith Bool.
Import ListNotations.

Definition ptr := nat.
Definition NULL : ptr := 0.

(** DLIST_HEAD 118-123, DLIST_ENTRY 128-132 *)
Record mem := mkMem { first : nat -> ptr; last : nat -> ptr; next : ptr -> ptr; prev : ptr -> ptr }.

Definition upd (f : nat -> nat) (x v : nat) : nat -> nat := fun y => if Nat.eqb y x then v else f y.

Definition set_first (m : mem) (h : nat) (v : ptr) : mem := mkMem (upd (first m) h v) (last m) (next m) (prev m).
Definition set_last (m : mem) (h : nat) (v : ptr) : mem := mkMem (first m) (upd (last m) h v) (next m) (prev m).
Definition set_next (m : mem) (e : ptr) (v : ptr) : option mem :=
  if Nat.eqb e NULL then None else Some (mkMem (first m) (last m) (upd (next m) e v) (prev m)).
Definition set_prev (m : mem) (e : ptr) (v : ptr) : option mem :=
  if Nat.eqb e NULL then None else Some (mkMem (first m) (last m) (next m) (upd (prev m) e v)).
Definition get_next (m : mem) (e : ptr) : option ptr := if Nat.eqb e NULL then None else Some (next m e).
Definition get_prev (m : mem) (e : ptr) : option ptr := if Nat.eqb e NULL then None else Some (prev m e).

Definition bind {A B : Type} (x : option A) (f : A -> option B) : option B := match x with Some a => f a | None => None end.
Notation "x <- a ;; b" := (bind a (fun x => b)) (at level 100, a at next level, right associativity).

(** ** Doubly linked lists *)

(** 134-139 *)
Definition DLIST_INIT (h : nat) (m : mem) : option mem := Some (set_first (set_last m h NULL) h NULL).

(** 141-151 *)
Definition DLIST_INSERT_HEAD (h : nat) (e : ptr) (m : mem) : option mem :=
  m <- set_prev m e NULL ;;
  let f := first m h in
  m <- set_next m e f ;;
  m <- (if Nat.eqb f NULL then Some (set_last m h e) else set_prev m (first m h) e) ;;
  Some (set_first m h e).

(** 153-163 *)
Definition DLIST_INSERT_TAIL (h : nat) (e : ptr) (m : mem) : option mem :=
  m <- set_next m e NULL ;;
  let l := last m h in
  m <- set_prev m e l ;;
  m <- (if Nat.eqb l NULL then Some (set_first m h e) else set_next m (last m h) e) ;;
  Some (set_last m h e).

(** 167-182 *)
Definition DLIST_INSERT_AFTER (h : nat) (anchor e : ptr) (m : mem) : option mem :=
  if Nat.eqb anchor NULL then DLIST_INSERT_TAIL h e m
  else
    n <- get_next m anchor ;;
    m <- set_next m e n ;;
    m <- (if Nat.eqb n NULL then Some (set_last m h e) else (x <- get_next m e ;; set_prev m x e)) ;;
    m <- set_next m anchor e ;;
    set_prev m e anchor.

(** 184-199 *)
Definition DLIST_INSERT_BEFORE (h : nat) (anchor e : ptr) (m : mem) : option mem :=
  if Nat.eqb anchor NULL then DLIST_INSERT_HEAD h e m
  else
    p <- get_prev m anchor ;;
    m <- set_prev m e p ;;
    m <- (if Nat.eqb p NULL then Some (set_first m h e) else (x <- get_prev m e ;; set_next m x e)) ;;
    m <- set_prev m anchor e ;;
    set_next m e anchor.

(** 201-213 *)
Definition DLIST_REMOVE (h : nat) (e : ptr) (m : mem) : option mem :=
  p <- get_prev m e ;;
  n <- get_next m e ;;
  m <- (if Nat.eqb p NULL then Some (set_first m h n) else set_next m p n) ;;
  n <- get_next m e ;;
  p <- get_prev m e ;;
  if Nat.eqb n NULL then Some (set_last m h p) else set_prev m n p.

(** 215-223 *)
Definition DLIST_REMOVE_HEAD (h : nat) (m : mem) : option mem :=
  n <- get_next m (first m h) ;;
  let m := set_first m h n in
  if Nat.eqb n NULL then Some (set_last m h NULL) else set_prev m (first m h) NULL.

(** ** Traversal.  The elements for which the body is called; None: the loop has not
    ended after [fuel] turns. *)

Section Walk.
  Variable link : ptr -> ptr.
  Fixpoint walk (fuel : nat) (e : ptr) : option (list ptr) :=
    match fuel with
    | O => None
    | S fuel => if Nat.eqb e NULL then Some [] else option_map (cons e) (walk fuel (link e))
    end.
End Walk.

(** 227-228 *)
Definition DLIST_FOREACH (fuel : nat) (h : nat) (m : mem) : option (list ptr) := walk (next m) fuel (first m h).
(** 230-231 *)
Definition DLIST_FOREACH_REVERSE (fuel : nat) (h : nat) (m : mem) : option (list ptr) := walk (prev m) fuel (last m h).

(** 236-240 *)
Definition DLIST_FIRST (h : nat) (m : mem) : ptr := first m h.
Definition DLIST_LAST (h : nat) (m : mem) : ptr := last m h.
Definition DLIST_EMPTY (h : nat) (m : mem) : bool := Nat.eqb (DLIST_FIRST h m) NULL.

(** 242-247 with a body that may remove the current element and use it otherwise:
    [body e m] returns the memory.  The second component are the elements for which
    the body was called. *)
Section Safe.
  Variable body : ptr -> mem -> option mem.
  Definition next_or_null (m : mem) (e : ptr) : ptr := if Nat.eqb e NULL then NULL else next m e.
  Fixpoint foreach_safe (fuel : nat) (var tmp : ptr) (m : mem) : option (list ptr * mem) :=
    match fuel with
    | O => None
    | S fuel =>
        if Nat.eqb var NULL then Some ([], m)
        else
          m <- body var m ;;
          r <- foreach_safe fuel tmp (next_or_null m tmp) m ;;
          Some (var :: fst r, snd r)
    end.
  Definition DLIST_FOREACH_SAFE (fuel : nat) (h : nat) (m : mem) : option (list ptr * mem) :=
    foreach_safe fuel (first m h) (next_or_null m (first m h)) m.
End Safe.

(** ** Singly linked lists: sl_first, sl_last are first and last, the link is next *)

(** 38-43 *)
Definition SLIST_INIT (h : nat) (m : mem) : option mem := DLIST_INIT h m.
(** 46-53 *)
Definition SLIST_INSERT_HEAD (e : ptr) (h : nat) (m : mem) : option mem :=
  let f := first m h in
  m <- set_next m e f ;;
  let m := if Nat.eqb f NULL then set_last m h e else m in
  Some (set_first m h e).
(** 56-66 *)
Definition SLIST_INSERT_TAIL (h : nat) (e : ptr) (m : mem) : option mem :=
  m <- (if Nat.eqb (last m h) NULL then Some (set_first m h e) else set_next m (last m h) e) ;;
  set_next (set_last m h e) e NULL.
(** 71-78 *)
Definition SLIST_INSERT_AFTER (h : nat) (anchor e : ptr) (m : mem) : option mem :=
  n <- get_next m anchor ;;
  m <- set_next m e n ;;
  let m := if Nat.eqb n NULL then set_last m h e else m in
  set_next m anchor e.
(** 81-88 *)
Definition SLIST_REMOVE_HEAD (h : nat) (m : mem) : option mem :=
  if Nat.eqb (first m h) NULL then Some m
  else
    n <- get_next m (first m h) ;;
    let m := set_first m h n in
    Some (if Nat.eqb n NULL then set_last m h NULL else m).
(** 92-93 *)
Definition SLIST_FOREACH (fuel : nat) (h : nat) (m : mem) : option (list ptr) := walk (next m) fuel (first m h).
(** 98-107 *)
Definition SLIST_CONCAT (a b : nat) (m : mem) : option mem :=
  m <- (if Nat.eqb (last m a) NULL then Some (set_first m a (first m b)) else set_next m (last m a) (first m b)) ;;
  Some (set_last m a (last m b)).

(** Programs: sequences of operations *)
Inductive dop :=
| DInit (h : nat) | DHead (h : nat) (e : ptr) | DTail (h : nat) (e : ptr) | DAfter (h : nat) (a e : ptr) | DBefore (h : nat) (a e : ptr)
| DRemove (h : nat) (e : ptr) | DShift (h : nat).
Definition dexec (o : dop) : mem -> option mem :=
  match o with
  | DInit h => DLIST_INIT h
  | DHead h e => DLIST_INSERT_HEAD h e
  | DTail h e => DLIST_INSERT_TAIL h e
  | DAfter h a e => DLIST_INSERT_AFTER h a e
  | DBefore h a e => DLIST_INSERT_BEFORE h a e
  | DRemove h e => DLIST_REMOVE h e
  | DShift h => DLIST_REMOVE_HEAD h
  end.
Fixpoint drun (ops : list dop) (m : mem) : option mem :=
  match ops with [] => Some m | o :: ops => m <- dexec o m ;; drun ops m end.

Inductive sop :=
| SInit (h : nat) | SHead (h : nat) (e : ptr) | STail (h : nat) (e : ptr) | SAfter (h : nat) (a e : ptr) | SShift (h : nat) | SConcat (a b : nat).
Definition sexec (o : sop) : mem -> option mem :=
  match o with
  | SInit h => SLIST_INIT h
  | SHead h e => SLIST_INSERT_HEAD e h
  | STail h e => SLIST_INSERT_TAIL h e
  | SAfter h a e => SLIST_INSERT_AFTER h a e
  | SShift h => SLIST_REMOVE_HEAD h
  | SConcat a b => SLIST_CONCAT a b
  end.
Fixpoint srun (ops : list sop) (m : mem) : option mem :=
  match ops with [] => Some m | o :: ops => m <- sexec o m ;; srun ops m end.

(** Static initialisation, 32-33 and 125-126; the links of elements that are in no
    list are arbitrary. *)
Definition start (n p : ptr -> ptr) : mem := mkMem (fun _ => NULL) (fun _ => NULL) n p.
