(** Specification of lists: every head holds a sequence of elements, an element is
    in at most one sequence and there at most once. *)
From Coq Require Import List Arith Bool.
From Verif Require Import ListModel.
Import ListNotations.

Definition state := nat -> list ptr.
Definition empty : state := fun _ => [].
Definition put (s : state) (h : nat) (l : list ptr) : state := fun h' => if Nat.eqb h' h then l else s h'.
(** The element is a proper one and in no list. *)
Definition free (s : state) (e : ptr) : Prop := e <> NULL /\ forall h, ~ In e (s h).

(** What an operation does, and when it may be used. *)
Inductive dspec (s : state) : dop -> state -> Prop :=
| ds_init : forall h, dspec s (DInit h) (put s h [])
| ds_head : forall h e, free s e -> dspec s (DHead h e) (put s h (e :: s h))
| ds_tail : forall h e, free s e -> dspec s (DTail h e) (put s h (s h ++ [e]))
| ds_after : forall h a e x y, free s e -> s h = x ++ a :: y -> dspec s (DAfter h a e) (put s h (x ++ a :: e :: y))
| ds_after_null : forall h e, free s e -> dspec s (DAfter h NULL e) (put s h (s h ++ [e]))
| ds_before : forall h a e x y, free s e -> s h = x ++ a :: y -> dspec s (DBefore h a e) (put s h (x ++ e :: a :: y))
| ds_before_null : forall h e, free s e -> dspec s (DBefore h NULL e) (put s h (e :: s h))
| ds_remove : forall h e x y, s h = x ++ e :: y -> dspec s (DRemove h e) (put s h (x ++ y))
| ds_shift : forall h e y, s h = e :: y -> dspec s (DShift h) (put s h y).
Inductive dspecs : state -> list dop -> state -> Prop :=
| dss_nil : forall s, dspecs s [] s
| dss_cons : forall s o s' ops s'', dspec s o s' -> dspecs s' ops s'' -> dspecs s (o :: ops) s''.

Inductive sspec (s : state) : sop -> state -> Prop :=
| ss_init : forall h, sspec s (SInit h) (put s h [])
| ss_head : forall h e, free s e -> sspec s (SHead h e) (put s h (e :: s h))
| ss_tail : forall h e, free s e -> sspec s (STail h e) (put s h (s h ++ [e]))
| ss_after : forall h a e x y, free s e -> s h = x ++ a :: y -> sspec s (SAfter h a e) (put s h (x ++ a :: e :: y))
| ss_shift : forall h, sspec s (SShift h) (put s h (tl (s h)))
| ss_concat : forall a b, a <> b -> s b <> [] -> sspec s (SConcat a b) (put (put s a (s a ++ s b)) b []).
(** After SLIST_CONCAT the second head is not to be used before it is initialized:
    such programs follow it with SInit. *)
Inductive sspecs : state -> list sop -> state -> Prop :=
| sss_nil : forall s, sspecs s [] s
| sss_cons : forall s o s' ops s'', (forall a b, o <> SConcat a b) -> sspec s o s' -> sspecs s' ops s'' -> sspecs s (o :: ops) s''
| sss_concat : forall s a b s' ops s'', sspec s (SConcat a b) s' -> sspecs s' ops s'' -> sspecs s (SConcat a b :: SInit b :: ops) s''.

(** Both directions of traversal show the sequences, whatever the number of turns
    allowed beyond their length. *)
Definition dshows (m : mem) (s : state) : Prop :=
  forall h, DLIST_FIRST h m = hd NULL (s h) /\ DLIST_LAST h m = hd NULL (rev (s h)) /\
    forall fuel, length (s h) < fuel -> DLIST_FOREACH fuel h m = Some (s h) /\ DLIST_FOREACH_REVERSE fuel h m = Some (rev (s h)).
Definition sshows (m : mem) (s : state) : Prop :=
  forall h, first m h = hd NULL (s h) /\ last m h = hd NULL (rev (s h)) /\
    forall fuel, length (s h) < fuel -> SLIST_FOREACH fuel h m = Some (s h).

(** The body of a loop that removes elements of the list [h]. *)
Definition removing (doomed : ptr -> bool) (h : nat) (e : ptr) (m : mem) : option mem :=
  if doomed e then DLIST_REMOVE h e m else Some m.
