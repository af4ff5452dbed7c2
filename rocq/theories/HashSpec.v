(** What a hash table is for: a finite map from key contents to entries. *)
From Coq Require Import List Arith ZArith Bool Permutation.
From Verif Require Import Bytes HashModel.
Import ListNotations.

Section Map.
  Variables (E K : Type).
  Variable key : E -> K.
  Variable K_eq_dec : forall a b : K, {a = b} + {a <> b}.

  Definition map := K -> option E.
  Definition empty : map := fun _ => None.
  Definition put (m : map) (x : E) : map := fun k => if K_eq_dec k (key x) then Some x else m k.
  Definition del (m : map) (x : E) : map := fun k => if K_eq_dec k (key x) then None else m k.

  (** What the operations do to the map and return: an insertion returns the entry it
      replaces, a deletion the one it removes. *)
  Definition map_step {G} (m : map) (o : op E G) : map * option E :=
    match o with
    | Insert x => (put m x, m (key x))
    | Retrieve k => (m, m (key k))
    | Delete k => (del m k, m (key k))
    | Resize _ _ => (m, None)
    end.
  Fixpoint map_run {G} (m : map) (ops : list (op E G)) : map * list (option E) :=
    match ops with
    | [] => (m, [])
    | o :: ops' => let (m1, r) := map_step m o in let (m2, rs) := map_run m1 ops' in (m2, r :: rs)
    end.
End Map.

(** When the library changes the geometry it keeps the entries, in any order. *)
Definition sound {E G} (slot : G -> Z -> nat) (hash : E -> Z) (cmp0 : E -> E -> bool) (t0 : table E G) (ops : list (op E G)) : Prop :=
  forall ops1 g l ops2, ops = ops1 ++ Resize g l :: ops2 -> Permutation l (ents (fst (run E G slot hash cmp0 t0 ops1))).

Definition new {E G} (g : G) (dl : Z) : table E G := mkTab [] g dl.

(** Whatever the geometry of the table and its changes: starting with an empty table, all
    operations return what they return for the map, and in the end the table has exactly the
    entries of the map. *)
Definition finite_map {E K} (key : E -> K) (hash : E -> Z) (cmp0 : E -> E -> bool) : Prop :=
  forall G (slot : G -> Z -> nat) (g : G) (dl : Z) (dec : forall a b : K, {a = b} + {a <> b}) ops, sound slot hash cmp0 (new g dl) ops ->
  snd (run E G slot hash cmp0 (new g dl) ops) = snd (map_run E K key dec (empty E K) ops) /\
  (forall k e, fst (map_run E K key dec (empty E K) ops) k = Some e <-> In e (ents (fst (run E G slot hash cmp0 (new g dl) ops))) /\ key e = k).

(** The contents of the key of a backend *)
Definition backend_key (b : backend) : list Z + bytes * Z :=
  match b with Regular a => inl a | Matrix h p => inr (lower h, p) end.
