(** Model of the hash tables: src/ht.h, the hash and comparison functions of its users
    (src/http.c 1748-1835, 2600-2621; src/dynbe.c 200-252; src/resolver.c 280-295), and
    what they do when the key exists (src/http.c 1805-1823, src/config.c 136-157).

    ht.h wraps the hash tables of OpenSSL (lhash).  Of that library this is modelled: the
    table is divided into buckets, [slot] of the hash value and of the current geometry [g]
    of the table gives the bucket; an entry is found in its bucket if its hash value is the
    same and the comparison function returns 0; inserting replaces the entry found and
    returns it, or adds one; from time to time the library changes the geometry, and then
    the order of the entries.  The buckets are kept here in one list. *)
From Coq Require Import List Arith ZArith Bool Ascii.
From Verif Require Import Bytes.
Import ListNotations.

Section Table.
  Variables (E : Type) (G : Type).
  Variable slot : G -> Z -> nat.
  Variable hash : E -> Z.           (* HT_TYPE_HASH_FN *)
  Variable cmp0 : E -> E -> bool.   (* HT_TYPE_CMP_FN returns 0 *)

  Record table := mkTab { ents : list E; geometry : G; down_load : Z }.

  (** What lh_insert, lh_retrieve and lh_delete look for *)
  Definition hit (t : table) (k e : E) : bool :=
    Nat.eqb (slot (geometry t) (hash e)) (slot (geometry t) (hash k)) && Z.eqb (hash e) (hash k) && cmp0 e k.

  (** X_RETRIEVE, ht.h 159-169 *)
  Definition retrieve (t : table) (k : E) : option E := find (hit t k) (ents t).

  Fixpoint replace (f : E -> bool) (x : E) (l : list E) : list E :=
    match l with [] => [] | e :: l' => if f e then x :: l' else e :: replace f x l' end.
  Fixpoint remove (f : E -> bool) (l : list E) : list E :=
    match l with [] => [] | e :: l' => if f e then l' else e :: remove f l' end.

  (** X_INSERT, ht.h 149-157 *)
  Definition insert (t : table) (x : E) : table * option E :=
    match retrieve t x with
    | Some old => (mkTab (replace (hit t x) x (ents t)) (geometry t) (down_load t), Some old)
    | None => (mkTab (ents t ++ [x]) (geometry t) (down_load t), None)
    end.

  (** X_DELETE, ht.h 171-181 *)
  Definition delete (t : table) (k : E) : table * option E :=
    (mkTab (remove (hit t k) (ents t)) (geometry t) (down_load t), retrieve t k).

  Inductive op := Insert (x : E) | Retrieve (k : E) | Delete (k : E) | Resize (g : G) (l : list E).

  (** One operation: the new table and the result.  [Resize]: the library changes the geometry;
      it can do this while it inserts or deletes. *)
  Definition step (t : table) (o : op) : table * option E :=
    match o with
    | Insert x => insert t x
    | Retrieve k => (t, retrieve t k)
    | Delete k => delete t k
    | Resize g l => (mkTab l g (down_load t), None)
    end.
  Fixpoint run (t : table) (ops : list op) : table * list (option E) :=
    match ops with
    | [] => (t, [])
    | o :: ops' => let (t1, r) := step t o in let (t2, rs) := run t1 ops' in (t2, r :: rs)
    end.

  (** X_FOREACH, ht.h 188-197: the callback is given the entry and works on the table. *)
  Definition foreach (t : table) (fn : E -> table -> table) : table := fold_left (fun t' e => fn e t') (ents t) t.
  (** X_FOREACH_SAFE, ht.h 220-227 *)
  Definition foreach_safe (t : table) (fn : E -> table -> table) : table :=
    let dl := down_load t in
    let t1 := foreach t fn in
    mkTab (ents t1) (geometry t1) dl.
End Table.
Arguments mkTab {E G}. Arguments ents {E G}. Arguments geometry {E G}. Arguments down_load {E G}.
Arguments Insert {E G}. Arguments Retrieve {E G}. Arguments Delete {E G}. Arguments Resize {E G}.

(** ** Hash and comparison functions *)
Local Open Scope Z_scope.
Definition w64 (x : Z) : Z := x mod 2 ^ 64.

(** strhash_ci, http.c 1756-1780.  unsigned long has 64 bits. *)
Fixpoint strhash_loop (n ret : Z) (s : bytes) : Z :=
  match s with
  | [] => Z.lxor (Z.shiftr ret 16) ret
  | c :: s' =>
      let v := w64 (Z.lor n (scode (to_lower c))) in
      let r := Z.land (Z.lxor (Z.shiftr v 2) v) 15 in
      let ret1 := Z.land (Z.lor (w64 (Z.shiftl ret r)) (Z.shiftr ret (32 - r))) (2 ^ 32 - 1) in
      strhash_loop (n + 256) (Z.lxor ret1 (w64 (v * v))) s'
  end.
Definition strhash_ci (s : bytes) : Z := match s with [] => 0 | _ => strhash_loop 256 0 s end.

(** strcasecmp (a, b) == 0 *)
Fixpoint strcasecmp0 (a b : bytes) : bool :=
  match a, b with
  | [], [] => true
  | x :: a', y :: b' => beq (to_lower x) (to_lower y) && strcasecmp0 a' b'
  | _, _ => false
  end.
(** strncasecmp (a, b, n) == 0, for strings of at least n characters *)
Fixpoint strncasecmp0 (a b : bytes) (n : nat) : bool :=
  match n, a, b with
  | S n', x :: a', y :: b' => beq (to_lower x) (to_lower y) && strncasecmp0 a' b' n'
  | _, _, _ => true
  end.

(** HEADER_NAME_hash and _cmp, http.c 1782-1792; COMPOSE_HEADER_hash and _cmp, http.c
    2606-2621: the same for the name of a header *)
Definition header_name_hash (a : bytes) : Z := strhash_ci a.
Definition header_name_cmp0 (a b : bytes) : bool := Nat.eqb (length a) (length b) && strncasecmp0 a b (length a).

(** CNAME_REF_hash and _cmp, resolver.c 285-295 *)
Definition cname_hash (a : bytes) : Z := strhash_ci a.
Definition cname_cmp0 (a b : bytes) : bool := strcasecmp0 a b.

(** djb_hash_add, dynbe.c 200-207 *)
Fixpoint djb_hash_add (h : Z) (s : list Z) : Z :=
  match s with [] => h | c :: s' => djb_hash_add (w64 (w64 (w64 (Z.shiftl h 5) + h) + c)) s' end.

(** A generated backend: with an address (its bytes), or a host name and a port (in network
    byte order, two bytes) *)
Inductive backend := Regular (addr : list Z) | Matrix (hostname : bytes) (port : Z).
Definition port_bytes (p : Z) : list Z := [p mod 256; p / 256].

(** memcmp (a, b, n) == 0 *)
Fixpoint memcmp0 (a b : list Z) (n : nat) : bool :=
  match n, a, b with
  | S n', x :: a', y :: b' => Z.eqb x y && memcmp0 a' b' n'
  | _, _, _ => true
  end.

(** BACKEND_hash, dynbe.c 215-232 *)
Definition backend_hash (b : backend) : Z :=
  match b with
  | Regular a => djb_hash_add 5381 a
  | Matrix h p => djb_hash_add (strhash_ci h) (port_bytes p)
  end.
(** BACKEND_cmp, dynbe.c 234-252.  The entries of a table are all of one kind; the result for
    different kinds is never asked for (here: not 0). *)
Definition backend_cmp0 (a b : backend) : bool :=
  match a, b with
  | Regular x, Regular y => Nat.eqb (length x) (length y) && memcmp0 x y (length x)
  | Matrix h p, Matrix h' p' => strcasecmp0 h h' && Z.eqb (p - p') 0
  | _, _ => false
  end.

(** strcmp (a, b) == 0, ht.h 111-117 *)
Fixpoint strcmp0 (a b : bytes) : bool :=
  match a, b with
  | [], [] => true
  | x :: a', y :: b' => beq x y && strcmp0 a' b'
  | _, _ => false
  end.

(** An object in memory with a name; objects are told apart by a number. *)
Record object := mkObj { name : bytes; id : nat }.

(** Allocated names and those already freed *)
Record heap G := mkHeap { tab : table object G; released : list nat }.
Arguments mkHeap {G}. Arguments tab {G}. Arguments released {G}.

Section Add.
  Variable G : Type.
  Variable slot : G -> Z -> nat.
  Variable hash : bytes -> Z.
  Variable cmp0 : bytes -> bytes -> bool.

  (** combinable_header_add, http.c 1815-1822; named_backend_insert, config.c 143-156;
      cname_install, resolver.c 308-318: allocate a new object, insert it; if there was one
      already, free the new object. *)
  Definition add (h : heap G) (n : bytes) (i : nat) : heap G :=
    match insert object G slot (fun o => hash (name o)) (fun a b => cmp0 (name a) (name b)) (tab h) (mkObj n i) with
    | (t, Some _) => mkHeap t (i :: released h)
    | (t, None) => mkHeap t (released h)
    end.
  (** is_combinable_header, http.c 1826-1835; named_backend_retrieve, config.c 159-166: the
      object found *)
  Definition lookup (h : heap G) (n : bytes) : option object :=
    retrieve object G slot (fun o => hash (name o)) (fun a b => cmp0 (name a) (name b)) (tab h) (mkObj n 0).
End Add.
