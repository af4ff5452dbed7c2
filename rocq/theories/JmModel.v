(** Model of the JSON values of src/json.c in memory: allocation, copy, release, arrays (src/json.c 79-560, 583-606, 690-715) and mem2nrealloc
    (src/mem.c 21-60).  Definitions only.
    Memory is a list of blocks; a new block comes at the end, a released one is marked, and the use of a released block, of a block of another kind,
    or of a pointer that was never written is undefined behaviour.  Simplified: allocations succeed, sizes stay below the limits of size_t, realloc
    always moves, calloc (0) returns a block as in the GNU C library (with it, realloc (p, 0) releases p and returns NULL).
    The list of pairs of an object is kept in the block of its json_object, in place of the links: lists are the subject of C38, and
    the search in them that of C32. *)
From Coq Require Import List Arith ZArith Bool.
From Verif Require Import Bytes JsonModel.
Import ListNotations.

(** What a pointer variable holds *)
Inductive ptr := PNull | PWild | P (a : nat).

(** struct json_value, json.h 26-63, without the block it is in *)
Inductive jval :=
| VNull | VBool (b : bool) | VNumber (z : Z) | VInteger (z : Z)
| VString (s : nat) | VArray (a : nat) | VObject (o : nat).

Inductive block :=
| Freed
| BVal (v : jval)
| BText (s : bytes)
| BArray (oc on : nat) (ov : option nat)     (** struct json_array *)
| BVec (sl : list ptr)                       (** what ov points to *)
| BObject (pairs : list nat)                 (** struct json_object *)
| BPair (k : nat) (v : ptr).                 (** struct json_pair *)

Definition heap := list block.

(** The outcome of a function: a result, -1 or NULL, undefined behaviour, or the bound on the depth is reached *)
Inductive res (A : Type) := Done (h : heap) (x : A) | Fails (h : heap) | Undef | Fuel.
Arguments Done {A}. Arguments Fails {A}. Arguments Undef {A}. Arguments Fuel {A}.

Fixpoint put {A} (l : list A) (i : nat) (x : A) : list A :=
  match l, i with
  | [], _ => []
  | _ :: t, 0 => x :: t
  | y :: t, S j => y :: put t j x
  end.

Definition alloc (h : heap) (b : block) : heap * nat := (h ++ [b], length h).

(** free *)
Definition release (h : heap) (a : nat) : option heap :=
  match nth_error h a with
  | None | Some Freed => None
  | Some _ => Some (put h a Freed)
  end.

Definition vec_at (h : heap) (a : nat) : option (list ptr) := match nth_error h a with Some (BVec sl) => Some sl | _ => None end.
Definition text_at (h : heap) (a : nat) : option bytes := match nth_error h a with Some (BText s) => Some s | _ => None end.

(** The elements below oc, as a loop over them sees them *)
Definition elements (h : heap) (oc : nat) (ov : option nat) : option (list ptr) :=
  match oc, ov with
  | 0, _ => Some []
  | _, None => None
  | _, Some w => match vec_at h w with
                 | Some sl => if Nat.leb oc (length sl) then Some (firstn oc sl) else None
                 | None => None
                 end
  end.

(** * Release *)

(** The loops of json_free_array and json_free_object.  The pointers of an array are read before its elements are released. *)
Fixpoint free_elements (f : heap -> ptr -> res unit) (h : heap) (ps : list ptr) : res unit :=
  match ps with
  | [] => Done h tt
  | p :: ps => match f h p with Done h _ => free_elements f h ps | e => e end
  end.

Fixpoint free_pairs (f : heap -> ptr -> res unit) (h : heap) (prs : list nat) : res unit :=
  match prs with
  | [] => Done h tt
  | q :: prs =>
      match nth_error h q with
      | Some (BPair k v) =>
          match release h k with
          | None => Undef
          | Some h => match f h v with
                      | Done h _ => match release h q with Some h => free_pairs f h prs | None => Undef end
                      | e => e
                      end
          end
      | _ => Undef
      end
  end.

(** Releases in order *)
Fixpoint release_all (h : heap) (l : list nat) : res unit :=
  match l with
  | [] => Done h tt
  | a :: l => match release h a with Some h => release_all h l | None => Undef end
  end.
Definition opt_list (o : option nat) : list nat := match o with None => [] | Some a => [a] end.

(** json_value_free, 149-158, with json_free_string, 309-313, json_free_array, 398-407, and json_free_object, 566-581 *)
Fixpoint json_value_free (n : nat) (h : heap) (p : ptr) : res unit :=
  match n with
  | 0 => Fuel
  | S n =>
      match p with
      | PNull => Done h tt
      | PWild => Undef
      | P a =>
          match nth_error h a with
          | Some (BVal v) =>
              match v with
              | VNull | VBool _ | VNumber _ | VInteger _ => release_all h [a]
              | VString s => release_all h [s; a]
              | VArray r =>
                  match nth_error h r with
                  | Some (BArray oc _ ov) =>
                      match elements h oc ov with
                      | None => Undef
                      | Some ps => match free_elements (json_value_free n) h ps with
                                   | Done h _ => release_all h (opt_list ov ++ [r; a])
                                   | e => e
                                   end
                      end
                  | _ => Undef
                  end
              | VObject o =>
                  match nth_error h o with
                  | Some (BObject prs) => match free_pairs (json_value_free n) h prs with
                                          | Done h _ => release_all h [o; a]
                                          | e => e
                                          end
                  | _ => Undef
                  end
              end
          | _ => Undef
          end
      end
  end.

(** * Making values *)

(** json_value_create with the payload, 79-88, 219-260 *)
Definition json_new_null (h : heap) : heap * nat := alloc h (BVal VNull).
Definition json_new_bool (h : heap) (b : bool) : heap * nat := alloc h (BVal (VBool b)).
Definition json_new_number (h : heap) (z : Z) : heap * nat := alloc h (BVal (VNumber z)).
Definition json_new_integer (h : heap) (z : Z) : heap * nat := alloc h (BVal (VInteger z)).

(** json_new_string, 292-307.  The block of the value first, then the text *)
Definition json_new_string (h : heap) (s : bytes) : heap * nat :=
  let (h, a) := alloc h (BVal (VString (S (length h)))) in let (h, _) := alloc h (BText s) in (h, a).

(** json_new_array, 374-396 *)
Definition json_new_array (h : heap) : heap * nat :=
  let (h, a) := alloc h (BVal (VArray (S (length h)))) in let (h, _) := alloc h (BArray 0 0 None) in (h, a).

(** json_new_object, 552-563 *)
Definition json_new_object (h : heap) : heap * nat :=
  let (h, a) := alloc h (BVal (VObject (S (length h)))) in let (h, _) := alloc h (BObject []) in (h, a).

(** * Objects *)

(** json_object_lookup_or_install, 606-689: the pair with the name, or the place in the sorted list where a new one goes.  C32 shows that the
    search by halves comes to this. *)
Inductive spot := At (q : nat) | Before (i : nat).
Fixpoint find_pair (h : heap) (prs : list nat) (i : nat) (name : bytes) : option spot :=
  match prs with
  | [] => Some (Before i)
  | q :: prs =>
      match nth_error h q with
      | Some (BPair k _) =>
          match text_at h k with
          | Some t => match strcmp t name with
                      | Eq => Some (At q)
                      | Lt => find_pair h prs (S i) name
                      | Gt => Some (Before i)
                      end
          | None => None
          end
      | _ => None
      end
  end.

(** json_object_set, 691-711 *)
Definition json_object_set (n : nat) (h : heap) (a : nat) (name : bytes) (v : nat) : res unit :=
  match nth_error h a with
  | Some (BVal (VObject o)) =>
      match nth_error h o with
      | Some (BObject prs) =>
          match find_pair h prs 0 name with
          | None => Undef
          | Some (At q) =>
              match nth_error h q with
              | Some (BPair k old) =>
                  match json_value_free n h old with
                  | Done h _ => match nth_error h q with
                                | Some (BPair k _) => Done (put h q (BPair k (P v))) tt
                                | _ => Undef
                                end
                  | e => e
                  end
              | _ => Undef
              end
          | Some (Before i) =>
              let (h, q) := alloc h (BPair (S (length h)) (P v)) in
              let (h, _) := alloc h (BText name) in
              Done (put h o (BObject (firstn i prs ++ q :: skipn i prs))) tt
          end
      | _ => Undef
      end
  | Some (BVal _) => Fails h
  | _ => Undef
  end.

(** * Copy *)

(** The loop of json_copy_array into the block [w]: the number of the element that could not be copied, if any.  The pointers of the source are
    read before the loops. *)
Fixpoint copy_elements (f : heap -> ptr -> res nat) (h : heap) (w i : nat) (ps : list ptr) : res (option nat) :=
  match ps with
  | [] => Done h None
  | p :: ps =>
      match f h p with
      | Done h c =>
          match vec_at h w with
          | Some sl => copy_elements f (put h w (BVec (put sl i (P c)))) w (S i) ps
          | None => Undef
          end
      | Fails h => Done h (Some i)
      | Undef => Undef | Fuel => Fuel
      end
  end.

(** The loop of json_copy_object into the object [b] *)
Fixpoint copy_pairs (f : heap -> ptr -> res nat) (set : heap -> bytes -> nat -> res unit) (h : heap) (prs : list nat) : res unit :=
  match prs with
  | [] => Done h tt
  | q :: prs =>
      match nth_error h q with
      | Some (BPair k v) =>
          match f h v with
          | Done h c =>
              match text_at h k with
              | None => Undef
              | Some name => match set h name c with Done h _ => copy_pairs f set h prs | e => e end
              end
          | Fails h => Fails h
          | Undef => Undef | Fuel => Fuel
          end
      | _ => Undef
      end
  end.

(** After a failure: what has been made is released *)
Definition give_up (n : nat) (h : heap) (b : nat) : res nat :=
  match json_value_free n h (P b) with Done h _ => Fails h | Fails h => Fails h | Undef => Undef | Fuel => Fuel end.

(** json_value_copy, 160-170, with json_copy_generic, 191-216, json_copy_string, 314-327, json_copy_array, 409-437, json_copy_object, 583-604 *)
Fixpoint json_value_copy (n : nat) (h : heap) (p : ptr) : res nat :=
  match n with
  | 0 => Fuel
  | S n =>
      match p with
      | PNull => Fails h
      | PWild => Undef
      | P a =>
          match nth_error h a with
          | Some (BVal v) =>
              match v with
              | VNull | VBool _ | VNumber _ | VInteger _ => let (h, b) := alloc h (BVal v) in Done h b
              | VString s =>
                  match text_at h s with
                  | Some t => let (h, b) := json_new_string h t in Done h b
                  | None => Undef
                  end
              | VArray r =>
                  match nth_error h r with
                  | Some (BArray oc _ ov) =>
                      match elements h oc ov with
                      | None => Undef
                      | Some ps =>
                          let (h, b) := json_new_array h in
                          let (h, w) := alloc h (BVec (repeat PNull oc)) in
                          match copy_elements (json_value_copy n) (put h (S b) (BArray oc oc (Some w))) w 0 ps with
                          | Done h None => Done h b
                          | Done h (Some i) => give_up (S n) (put h (S b) (BArray i oc (Some w))) b
                          | Fails h => Fails h | Undef => Undef | Fuel => Fuel
                          end
                      end
                  | _ => Undef
                  end
              | VObject o =>
                  match nth_error h o with
                  | Some (BObject prs) =>
                      let (h, b) := json_new_object h in
                      match copy_pairs (json_value_copy n) (fun h name c => json_object_set n h b name c) h prs with
                      | Done h _ => Done h b
                      | Fails h => give_up (S n) h b
                      | Undef => Undef | Fuel => Fuel
                      end
                  | _ => Undef
                  end
              end
          | _ => Undef
          end
      end
  end.

(** * Arrays *)

(** mem2nrealloc for pointers of 8 bytes, mem.c 21-60: the new number; the block is moved.  None: realloc (p, 0), which releases *)
Definition new_size (p : option nat) (n : nat) : nat := match p with None => if n =? 0 then 8 else n | Some _ => n + (n + 1) / 2 end.

(** The block [r] of an array *)
Definition json_array_expand (h : heap) (r : nat) : res unit :=
  match nth_error h r with
  | Some (BArray oc on ov) =>
      let n := new_size ov on in
      match ov with
      | None =>
          let (h, w) := alloc h (BVec (repeat PWild n)) in
          Done (put h r (BArray oc n (Some w))) tt
      | Some w =>
          match vec_at h w with
          | None => Undef
          | Some sl =>
              let h := put h w Freed in
              if n =? 0 then Fails h
              else
                (** the loop of 454-455 goes from the new number up to the old one: nothing is written *)
                let (h, w) := alloc h (BVec (sl ++ repeat PWild (n - on))) in
                Done (put h r (BArray oc n (Some w))) tt
          end
      end
  | _ => Undef
  end.

(** json_array_insert, 459-480, of the value [v]; the loop needs at most [S idx] rounds *)
Fixpoint grow (fuel : nat) (h : heap) (r idx : nat) : res unit :=
  match fuel with
  | 0 => Fuel
  | S fuel =>
      match nth_error h r with
      | Some (BArray _ on _) =>
          if on <=? idx then match json_array_expand h r with Done h _ => grow fuel h r idx | e => e end
          else Done h tt
      | _ => Undef
      end
  end.

(** jv->v.a->ov[idx] = v *)
Definition store (h : heap) (ov : option nat) (idx v : nat) : res unit :=
  match ov with
  | None => Undef
  | Some w =>
      match vec_at h w with
      | Some sl => if idx <? length sl then Done (put h w (BVec (put sl idx (P v)))) tt else Undef
      | None => Undef
      end
  end.

Definition json_array_insert (h : heap) (a idx v : nat) : res unit :=
  match nth_error h a with
  | Some (BVal (VArray r)) =>
      match nth_error h r with
      | Some (BArray oc on ov) =>
          if oc <=? idx then
            match grow (S (S idx)) h r idx with
            | Done h _ =>
                match nth_error h r with
                | Some (BArray _ on ov) => store (put h r (BArray (S idx) on ov)) ov idx v
                | _ => Undef
                end
            | e => e
            end
          else store h ov idx v
      | _ => Undef
      end
  | Some (BVal _) => Fails h
  | _ => Undef
  end.

(** json_array_append, 482-491 *)
Definition json_array_append (h : heap) (a v : nat) : res unit :=
  match nth_error h a with
  | Some (BVal (VArray r)) => match nth_error h r with Some (BArray oc _ _) => json_array_insert h a oc v | _ => Undef end
  | Some (BVal _) => Fails h
  | _ => Undef
  end.

(** json_array_set, 492-508 *)
Definition json_array_set (h : heap) (a idx v : nat) : res unit :=
  match nth_error h a with
  | Some (BVal (VArray r)) =>
      match nth_error h r with
      | Some (BArray oc _ ov) => if oc <=? idx then Fails h else store h ov idx v
      | _ => Undef
      end
  | Some (BVal _) => Fails h
  | _ => Undef
  end.

(** json_array_get, 509-525: what is read *)
Definition json_array_get (h : heap) (a idx : nat) : res ptr :=
  match nth_error h a with
  | Some (BVal (VArray r)) =>
      match nth_error h r with
      | Some (BArray oc _ ov) =>
          if oc <=? idx then Fails h
          else match elements h oc ov with
               | Some ps => match nth_error ps idx with Some p => Done h p | None => Undef end
               | None => Undef
               end
      | _ => Undef
      end
  | Some (BVal _) => Fails h
  | _ => Undef
  end.
