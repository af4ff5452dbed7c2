(** Model of password files read by several workers at once: pass_file_fill, user_pass_free, pass_file_changed and basic_auth_internal of src/bauth.c
    (292-407).  There is no lock around them: auth_crypt (32-44) has one, for crypt only.  Definitions only.
    A worker is modelled by its phases; a step is one access to the shared list.  Simplified: the lines of the file are given as entries (C26 models the
    reading of lines and the comparison of passwords), allocation succeeds, taking the first entry off the list and releasing it are one step, so are
    the allocation of an entry and its insertion. *)
From Coq Require Import List Arith Bool.
From Verif Require Import Bytes.
Import ListNotations.

Record entry := mkE { user : bytes; pass : bytes }.
(** struct user_pass in memory: released, or an entry and a link *)
Inductive node := Freed | Node (e : entry) (next : option nat).

(** struct pass_file: the list and the time of the file when it was read; None before the first reading *)
Record shared := mkH { heap : list node; head : option nat; mtim : option nat }.
(** The file: its time and entries; None if there is no such file *)
Definition file := option (nat * list entry).

Inductive phase :=
| Begin
| Read (c : file)                  (** opened, and fstat done *)
| Clearing (c : list entry)        (** user_pass_free; [c] is still to be read *)
| Filling (c : list entry)
| Search
| At (p : option nat)              (** up = [p] *)
| End (ok : bool)
| Crash.                           (** a released entry was used *)

Record worker := mkW { name : bytes; key : bytes; ph : phase }.
Record state := mkS { mem : shared; disk : file; ws : list worker }.

Section Auth.
  (** auth_match *)
  Variable matches : bytes -> bytes -> bool.

  Fixpoint put {A} (l : list A) (i : nat) (x : A) : list A :=
    match l, i with [], _ => [] | _ :: t, 0 => x :: t | y :: t, S j => y :: put t j x end.

  Definition time_eqb (a : option nat) (t : nat) : bool := match a with Some x => x =? t | None => false end.

  (** One step of a worker *)
  Definition wstep (m : shared) (d : file) (w : worker) : option (shared * phase) :=
    match ph w with
    | Begin => Some (m, Read d)
    | Read None => Some (mkH (heap m) (head m) None, Clearing [])                   (** ENOENT, 330-334 *)
    | Read (Some (t, c)) =>
        if time_eqb (mtim m) t then Some (m, Search)
        else Some (mkH (heap m) (head m) (Some t), Clearing c)                       (** pass_file_changed, 303-319 *)
    | Clearing c =>
        match head m with
        | None => Some (m, Filling c)
        | Some a => match nth_error (heap m) a with
                    | Some (Node _ n) => Some (mkH (put (heap m) a Freed) n (mtim m), Clearing c)
                    | _ => Some (m, Crash)
                    end
        end
    | Filling [] => Some (m, Search)
    | Filling (e :: c) => Some (mkH (heap m ++ [Node e (head m)]) (Some (length (heap m))) (mtim m), Filling c)
    | Search => Some (m, At (head m))
    | At None => Some (m, End false)
    | At (Some a) =>
        match nth_error (heap m) a with
        | Some (Node e n) => if bytes_eqb (user e) (name w) then Some (m, End (matches (key w) (pass e))) else Some (m, At n)
        | _ => Some (m, Crash)
        end
    | End _ | Crash => None
    end.

  (** Events: worker [i] makes a step, the file is replaced, a request comes *)
  Inductive event := Go (i : nat) | Save (c : file) | Come (name key : bytes).

  Definition step (s : state) (e : event) : option state :=
    match e with
    | Go i => match nth_error (ws s) i with
              | Some w => match wstep (mem s) (disk s) w with
                          | Some (m, p) => Some (mkS m (disk s) (put (ws s) i (mkW (name w) (key w) p)))
                          | None => None
                          end
              | None => None
              end
    | Save c => Some (mkS (mem s) c (ws s))
    | Come n k => Some (mkS (mem s) (disk s) (ws s ++ [mkW n k Begin]))
    end.
  Fixpoint run (s : state) (l : list event) : option state :=
    match l with [] => Some s | e :: l => match step s e with Some s => run s l | None => None end end.
End Auth.
