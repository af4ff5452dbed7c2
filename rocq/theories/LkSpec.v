(** What is said of locks (C81). *)
From Coq Require Import List Arith Bool.
From Verif Require Import LkModel.
Import ListNotations.

(** [st] is a state of a pound with the threads [ks] and the jobs [q] at the start *)
Definition reachable (ks : list thread) (q : list nat) (st : state) : Prop :=
  exists ts sched, Forall2 (fun k t => runs (code k) t) ks ts /\ after (start ts q) sched = Some st.

Definition next (st : state) (i : nat) (a : action) : Prop := exists h t, nth_error (threads st) i = Some (mkR h (a :: t)).
Definition holding (st : state) (i : nat) (l : lock) : Prop := exists r, nth_error (threads st) i = Some r /\ In l (has r).

(** [i] wants a lock that [j] has *)
Definition waits (st : state) (i j : nat) : Prop := i <> j /\ exists l, next st i (Acq l) /\ holding st j l.
(** Each of the threads [d] waits for another of them: none of them will ever go on *)
Definition deadlock (st : state) (d : list nat) : Prop := d <> [] /\ forall i, In i d -> exists j, In j d /\ waits st i j.

(** Two threads are about to use the lists of the same service, and one of them changes them *)
Definition race (st : state) (i j : nat) : Prop := i <> j /\ exists s w, next st i (Use s true) /\ next st j (Use s w).

(** The backends a dynamic backend makes come below it: [level] is their distance from the configuration *)
Fixpoint placed (level : nat -> nat) (t : tree) : Prop :=
  match t with
  | Reg _ => True
  | Mtx b l => (fix all (l : list tree) : Prop := match l with [] => True | k :: l => level b < level (root k) /\ placed level k /\ all l end) l
  end.
Definition well_placed (level : nat -> nat) (k : thread) : Prop :=
  match k with
  | Resolve _ t fresh | EnableDynamic _ t fresh => placed level t /\ Forall (fun b => level (root t) < level b) fresh
  | DisableDynamic _ t => placed level t
  | _ => True
  end.

(** Threads that may cancel the job of a dynamic backend: its state is set to disabled, or it is one that another dynamic backend has made *)
Definition makes_dynamic (t : tree) : Prop := exists b l, In (Mtx b l) (kids t).
Definition cancels (k : thread) : Prop :=
  match k with
  | DisableDynamic _ _ => True
  | Resolve _ t _ | EnableDynamic _ t _ => makes_dynamic t
  | _ => False
  end.

(** Control requests that look for a backend by its number, or at all the backends of a service *)
Definition looks (k : thread) : Prop :=
  match k with ListBackend _ _ | SessionAdd _ _ | SetStatic _ _ | SetService _ _ | EnableDynamic _ _ _ | DisableDynamic _ _ => True | _ => False end.
