(** Specification of the supervisor. *)
From Coq Require Import List ZArith Bool.
From Verif Require Import SupModel.
Import ListNotations.
Open Scope Z_scope.

(** A process ended normally. *)
Definition normal (h : status) : Prop := h = Exited 0.
(** A request to terminate *)
Definition term (g : signo) : bool := match g with HUP | INT | TERM | QUIT => true | _ => false end.
(** Server processes that run *)
Definition running (s : state) : nat := length (filter (fun x => match snd x with None => true | _ => false end) (procs s)).
(** SIGCHLD comes only when a child ends: no child is stopped, and nobody else sends it. *)
Definition plain (ls : list label) : Prop := ~ In (Sig CHLD) ls.
