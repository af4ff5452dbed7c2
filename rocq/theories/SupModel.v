(** Model of the supervisor, src/pound.c 764-877, and of how it gets signals.

    The signals are not blocked (sigaction installs a handler that does nothing, and
    there is no sigprocmask before supervisor is called, pound.c 1106-1245).  So a signal
    that arrives while the process is in sigwait is returned by it, and one that arrives
    while it is in wait interrupts it (EINTR, as sa_flags is 0).  At any other time it is
    lost.  wait returns a child that has ended; if there is none, it blocks. *)
From Coq Require Import List ZArith Bool.
Import ListNotations.
Open Scope Z_scope.

(** The signals of pound.c 683-690 and 791-797; PIPE is ignored. *)
Inductive signo := HUP | INT | TERM | QUIT | CHLD | ALRM.

(** How a process ended: WIFEXITED with a status, or WIFSIGNALED *)
Inductive status := Exited (code : Z) | Signaled (sig : Z).

Inductive sup_state := RUNNING | TERMINATING.

(** Where the process is *)
Inductive location :=
| Top       (** pound.c 801, or anywhere up to 818 *)
| Sigwait   (** in sigwait, 818 *)
| InWait    (** blocked in wait, 823 *)
| Done.     (** after the loop *)

(** Children: process id and, if it has ended and was not waited for, how *)
Record state := mkSup {
  loc : location;
  pid : Z;                (* 0: none *)
  st : sup_state;
  procs : list (Z * option status);
  next : Z                (* the next process id *)
}.

(** pound.c 767, 777 *)
Definition init : state := mkSup Top 0 RUNNING [] 1.

(** What the supervisor does that others can see.  Start: a server process is started. *)
Inductive action := Start (pid : Z) | Kill (pid : Z) (sig : signo) | KillNow (pid : Z) | Alarm | End.

(** the first child that has ended *)
Fixpoint zombie (l : list (Z * option status)) : option (Z * status) :=
  match l with
  | [] => None
  | (p, Some s) :: _ => Some (p, s)
  | (_, None) :: l => zombie l
  end.
Definition reap (p : Z) (l : list (Z * option status)) : list (Z * option status) := filter (fun x => negb (Z.eqb (fst x) p)) l.

(** pound.c 823-861, after wait; None: it failed *)
Definition waited (s : state) (r : option (Z * status)) : state * list action :=
  let procs := match r with Some (p, _) => reap p (procs s) | None => procs s end in
  match r with
  | Some (p, Exited 0) =>
      if Z.eqb p (pid s) then (mkSup Done (pid s) (st s) procs (next s), [End])
      else match st s with
           | RUNNING => (mkSup Top 0 (st s) procs (next s), [])
           | TERMINATING => (mkSup Done (pid s) (st s) procs (next s), [End])
           end
  | _ =>
      match st s with
      | RUNNING => (mkSup Top 0 (st s) procs (next s), [])
      | TERMINATING => (mkSup Done (pid s) (st s) procs (next s), [End])
      end
  end.

(** pound.c 821-875: a signal was returned by sigwait *)
Definition handle (s : state) (g : signo) : state * list action :=
  match g with
  | CHLD =>
      match zombie (procs s) with
      | Some z => waited s (Some z)
      | None =>
          match procs s with
          | [] => waited s None                                                        (* ECHILD *)
          | _ => (mkSup InWait (pid s) (st s) (procs s) (next s), [])
          end
      end
  | ALRM => (mkSup Done (pid s) (st s) (procs s) (next s), [KillNow (pid s); End])
  | g =>
      match st s with
      | RUNNING =>
          (mkSup Top (pid s) TERMINATING (procs s) (next s), (if Z.eqb (pid s) 0 then [] else [Kill (pid s) g]) ++ [Alarm])
      | TERMINATING => (mkSup Top (pid s) TERMINATING (procs s) (next s), [])
      end
  end.

Inductive label :=
| Go (ok : bool)                (** the process goes on to sigwait; if it forks, whether fork succeeds *)
| Sig (g : signo)               (** a signal is sent to it *)
| Ends (p : Z) (s : status).    (** a child ends; it gets SIGCHLD *)

Definition signal (s : state) (g : signo) : state * list action :=
  match loc s with
  | Sigwait => handle s g
  | InWait => waited s None
  | _ => (s, [])
  end.

Definition alive (p : Z) (l : list (Z * option status)) : bool :=
  existsb (fun x => Z.eqb (fst x) p && match snd x with None => true | _ => false end) l.

Definition step (s : state) (l : label) : option (state * list action) :=
  match l with
  | Go ok =>
      match loc s with
      | Top =>
          if Z.eqb (pid s) 0                                                            (* pound.c 801-816 *)
          then match st s with
               | TERMINATING => Some (mkSup Done (pid s) (st s) (procs s) (next s), [End])
               | RUNNING =>
                   if ok then Some (mkSup Top (next s) (st s) ((next s, None) :: procs s) (next s + 1), [Start (next s)])
                   else Some (mkSup Done (-1) (st s) (procs s) (next s), [End])
               end
          else Some (mkSup Sigwait (pid s) (st s) (procs s) (next s), [])              (* pound.c 818 *)
      | _ => None
      end
  | Sig g => Some (signal s g)
  | Ends p how =>
      if alive p (procs s)
      then
        let procs := map (fun x => if Z.eqb (fst x) p then (p, Some how) else x) (procs s) in
        let s := mkSup (loc s) (pid s) (st s) procs (next s) in
        match loc s with
        | Sigwait => Some (handle s CHLD)
        | InWait => Some (waited s (Some (p, how)))
        | _ => Some (s, [])
        end
      else None
  end.

Fixpoint run (s : state) (ls : list label) : option (state * list action) :=
  match ls with
  | [] => Some (s, [])
  | l :: ls =>
      match step s l with
      | None => None
      | Some (s, a) => match run s ls with Some (s, b) => Some (s, a ++ b) | None => None end
      end
  end.
