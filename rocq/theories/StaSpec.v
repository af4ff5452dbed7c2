(** Words used in the statements about the start and the end of pound (C76, C77, C78): what a configuration says, read off its statements,
    and where a name points.  Nothing here uses the functions of the model that read the configuration or start the server. *)
From Coq Require Import Ascii String List ZArith Bool.
From Verif Require Import Bytes StaModel.
Import ListNotations.
Local Open Scope string_scope.
Local Open Scope list_scope.
Local Open Scope Z_scope.

(** The last one of the answers of [f] *)
Fixpoint last_of {A B} (f : A -> option B) (l : list A) : option B :=
  match l with
  | [] => None
  | x :: l' => match last_of f l' with Some y => Some y | None => f x end
  end.

Definition or {A} (o : option A) (d : A) : A := match o with Some x => x | None => d end.

(** What a Control section says: the sockets it names, the one it listens on, its mode (0600 if none is given), ChangeOwner *)
Definition named (l : list control_stmt) : list bytes :=
  flat_map (fun x => match x with Socket s => [s] | _ => [] end) l.
Definition socket_of (l : list control_stmt) : option bytes :=
  last_of (fun x => match x with Socket s => Some s | _ => None end) l.
Definition mode_of (l : list control_stmt) : Z :=
  or (last_of (fun x => match x with Mode m => Some m | _ => None end) l) 384.
Definition change_of (l : list control_stmt) : bool :=
  or (last_of (fun x => match x with ChangeOwner b => Some b | _ => None end) l) false.

(** What the configuration says *)
Definition jail_of (l : list stmt) : option bytes := last_of (fun x => match x with RootJail d => Some d | _ => None end) l.
Definition daemon_of (l : list stmt) : bool := or (last_of (fun x => match x with Daemon b => Some b | _ => None end) l) true.
Definition user_of (l : list stmt) : option (option Z) := last_of (fun x => match x with User u => Some u | _ => None end) l.
Definition group_of (l : list stmt) : option (option Z) := last_of (fun x => match x with Group g => Some g | _ => None end) l.
Definition pidfile_of (default : bytes) (l : list stmt) : bytes := or (last_of (fun x => match x with PIDFile s => Some s | _ => None end) l) default.

(** All the socket names of a configuration *)
Definition all_named (l : list stmt) : list bytes :=
  flat_map (fun x => match x with Control b => named b | _ => [] end) l.

(** The command line decides first *)
Definition runs_detached (foreground : bool) (l : list stmt) : bool := negb foreground && daemon_of l.
Definition pidfile (default : bytes) (option : option bytes) (l : list stmt) : bytes :=
  match option with Some s => s | None => pidfile_of default l end.

(** The place a name points to, for a process with the real root and the working directory [dir] *)
Definition from (dir : path) (s : bytes) : path := (if absolute s then [] else dir) ++ comps [] s.

(** The file names the PID file's process: the directory the PID file is looked for in is / once pound has detached *)
Definition pid_dir (p : proc) (foreground : bool) (l : list stmt) : path := if runs_detached foreground l then [] else cwd p.

(** A socket or a regular file *)
Definition present (n : option node) : bool := match n with Some (Sock _ _ _ _) | Some (Reg _ _ _ _) => true | _ => false end.

(** No RootJail statement, or one before all Control sections *)
Definition no_control (l : list stmt) : Prop := forall b, ~ In (Control b) l.
Definition jail_first (l : list stmt) : Prop :=
  jail_of l = None \/ exists l1 j l2, l = l1 ++ RootJail j :: l2 /\ no_control l1.

(** The name is that of a file directly in the root directory: a slash and then no other *)
Definition top_level (s : bytes) : Prop := exists b, s = "/"%char :: b /\ ~ In "/"%char b.

(** The name ends in the name of a file: it is not empty and does not end in a slash *)
Definition file_name (s : bytes) : Prop := s <> [] /\ last s "/"%char <> "/"%char.
