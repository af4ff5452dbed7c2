(** Model of how pound starts and ends: the sockets and files it makes, the identity it takes, and the files it removes when it ends
    (src/pound.c 558-675, 740-762, 1044-1247 and detach; src/config.c 185-208, 2790-2827, 3269-3305, 3349-3445, 4162-4245, 5410-5436).
    Definitions only.  Outside: symbolic links, "." and ".." in names, the right to search a directory and sticky directories,
    and directories that are renamed or removed while pound runs.  The answers of getpwnam, getgrnam, getaddrinfo and of bind and listen
    for Internet addresses are arguments.  Messages are left out. *)
From Coq Require Import Ascii String List ZArith Bool.
From Verif Require Import Bytes.
Import ListNotations.
Local Open Scope string_scope.
Local Open Scope list_scope.
Local Open Scope Z_scope.

(** * The system *)

(** The place of a file: its components from the real root *)
Definition path := list bytes.

(** What stands at a place.  A socket keeps the number of the process that bound it, a regular file what pound wrote to it *)
Inductive node :=
| Dir (mode owner group : Z)
| Sock (mode owner group pid : Z)
| Reg (mode owner group : Z) (content : option Z).

Definition fs := path -> option node.

Fixpoint bytes_eqb (a b : bytes) : bool :=
  match a, b with
  | [], [] => true
  | x :: a', y :: b' => beq x y && bytes_eqb a' b'
  | _, _ => false
  end.

Fixpoint path_eqb (p q : path) : bool :=
  match p, q with
  | [], [] => true
  | x :: p', y :: q' => bytes_eqb x y && path_eqb p' q'
  | _, _ => false
  end.

Definition put (p : path) (n : option node) (f : fs) : fs := fun q => if path_eqb p q then n else f q.

(** A process: its identities, its file creation mask, its root and working directories, its number *)
Record proc := mkP {
  ruid : Z; euid : Z; suid : Z; rgid : Z; egid : Z; sgid : Z; groups : list Z;
  umask : Z; root : path; cwd : path; pid : Z }.

Definition with_umask (m : Z) (p : proc) : proc :=
  mkP (ruid p) (euid p) (suid p) (rgid p) (egid p) (sgid p) (groups p) m (root p) (cwd p) (pid p).
Definition with_dirs (r c : path) (p : proc) : proc :=
  mkP (ruid p) (euid p) (suid p) (rgid p) (egid p) (sgid p) (groups p) (umask p) r c (pid p).
Definition with_pid (n : Z) (p : proc) : proc :=
  mkP (ruid p) (euid p) (suid p) (rgid p) (egid p) (sgid p) (groups p) (umask p) (root p) (cwd p) n.
Definition with_uids (r e s : Z) (p : proc) : proc :=
  mkP r e s (rgid p) (egid p) (sgid p) (groups p) (umask p) (root p) (cwd p) (pid p).
Definition with_gids (r e s : Z) (p : proc) : proc :=
  mkP (ruid p) (euid p) (suid p) r e s (groups p) (umask p) (root p) (cwd p) (pid p).

(** The components of a name: what stands between slashes *)
Fixpoint comps (cur s : bytes) : list bytes :=
  match s with
  | [] => match cur with [] => [] | _ => [cur] end
  | c :: s' => if beq c "/"%char then match cur with [] => comps [] s' | _ => cur :: comps [] s' end
               else comps (cur ++ [c]) s'
  end.

Definition absolute (s : bytes) : bool := match s with c :: _ => beq c "/"%char | [] => false end.

(** The place a name means for a process *)
Definition place (p : proc) (s : bytes) : path := (if absolute s then root p else cwd p) ++ comps [] s.

(** strrchr (s, '/'): what stands before the last slash and after it *)
Fixpoint last_slash (s : bytes) : option (bytes * bytes) :=
  match s with
  | [] => None
  | c :: s' => match last_slash s' with
               | Some (d, b) => Some (c :: d, b)
               | None => if beq c "/"%char then Some ([], s') else None
               end
  end.

Definition basename (s : bytes) : bytes := match last_slash s with Some (_, b) => b | None => s end.

Definition is_dir (n : option node) : bool := match n with Some (Dir _ _ _) => true | _ => false end.

Definition mem (z : Z) (l : list Z) : bool := existsb (Z.eqb z) l.

(** The right to make and remove files in a directory *)
Definition may_write (p : proc) (n : option node) : bool :=
  match n with
  | Some (Dir m o g) =>
      (euid p =? 0) ||
      (if euid p =? o then Z.testbit m 7
       else if (egid p =? g) || mem g (groups p) then Z.testbit m 4
       else Z.testbit m 1)
  | _ => false
  end.

(** unlink (2) and unlinkat (2) for the file [b] of the directory at [d] *)
Definition remove (p : proc) (d : path) (b : bytes) (f : fs) : fs :=
  match b with
  | [] => f
  | _ => if may_write p (f d) then
           match f (d ++ [b]) with
           | Some (Dir _ _ _) | None => f
           | Some _ => put (d ++ [b]) None f
           end
         else f
  end.

(** unlink (name) *)
Definition unlink (p : proc) (s : bytes) (f : fs) : fs :=
  remove p (removelast (place p s)) (basename s) f.

(** bind (2) of a UNIX socket: names of 109 bytes and more with the final null do not fit in struct sockaddr_un (EINVAL);
    the empty name makes no file; a file that is there is an error, as is a directory that is not *)
Definition bind_unix (p : proc) (s : bytes) (f : fs) : option fs :=
  if Nat.ltb 107 (length s) then None
  else match s with
       | [] => Some f
       | _ => match basename s with
              | [] => None
              | _ => match f (place p s) with
                     | Some _ => None
                     | None => if may_write p (f (removelast (place p s)))
                               then Some (put (place p s) (Some (Sock (Z.ldiff 511 (umask p)) (euid p) (egid p) (pid p))) f)
                               else None
                     end
              end
       end.

(** chown (2); -1 leaves a part as it is.  Without the right to, nothing changes *)
Definition chown (p : proc) (s : bytes) (u g : Z) (f : fs) : fs :=
  match f (place p s) with
  | Some (Sock m o gr n) =>
      let u' := if u =? -1 then o else u in
      let g' := if g =? -1 then gr else g in
      if (euid p =? 0) || ((u' =? o) && (o =? euid p) && ((g' =? gr) || (g' =? egid p) || mem g' (groups p)))
      then put (place p s) (Some (Sock m u' g' n)) f
      else f
  | _ => f
  end.

(** setgid (2), setegid (2), setuid (2), seteuid (2): [None] is an error *)
Definition setgid (g : Z) (p : proc) : option proc :=
  if euid p =? 0 then Some (with_gids g g g p)
  else if (g =? rgid p) || (g =? sgid p) then Some (with_gids (rgid p) g (sgid p) p) else None.
Definition setegid (g : Z) (p : proc) : option proc :=
  if (euid p =? 0) || (g =? rgid p) || (g =? sgid p) then Some (with_gids (rgid p) g (sgid p) p) else None.
Definition setuid (u : Z) (p : proc) : option proc :=
  if euid p =? 0 then Some (with_uids u u u p)
  else if (u =? ruid p) || (u =? suid p) then Some (with_uids (ruid p) u (suid p) p) else None.
Definition seteuid (u : Z) (p : proc) : option proc :=
  if (euid p =? 0) || (u =? ruid p) || (u =? suid p) then Some (with_uids (ruid p) u (suid p) p) else None.

(** * The configuration *)

(** What pound_atexit has been given: unlink_file with a name, or unlink_file_location with a directory and a name in it *)
Inductive exit_entry := ByName (s : bytes) | At (d : path) (b : bytes).

(** Statements of a Control section, config.c 4199-4218 *)
Inductive control_stmt := Socket (s : bytes) | Mode (m : Z) | ChangeOwner (b : bool).

(** Statements of the configuration file.  [User] and [Group] come with the answer of getpwnam and getgrnam,
    [Listen] with that of bind and listen *)
Inductive stmt :=
| RootJail (d : bytes) | Daemon (b : bool) | PIDFile (s : bytes)
| User (u : option Z) | Group (g : option Z)
| Control (l : list control_stmt) | Listen (ok : bool).

(** LISTENER: addr, mode, chowner.  [Inet]: the answer of bind and listen *)
Inductive listener := Unix (s : bytes) (mode : Z) (chowner : bool) | Inet (ok : bool).

Record conf := mkC {
  c_jail : option bytes; c_daemon : bool; c_pid : bytes;
  c_user : option (option Z); c_group : option (option Z);
  c_listeners : list listener; c_exit : list exit_entry }.

Definition UNIX_PATH_MAX : nat := 108.

(** unlink_at_exit, pound.c 568-618.  open (dir) fails for an empty name and for what is no directory; nothing is remembered then *)
Definition unlink_at_exit (p : proc) (f : fs) (jail : option bytes) (s : bytes) (l : list exit_entry) : list exit_entry :=
  match jail with
  | None => l ++ [ByName s]
  | Some _ =>
      match last_slash s with
      | None => if is_dir (f (cwd p)) then l ++ [At (cwd p) s] else l
      | Some (d, b) => match d with
                       | [] => l
                       | _ => if is_dir (f (place p d)) then l ++ [At (place p d) b] else l
                       end
      end
  end.

(** The section Control, config.c 4162-4197, 4223-4268: parser_loop, then the check that there was a Socket statement.
    [sock] is what Socket has set so far *)
Fixpoint control_loop (p : proc) (f : fs) (jail : option bytes) (l : list control_stmt)
    (sock : option bytes) (mode : Z) (own : bool) (ex : list exit_entry) : option (listener * list exit_entry) :=
  match l with
  | [] => match sock with Some s => Some (Unix s mode own, ex) | None => None end
  | Socket s :: l' => if Nat.ltb UNIX_PATH_MAX (length s) then None
                      else control_loop p f jail l' (Some s) mode own (unlink_at_exit p f jail s ex)
  | Mode m :: l' => control_loop p f jail l' sock m own ex
  | ChangeOwner b :: l' => control_loop p f jail l' sock mode b ex
  end.

Definition parse_stmt (p : proc) (f : fs) (c : conf) (s : stmt) : option conf :=
  match s with
  | RootJail d => Some (mkC (Some d) (c_daemon c) (c_pid c) (c_user c) (c_group c) (c_listeners c) (c_exit c))
  | Daemon b => Some (mkC (c_jail c) b (c_pid c) (c_user c) (c_group c) (c_listeners c) (c_exit c))
  | PIDFile n => Some (mkC (c_jail c) (c_daemon c) n (c_user c) (c_group c) (c_listeners c) (c_exit c))
  | User u => Some (mkC (c_jail c) (c_daemon c) (c_pid c) (Some u) (c_group c) (c_listeners c) (c_exit c))
  | Group g => Some (mkC (c_jail c) (c_daemon c) (c_pid c) (c_user c) (Some g) (c_listeners c) (c_exit c))
  | Listen ok => Some (mkC (c_jail c) (c_daemon c) (c_pid c) (c_user c) (c_group c) (c_listeners c ++ [Inet ok]) (c_exit c))
  | Control l => match control_loop p f (c_jail c) l None 384 false (c_exit c) with
                 | Some (ls, ex) => Some (mkC (c_jail c) (c_daemon c) (c_pid c) (c_user c) (c_group c) (c_listeners c ++ [ls]) ex)
                 | None => None
                 end
  end.

Fixpoint parse_loop (p : proc) (f : fs) (l : list stmt) (c : conf) : option conf :=
  match l with
  | [] => Some c
  | s :: l' => match parse_stmt p f c s with Some c' => parse_loop p f l' c' | None => None end
  end.

(** The defaults, pound.c 27-31; [default_pid] is POUND_PID *)
Definition conf0 (default_pid : bytes) : conf := mkC None true default_pid None None [] [].

(** * Start *)

Record state := mkS { s_proc : proc; s_fs : fs; s_exit : list exit_entry }.

(** listener_init, pound.c 1044-1105.  [None]: abend; the files are as they are then *)
Definition listener_init (p : proc) (u g : Z) (l : listener) (f : fs) : bool * fs :=
  match l with
  | Inet ok => (ok, f)
  | Unix s mode own =>
      let f1 := unlink p s f in
      match bind_unix (with_umask (Z.ldiff 511 mode) p) s f1 with
      | None => (false, f1)
      | Some f2 => (true, if own then chown p s u g f2 else f2)
      end
  end.

Fixpoint open_listeners (p : proc) (u g : Z) (l : list listener) (f : fs) : bool * fs :=
  match l with
  | [] => (true, f)
  | x :: l' => match listener_init p u g x f with
               | (true, f') => open_listeners p u g l' f'
               | (false, f') => (false, f')
               end
  end.

(** pidfile_create, pound.c 620-634: fopen (pid_name, "wt") makes the file or empties it *)
Definition pidfile_create (p : proc) (jail : option bytes) (s : bytes) (f : fs) (ex : list exit_entry) : fs * list exit_entry :=
  let q := place p s in
  match basename s with
  | [] => (f, ex)
  | _ =>
      match f q with
      | Some (Reg m o g _) =>
          if (euid p =? 0) || (if euid p =? o then Z.testbit m 7
                               else if (egid p =? g) || mem g (groups p) then Z.testbit m 4 else Z.testbit m 1)
          then let f' := put q (Some (Reg m o g (Some (pid p)))) f in (f', unlink_at_exit p f' jail s ex)
          else (f, ex)
      | Some _ => (f, ex)
      | None => if may_write p (f (removelast q))
                then let f' := put q (Some (Reg (Z.ldiff 438 (umask p)) (euid p) (egid p) (Some (pid p)))) f in
                     (f', unlink_at_exit p f' jail s ex)
                else (f, ex)
      end
  end.

(** The identity, main 1231-1237 *)
Definition set_ids (u g : option Z) (p : proc) : option proc :=
  let p1 := match g with
            | None => Some p
            | Some g' => match setgid g' p with Some p' => setegid g' p' | None => None end
            end in
  match p1 with
  | None => None
  | Some p1 => match u with
               | None => Some p1
               | Some u' => match setuid u' p1 with Some p' => seteuid u' p' | None => None end
               end
  end.

(** The end of a start: the configuration was refused, or the program ended with a message, or the server runs *)
Inductive outcome := Refused | Failed (f : fs) | Running (s : state).

(** main, pound.c 1107-1247, with config_parse 5410-5436.  [pid_option], [foreground]: the options -p and -F;
    [child]: the process number fork gives in detach; [jail_ok]: the answer of chroot for a directory that exists *)
Section Start.
  Variable default_pid : bytes.
  Variable pid_option : option bytes.
  Variable foreground : bool.
  Variable child : Z.

  Definition known (x : option (option Z)) : bool := match x with Some None => false | _ => true end.
  Definition id_of (x : option (option Z)) : option Z := match x with Some (Some z) => Some z | _ => None end.
  Definition or_minus (x : option Z) : Z := match x with Some z => z | None => -1 end.

  Definition pid_name (c : conf) : bytes := match pid_option with Some s => s | None => c_pid c end.
  Definition daemonize (c : conf) : bool := if foreground then false else c_daemon c.

  Definition launch (p0 : proc) (c : conf) (f0 : fs) : outcome :=
    if negb (known (c_user c) && known (c_group c)) then Failed f0
    else
      let u := id_of (c_user c) in
      let g := id_of (c_group c) in
      match open_listeners p0 (or_minus u) (or_minus g) (c_listeners c) f0 with
      | (false, f1) => Failed f1
      | (true, f1) =>
          let p1 := if daemonize c then with_pid child (with_dirs (root p0) (root p0) p0) else p0 in
          let (f2, ex) := pidfile_create p1 (c_jail c) (pid_name c) f1 (c_exit c) in
          match (match c_jail c with
                 | None => Some p1
                 | Some j => if (euid p1 =? 0) && negb (match j with [] => true | _ => false end) && is_dir (f2 (place p1 j))
                             then Some (with_dirs (place p1 j) (place p1 j) p1) else None
                 end) with
          | None => Failed f2
          | Some p2 => match set_ids u g p2 with
                       | None => Failed f2
                       | Some p3 => Running (mkS p3 f2 ex)
                       end
          end
      end.

  Definition start (p : proc) (l : list stmt) (f : fs) : outcome :=
    let p0 := with_umask 63 p in
    match parse_loop p0 f l (conf0 default_pid) with
    | None => Refused
    | Some c => match c_listeners c with
                | [] => Failed f
                | _ => launch p0 c f
                end
    end.
End Start.

(** cleanup, pound.c 659-672, run by the server process when a signal ends it (740-762) *)
Definition run_entry (p : proc) (f : fs) (e : exit_entry) : fs :=
  match e with ByName s => unlink p s f | At d b => remove p d b f end.

Definition finish (s : state) : fs := fold_left (run_entry (s_proc s)) (s_exit s) (s_fs s).

(** * The address of a listener *)

(** Statements of ListenHTTP and ListenHTTPS that set its address *)
Inductive addr_stmt := Address (a : bytes) | Port (p : bytes) | SocketFrom (s : bytes).

(** LISTENER: addr_str, port_str, and addr with socket_from *)
Record lst := mkL { l_addr : option bytes; l_port : option bytes; l_from : option bytes }.

(** assign_address_string, assign_port_string (config.c 185-208), listener_parse_socket_from (2790-2827) *)
Definition addr_stmt_parse (l : lst) (s : addr_stmt) : option lst :=
  match s with
  | Address a => Some (mkL (Some a) (l_port l) (l_from l))
  | Port p => Some (mkL (l_addr l) (Some p) (l_from l))
  | SocketFrom f =>
      match l_addr l, l_port l with
      | None, None => if Nat.ltb UNIX_PATH_MAX (length f) then None else Some (mkL (l_addr l) (l_port l) (Some f))
      | _, _ => None
      end
  end.

Fixpoint addr_loop (l : list addr_stmt) (x : lst) : option lst :=
  match l with
  | [] => Some x
  | s :: l' => match addr_stmt_parse x s with Some x' => addr_loop l' x' | None => None end
  end.

(** What getaddrinfo gives: a family, whether the address is the wildcard, and the address *)
Record ainfo := mkAI { ai_inet6 : bool; ai_any : bool; ai_bytes : bytes }.

Inductive where_ := From (s : bytes) | On (a : ainfo).

(** resolve_listener_address, config.c 3349-3388.  [gai]: getaddrinfo; an empty list stands for an error *)
Definition resolve_listener_address (gai : option bytes -> bytes -> list ainfo) (defsrv : bytes) (x : lst) : option where_ :=
  match l_from x with
  | Some s => Some (From s)
  | None =>
      match gai (l_addr x) (match l_port x with Some p => p | None => defsrv end) with
      | [] => None
      | [a] => Some (On a)
      | a :: b :: _ => Some (On (if negb (ai_inet6 a) && ai_any a && ai_inet6 b && ai_any b then b else a))
      end
  end.

(** find_listener_ident and the head of parse_listen_http / parse_listen_https, 3291-3301, 3402-3414.
    [names]: the names of the listeners so far; a listener may have none *)
Fixpoint listeners_loop (gai : option bytes -> bytes -> list ainfo)
    (l : list (option bytes * bytes * list addr_stmt)) (names : list (option bytes)) (acc : list where_) : option (list (option bytes) * list where_) :=
  match l with
  | [] => Some (names, acc)
  | (n, defsrv, body) :: l' =>
      if (match n with
          | Some n' => existsb (fun m => match m with Some m' => bytes_eqb m' n' | None => false end) names
          | None => false
          end) then None
      else match addr_loop body (mkL None None None) with
           | None => None
           | Some x => match resolve_listener_address gai defsrv x with
                       | None => None
                       | Some w => listeners_loop gai l' (names ++ [n]) (acc ++ [w])
                       end
           end
  end.
