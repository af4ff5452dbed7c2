(** Model of how the names of files in a configuration are looked up: the include directory and the
    table of directories of src/cfgparser.c (281-475, 742-785, 1107-1181) and src/cfgparser.h (36-64), the fix-up of the
    names of password files and the options of the command line of src/config.c (5023-5123, 5186-5270),
    and the place where a password file is looked for when a request comes (src/bauth.c 322-337).
    Definitions only.  A file is opened under a path; paths that do not begin with a slash are
    meant from the directory pound was started in.  Messages are left out. *)
From Coq Require Import Ascii String List ZArith Bool.
From Verif Require Import Bytes.
Import ListNotations.
Local Open Scope string_scope.
Local Open Scope list_scope.
Local Open Scope Z_scope.

(** Results: done; an error message and the end of the program; the use of a null pointer or of
    memory that has been freed *)
Inductive out (A : Type) := Ok (a : A) | Fail | Wild.
Arguments Ok {A}. Arguments Fail {A}. Arguments Wild {A}.

Definition bind {A B} (x : out A) (k : A -> out B) : out B :=
  match x with Ok a => k a | Fail => Fail | Wild => Wild end.

(** struct workdir, cfgparser.h 36-42.  [w_id] stands for its address; [w_cwd]: the descriptor is AT_FDCWD *)
Record wd := mkWd { w_id : nat; w_name : bytes; w_ref : Z; w_cwd : bool }.

(** workdir_head, the address the next malloc gives, and include_wd *)
Record st := mkSt { s_head : list wd; s_next : nat; s_inc : option nat }.

(** filename[0] == '/' *)
Definition absolute (f : bytes) : bool := match f with c :: _ => beq c "/"%char | [] => false end.

(** What the pointer points to *)
Definition at_ (s : st) (id : nat) : option wd := find (fun w => Nat.eqb (w_id w) id) (s_head s).

(** wp->refcount += n, for a live wp *)
Definition add_ref (n : Z) (id : nat) (s : st) : st :=
  mkSt (map (fun w => if Nat.eqb (w_id w) id then mkWd (w_id w) (w_name w) (w_ref w + n) (w_cwd w) else w) (s_head s))
       (s_next s) (s_inc s).

Definition set_inc (i : option nat) (s : st) : st := mkSt (s_head s) (s_next s) i.

Section Files.
  (** getcwd; whether open (name, O_DIRECTORY) works; whether a file can be opened *)
  Variable cwd : bytes.
  Variable is_dir : bytes -> bool.
  Variable readable : bytes -> bool.
  (** include_dir, cfgparser.c 416 and config.c 5200-5222 *)
  Variable include_dir : option bytes.

  (** workdir_get, cfgparser.c 332-369; None: NULL *)
  Definition workdir_get (name : option bytes) (s : st) : option (nat * st) :=
    let n := match name with Some n => n | None => cwd end in
    match find (fun w => bytes_eqb (w_name w) n) (s_head s) with
    | Some w => Some (w_id w, add_ref 1 (w_id w) s)
    | None =>
      let new := mkSt (s_head s ++ [mkWd (s_next s) n 1 (match name with None => true | Some _ => false end)]) (S (s_next s)) (s_inc s) in
      match name with
      | None => Some (s_next s, new)
      | Some n => if is_dir n then Some (s_next s, new) else None
      end
    end.

  (** workdir_free, cfgparser.c 371-383 *)
  Definition workdir_free (p : option nat) (s : st) : out st :=
    match p with
    | None => Wild
    | Some id =>
      match at_ s id with
      | None => Wild
      | Some w => if w_ref w =? 0 then Ok (mkSt (filter (fun w => negb (Nat.eqb (w_id w) id)) (s_head s)) (s_next s) (s_inc s)) else Ok s
      end
    end.

  (** get_include_wd_at_locus_range, cfgparser.c 419-432 *)
  Definition get_include_wd (s : st) : option (nat * st) :=
    match s_inc s with
    | Some id => Some (id, s)
    | None =>
      match workdir_get include_dir s with
      | Some (id, s) => Some (id, set_inc (Some id) s)
      | None => None
      end
    end.

  (** openat (wd->fd, f) while the configuration is read *)
  Definition path (w : wd) (f : bytes) : bytes := if absolute f then f else w_name w ++ lit "/" ++ f.

  (** fopen_include and fopen_wd, cfgparser.c 434-456 *)
  Definition fopen_include (f : bytes) (s : st) : out (bytes * st) :=
    match get_include_wd s with
    | None => Fail
    | Some (id, s) =>
      match at_ s id with
      | None => Wild
      | Some w => if readable (path w f) then Ok (path w f, s) else Fail
      end
    end.

  (** push_input and input_open, cfgparser.c 742-785 and 522-548.  Whether the file is being read already is
      part of the model of C57. *)
  Definition push_input (f : bytes) (s : st) : out (bytes * st) :=
    if absolute f then (if readable f then fopen_include f s else Fail)
    else
      match get_include_wd s with
      | None => Fail
      | Some (id, s) =>
        match at_ s id with
        | None => Wild
        | Some w => if readable (path w f) then fopen_include f s else Fail
        end
      end.

  (** filename_resolve, cfgparser.c 458-474, and the opening of the file by the callers
      (config.c 733-771 and 3580-3660; directories of certificates are part of the model of C60) *)
  Definition filename_resolve (f : bytes) (s : st) : out (bytes * st) :=
    if absolute f then (if readable f then Ok (f, s) else Fail)
    else
      match get_include_wd s with
      | None => Fail
      | Some (id, s) =>
        match at_ s id with
        | None => Wild
        | Some w => if readable (path w f) then Ok (path w f, add_ref (-1) id s) else Fail
        end
      end.

  (** cfg_parse_includedir, cfgparser.c 1155-1170 *)
  Definition includedir (n : bytes) (s : st) : out st :=
    match workdir_get (Some n) s with
    | None => Fail
    | Some (id, s) => bind (workdir_free (s_inc s) s) (fun s => Ok (set_inc (Some id) s))
    end.

  (** The statements of a configuration that have to do with files, in the order in which they are read,
      those of included files where they are included.  The parameter of BasicAuth is only noted (config.c 1609-1619). *)
  Inductive statement :=
  | IncludeDir (n : bytes)
  | Include (f : bytes)
  | File (f : bytes)         (* ErrorFile, Error, -file, ClientCert of a service *)
  | Cert (f : bytes)         (* Cert of a listener or of a backend *)
  | CAfile (f : bytes)       (* CAlist, VerifyList, CRLlist: config.c 3848-3932 *)
  | BasicAuth (f : bytes).

  (** The file opened, if any, and the new state *)
  Definition step (x : statement) (s : st) : out (list bytes * st) :=
    let one (r : out (bytes * st)) := bind r (fun q => Ok ([fst q], snd q)) in
    match x with
    | IncludeDir n => bind (includedir n s) (fun s => Ok ([], s))
    | Include f => one (push_input f s)
    | File f => one (fopen_include f s)
    | Cert f => one (filename_resolve f s)
    | CAfile f => if readable f then Ok ([f], s) else Fail
    | BasicAuth _ => Ok ([], s)
    end.

  Fixpoint steps (l : list statement) (s : st) : out (list bytes * st) :=
    match l with
    | [] => Ok ([], s)
    | x :: l => bind (step x s) (fun q => bind (steps l (snd q)) (fun r => Ok (fst q ++ fst r, snd r)))
    end.

  (** cfgparser_open (file, NULL), cfgparser.c 1106-1123 *)
  Definition cfgparser_open (file : bytes) : out (bytes * st) :=
    match workdir_get None (mkSt [] 0 None) with
    | None => Fail
    | Some (id, s) => bind (push_input file (set_inc (Some id) s)) (fun q => Ok (fst q, set_inc None (add_ref (-1) id (snd q))))
    end.

  (** ** Password files *)

  (** Conditions as far as password files are concerned: BasicAuth, Match and NOT, others *)
  Inductive pcond := PAuth (f : bytes) | PBool (l : list pcond) | POther.
  (** Rewrite: its condition, the Rewrite sections inside, the Else branch *)
  Inductive prule := PRule (c : pcond) (sub : list prule) (iffalse : option prule).
  (** The condition and the request rules of a service *)
  Definition pservice : Type := pcond * list prule.
  (** The listeners, each with its request rules and services, and the services outside listeners *)
  Record pconf := mkPconf { c_listeners : list (list prule * list pservice); c_services : list pservice }.

  (** struct pass_file: wd and filename *)
  Definition pwfile : Type := option nat * bytes.

  Variable root_jail : bool.

  (** strrchr (filename, '/'): what stands before the last slash, and after it *)
  Fixpoint split_last (f : bytes) : option (bytes * bytes) :=
    match f with
    | [] => None
    | c :: f =>
      match split_last f with
      | Some (d, b) => Some (c :: d, b)
      | None => if beq c "/"%char then Some ([], f) else None
      end
    end.

  (** cond_pass_file_fixup for COND_BASIC_AUTH, config.c 5034-5071 *)
  Definition fixup_auth (f : bytes) (s : st) : out (pwfile * st) :=
    if absolute f then
      if root_jail then
        match split_last f with
        | None => Ok ((None, f), s)
        | Some (dir, base) =>
          match workdir_get (Some dir) s with
          | None => Fail
          | Some (id, s) => Ok ((Some id, base), s)
          end
        end
      else Ok ((None, f), s)
    else
      match get_include_wd s with
      | None => Fail
      | Some (id, s) => match at_ s id with None => Wild | Some _ => Ok ((Some id, f), add_ref 1 id s) end
      end.

  (** A walk over a list that stops at the first error *)
  Definition walk {A} (g : A -> st -> out (list pwfile * st)) : list A -> st -> out (list pwfile * st) :=
    fix go l s :=
      match l with
      | [] => Ok ([], s)
      | x :: l => bind (g x s) (fun q => bind (go l (snd q)) (fun r => Ok (fst q ++ fst r, snd r)))
      end.

  (** cond_pass_file_fixup, config.c 5027-5088: the password files met, fixed up, in the order of the walk *)
  Fixpoint fixup_cond (c : pcond) (s : st) : out (list pwfile * st) :=
    match c with
    | PAuth f => bind (fixup_auth f s) (fun q => Ok ([fst q], snd q))
    | PBool l => walk fixup_cond l s
    | POther => Ok ([], s)
    end.

  (** rule_pass_file_fixup, config.c 5090-5101 *)
  Fixpoint fixup_rule (r : prule) (s : st) : out (list pwfile * st) :=
    match r with
    | PRule c _ e =>
      bind (fixup_cond c s) (fun q =>
        match e with
        | None => Ok q
        | Some r => bind (fixup_rule r (snd q)) (fun p => Ok (fst q ++ fst p, snd p))
        end)
    end.

  (** service_pass_file_fixup, config.c 5117-5123 *)
  Definition fixup_service (v : pservice) (s : st) : out (list pwfile * st) :=
    bind (fixup_cond (fst v) s) (fun q => bind (walk fixup_rule (snd v) (snd q)) (fun p => Ok (fst q ++ fst p, snd p))).

  (** foreach_listener (listener_pass_file_fixup), foreach_service (service_pass_file_fixup): config.c 5176-5178, 5125-5129,
      svc.c 3061-3102 *)
  Definition fixup (k : pconf) (s : st) : out (list pwfile * st) :=
    bind (walk (fun l => walk fixup_rule (fst l)) (c_listeners k) s) (fun q =>
    bind (walk (fun l => walk fixup_service (snd l)) (c_listeners k) (snd q)) (fun p =>
    bind (walk fixup_service (c_services k) (snd p)) (fun o => Ok (fst q ++ fst p ++ fst o, snd o)))).

  (** The password files the walk does not come to, those in Rewrite sections inside others (the operation
      REWRITE_REWRITE_RULE): wd stays a null pointer *)
  Fixpoint cond_files (c : pcond) : list bytes :=
    match c with PAuth f => [f] | PBool l => flat_map cond_files l | POther => [] end.
  Fixpoint all_files (r : prule) : list bytes :=
    match r with PRule c sub e => cond_files c ++ flat_map all_files sub ++ match e with Some r => all_files r | None => [] end end.
  Fixpoint inner_files (r : prule) : list bytes :=
    match r with PRule c sub e => flat_map all_files sub ++ match e with Some r => inner_files r | None => [] end end.
  Definition inner (k : pconf) : list pwfile :=
    map (fun f => (None, f))
      (flat_map (fun l => flat_map inner_files (fst l) ++ flat_map (fun v : pservice => flat_map inner_files (snd v)) (snd l)) (c_listeners k)
       ++ flat_map (fun v : pservice => flat_map inner_files (snd v)) (c_services k)).

  (** workdir_unref (cfgparser.h 51-58), cfgparser_finish and workdir_cleanup, cfgparser.c 1125-1133 and 385-413; opening the
      current directory is taken to work *)
  Definition cfgparser_finish (keepwd : bool) (s : st) : out st :=
    let s' :=
      match s_inc s with
      | None => Ok s
      | Some id =>
        let s := add_ref (-1) id s in
        match at_ s id with
        | None => Wild
        | Some w => Ok (if w_ref w =? 0 then set_inc None s else s)
        end
      end in
    bind s' (fun s =>
      Ok (mkSt (map (fun w => if w_cwd w && keepwd then mkWd (w_id w) (w_name w) (w_ref w) false else w)
                    (filter (fun w => negb (w_ref w =? 0)) (s_head s))) (s_next s) (s_inc s))).

  (** parse_config_file, config.c 5130-5183, as far as files are concerned: the files opened, the password files
      (those fixed up, then the others), and the state pound goes on with.  [daemonize]: the Daemon statement *)
  Definition parse_config_file (daemonize : bool) (file : bytes) (l : list statement) (k : pconf) : out (list bytes * (list pwfile * list pwfile) * st) :=
    bind (cfgparser_open file) (fun o =>
    bind (steps l (snd o)) (fun q =>
    bind (fixup k (snd q)) (fun p =>
    bind (cfgparser_finish (root_jail || daemonize) (snd p)) (fun s =>
    Ok (fst o :: fst q, (fst p, inner k), s))))).

  (** ** When a request comes *)

  (** The root directory and the working directory of the process: pound.c 904-916 and 1210-1229.
      [jail]: the argument of RootJail; [detached]: pound runs in the background *)
  Variable jail : bytes.
  Variable detached : bool.
  Definition root : bytes := if root_jail then jail else [].
  Definition cwd_now : bytes := if root_jail then jail else if detached then [] else cwd.

  (** fopen_wd (pwf->wd, pwf->filename), bauth.c 328 and cfgparser.c 434-446: the path that is opened *)
  Definition password_path (s : st) (p : pwfile) : out bytes :=
    match (match fst p with Some id => Some id | None => s_inc s end) with
    | None => Ok (if absolute (snd p) then root ++ snd p else cwd_now ++ lit "/" ++ snd p)
    | Some id =>
      match at_ s id with
      | None => Wild
      | Some w => Ok (if absolute (snd p) then root ++ snd p else (if w_cwd w then cwd_now else w_name w) ++ lit "/" ++ snd p)
      end
    end.
End Files.

(** * Options of the command line *)

(** What stat says of the value *)
Inductive what := No_such | A_dir | A_file.

Section Options.
  Variable stat : bytes -> what.

  (** feature_set, config.c 5247-5283: the part before the equals sign, the value *)
  Fixpoint cut_eq (s : bytes) : bytes * option bytes :=
    match s with
    | [] => ([], None)
    | c :: s => if beq c "="%char then ([], Some s) else let (a, v) := cut_eq s in (c :: a, v)
    end.

  (** feature[].enabled, and include_dir *)
  Record features := mkF { f_dns : bool; f_warn : bool; f_dir : option bytes }.

  (** set_include_dir, config.c 5200-5222; None: exit (1).  stat (NULL) fails. *)
  Definition set_include_dir (enabled : bool) (val : option bytes) (o : features) : option features :=
    if enabled then
      match val with
      | Some [] => Some (mkF (f_dns o) (f_warn o) None)
      | Some v =>
        if bytes_eqb v (lit ".") then Some (mkF (f_dns o) (f_warn o) None)
        else match stat v with A_dir => Some (mkF (f_dns o) (f_warn o) (Some v)) | _ => None end
      | None => None
      end
    else Some (mkF (f_dns o) (f_warn o) None).

  (** feature_set, config.c 5247-5283, and the caller 5391-5397: None: exit (1) *)
  Definition feature_set (arg : bytes) (o : features) : option features :=
    let (n, val) := cut_eq arg in
    let off := match val with None => bytes_eqb (firstn 3 arg) (lit "no-") | Some _ => false end in
    let name := if off then skipn 3 n else n in
    if bytes_eqb name (lit "dns") then match val with None => Some (mkF (negb off) (f_warn o) (f_dir o)) | Some _ => None end
    else if bytes_eqb name (lit "include-dir") then set_include_dir (negb off) val o
    else if bytes_eqb name (lit "warn-deprecated") then match val with None => Some (mkF (f_dns o) (negb off) (f_dir o)) | Some _ => None end
    else None.

  Fixpoint options (args : list bytes) (o : features) : option features :=
    match args with [] => Some o | a :: args => match feature_set a o with Some o => options args o | None => None end end.
End Options.
