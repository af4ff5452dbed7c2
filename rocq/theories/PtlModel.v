(** Model of src/poundctl.c, first part: which daemon poundctl talks to (21-513, 1345-1430).
    Definitions only.  Texts contain no null character, memory allocation does not
    fail.  Of .poundctl the statements are taken, not the text (see C57), of options
    what getopt makes of them. *)
From Coq Require Import Ascii String List ZArith Bool.
From Verif Require Import Bytes.
Import ListNotations.
Local Open Scope string_scope.
Local Open Scope list_scope.
Local Open Scope nat_scope.

(** ** Settings *)

(** SERVER, src/poundctl.c 40-49, without the name *)
Record server := mkServer { s_url : option bytes; ca_file : option bytes; ca_path : option bytes; cert : option bytes; verify : bool }.

(** The statements of server_parsetab and toplevel_parsetab, 74-174 *)
Inductive server_stmt := Url (s : bytes) | CAFile (s : bytes) | CAPath (s : bytes) | ClientCert (s : bytes) | Verify (b : bool).
Inductive stmt := Common (x : server_stmt) | TemplateFile (s : bytes) | TemplatePath (s : bytes) | TemplateName (s : bytes)
  | Server (name : bytes) (body : list server_stmt).

(** cfg_assign_string and cfg_assign_bool on the members of a SERVER *)
Definition assign (v : server) (x : server_stmt) : server :=
  match x with
  | Url s => mkServer (Some s) (ca_file v) (ca_path v) (cert v) (verify v)
  | CAFile s => mkServer (s_url v) (Some s) (ca_path v) (cert v) (verify v)
  | CAPath s => mkServer (s_url v) (ca_file v) (Some s) (cert v) (verify v)
  | ClientCert s => mkServer (s_url v) (ca_file v) (ca_path v) (Some s) (verify v)
  | Verify b => mkServer (s_url v) (ca_file v) (ca_path v) (cert v) b
  end.

(** 51-63; [current]: what the variable server points to, None is default_server_defn *)
Record settings := mkSettings { default : server; servers : list (bytes * server); current : option bytes;
                                tmpl_file : bytes; tmpl_name : bytes; tmpl_path : bytes; conf_name : bytes;
                                json_option : bool }.
Definition default_server : server := mkServer None None None None true.
Definition initial (pound_conf : bytes) : settings :=
  mkSettings default_server [] None (lit "poundctl.tmpl") (lit "default") [] pound_conf false.

Definition find_server (name : bytes) (l : list (bytes * server)) : option server :=
  match find (fun p => bytes_eqb (fst p) name) l with Some p => Some (snd p) | None => None end.
(** What the pointer is used to change *)
Fixpoint change_server (name : bytes) (f : server -> server) (l : list (bytes * server)) : list (bytes * server) :=
  match l with
  | [] => []
  | (n, v) :: l => if bytes_eqb n name then (n, f v) :: l else (n, v) :: change_server name f l
  end.

(** A statement of .poundctl, 107-125 and 127-174; None: refused.  A new SERVER is
    filled with zeros (113). *)
Definition read_stmt (s : settings) (x : stmt) : option settings :=
  match x with
  | Common y => Some (mkSettings (assign (default s) y) (servers s) (current s) (tmpl_file s) (tmpl_name s) (tmpl_path s) (conf_name s) (json_option s))
  | TemplateFile t => Some (mkSettings (default s) (servers s) (current s) t (tmpl_name s) (tmpl_path s) (conf_name s) (json_option s))
  | TemplatePath t => Some (mkSettings (default s) (servers s) (current s) (tmpl_file s) (tmpl_name s) t (conf_name s) (json_option s))
  | TemplateName t => Some (mkSettings (default s) (servers s) (current s) (tmpl_file s) t (tmpl_path s) (conf_name s) (json_option s))
  | Server name body =>
      match find_server name (servers s) with
      | Some _ => None
      | None => Some (mkSettings (default s) (servers s ++ [(name, fold_left assign body (mkServer None None None None false))])
                        (current s) (tmpl_file s) (tmpl_name s) (tmpl_path s) (conf_name s) (json_option s))
      end
  end.
Fixpoint read_config (s : settings) (l : list stmt) : option settings :=
  match l with
  | [] => Some s
  | x :: l => match read_stmt s x with Some s => read_config s l | None => None end
  end.

(** Options, 1356-1416, those that matter here; of -C also whether it is a directory *)
Inductive opt := OptC (s : bytes) (directory : bool) | Optf (s : bytes) | OptS (name : bytes) | Opts (url : bytes)
  | Optj | OptK (s : bytes) | Optk | OptT (s : bytes) | Optt (s : bytes).
Definition the_server (s : settings) : option server :=
  match current s with None => Some (default s) | Some n => find_server n (servers s) end.
(** An assignment to a member of *server *)
Definition to_server (s : settings) (x : server_stmt) : settings :=
  match current s with
  | None => mkSettings (assign (default s) x) (servers s) None (tmpl_file s) (tmpl_name s) (tmpl_path s) (conf_name s) (json_option s)
  | Some n => mkSettings (default s) (change_server n (fun v => assign v x) (servers s)) (Some n) (tmpl_file s) (tmpl_name s) (tmpl_path s)
                (conf_name s) (json_option s)
  end.
Definition option_step (s : settings) (o : opt) : option settings :=
  match o with
  | OptC t dir => Some (to_server s (if dir then CAPath t else CAFile t))
  | Optf t => Some (mkSettings (default s) (servers s) (current s) (tmpl_file s) (tmpl_name s) (tmpl_path s) t (json_option s))
  | OptS n =>
      match find_server n (servers s) with
      | Some _ => Some (mkSettings (default s) (servers s) (Some n) (tmpl_file s) (tmpl_name s) (tmpl_path s) (conf_name s) (json_option s))
      | None => None
      end
  | Opts u => Some (to_server s (Url u))
  | Optj => Some (mkSettings (default s) (servers s) (current s) (tmpl_file s) (tmpl_name s) (tmpl_path s) (conf_name s) true)
  | OptK t => Some (to_server s (ClientCert t))
  | Optk => Some (to_server s (Verify false))
  | OptT t => Some (mkSettings (default s) (servers s) (current s) (tmpl_file s) t (tmpl_path s) (conf_name s) (json_option s))
  | Optt t => Some (mkSettings (default s) (servers s) (current s) t (tmpl_name s) (tmpl_path s) (conf_name s) (json_option s))
  end.
Fixpoint options (s : settings) (l : list opt) : option settings :=
  match l with
  | [] => Some s
  | o :: l => match option_step s o with Some s => options s l | None => None end
  end.

(** ** The socket in pound.cfg *)

(** pound.h 194-195 *)
Definition MAXBUF : nat := 4096.

(** fgets: at most [n] characters, up to a newline *)
Fixpoint fgets (n : nat) (s : bytes) : bytes * bytes :=
  match n, s with
  | S n, c :: s' => if beq c LF then ([c], s') else let (l, r) := fgets n s' in (c :: l, r)
  | _, _ => ([], s)
  end.

Definition skip_space (s : bytes) : bytes := snd (span is_space s).
Definition trim_end (s : bytes) : bytes := rev (skip_space (rev s)).
Definition not_blank (c : byte) : bool := negb (beq c " " || beq c "009").

(** 246-273.  The name is compared up to the length of the argument: true if it
    begins with it. *)
Definition abbreviates (arg name : bytes) : bool := Nat.leb (length arg) (length name) && ci_eqb (firstn (length arg) name) arg.
Definition find_keyword (block : bool) (arg : bytes) : option bool :=
  if block
  then if abbreviates arg (lit "socket") then Some true else if abbreviates arg (lit "end") then Some false else None
  else if abbreviates arg (lit "control") then Some true else None.

(** 332-360: the text in quotes.  After a message, another escape is left as it is. *)
Fixpoint unquote (p : bytes) : option bytes :=
  match p with
  | [] => None
  | c :: r =>
      if beq c """" then Some []
      else if beq c "\"
      then match r with
           | d :: r' => if beq d "\" || beq d """" then option_map (cons d) (unquote r') else option_map (cons c) (unquote r)
           | [] => None
           end
      else option_map (cons c) (unquote r)
  end.

(** A line, 300-375: the name or none, or it goes on with this table of keywords *)
Inductive scanned := Name (n : option bytes) | Go (block : bool).
Definition scan_line (block : bool) (line : bytes) : scanned :=
  if negb (beq (last line NUL) LF) then Name None
  else let p := skip_space (trim_end line) in
       match p with
       | [] => Go block
       | c :: _ =>
           if beq c "#" then Go block
           else let (w, r) := span not_blank p in
                match find_keyword block w with
                | Some false => Go false
                | Some true =>
                    match skip_space r with
                    | d :: q => if beq d """" then Name (unquote q) else Name None
                    | [] => if block then Name None else Go true
                    end
                | None => Go block
                end
       end.
(** 279-383, on the text of the file *)
Fixpoint scan (fuel : nat) (block : bool) (text : bytes) : option bytes :=
  match fuel, text with
  | S fuel, _ :: _ =>
      let (line, r) := fgets (MAXBUF - 1) text in
      match scan_line block line with Name n => n | Go block => scan fuel block r end
  | _, _ => None
  end.
Definition get_socket_name (text : bytes) : option bytes := scan (length text) false text.

(** ** URL *)

(** Where to connect: a socket file, or what getaddrinfo is asked for: the host, the port,
    and if it is told that the address is IPv6 *)
Inductive target := Unix (path : bytes) | Inet (host port : bytes) (v6 : bool).
(** URL, 23-38 *)
Record url := mkUrl { tls : bool; path : bytes; host : bytes; user : option bytes; pass : option bytes; addr : target }.

Definition is_not (s : string) (c : byte) : bool := negb (existsb (beq c) (lit s)).

(** 385-426.  host[n-1] is read only if host[0] is a bracket. *)
Definition url_parse_host (is_tls : bool) (u p : option bytes) (str : bytes) : url :=
  let (h, rest) := span (is_not "/") str in
  let v6 := match h with c :: _ => beq c "[" && beq (last h NUL) "]" | [] => false end in
  let (name, more) := span (is_not ":") h in
  let port := match more with _ :: port => port | [] => if is_tls then lit "443" else lit "80" end in
  mkUrl is_tls rest name u p (Inet name port v6).

(** 428-451 *)
Definition url_parse_creds (is_tls : bool) (str : bytes) : url :=
  match span (is_not ":@") str with
  | (a, c :: rest) =>
      if beq c ":"
      then match span (is_not "@") rest with
           | (b, _ :: rest') => url_parse_host is_tls (Some a) (Some b) rest'
           | (_, []) => url_parse_host is_tls None None str
           end
      else url_parse_host is_tls (Some a) None rest
  | (_, []) => url_parse_host is_tls None None str
  end.

Inductive parsed := Parsed (u : url) | Unsupported | Too_long.
(** sizeof (sun_path) *)
Definition SUN_PATH : nat := 108.
(** 453-492 *)
Definition url_parse (str : bytes) : parsed :=
  let as_file := if Nat.ltb SUN_PATH (length str) then Too_long
                 else Parsed (mkUrl false [] (lit "localhost") None None (Unix str)) in
  match span (is_not ":") str with
  | (scheme, _ :: s1 :: s2 :: rest) =>
      if beq s1 "/" && beq s2 "/"
      then if bytes_eqb scheme (lit "http") then Parsed (url_parse_creds false rest)
           else if bytes_eqb scheme (lit "https") then Parsed (url_parse_creds true rest)
           else Unsupported
      else as_file
  | _ => as_file
  end.

(** ** main, 1345-1430 *)

(** [env_path]: POUND_TMPL_PATH in the environment, [dfl_path]: the default; [cfg]: the text of the
    file named by -f or the default, None if it cannot be opened *)
Inductive start := Connect (s : settings) (v : server) (u : url) | Fail.
Definition main (pound_conf dfl_path : bytes) (env_path : option bytes) (file : bytes -> option bytes) (config : list stmt) (opts : list opt) : start :=
  match read_config (initial pound_conf) config with
  | None => Fail
  | Some s =>
      match options s opts with
      | None => Fail
      | Some s =>
          let s := mkSettings (default s) (servers s) (current s) (tmpl_file s) (tmpl_name s)
                     (match env_path with Some p => p | None => dfl_path end) (conf_name s) (json_option s) in
          match the_server s with
          | None => Fail
          | Some v =>
              let found := match s_url v with
                           | Some u => Some u
                           | None => match file (conf_name s) with Some t => get_socket_name t | None => None end
                           end in
              match found with
              | None => Fail
              | Some u => match url_parse u with Parsed x => Connect s (assign v (Url u)) x | _ => Fail end
              end
          end
      end
  end.
