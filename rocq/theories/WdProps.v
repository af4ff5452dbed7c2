(** C72: where the files named in a configuration are looked for. *)
From Coq Require Import Ascii String List ZArith Bool Lia.
From Verif Require Import Bytes WdModel WdSpec WdProofs.
Import ListNotations.
Local Open Scope string_scope.
Local Open Scope list_scope.
Local Open Scope Z_scope.

(** A relative name is looked for in the directory of the last IncludeDir statement before it; before the first one, in
    that of -W include-dir or the directory pound is started in.  The main configuration file is looked for in the latter.
    Partial: IncludeDir at the beginning (C72_includedir_refuted), and password files (below). *)
Theorem C72_files_partial : forall cwd is_dir readable include_dir root_jail daemonize file l k o pw s,
  parse_config_file cwd is_dir readable include_dir root_jail daemonize file l k = Ok (o, pw, s) ->
  o = lookup cwd file :: expected (initial cwd include_dir) l.
Proof. exact files. Qed.
Print Assumptions C72_files_partial.

(** If the files and directories are there, the configuration is accepted.  Partial: no relative names in Cert, and something
    looked for before the first IncludeDir. *)
Theorem C72_accepted_partial : forall cwd is_dir readable include_dir root_jail daemonize file l k,
  match include_dir with Some d => is_dir d = true | None => True end ->
  readable (lookup cwd file) = true -> existsb relative_cert l = false ->
  Forall (fun p => readable p = true) (expected (initial cwd include_dir) l) -> dirs_exist is_dir l ->
  (forall l1 n l2, l = l1 ++ IncludeDir n :: l2 -> existsb touches l1 = true) ->
  (forall f, In f (conf_auths k) -> root_jail = true -> rooted f = true -> forall dir b, f = dir ++ "/"%char :: b -> ~ In "/"%char b -> is_dir dir = true) ->
  exists r, parse_config_file cwd is_dir readable include_dir root_jail daemonize file l k = Ok r.
Proof. intros cwd is_dir readable include_dir root_jail daemonize file l k DE. apply (starts cwd is_dir readable include_dir root_jail daemonize daemonize (fun e => e)). exact DE. Qed.
Print Assumptions C72_accepted_partial.

(** Each time a password file is read, the name in the BasicAuth statement stands for the same file, whatever RootJail
    and Daemon do: a relative name is in the include directory in effect at the end of the configuration.  Partial: if no Cert statement
    has a relative name (C72_freed_refuted), and not in a Rewrite section inside another (C72_nested_refuted). *)
Theorem C72_password_partial : forall cwd is_dir readable include_dir root_jail jail daemonize detached, (detached = true -> daemonize = true) ->
  forall file l k o pw s, existsb relative_cert l = false ->
  parse_config_file cwd is_dir readable include_dir root_jail daemonize file l k = Ok (o, pw, s) ->
  Forall2 (fun f p => password_path cwd root_jail jail detached s p = Ok (lookup (in_effect (initial cwd include_dir) l) f)) (conf_auths k) (fst pw).
Proof. intros cwd is_dir readable include_dir root_jail jail daemonize detached DT. apply passwords. exact DT. Qed.
Print Assumptions C72_password_partial.

Definition sample_dirs (d : bytes) : bool := existsb (bytes_eqb d) [lit "/etc/pound"; lit "/etc/ssl"; lit "/srv"].
Definition sample_files (p : bytes) : bool := existsb (bytes_eqb p) [lit "/etc/pound.cfg"; lit "/root/first"; lit "/etc/pound/second"; lit "/etc/ssl/cert"; lit "/etc/ssl/page"].
Definition sample : list statement := [Include (lit "first"); IncludeDir (lit "/etc/pound"); BasicAuth (lit "users"); Include (lit "second"); Cert (lit "/etc/ssl/cert"); IncludeDir (lit "/etc/ssl"); File (lit "page")].
Definition sample_conf : pconf := mkPconf [([PRule (PBool [POther; PAuth (lit "users")]) [] None], [(POther, [PRule (PAuth (lit "/srv/p")) [] None])])] [].
Example C72_sample :
  match parse_config_file (lit "/root") sample_dirs sample_files None true true (lit "/etc/pound.cfg") sample sample_conf with
  | Ok (o, pw, s) => (o, map (password_path (lit "/root") true (lit "/jail") true s) (fst pw)) =
      ([lit "/etc/pound.cfg"; lit "/root/first"; lit "/etc/pound/second"; lit "/etc/ssl/cert"; lit "/etc/ssl/page"],
       [Ok (lit "/etc/ssl/users"); Ok (lit "/srv/p")])
  | _ => False
  end.
Proof. vm_compute. reflexivity. Qed.

(** Refuted: that IncludeDir sets the directory.  If nothing has been looked for before it, pound drops a reference of a directory that it does
    not have: a null pointer is followed. *)
Theorem C72_includedir_refuted : forall cwd is_dir readable include_dir root_jail daemonize file l1 n l2 k,
  readable (lookup cwd file) = true -> existsb touches l1 = false ->
  Forall (fun p => readable p = true) (expected (initial cwd include_dir) l1) -> is_dir n = true ->
  parse_config_file cwd is_dir readable include_dir root_jail daemonize file (l1 ++ IncludeDir n :: l2) k = Wild.
Proof. intros cwd is_dir readable include_dir root_jail daemonize. exact (includedir_first cwd is_dir readable include_dir root_jail daemonize). Qed.
Print Assumptions C72_includedir_refuted.

Example C72_includedir_case : parse_config_file (lit "/root") sample_dirs sample_files None false true (lit "/etc/pound.cfg")
    [Cert (lit "/etc/ssl/cert"); IncludeDir (lit "/etc/pound"); Include (lit "second")] sample_conf = Wild.
Proof. vm_compute. reflexivity. Qed.

(** Refuted: that the include directory does not matter for a name that begins with a slash.  If the directory of -W include-dir
    is gone (it was there when the option was read), such files are not opened either. *)
Theorem C72_absolute_refuted : forall cwd is_dir readable include_dir root_jail daemonize file f l k d, include_dir = Some d -> d <> cwd -> is_dir d = false ->
  forall r, parse_config_file cwd is_dir readable include_dir root_jail daemonize file (Include f :: l) k <> Ok r /\
    parse_config_file cwd is_dir readable include_dir root_jail daemonize file (File f :: l) k <> Ok r.
Proof. intros cwd is_dir readable include_dir root_jail daemonize. exact (absolute_include cwd is_dir readable include_dir root_jail daemonize). Qed.
Print Assumptions C72_absolute_refuted.

Example C72_absolute_case :
  sample_files (lit "/etc/pound/second") = true /\
  parse_config_file (lit "/root") sample_dirs sample_files (Some (lit "/gone")) false true (lit "/etc/pound.cfg") [Include (lit "/etc/pound/second")] (mkPconf [] []) = Fail.
Proof. vm_compute. split; reflexivity. Qed.

(** Refuted: that password files are in the include directory of the BasicAuth statement, as all other files are.  A later IncludeDir moves
    them. *)
Theorem C72_place_refuted : forall cwd is_dir readable include_dir root_jail jail daemonize detached, (detached = true -> daemonize = true) ->
  forall file l1 f l2 n k o pw s, existsb relative_cert (l1 ++ BasicAuth f :: l2 ++ [IncludeDir n]) = false ->
  In f (conf_auths k) -> rooted f = false -> n <> in_effect (initial cwd include_dir) l1 ->
  parse_config_file cwd is_dir readable include_dir root_jail daemonize file (l1 ++ BasicAuth f :: l2 ++ [IncludeDir n]) k = Ok (o, pw, s) ->
  exists p, In p (fst pw) /\ password_path cwd root_jail jail detached s p = Ok (n ++ "/"%char :: f)
    /\ n ++ "/"%char :: f <> lookup (in_effect (initial cwd include_dir) l1) f.
Proof.
  intros cwd is_dir readable include_dir root_jail jail daemonize detached DT file l1 f l2 n k o pw s RC I Rf N H.
  pose proof (passwords cwd is_dir readable include_dir root_jail jail daemonize detached DT file _ k o pw s RC H) as P.
  assert (E : forall d, in_effect d (l1 ++ BasicAuth f :: l2 ++ [IncludeDir n]) = n).
  { rewrite app_comm_cons, app_assoc. generalize (l1 ++ BasicAuth f :: l2) as l. induction l as [|x l IH]; intros d; [reflexivity|]. destruct x; cbn; apply IH. }
  rewrite E in P. unfold lookup in P |- *. rewrite Rf.
  assert (X : exists p, In p (fst pw) /\ password_path cwd root_jail jail detached s p = Ok (if rooted f then f else n ++ "/"%char :: f)).
  { clear - P I. induction P as [|g p gs ps H P IH]; [destruct I|]. destruct I as [<-|I]; [exists p; split; [left; reflexivity|exact H]|].
    destruct (IH I) as (q & Iq & Hq). exists q. split; [right; exact Iq|exact Hq]. }
  destruct X as (p & Ip & Hp). rewrite Rf in Hp. exists p. split; [exact Ip|]. split; [exact Hp|]. intros Q. apply app_inv_tail in Q. exact (N Q).
Qed.
Print Assumptions C72_place_refuted.

Example C72_place_case :
  match parse_config_file (lit "/root") sample_dirs sample_files None false true (lit "/etc/pound.cfg") [Include (lit "first"); BasicAuth (lit "users"); IncludeDir (lit "/srv")] sample_conf with
  | Ok (_, pw, s) => map (password_path (lit "/root") false [] true s) (fst pw) = [Ok (lit "/srv/users"); Ok (lit "/srv/p")]
  | _ => False
  end.
Proof. vm_compute. reflexivity. Qed.

(** Refuted: that the directory is kept while password files need it.  Each Cert statement with a relative name drops a reference it did not take:
    with as many of them as password files, the directory is freed at the end of the configuration and used at each request. *)
Theorem C72_freed_refuted : forall cwd is_dir readable include_dir root_jail daemonize file l k o pw s jail detached,
  existsb is_includedir l = false -> Forall (fun f => rooted f = false) (conf_auths k) ->
  List.length (filter relative_cert l) = List.length (conf_auths k) ->
  parse_config_file cwd is_dir readable include_dir root_jail daemonize file l k = Ok (o, pw, s) ->
  Forall (fun p => password_path cwd root_jail jail detached s p = Wild) (fst pw).
Proof. exact freed. Qed.
Print Assumptions C72_freed_refuted.

Example C72_freed_case :
  match parse_config_file (lit "/etc/ssl") sample_dirs sample_files None false true (lit "/etc/pound.cfg") [Cert (lit "cert"); BasicAuth (lit "users")]
          (mkPconf [] [(PAuth (lit "users"), [])]) with
  | Ok (_, pw, s) => map (password_path (lit "/etc/ssl") false [] false s) (fst pw) = [Wild]
  | _ => False
  end.
Proof. vm_compute. reflexivity. Qed.

(** Refuted: that the password files of Rewrite sections inside others are treated in the same way.  They are passed over: a relative name is
    looked for in the root directory of a daemon or of the jail. *)
Theorem C72_nested_refuted : forall cwd is_dir readable include_dir root_jail daemonize file l k o pw s jail detached f,
  existsb is_includedir l = false -> existsb relative_cert l = false ->
  (root_jail = false \/ conf_auths k = []) -> Forall (fun f => rooted f = true) (conf_auths k) ->
  parse_config_file cwd is_dir readable include_dir root_jail daemonize file l k = Ok (o, pw, s) -> In (None, f) (snd pw) -> rooted f = false ->
  password_path cwd root_jail jail detached s (None, f) = Ok ((if root_jail then jail else if detached then [] else cwd) ++ "/"%char :: f).
Proof. exact nested. Qed.
Print Assumptions C72_nested_refuted.

Example C72_nested_case :
  match parse_config_file (lit "/root") sample_dirs sample_files (Some (lit "/etc/pound")) false true (lit "/etc/pound.cfg") [Include (lit "second"); BasicAuth (lit "users")]
          (mkPconf [] [(POther, [PRule POther [PRule (PAuth (lit "users")) [] None] None])]) with
  | Ok (_, pw, s) => (fst pw, map (password_path (lit "/root") false [] true s) (snd pw)) = ([], [Ok (lit "/users")])
  | _ => False
  end.
Proof. vm_compute. reflexivity. Qed.

(** Refuted: that any password file can be named with RootJail.  The directory of one in the root directory is taken to be the empty name,
    which cannot be opened. *)
Theorem C72_jail_refuted : forall cwd is_dir readable include_dir root_jail daemonize file l k base, root_jail = true -> is_dir [] = false -> cwd <> [] -> ~ In "/"%char base ->
  In ("/"%char :: base) (conf_auths k) -> forall r, parse_config_file cwd is_dir readable include_dir root_jail daemonize file l k <> Ok r.
Proof. exact jail_root. Qed.
Print Assumptions C72_jail_refuted.

Example C72_jail_case : parse_config_file (lit "/root") sample_dirs sample_files None true true (lit "/etc/pound.cfg") [BasicAuth (lit "/users")] (mkPconf [] [(PAuth (lit "/users"), [])]) = Fail
  /\ exists r, parse_config_file (lit "/root") sample_dirs sample_files None false true (lit "/etc/pound.cfg") [BasicAuth (lit "/users")] (mkPconf [] [(PAuth (lit "/users"), [])]) = Ok r.
Proof. split; [vm_compute; reflexivity|]. exists ([lit "/etc/pound.cfg"], ([(None, lit "/users")], []), mkSt [] 1 None). vm_compute. reflexivity. Qed.

(** The arguments of -W are exactly those of the manual, the last one counts, and each leaves the others alone; include-dir needs a directory
    that exists, or an empty value or a dot for the directory pound is started in. *)
Theorem C72_options : forall stat l o o', options stat l o = Some o' <-> mean stat l o o'.
Proof. exact options_mean. Qed.
Print Assumptions C72_options.

Example C72_options_case : options (fun v => if bytes_eqb v (lit "/etc") then A_dir else No_such) [lit "no-dns"; lit "include-dir=/etc"; lit "warn-deprecated"] (mkF true false None)
    = Some (mkF false true (Some (lit "/etc")))
  /\ options (fun _ => No_such) [lit "include-dir"] (mkF true true None) = None.
Proof. vm_compute. split; reflexivity. Qed.
