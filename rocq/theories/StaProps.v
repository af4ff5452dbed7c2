(** The theorems about the start and the end of pound (C76, C77, C78). *)
From Coq Require Import Ascii String List ZArith Bool Lia.
From Verif Require Import Bytes StaModel StaSpec StaProofs.
Import ListNotations.
Local Open Scope string_scope.
Local Open Scope list_scope.
Local Open Scope Z_scope.

(** Root starts pound in /home; the directories are /, /run, /home and /jail, all of root with the mode 0755, but /srv is of user 33 *)
Definition ex_fs : fs := fun q =>
  if existsb (path_eqb q) [[]; [lit "run"]; [lit "home"]; [lit "jail"]] then Some (Dir 493 0 0)
  else if path_eqb q [lit "srv"] then Some (Dir 493 33 33) else None.
Definition ex_proc : proc := mkP 0 0 0 0 0 0 [0] 18 [] [lit "home"] 100.
Definition ex_start (l : list stmt) : outcome := start (lit "/run/pound.pid") None false 101 ex_proc l ex_fs.
Definition ex_at (o : outcome) (q : path) : option node := match o with Running st => s_fs st q | _ => None end.
Definition ex_end (o : outcome) (q : path) : option node := match o with Running st => finish st q | _ => None end.
Definition ex_state (l : list stmt) : state :=
  match ex_start l with Running st => st | _ => mkS ex_proc ex_fs [] end.

(** * C76: sockets and files *)

(** A pound that root has started has its control socket where the configuration says, with the mode of the configuration and no other (0600 if it
    gives none), bound by the process that was started; with ChangeOwner it belongs to the User and Group of the configuration *)
Theorem C76_socket : forall dp po fg ch p l1 b l2 f st s,
  let l := l1 ++ Control b :: l2 in
  start dp po fg ch p l f = Running st -> euid p = 0 -> root p = [] ->
  socket_of b = Some s -> s <> [] -> 0 <= mode_of b < 512 ->
  user_of l <> Some (Some (-1)) -> group_of l <> Some (Some (-1)) ->
  (forall b' s', In (Control b') l2 -> socket_of b' = Some s' -> from (cwd p) s' <> from (cwd p) s) ->
  s_fs st (from (cwd p) s) = Some (Sock (mode_of b) (if change_of b then or (id_of (user_of l)) 0 else 0)
                                        (if change_of b then or (id_of (group_of l)) (egid p) else egid p) (pid p)).
Proof.
  cbv zeta. intros dp po fg ch p l1 b l2 f st s H E R SO NE M U G D.
  rewrite <- (place_from p s R). eapply socket_made; try eassumption.
  intros b' s' I S'. rewrite (place_from p s R), (place_from p s' R). exact (D b' s' I S').
Qed.
Print Assumptions C76_socket.

Example C76_socket_ex :
  ex_at (ex_start [User (Some 33); Control [Socket (lit "/run/p.sock"); Mode 432; ChangeOwner true]]) [lit "run"; lit "p.sock"]
  = Some (Sock 432 33 0 100).
Proof. reflexivity. Qed.

(** The PID file, looked for from / once pound has detached, holds the number of the process that was left running; a new one has the mode 0600 *)
Theorem C76_pidfile : forall dp po fg ch p l f st,
  let s := pidfile dp po l in
  let q := from (pid_dir p fg l) s in
  start dp po fg ch p l f = Running st -> euid p = 0 -> root p = [] -> file_name s ->
  is_dir (f (removelast q)) = true -> (forall m o g n, f q <> Some (Sock m o g n)) -> is_dir (f q) = false ->
  (forall b s', In (Control b) l -> socket_of b = Some s' -> from (cwd p) s' <> q) ->
  exists m o g, s_fs st q = Some (Reg m o g (Some (if runs_detached fg l then ch else pid p))) /\
    match f q with Some (Reg m' o' g' _) => m = m' /\ o = o' /\ g = g' | _ => m = 384 /\ o = 0 /\ g = egid p end.
Proof. exact pidfile_made. Qed.
Print Assumptions C76_pidfile.

Example C76_pidfile_ex : ex_at (ex_start [Control [Socket (lit "/run/p.sock")]]) [lit "run"; lit "pound.pid"] = Some (Reg 384 0 0 (Some 101))
  /\ ex_at (ex_start [Daemon false; PIDFile (lit "x"); Control [Socket (lit "/run/p.sock")]]) [lit "home"; lit "x"] = Some (Reg 384 0 0 (Some 100)).
Proof. split; reflexivity. Qed.

(** When pound ends, the control sockets are gone: if RootJail, when given, comes before all Control sections and the socket is not directly in the root
    directory; if without RootJail the name is absolute or pound has not detached; and if the user pound runs as may write to the directory.
    Missing: the other cases, where the sockets stay (the refutations below) *)
Theorem C76_removed_partial : forall dp po fg ch p l f st s,
  start dp po fg ch p l f = Running st -> root p = [] -> jail_first l ->
  In s (all_named l) -> file_name s ->
  (jail_of l = None -> absolute s = true \/ runs_detached fg l = false) ->
  (jail_of l <> None -> ~ top_level s) ->
  may_write (s_proc st) (s_fs st (removelast (from (cwd p) s))) = true ->
  present (finish st (from (cwd p) s)) = false.
Proof. exact removed_socket. Qed.
Print Assumptions C76_removed_partial.

Example C76_removed_ex :
  let l := [RootJail (lit "/jail"); User (Some 33); Control [Socket (lit "/srv/p.sock")]] in
  ex_at (ex_start l) [lit "srv"; lit "p.sock"] = Some (Sock 384 0 0 100) /\
  ex_end (ex_start l) [lit "srv"; lit "p.sock"] = None /\
  may_write (s_proc (ex_state l)) (s_fs (ex_state l) [lit "srv"]) = true /\ jail_first l.
Proof. repeat split; try reflexivity. right. exists [], (lit "/jail"). eexists. split; [reflexivity|]. intros b []. Qed.

(** The same for the PID file, wherever RootJail stands *)
Theorem C76_pid_removed_partial : forall dp po fg ch p l f st,
  let s := pidfile dp po l in
  let q := from (pid_dir p fg l) s in
  start dp po fg ch p l f = Running st -> root p = [] -> euid p = 0 -> file_name s ->
  (jail_of l <> None -> ~ top_level s) ->
  (forall m o g n, s_fs st q <> Some (Sock m o g n)) ->
  may_write (s_proc st) (s_fs st (removelast q)) = true ->
  present (finish st q) = false.
Proof. exact removed_pid. Qed.
Print Assumptions C76_pid_removed_partial.

Example C76_pid_removed_ex :
  ex_end (ex_start [Control [Socket (lit "/run/p.sock")]; RootJail (lit "/jail")]) [lit "run"; lit "pound.pid"] = None.
Proof. reflexivity. Qed.

(** Every other file is as it was, while pound runs and when it has ended: under the same conditions on the order of the statements and the names *)
Theorem C76_others_partial : forall dp po fg ch p l f st q,
  start dp po fg ch p l f = Running st -> root p = [] -> jail_first l ->
  (jail_of l = None -> forall s, In s (all_named l) -> absolute s = true \/ runs_detached fg l = false) ->
  (forall s, In s (all_named l) -> q <> from (cwd p) s) ->
  q <> from (pid_dir p fg l) (pidfile dp po l) ->
  s_fs st q = f q /\ finish st q = f q.
Proof. exact others. Qed.
Print Assumptions C76_others_partial.

Example C76_others_ex :
  let f := put [lit "run"; lit "other"] (Some (Reg 420 0 0 None)) ex_fs in
  let l := [Control [Socket (lit "/run/p.sock")]] in
  let o := start (lit "/run/pound.pid") None false 101 ex_proc l f in
  ex_end o [lit "run"; lit "other"] = Some (Reg 420 0 0 None) /\ ex_end o [lit "run"; lit "p.sock"] = None /\
  ex_end o [lit "run"; lit "pound.pid"] = None /\ jail_first l.
Proof. repeat split; try reflexivity. left. reflexivity. Qed.

(** A RootJail statement after the Control section: the control socket is never removed, and when pound ends it removes instead a file
    of the same name inside the jail, if there is one *)
Theorem C76_late_jail_refuted : forall dp po fg ch p s rest f st j,
  let l := Control [Socket s] :: rest in
  start dp po fg ch p l f = Running st -> root p = [] -> euid p = 0 ->
  absolute s = true -> no_control rest -> jail_of rest = Some j -> from (pid_dir p fg l) j <> [] ->
  (exists g, finish st (from (cwd p) s) = Some (Sock 384 0 g (pid p))) /\
  (let q := from (pid_dir p fg l) j ++ comps [] s in
   may_write (s_proc st) (s_fs st (removelast q)) = true -> present (finish st q) = false).
Proof. exact late_jail. Qed.
Print Assumptions C76_late_jail_refuted.

Example C76_late_jail_ex : ex_end (ex_start [Control [Socket (lit "/run/p.sock")]; RootJail (lit "/jail")]) [lit "run"; lit "p.sock"] = Some (Sock 384 0 0 100).
Proof. reflexivity. Qed.

(** A relative name and a pound that detaches: the control socket is never removed, for pound looks for it from / when it ends *)
Theorem C76_relative_refuted : forall dp po fg ch p s rest f st,
  let l := Control [Socket s] :: rest in
  start dp po fg ch p l f = Running st -> root p = [] -> euid p = 0 ->
  s <> [] -> absolute s = false -> no_control rest -> jail_of rest = None -> runs_detached fg l = true -> cwd p <> [] ->
  exists g, finish st (from (cwd p) s) = Some (Sock 384 0 g (pid p)).
Proof. exact relative_stays. Qed.
Print Assumptions C76_relative_refuted.

Example C76_relative_ex : ex_end (ex_start [Control [Socket (lit "p.sock")]]) [lit "home"; lit "p.sock"] = Some (Sock 384 0 0 100).
Proof. reflexivity. Qed.

(** A RootJail and a socket directly in the root directory: the control socket is never removed, for the name of its directory comes out empty *)
Theorem C76_top_refuted : forall dp po fg ch p s rest f st j,
  let l := RootJail j :: Control [Socket s] :: rest in
  start dp po fg ch p l f = Running st -> root p = [] -> euid p = 0 ->
  top_level s -> no_control rest ->
  exists g, finish st (from (cwd p) s) = Some (Sock 384 0 g (pid p)).
Proof. exact top_stays. Qed.
Print Assumptions C76_top_refuted.

Example C76_top_ex : ex_end (ex_start [RootJail (lit "/jail"); Control [Socket (lit "/p.sock")]]) [lit "p.sock"] = Some (Sock 384 0 0 100).
Proof. reflexivity. Qed.

(** Whatever stands in a directory that the User of the configuration may not write to stays when pound ends: pound has given up its rights by then.
    So the PID file in a directory of root is never removed by a pound with a User statement *)
Theorem C76_rights_refuted : forall dp po fg ch p l f st q,
  start dp po fg ch p l f = Running st -> q <> [] ->
  may_write (s_proc st) (s_fs st (removelast q)) = false -> finish st q = s_fs st q.
Proof. intros dp po fg ch p l f st q _. exact (rights st q). Qed.
Print Assumptions C76_rights_refuted.

Example C76_rights_ex :
  ex_end (ex_start [User (Some 33); Group (Some 33); Control [Socket (lit "/run/p.sock")]]) [lit "run"; lit "pound.pid"] = Some (Reg 384 0 0 (Some 101)) /\
  ex_end (ex_start [User (Some 33); Group (Some 33); Control [Socket (lit "/run/p.sock")]]) [lit "run"; lit "p.sock"] = Some (Sock 384 0 0 100).
Proof. split; reflexivity. Qed.

(** A Control section with two Socket statements: only the last one is made, but the files of both names are removed when pound ends,
    although pound has not made the first *)
Theorem C76_stray_refuted : forall dp po fg ch p l f st b s,
  let q := from (cwd p) s in
  start dp po fg ch p l f = Running st -> root p = [] -> jail_of l = None -> absolute s = true -> file_name s ->
  In (Control b) l -> In s (named b) ->
  (forall b' s', In (Control b') l -> socket_of b' = Some s' -> q <> from (cwd p) s') ->
  q <> from (pid_dir p fg l) (pidfile dp po l) ->
  may_write (s_proc st) (s_fs st (removelast q)) = true ->
  s_fs st q = f q /\ present (finish st q) = false.
Proof. exact stray. Qed.
Print Assumptions C76_stray_refuted.

Example C76_stray_ex :
  let f := put [lit "run"; lit "keep"] (Some (Reg 420 0 0 None)) ex_fs in
  let o := start (lit "/run/pound.pid") None false 101 ex_proc [Control [Socket (lit "/run/keep"); Socket (lit "/run/p.sock")]] f in
  ex_at o [lit "run"; lit "keep"] = Some (Reg 420 0 0 None) /\ ex_end o [lit "run"; lit "keep"] = None.
Proof. split; reflexivity. Qed.

(** A second pound with the same configuration, that fails since the address of its HTTP listener is in use, has by then put its own socket,
    that nobody will serve, in the place of the control socket of the pound that runs *)
Theorem C76_failed_refuted : forall dp po fg ch p s f m o g old d1 d2 d3,
  let q := from (cwd p) s in
  euid p = 0 -> root p = [] -> file_name s -> (length s <= 107)%nat ->
  f (removelast q) = Some (Dir d1 d2 d3) -> f q = Some (Sock m o g old) ->
  exists f', start dp po fg ch p [Control [Socket s]; Listen false] f = Failed f' /\
             f' q = Some (Sock 384 0 (egid p) (pid p)).
Proof. exact failed_start. Qed.
Print Assumptions C76_failed_refuted.

Example C76_failed_ex :
  let f := put [lit "run"; lit "p.sock"] (Some (Sock 384 0 0 50)) ex_fs in
  match start (lit "/run/pound.pid") None false 101 ex_proc [Control [Socket (lit "/run/p.sock")]; Listen false] f with
  | Failed f' => f' [lit "run"; lit "p.sock"] | _ => None end = Some (Sock 384 0 0 100).
Proof. reflexivity. Qed.

(** The name of a socket that has more than 108 bytes is refused with the configuration *)
Theorem C76_long : forall dp po fg ch p l f s, In s (all_named l) -> (108 < length s)%nat -> start dp po fg ch p l f = Refused.
Proof. exact long_refused. Qed.
Print Assumptions C76_long.

(** A name of 108 bytes is accepted, but pound never starts with it: it does not fit in the address with the byte that ends it *)
Theorem C76_long_refuted : forall dp po fg ch p s f, length s = 108%nat ->
  exists f', start dp po fg ch p [Control [Socket s]] f = Failed f'.
Proof. exact long_name. Qed.
Print Assumptions C76_long_refuted.

Example C76_long_ex :
  length (lit "/run/" ++ repeat "x"%char 103) = 108%nat /\
  match ex_start [Control [Socket (lit "/run/" ++ repeat "x"%char 102)]] with Running _ => true | _ => false end = true.
Proof. split; reflexivity. Qed.

(** * C77: identity *)

(** A pound that root has started runs, in all its three user identities, as the User of the configuration, and in all its three group identities
    as the Group; without the statement the identities are those it was started with *)
Theorem C77_identity : forall dp po fg ch p l f st, start dp po fg ch p l f = Running st -> euid p = 0 ->
  (ruid (s_proc st), euid (s_proc st), suid (s_proc st)) =
    match id_of (user_of l) with Some u => (u, u, u) | None => (ruid p, euid p, suid p) end /\
  (rgid (s_proc st), egid (s_proc st), sgid (s_proc st)) =
    match id_of (group_of l) with Some g => (g, g, g) | None => (rgid p, egid p, sgid p) end.
Proof. exact identity. Qed.
Print Assumptions C77_identity.

(** It cannot take another user identity again *)
Theorem C77_final : forall dp po fg ch p l f st u v, start dp po fg ch p l f = Running st -> euid p = 0 ->
  user_of l = Some (Some u) -> u <> 0 -> v <> u -> setuid v (s_proc st) = None /\ seteuid v (s_proc st) = None.
Proof.
  intros dp po fg ch p l f st u v H E U N V. apply (no_way_back _ u); [|exact N|exact V].
  destruct (identity _ _ _ _ _ _ _ _ H E) as [K _]. rewrite U in K. exact K.
Qed.
Print Assumptions C77_final.

(** Whoever starts pound, root or not: with a User statement it runs as that user or not at all *)
Theorem C77_user : forall dp po fg ch p l f st u, start dp po fg ch p l f = Running st -> user_of l = Some (Some u) -> euid (s_proc st) = u.
Proof. exact unprivileged. Qed.
Print Assumptions C77_user.

(** With a user or group the system does not know pound ends before it has touched a file *)
Theorem C77_unknown : forall dp po fg ch p l f, user_of l = Some None \/ group_of l = Some None ->
  start dp po fg ch p l f = Refused \/ start dp po fg ch p l f = Failed f.
Proof. exact unknown_fails. Qed.
Print Assumptions C77_unknown.

(** With RootJail every name, absolute or not, means a place inside the directory of the last RootJail statement while pound runs *)
Theorem C77_jail : forall dp po fg ch p l f st j, start dp po fg ch p l f = Running st -> root p = [] -> jail_of l = Some j ->
  forall s, exists r, place (s_proc st) s = from (pid_dir p fg l) j ++ r.
Proof. exact jailed. Qed.
Print Assumptions C77_jail.

(** The supplementary groups stay those of whoever started pound: it does not give them up.  So with User and Group set, but started by root
    with the group 0 among its groups, pound may write to every directory that the group 0 may write to *)
Theorem C77_groups_refuted : forall dp po fg ch p l f st u g m, start dp po fg ch p l f = Running st -> euid p = 0 ->
  user_of l = Some (Some u) -> group_of l = Some (Some g) -> u <> 0 -> g <> 0 ->
  In 0 (groups p) -> Z.testbit m 4 = true ->
  groups (s_proc st) = groups p /\ may_write (s_proc st) (Some (Dir m 0 0)) = true.
Proof.
  intros dp po fg ch p l f st u g m H E U G NU NG I T.
  pose proof (groups_kept _ _ _ _ _ _ _ _ H) as K. split; [exact K|].
  cbn [may_write]. rewrite (unprivileged _ _ _ _ _ _ _ _ _ H U).
  replace (u =? 0) with false by (symmetry; apply Z.eqb_neq; exact NU).
  assert (X : mem 0 (groups (s_proc st)) = true) by (rewrite K; apply existsb_exists; exists 0; split; [exact I|reflexivity]).
  rewrite X, orb_true_r. exact T.
Qed.
Print Assumptions C77_groups_refuted.

Example C77_ex :
  let st := ex_state [User (Some 33); Group (Some 34); RootJail (lit "/jail"); Control [Socket (lit "/run/p.sock")]] in
  s_proc st = mkP 33 33 33 34 34 34 [0] 63 [lit "jail"] [lit "jail"] 101.
Proof. reflexivity. Qed.

(** * C78: addresses and names of listeners *)

(** Without SocketFrom the listener's address is what the system gives for the last Address and the last Port statement, or the default port:
    the first one, but the wildcard of IPv6 if that comes second after the one of IPv4 *)
Theorem C78_address : forall gai d body, (forall s, ~ In (SocketFrom s) body) ->
  exists y, addr_loop body (mkL None None None) = Some y /\
    resolve_listener_address gai d y =
      match gai (last_of (fun x => match x with Address a => Some a | _ => None end) body)
                (or (last_of (fun x => match x with Port a => Some a | _ => None end) body) d) with
      | [] => None
      | [a] => Some (On a)
      | a :: b :: _ => Some (On (if negb (ai_inet6 a) && ai_any a && ai_inet6 b && ai_any b then b else a))
      end.
Proof. exact address_last. Qed.
Print Assumptions C78_address.

(** A SocketFrom after an Address or Port is refused, whatever else the section says *)
Theorem C78_from_partial : forall l1 s l2, (exists a, In (Address a) l1 \/ In (Port a) l1) ->
  addr_loop (l1 ++ SocketFrom s :: l2) (mkL None None None) = None.
Proof. exact from_after. Qed.
Print Assumptions C78_from_partial.

(** The other way round, an Address or Port after SocketFrom is accepted and has no effect: the same two statements, in the other order *)
Theorem C78_from_refuted : forall s l, (forall s', ~ In (SocketFrom s') l) -> (length s <= 108)%nat ->
  exists y, addr_loop (SocketFrom s :: l) (mkL None None None) = Some y /\
    forall gai d, resolve_listener_address gai d y = Some (From s).
Proof. exact from_before. Qed.
Print Assumptions C78_from_refuted.

Example C78_from_ex :
  addr_loop [SocketFrom (lit "/run/fd"); Address (lit "10.0.0.1"); Port (lit "80")] (mkL None None None)
    = Some (mkL (Some (lit "10.0.0.1")) (Some (lit "80")) (Some (lit "/run/fd"))) /\
  addr_loop [Address (lit "10.0.0.1"); SocketFrom (lit "/run/fd"); Port (lit "80")] (mkL None None None) = None.
Proof. split; reflexivity. Qed.

(** In a configuration that is accepted no two listeners have the same name, and all listeners keep theirs *)
Theorem C78_names : forall gai l names ws,
  listeners_loop gai l [] [] = Some (names, ws) ->
  names = map (fun x => fst (fst x)) l /\ NoDup (flat_map (fun n => match n with Some s => [s] | None => [] end) names).
Proof.
  intros gai l names ws H. apply names_ok in H. destruct H as [H1 H2]. split; [exact H1|]. apply H2. constructor.
Qed.
Print Assumptions C78_names.

Example C78_names_ex :
  let gai := fun _ _ => [mkAI false true (lit "0.0.0.0"); mkAI true true (lit "::")] in
  listeners_loop gai [(Some (lit "a"), lit "80", []); (None, lit "80", [SocketFrom (lit "/s")]); (Some (lit "b"), lit "443", [])] [] []
    = Some ([Some (lit "a"); None; Some (lit "b")], [On (mkAI true true (lit "::")); From (lit "/s"); On (mkAI true true (lit "::"))]) /\
  listeners_loop gai [(Some (lit "a"), lit "80", []); (Some (lit "a"), lit "443", [])] [] [] = None.
Proof. split; reflexivity. Qed.
