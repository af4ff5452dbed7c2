(** C61: the backends of a configuration: Backend, UseBackend and Emergency sections, global backends, and the
    completion of the services after the text has been read (src/config.c).  Definitions only.

    Tokens have been read already (C41, C57) and numbers converted (C46). *)
From Coq Require Import Ascii String List ZArith Bool.
From Verif Require Import Bytes.
Import ListNotations.
Local Open Scope Z_scope.

(** * Numeric addresses *)

(** str_is_ipv4, config.c 4685-4709. *)
Fixpoint ipv4_loop (dot_count digit_count : Z) (addr : bytes) : bool :=
  match addr with
  | [] => dot_count =? 3
  | c :: addr =>
    if beq c "." then
      if 4 <? dot_count + 1 then false else ipv4_loop (dot_count + 1) 0 addr
    else if is_digit c && (digit_count + 1 <=? 3) then ipv4_loop dot_count (digit_count + 1) addr
    else false
  end.
Definition str_is_ipv4 (addr : bytes) : bool := ipv4_loop 0 0 addr.

Definition is_ascii (c : byte) : bool := code c <? 128.

(** str_is_ipv6, config.c 4711-4740. *)
Fixpoint ipv6_loop (col_count dcol dig_count : Z) (addr : bytes) : bool :=
  match addr with
  | [] => (col_count =? 7) || negb (dcol =? 0)
  | c :: addr =>
    if negb (is_ascii c) then false
    else if is_xdigit c then
      if 4 <? dig_count + 1 then false else ipv6_loop col_count dcol (dig_count + 1) addr
    else if beq c ":" then
      let again := negb (col_count =? 0) && (dig_count =? 0) in
      let dcol := if again then dcol + 1 else dcol in
      if again && (1 <? dcol) then false
      else if 7 <? col_count + 1 then false
      else ipv6_loop (col_count + 1) dcol 0 addr
    else false
  end.
Definition str_is_ipv6 (addr : bytes) : bool := ipv6_loop 0 0 0 addr.

(** str_is_ip, config.c 4742-4761: [dot] is 0 or the code of a dot; bytes of a C string are not NUL. *)
Fixpoint ip_loop (dot : byte) (addr : bytes) : bool :=
  match addr with
  | [] => false
  | c :: rest =>
    if negb (is_ascii c) then false
    else if is_xdigit c then str_is_ipv6 addr
    else if beq c dot then str_is_ipv4 addr
    else if is_digit c then ip_loop "."%char rest
    else false
  end.
Definition str_is_ip (addr : bytes) : bool := ip_loop NUL addr.

(** * Sections *)

Inductive resolve_mode := RImmediate | RFirst | RAll | RSrv.   (* pound.h 472-478 *)
Definition is_immediate (m : resolve_mode) : bool := match m with RImmediate => true | _ => false end.

(** struct be_matrix, pound.h 484-508, what the configuration sets; [m_ssl] is whether ctx is set. *)
Record matrix := {
  m_host : option bytes; m_port : Z; m_family : Z; m_mode : resolve_mode;
  m_retry : Z; m_ignore_weight : bool; m_ttl : Z;
  m_to : Z; m_conn_to : Z; m_ws_to : Z; m_ssl : bool; m_servername : option bytes
}.

(** The timeouts of POUND_DEFAULTS. *)
Record defaults := { be_to : Z; be_connto : Z; ws_to : Z }.

(** A directive of a Backend section (backend_parsetab, config.c 880-966).  [Port None]: getaddrinfo
    refuses the port (assign_port_generic, 224-268).  [Ssl valid]: Cert, Ciphers and Disable, which want HTTPS
    before them; [valid] is whether their arguments are accepted. *)
Inductive stmt :=
| Address (s : bytes) | Port (p : option Z) | Family (f : Z) | Resolve (m : resolve_mode)
| IgnoreSRVWeight (b : bool) | OverrideTTL (n : Z) | RetryInterval (n : Z)
| Priority (n : Z) | TimeOut (n : Z) | WSTimeOut (n : Z) | ConnTO (n : Z)
| HTTPS | Ssl (valid : bool) | Disabled (b : bool) | ServerName (s : bytes).

Definition num (b : bool) : Z := if b then 1 else 0.

(** One directive; None is CFGPARSER_FAIL.  The priority is at least 1 (backend_assign_priority, 792-796). *)
Definition set_stmt (m : matrix) (pri dis : Z) (s : stmt) : option (matrix * Z * Z) :=
  let '(Build_matrix h p f r rt iw tl t c w ssl sn) := m in
  match s with
  | Address s => Some (Build_matrix (Some s) p f r rt iw tl t c w ssl sn, pri, dis)
  | Port (Some p) => Some (Build_matrix h p f r rt iw tl t c w ssl sn, pri, dis)
  | Port None => None
  | Family f => Some (Build_matrix h p f r rt iw tl t c w ssl sn, pri, dis)
  | Resolve r => Some (Build_matrix h p f r rt iw tl t c w ssl sn, pri, dis)
  | IgnoreSRVWeight b => Some (Build_matrix h p f r rt b tl t c w ssl sn, pri, dis)
  | OverrideTTL n => Some (Build_matrix h p f r rt iw n t c w ssl sn, pri, dis)
  | RetryInterval n => Some (Build_matrix h p f r n iw tl t c w ssl sn, pri, dis)
  | Priority n => if n <? 1 then None else Some (m, n, dis)
  | TimeOut n => Some (Build_matrix h p f r rt iw tl n c w ssl sn, pri, dis)
  | WSTimeOut n => Some (Build_matrix h p f r rt iw tl t c n ssl sn, pri, dis)
  | ConnTO n => Some (Build_matrix h p f r rt iw tl t n w ssl sn, pri, dis)
  | HTTPS => Some (Build_matrix h p f r rt iw tl t c w true sn, pri, dis)
  | Ssl valid => if ssl && valid then Some (m, pri, dis) else None
  | Disabled b => Some (m, pri, num b)
  | ServerName s => Some (Build_matrix h p f r rt iw tl t c w ssl (Some s), pri, dis)
  end.
Fixpoint set_stmts (m : matrix) (pri dis : Z) (ss : list stmt) : option (matrix * Z * Z) :=
  match ss with
  | [] => Some (m, pri, dis)
  | s :: ss => match set_stmt m pri dis s with
               | Some (m, pri, dis) => set_stmts m pri dis ss
               | None => None
               end
  end.

(** BACKEND, as far as it matters here. *)
Inductive special := Redirect | Acme | Control | Error | Metrics.
Inductive place :=
| Inet (family : Z) (addr : bytes) (port : Z)       (* port: host order; meaningful for INET and INET6 *)
| Unix (path : bytes) (addrlen : Z).
Inductive kind :=
| KRef (name : bytes)                 (* BE_BACKEND_REF *)
| KMatrix (m : matrix)                (* BE_MATRIX *)
| KRegular (p : place) (m : matrix)   (* BE_REGULAR: address, and timeouts, ctx, servername of the matrix *)
| KSpecial (s : special).
Record backend := { be_kind : kind; priority : Z; disabled : Z }.

(** parse_backend_internal, config.c 1007-1031. *)
Definition parse_backend_internal (dfl : defaults) (ss : list stmt) : option (matrix * Z * Z) :=
  set_stmts (Build_matrix None 0 0 RImmediate 0 false 0 (be_to dfl) (be_connto dfl) (ws_to dfl) false None)
    5 0 ss.

(** A directive of Backend "name" in a service (use_backend_parsetab, config.c 968-984). *)
Inductive use_stmt := UPriority (n : Z) | UDisabled (b : bool).
Fixpoint set_uses (pri dis : Z) (us : list use_stmt) : option (Z * Z) :=
  match us with
  | [] => Some (pri, dis)
  | UPriority n :: us => if n <? 1 then None else set_uses n dis us
  | UDisabled b :: us => set_uses pri (num b) us
  end.

(** The statements of a service that make backends. *)
Inductive item :=
| IBackend (ss : list stmt)                       (* Backend ... End *)
| IRef (name : bytes) (us : list use_stmt)        (* Backend "name" ... End *)
| IUse (name : bytes)                             (* UseBackend "name" *)
| IEmergency (ss : list stmt)                     (* Emergency ... End *)
| ISpecial (s : special).                         (* redirects, ACME, Control, Error, Metrics *)

(** parse_backend 1033-1066, parse_use_backend 1068-1085, parse_emergency 1087-1105, and the others, which
    make a backend of priority 1 (1111, 1120, 1673, 1735, 2751): the backend, and whether it goes
    to the emergency balancer. *)
Definition parse_item (dfl : defaults) (i : item) : option (bool * backend) :=
  match i with
  | IBackend ss =>
    match parse_backend_internal dfl ss with
    | Some (m, pri, dis) => Some (false, Build_backend (KMatrix m) pri dis)
    | None => None
    end
  | IRef name us =>
    match set_uses (-1) (-1) us with
    | Some (pri, dis) => Some (false, Build_backend (KRef name) pri dis)
    | None => None
    end
  | IUse name => Some (false, Build_backend (KRef name) 5 0)
  | IEmergency ss =>
    match parse_backend_internal (Build_defaults 120 120 120) ss with
    | Some (m, pri, dis) => Some (true, Build_backend (KMatrix m) pri dis)
    | None => None
    end
  | ISpecial s => Some (false, Build_backend (KSpecial s) 1 0)
  end.

(** The backends of a service: those of the normal balancer and those of the emergency one (the balancers
    are created when they are first needed; an empty one makes no difference here). *)
Fixpoint parse_items (dfl : defaults) (is : list item) : option (list backend * list backend) :=
  match is with
  | [] => Some ([], [])
  | i :: is =>
    match parse_item dfl i with
    | None => None
    | Some (emerg, be) =>
      match parse_items dfl is with
      | None => None
      | Some (n, e) => if emerg : bool then Some (n, be :: e) else Some (be :: n, e)
      end
    end
  end.

(** NAMED_BACKEND, config.c 98-106, and the table (a hash table by name, see C48). *)
Record named := { nb_mtx : matrix; nb_priority : Z; nb_disabled : Z }.
Fixpoint named_backend_retrieve (tab : list (bytes * named)) (name : bytes) : option named :=
  match tab with
  | [] => None
  | (n, nb) :: tab => if bytes_eqb n name then Some nb else named_backend_retrieve tab name
  end.

(** The statements of the configuration that matter here: a global Backend "name" (parse_named_backend, 4290-4329),
    a service. *)
Inductive top := TBackend (name : bytes) (ss : list stmt) | TService (is : list item).

Fixpoint parse_tops (dfl : defaults) (tab : list (bytes * named)) (svcs : list (list backend * list backend))
    (ts : list top) :=
  match ts with
  | [] => Some (tab, svcs)
  | TBackend name ss :: ts =>
    match parse_backend_internal dfl ss with
    | None => None
    | Some (m, pri, dis) =>
      match named_backend_retrieve tab name with
      | Some _ => None                            (* redefinition *)
      | None => parse_tops dfl (tab ++ [(name, Build_named m pri dis)]) svcs ts
      end
    end
  | TService is :: ts =>
    match parse_items dfl is with
    | None => None
    | Some s => parse_tops dfl tab (svcs ++ [s]) ts
    end
  end.

(** * Completion *)

(** What the system gives: getaddrinfo (whether DNS may be used, name, family: the first address found); whether
    DNS has not been switched off with -Wno-dns; whether dynamic backends are compiled in. *)
Record system := {
  getaddr : bool -> bytes -> Z -> option (Z * bytes);
  feature_dns : bool;
  dynamic : bool
}.

Definition UNIX_PATH_MAX : Z := 108.
Definition PRI_MAX : Z := 65535.
Definition PORT_HTTP : Z := 80.
Definition PORT_HTTPS : Z := 443.

Inductive outcome (A : Type) := Crash | Fail | Ok (a : A).
Arguments Crash {A}. Arguments Fail {A}. Arguments Ok {A}.

Definition starts_with_slash (h : bytes) : bool :=
  match h with c :: _ => beq c "/" | [] => false end.

(** backend_resolve, config.c 4789-4827, get_host (svc.c 1269-1292), backend_matrix_to_regular (4763-4787).  The length of
    the address of a socket includes the two bytes of the family and the NUL. *)
Definition backend_resolve (sys : system) (hostname : bytes) (m : matrix) : option kind :=
  match getaddr sys (feature_dns sys) hostname (m_family m) with
  | Some (f, a) => Some (KRegular (Inet f a (m_port m)) m)
  | None =>
    if UNIX_PATH_MAX <? Z.of_nat (length hostname) then None
    else Some (KRegular (Unix hostname (Z.of_nat (length hostname) + 2 + 1)) m)
  end.

(** backend_finalize, config.c 4851-4930.  xstrdup (NULL) is undefined: Crash. *)
Definition set_mode (r : resolve_mode) (m : matrix) : matrix :=
  let '(Build_matrix h p f _ rt iw tl t c w ssl sn) := m in Build_matrix h p f r rt iw tl t c w ssl sn.
Definition set_port (p : Z) (m : matrix) : matrix :=
  let '(Build_matrix h _ f r rt iw tl t c w ssl sn) := m in Build_matrix h p f r rt iw tl t c w ssl sn.

Definition finalize_matrix (sys : system) (m : matrix) (pri dis : Z) : outcome backend :=
  match m_host m with
  | None => Fail                                  (* Backend missing Address declaration *)
  | Some h =>
    let m := if starts_with_slash h || str_is_ip h then set_mode RImmediate m else m in
    if negb (m_port m =? 0) && starts_with_slash h then Fail
    else
      let m := if m_port m =? 0 then set_port (if m_ssl m then PORT_HTTPS else PORT_HTTP) m else m in
      if is_immediate (m_mode m) then
        match backend_resolve sys h m with
        | Some k => Ok (Build_backend k pri dis)
        | None => Fail
        end
      else if dynamic sys && feature_dns sys then Ok (Build_backend (KMatrix m) pri dis)
      else Fail
  end.

Definition backend_finalize (sys : system) (tab : list (bytes * named)) (be : backend) : outcome backend :=
  match be_kind be with
  | KRef name =>
    match named_backend_retrieve tab name with
    | None => Fail                                (* named backend is not declared *)
    | Some nb =>
      match m_host (nb_mtx nb) with
      | None => Crash
      | Some _ =>
        finalize_matrix sys (nb_mtx nb)
          (if priority be =? -1 then nb_priority nb else priority be)
          (if disabled be =? -1 then nb_disabled nb else disabled be)
      end
    end
  | KMatrix m => finalize_matrix sys m (priority be) (disabled be)
  | _ => Ok be
  end.

(** cb_be_setup, config.c 4937-4960, for each backend of a balancer.  After an error the others are still done. *)
Definition cap (be : backend) : backend :=
  if PRI_MAX <? priority be then Build_backend (be_kind be) PRI_MAX (disabled be) else be.
Fixpoint setup (sys : system) (tab : list (bytes * named)) (bes : list backend) : outcome (list backend) :=
  match bes with
  | [] => Ok []
  | be :: bes =>
    match backend_finalize sys tab be with
    | Crash => Crash
    | Fail => match setup sys tab bes with Crash => Crash | _ => Fail end
    | Ok be => match setup sys tab bes with Ok l => Ok (cap be :: l) | r => r end
    end
  end.

(** The classes of the backends of a balancer with several, config.c 4977-4990. *)
Definition class_ok (be : backend) : bool :=
  match be_kind be with
  | KRegular _ _ | KMatrix _ | KSpecial Redirect => true
  | _ => false
  end.
Definition balancer_ok (l : list backend) : bool :=
  match l with
  | [] | [_] => true
  | _ => forallb class_ok l
  end.

Definition finalize_balancer (sys : system) (tab : list (bytes * named)) (bes : list backend)
  : outcome (list backend) :=
  match setup sys tab bes with
  | Ok l => if balancer_ok l then Ok l else Fail
  | r => r
  end.

(** service_finalize, config.c 4962-5022 (without the warnings and the start of the balancer). *)
Definition service_finalize (sys : system) (tab : list (bytes * named)) (s : list backend * list backend)
  : outcome (list backend * list backend) :=
  match finalize_balancer sys tab (fst s) with
  | Ok n =>
    match finalize_balancer sys tab (snd s) with
    | Ok e => Ok (n, e)
    | Fail => Fail
    | Crash => Crash
    end
  | Fail => Fail
  | Crash => Crash
  end.

(** foreach_service (svc.c 3075-3098): until the first error. *)
Fixpoint finalize_services (sys : system) (tab : list (bytes * named)) (svcs : list (list backend * list backend))
  : outcome (list (list backend * list backend)) :=
  match svcs with
  | [] => Ok []
  | s :: svcs =>
    match service_finalize sys tab s with
    | Ok s => match finalize_services sys tab svcs with Ok l => Ok (s :: l) | r => r end
    | Fail => Fail
    | Crash => Crash
    end
  end.

(** parse_config_file, config.c 5130-5187, what concerns the backends. *)
Definition parse_config_file (sys : system) (dfl : defaults) (ts : list top)
  : outcome (list (list backend * list backend)) :=
  match parse_tops dfl [] [] ts with
  | None => Fail
  | Some (tab, svcs) => finalize_services sys tab svcs
  end.
