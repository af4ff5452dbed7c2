(** Model of the control interface, src/svc.c 1851-1867, 2397-2442, 2509-2684, 2686-3020.
    Objects are named by their position instead of pointers.  What is listed is not
    modelled, nor are failures of memory allocation. *)
From Coq Require Import Ascii String List ZArith Bool.
From Verif Require Import Bytes NumModel.
Import ListNotations.
Open Scope Z_scope.

(** ** Objects *)

Inductive be_kind := Regular | Matrix | Control | OtherKind.
Record backend := mkBe { be_type : be_kind; be_disabled : bool }.
Record service := mkSvc { svc_name : option bytes; svc_disabled : bool; balancers : list (list backend) }.
Record listener := mkLstn { lstn_name : option bytes; lstn_disabled : bool; lstn_services : list service }.
Record config := mkCfg { listeners : list listener; services : list service }.

(** OBJECT, svc.c 2625-2634.  A listener None is the null pointer, which stands for the
    global scope; so does the listener of a service or backend. *)
Inductive object :=
| ObjListener (l : option nat)
| ObjService (l : option nat) (s : nat)
| ObjBackend (l : option nat) (s b : nat).

Definition slash : byte := "/"%char.
Definition quest : byte := "?"%char.
Definition amp : byte := "&"%char.
Definition dash : byte := "-"%char.

(** ** Identifiers, svc.c 2480-2501 *)
Inductive ident := IdErr | IdNum (n : Z) | IdStr (name : bytes).

(** Conversion of a long to int *)
Definition to_int (n : Z) : Z := (n + 2147483648) mod 4294967296 - 2147483648.

(** the end of a path component: the end of the string, / or ? *)
Definition stops (c : byte) : bool := beq c slash || beq c quest.
Definition at_stop (s : bytes) : bool := match s with [] => true | c :: _ => stops c end.

(** svc.c 2509-2537: the identifier and the rest of the URL *)
Definition ctl_getident (url : bytes) : ident * bytes :=
  match url with
  | c :: u =>
      if beq c slash
      then
        let '(errno, n, e) := strtol u 10 in
        if negb (at_stop e) then let (name, rest) := span (fun c => negb (stops c)) u in (IdStr name, rest)
        else if negb errno && (n <=? INT_MAX) then (IdNum (to_int n), e)
        else (IdErr, u)
      else (IdErr, url)
  | [] => (IdErr, url)
  end.

(** svc.c 2539-2561, LOCATE, for the names of the objects in a list; [n] is __n *)
Fixpoint locate (names : list (option bytes)) (id : ident) (n : Z) : option Z :=
  match names with
  | [] => None
  | nm :: names =>
      match id with
      | IdNum k => if Z.eqb n k then Some n else locate names id (n + 1)
      | IdStr s => if match nm with Some x => bytes_eqb x s | None => false end then Some n else locate names id (n + 1)
      | IdErr => locate names id (n + 1)
      end
  end.
Definition nat_of (o : option Z) : option nat := match o with Some z => Some (Z.to_nat z) | None => None end.

(** svc.c 2567-2576 *)
Definition locate_listener (c : config) (id : ident) : option nat :=
  match id with IdErr => None | _ => nat_of (locate (map lstn_name (listeners c)) id 0) end.

(** svc.c 2587: the services of a listener, or the global ones *)
Definition scope (c : config) (l : option nat) : list service :=
  match l with
  | None => services c
  | Some i => match nth_error (listeners c) i with Some x => lstn_services x | None => [] end
  end.
(** svc.c 2582-2592 *)
Definition locate_service (c : config) (l : option nat) (id : ident) : option nat :=
  match id with IdErr => None | _ => nat_of (locate (map svc_name (scope c l)) id 0) end.

(** svc.c 2597-2616: backends are numbered through all balancers *)
Definition backends (s : service) : list backend := concat (balancers s).
Definition locate_backend (s : service) (id : ident) : option nat :=
  match id with IdNum k => nat_of (locate (map (fun _ => None) (backends s)) (IdNum k) 0) | _ => None end.

(** ** Parameters *)

(** svc.c 1851-1867, from the character after ? or &.  The result is the text at which
    the value begins and its length; a length None has not been set. *)
Fixpoint get_param_from (fuel : nat) (p param : bytes) : option (bytes * option nat) :=
  match p with
  | [] => Some ([], None)
  | _ =>
      let (a, b) := (firstn (length param) p, skipn (length param) p) in
      match b with
      | eq :: v =>
          if bytes_eqb a param && beq eq "="%char then Some (v, Some (length (fst (span (fun c => negb (beq c amp)) v))))
          else match fuel, snd (span (fun c => negb (beq c amp)) p) with
               | S fuel, _ :: q => get_param_from fuel q param
               | _, _ => None
               end
      | [] =>
          match fuel, snd (span (fun c => negb (beq c amp)) p) with
          | S fuel, _ :: q => get_param_from fuel q param
          | _, _ => None
          end
      end
  end.
Definition get_param (url param : bytes) : option (bytes * option nat) :=
  match snd (span (fun c => negb (beq c quest)) url) with
  | [] => None
  | _ :: p => get_param_from (length p) p param
  end.

(** ** Replies *)

Inductive code_t := OK | BAD_REQUEST | NOT_FOUND.
(** Undef: an uninitialised variable is used.  Crash: a null pointer is followed. *)
Inductive reply := Reply (c : code_t) | Undef | Crash.

(** What is changed.  SetDisabled: the member disabled; sessions: see C22. *)
Inductive effect :=
| NoEffect
| SetDisabled (o : object) (dis : bool)
| SessionRemove (l : option nat) (s : nat) (key : bytes)
| SessionAdd (l : option nat) (s b : nat) (key : bytes).

(** svc.c 2397-2442; the test of the indent parameter *)
Definition send_json_reply (url : bytes) : reply :=
  match get_param url (lit "indent") with
  | None => Reply OK
  | Some (_, None) => Undef
  | Some (v, Some len) =>
      let '(errno, n, e) := strtol v 10 in
      if errno || negb (Nat.eqb (length e + len) (length v)) || (n <? 0) || (80 <? n) then Reply BAD_REQUEST else Reply OK
  end.

(** The rest of the URL must be empty or a query: svc.c 2692-2693, 2779-2780 *)
Definition no_more (url : bytes) : bool := match url with [] => true | c :: _ => beq c quest end.

Section Handlers.
  Variable c : config.

  (** The object behind a name; positions come from locate_* *)
  Definition get_service (l : option nat) (s : nat) : option service := nth_error (scope c l) s.
  Definition get_backend (l : option nat) (s b : nat) : option backend :=
    match get_service l s with Some x => nth_error (backends x) b | None => None end.

  (** svc.c 2686-2728 *)
  Definition list_handler (o : object) (url : bytes) : effect * reply :=
    if no_more url then (NoEffect, send_json_reply url) else (NoEffect, Reply NOT_FOUND).

  (** svc.c 2746-2770 *)
  Definition service_has_control (s : service) : bool := existsb (fun b => match be_type b with Control => true | _ => false end) (backends s).
  Definition listener_has_control (l : listener) : bool := existsb service_has_control (lstn_services l).

  (** svc.c 2772-2811, with backend_disable, 1246-1264.  A dynamic backend also drops the
      backends it has generated, see C35. *)
  Definition disable_handler (dis : bool) (o : object) (url : bytes) : effect * reply :=
    if no_more url
    then
      match o with
      | ObjBackend l s b =>
          match get_backend l s b with
          | Some x =>
              match be_type x with
              | Control => (NoEffect, Reply BAD_REQUEST)
              | Regular | Matrix => (SetDisabled o dis, send_json_reply url)
              | OtherKind => (NoEffect, send_json_reply url)
              end
          | None => (NoEffect, Crash)
          end
      | ObjService l s =>
          match get_service l s with
          | Some x => if service_has_control x then (NoEffect, Reply BAD_REQUEST) else (SetDisabled o dis, send_json_reply url)
          | None => (NoEffect, Crash)
          end
      | ObjListener (Some i) =>
          match nth_error (listeners c) i with
          | Some x => if listener_has_control x then (NoEffect, Reply BAD_REQUEST) else (SetDisabled o dis, send_json_reply url)
          | None => (NoEffect, Crash)
          end
      | ObjListener None => (NoEffect, Crash)                    (* listener_has_control (NULL) *)
      end
    else (NoEffect, Reply NOT_FOUND).

  (** pound.h: KEY_SIZE *)
  Definition KEY_SIZE : nat := 127.

  (** svc.c 2849-2889 *)
  Definition session_remove_handler (o : object) (url : bytes) : effect * reply :=
    match o with
    | ObjService l s =>
        match get_param url (lit "key") with
        | None => (NoEffect, Reply BAD_REQUEST)
        | Some (_, None) => (NoEffect, Undef)
        | Some (v, Some len) =>
            if Nat.ltb KEY_SIZE len then (NoEffect, Reply BAD_REQUEST)
            else (SessionRemove l s (firstn len v), send_json_reply url)
        end
    | _ => (NoEffect, Reply BAD_REQUEST)
    end.
  (** svc.c 2891-2933 *)
  Definition session_add_handler (o : object) (url : bytes) : effect * reply :=
    match o with
    | ObjBackend l s b =>
        match get_param url (lit "key") with
        | None => (NoEffect, Reply BAD_REQUEST)
        | Some (_, None) => (NoEffect, Undef)
        | Some (v, Some len) =>
            if Nat.ltb KEY_SIZE len then (NoEffect, Reply BAD_REQUEST)
            else (SessionAdd l s b (firstn len v), send_json_reply url)
        end
    | _ => (NoEffect, Reply BAD_REQUEST)
    end.

  Definition handler := object -> bytes -> effect * reply.

  (** svc.c 2638-2646 *)
  Definition ctl_backend (f : handler) (url : bytes) (l : option nat) (s : nat) : effect * reply :=
    let (id, url) := ctl_getident url in
    match get_service l s with
    | None => (NoEffect, Crash)
    | Some x => match locate_backend x id with None => (NoEffect, Reply NOT_FOUND) | Some b => f (ObjBackend l s b) url end
    end.
  (** svc.c 2648-2659 *)
  Definition ctl_service (f : handler) (url : bytes) (l : option nat) : effect * reply :=
    let (id, url) := ctl_getident url in
    match locate_service c l id with
    | None => (NoEffect, Reply NOT_FOUND)
    | Some s => if no_more url then f (ObjService l s) url else ctl_backend f url l s
    end.
  (** svc.c 2661-2684 *)
  Definition ctl_listener (f : handler) (url : bytes) : effect * reply :=
    let len := length (fst (span (fun c => negb (beq c quest)) url)) in
    let go (l : option nat) (url : bytes) := if no_more url then f (ObjListener l) url else ctl_service f url l in
    let other :=
      let (id, url) := ctl_getident url in
      match locate_listener c id with None => (NoEffect, Reply NOT_FOUND) | Some l => go (Some l) url end in
    match url with
    | a :: url1 =>
        if beq a slash && Nat.eqb len 1 then go None url1
        else
          match url1 with
          | b :: url2 =>
              if beq a slash && beq b dash && (Nat.eqb len 2 || match url2 with d :: _ => beq d slash | [] => false end)
              then go None url2 else other
          | [] => other
          end
    | [] => other
    end.
End Handlers.

(** ** Endpoints *)

(** Methods; OTHER stands for all others *)
Inductive meth := GET | PUT | DELETE | OTHER.
Definition meth_eqb (a b : meth) : bool :=
  match a, b with GET, GET | PUT, PUT | DELETE, DELETE | OTHER, OTHER => true | _, _ => false end.

(** svc.c 2951-2973 *)
Inductive action := ListAll | ListCore | ListListener | DisableListener | EnableListener
| ListService | DisableService | EnableService | DeleteSession | AddSession.
Record endpoint := mkEp { uri : bytes; method : meth; endfn : action }.
Definition control_endpoint : list endpoint :=
  [ mkEp [] GET ListAll; mkEp (lit "/core") GET ListCore;
    mkEp (lit "/listener") GET ListListener; mkEp (lit "/listener") DELETE DisableListener; mkEp (lit "/listener") PUT EnableListener;
    mkEp (lit "/service") GET ListService; mkEp (lit "/service") DELETE DisableService; mkEp (lit "/service") PUT EnableService;
    mkEp (lit "/session") DELETE DeleteSession; mkEp (lit "/session") PUT AddSession ].

(** The result of find_endpoint: an endpoint, or NULL with *errcode (None: not set) *)
Inductive found := Found (e : endpoint) | Missing (errcode : option code_t).

(** svc.c 2988-3001 *)
Fixpoint find_loop (tab : list endpoint) (m : meth) (u : bytes) (len : nat) (cp : option endpoint) (uri_match : bool) : option endpoint * bool :=
  match tab with
  | [] => (cp, uri_match)
  | p :: tab =>
      if Nat.leb (length (uri p)) len && bytes_eqb (uri p) (firstn (length (uri p)) u) && at_stop (skipn (length (uri p)) u)
      then
        if meth_eqb (method p) m
        then find_loop tab m u len (match cp with Some q => if Nat.ltb (length (uri q)) (length (uri p)) then Some p else cp | None => Some p end) uri_match
        else find_loop tab m u len cp true
      else find_loop tab m u len cp uri_match
  end.
(** svc.c 2975-3007 *)
Definition find_endpoint (tab : list endpoint) (m : meth) (u : bytes) : found :=
  let path := fst (span (fun c => negb (beq c quest)) u) in
  let len := length path in
  if Nat.eqb len 0 then Missing None
  else
    let len := if beq (last path NUL) slash then (len - 1)%nat else len in
    match find_loop tab m u len None false with
    | (Some e, _) => Found e
    | (None, uri_match) => Missing (Some (if uri_match then BAD_REQUEST else NOT_FOUND))
    end.

(** svc.c 2444-2474, 2730-2744, 2813-2847, 2935-2949 *)
Definition call (c : config) (a : action) (url : bytes) : effect * reply :=
  let ctl (r : effect * reply) := match url with u :: _ => if beq u slash then r else (NoEffect, Reply NOT_FOUND) | [] => (NoEffect, Reply NOT_FOUND) end in
  match a with
  | ListAll | ListCore => (NoEffect, send_json_reply url)
  | ListListener => ctl (ctl_listener c list_handler url)
  | DisableListener => ctl (ctl_listener c (disable_handler c true) url)
  | EnableListener => ctl (ctl_listener c (disable_handler c false) url)
  | ListService => ctl (ctl_service c list_handler url None)
  | DisableService => ctl (ctl_service c (disable_handler c true) url None)
  | EnableService => ctl (ctl_service c (disable_handler c false) url None)
  | DeleteSession => ctl (ctl_listener c session_remove_handler url)
  | AddSession => ctl (ctl_listener c session_add_handler url)
  end.
(** svc.c 3009-3020 *)
Definition control_response_basic (c : config) (m : meth) (url : bytes) : effect * reply :=
  match find_endpoint control_endpoint m url with
  | Found e => call c (endfn e) (skipn (length (uri e)) url)
  | Missing (Some code) => (NoEffect, Reply code)
  | Missing None => (NoEffect, Undef)
  end.

(** The configuration after an effect *)
Definition update {A} (f : A -> A) (n : nat) (l : list A) : list A :=
  match nth_error l n with Some x => firstn n l ++ f x :: skipn (S n) l | None => l end.
Fixpoint update2 {A} (f : A -> A) (n : nat) (l : list (list A)) : list (list A) :=
  match l with
  | [] => []
  | x :: l => if Nat.ltb n (length x) then update f n x :: l else x :: update2 f (n - length x) l
  end.
Definition upd_scope (f : list service -> list service) (l : option nat) (c : config) : config :=
  match l with
  | None => mkCfg (listeners c) (f (services c))
  | Some i => mkCfg (update (fun x => mkLstn (lstn_name x) (lstn_disabled x) (f (lstn_services x))) i (listeners c)) (services c)
  end.
Definition apply_effect (e : effect) (c : config) : config :=
  match e with
  | SetDisabled (ObjListener (Some i)) dis => mkCfg (update (fun x => mkLstn (lstn_name x) dis (lstn_services x)) i (listeners c)) (services c)
  | SetDisabled (ObjListener None) _ => c
  | SetDisabled (ObjService l s) dis => upd_scope (update (fun x => mkSvc (svc_name x) dis (balancers x)) s) l c
  | SetDisabled (ObjBackend l s b) dis =>
      upd_scope (update (fun x => mkSvc (svc_name x) (svc_disabled x) (update2 (fun y => mkBe (be_type y) dis) b (balancers x))) s) l c
  | _ => c
  end.
