(** Model of the rewriting of Location, Content-Location and Destination: need_rewrite and its
    helpers, src/svc.c 1294-1502; the cases HEADER_LOCATION and HEADER_CONTLOCATION of
    backend_response, src/http.c 3772-3829; send_to_backend, src/http.c 4170-4205.

    Not modelled: running out of memory. *)
From Coq Require Import Ascii String List ZArith Bool.
From Verif Require Import Bytes NumModel ReqModel.
Import ListNotations.
Open Scope Z_scope.

(** Socket addresses.  The port is in host order (htons is applied to both sides of every
    comparison, but for [listener_port]); [sdata] is the rest of the structure. *)
Inductive fam := INET | INET6 | UNIX.
Definition fam_eqb (a b : fam) : bool := match a, b with INET, INET | INET6, INET6 | UNIX, UNIX => true | _, _ => false end.
Record sockaddr := mkSA { family : fam; sport : Z; sdata : bytes }.

(** sun_set_port, svc.c 1309-1322 *)
Definition set_port (a : sockaddr) (p : Z) : sockaddr :=
  match family a with UNIX => a | f => mkSA f p (sdata a) end.
(** memcmp of two socket addresses; the family is part of what is compared *)
Definition same_bytes (a b : sockaddr) : bool := fam_eqb (family a) (family b) && (sport a =? sport b) && bytes_eqb (sdata a) (sdata b).

(** A regular backend (address, ServerName, is the connection encrypted), a listener
    (RewriteLocation, address, the value of the pointer addr.ai_addr, has it certificates) *)
Record backend := mkBe { b_addr : sockaddr; b_name : option bytes; b_tls : bool }.
Record listener := mkLs { l_mode : Z; l_addr : sockaddr; l_ptr : Z; l_tls : bool }.

(** is_backend_address, svc.c 1328-1346 *)
Definition is_backend_address (addrs : list sockaddr) (port : Z) (be : backend) : bool :=
  existsb (fun a => fam_eqb (family a) (family (b_addr be)) && same_bytes (b_addr be) (set_port a port)) addrs.

(** is_listener_address, svc.c 1352-1374 *)
Definition is_listener_address (addrs : list sockaddr) (l : listener) : bool :=
  existsb (fun a => negb (fam_eqb (family a) (family (l_addr l))) && same_bytes (set_port (l_addr l) 0) (set_port a 0)) addrs.

(** listener_port, svc.c 1377-1390, applied to the address of the pointer instead of the address
    it points to: the first two bytes of the pointer are taken as the family, the next two as the
    port (little endian).  AF_INET is 2, AF_INET6 10. *)
Definition listener_port (l : listener) : Z :=
  let f := l_ptr l mod 65536 in if (f =? 2) || (f =? 10) then (l_ptr l / 65536) mod 65536 else 0.
Definition htons (p : Z) : Z := (p mod 256) * 256 + (p / 256) mod 256.

(** is_proto, svc.c 1294-1299 *)
Definition is_proto (pat proto : bytes) : bool := Nat.eqb (length proto) (length pat) && ci_eqb proto pat.

(** The expression LOCATION, src/pound.c 1134-1136: [http or https, "://", (not "/")+, anything],
    any case, anywhere in the text.  Groups 1, 2 and 3. *)
Definition not_slash (c : byte) : bool := negb (beq c "/"%char).
Definition scheme_at (s : bytes) : option (bytes * bytes) :=
  if ci_eqb (firstn 7 s) (lit "http://") then Some (firstn 4 s, skipn 7 s)
  else if ci_eqb (firstn 8 s) (lit "https://") then Some (firstn 5 s, skipn 8 s)
  else None.
Definition match_at (s : bytes) : option (bytes * bytes * bytes) :=
  match scheme_at s with
  | Some (p, r) => match span not_slash r with ([], _) => None | (h, rest) => Some (p, h, rest) end
  | None => None
  end.
Fixpoint match_location (s : bytes) : option (bytes * bytes * bytes) :=
  match match_at s with
  | Some m => Some m
  | None => match s with [] => None | _ :: s' => match_location s' end
  end.

(** atoi, then htons: only 16 bits of the number count *)
Definition atoi_port (s : bytes) : Z := let '(_, n, _) := strtol s 10 in n mod 65536.

Definition not_colon (c : byte) : bool := negb (beq c ":"%char).

(** 1448-1456 *)
Definition split_port (proto hostport : bytes) : bytes * Z :=
  match span not_colon hostport with
  | (h, _ :: p) => (h, atoi_port p)
  | (h, []) => (h, if is_proto (lit "https") proto then 443 else 80)
  end.

Definition inet (be : backend) : bool := match family (b_addr be) with UNIX => false | _ => true end.

(** need_rewrite, svc.c 1409-1502.  [resolve] is getaddrinfo: None if it fails.  The result is the
    path, if the location is to be rewritten. *)
Definition need_rewrite (resolve : bytes -> option (list sockaddr)) (location v_host : bytes) (l : listener) (be : backend) : option bytes :=
  if l_mode l =? 0 then None
  else if negb (inet be) then None
  else match match_location location with
       | None => None
       | Some (proto, hostport, rest) =>
           let path := match rest with c :: r => if beq c "/"%char then r else rest | [] => [] end in
           let (host, port) := split_port proto hostport in
           let vhost := fst (span not_colon v_host) in
           let r := resolve host in
           let result := match r with
                         | Some addrs => is_backend_address addrs port be
                         | None => match b_name be with
                                   | Some n => ci_eqb host n && is_proto (if b_tls be then lit "https" else lit "http") proto
                                   | None => false
                                   end
                         end in
           let result := if negb result && (l_mode l =? 1) then
                           (is_listener_address (match r with Some a => a | None => [] end) l || ci_eqb host vhost)
                           || (negb (htons port =? listener_port l) || negb (is_proto (if l_tls l then lit "https" else lit "http") proto))
                         else result in
           if result then Some path else None
       end.

(** http.c 3772-3829: one header of the response.  [host]: the value of the Host header of the
    request; [ssl]: is the connection to the client encrypted *)
Definition rewrite_header (resolve : bytes -> option (list sockaddr)) (host : option bytes) (ssl : bool) (l : listener) (be : backend) (h : header) : header :=
  let new name :=
    if l_mode l =? 0 then h
    else match host with
         | Some ((_ :: _) as v) =>
             match need_rewrite resolve (h_val h) v l be with
             | Some path => qualify_header (lit name ++ lit ": " ++ (if ssl then lit "https" else lit "http") ++ lit "://" ++ v ++ lit "/" ++ path)
             | None => h
             end
         | _ => h
         end in
  match h_code h with
  | HEADER_LOCATION => new "Location"%string
  | HEADER_CONTLOCATION => new "Content-location"%string
  | _ => h
  end.

(** http.c 4170-4205: the text of the Destination header with value [val]; [caddr] is the address
    of the backend as text *)
Definition rewrite_destination (rewr_dest : bool) (caddr : bytes) (https : bool) (h : header) : header :=
  if rewr_dest then
    match match_location (h_val h) with
    | None => h
    | Some (_, _, rest) => qualify_header (lit "Destination: " ++ (if https then lit "https" else lit "http") ++ lit "://" ++ caddr ++ rest)
    end
  else h.
