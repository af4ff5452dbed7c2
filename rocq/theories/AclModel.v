(** Access control lists. *)
From Coq Require Import Ascii String List ZArith Bool Arith.
From Verif Require Import Bytes NumModel.
Import ListNotations.
Open Scope Z_scope.

(** Address families; AF_OTHER stands for every family that is not handled. *)
Inductive family := AF_INET | AF_INET6 | AF_OTHER.
Definition family_eqb (a b : family) : bool :=
  match a, b with
  | AF_INET, AF_INET | AF_INET6, AF_INET6 | AF_OTHER, AF_OTHER => true
  | _, _ => false
  end.

(** A socket address: its family and the bytes of the address in network order
    (sin_addr or sin6_addr); the port is not represented. *)
Record sockaddr := mkSa { sa_family : family; sa_addr : bytes }.

(** config.c:327 *)
Definition MAX_INADDR_BYTES : Z := 16.

(** config.c:329-336, CIDR; of [addr] only the first [len] bytes are represented *)
Record cidr := mkCidr { c_family : family; c_len : Z; c_addr : bytes; c_mask : bytes }.

(** The C operator & on unsigned chars *)
Definition byte_and (a b : byte) : byte :=
  match a, b with
  | Ascii a0 a1 a2 a3 a4 a5 a6 a7, Ascii b0 b1 b2 b3 b4 b5 b6 b7 =>
      Ascii (a0 && b0) (a1 && b1) (a2 && b2) (a3 && b3) (a4 && b4) (a5 && b5) (a6 && b6) (a7 && b7)
  end.

(** config.c:360-364: the loop of cidr_match; true if no byte differs *)
Fixpoint cidr_bytes_match (addr mask ap : bytes) : bool :=
  match ap, addr, mask with
  | p :: ap, a :: addr, m :: mask => beq a (byte_and p m) && cidr_bytes_match addr mask ap
  | [], _, _ => true
  | _, _, _ => false
  end.

(** config.c:353-367, cidr_match; true stands for the result 0 *)
Definition cidr_match (c : cidr) (ap : bytes) (len : Z) : bool :=
  if c_len c =? len then cidr_bytes_match (c_addr c) (c_mask c) ap else true.

(** config.c:374-392, sockaddr_bytes: the length *)
Definition sockaddr_bytes (sa : sockaddr) : Z :=
  match sa_family sa with
  | AF_INET => 4
  | AF_INET6 => 16
  | AF_OTHER => -1
  end.

(** config.c:398-416, acl_match *)
Definition acl_match (acl : list cidr) (sa : sockaddr) : Z :=
  let len := sockaddr_bytes sa in
  if len =? -1 then -1
  else if existsb (fun c => family_eqb (c_family c) (sa_family sa) && cidr_match c (sa_addr sa) len) acl
       then 0 else 1.

(** Conversion of a 64-bit unsigned number to int *)
Definition to_int (n : Z) : Z :=
  let m := n mod 4294967296 in if m <? 2147483648 then m else m - 4294967296.

(** config.c:429: (0xff >> cnt) << cnt stored in an unsigned char *)
Definition mask_byte (cnt : Z) : byte :=
  ascii_of_N (Z.to_N ((Z.shiftl (Z.shiftr 255 cnt) cnt) mod 256)).
Definition byte_ff : byte := ascii_of_N 255.
Definition byte_00 : byte := ascii_of_N 0.

(** config.c:418-432, masklen_to_netmask on the 16 bytes of the CIDR.  None: it
    writes past the end of the buffer. *)
Definition masklen_to_netmask (masklen : Z) : option bytes :=
  let cnt := to_int (masklen / 8) in
  if MAX_INADDR_BYTES <? cnt then None
  else
    let i := Z.to_nat cnt in
    if Nat.eqb i 16 then Some (repeat byte_ff i)
    else Some (repeat byte_ff i ++ [mask_byte (8 - masklen mod 8)] ++ repeat byte_00 (15 - i)).

(** Outcome of a parser: a syntax error, an out-of-bounds write, or success *)
Inductive parsed (A : Type) := PFail | POverflow | POk (a : A).
Arguments PFail {A}.
Arguments POverflow {A}.
Arguments POk {A} a.

(** config.c:487-488 *)
Fixpoint mask_addr (addr mask : bytes) : bytes :=
  match addr, mask with
  | a :: addr, m :: mask => byte_and a m :: mask_addr addr mask
  | _, _ => []
  end.

Section Resolver.
  (** getaddrinfo with AI_NUMERICHOST: the addresses a numeric text denotes, or an error *)
  Variable resolve : bytes -> option (list sockaddr).

  (** config.c:434-496, parse_cidr; [tok] is the text of the string token *)
  Definition parse_cidr (tok : bytes) : parsed cidr :=
    let (host, tail) := span (fun c => negb (beq c "/"%char)) tok in
    let mask :=
      match tail with
      | [] => Some None
      | _ :: mask =>
          let '(errno, n, p) := strtoul mask 10 in
          if errno || negb (at_end p) then None else Some (Some n)
      end in
    match mask with
    | None => PFail
    | Some mask =>
        match resolve host with
        | Some (sa :: _) =>
            let len := sockaddr_bytes sa in
            if len =? -1 then PFail
            else
              let masklen := match mask with Some n => n | None => len * 8 end in
              match masklen_to_netmask masklen with
              | None => POverflow
              | Some m => POk (mkCidr (sa_family sa) len (mask_addr (sa_addr sa) m) m)
              end
        | _ => PFail
        end
    end.

  (** config.c:525-569, parse_acl, on the string tokens between the opening
      line and End; the lexical part is not represented *)
  Fixpoint parse_acl (toks : list bytes) : parsed (list cidr) :=
    match toks with
    | [] => POk []
    | t :: toks =>
        match parse_cidr t with
        | PFail => PFail
        | POverflow => POverflow
        | POk c =>
            match parse_acl toks with
            | POk acl => POk (c :: acl)
            | e => e
            end
        end
    end.

  (** log.c:142-164, acl_match_ip *)
  Definition acl_match_ip (acl : list cidr) (ipstr : bytes) : Z :=
    match resolve ipstr with
    | Some l => if existsb (fun sa => acl_match acl sa =? 0) l then 1 else 0
    | None => -1
    end.

  (** log.c:180-181: from the end of the (reversed) text back to the previous
      comma or to the first character.  Result: what stands before that
      position, reversed, and the text from it on. *)
  Fixpoint back_to_comma (r txt : bytes) : bytes * bytes :=
    match r with
    | [] => ([], txt)
    | [c] => ([], c :: txt)
    | c :: r' => if beq c ","%char then (r', c :: txt) else back_to_comma r' (c :: txt)
    end.

  (** log.c:199-210: the first word of the text, after its comma *)
  Definition fwd_word (txt : bytes) : bytes :=
    let txt := match txt with
               | c :: t => if beq c ","%char then t else txt
               | [] => txt
               end in
    fst (span (fun c => negb (is_space c)) (snd (span is_space txt))).

  (** log.c:177-227, the loop of scan_forwarded_header on the reversed text.
      Each round consumes a byte. *)
  Fixpoint scan_loop (fuel : nat) (acl : list cidr) (r : bytes) : option bytes :=
    match fuel with
    | O => None
    | S fuel =>
        match r with
        | [] => None
        | _ =>
            let (r', txt) := back_to_comma r [] in
            let buf := fwd_word txt in
            let rc := acl_match_ip acl buf in
            if rc =? 0 then Some buf
            else if rc =? 1 then scan_loop fuel acl r'
            else None
        end
    end.

  (** log.c:166-231, scan_forwarded_header *)
  Definition scan_forwarded_header (hdr : option bytes) (acl : option (list cidr)) : option bytes :=
    match hdr, acl with
    | Some hdr, Some acl => scan_loop (S (length hdr)) acl (rev hdr)
    | _, _ => None
    end.
End Resolver.

(** config.c:508-519, acl_by_name *)
Definition acl_by_name (l : list (bytes * list cidr)) (name : bytes) : option (list cidr) :=
  option_map snd (find (fun p => bytes_eqb (fst p) name) l).

(** config.c:575-595, parse_named_acl once the entries are read *)
Definition add_named_acl (l : list (bytes * list cidr)) (name : bytes) (acl : list cidr)
  : option (list (bytes * list cidr)) :=
  match acl_by_name l name with
  | Some _ => None
  | None => Some (l ++ [(name, acl)])
  end.

(** log.c:233-255, get_forwarded_header_name and get_trusted_ips: the setting of
    the service, of the listener, or the global one *)
Definition first_set {A : Type} (svc lstn glob : option A) : option A :=
  match svc with
  | Some x => Some x
  | None => match lstn with Some x => Some x | None => glob end
  end.

(** log.c:272-291: the values of the fields of the name, in order, joined *)
Fixpoint join_values (vals : list bytes) : bytes :=
  match vals with
  | [] => []
  | [v] => v
  | v :: vals => v ++ (match v with [] => [] | _ => lit ", " end) ++ join_values vals
  end.

(** log.c:257-298, save_forwarded_header; [vals] are the values of all fields of
    the configured name, in order *)
Definition save_forwarded_header (combinable : bool) (vals : list bytes) : option bytes :=
  match vals with
  | [] => None
  | v :: _ => Some (if combinable then v else join_values vals)
  end.

(** log.c:300-315, i_forwarded_ip; [peer] is what anon_addr2str gives *)
Definition i_forwarded_ip (resolve : bytes -> option (list sockaddr)) (hdr : option bytes)
  (acl : option (list cidr)) (peer : bytes) : bytes :=
  match scan_forwarded_header resolve hdr acl with
  | Some ip => ip
  | None => peer
  end.
