(** Model of directives of services, listeners and backends that choose among fixed words:
    Redirect, Error, ErrorFile, Session, Balancer, LogSuppress, HeaderOption and Disable.
    src/config.c 798-857, 1628-1868, 2425-2500 and 2975-3028, src/cfgparser.c 146-166 and
    1208-1248, src/log.c 1025-1057.  Definitions only.

    A directive is read from the tokens that follow its keyword (see CfgModel): the result is
    what it says and the number of tokens it took; None is CFGPARSER_FAIL.  Directives that
    take the end of the line with them (CFGPARSER_OK_NONL) are modelled as leaving it to the
    statement parser, which requires it.  Simplification: positions and messages are not
    modelled, nor are failures of memory allocation. *)
From Coq Require Import Ascii String List ZArith Bool Arith.
From Verif Require Import Bytes CfgModel ReplyModel.
From Verif Require NumModel LexSpec LexModel KeyModel.
Import ListNotations.
Open Scope string_scope.
Open Scope list_scope.
Open Scope Z_scope.

Notation Number := LexSpec.Number.
Notation Literal := LexSpec.Literal.

(** atoi of the C library: strtol, converted to int *)
Definition to_int (n : Z) : Z := (n + 2147483648) mod 4294967296 - 2147483648.
Definition atoi (s : bytes) : Z := let '(_, n, _) := NumModel.strtol s 10 in to_int n.

(** kw_to_tok, src/cfgparser.c 146-157; [ci]: without regard to case *)
Fixpoint kw_to_tok {A} (tab : list (bytes * A)) (ci : bool) (w : bytes) : option A :=
  match tab with
  | [] => None
  | (k, v) :: tab => if (if ci then ci_eqb k w else bytes_eqb k w) then Some v else kw_to_tok tab ci w
  end.

(** The text of a token of the kinds T_UNQ (src/cfgparser.h 84) *)
Definition unquoted (t : tok) : option bytes :=
  match t with LexSpec.Ident w | LexSpec.Number w | LexSpec.Literal w => Some w | _ => None end.

(** ** Redirect *)

(** The expression LOCATION of src/pound.c 1134-1136 with REG_NEWLINE: [http or https],
    then [://], one or more characters that are no slash, and the rest of the line.  Result: what comes before group
    3, group 3, and what follows the match. *)
Definition not_nl (c : byte) : bool := negb (beq c LF).
Definition host_char (c : byte) : bool := not_nl c && negb (beq c "/"%char).
Definition scheme_len (s : bytes) : option nat :=
  if ci_eqb (firstn 7 s) (lit "http://") then Some 7%nat
  else if ci_eqb (firstn 8 s) (lit "https://") then Some 8%nat
  else None.
Fixpoint location (s : bytes) : option (bytes * bytes * bytes) :=
  let later := match s with
               | [] => None
               | c :: s' => match location s' with Some (a, p, r) => Some (c :: a, p, r) | None => None end
               end in
  match scheme_len s with
  | Some n =>
      match span host_char (skipn n s) with
      | ([], _) => later
      | (h, r) => let '(p, r) := span not_nl r in Some (firstn n s ++ h, p, r)
      end
  | None => later
  end.

(** struct be_redirect, src/pound.h 445-450 *)
Record redirect := mkRedirect { rd_status : Z; rd_url : bytes; rd_has_uri : bool }.

(** src/config.c 1628-1691.  [has_uri] is an int; only whether it is zero matters (http.c 745). *)
Definition redirect_code (n : Z) : bool := existsb (Z.eqb n) [301; 302; 303; 307; 308].
Definition redirect_to (code : Z) (u : bytes) : option redirect :=
  match location u with
  | None => None
  | Some (a, p, r) =>
      Some (mkRedirect code (if Nat.eqb (length p) 1 then a else u) (negb (Nat.eqb (length p) 0)))
  end.
Definition parse_redirect_backend (ts : list tok) : option (redirect * nat) :=
  match ts with
  | LexSpec.Number w :: LexSpec.Quoted u :: _ =>
      if redirect_code (atoi w) then option_map (fun r => (r, 2%nat)) (redirect_to (atoi w) u) else None
  | LexSpec.Quoted u :: _ => option_map (fun r => (r, 1%nat)) (redirect_to 302 u)
  | _ => None
  end.

(** ** Error and ErrorFile *)
Section Files.
  (** fopen_include, fstat and fread: the content of a regular file that can be read *)
  Variable file : bytes -> option bytes.

  (** cfg_assign_string_from_file, src/cfgparser.c 1208-1248: the content is used as a string *)
  Definition string_from_file (ts : list tok) : option (bytes * nat) :=
    match ts with
    | LexSpec.Quoted f :: _ =>
        match file f with
        | Some (c :: s) => Some (LexModel.cstr (c :: s), 1%nat)
        | _ => None
        end
    | _ => None
    end.

  (** src/config.c 1693-1743: the status of Pound and the text *)
  Definition parse_error_backend (ts : list tok) : option ((Z * option bytes) * nat) :=
    match ts with
    | LexSpec.Number w :: ts =>
        let status := http_status_to_pound (atoi w) in
        if status =? -1 then None
        else match ts with
             | LexSpec.Quoted _ :: _ => option_map (fun r => ((status, Some (fst r)), S (snd r))) (string_from_file ts)
             | LexSpec.Newline :: _ => Some ((status, None), 1%nat)
             | _ => None
             end
    | _ => None
    end.

  (** src/config.c 1745-1762: [http_err] by status of Pound *)
  Definition parse_errorfile (http_err : Z -> option bytes) (ts : list tok) : option ((Z -> option bytes) * nat) :=
    match ts with
    | LexSpec.Number w :: ts =>
        let status := http_status_to_pound (atoi w) in
        if status =? -1 then None
        else match string_from_file ts with
             | Some (t, n) => Some (fun s => if s =? status then Some t else http_err s, S n)
             | None => None
             end
    | _ => None
    end.
End Files.

(** ** Session *)

(** src/config.c 1771-1779 *)
Definition sess_type_tab : list (bytes * KeyModel.sess_type) :=
  [ (lit "IP", KeyModel.SESS_IP); (lit "COOKIE", KeyModel.SESS_COOKIE); (lit "URL", KeyModel.SESS_URL);
    (lit "PARM", KeyModel.SESS_PARM); (lit "BASIC", KeyModel.SESS_BASIC); (lit "HEADER", KeyModel.SESS_HEADER) ].
Record sess := mkSess { se_type : KeyModel.sess_type; se_ttl : Z; se_id : option bytes }.
(** new_service, src/config.c 2638-2656 *)
Definition no_sess : sess := mkSess KeyModel.SESS_NONE 0 None.

(** A statement of session_parsetab, src/config.c 1808-1829: the keyword and the token after it *)
Inductive skey := K_TYPE | K_TTL | K_ID.
Definition session_statement (s : sess) (k : skey) (t : tok) : option sess :=
  match k, t with
  | K_TYPE, LexSpec.Ident w =>
      match kw_to_tok sess_type_tab true w with Some ty => Some (mkSess ty (se_ttl s) (se_id s)) | None => None end
  | K_TTL, LexSpec.Number w =>
      match NumModel.cfg_assign_unsigned w with Some n => Some (mkSess (se_type s) n (se_id s)) | None => None end
  | K_ID, LexSpec.Quoted i => Some (mkSess (se_type s) (se_ttl s) (Some i))
  | _, _ => None
  end.
Fixpoint session_statements (s : sess) (l : list (skey * tok)) : option sess :=
  match l with
  | [] => Some s
  | (k, t) :: l => match session_statement s k t with Some s => session_statements s l | None => None end
  end.
(** src/config.c 1831-1868 *)
Definition session_check (s : sess) : bool :=
  match se_type s with
  | KeyModel.SESS_NONE => false
  | ty =>
      negb (se_ttl s =? 0) &&
      match ty, se_id s with
      | (KeyModel.SESS_COOKIE | KeyModel.SESS_URL | KeyModel.SESS_HEADER), None => false
      | _, _ => true
      end
  end.
Definition parse_session (s : sess) (l : list (skey * tok)) : option sess :=
  match session_statements s l with
  | Some s => if session_check s then Some s else None
  | None => None
  end.

(** ** Balancer, src/config.c 2425-2444 *)
Inductive algo := ALGO_RANDOM | ALGO_IWRR.
Definition parse_balancer (ts : list tok) : option (algo * nat) :=
  match ts with
  | t :: _ =>
      match unquoted t with
      | Some w => if ci_eqb w (lit "random") then Some (ALGO_RANDOM, 1%nat)
                  else if ci_eqb w (lit "iwrr") then Some (ALGO_IWRR, 1%nat) else None
      | None => None
      end
  | [] => None
  end.

(** ** LogSuppress *)

(** src/pound.h 834 *)
Definition STATUS_MASK (s : Z) : Z := Z.shiftl 1 (s / 100).
(** src/config.c 2452-2461 *)
Definition status_table : list (bytes * Z) :=
  [ (lit "all", Z.lor (Z.lor (Z.lor (Z.lor (STATUS_MASK 100) (STATUS_MASK 200)) (STATUS_MASK 300)) (STATUS_MASK 400)) (STATUS_MASK 500));
    (lit "info", STATUS_MASK 100); (lit "success", STATUS_MASK 200); (lit "redirect", STATUS_MASK 300);
    (lit "clterr", STATUS_MASK 400); (lit "srverr", STATUS_MASK 500) ].
(** src/config.c 2468-2484; the table has one more entry, that ends it *)
Definition status_word (w : bytes) : option Z :=
  let named := kw_to_tok status_table true w in
  match w with
  | [c] =>
      if is_digit c then
        let n := code c - 48 in
        if (n <=? 0) || (Z.of_nat (S (length status_table)) <=? n) then None else Some (STATUS_MASK (n * 100))
      else named
  | _ => named
  end.
(** src/config.c 2466-2492: the loop after the first word *)
Fixpoint log_suppress_loop (result : Z) (ts : list tok) : option (Z * nat) :=
  match ts with
  | [] => None
  | LexSpec.Malformed :: _ => None
  | t :: ts =>
      match unquoted t with
      | Some w =>
          match status_word w with
          | Some n => match log_suppress_loop (Z.lor result n) ts with Some (r, k) => Some (r, S k) | None => None end
          | None => None
          end
      | None => Some (result, 0%nat)
      end
  end.
(** src/config.c 2445-2500 *)
Definition parse_log_suppress (ts : list tok) : option (Z * nat) :=
  match ts with
  | t :: _ => match unquoted t with Some _ => log_suppress_loop 0 ts | None => None end
  | [] => None
  end.
(** http_log, src/log.c 1034-1040: whether the request is logged, where the format of the
    listener is defined and not empty *)
Definition logs (log_suppress_mask response_code : Z) : bool :=
  Z.land (STATUS_MASK response_code) log_suppress_mask =? 0.

(** ** HeaderOption *)

(** HDROPT_FORWARDED_HEADERS and HDROPT_SSL_HEADERS, src/pound.h *)
Record hdropt := mkHo { ho_forwarded : bool; ho_ssl : bool }.
(** src/config.c 2981-2986 *)
Definition hdr_options : list (bytes * hdropt) :=
  [ (lit "forwarded", mkHo true false); (lit "ssl", mkHo false true); (lit "all", mkHo true true) ].
(** src/config.c 3003-3022 *)
Definition header_option (o : hdropt) (name : bytes) : option hdropt :=
  if ci_eqb name (lit "none") then Some (mkHo false false)
  else
    let neg := ci_eqb (firstn 3 name) (lit "no-") in
    match kw_to_tok hdr_options true (if neg then skipn 3 name else name) with
    | None => None
    | Some n =>
        Some (if neg then mkHo (ho_forwarded o && negb (ho_forwarded n)) (ho_ssl o && negb (ho_ssl n))
              else mkHo (ho_forwarded o || ho_forwarded n) (ho_ssl o || ho_ssl n))
    end.
(** src/config.c 2975-3028 *)
Fixpoint parse_header_options (o : hdropt) (ts : list tok) : option (hdropt * nat) :=
  match ts with
  | LexSpec.Newline :: _ => Some (o, 0%nat)
  | LexSpec.Ident w :: ts | LexSpec.Literal w :: ts =>
      match header_option o w with
      | None => None
      | Some o => match parse_header_options o ts with Some (o, k) => Some (o, S k) | None => None end
      end
  | _ => None
  end.

(** ** Disable *)

(** The options SSL_OP_NO_... of OpenSSL, one for each version; SSL_OP_NO_SSLv2 is an option
    of its own in old versions of the library and no option at all in the current ones, which
    do not have that protocol. *)
Inductive proto := SSLv2 | SSLv3 | TLSv1 | TLSv1_1 | TLSv1_2 | TLSv1_3.
Definition proto_eqb (a b : proto) : bool :=
  match a, b with
  | SSLv2, SSLv2 | SSLv3, SSLv3 | TLSv1, TLSv1 | TLSv1_1, TLSv1_1 | TLSv1_2, TLSv1_2 | TLSv1_3, TLSv1_3 => true
  | _, _ => false
  end.
(** src/config.c 803-819 *)
Definition proto_tab : list (bytes * list proto) :=
  [ (lit "SSLv2", [SSLv2]); (lit "SSLv3", [SSLv2; SSLv3]); (lit "TLSv1", [SSLv2; SSLv3; TLSv1]);
    (lit "TLSv1_1", [SSLv2; SSLv3; TLSv1; TLSv1_1]); (lit "TLSv1_2", [SSLv2; SSLv3; TLSv1; TLSv1_1; TLSv1_2]) ].
(** src/config.c 798-827: the options set so far, with those of the directive *)
Definition set_proto_opt (opts : list proto) (ts : list tok) : option (list proto * nat) :=
  match ts with
  | LexSpec.Ident w :: _ => option_map (fun n => (opts ++ n, 1%nat)) (kw_to_tok proto_tab false w)
  | _ => None
  end.
(** src/config.c 829-851.  [ctx] None: there is no TLS here.  SSL_CTX_set_options adds. *)
Definition disable_proto (ctx : option (list proto)) (ts : list tok) : option (option (list proto) * nat) :=
  match ctx with
  | None => None
  | Some opts =>
      match set_proto_opt [] ts with
      | Some (n, k) => Some (Some (opts ++ n), k)
      | None => None
      end
  end.
(** Whether the library takes a handshake with that version *)
Definition takes (opts : list proto) (v : proto) : bool := negb (existsb (proto_eqb v) opts).
