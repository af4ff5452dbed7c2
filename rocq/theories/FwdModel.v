(** Model of the composition of the request for a backend: send_to_backend (src/http.c 4161-4247),
    add_forwarded_headers (3213-3267), set_header_from_bio and add_ssl_headers (3269-3391).  What
    follows the composition is send_request of RespModel.  Definitions only.
    Outside: OpenSSL (names, times and the PEM text of the certificate are arguments), addr2str and
    str_be (the texts of the addresses are arguments), running out of memory. *)
From Coq Require Import String List ZArith Bool.
From Verif Require Import Bytes ClenModel StreamModel ReqModel FrameModel LogModel LocModel RespModel.
Import ListNotations.
Open Scope Z_scope.

(** What OpenSSL prints of the client's certificate: X509_NAME_print_ex of subject and issuer (but for
    the indentation), ASN1_TIME_print of the validity, the serial number, PEM_write_bio_X509. *)
Record cert := mkCert {
  ce_subject : bytes; ce_issuer : bytes; ce_before : bytes; ce_after : bytes;
  ce_serial : Z; ce_pem : bytes
}.

(** What is known of the connections, and what is configured. *)
Record side := mkSide {
  f_dest : option (bool * bytes);     (* RewriteDestination: is the backend https, its address (str_be) *)
  f_forwarded : bool;                 (* HDROPT_FORWARDED_HEADERS *)
  f_client : bytes;                   (* addr2str of the client *)
  f_port : option Z;                  (* port of the listener, if the client's family is inet or inet6 *)
  f_tls : option (option (bytes * bytes));  (* phttp->ssl: SSL_get_version and SSL_CIPHER_description of
                                               the current cipher (but for the newline at its end), if
                                               there is one *)
  f_ssl_headers : bool;               (* HDROPT_SSL_HEADERS *)
  f_check : Z;                        (* clnt_check *)
  f_cert : option cert;               (* phttp->x509 *)
  f_servername : option bytes;        (* ServerName of the backend *)
  f_rules : bytes -> list header -> option (bytes * list header)
    (* rewriting of the listener and of the service (see CondModel), on request line and headers *)
}.

Definition is_tls (s : side) : bool := match f_tls s with Some _ => true | None => false end.

(** 4170-4207.  The text after the host is val + matches[3].rm_so, up to the end. *)
Fixpoint change_code (hs : list header) (c : hcode -> bool) (f : header -> header) : list header :=
  match hs with
  | [] => []
  | h :: t => if c (h_code h) then f h :: t else h :: change_code t c f
  end.
Definition is_destination (c : hcode) : bool := match c with HEADER_DESTINATION => true | _ => false end.
Definition rewrite_destination (s : side) (hs : list header) : list header :=
  match f_dest s with
  | Some (https, addr) =>
      change_code hs is_destination
        (fun h => match match_location (h_val h) with
                  | Some (_, _, path) =>
                      qualify_header (lit "Destination: " ++ (if https then lit "https" else lit "http")
                                        ++ lit "://" ++ addr ++ path)
                  | None => h
                  end)
  | None => hs
  end.

(** One call of http_header_list_append in the functions below: they return at the first failure. *)
Definition set_to (mode : hmode) (text : bytes) (k : list header -> list header) (hs : list header) : list header :=
  let '(rc, hs) := http_header_list_append hs text mode in if rc =? 0 then k hs else hs.

(** 3213-3267 *)
Definition add_forwarded_headers (s : side) (hs : list header) : list header :=
  set_to H_APPEND (lit "X-Forwarded-For: " ++ f_client s)
    (set_to H_REPLACE (lit "X-Forwarded-Proto: " ++ (if is_tls s then lit "https" else lit "http"))
       (match f_port s with
        | Some p => set_to H_REPLACE (lit "X-Forwarded-Port: " ++ fmt_ld p) (fun hs => hs)
        | None => fun hs => hs
        end)) hs.

(** 1242-1254; [cut] text without NUL *)
Fixpoint strip_eol (l : bytes) : bytes :=
  match l with
  | [] => []
  | c :: l' =>
      if beq c LF || (beq c CR && match l' with d :: _ => beq d LF | [] => false end) then []
      else c :: strip_eol l'
  end.

(** 3269-3292: the memory BIO holds [bio]. *)
Definition set_header_from_bio (name : bytes) (k : list rd -> list header -> list header)
  (bio : list rd) (hs : list header) : list header :=
  match get_line MAXBUF bio with
  | (COPY_OK, line, bio') => set_to H_REPLACE (name ++ lit ": " ++ trimwsl line) (k bio') hs
  | (_, _, bio') => k bio' hs
  end.

(** 3369-3376: the lines of the BIO, joined; the fuel is the length of the BIO. *)
Fixpoint pem_lines (fuel : nat) (bio : list rd) : list bytes :=
  match fuel with
  | O => []
  | S fuel' => match get_line MAXBUF bio with
               | (COPY_OK, line, bio') => line :: pem_lines fuel' bio'
               | _ => []
               end
  end.
Definition fold_lines (ls : list bytes) : bytes :=
  match ls with
  | [] => []
  | l :: ls' => l ++ concat (map (fun x => CRLF ++ [TAB] ++ x) ls')
  end.

(** ASN1_INTEGER_get: -1 for numbers that do not fit into a long *)
Definition asn1_integer_get (n : Z) : Z := if (- 2 ^ 63 <=? n) && (n <? 2 ^ 63) then n else -1.

(** 3319-3384: the memory BIO is filled and read in turns. *)
Definition add_cert_headers (s : side) (hs : list header) : list header :=
  let indent := repeat SP 8 in
  let print (t : bytes) (bio : list rd) := bio ++ map RByte t in
  match f_cert s with
  | Some c =>
      if 0 <? f_check s then
        set_header_from_bio (lit "X-SSL-Subject") (fun bio =>
        set_header_from_bio (lit "X-SSL-Issuer") (fun bio =>
        set_header_from_bio (lit "X-SSL-notBefore") (fun bio =>
        set_header_from_bio (lit "X-SSL-notAfter") (fun bio =>
        set_to H_REPLACE (lit "X-SSL-serial: " ++ fmt_ld (asn1_integer_get (ce_serial c)))
          (let bio := print (ce_pem c) bio in
           set_to H_REPLACE (lit "X-SSL-certificate: " ++ fold_lines (pem_lines (length bio) bio)) (fun hs => hs)))
          (print (ce_after c) bio)) (print (ce_before c) bio)) (print (indent ++ ce_issuer c) bio)) (print (indent ++ ce_subject c) []) hs
      else hs
  | None => hs
  end.

(** 3294-3391 *)
Definition add_ssl_headers (s : side) (cipher : option (bytes * bytes)) (hs : list header) : list header :=
  match cipher with
  | Some (version, description) =>
      set_to H_REPLACE (lit "X-SSL-cipher: " ++ version ++ lit "/" ++ strip_eol (description ++ [LF])) (add_cert_headers s) hs
  | None => add_cert_headers s hs
  end.

(** 4161-4247: the request line and the headers that are sent; None: error 500. *)
Definition compose (s : side) (line : bytes) (hs : list header) : option (bytes * list header) :=
  let hs := rewrite_destination s hs in
  let hs := if f_forwarded s then add_forwarded_headers s hs else hs in
  let hs := match f_tls s with
            | Some cipher => if f_ssl_headers s then add_ssl_headers s cipher hs else hs
            | None => hs
            end in
  match f_servername s with
  | Some n => let '(rc, hs) := http_header_list_append hs (lit "Host: " ++ n) H_REPLACE in
              if rc =? 0 then f_rules s line hs else None
  | None => f_rules s line hs
  end.

(** From the client's bytes to the backend's: http_request_read, the checks of do_http (4605-4740, see
    FrameModel), send_to_backend.  [plan], [wr]: reads from the client, writes to the backend.
    Outcomes: not a request or a refused one; undefined behaviour; a status, with the bytes that were
    written to the backend and those left to be read from the client. *)
Inductive forwarded := Refused | Undef | Forwarded (st : status) (out : bytes) (rest : list rd).
Definition forward (comb : list bytes) (l : lsn) (s : side) (plan : list rdplan) (wr : list bool) (input : list rd) : forwarded :=
  match http_request_read comb input with
  | RR_err _ => Refused
  | RR_ok line hs rest =>
      match check_request l line hs with
      | inl _ => Refused
      | inr (rl, sc) =>
          let q head err := mkQ false T_same false head err plan wr [] (mkE [] Some (fun h => h) false false) in
          let q := match compose s line (sc_kept sc) with
                   | Some (line, hs) => q (line :: map h_text hs) None
                   | None => q [] (Some ST_500)
                   end in
          match send_request q (l_max_req l) (body_relay rl sc) (mkC rest plan wr [] 0) with
          | Some (st, c) => Forwarded st (c_out c) (c_src c)
          | None => Undef
          end
      end
  end.
