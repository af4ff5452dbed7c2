(** Model of a TLS listener's options, of the defence against renegotiation, and of the waits for the peer
    (src/config.c 3804-3847, 4086-4129; src/svc.c 3022-3059; src/http.c 1484-1664, 3921-3923, 4334-4339, 4547-4570; src/pound.h 947-955).
    Definitions only.  Outside: OpenSSL.  What it passes to the callbacks, the values of its constants that differ between its releases,
    and the results of poll are arguments. *)
From Coq Require Import List ZArith Bool.
From Verif Require Import Bytes NumModel.
Import ListNotations.
Local Open Scope list_scope.
Local Open Scope Z_scope.

(** * Options of the TLS library *)

(** Conversion to int (gcc): the value modulo 2^32, from -2^31 on *)
Definition to_int (z : Z) : Z := (z + 2 ^ 31) mod 2 ^ 32 - 2 ^ 31.

(** SSL_OP_NO_COMPRESSION, SSL_OP_CIPHER_SERVER_PREFERENCE, SSL_OP_ALLOW_UNSAFE_LEGACY_RENEGOTIATION, SSL_OP_LEGACY_SERVER_CONNECT,
    SSL_OP_DONT_INSERT_EMPTY_FRAGMENTS: the same in all releases *)
Definition NO_COMPRESSION : Z := 2 ^ 17.
Definition CIPHER_SERVER_PREFERENCE : Z := 2 ^ 22.
Definition UNSAFE_LEGACY : Z := 2 ^ 18.
Definition LEGACY_SERVER_CONNECT : Z := 2 ^ 2.
Definition DONT_INSERT_EMPTY : Z := 2 ^ 11.

(** LISTENER, pound.h 861-898: allow_client_reneg, ssl_op_enable, ssl_op_disable (all int) *)
Record listener := mkL { l_reneg : Z; l_enable : Z; l_disable : Z }.

(** config.c 4092-4098, and zeroes of listener_alloc; [op_all]: SSL_OP_ALL *)
Definition start (op_all : Z) : listener :=
  mkL 0 (to_int (Z.lor (to_int op_all) NO_COMPRESSION)) (Z.lor UNSAFE_LEGACY (Z.lor LEGACY_SERVER_CONNECT DONT_INSERT_EMPTY)).

(** Directives, with the text of their argument *)
Inductive directive := HonorCipherOrder (w : bytes) | AllowClientRenegotiation (w : bytes).

(** Setting or clearing a bit in both masks *)
Definition set_bit (bit : Z) (l : listener) : listener := mkL (l_reneg l) (Z.lor (l_enable l) bit) (Z.ldiff (l_disable l) bit).
Definition clear_bit (bit : Z) (l : listener) : listener := mkL (l_reneg l) (Z.ldiff (l_enable l) bit) (Z.lor (l_disable l) bit).

(** https_parse_honor_cipher_order, config.c 3804-3825; https_parse_allow_client_renegotiation, 3827-3847 *)
Definition parse_directive (d : directive) (l : listener) : option listener :=
  match d with
  | HonorCipherOrder w =>
      match cfg_assign_bool w with
      | None => None
      | Some true => Some (set_bit CIPHER_SERVER_PREFERENCE l)
      | Some false => Some (clear_bit CIPHER_SERVER_PREFERENCE l)
      end
  | AllowClientRenegotiation w =>
      match cfg_assign_int_range w 0 2 with
      | None => None
      | Some n =>
          let l := mkL n (l_enable l) (l_disable l) in
          Some (if n =? 2 then set_bit UNSAFE_LEGACY l else clear_bit UNSAFE_LEGACY l)
      end
  end.

Fixpoint parse (ds : list directive) (l : listener) : option listener :=
  match ds with
  | [] => Some l
  | d :: ds => match parse_directive d l with None => None | Some l => parse ds l end
  end.

(** SSL_CTX_set_options and SSL_CTX_clear_options, config.c 4127-4128.  [width] is that of the library's type of options (long or uint64_t:
    64; unsigned long on some systems: 32), to which the int is converted; [o] are the options of a new context *)
Definition set_options (width o n : Z) : Z := Z.lor o (n mod 2 ^ width).
Definition clear_options (width o n : Z) : Z := Z.ldiff o (n mod 2 ^ width).
Definition ctx_options (width o : Z) (l : listener) : Z := clear_options width (set_options width o (l_enable l)) (l_disable l).

(** * The connection *)

(** RENEG_STATE, pound.h 947-955 *)
Inductive reneg := INIT | REJECT | ALLOW | ABORT.
Definition reneg_eqb (a b : reneg) : bool :=
  match a, b with INIT, INIT | REJECT, REJECT | ALLOW, ALLOW | ABORT, ABORT => true | _, _ => false end.

(** SSL_CB_ACCEPT_LOOP (SSL_ST_ACCEPT | SSL_CB_LOOP), SSL_CB_HANDSHAKE_DONE; the states of svc.c 3022-3027 *)
Definition CB_ACCEPT_LOOP : Z := 0x2001.
Definition CB_HANDSHAKE_DONE : Z := 0x20.
Definition CLNT_HELLO_3 : Z := Z.lor 0x110 0x2000.
Definition CLNT_HELLO_23 : Z := Z.lor 0x210 0x2000.

(** SSLINFO_callback, svc.c 3029-3059; [state]: what SSL_get_state returns *)
Definition SSLINFO_callback (w state : Z) (r : reneg) : reneg :=
  if negb (Z.land w CB_ACCEPT_LOOP =? 0) && reneg_eqb r REJECT
  then if (state =? CLNT_HELLO_3) || (state =? CLNT_HELLO_23) then ABORT else r
  else if negb (Z.land w CB_HANDSHAKE_DONE =? 0) && reneg_eqb r INIT then REJECT
  else r.

(** Operations on a BIO *)
Inductive cmd := BIO_CB_READ | BIO_CB_WRITE | BIO_CB_OTHER.

(** What poll returned, and after how many milliseconds: 1 with revents, 0, or -1 with errno *)
Inductive polled := Ready (revents : Z) | Timeout | Failed (intr : bool).

Definition POLLIN : Z := 1.
Definition POLLPRI : Z := 2.
Definition POLLOUT : Z := 4.

(** What bio_callback returns: [ret] (go on), -1 with errno, 0 (with ETIMEDOUT), -2; or undefined behaviour of the product, or still in the loop *)
Inductive errno := ETIMEDOUT | ECONNABORTED | EIO | ECONNRESET.
Inductive result := Go | Minus1 (e : errno) | Zero | Minus2 | Undefined | Waiting.

(** BIO_ARG: timeout, and the state shared by the BIOs of a connection.  The loop of http.c 1545-1623: the result, the new timeout and
    the time spent *)
Fixpoint wait (c : cmd) (t : Z) (ps : list (polled * Z)) : result * Z * Z :=
  match ps with
  | [] => (Waiting, t, 0)
  | (Ready ev, ms) :: _ =>
      match c with
      | BIO_CB_READ => (if negb (Z.land ev POLLIN =? 0) || negb (Z.land ev POLLPRI =? 0) then Go else Minus1 EIO, t, ms)
      | _ => (if negb (Z.land ev POLLOUT =? 0) then Go else Minus1 ECONNRESET, t, ms)
      end
  | (Timeout, ms) :: _ => (Zero, -1, ms)
  | (Failed true, ms) :: ps => let '(x, t', n) := wait c t ps in (x, t', ms + n)
  | (Failed false, ms) :: _ => (Minus2, t, ms)
  end.

(** bio_callback, http.c 1496-1626; [t]: bio_arg->timeout, an int *)
Definition bio_callback (c : cmd) (t : Z) (r : reneg) (ps : list (polled * Z)) : result * Z * Z :=
  match c with
  | BIO_CB_OTHER => (Go, t, 0)
  | _ =>
      if (t * 1000 <? INT_MIN) || (INT_MAX <? t * 1000) then (Undefined, t, 0)
      else if t * 1000 <? 0 then (Minus1 ETIMEDOUT, t, 0)
      else if reneg_eqb r ABORT then (Minus1 ECONNABORTED, t, 0)
      else if t * 1000 =? 0 then (Go, t, 0)
      else wait c t ps
  end.

(** A connection of a client: the state, the timeouts of the BIOs.  None: no callback is set. *)
Record conn := mkConn { c_reneg : reneg; c_client : option Z; c_backend : option Z }.

(** set_callback, http.c 1627-1646: the unsigned number is converted to int.  (The failure of malloc is not modelled.) *)
Definition set_callback (to : Z) : option Z := Some (to_int to).

(** do_http, http.c 4547-4561: [reneg] and [to] are those of the listener *)
Definition accept (allow to : Z) : conn := mkConn (if allow =? 0 then INIT else ALLOW) (set_callback to) None.

(** What happens to the connection: OpenSSL calls back; a backend with that timeout is connected to (http.c 4334-4339); the BIO of the client
    or of the backend is operated upon, poll returning these *)
Inductive event :=
| Info (w state : Z)
| Backend (to : Z)
| Client_op (c : cmd) (ps : list (polled * Z))
| Backend_op (c : cmd) (ps : list (polled * Z)).

(** With the time spent *)
Definition step (e : event) (k : conn) : conn * option (result * Z) :=
  match e with
  | Info w state => (mkConn (SSLINFO_callback w state (c_reneg k)) (c_client k) (c_backend k), None)
  | Backend to => (mkConn (c_reneg k) (c_client k) (if 0 <? to then set_callback to else None), None)
  | Client_op c ps =>
      match c_client k with
      | None => (k, Some (Go, 0))
      | Some t => let '(x, t', n) := bio_callback c t (c_reneg k) ps in (mkConn (c_reneg k) (Some t') (c_backend k), Some (x, n))
      end
  | Backend_op c ps =>
      match c_backend k with
      | None => (k, Some (Go, 0))
      | Some t => let '(x, t', n) := bio_callback c t (c_reneg k) ps in (mkConn (c_reneg k) (c_client k) (Some t'), Some (x, n))
      end
  end.

(** The results, each with its event *)
Fixpoint run (es : list event) (k : conn) : conn * list (event * option (result * Z)) :=
  match es with
  | [] => (k, [])
  | e :: es => let '(k1, x) := step e k in let '(k2, xs) := run es k1 in (k2, (e, x) :: xs)
  end.

(** is_readable, http.c 1651-1664: whether something is buffered, and after how many milliseconds there is something to read, if ever.  Its product
    may overflow as well; a negative timeout of poll is none. *)
Inductive readable := Yes | No | Never | Overflow.
Definition is_readable (pending : bool) (to : Z) (arrives : option Z) : readable :=
  if pending then Yes
  else let t := to_int to * 1000 in
    if (t <? INT_MIN) || (INT_MAX <? t) then Overflow
    else match arrives with
         | Some a => if (t <? 0) || (a <=? t) then Yes else No
         | None => if t <? 0 then Never else No
         end.
