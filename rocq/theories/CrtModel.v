(** Model of the connection of poundctl to the server: open_socket, src/poundctl.c 493-575.  Definitions only.
    What the system, the OpenSSL library and the peer do is the argument [w]; of certificates of the peer it is known if OpenSSL finds a chain to what was
    loaded from CAFile and CAPath, and for which names they were issued.  SSL_VERIFY_NONE (523) means that the handshake succeeds whatever the
    certificate of the peer is.  Allocation does not fail. *)
From Coq Require Import List Bool.
From Verif Require Import Bytes PtlModel.
Import ListNotations.

(** [chain]: the result of SSL_get_verify_result is X509_V_OK, for these CAFile and CAPath *)
Record certificate := mkX { chain : option bytes -> option bytes -> bool; issued_for : list bytes }.
Record world := mkW {
  socket_ok : bool;
  connect_ok : bool;
  load_verify_locations : option bytes -> option bytes -> bool;
  use_certificate : bytes -> bool;                     (** certificate chain, private key, and that they match: 536-541 *)
  do_handshake : option bytes -> bool;                 (** given the certificate of the client *)
  peer : option certificate                            (** SSL_get_peer_certificate *)
}.
(** The connection: is it encrypted, and what certificate did the client show *)
Record connection := mkConn { encrypted : bool; shown : option bytes }.

(** None: errormsg (1, ...), which ends the program *)
Definition open_socket (v : server) (u : url) (w : world) : option connection :=
  if negb (socket_ok w) then None
  else if negb (connect_ok w) then None
  else if tls u then
    if verify v && negb (load_verify_locations w (ca_file v) (ca_path v)) then None
    else if match cert v with Some f => negb (use_certificate w f) | None => false end then None
    else if negb (do_handshake w (cert v)) then None
    else if verify v && match peer w with Some x => negb (chain x (ca_file v) (ca_path v)) | None => false end then None
    else Some (mkConn true (cert v))
  else Some (mkConn false None).

(** main, 1446-1454: what is sent; [request] is what the command writes (AskModel) *)
Definition sent (request : url -> bytes) (m : start) (w : world) : bytes :=
  match m with
  | Fail => []
  | Connect _ v u => match open_socket v u w with Some _ => request u | None => [] end
  end.
