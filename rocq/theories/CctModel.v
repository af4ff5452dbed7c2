(** Model of client certificates: when a listener asks for them, what becomes of the connection, and the conditional
    ClientCert (src/config.c 3279-3346, 3404-3431, 3711-3772, 3863-3932, 4010-4085, 5161-5164; src/http.c 3163-3167 and 4563-4603).
    Definitions only.  A certificate is its content.  Outside: reading files, the other directives of listeners, and OpenSSL: whether
    a certificate is verified with the help of those of a store is an argument; how OpenSSL uses the settings in a handshake is modelled here. *)
From Coq Require Import Ascii String List ZArith Bool.
From Verif Require Import Bytes CondModel.
Import ListNotations.
Local Open Scope list_scope.
Local Open Scope Z_scope.

(** X509_STORE: trusted certificates; revoked ones, if lists of them are to be used *)
Record store := mkStore { trust : list bytes; revoked : option (list bytes) }.

(** SSL_CTX as far as clients are concerned: SSL_VERIFY_PEER, SSL_VERIFY_FAIL_IF_NO_PEER_CERT, the callback verify_OK,
    the depth (-1: OpenSSL's own), the store.  SSL_VERIFY_CLIENT_ONCE concerns renegotiation only. *)
Record ctx := mkCtx { v_peer : bool; v_must : bool; v_lax : bool; v_depth : Z; v_store : store }.
Definition new_ctx : ctx := mkCtx false false false (-1) (mkStore [] None).

(** A service: its condition, and those of its Rewrite sections (of all levels) *)
Record service := mkService { s_cond : cond; s_rules : list cond }.

(** LISTENER: ctx_head, clnt_check, verify, services, conditions of rewrite *)
Record listener := mkL { l_ctx : list ctx; l_check : Z; l_services : list service; l_rules : list cond }.

(** listener_alloc, config.c 3268-3289 *)
Definition listener_alloc : listener := mkL [] (-1) [] [].

(** Directives of a listener.  Cert: the number of certificates loaded (a directory has several, see C60), or an error.  ClientCert: the
    words up to the end of the line, those that are not numbers as None.  VerifyList, CRLlist: what the file has. *)
Inductive directive :=
| Cert (n : option nat)
| ClientCert (args : list (option Z))
| VerifyList (f : option (list bytes))
| CRLlist (f : option (list bytes))
| Service (s : service)
| Rewrite (c : cond).

(** SSL_CTX_set_verify and SSL_CTX_set_verify_depth for a mode, config.c 3732-3769 *)
Definition set_verify (mode depth : Z) (c : ctx) : ctx :=
  if mode =? 0 then mkCtx false false false (v_depth c) (v_store c)
  else if mode =? 1 then mkCtx true false false depth (v_store c)
  else if mode =? 2 then mkCtx true true false depth (v_store c)
  else mkCtx true false true depth (v_store c).

(** https_parse_client_cert, config.c 3710-3772: [l_ctx] is not empty.  What is left on the line is refused by
    parser_loop (cfgparser.c 1068-1076). *)
Definition https_parse_client_cert (args : list (option Z)) (l : listener) : option listener :=
  match args with
  | Some mode :: rest =>
    if (0 <=? mode) && (mode <=? 3) then
      let set d := Some (mkL (map (set_verify mode d) (l_ctx l)) mode (l_services l) (l_rules l)) in
      if 0 <? mode then match rest with [Some d] => set d | _ => None end
      else match rest with [] => set 0 | _ => None end
    else None
  | _ => None
  end.

Definition on_store (f : store -> store) (c : ctx) : ctx := mkCtx (v_peer c) (v_must c) (v_lax c) (v_depth c) (f (v_store c)).

(** https_parse_verifylist, config.c 3874-3897 *)
Definition add_trust (cs : list bytes) (s : store) : store := mkStore (trust s ++ cs) (revoked s).
(** https_parse_crlist, config.c 3899-3932 *)
Definition add_revoked (cs : list bytes) (s : store) : store :=
  mkStore (trust s) (Some (match revoked s with Some r => r ++ cs | None => cs end)).

Definition with_ctx (l : listener) (c : list ctx) : listener := mkL c (l_check l) (l_services l) (l_rules l).

(** The directives of https_parsetab, config.c 3946-4007; services and rules are those of http_common *)
Definition parse_directive (d : directive) (l : listener) : option listener :=
  match d with
  | Cert None => None
  | Cert (Some n) => Some (with_ctx l (l_ctx l ++ repeat new_ctx n))
  | ClientCert args => match l_ctx l with [] => None | _ => https_parse_client_cert args l end
  | VerifyList f =>
    match l_ctx l, f with
    | _ :: _, Some cs => Some (with_ctx l (map (on_store (add_trust cs)) (l_ctx l)))
    | _, _ => None
    end
  | CRLlist f =>
    match l_ctx l, f with
    | _ :: _, Some cs => Some (with_ctx l (map (on_store (add_revoked cs)) (l_ctx l)))
    | _, _ => None
    end
  | Service s => Some (mkL (l_ctx l) (l_check l) (l_services l ++ [s]) (l_rules l))
  | Rewrite c => Some (mkL (l_ctx l) (l_check l) (l_services l) (l_rules l ++ [c]))
  end.

Fixpoint parse_directives (ds : list directive) (l : listener) : option listener :=
  match ds with
  | [] => Some l
  | d :: ds => match parse_directive d l with Some l => parse_directives ds l | None => None end
  end.

(** foreach_client_cert, config.c 3302-3331: the certificates the callback is called for *)
Fixpoint client_certs (c : cond) : list bytes :=
  match c with
  | COND_CLIENT_CERT x => [x]
  | COND_BOOL _ head => flat_map client_certs head
  | _ => []
  end.

(** forbid_ssl_usage, config.c 3333-3346: true if there is one *)
Definition forbid_ssl_usage (ss : list service) : bool :=
  existsb (fun s => match client_certs (s_cond s) with [] => false | _ => true end) ss.

(** flush_service_client_cert and client_cert_cb, config.c 4010-4062.  X509_STORE_add_cert is taken to work. *)
Definition flush_service_client_cert (l : listener) : option listener :=
  match flat_map (fun s => client_certs (s_cond s)) (l_services l) with
  | [] => Some l
  | cs =>
    if l_check l =? -1 then
      Some (mkL (map (fun c => mkCtx true false true (v_depth c) (add_trust cs (v_store c))) (l_ctx l)) 3 (l_services l) (l_rules l))
    else None
  end.

(** parse_listen_https, config.c 4064-4128 *)
Definition parse_listen_https (ds : list directive) : option listener :=
  match parse_directives ds listener_alloc with
  | None => None
  | Some l => match l_ctx l with [] => None | _ => flush_service_client_cert l end
  end.

(** parse_listen_http, config.c 3391-3431: only services and rules can occur *)
Definition parse_listen_http (ss : list service) (rules : list cond) : option listener :=
  if forbid_ssl_usage ss then None else Some (mkL [] (-1) ss rules).

(** parse_config_file, config.c 5161-5164: the services outside listeners *)
Definition top_level_services (ss : list service) : option (list service) := if forbid_ssl_usage ss then None else Some ss.

Section Connection.
  (** The outcome of OpenSSL's verification of a certificate, given the store and the depth *)
  Variable chain : store -> Z -> bytes -> bool.

  (** The handshake: the SSL object is made from the first context (http.c 4565), which settles what is asked of the client and how deep
      chains are verified; the context chosen by the name of the server (config.c 3670-3708, SSL_set_SSL_CTX) gives the store.
      None: it fails; otherwise the certificate of the client, if any, and SSL_get_verify_result *)
  Definition handshake (first chosen : ctx) (shown : option bytes) : option (option (bytes * bool)) :=
    if v_peer first then
      match shown with
      | None => if v_must first then None else Some None
      | Some c =>
        let v := chain (v_store chosen) (v_depth first) c in
        if v || v_lax first then Some (Some (c, v)) else None
      end
    else Some None.

  (** do_http, http.c 4563-4603: None: the connection is closed; otherwise phttp->x509, if any, and the result of the verification.
      [i]: the context chosen by name (C60) *)
  Definition accept (l : listener) (i : nat) (shown : option bytes) : option (option (bytes * bool)) :=
    match l_ctx l with
    | [] => Some None
    | first :: _ =>
      match handshake first (nth i (l_ctx l) first) shown with
      | Some (Some (c, v)) => if (l_check l <? 3) && negb v then None else Some (Some (c, v))
      | r => r
      end
    end.

  (** match_cond for COND_CLIENT_CERT, http.c 3163-3167: X509_cmp and SSL_get_verify_result *)
  Definition presents (x509 : option (bytes * bool)) (x : bytes) : bool :=
    match x509 with
    | Some (c, v) => bytes_eqb c x && v
    | None => false
    end.
End Connection.
