(** To whom poundctl may talk (C84). *)
From Coq Require Import List Bool.
From Verif Require Import Bytes PtlModel CrtModel.
Import ListNotations.

(** The peer has shown a certificate that is trusted *)
Definition trusted (w : world) (file path : option bytes) : Prop := exists x, peer w = Some x /\ chain x file path = true.
Definition anonymous (w : world) : Prop := peer w = None.
(** The certificate is one of the host that was asked for *)
Definition right_host (w : world) (h : bytes) : Prop := exists x, peer w = Some x /\ In h (issued_for x).
(** The network and the TLS library do their part *)
Definition works (v : server) (w : world) : Prop :=
  socket_ok w = true /\ connect_ok w = true /\ load_verify_locations w (ca_file v) (ca_path v) = true /\
  (forall f, cert v = Some f -> use_certificate w f = true) /\ do_handshake w (cert v) = true.
(** Nobody has asked that verification be left out: no -k, no Verify off, no Server section in use *)
Definition verification_wanted (config : list stmt) (opts : list opt) : Prop :=
  ~ In (Common (Verify false)) config /\ ~ In Optk opts /\ forall n, ~ In (OptS n) opts.
