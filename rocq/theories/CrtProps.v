(** The certificate of the server poundctl talks to (C84). *)
From Coq Require Import Ascii String List Bool.
From Verif Require Import Bytes PtlModel CrtModel CrtSpec CrtProofs.
Import ListNotations.
Local Open Scope string_scope.
Local Open Scope list_scope.

(** C84: unless verification is switched off, something is sent over TLS, the password for instance, only to a server that has shown a certificate which is
    trusted by CAFile or CAPath.  Partial: or to one that has shown none (C84_anonymous_refuted); the host is not compared (C84_host_refuted); Server
    sections switch verification off (C66_verify_refuted). *)
Theorem C84_sent_partial : forall request pc dp ep file config opts s v u w, verification_wanted config opts ->
  main pc dp ep file config opts = Connect s v u -> tls u = true ->
  sent request (Connect s v u) w <> [] -> trusted w (ca_file v) (ca_path v) \/ anonymous w.
Proof. exact sent_ok. Qed.
Print Assumptions C84_sent_partial.
Definition good_peer : world := mkW true true (fun f p => match f, p with None, None => false | _, _ => true end) (fun _ => true) (fun _ => true)
  (Some (mkX (fun f _ => match f with Some n => bytes_eqb n (lit "ca.pem") | None => false end) [lit "other.example.org"])).
Example C84_sent_case : let opts := [OptC (lit "ca.pem") false; Opts (lit "https://pound.example.org/")] in verification_wanted [] opts /\
  (exists s v u, main [] [] None (fun _ => None) [] opts = Connect s v u /\ tls u = true /\ host u = lit "pound.example.org" /\ sent host (Connect s v u) good_peer <> []) /\
  sent host (main [] [] None (fun _ => None) [] [OptC (lit "cb.pem") false; Opts (lit "https://pound.example.org/")]) good_peer = [].
Proof.
  cbv zeta. split; [split; [intros []|split; [intros [K|[K|[]]]; discriminate|intros n [K|[K|[]]]; discriminate]]|]. split; [|vm_compute; reflexivity].
  eexists _, _, _. split; [vm_compute; reflexivity|]. split; [reflexivity|]. split; [reflexivity|]. vm_compute. discriminate.
Qed.

(** Whatever the settings: with verification, a connection that is made is one to a trusted server or to one without a certificate, and the certificates
    to trust could be read; the library refuses to read none, so that CAFile or CAPath is required. *)
Theorem C84_verified_partial : forall v u w c, open_socket v u w = Some c -> tls u = true -> verify v = true ->
  load_verify_locations w (ca_file v) (ca_path v) = true /\ (trusted w (ca_file v) (ca_path v) \/ anonymous w).
Proof. exact open_trusted. Qed.
Print Assumptions C84_verified_partial.
Example C84_verified_case : open_socket (mkServer None (Some (lit "ca.pem")) None None true) (mkUrl true [] (lit "h") None None (Inet (lit "h") (lit "443") false)) good_peer
    = Some (mkConn true None) /\
  open_socket (mkServer None None None None true) (mkUrl true [] (lit "h") None None (Inet (lit "h") (lit "443") false)) good_peer = None.
Proof. split; reflexivity. Qed.

(** A connection is made whenever the network and the library do their part and the server is trusted. *)
Theorem C84_works : forall v u w, works v w -> tls u = true -> trusted w (ca_file v) (ca_path v) -> open_socket v u w = Some (mkConn true (cert v)).
Proof. intros v u w W T K. apply open_works; auto. Qed.
Print Assumptions C84_works.
Example C84_works_case : works (mkServer None (Some (lit "ca.pem")) None (Some (lit "me.pem")) true) good_peer /\ trusted good_peer (Some (lit "ca.pem")) None.
Proof. split; [repeat split; cbn; auto|]. eexists. split; reflexivity. Qed.

(** It is encrypted exactly for https, and shows the certificate of ClientCert or -K, which is usable, and no other. *)
Theorem C84_client : forall v u w c, open_socket v u w = Some c ->
  encrypted c = tls u /\ shown c = (if tls u then cert v else None) /\ (tls u = true -> forall f, cert v = Some f -> use_certificate w f = true).
Proof. exact open_shown. Qed.
Print Assumptions C84_client.
Example C84_client_case : let u b := mkUrl b [] (lit "h") None None (Inet (lit "h") (lit "1") false) in let v := mkServer None None None (Some (lit "me.pem")) false in
  open_socket v (u true) good_peer = Some (mkConn true (Some (lit "me.pem"))) /\ open_socket v (u false) good_peer = Some (mkConn false None).
Proof. split; reflexivity. Qed.

(** Refuted: that a verified server is the one asked for.  A trusted certificate of any other host is as good, so whoever has one gets the password. *)
Theorem C84_host_refuted : forall v u w, works v w -> tls u = true -> verify v = true -> trusted w (ca_file v) (ca_path v) -> ~ right_host w (host u) ->
  open_socket v u w = Some (mkConn true (cert v)).
Proof. intros v u w W T V K _. apply open_works; auto. Qed.
Print Assumptions C84_host_refuted.
Example C84_host_case : works (mkServer None (Some (lit "ca.pem")) None None true) good_peer /\ trusted good_peer (Some (lit "ca.pem")) None /\
  ~ right_host good_peer (lit "pound.example.org").
Proof.
  split; [repeat split; cbn; auto|]. split; [eexists; split; reflexivity|]. intros (x & E & I). injection E as <-. cbn [issued_for In] in I.
  destruct I as [I|[]]. discriminate I.
Qed.

(** Refuted: that a server must show a certificate.  One that shows none, with an anonymous cipher, passes the verification. *)
Theorem C84_anonymous_refuted : forall v u w, works v w -> tls u = true -> verify v = true -> anonymous w -> open_socket v u w = Some (mkConn true (cert v)).
Proof. intros v u w W T V K. apply open_works; auto. Qed.
Print Assumptions C84_anonymous_refuted.
Example C84_anonymous_case : let w := mkW true true (fun _ _ => true) (fun _ => true) (fun _ => true) None in
  works (mkServer None (Some (lit "ca.pem")) None None true) w /\ anonymous w.
Proof. split; [repeat split; cbn; auto|reflexivity]. Qed.
