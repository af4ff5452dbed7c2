(** C37: which Location headers are rewritten, and how. *)
From Coq Require Import Ascii String List ZArith Bool Lia.
From Verif Require Import Bytes ClenSpec NumSpec ReqModel LocModel LocSpec LocProofs.
Import ListNotations.
Open Scope Z_scope.

(** RewriteLocation 2: an absolute URL is rewritten exactly if it points to the backend. *)
Theorem C37_backend_only : forall resolve scheme hp rest loc h p vhost l be path, url scheme hp rest loc -> host_port scheme hp h p -> tcp be -> l_mode l = 2 ->
  (need_rewrite resolve loc vhost l be = Some path <-> points_to_backend resolve be scheme h p /\ path_of rest path).
Proof. exact rewrite_mode2. Qed.
Print Assumptions C37_backend_only.

(** In both modes one that points to the backend is rewritten. *)
Theorem C37_backend : forall resolve scheme hp rest loc h p vhost l be path, url scheme hp rest loc -> host_port scheme hp h p -> tcp be -> l_mode l <> 0 ->
  points_to_backend resolve be scheme h p -> (need_rewrite resolve loc vhost l be = Some path <-> path_of rest path).
Proof. exact rewrite_backend. Qed.
Print Assumptions C37_backend.

(** Locations without an absolute URL in them, any location if RewriteLocation is 0 or the
    backend is not an IP address: never rewritten. *)
Theorem C37_relative : forall resolve loc vhost l be, no_url loc -> need_rewrite resolve loc vhost l be = None.
Proof. exact rewrite_relative. Qed.
Print Assumptions C37_relative.
Theorem C37_off : forall resolve loc vhost l be, l_mode l = 0 \/ ~ tcp be -> need_rewrite resolve loc vhost l be = None.
Proof. exact rewrite_off. Qed.
Print Assumptions C37_off.

(** The header afterwards: unchanged, or of the same kind with the scheme and the host by which
    the client came and the path of the old one.  Other headers are unchanged. *)
Theorem C37_header : forall resolve host ssl l be h,
  rewrite_header resolve host ssl l be h = h \/
  exists v path, host = Some v /\ v <> [] /\ need_rewrite resolve (h_val h) v l be = Some path /\
    (h_code h = HEADER_LOCATION \/ h_code h = HEADER_CONTLOCATION) /\
    h_code (rewrite_header resolve host ssl l be h) = h_code h /\
    h_val (rewrite_header resolve host ssl l be h) = (if ssl then lit "https" else lit "http") ++ lit "://" ++ v ++ lit "/" ++ path.
Proof.
  intros resolve host ssl l be h. unfold rewrite_header. destruct (h_code h) eqn:C; auto.
  - destruct (l_mode l =? 0); [auto|]. destruct host as [[|x v]|]; [auto| |auto]. destruct (need_rewrite resolve (h_val h) (x :: v) l be) as [path|] eqn:N; [|auto]. right. exists (x :: v), path. repeat split; auto; try discriminate; destruct ssl; reflexivity.
  - destruct (l_mode l =? 0); [auto|]. destruct host as [[|x v]|]; [auto| |auto]. destruct (need_rewrite resolve (h_val h) (x :: v) l be) as [path|] eqn:N; [|auto]. right. exists (x :: v), path. repeat split; auto; try discriminate; destruct ssl; reflexivity.
Qed.
Print Assumptions C37_header.
Theorem C37_header_rewritten : forall resolve v ssl l be h path, h_code h = HEADER_LOCATION \/ h_code h = HEADER_CONTLOCATION -> v <> [] -> need_rewrite resolve (h_val h) v l be = Some path ->
  h_val (rewrite_header resolve (Some v) ssl l be h) = (if ssl then lit "https" else lit "http") ++ lit "://" ++ v ++ lit "/" ++ path.
Proof.
  intros resolve v ssl l be h path C V N. unfold rewrite_header. destruct (l_mode l =? 0) eqn:M; [unfold need_rewrite in N; rewrite M in N; discriminate|]. destruct v as [|x v]; [congruence|]. rewrite N. destruct C as [-> | ->]; destruct ssl; reflexivity.
Qed.
Print Assumptions C37_header_rewritten.

(** RewriteLocation 1, the default: every absolute URL is rewritten, wherever it points to (but
    for port 0), so that clients are never sent to another site. *)
Theorem C37_listener_refuted : forall resolve scheme hp rest loc h p vhost l be, url scheme hp rest loc -> host_port scheme hp h p -> tcp be -> l_mode l = 1 -> l_ptr l mod 16 = 0 -> p <> 0 ->
  exists path, path_of rest path /\ need_rewrite resolve loc vhost l be = Some path.
Proof. exact rewrite_mode1. Qed.
Print Assumptions C37_listener_refuted.

(** 127.0.0.1 has an address, nothing else has *)
Definition be1 : backend := mkBe (mkSA INET 8080 [Ascii.ascii_of_nat 127; NUL; NUL; Ascii.ascii_of_nat 1]) (Some (lit "be")) false.
Definition dns (h : bytes) : option (list sockaddr) := if bytes_eqb h (lit "127.0.0.1") then Some [mkSA INET 0 [Ascii.ascii_of_nat 127; NUL; NUL; Ascii.ascii_of_nat 1]] else None.
Definition lst (m : Z) : listener := mkLs m (mkSA INET 80 [NUL; NUL; NUL; NUL]) 94006842999808 false.

Example C37_ex_url : url (lit "HTTP") (lit "127.0.0.1:8080") (lit "/x/y") (lit "HTTP://127.0.0.1:8080/x/y") /\ host_port (lit "HTTP") (lit "127.0.0.1:8080") (lit "127.0.0.1") 8080 /\ tcp be1 /\ points_to_backend dns be1 (lit "HTTP") (lit "127.0.0.1") 8080.
Proof.
  split; [|split; [|split]].
  - split; [reflexivity|]. split; [left; reflexivity|]. split; [discriminate|]. split; [cbn; intuition discriminate|]. right. eexists. reflexivity.
  - change (lit "127.0.0.1:8080") with (lit "127.0.0.1" ++ ":"%char :: lit "8080"). assert (T : number_token (lit "8080")) by (apply NumProofs.number_token_digits; split; [discriminate|reflexivity]).
    apply hp_port; [cbn; intuition discriminate|exact T| |lia]. apply (NumProofs.token_numeral _ _ T). reflexivity.
  - discriminate.
  - cbn. eexists. split; [left; reflexivity|]. auto.
Qed.
Example C37_ex : need_rewrite dns (lit "HTTP://127.0.0.1:8080/x/y") (lit "www") (lst 2) be1 = Some (lit "x/y")
  /\ need_rewrite dns (lit "http://127.0.0.1/x/y") (lit "www") (lst 2) be1 = None
  /\ need_rewrite dns (lit "http://BE") (lit "www") (lst 2) be1 = Some []
  /\ need_rewrite dns (lit "https://other/x") (lit "www") (lst 2) be1 = None
  /\ need_rewrite dns (lit "https://other/x") (lit "www") (lst 1) be1 = Some (lit "x")
  /\ h_text (rewrite_header dns (Some (lit "www:81")) true (lst 2) be1 (qualify_header (lit "location: http://127.0.0.1:8080/x"))) = lit "Location: https://www:81/x".
Proof. vm_compute. repeat split. Qed.

(** A relative location with an absolute URL of the backend inside is taken for that URL: what
    precedes it is lost. *)
Theorem C37_inside_refuted : exists resolve loc v l be path, (forall scheme hp rest, ~ url scheme hp rest loc) /\ l_mode l = 2 /\ need_rewrite resolve loc v l be = Some path /\
  h_val (rewrite_header resolve (Some v) false l be (qualify_header (lit "Location: " ++ loc))) = lit "http://www/out".
Proof.
  exists dns, (lit "/login?next=http://127.0.0.1:8080/out"), (lit "www"), (lst 2), be1, (lit "out"). split; [|split; [reflexivity|split; vm_compute; reflexivity]].
  intros scheme hp rest (E & [S|S] & _); destruct scheme as [|c s]; try discriminate; cbn in E; injection E as E _; subst c; discriminate.
Qed.
Print Assumptions C37_inside_refuted.

(** URLs with an IPv6 address: the host is cut at the first colon, so the backend is not
    recognised. *)
Theorem C37_ipv6_refuted : forall resolve rest vhost l be x y, resolve (lit "[") = None -> l_mode l = 2 -> b_name be = None ->
  ~ In "/"%char x -> (rest = [] \/ exists r, rest = "/"%char :: r) -> ~ In "/"%char y ->
  need_rewrite resolve (lit "http://[:" ++ x ++ lit "]:" ++ y ++ rest) vhost l be = None.
Proof.
  intros resolve rest vhost l be x y R M N X RE Y. unfold need_rewrite. rewrite M. cbn [Z.eqb]. destruct (negb (inet be)); [reflexivity|].
  assert (U : url (lit "http") (lit "[:" ++ x ++ lit "]:" ++ y) rest (lit "http://[:" ++ x ++ lit "]:" ++ y ++ rest)).
  { split; [|split; [left; reflexivity|split; [discriminate|split; [|exact RE]]]].
    - rewrite <- !app_assoc. reflexivity.
    - rewrite !in_app_iff. cbn. intuition discriminate. }
  rewrite (url_match _ _ _ _ U). assert (E : fst (split_port (lit "http") (lit "[:" ++ x ++ lit "]:" ++ y)) = lit "[") by reflexivity. destruct (split_port (lit "http") (lit "[:" ++ x ++ lit "]:" ++ y)) as (h, p). cbn in E. subst h. cbv zeta. change ["["%char] with (lit "["). rewrite R, N. reflexivity.
Qed.
Print Assumptions C37_ipv6_refuted.

(** A host known only by name: the port is not looked at. *)
Theorem C37_name_port_refuted : exists resolve be v l p1 p2, l_mode l = 2 /\ sport (b_addr be) <> 9999 /\ need_rewrite resolve (lit "http://be:9999/x") v l be = Some p1 /\ need_rewrite resolve (lit "http://be:8080/x") v l be = Some p2.
Proof. exists dns, be1, (lit "www"), (lst 2), (lit "x"), (lit "x"). split; [reflexivity|]. split; [discriminate|]. split; vm_compute; reflexivity. Qed.
Print Assumptions C37_name_port_refuted.

(** RewriteDestination: scheme and host of the Destination header become those of the backend,
    the rest stays. *)
Theorem C37_destination : forall caddr https h scheme hp rest, url scheme hp rest (h_val h) ->
  h_val (rewrite_destination true caddr https h) = (if https then lit "https" else lit "http") ++ lit "://" ++ caddr ++ rest /\ h_code (rewrite_destination true caddr https h) = HEADER_DESTINATION.
Proof. intros caddr https h scheme hp rest U. unfold rewrite_destination. rewrite (url_match _ _ _ _ U). destruct https; split; reflexivity. Qed.
Print Assumptions C37_destination.
Theorem C37_destination_other : forall d caddr https h, d = false \/ no_url (h_val h) -> rewrite_destination d caddr https h = h.
Proof. intros d caddr https h [->|N]; [reflexivity|]. unfold rewrite_destination. rewrite (no_url_match _ N). destruct d; reflexivity. Qed.
Print Assumptions C37_destination_other.
Example C37_ex_destination : h_text (rewrite_destination true (lit "127.0.0.1:8080") false (qualify_header (lit "Destination: https://www.example/a/b"))) = lit "Destination: http://127.0.0.1:8080/a/b".
Proof. vm_compute. reflexivity. Qed.
