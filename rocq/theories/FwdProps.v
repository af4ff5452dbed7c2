(** C54: what the backend receives. *)
From Coq Require Import String Ascii List ZArith Bool Lia.
From Verif Require Import Bytes ClenSpec StreamModel StreamSpec TokSpec ReqModel ReqSpec HdrProofs FrameModel FrameSpec RespModel RespSpec
  LocSpec FwdModel FwdSpec FwdProofs.
Import ListNotations.
Open Scope Z_scope.

(** The backend receives the client's request line, the client's fields with exactly the documented
    edits, and the body; a reader of the head finds just these fields in it, and delimits the body as
    the proxy did. *)
Theorem C54_delivered : forall comb l verb s w plan wr input line fs f sent rest es,
  ordinary l verb s w wr -> request comb verb input line fs f sent rest -> destination s fs es ->
  exists fs', delivered comb l s plan wr input line fs' sent rest /\ edited (es ++ edits s w) fs fs' /\ framing_of fs' f.
Proof. exact delivered_ok. Qed.
Print Assumptions C54_delivered.

(** With rewriting rules: they are given exactly the edited fields, and their result is sent. *)
Theorem C54_composed : forall s w line hs es, side_ok s w -> Forall good hs -> destination s (hfields hs) es ->
  exists hs', compose s line hs = f_rules s line hs' /\ Forall good hs' /\ edited (es ++ edits s w) (hfields hs) (hfields hs').
Proof. exact (fun s w line hs es H1 H2 H3 => compose_ok s w line hs es H1 H2 H3). Qed.
Print Assumptions C54_composed.

(** Without any of the options, the fields arrive as they are. *)
Theorem C54_untouched : forall comb l verb s w plan wr input line fs f sent rest,
  ordinary l verb s w wr -> request comb verb input line fs f sent rest ->
  f_dest s = None -> f_forwarded s = false -> (f_tls s = None \/ f_ssl_headers s = false) -> f_servername s = None ->
  delivered comb l s plan wr input line fs sent rest.
Proof. exact untouched. Qed.
Print Assumptions C54_untouched.

(** Fields of other names always arrive as they are, in order. *)
Theorem C54_others : forall comb l verb s w plan wr input line fs f sent rest es,
  ordinary l verb s w wr -> request comb verb input line fs f sent rest -> destination s fs es ->
  exists fs', delivered comb l s plan wr input line fs' sent rest /\
    filter (fun f => negb (existsb (fun n => is_named (lit n) f) set_by_proxy)) fs' =
    filter (fun f => negb (existsb (fun n => is_named (lit n) f) set_by_proxy)) fs.
Proof. exact others_arrive. Qed.
Print Assumptions C54_others.

(** The first field of each name that the proxy sets has the proxy's value; further fields of the name are
    those of the client. *)
Theorem C54_set : forall comb l verb s w plan wr input line fs f sent rest es,
  ordinary l verb s w wr -> request comb verb input line fs f sent rest -> destination s fs es ->
  exists fs', delivered comb l s plan wr input line fs' sent rest /\
    (forall n v, In (Replace n v) (es ++ edits s w) -> values_of n fs' = v :: tl (values_of n fs)) /\
    (f_forwarded s = true -> exists x, values_of (lit "X-Forwarded-For") fs' = x :: tl (values_of (lit "X-Forwarded-For") fs) /\
      last_element x (f_client s)).
Proof. exact set_arrive. Qed.
Print Assumptions C54_set.

(** If the client sends at most one X-Forwarded-For field, or several that are combined, the last element of the only one
    that the backend gets is the address of the client; the elements before it are the client's. *)
Theorem C54_client_partial : forall comb l verb s w plan wr input line fs f sent rest es,
  ordinary l verb s w wr -> request comb verb input line fs f sent rest -> destination s fs es -> f_forwarded s = true ->
  (length (values_of (lit "X-Forwarded-For") fs) <= 1)%nat \/ In (lit "X-Forwarded-For") comb ->
  exists fs' x, delivered comb l s plan wr input line fs' sent rest /\
    values_of (lit "X-Forwarded-For") fs' = [x] /\ last_element x (f_client s) /\
    (values_of (lit "X-Forwarded-For") fs = [] -> x = f_client s) /\
    (forall u, values_of (lit "X-Forwarded-For") fs = [u] -> u <> [] -> exists bl, Forall blank bl /\ x = u ++ ","%char :: bl ++ f_client s).
Proof. exact client_arrives. Qed.
Print Assumptions C54_client_partial.

(** The same for the fields that are replaced: the backend gets the proxy's value and no other, if the client does not send
    two fields of the name, or if they are combined. *)
Theorem C54_once_partial : forall comb l verb s w plan wr input line fs f sent rest es n v,
  ordinary l verb s w wr -> request comb verb input line fs f sent rest -> destination s fs es ->
  In (Replace n v) (es ++ edits s w) ->
  (length (values_of n fs) <= 1)%nat \/ In n comb ->
  exists fs', delivered comb l s plan wr input line fs' sent rest /\ values_of n fs' = [v].
Proof. exact once_arrives. Qed.
Print Assumptions C54_once_partial.

(** ** Where it fails *)

Definition crlf (ls : list string) : bytes := concat (map (fun l => lit l ++ CRLF) ls).
Definition behind_tls : side := mkSide None true (lit "192.0.2.7") (Some 443) (Some (Some (lit "TLSv1.3", lit "AES"))) true 1 None (Some (lit "inner")) (fun l h => Some (l, h)).
Definition everywhere : lsn := mkLsn 1 None 0 0.

(** False: only the first field of a name is edited.  A client that sends the fields twice has its own values delivered
    as well, behind the proxy's: address, protocol, port, cipher and host name. *)
Theorem C54_twice_refuted : forward [] everywhere behind_tls [] []
    (map RByte (crlf ["GET / HTTP/1.1"; "Host: a"; "Host: admin"; "X-Forwarded-For: 1.1.1.1"; "X-Forwarded-For: 10.0.0.1"; "X-Forwarded-Proto: x";
                      "X-Forwarded-Proto: http"; "X-Forwarded-Port: 1"; "X-Forwarded-Port: 8080"; "X-SSL-cipher: x"; "X-SSL-cipher: NULL"; ""]%string)) =
  Forwarded ST_OK
    (crlf ["GET / HTTP/1.1"; "Host: inner"; "Host: admin"; "X-Forwarded-For: 1.1.1.1, 192.0.2.7"; "X-Forwarded-For: 10.0.0.1"; "X-Forwarded-Proto: https";
           "X-Forwarded-Proto: http"; "X-Forwarded-Port: 443"; "X-Forwarded-Port: 8080"; "X-SSL-cipher: TLSv1.3/AES"; "X-SSL-cipher: NULL"; ""]%string) [].
Proof. vm_compute. reflexivity. Qed.
Print Assumptions C54_twice_refuted.

(** The same in general: whatever is in the second field and after, it arrives. *)
Theorem C54_second_refuted : forall comb l verb s w plan wr input line fs f sent rest es n v u1 u2 us,
  ordinary l verb s w wr -> request comb verb input line fs f sent rest -> destination s fs es ->
  In (Replace n v) (es ++ edits s w) -> values_of n fs = u1 :: u2 :: us ->
  exists fs', delivered comb l s plan wr input line fs' sent rest /\ values_of n fs' = v :: u2 :: us.
Proof. exact second_arrives. Qed.
Print Assumptions C54_second_refuted.

(** False: a client without a certificate (it is asked for one, but need not have it) tells the backend whatever it
    likes in the fields about the certificate: they are neither replaced nor removed. *)
Theorem C54_no_certificate_refuted : forall comb l verb s w plan wr input line fs f sent rest es,
  ordinary l verb s w wr -> request comb verb input line fs f sent rest -> destination s fs es ->
  f_cert s = None \/ f_tls s = None \/ f_ssl_headers s = false \/ f_check s = 0 ->
  exists fs', delivered comb l s plan wr input line fs' sent rest /\
    forall n, In n ["X-SSL-Subject"; "X-SSL-Issuer"; "X-SSL-notBefore"; "X-SSL-notAfter"; "X-SSL-serial"; "X-SSL-certificate"]%string ->
      values_of (lit n) fs' = values_of (lit n) fs.
Proof. exact no_certificate. Qed.
Print Assumptions C54_no_certificate_refuted.

(** False: a certificate whose subject does not fit into the line buffer: the client's own X-SSL-Subject is
    left. *)
Theorem C54_long_subject_refuted : forall s line hs c pem cipher,
  f_dest s = None -> f_forwarded s = false -> f_tls s = Some cipher -> f_ssl_headers s = true -> f_cert s = Some c -> 0 < f_check s -> f_servername s = None ->
  (forall v d, cipher = Some (v, d) -> visible v /\ text d /\ v <> []) ->
  text (ce_subject c) -> 4096 <= Z.of_nat (length (ce_subject c)) ->
  shown (ce_issuer c) -> shown (ce_before c) -> shown (ce_after c) -> 
  pem <> [] -> Forall shown pem -> ce_pem c = flat_map (fun l => l ++ ["010"%char]) pem -> Forall good hs ->
  exists hs', compose s line hs = f_rules s line hs' /\
    values_of (lit "X-SSL-Subject") (hfields hs') = values_of (lit "X-SSL-Subject") (hfields hs).
Proof. exact long_subject. Qed.
Print Assumptions C54_long_subject_refuted.

(** False: serial numbers of 64 bits and more (certificate authorities have to use at least 64 bits of randomness) are all
    shown as -1: the backend cannot tell the certificates apart by it. *)
Theorem C54_serial_refuted : forall s line hs c pem cipher,
  f_dest s = None -> f_forwarded s = false -> f_tls s = Some cipher -> f_ssl_headers s = true -> f_cert s = Some c -> 0 < f_check s -> f_servername s = None ->
  (forall v d, cipher = Some (v, d) -> visible v /\ text d /\ v <> []) ->
  2 ^ 63 <= ce_serial c -> shown (ce_subject c) ->
  shown (ce_issuer c) -> shown (ce_before c) -> shown (ce_after c) -> 
  pem <> [] -> Forall shown pem -> ce_pem c = flat_map (fun l => l ++ ["010"%char]) pem -> Forall good hs ->
  exists hs', compose s line hs = f_rules s line hs' /\
    values_of (lit "X-SSL-serial") (hfields hs') = lit "-1" :: tl (values_of (lit "X-SSL-serial") (hfields hs)).
Proof. exact big_serial. Qed.
Print Assumptions C54_serial_refuted.

(** ** Examples *)
Definition a_cert : cert := mkCert (lit "CN = alice") (lit "CN = ca") (lit "Jan  1 00:00:00 2026 GMT") (lit "Jan  1 00:00:00 2027 GMT") 4711
  (lit "-----BEGIN CERTIFICATE-----" ++ ["010"%char] ++ lit "MIIB" ++ ["010"%char] ++ lit "-----END CERTIFICATE-----" ++ ["010"%char]).
Definition a_side : side := mkSide (Some (false, lit "10.0.0.2:80")) true (lit "192.0.2.7") (Some 443) (Some (Some (lit "TLSv1.3", lit "AES"))) true 1 (Some a_cert) (Some (lit "inner")) (fun l h => Some (l, h)).
Definition a_written : written := mkW (lit "443") (lit "4711") [lit "-----BEGIN CERTIFICATE-----"; lit "MIIB"; lit "-----END CERTIFICATE-----"].
Definition a_request : bytes := crlf ["PUT /x HTTP/1.1"; "Host: example.org"; "Destination: https://example.org/y"; "X-SSL-Subject: CN = root"; "Expect: 100-continue"; "X-Forwarded-For: 198.51.100.1"; "Content-Length: 2"; ""]%string ++ lit "hi".

Example C54_ex : forward [] everywhere a_side [] [] (map RByte a_request) = Forwarded ST_OK
  (crlf ["PUT /x HTTP/1.1"; "Host: inner"; "Destination: http://10.0.0.2:80/y"; "X-SSL-Subject: CN = alice"; "X-Forwarded-For: 198.51.100.1, 192.0.2.7"; "Content-Length: 2";
         "X-Forwarded-Proto: https"; "X-Forwarded-Port: 443"; "X-SSL-cipher: TLSv1.3/AES"; "X-SSL-Issuer: CN = ca"; "X-SSL-notBefore: Jan  1 00:00:00 2026 GMT";
         "X-SSL-notAfter: Jan  1 00:00:00 2027 GMT"; "X-SSL-serial: 4711"; "X-SSL-certificate: -----BEGIN CERTIFICATE-----"]%string
   ++ ["009"%char] ++ crlf ["MIIB"]%string ++ ["009"%char] ++ crlf ["-----END CERTIFICATE-----"; ""]%string ++ lit "hi") [].
Proof. vm_compute. reflexivity. Qed.

Ltac is_text := repeat (constructor; [right; vm_compute; split; intros ?; discriminate|]); constructor.
Ltac is_shown := split; [split; [is_text|intros ? ? E; vm_compute in E; injection E as <- _; intros [C|C]; discriminate]|split; [discriminate|vm_compute; reflexivity]].
Ltac is_number := left; split; [vm_compute; discriminate|]; split; [discriminate|]; split; [repeat (constructor; [vm_compute; split; intros ?; discriminate|]); constructor|]; split; [reflexivity|intros _ E; vm_compute in E; discriminate].
Example C54_ex_side : ordinary everywhere 1 a_side a_written [true; true].
Proof.
  split; [repeat split|]. split; [|split; [reflexivity|repeat constructor]].
  split; [split; [is_text|intros ? ? E; vm_compute in E; injection E as <- _; intros [C|C]; discriminate]|].
  split; [intros ? ? E; injection E as _ <-; is_text|]. split; [intros ? E; injection E as <-; split; [is_text|intros ? ? E; vm_compute in E; injection E as <- _; intros [C|C]; discriminate]|].
  split; [intros ? ? E; injection E as <- <-; split; [split; [is_text|intros ? ? E; vm_compute in E; injection E as <- _; intros [C|C]; discriminate]|split; [is_text|discriminate]]|].
  split.
  - intros c E. injection E as <-. do 4 (split; [is_shown|]). split; [cbn; lia|]. split; [is_number|]. split; [discriminate|]. split; [repeat (constructor; [is_shown|]); constructor|reflexivity].
  - intros p E. injection E as <-. split; [lia|is_number].
Qed.

Example C54_ex_request : exists fs f rest, request [] 1 a_request (lit "PUT /x HTTP/1.1") fs f (lit "hi") rest /\ exists es, destination a_side fs es /\ length (es ++ edits a_side a_written) = 12%nat.
Proof.
  eexists. exists (Length 2), []. split.
  - eexists. exists (lit "hi"), (lit "PUT"), (lit "PUT"), 1, (lit "/x"). split; [vm_compute; reflexivity|].
    split; [exists (lit " "), (lit " "), "1"%char; split; [reflexivity|]; do 4 (split; [split; [discriminate|first [solve [repeat constructor]|vm_compute; intuition discriminate]]|]); auto|].
    split; [exists "PUT"%string; split; [vm_compute; auto 20|]; split; reflexivity|]. split; [lia|].
    split; [apply fr_length with (lit "2"); [reflexivity|reflexivity|apply ClenProofs.header_length_iff; split; [vm_compute; reflexivity|vm_compute; discriminate]]|].
    split; [apply (rb_length (lit "hi") [])|reflexivity].
  - eexists. split; [eapply (de_url _ _ false (lit "10.0.0.2:80") [(lit "Host", lit "example.org")] (lit "Destination") (lit "https://example.org/y") _ (lit "https") (lit "example.org") (lit "/y"))|vm_compute; reflexivity].
    + reflexivity.
    + split; [vm_compute; reflexivity|]. split; [reflexivity|]. constructor; [|constructor]. intros E. vm_compute in E. discriminate.
    + split; [reflexivity|]. split; [right; reflexivity|]. split; [discriminate|]. split; [vm_compute; intuition discriminate|right; eexists; reflexivity].
Qed.

Definition with_cert (subject : bytes) (serial : Z) : side := mkSide None false [] None (Some None) true 1
  (Some (mkCert subject (lit "CN = ca") (lit "Jan  1 00:00:00 2026 GMT") (lit "Jan  1 00:00:00 2027 GMT") serial (ce_pem a_cert))) None (fun l h => Some (l, h)).
Example C54_ex_serial : exists t, forward [] everywhere (with_cert (lit "CN = alice") (2 ^ 80)) [] [] (map RByte (crlf ["GET / HTTP/1.1"; ""]%string)) = Forwarded ST_OK
  (crlf ["GET / HTTP/1.1"; "X-SSL-Subject: CN = alice"; "X-SSL-Issuer: CN = ca"; "X-SSL-notBefore: Jan  1 00:00:00 2026 GMT"; "X-SSL-notAfter: Jan  1 00:00:00 2027 GMT"; "X-SSL-serial: -1"]%string ++ t) [].
Proof. eexists. vm_compute. reflexivity. Qed.
Example C54_ex_subject : exists t, forward [] everywhere (with_cert (lit "CN = alice" ++ repeat "x"%char 4096) 1) [] [] (map RByte (crlf ["GET / HTTP/1.1"; "X-SSL-Subject: CN = root"; ""]%string)) = Forwarded ST_OK
  (crlf ["GET / HTTP/1.1"; "X-SSL-Subject: CN = root"; "X-SSL-Issuer: CN = ca"]%string ++ t) [].
Proof. eexists. vm_compute. reflexivity. Qed.
