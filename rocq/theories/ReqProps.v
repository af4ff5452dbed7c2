(** C07, C11, C49: request line, header list editing, reading a message head. *)
From Coq Require Import Ascii String List ZArith Lia.
From Verif Require Import Bytes ClenModel ClenSpec StreamModel StreamSpec TokSpec
  ReqModel ReqSpec ReqProofs HdrProofs HeadProofs.
Import ListNotations.
Open Scope Z_scope.

(** C07.  Accepted request lines and what is recorded of them. *)
Theorem C07_request_line_accepted : forall (s : bytes) (group : Z) (name url : bytes) (v : Z),
  parse_http_request s group = (ST_OK, Some (mkRL name url v)) <->
  exists m g, request_line s m url v /\ method m name g /\ g <= group.
Proof. exact parse_ok_iff. Qed.
Print Assumptions C07_request_line_accepted.

(** A well-formed line whose method is outside the configured groups. *)
Theorem C07_method_not_allowed : forall (s : bytes) (group : Z) (r : option reqline),
  parse_http_request s group = (ST_405, r) <->
  r = None /\ exists m name g url v, request_line s m url v /\ method m name g /\ group < g.
Proof. exact parse_405_iff. Qed.
Print Assumptions C07_method_not_allowed.

(** Everything else is a bad request. *)
Theorem C07_bad_request : forall (s : bytes) (group : Z) (r : option reqline),
  parse_http_request s group = (ST_400, r) <->
  r = None /\ ~ exists m name g url v, request_line s m url v /\ method m name g.
Proof. exact parse_400_iff. Qed.
Print Assumptions C07_bad_request.

(** A line has at most one reading. *)
Theorem C07_unambiguous : forall s m1 u1 v1 m2 u2 v2,
  request_line s m1 u1 v1 -> request_line s m2 u2 v2 -> m1 = m2 /\ u1 = u2 /\ v1 = v2.
Proof. exact request_line_fun. Qed.
Print Assumptions C07_unambiguous.

Example C07_ex_ok : parse_http_request (lit "get  /a?b=c   HTTP/1.1") 0
  = (ST_OK, Some (mkRL (lit "GET") (lit "/a?b=c") 1)).
Proof. vm_compute. reflexivity. Qed.
Example C07_ex_405 : parse_http_request (lit "DELETE / HTTP/1.0") 0 = (ST_405, None).
Proof. vm_compute. reflexivity. Qed.
Example C07_ex_bad : map (fun s => fst (parse_http_request s 3))
  [lit "GET /"; lit "GET HTTP/1.1"; lit "GET / HTTP/1.2"; lit "GET / HTTP/1.1 "; lit " GET / HTTP/1.1";
   lit "GET / x HTTP/1.1"; lit "FOO / HTTP/1.1"; lit ""]
  = [ST_400; ST_400; ST_400; ST_400; ST_400; ST_400; ST_400; ST_400].
Proof. vm_compute. reflexivity. Qed.

(** C49.  A header line is a field exactly when it has the form of one, and the
    name and value seen by the rest of the program are its parts. *)
Theorem C49_field_line_iff : forall s n v,
  (illegal (qualify_header s) = false /\ h_name (qualify_header s) = n /\
   h_val (qualify_header s) = v) <-> field_line s n v.
Proof. exact qualify_iff. Qed.
Print Assumptions C49_field_line_iff.

(** C49.  Reading a message head succeeds exactly on complete heads, ... *)
Theorem C49_head_complete : forall comb bs req ls r,
  message_head 4096 bs req ls r ->
  exists hs, http_request_read comb (map RByte bs) = RR_ok req hs (map RByte r).
Proof. exact read_request_complete. Qed.
Print Assumptions C49_head_complete.

(** ... consumes exactly the head, and yields its fields in order, combinable
    ones joined, lines that are no fields dropped. *)
Theorem C49_head_sound : forall comb bs req hs rest,
  http_request_read comb (map RByte bs) = RR_ok req hs rest ->
  exists ls fs gs r, message_head 4096 bs req ls r /\ fields_of ls fs /\
    combined (combs comb) fs gs /\ hfields hs = gs /\ Forall good hs /\ rest = map RByte r.
Proof. exact read_request_sound. Qed.
Print Assumptions C49_head_sound.

(** With no combinable headers configured the texts kept are the lines. *)
Theorem C49_head_texts : forall bs req hs rest,
  http_request_read [] (map RByte bs) = RR_ok req hs rest ->
  exists ls r, message_head 4096 bs req ls r /\
    map h_text hs = filter keep_line ls /\
    (forall l, keep_line l = true <-> exists n v, field_line l n v).
Proof. exact read_plain_texts. Qed.
Print Assumptions C49_head_texts.

Example C49_ex_head :
  exists hs, http_request_read [lit "x-a"]
    (map RByte (CRLF ++ lit "GET / HTTP/1.1" ++ CRLF ++ lit "X-A: 1" ++ CRLF ++ lit "Host:h" ++ [LF]
                ++ lit "bad line" ++ CRLF ++ lit "x-a:2" ++ CRLF ++ CRLF ++ lit "body"))
  = RR_ok (lit "GET / HTTP/1.1") hs (map RByte (lit "body")) /\
  hfields hs = [(lit "X-A", lit "1, 2"); (lit "Host", lit "h")].
Proof. eexists. split; vm_compute; reflexivity. Qed.
Example C49_ex_cut :
  http_request_read [] (map RByte (lit "GET / HTTP/1.1" ++ CRLF ++ lit "Host: h" ++ CRLF)) = RR_err ST_500.
Proof. vm_compute. reflexivity. Qed.

(** C11.  A name not yet present is added at the end in every mode. *)
Theorem C11_add_new : forall hs s n v mode, field_line s n v ->
  Forall (fun f => ~ named n f) (hfields hs) ->
  exists hs', http_header_list_append hs s mode = (0, hs') /\
    hfields hs' = hfields hs ++ [(n, v)] /\ map h_text hs' = map h_text hs ++ [s].
Proof. exact append_absent. Qed.
Print Assumptions C11_add_new.

Theorem C11_keep : forall hs s n v a f b, field_line s n v ->
  first_named n (hfields hs) a f b ->
  http_header_list_append hs s H_KEEP = (0, hs).
Proof. exact append_keep. Qed.
Print Assumptions C11_keep.

(** Mode replace: the first field of the name gets the new value, in place. *)
Theorem C11_replace_partial : forall hs s n v a f b, field_line s n v ->
  first_named n (hfields hs) a f b ->
  exists hs', http_header_list_append hs s H_REPLACE = (0, hs') /\
    hfields hs' = a ++ (n, v) :: b.
Proof. exact append_replace. Qed.
Print Assumptions C11_replace_partial.

(** Mode append: the value is joined to the first field of the name. *)
Theorem C11_append : forall hs s n v a m w b, Forall good hs -> field_line s n v ->
  first_named n (hfields hs) a (m, w) b ->
  exists hs' f', http_header_list_append hs s H_APPEND = (0, hs') /\
    hfields hs' = a ++ f' :: b /\
    (w = [] -> f' = (n, v)) /\
    (w <> [] -> exists bl, Forall blank bl /\ f' = (m, w ++ ","%char :: bl ++ v)).
Proof. exact append_append. Qed.
Print Assumptions C11_append.

(** In every mode the fields of other names keep values and order. *)
Theorem C11_others_unchanged : forall hs s n v mode, Forall good hs -> field_line s n v ->
  exists hs', http_header_list_append hs s mode = (0, hs') /\
    others n (hfields hs') = others n (hfields hs).
Proof. exact append_others. Qed.
Print Assumptions C11_others_unchanged.

(** The edited list is again a list of legal headers (so edits compose). *)
Theorem C11_stays_good : forall hs s n v mode, Forall good hs -> field_line s n v ->
  Forall good (snd (http_header_list_append hs s mode)).
Proof. exact append_good. Qed.
Print Assumptions C11_stays_good.

(** "Exactly one field of that name" is false when the client sent two: only
    the first is replaced, the second reaches the backend. *)
Theorem C11_replace_unique_refuted :
  exists hs s n v hs', Forall good hs /\ field_line s n v /\
    http_header_list_append hs s H_REPLACE = (0, hs') /\
    filter (is_named n) (hfields hs') = [(n, v); (lit "X-Forwarded-Proto", lit "https")] /\
    (n, v) = (lit "X-Forwarded-Proto", lit "http").
Proof.
  exists (map qualify_header [lit "X-Forwarded-Proto: a"; lit "X-Forwarded-Proto: https"]),
    (lit "X-Forwarded-Proto: http"), (lit "X-Forwarded-Proto"), (lit "http").
  eexists. repeat split.
  - repeat constructor.
  - apply C49_field_line_iff. vm_compute. auto.
Qed.
Print Assumptions C11_replace_unique_refuted.

Example C11_ex_append :
  hfields (snd (http_header_list_append (map qualify_header [lit "A: 1"; lit "X-Forwarded-For: 10.0.0.1"; lit "B: 2"])
     (lit "x-forwarded-for: 10.0.0.2") H_APPEND))
  = [(lit "A", lit "1"); (lit "X-Forwarded-For", lit "10.0.0.1, 10.0.0.2"); (lit "B", lit "2")].
Proof. vm_compute. reflexivity. Qed.
