(** What a backend has to receive. *)
From Coq Require Import String Ascii List ZArith Bool.
From Verif Require Import Bytes ClenSpec StreamModel StreamSpec TokSpec ReqModel ReqSpec FrameModel FrameSpec HdrProofs RespSpec FwdModel LocSpec.
From Verif Require LogSpec.
Import ListNotations.
Open Scope Z_scope.

(** Edits of a list of fields: a value is joined to the first field of a name; or replaces it; a field
    that is not there is added. *)
Inductive joined (n v : bytes) (fs : list field) : list field -> Prop :=
| jo_new : Forall (fun f => ~ named n f) fs -> joined n v fs (fs ++ [(n, v)])
| jo_empty : forall a m b, first_named n fs a (m, []) b -> joined n v fs (a ++ (n, v) :: b)
| jo_join : forall a m w b bl, first_named n fs a (m, w) b -> w <> [] -> Forall blank bl ->
    joined n v fs (a ++ (m, w ++ ","%char :: bl ++ v) :: b).
Inductive replaced (n v : bytes) (fs : list field) : list field -> Prop :=
| re_new : Forall (fun f => ~ named n f) fs -> replaced n v fs (fs ++ [(n, v)])
| re_first : forall a f b, first_named n fs a f b -> replaced n v fs (a ++ (n, v) :: b).

Inductive edit := Join (n v : bytes) | Replace (n v : bytes).
Definition edit_name (e : edit) : bytes := match e with Join n _ | Replace n _ => n end.
Inductive edited : list edit -> list field -> list field -> Prop :=
| ed_nil : forall fs, edited [] fs fs
| ed_join : forall n v es fs fs1 fs2, joined n v fs fs1 -> edited es fs1 fs2 -> edited (Join n v :: es) fs fs2
| ed_replace : forall n v es fs fs1 fs2, replaced n v fs fs1 -> edited es fs1 fs2 -> edited (Replace n v :: es) fs fs2.

(** Numbers in decimal *)
Definition integer (n : Z) (t : bytes) : Prop :=
  0 <= n /\ LogSpec.decimal n t \/ n < 0 /\ exists u, t = "-"%char :: u /\ LogSpec.decimal (- n) u.
(** How the port and the certificate are written; see [side_ok]. *)
Record written := mkW { w_port : bytes; w_serial : bytes; w_pem : list bytes }.

(** The fields about the connection, as documented. *)
Definition forwarded_edits (s : side) (w : written) : list edit :=
  [Join (lit "X-Forwarded-For") (f_client s);
   Replace (lit "X-Forwarded-Proto") (match f_tls s with Some _ => lit "https" | None => lit "http" end)]
  ++ match f_port s with Some _ => [Replace (lit "X-Forwarded-Port") (w_port w)] | None => [] end.
Definition cipher_edits (s : side) : list edit :=
  match f_tls s with
  | Some (Some (version, description)) => [Replace (lit "X-SSL-cipher") (version ++ lit "/" ++ description)]
  | _ => []
  end.
(** The certificate on several lines, each but the first after a line end and a tab. *)
Definition fold (ls : list bytes) : bytes :=
  match ls with [] => [] | l :: r => l ++ flat_map (fun x => CRLF ++ ["009"%char] ++ x) r end.
Definition cert_edits (c : cert) (w : written) : list edit :=
  [Replace (lit "X-SSL-Subject") (ce_subject c); Replace (lit "X-SSL-Issuer") (ce_issuer c);
   Replace (lit "X-SSL-notBefore") (ce_before c); Replace (lit "X-SSL-notAfter") (ce_after c);
   Replace (lit "X-SSL-serial") (w_serial w); Replace (lit "X-SSL-certificate") (fold (w_pem w))].
Definition host_edits (s : side) : list edit :=
  match f_servername s with Some n => [Replace (lit "Host") n] | None => [] end.

Definition edits (s : side) (w : written) : list edit :=
  (if f_forwarded s then forwarded_edits s w else [])
  ++ match f_tls s with
     | Some _ => if f_ssl_headers s
                 then cipher_edits s ++ match f_cert s with
                                        | Some c => if 0 <? f_check s then cert_edits c w else []
                                        | None => []
                                        end
                 else []
     | None => []
     end ++ host_edits s.

(** The Destination field: if it is an URL, its host becomes the backend; if there is none in it, it
    stays.  (A text with an URL in the middle is replaced as well; no claim about that.) *)
Inductive destination (s : side) (fs : list field) : list edit -> Prop :=
| de_off : f_dest s = None -> destination s fs []
| de_absent : Forall (fun f => ~ named (lit "Destination") f) fs -> destination s fs []
| de_none : forall a m v b, first_named (lit "Destination") fs a (m, v) b -> no_url v -> destination s fs []
| de_url : forall tls addr a m v b scheme host path, f_dest s = Some (tls, addr) ->
    first_named (lit "Destination") fs a (m, v) b -> url scheme host path v ->
    destination s fs [Replace (lit "Destination") ((if tls : bool then lit "https" else lit "http") ++ lit "://" ++ addr ++ path)].

(** Texts on one line, that do not start with a blank *)
Definition visible (v : bytes) : Prop := text v /\ forall c u, v = c :: u -> ~ blank c.
Definition shown (v : bytes) : Prop := visible v /\ v <> [] /\ Z.of_nat (length v) < 4080.
Definition cert_ok (c : cert) (w : written) : Prop :=
  shown (ce_subject c) /\ shown (ce_issuer c) /\ shown (ce_before c) /\ shown (ce_after c) /\
  - 2 ^ 63 <= ce_serial c < 2 ^ 63 /\ integer (ce_serial c) (w_serial w) /\
  w_pem w <> [] /\ Forall shown (w_pem w) /\ ce_pem c = flat_map (fun l => l ++ ["010"%char]) (w_pem w).
(** The texts that come from outside are as expected. *)
Definition side_ok (s : side) (w : written) : Prop :=
  visible (f_client s) /\
  (forall tls addr, f_dest s = Some (tls, addr) -> text addr) /\
  (forall n, f_servername s = Some n -> visible n) /\
  (forall v d, f_tls s = Some (Some (v, d)) -> visible v /\ text d /\ v <> []) /\
  (forall c, f_cert s = Some c -> cert_ok c w) /\
  (forall p, f_port s = Some p -> 0 <= p /\ integer p (w_port w)).

(** ** What a reader of the head finds in it *)

(** [unfolded ls ts]: the lines [ls] are the fields [ts]; lines that start with a blank continue the field
    before (RFC 7230, 3.2.4). *)
Inductive unfolded : list bytes -> list bytes -> Prop :=
| uf_nil : unfolded [] []
| uf_field : forall l cs ls ts, (forall c u, l = c :: u -> ~ blank c) ->
    Forall (fun x => exists c u, x = c :: u /\ blank c) cs -> unfolded ls ts ->
    unfolded (l :: cs ++ ls) ((l ++ flat_map (fun x => CRLF ++ x) cs) :: ts).

(** The fields that are left out by the proxy. *)
Definition continue_expected (f : field) : bool :=
  ci_eqb (fst f) (lit "Expect") && ci_eqb (snd f) (lit "100-continue").
Definition kept (fs : list field) : list field := filter (fun f => negb (continue_expected f)) fs.
(** The values of the fields of a name. *)
Definition values_of (n : bytes) (fs : list field) : list bytes := map snd (filter (is_named n) fs).
(** [last_element v x]: the last element of a comma-separated list. *)
Definition last_element (v x : bytes) : Prop :=
  (exists bl, Forall blank bl /\ v = bl ++ x) \/ exists w bl, Forall blank bl /\ v = w ++ ","%char :: bl ++ x.

(** [request comb verb input line fs f sent rest]: the input starts with an acceptable HTTP/1.1 request; [fs]:
    its fields (what a message head denotes is property C49), but for Expect: 100-continue; [f]: how its body
    is delimited; [sent]: the body as it is passed on. *)
Definition request (comb : list bytes) (verb : Z) (input line : bytes) (fs : list field) (f : framing) (sent rest : bytes) : Prop :=
  exists hs r m name g url,
    http_request_read comb (map RByte input) = RR_ok line hs (map RByte r) /\
    request_line line m url 1 /\ method m name g /\ g <= verb /\
    framing_of (hfields hs) f /\ request_body f r sent rest /\ fs = kept (hfields hs).

(** [delivered comb l s plan wr input line fs sent rest]: what the backend gets is a message with that first
    line, these fields, and then nothing but the body. *)
Definition delivered (comb : list bytes) (l : lsn) (s : side) (plan : list rdplan) (wr : list bool) (input : bytes)
    (line : bytes) (fs : list field) (sent rest : bytes) : Prop :=
  exists ts ls, forward comb l s plan wr (map RByte input) = Forwarded ST_OK (head_text line ts ++ sent) (map RByte rest) /\
    (forall lim, Z.of_nat (length (head_text line ts)) < lim -> message_head lim (head_text line ts ++ sent) line ls sent) /\
    unfolded ls ts /\ fields_of ts fs.

(** The usual circumstances: no limits, no rewriting, the texts are as expected, writing succeeds. *)
Definition ordinary (l : lsn) (verb : Z) (s : side) (w : written) (wr : list bool) : Prop :=
  no_limits l verb /\ side_ok s w /\ (forall line hs, f_rules s line hs = Some (line, hs)) /\ Forall (fun b => b = true) wr.

(** The names of fields that the proxy may set *)
Definition set_by_proxy : list string :=
  ["Destination"; "X-Forwarded-For"; "X-Forwarded-Proto"; "X-Forwarded-Port"; "X-SSL-cipher"; "X-SSL-Subject"; "X-SSL-Issuer";
   "X-SSL-notBefore"; "X-SSL-notAfter"; "X-SSL-serial"; "X-SSL-certificate"; "Host"]%string.
