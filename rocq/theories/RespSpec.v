(** Responses and their delimitation (RFC 7230, 3.3.3), independently of the model. *)
From Coq Require Import Ascii String List ZArith.
From Verif Require Import Bytes ClenSpec StreamSpec TokSpec ReqSpec FrameSpec.
Import ListNotations.
Open Scope Z_scope.

(** HTTP/1.v, blanks, three digits, then the end or a blank *)
Definition status_line (s : bytes) (v code : Z) : Prop :=
  exists dv bl a b c tail x y z,
    s = lit "HTTP/1." ++ [dv] ++ bl ++ [a; b; c] ++ tail /\
    (dv = "0"%char /\ v = 0 \/ dv = "1"%char /\ v = 1) /\
    bl <> [] /\ Forall blank bl /\
    decimal a x /\ decimal b y /\ decimal c z /\ 1 <= x <= 5 /\ code = 100 * x + 10 * y + z /\
    (tail = [] \/ exists t u, tail = t :: u /\ blank t).

(** A message head as it is written out. *)
Definition head_text (line : bytes) (texts : list bytes) : bytes :=
  line ++ CRLF ++ concat (map (fun t => t ++ CRLF) texts) ++ CRLF.

(** One of the fields of that name has that element in its list. *)
Definition has_element (n tok : string) (fs : list field) : Prop :=
  exists v e t, In v (values n fs) /\ element v e /\ stripped e t /\ same_letters t (lit tok).

(** One of the fields of that name has that value, as a whole. *)
Definition has_value (n v : string) (fs : list field) : Prop :=
  exists w, In w (values n fs) /\ same_letters w (lit v).

Inductive body_kind := NoContent | Fixed (n : Z) | Chunks | UntilClose.

(** Responses that have no body whatever their fields say. *)
Definition never_content (to_head : bool) (code : Z) : Prop :=
  to_head = true \/ 100 <= code < 200 \/ code = 204 \/ code = 304.

Inductive response_kind (to_head : bool) (code : Z) (fs : list field) : body_kind -> Prop :=
| rk_none : never_content to_head code -> response_kind to_head code fs NoContent
| rk_chunks : forall us v, ~ never_content to_head code ->
    values "Transfer-Encoding" fs = us ++ [v] -> chunked_last v ->
    response_kind to_head code fs Chunks
| rk_fixed : forall v n, ~ never_content to_head code ->
    values "Transfer-Encoding" fs = [] -> values "Content-Length" fs = [v] ->
    content_length_value v n -> response_kind to_head code fs (Fixed n)
| rk_close : ~ never_content to_head code ->
    values "Transfer-Encoding" fs = [] -> values "Content-Length" fs = [] ->
    response_kind to_head code fs UntilClose.

(** [delimited junk k input body rest]: a body of kind [k] stands at the start of [input]; [body] is what
    is to be passed on, [rest] what follows.  [junk] as in StreamSpec. *)
Inductive delimited (junk : bytes -> Prop) : body_kind -> bytes -> bytes -> bytes -> Prop :=
| dl_none : forall r, delimited junk NoContent r [] r
| dl_fixed : forall d r, delimited junk (Fixed (Z.of_nat (length d))) (d ++ r) d r
| dl_chunks : forall s o pay sizes r, chunked 4096 junk s o pay sizes r -> sum sizes <= max_length ->
    delimited junk Chunks s o r
| dl_close : forall s, delimited junk UntilClose s s [].

(** The numbers announced are numbers. *)
Definition lengths_valid (fs : list field) : Prop :=
  Forall (fun v => exists n, content_length_value v n) (values "Content-Length" fs).

(** Responses for which the relay is proved to keep the delimitation: chunked bodies come
    with HTTP/1.1; a response without body is not announced as chunked; the deprecated codes 305 and 306
    and the switch of protocols are left out; a body without announced end begins in time. *)
Definition usual (to_head : bool) (v code : Z) (fs : list field) (ready : bool) (k : body_kind) : Prop :=
  lengths_valid fs /\ code <> 100 /\ code <> 101 /\ code <> 305 /\ code <> 306 /\
  match k with
  | NoContent => ~ has_element "Transfer-Encoding" "chunked" fs
  | Chunks => v = 1
  | UntilClose => ready = true
  | Fixed _ => True
  end.

(** ** Dialogues *)
From Verif Require Import StreamModel ReqModel HdrProofs FrameModel RespModel.

(** [request_body f input sent rest]: the body announced by [f] stands at the start of [input];
    [sent] is the form in which it is passed on. *)
Inductive request_body : framing -> bytes -> bytes -> bytes -> Prop :=
| rb_none : forall r, request_body NoBody r [] r
| rb_length : forall d r, request_body (Length (Z.of_nat (length d))) (d ++ r) d r
| rb_chunked : forall s o pay sizes r, chunked 4096 lenient s o pay sizes r -> sum sizes <= max_length ->
    request_body Chunked s o r.

(** [asked comb verb input to_head sent rest]: the input starts with an HTTP/1.1 request that is
    acceptable and does not ask for the connection to be closed; then its body.  What a message head
    denotes is property C49. *)
Definition asked (comb : list bytes) (verb : Z) (input : bytes) (to_head : bool) (sent rest : bytes) : Prop :=
  exists line hs r m name g url f,
    http_request_read comb (map RByte input) = RR_ok line hs (map RByte r) /\
    request_line line m url 1 /\ method m name g /\ g <= verb /\ (to_head = true <-> name = lit "HEAD") /\
    ~ has_element "Connection" "close" (hfields hs) /\
    framing_of (hfields hs) f /\ request_body f r sent rest.

(** [answered env to_head input response rest v k fs]: the input of a backend starts with a response of
    kind [k] and version 1.[v]; [response] is what the client is to get, with the fields [fs]. *)
Definition answered (env : renv) (to_head : bool) (input response rest : bytes) (v : Z) (k : body_kind)
    (fs : list field) : Prop :=
  exists line hs r code hs' body,
    http_request_read (e_comb env) (map RByte input) = RR_ok line hs (map RByte r) /\
    status_line line v code /\ e_rules env hs = Some hs' /\ Forall good hs' /\ hfields hs' = fs /\
    response_kind to_head code fs k /\ usual to_head v code fs (e_ready env) k /\
    delimited lenient k r body rest /\
    response = head_text line (map (fun h => h_text (e_loc env h)) hs') ++ body.

(** [dialogue comb verb qs input be responses requests input' be']: a sequence of requests from the client, each
    answered by a backend (newly connected, or the one connected before) with a response that does
    not end with the connection. *)
Inductive dialogue (comb : list bytes) (verb : Z) :
  list rqenv -> bytes -> option bytes -> list bytes -> list bytes -> bytes -> option bytes -> Prop :=
| dg_end : forall i be, dialogue comb verb [] i be [] [] i be
| dg_next : forall q qs i be th sent i1 rb resp rb1 v k fs resps reqs i2 be2,
    asked comb verb i th sent i1 ->
    q_force q = false -> q_head_err q = None -> Forall (fun b => b = true) (q_wr q) ->
    (q_target q = T_new (map RByte rb) \/ q_target q = T_same /\ q_idle q = false /\ be = Some rb) ->
    answered (q_resp q) th rb resp rb1 v k fs -> k <> UntilClose -> ~ has_value "Connection" "close" fs ->
    dialogue comb verb qs i1 (if v =? 1 then Some rb1 else None) resps reqs i2 be2 ->
    dialogue comb verb (q :: qs) i be (resp :: resps)
      ((concat (map (fun t => t ++ CRLF) (q_head q)) ++ CRLF ++ sent) :: reqs) i2 be2.

(** A listener without restrictions on URLs and sizes. *)
Definition no_limits (l : lsn) (verb : Z) : Prop :=
  l_verb l = verb /\ l_url_ok l = None /\ l_max_uri l = 0 /\ l_max_req l = 0.
