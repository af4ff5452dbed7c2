(** C36: the relay of responses; C47: the reuse of client connections. *)
From Coq Require Import Ascii String List ZArith Bool Lia.
From Verif Require Import Bytes ClenModel ClenSpec ClenProofs StreamModel StreamSpec StreamProofs TokModel
  TokSpec TokProofs ReqModel ReqSpec ReqProofs HdrProofs HeadProofs FrameModel FrameSpec FrameProofs
  RespModel RespSpec RespProofs RespConnProofs.
Import ListNotations.
Open Scope Z_scope.

(** * C36 *)

(** Any number of requests on a connection, each answered by some backend: the client gets exactly the
    responses, in the order of the requests, each with the body its head announces; the backends get
    the requests; neither side is read further than that. *)
Theorem C36_dialogue : forall comb verb l page qs input be resps reqs input' be' out wr sent,
  dialogue comb verb qs input be resps reqs input' be' -> no_limits l verb ->
  Forall (fun b => b = true) wr -> (be <> None -> sent <> []) ->
  exists wr' sent', serve comb l page qs (mkConn (map RByte input) (option_map (map RByte) be) out wr sent) =
    (GoesOn, mkConn (map RByte input') (option_map (map RByte) be') (out ++ concat resps) wr' sent') /\
    concat sent' = concat sent ++ concat reqs.
Proof. intros. eapply dialogue_ok; eauto. Qed.
Print Assumptions C36_dialogue.

(** A response of a usual kind is passed on with its body and nothing more is read (partial: see
    [usual]; the others are refuted below). *)
Theorem C36_relayed_partial : forall env to_head closed ws input line r hs hs' v code k body rest plan w out cnt,
  Forall (fun b => b = true) w ->
  http_request_read (e_comb env) (map RByte input) = RR_ok line hs (map RByte r) ->
  status_line line v code -> e_rules env hs = Some hs' -> Forall good hs' ->
  response_kind to_head code (hfields hs') k -> usual to_head v code (hfields hs') (e_ready env) k ->
  delimited lenient k r body rest ->
  exists close x' st',
    backend_response env (start_exchange to_head closed ws) (mkC (map RByte input) plan w out cnt) = (RespOk close x' code, st') /\
    c_out st' = out ++ head_text line (map (fun h => h_text (e_loc env h)) hs') ++ body /\
    c_src st' = map RByte rest /\
    (close = true <-> v = 0 \/ k = UntilClose) /\
    (x_closed x' = true <-> closed = true \/ has_value "Connection" "close" (hfields hs') \/ k = UntilClose).
Proof.
  intros. edestruct relayed as (close & x' & st' & A & B & C & _ & D & E); eauto. exists close, x', st'. repeat (split; [eassumption|]); eassumption.
Qed.
Print Assumptions C36_relayed_partial.

(** Conversely, success means that one response with its body was passed. *)
Theorem C36_framed_partial : forall env to_head closed ws input plan w out cnt close x' code st',
  Forall (fun b => b = true) w ->
  (forall hs hs', e_rules env hs = Some hs' -> Forall good hs -> Forall good hs') ->
  backend_response env (start_exchange to_head closed ws) (mkC (map RByte input) plan w out cnt) = (RespOk close x' code, st') ->
  exists line r hs hs' v body, http_request_read (e_comb env) (map RByte input) = RR_ok line hs (map RByte r) /\
    status_line line v code /\ code <> 100 /\ e_rules env hs = Some hs' /\
    c_out st' = out ++ head_text line (map (fun h => h_text (e_loc env h)) hs') ++ body /\
    forall k, response_kind to_head code (hfields hs') k -> usual to_head v code (hfields hs') (e_ready env) k ->
    exists rest, c_src st' = map RByte rest /\ delimited lenient k r body rest.
Proof.
  intros env to_head closed ws input plan w out cnt close x' code st' Hw Hg H.
  destruct (framed _ _ _ _ _ _ _ _ _ _ _ _ _ Hw Hg H) as (line & r & hs & hs' & v & body & A & B & C & D & E & F & _ & G).
  exists line, r, hs, hs', v, body. do 5 (split; [assumption|]). intros k K U. destruct (G k K U) as (_ & _ & R). exact R.
Qed.
Print Assumptions C36_framed_partial.

(** If the answer is to be an error page, nothing of the response was written before. *)
Theorem C36_error : forall env x st e st', backend_response env x st = (RespErr e, st') -> c_out st' = c_out st.
Proof. exact response_error. Qed.
Print Assumptions C36_error.

(** What the backend sends is an error for the client, with nothing sent on, if it is not a response: status 503 if it does not begin
    with a status line, the error of the reader if its head cannot be read. *)
Theorem C36_malformed : forall env x st,
  (forall line hs rest, http_request_read (e_comb env) (c_src st) = RR_ok line hs rest -> (forall v code, ~ status_line line v code) ->
    exists st', backend_response env x st = (RespErr ST_503, st') /\ c_out st' = c_out st /\ c_src st' = rest) /\
  (forall e, http_request_read (e_comb env) (c_src st) = RR_err e -> backend_response env x st = (RespErr e, st)) /\
  (forall line hs rest v code, http_request_read (e_comb env) (c_src st) = RR_ok line hs rest -> status_line line v code -> e_rules env hs = None ->
    exists st', backend_response env x st = (RespErr ST_500, st') /\ c_out st' = c_out st).
Proof. exact malformed_response. Qed.
Print Assumptions C36_malformed.

(** A body shorter than announced: its beginning is passed and the connection is dropped. *)
Theorem C36_cut : forall env to_head closed ws input line r hs hs' v code n plan w out cnt,
  Forall (fun b => b = true) w ->
  http_request_read (e_comb env) (map RByte input) = RR_ok line hs (map RByte r) ->
  status_line line v code -> e_rules env hs = Some hs' -> Forall good hs' ->
  response_kind to_head code (hfields hs') (Fixed n) -> usual to_head v code (hfields hs') (e_ready env) (Fixed n) ->
  Z.of_nat (length r) < n ->
  exists st' m, backend_response env (start_exchange to_head closed ws) (mkC (map RByte input) plan w out cnt) = (RespAbort, st') /\
    c_out st' = out ++ head_text line (map (fun h => h_text (e_loc env h)) hs') ++ firstn m r.
Proof. exact response_cut. Qed.
Print Assumptions C36_cut.

(** Reading responses ends, whatever the backend sends. *)
Theorem C36_total : forall env x st input, c_src st = map RByte input -> fst (backend_response env x st) <> RespFuel.
Proof. exact response_terminates. Qed.
Print Assumptions C36_total.

(** False: after a response 100 no final response is passed, whatever follows. *)
Theorem C36_continue_refuted : forall env x st line hs rest v,
  http_request_read (e_comb env) (c_src st) = RR_ok line hs rest -> status_line line v 100 ->
  forall r st', backend_response env x st = (r, st') -> c_out st' = c_out st /\ (forall c x' code, r <> RespOk c x' code).
Proof. exact response_100. Qed.
Print Assumptions C36_continue_refuted.

(** False: any other interim response is taken for the final one, which stays unread. *)
Theorem C36_interim_refuted : forall env to_head closed ws input line r hs hs' v code plan w out cnt,
  Forall (fun b => b = true) w ->
  http_request_read (e_comb env) (map RByte input) = RR_ok line hs (map RByte r) ->
  status_line line v code -> 102 <= code < 200 -> e_rules env hs = Some hs' -> Forall good hs' ->
  usual to_head v code (hfields hs') (e_ready env) NoContent ->
  exists close x' st',
    backend_response env (start_exchange to_head closed ws) (mkC (map RByte input) plan w out cnt) = (RespOk close x' code, st') /\
    c_out st' = out ++ head_text line (map (fun h => h_text (e_loc env h)) hs') /\ c_src st' = map RByte r.
Proof.
  intros env to_head closed ws input line r hs hs' v code plan w out cnt Hw R L Hc Ru G U.
  edestruct (relayed env to_head closed ws input line r hs hs' v code NoContent [] r plan w out cnt) as (close & x' & st' & A & B & C & _); eauto.
  - apply rk_none. unfold never_content. lia.
  - constructor.
  - exists close, x', st'. rewrite app_nil_r in B. auto.
Qed.
Print Assumptions C36_interim_refuted.

(** False: a Content-Length that is not a number is used after its memory is released. *)
Theorem C36_invalid_length_refuted : forall env x st line hs hs' rest v code,
  http_request_read (e_comb env) (c_src st) = RR_ok line hs rest -> status_line line v code ->
  e_rules env hs = Some hs' -> Forall good hs' -> ~ lengths_valid (hfields hs') ->
  fst (backend_response env x st) = RespUB.
Proof. exact response_invalid. Qed.
Print Assumptions C36_invalid_length_refuted.

(** Texts for the examples. *)
Definition crlf (ls : list string) : bytes := concat (map (fun l => lit l ++ CRLF) ls).
Definition plain : renv := mkE [] Some (fun h => h) true true.
Definition late : renv := mkE [] Some (fun h => h) false true.
Definition respond (env : renv) (to_head : bool) (b : bytes) : resp_result * cstate :=
  backend_response env (start_exchange to_head false false) (mkC (map RByte b) [] [] [] 0).

(** False: the response to HEAD with the head of a chunked one; what follows is taken for chunks. *)
Theorem C36_head_chunked_refuted : exists line texts st',
  respond plain true (head_text line texts ++ crlf ["HTTP/1.1 404 Not found"; "Content-Length: 0"; ""]%string) = (RespAbort, st') /\
  status_line line 1 200 /\ texts = [lit "Transfer-Encoding: chunked"].
Proof.
  exists (lit "HTTP/1.1 200 OK"), [lit "Transfer-Encoding: chunked"]. eexists. split; [vm_compute; reflexivity|].
  split; [apply validate_iff; vm_compute; reflexivity|reflexivity].
Qed.
Print Assumptions C36_head_chunked_refuted.

(** False: the body of a response 305 is not passed; it stays in front of the next response. *)
Theorem C36_305_refuted : exists x' st',
  respond plain false (crlf ["HTTP/1.1 305 Use Proxy"; "Content-Length: 3"; ""]%string ++ lit "abc") = (RespOk false x' 305, st') /\
  c_out st' = crlf ["HTTP/1.1 305 Use Proxy"; "Content-Length: 3"; ""]%string /\ c_src st' = map RByte (lit "abc") /\ x_closed x' = false.
Proof. do 2 eexists. split; [vm_compute; reflexivity|]. vm_compute. auto. Qed.
Print Assumptions C36_305_refuted.

(** False: of two lengths the last one counts, but the client gets both. *)
Theorem C36_twice_refuted : exists x' st',
  respond plain false (crlf ["HTTP/1.1 200 OK"; "Content-Length: 5"; "Content-Length: 1"; ""]%string ++ lit "abcde") = (RespOk false x' 200, st') /\
  c_out st' = crlf ["HTTP/1.1 200 OK"; "Content-Length: 5"; "Content-Length: 1"; ""]%string ++ lit "a" /\
  c_src st' = map RByte (lit "bcde") /\ x_closed x' = false.
Proof. do 2 eexists. split; [vm_compute; reflexivity|]. vm_compute. auto. Qed.
Print Assumptions C36_twice_refuted.

(** False: a body without announced end that does not begin in time is not passed; both connections
    are kept. *)
Theorem C36_timeout_refuted : exists x' st',
  respond late false (crlf ["HTTP/1.1 200 OK"; ""]%string ++ lit "abc") = (RespOk false x' 200, st') /\
  c_out st' = crlf ["HTTP/1.1 200 OK"; ""]%string /\ c_src st' = map RByte (lit "abc") /\ x_closed x' = false.
Proof. do 2 eexists. split; [vm_compute; reflexivity|]. vm_compute. auto. Qed.
Print Assumptions C36_timeout_refuted.

(** Two requests, the second to the same backend connection. *)
Definition two_requests : bytes := crlf ["POST /a HTTP/1.1"; "Content-Length: 2"; ""]%string ++ lit "hi" ++ crlf ["GET /b HTTP/1.1"; ""]%string.
Definition ask1 : rqenv := mkQ false (T_new (map RByte (crlf ["HTTP/1.1 200 OK"; "Content-Length: 3"; ""]%string ++ lit "one" ++
  crlf ["HTTP/1.0 404 No"; "Content-Length: 0"; ""]%string))) false [lit "POST /a HTTP/1.1"] None [] [] [] plain.
Definition ask2 : rqenv := mkQ false T_same false [lit "GET /b HTTP/1.1"] None [] [] [] plain.

Example C36_ex_malformed : exists hs rest, http_request_read [] (map RByte (crlf ["200 OK"; "Content-Length: 0"; ""]%string)) = RR_ok (lit "200 OK") hs rest /\
  forall v code, ~ status_line (lit "200 OK") v code.
Proof. eexists. eexists. split; [vm_compute; reflexivity|]. intros v code H. apply validate_iff in H. vm_compute in H. discriminate. Qed.

Example C36_ex_serve : exists k, serve [] (mkLsn 0 None 0 0) (fun _ => []) [ask1; ask2] (mkConn (map RByte two_requests) None [] [] []) = (GoesOn, k) /\
  k_out k = crlf ["HTTP/1.1 200 OK"; "Content-Length: 3"; ""]%string ++ lit "one" ++ crlf ["HTTP/1.0 404 No"; "Content-Length: 0"; ""]%string /\
  k_sent k = [crlf ["POST /a HTTP/1.1"; ""]%string ++ lit "hi" ++ crlf ["GET /b HTTP/1.1"; ""]%string] /\ k_in k = [] /\ k_be k = None.
Proof. eexists. split; [vm_compute; reflexivity|]. vm_compute. auto. Qed.

Ltac no_connection := intros (? & ? & ? & [] & _) || intros (? & [] & _).

Ltac line_shape := split; [reflexivity|]; do 4 (split; [split; [discriminate|first [solve [repeat constructor]|vm_compute; intuition discriminate]]|]); auto.

Example C36_ex_dialogue : exists resps reqs, dialogue [] 0 [ask1; ask2] two_requests None resps reqs [] None /\ length resps = 2%nat.
Proof.
  eexists [_; _], [_; _]. split; [|reflexivity].
  refine (dg_next [] 0 ask1 [ask2] _ _ false (lit "hi") (crlf ["GET /b HTTP/1.1"; ""]%string)
    (crlf ["HTTP/1.1 200 OK"; "Content-Length: 3"; ""]%string ++ lit "one" ++ crlf ["HTTP/1.0 404 No"; "Content-Length: 0"; ""]%string)
    (crlf ["HTTP/1.1 200 OK"; "Content-Length: 3"; ""]%string ++ lit "one") (crlf ["HTTP/1.0 404 No"; "Content-Length: 0"; ""]%string) 1 (Fixed 3) [(lit "Content-Length", lit "3")] _ _ _ _
    _ eq_refl eq_refl _ (or_introl eq_refl) _ _ _ _); [|repeat constructor|..].
  - exists (lit "POST /a HTTP/1.1"), [qualify_header (lit "Content-Length: 2")], (lit "hi" ++ crlf ["GET /b HTTP/1.1"; ""]%string), (lit "POST"), (lit "POST"), 0, (lit "/a"), (Length 2).
    split; [vm_compute; reflexivity|]. split; [|split; [|split; [lia|]]]; [..|split; [|split; [|split]]].
    + exists (lit " "), (lit " "), "1"%char. line_shape.
    + exists "POST"%string. split; [vm_compute; auto|]. split; reflexivity.
    + split; intros E; vm_compute in E; discriminate.
    + vm_compute. no_connection.
    + apply fr_length with (lit "2"); [reflexivity|reflexivity|]. apply header_length_iff. split; [vm_compute; reflexivity|vm_compute; discriminate].
    + apply (rb_length (lit "hi")).
  - exists (lit "HTTP/1.1 200 OK"), [qualify_header (lit "Content-Length: 3")], (lit "one" ++ crlf ["HTTP/1.0 404 No"; "Content-Length: 0"; ""]%string), 200, [qualify_header (lit "Content-Length: 3")], (lit "one").
    split; [vm_compute; reflexivity|]. split; [apply validate_iff; vm_compute; reflexivity|]. split; [reflexivity|].
    split; [repeat constructor|]. split; [reflexivity|].
    assert (L: content_length_value (lit "3") 3) by (apply header_length_iff; split; [vm_compute; reflexivity|vm_compute; discriminate]).
    split; [apply rk_fixed with (lit "3"); [unfold never_content; intuition (try discriminate; lia)|reflexivity|reflexivity|exact L]|].
    split; [|split; [apply (dl_fixed _ (lit "one"))|reflexivity]].
    split; [|lia]. repeat constructor. exists 3. exact L.
  - discriminate.
  - vm_compute. no_connection.
  - refine (dg_next [] 0 ask2 [] _ _ false [] [] (crlf ["HTTP/1.0 404 No"; "Content-Length: 0"; ""]%string) (crlf ["HTTP/1.0 404 No"; "Content-Length: 0"; ""]%string) [] 0 (Fixed 0) [(lit "Content-Length", lit "0")] _ _ _ _
    _ eq_refl eq_refl _ (or_intror (conj eq_refl (conj eq_refl eq_refl))) _ _ _ _); [|repeat constructor|..].
    + exists (lit "GET /b HTTP/1.1"), [], [], (lit "GET"), (lit "GET"), 0, (lit "/b"), NoBody.
      split; [vm_compute; reflexivity|]. split; [|split; [|split; [lia|]]]; [..|split; [|split; [|split]]].
      * exists (lit " "), (lit " "), "1"%char. line_shape.
      * exists "GET"%string. split; [vm_compute; auto|]. split; reflexivity.
      * split; intros E; vm_compute in E; discriminate.
      * vm_compute. no_connection.
      * apply fr_none; reflexivity.
      * constructor.
    + exists (lit "HTTP/1.0 404 No"), [qualify_header (lit "Content-Length: 0")], [], 404, [qualify_header (lit "Content-Length: 0")], [].
      split; [vm_compute; reflexivity|]. split; [apply validate_iff; vm_compute; reflexivity|]. split; [reflexivity|].
      split; [repeat constructor|]. split; [reflexivity|].
      assert (L: content_length_value (lit "0") 0) by (apply header_length_iff; split; [vm_compute; reflexivity|vm_compute; discriminate]).
      split; [apply rk_fixed with (lit "0"); [unfold never_content; intuition (try discriminate; lia)|reflexivity|reflexivity|exact L]|].
      split; [|split; [apply (dl_fixed _ [])|reflexivity]].
      split; [|lia]. repeat constructor. exists 0. exact L.
    + discriminate.
    + vm_compute. no_connection.
    + constructor.
Qed.

(** A response of each kind. *)
Example C36_ex_kinds : forall k, In k [NoContent; Fixed 3; Chunks; UntilClose] -> exists to_head v code fs,
  response_kind to_head code fs k /\ usual to_head v code fs true k.
Proof.
  assert (L: content_length_value (lit "3") 3) by (apply header_length_iff; split; [vm_compute; reflexivity|vm_compute; discriminate]).
  assert (N: ~ never_content false 200) by (unfold never_content; intuition (try discriminate; lia)).
  intros k [<-|[<-|[<-|[<-|[]]]]].
  - exists true, 1, 200, [(lit "Content-Length", lit "3")]. split; [constructor; left; reflexivity|].
    split; [repeat constructor; exists 3; exact L|]. do 4 (split; [lia|]). vm_compute. no_connection.
  - exists false, 0, 200, [(lit "Content-Length", lit "3")]. split; [apply rk_fixed with (lit "3"); auto|].
    split; [repeat constructor; exists 3; exact L|lia].
  - exists false, 1, 200, [(lit "Transfer-Encoding", lit "gzip, chunked")]. split.
    + apply rk_chunks with [] (lit "gzip, chunked"); auto.
      assert (F : framing_of [(lit "Transfer-Encoding", lit "gzip, chunked")] Chunked).
      { refine (check_framing_sound [qualify_header (lit "Transfer-Encoding: gzip, chunked")] (mkScan TE_CHUNKED NO_CONTENT_LENGTH false false false [qualify_header (lit "Transfer-Encoding: gzip, chunked")]) _ _);
        [repeat constructor|vm_compute; reflexivity]. }
      inversion F as [| |us v _ E _ K]. change (([] : list bytes) ++ [lit "gzip, chunked"] = us ++ [v]) in E. apply app_inj_tail in E. destruct E as [_ <-]. exact K.
    + split; [constructor|lia].
  - exists false, 1, 200, []. split; [constructor; auto|]. split; [constructor|]. repeat split; lia.
Qed.

(** * C47 *)

(** The connection goes on only if the request was HTTP/1.1 and did not ask to close, and either it was
    answered locally or by a response that did not ask to close and (if it is a usual one) has an
    announced end, up to which it was read (partial: [usual]; see below for the others and for local
    answers). *)
Theorem C47_reuse_partial : forall comb l page q bs be out wr snt k', Forall (fun b => b = true) wr ->
  (forall hs hs', e_rules (q_resp q) hs = Some hs' -> Forall good hs -> Forall good hs') ->
  serve_one comb l page q (mkConn (map RByte bs) be out wr snt) = (GoesOn, k') ->
  exists line ls r hs, message_head 4096 bs line ls r /\
    http_request_read comb (map RByte bs) = RR_ok line hs (map RByte r) /\ (exists m url, request_line line m url 1) /\
    ~ has_element "Connection" "close" (hfields hs) /\ q_force q = false /\
    ((exists reply, q_target q = T_local reply ST_OK /\ k' = mkConn (map RByte r) None (out ++ reply) wr snt) \/
     exists src, (q_target q = T_new src \/ q_target q = T_same /\ be = Some src) /\
       forall rb, src = map RByte rb ->
       exists rline rr rhs hs' v code body,
         http_request_read (e_comb (q_resp q)) (map RByte rb) = RR_ok rline rhs (map RByte rr) /\
         status_line rline v code /\ code <> 100 /\ e_rules (q_resp q) rhs = Some hs' /\ Forall good hs' /\
         k_out k' = out ++ head_text rline (map (fun h => h_text (e_loc (q_resp q) h)) hs') ++ body /\
         ~ has_value "Connection" "close" (hfields hs') /\
         exists to_head, (to_head = true <-> exists m url g, request_line line m url 1 /\ method m (lit "HEAD") g) /\
         forall k, response_kind to_head code (hfields hs') k -> usual to_head v code (hfields hs') (e_ready (q_resp q)) k ->
           k <> UntilClose /\ exists rest, delimited lenient k rr body rest /\
             k_be k' = (if v =? 1 then Some (map RByte rest) else None)).
Proof. exact reuse. Qed.
Print Assumptions C47_reuse_partial.

(** HTTP/1.0 requests and requests that ask to close are the last ones on their connection. *)
Theorem C47_http10 : forall comb l page q bs be out wr snt line hs r m url,
  http_request_read comb (map RByte bs) = RR_ok line hs (map RByte r) -> request_line line m url 0 ->
  fst (serve_one comb l page q (mkConn (map RByte bs) be out wr snt)) <> GoesOn.
Proof.
  intros comb l page q bs be out wr snt line hs r m url R L H.
  destruct (serve_one _ _ _ _ _) as [a k'] eqn:E. cbn [fst] in H. subst a.
  destruct (goes_on _ _ _ _ _ _ _ _ _ _ E) as (line' & ls & r' & hs' & rl & sc & _ & R' & _ & _ & _ & (m' & u' & L') & _).
  rewrite R in R'. injection R' as <- _ _. destruct (request_line_fun _ _ _ _ _ _ _ L L') as (_ & _ & X). discriminate.
Qed.
Print Assumptions C47_http10.
Theorem C47_asked_to_close : forall comb l page q bs be out wr snt line hs r,
  http_request_read comb (map RByte bs) = RR_ok line hs (map RByte r) -> has_element "Connection" "close" (hfields hs) ->
  fst (serve_one comb l page q (mkConn (map RByte bs) be out wr snt)) <> GoesOn.
Proof.
  intros comb l page q bs be out wr snt line hs r R L H.
  destruct (serve_one _ _ _ _ _) as [a k'] eqn:E. cbn [fst] in H. subst a.
  destruct (goes_on _ _ _ _ _ _ _ _ _ _ E) as (line' & ls & r' & hs' & rl & sc & _ & R' & _ & _ & _ & _ & N & _).
  rewrite R in R'. injection R' as <- <- _. contradiction.
Qed.
Print Assumptions C47_asked_to_close.

(** False: "close" in a list in a response is not noticed: the connection that the response said would be
    closed goes on. *)
Theorem C47_close_list_refuted : exists x' st',
  respond plain false (crlf ["HTTP/1.1 200 OK"; "Connection: keep-alive, close"; "Content-Length: 0"; ""]%string) = (RespOk false x' 200, st') /\
  x_closed x' = false /\ has_element "Connection" "close" [(lit "Connection", lit "keep-alive, close"); (lit "Content-Length", lit "0")].
Proof.
  do 2 eexists. split; [vm_compute; reflexivity|]. split; [reflexivity|].
  apply (existsb_element "Connection" "close" [(lit "Connection", lit "keep-alive, close"); (lit "Content-Length", lit "0")]); [discriminate|]. vm_compute. reflexivity.
Qed.
Print Assumptions C47_close_list_refuted.

(** False: a request answered locally (a redirect, for instance): its body stays in the input, as the next
    request. *)
Theorem C47_local_refuted : forall comb l page q bs line hs r m name g url f be out wr snt reply,
  http_request_read comb (map RByte bs) = RR_ok line hs (map RByte r) ->
  request_line line m url 1 -> method m name g -> g <= l_verb l -> no_limits l (l_verb l) ->
  ~ has_element "Connection" "close" (hfields hs) -> framing_of (hfields hs) f -> q_force q = false ->
  q_target q = T_local reply ST_OK ->
  serve_one comb l page q (mkConn (map RByte bs) be out wr snt) = (GoesOn, mkConn (map RByte r) None (out ++ reply) wr snt).
Proof. exact local_goes_on. Qed.
Print Assumptions C47_local_refuted.

(** The body of the first request is sent to a backend as the second one. *)
Definition smuggled : bytes := crlf ["GET /admin HTTP/1.1"; ""]%string.
Definition redirected : rqenv := mkQ false (T_local (crlf ["HTTP/1.1 302 Found"; "Content-Length: 0"; "Connection: close"; ""]%string) ST_OK) false [] None [] [] [] plain.
Definition forwarded : rqenv := mkQ false (T_new (map RByte (crlf ["HTTP/1.1 204 No"; ""]%string))) false [lit "GET /admin HTTP/1.1"] None [] [] [] plain.
Example C47_ex_local : exists k, serve [] (mkLsn 0 None 0 0) (fun _ => []) [redirected; forwarded]
    (mkConn (map RByte (crlf ["POST / HTTP/1.1"; "Content-Length: 23"; ""]%string ++ smuggled)) None [] [] []) = (GoesOn, k) /\
  k_in k = [] /\ k_sent k = [crlf ["GET /admin HTTP/1.1"; ""]%string] /\ Z.of_nat (length smuggled) = 23.
Proof. eexists. split; [vm_compute; reflexivity|]. vm_compute. auto. Qed.

(** False: after an interim response the connection to the backend is kept although the final response is still to come.
    If that arrives after the test for idle connections, it is taken as the answer to the next request. *)
Definition hints : rqenv := mkQ false (T_new (map RByte (crlf ["HTTP/1.1 103 Early Hints"; ""; "HTTP/1.1 200 OK"; "Content-Length: 1"; ""]%string ++ lit "1"))) false [lit "GET /1 HTTP/1.1"] None [] [] [] plain.
Definition second : rqenv := mkQ false T_same false [lit "GET /2 HTTP/1.1"] None [] [] [] plain.
Theorem C47_stale_refuted : exists k, serve [] (mkLsn 0 None 0 0) (fun _ => []) [hints; second]
    (mkConn (map RByte (crlf ["GET /1 HTTP/1.1"; ""; "GET /2 HTTP/1.1"; ""]%string)) None [] [] []) = (GoesOn, k) /\
  k_out k = crlf ["HTTP/1.1 103 Early Hints"; ""]%string ++ crlf ["HTTP/1.1 200 OK"; "Content-Length: 1"; ""]%string ++ lit "1" /\ k_be k = Some [].
Proof. eexists. split; [vm_compute; reflexivity|]. vm_compute. auto. Qed.
Print Assumptions C47_stale_refuted.

(** False: a body without announced end that begins late: the client is told nothing about its end, and the connection goes
    on; the body is read as the answer to the next request. *)
Definition slow : rqenv := mkQ false (T_new (map RByte (crlf ["HTTP/1.1 200 OK"; ""]%string ++ crlf ["HTTP/1.1 200 OK"; "Content-Length: 1"; ""]%string ++ lit "1"))) false [lit "GET /1 HTTP/1.1"] None [] [] [] late.
Theorem C47_timeout_refuted : exists k, serve [] (mkLsn 0 None 0 0) (fun _ => []) [slow]
    (mkConn (map RByte (crlf ["GET /1 HTTP/1.1"; ""; "GET /2 HTTP/1.1"; ""]%string)) None [] [] []) = (GoesOn, k) /\
  k_out k = crlf ["HTTP/1.1 200 OK"; ""]%string /\ k_be k = Some (map RByte (crlf ["HTTP/1.1 200 OK"; "Content-Length: 1"; ""]%string ++ lit "1")).
Proof. eexists. split; [vm_compute; reflexivity|]. vm_compute. auto. Qed.
Print Assumptions C47_timeout_refuted.
