(** Model of the passing back of responses: http_response_validate (src/http.c 3624-3650),
    backend_response (3652-4154), http_headers_send and http_request_send (3184-3210), and of the
    loop over the requests of one client connection: do_http (4605-4944), send_to_backend
    (4240-4316), local replies (28-82, 231-237).  Definitions only. *)
From Coq Require Import Ascii String List ZArith Bool.
From Verif Require Import Bytes ClenModel StreamModel TokModel ReqModel FrameModel.
Import ListNotations.
Open Scope Z_scope.

(** isdigit; value of a digit *)
Definition is_dig (c : byte) : bool := ("0"%char <=? c)%char && (c <=? "9"%char)%char.
Definition dig (c : byte) : Z := code c - 48.

(** src/http.c 3624-3650.  None is the return value 0; otherwise version and code.  The three
    characters are digits and are not followed by another one, so strtol gives their value. *)
Definition response_validate (s : bytes) : option (Z * Z) :=
  if negb (bytes_eqb (firstn 7 s) (lit "HTTP/1."%string)) then None
  else match skipn 7 s with
       | v :: w :: r =>
           if (beq v "0"%char || beq v "1"%char) && isws w then
             match trimwsl (w :: r) with
             | a :: b :: c :: r =>
                 if ("1"%char <=? a)%char && (a <=? "5"%char)%char && is_dig b && is_dig c
                    && match r with [] => true | d :: _ => isws d end
                 then Some (dig v, 100 * dig a + 10 * dig b + dig c)
                 else None
             | _ => None
             end
           else None
       | _ => None
       end.

(** The members of POUND_HTTP that backend_response reads and writes: no_cont, conn_closed, and of
    ws_state the three request bits together and the three response bits (src/pound.h 933-944). *)
Record exch := mkX {
  x_nocont : bool;
  x_closed : bool;
  x_wsreq : bool;
  x_101 : bool;
  x_wsc : bool;
  x_wsu : bool
}.

(** src/http.c 4610-4611, 4635-4638, 4669-4700: the exchange when the request has been read.
    [ws]: GET with the headers that ask for a websocket. *)
Definition start_exchange (to_head closed ws : bool) : exch := mkX to_head closed ws false false false.

Definition ws_complete (x : exch) : bool := x_wsreq x && x_101 x && x_wsc x && x_wsu x.

(** Codes after which no content is expected, src/http.c 3711-3725 (100 is treated separately). *)
Definition no_content_code (code : Z) : bool :=
  (code =? 101) || (code =? 204) || (code =? 304) || (code =? 305) || (code =? 306)
  || (negb (code =? 100) && (code / 100 =? 1)).

(** src/http.c 3697-3726 *)
Definition note_code (code : Z) (x : exch) : exch :=
  mkX (x_nocont x || no_content_code code) (x_closed x) (x_wsreq x)
      (x_101 x || (code =? 101)) (x_wsc x) (x_wsu x).

(** src/http.c 3728-3771, one header: exchange, [chunked], [content_length].  None: an invalid
    Content-Length makes the code free the header and then read its link to find the next one (3768
    inside the loop of 3730), which is undefined.  Location headers do not matter here. *)
Definition scan_response_header (a : exch * bool * Z) (h : header) : option (exch * bool * Z) :=
  let '(x, ck, cl) := a in
  let val := h_val h in
  match h_code h with
  | HEADER_CONNECTION =>
      Some (if ci_eqb (lit "close"%string) val
            then mkX (x_nocont x) true (x_wsreq x) (x_101 x) (x_wsc x) (x_wsu x)
            else if conn_upgrd val
            then mkX (x_nocont x) (x_closed x) (x_wsreq x) (x_101 x) true (x_wsu x)
            else x, ck, cl)
  | HEADER_UPGRADE =>
      Some (match cs_locate_token val (lit "websocket"%string) true with
            | Some _ => mkX (x_nocont x) (x_closed x) (x_wsreq x) (x_101 x) (x_wsc x) true
            | None => x
            end, ck, cl)
  | HEADER_TRANSFER_ENCODING =>
      match cs_locate_token val (lit "chunked"%string) true with
      | Some _ => Some (mkX false (x_closed x) (x_wsreq x) (x_101 x) (x_wsc x) (x_wsu x), true, cl)
      | None => Some (x, ck, cl)
      end
  | HEADER_CONTENT_LENGTH =>
      let n := get_content_length val CL_HEADER in
      if n =? NO_CONTENT_LENGTH then None else Some (x, ck, n)
  | _ => Some a
  end.

Fixpoint scan_response (a : exch * bool * Z) (hs : list header) : option (exch * bool * Z) :=
  match hs with
  | [] => Some a
  | h :: hs' => match scan_response_header a h with
                | None => None
                | Some a' => scan_response a' hs'
                end
  end.

(** src/http.c 3184-3210: a line and the headers, each with CR LF; stops at the first failure. *)
Fixpoint send_lines (ls : list bytes) (st : cstate) : bool * cstate :=
  match ls with
  | [] => (true, st)
  | l :: ls' => let '(ok, st) := bio_write (l ++ CRLF) st in
                if ok then send_lines ls' st else (false, st)
  end.

(** src/http.c 3958-4010: bytes up to the end of the input; a read error or retry ends the copy like
    end of file.  The code copies one byte at a time, then in blocks of up to MAXBUF bytes; here
    always one byte.  The results of the flushes in between are ignored. *)
Fixpoint copy_to_eof (src : list rd) (st : cstate) : bool * cstate :=
  match src with
  | RByte c :: src' =>
      let '(ok, st) := bio_write [c] st in
      if ok then copy_to_eof src' st else (false, set_src st src')
  | _ :: src' => (true, set_src st src')
  | [] => (true, set_src st [])
  end.

(** What the configuration and the environment contribute: names of combinable headers; response
    rewriting rules (None: failure); change of Location headers (see LocModel); whether the backend
    becomes readable in time; whether the websocket tunnel ends without a write error. *)
Record renv := mkE {
  e_comb : list bytes;
  e_rules : list header -> option (list header);
  e_loc : header -> header;
  e_ready : bool;
  e_tunnel : bool
}.

Inductive resp_result :=
| RespUB                                 (* undefined behaviour *)
| RespFuel
| RespErr (st : status)                  (* an HTTP status: the caller sends an error page *)
| RespAbort                              (* -1: the caller drops the connection *)
| RespOk (close_be : bool) (x : exch) (code : Z).

(** Body of the response, src/http.c 3900-4021.  Result: None or whether the backend connection is
    to be closed ([be_11] set to 0) and the exchange. *)
Inductive body_result := BodyUB | BodyFuel | BodyAbort | BodyOk (close_be : bool) (x : exch).

Definition flushed (close_be : bool) (x : exch) (st : cstate) : body_result * cstate :=
  let '(ok, st) := bio_write [] st in
  (if ok then BodyOk close_be x else BodyAbort, st).

Definition response_body (env : renv) (be_11 skip chunked : bool) (cl : Z) (x : exch) (st : cstate)
  : body_result * cstate :=
  if negb (x_nocont x) then
    if be_11 && chunked then
      match copy_chunks false skip 0 st with
      | (CR_OK, st) => flushed (negb be_11) x st
      | (CR_OVERFLOW, st) => (BodyUB, st)
      | (CR_FUEL, st) => (BodyFuel, st)
      | (_, st) => (BodyAbort, st)
      end
    else if 0 <=? cl then
      match copy_bin cl skip st with
      | Some (COPY_OK, st) => flushed (negb be_11) x st
      | Some (_, st) => (BodyAbort, st)
      | None => (BodyFuel, st)
      end
    else if negb skip then
      if e_ready env then
        let x := mkX (x_nocont x) true (x_wsreq x) (x_101 x) (x_wsc x) (x_wsu x) in
        let '(ok, st) := copy_to_eof (c_src st) st in
        if ok then flushed true x st else (BodyAbort, st)
      else flushed (negb be_11) x st
    else flushed (negb be_11) x st
  else if ws_complete x then
    (* 4007-4146: what passes through the tunnel is the subject of TunModel *)
    if e_tunnel env
    then (BodyOk true (mkX (x_nocont x) true (x_wsreq x) (x_101 x) (x_wsc x) (x_wsu x)), st)
    else (BodyAbort, st)
  else (BodyOk (negb be_11) x, st).

(** src/http.c 3655-4154.  One round of the loop per unit of fuel. *)
Fixpoint response_loop (fuel : nat) (env : renv) (skip : bool) (x : exch) (st : cstate)
  : resp_result * cstate :=
  match fuel with
  | O => (RespFuel, st)
  | S fuel' =>
      match http_request_read (e_comb env) (c_src st) with
      | RR_err e => (RespErr e, st)
      | RR_ok line hs rest =>
          let st := set_src st rest in
          match response_validate line with
          | None => (RespErr ST_503, st)
          | Some (ver, code) =>
              match e_rules env hs with
              | None => (RespErr ST_500, st)
              | Some hs =>
                  let be_11 := ver =? 1 in
                  let skip := skip || (code =? 100) in
                  match scan_response (note_code code x, false, NO_CONTENT_LENGTH) hs with
                  | None => (RespUB, st)
                  | Some (x, chunked, cl) =>
                      let '(ok, st) :=
                        if skip then (true, st)
                        else let '(ok, st) := send_lines (line :: map (fun h => h_text (e_loc env h)) hs) st in
                             if ok then (true, snd (bio_write CRLF st)) else (false, st) in
                      if negb ok then (RespAbort, st)
                      else
                        let '(ok, st) := bio_write [] st in
                        if negb ok then (RespAbort, st)
                        else
                          match response_body env be_11 skip chunked cl x st with
                          | (BodyUB, st) => (RespUB, st)
                          | (BodyFuel, st) => (RespFuel, st)
                          | (BodyAbort, st) => (RespAbort, st)
                          | (BodyOk close_be x, st) =>
                              if skip then response_loop fuel' env skip x st
                              else (RespOk close_be x code, st)
                          end
                  end
              end
          end
      end
  end.

(** Every round takes at least one event from the input, so the fuel is enough (proved). *)
Definition backend_response (env : renv) (x : exch) (st : cstate) : resp_result * cstate :=
  response_loop (S (length (c_src st))) env false x st.

(** ** The requests of one connection *)

(** What the environment decides about one request, in the order of do_http: is the idle connection
    to the backend readable (4842); which service and backend were found (4856-4869); is HTTP/1.0 to
    be forced (4878). *)
Inductive target :=
| T_none (st : status)                        (* no service or no backend: reply and return *)
| T_local (reply : bytes) (st : status)       (* redirect, ACME, control, error page, metrics:
                                                 what is written and the value returned *)
| T_local_abort                               (* -1 from metrics or control *)
| T_same                                      (* a regular backend, the one already connected *)
| T_new (src : list rd).                      (* a regular backend, newly connected: what it will send *)

Record rqenv := mkQ {
  q_idle : bool;
  q_target : target;
  q_force : bool;
  q_head : list bytes;                        (* lines sent to the backend, or *)
  q_head_err : option status;                 (* failure to compose them, 4170-4247 *)
  q_plan : list rdplan;                       (* reads from the client, writes to the backend, *)
  q_wr : list bool;
  q_rplan : list rdplan;                      (* reads from the backend *)
  q_resp : renv
}.

(** State of a connection: input from the client; what the connected backend has yet to send; bytes
    written to the client and the plan of these writes; for every backend connection, oldest
    first, what was written to it. *)
Record conn := mkConn {
  k_in : list rd;
  k_be : option (list rd);
  k_out : bytes;
  k_wr : list bool;
  k_sent : list bytes
}.

(** Append to what was written to the latest backend connection. *)
Fixpoint add_sent (l : list bytes) (b : bytes) : list bytes :=
  match l with
  | [] => []
  | [a] => [a ++ b]
  | a :: l' => a :: add_sent l' b
  end.

Definition status_of (c : chunk_result) : status :=
  match c with CR_OK => ST_OK | CR_BAD_REQUEST => ST_400 | CR_TOO_LARGE => ST_413 | _ => ST_500 end.

(** src/http.c 4240-4316, from the client connection; None: undefined behaviour or out of fuel. *)
Definition send_request (q : rqenv) (maxreq : Z) (r : relay) (st : cstate) : option (status * cstate) :=
  match q_head_err q with
  | Some e => Some (e, st)
  | None =>
      let '(ok, st) := send_lines (q_head q) st in
      if negb ok then Some (ST_500, st)
      else
        let st := snd (bio_write CRLF st) in
        let flush (st : cstate) := let '(ok, st) := bio_write [] st in
                                   Some (if ok then ST_OK else ST_500, st) in
        match r with
        | RelayChunks =>
            match copy_chunks false false maxreq st with
            | (CR_OK, st) => flush st
            | (CR_OVERFLOW, _) | (CR_FUEL, _) => None
            | (c, st) => Some (status_of c, st)
            end
        | RelayLength n =>
            match copy_bin n false st with
            | Some (COPY_OK, st) => flush st
            | Some (_, st) => Some (ST_500, st)
            | None => None
            end
        | RelayNothing => flush st
        end
  end.

(** How a request ended: the connection is finished (an error page may have been sent), or goes on. *)
Inductive after := Gone | Stopped | GoesOn | Undefined.

(** The error page, src/http.c 173-237: its text is an argument; writes are not checked. *)
Definition put (b : bytes) (k : conn) : conn := mkConn (k_in k) (k_be k) (k_out k ++ b) (k_wr k) (k_sent k).

Definition is_method (rl : reqline) (m : string) : bool := bytes_eqb (rl_method rl) (lit m).

(** src/http.c 4605-4944: one round of the loop of do_http.  [page st]: the error page. *)
Definition serve_one (comb : list bytes) (l : lsn) (page : status -> bytes) (q : rqenv) (k : conn)
  : after * conn :=
  match http_request_read comb (k_in k) with
  | RR_err _ => (Gone, k)
  | RR_ok line hs rest =>
      let k := mkConn rest (k_be k) (k_out k) (k_wr k) (k_sent k) in
      match check_request l line hs with
      | inl st => (Stopped, put (page st) k)
      | inr (rl, sc) =>
          let x := start_exchange (is_method rl "HEAD") (sc_closed sc || q_force q)
                       (is_method rl "GET" && sc_ws_conn sc && sc_ws_upg sc) in
          let k := mkConn (k_in k) (if q_idle q then None else k_be k) (k_out k) (k_wr k) (k_sent k) in
          let finish (closed : bool) (k : conn) :=
            (if (rl_version rl =? 1) && negb closed then GoesOn else Stopped, k) in
          let regular (src : list rd) (k : conn) :=
            match send_request q (l_max_req l) (body_relay rl sc) (mkC (k_in k) (q_plan q) (q_wr q) [] 0) with
            | None => (Undefined, k)
            | Some (st, c1) =>
                let k := mkConn (c_src c1) (Some src) (k_out k) (k_wr k) (add_sent (k_sent k) (c_out c1)) in
                match st with
                | ST_OK =>
                    match backend_response (q_resp q) x (mkC src (q_rplan q) (k_wr k) (k_out k) 0) with
                    | (RespUB, _) | (RespFuel, _) => (Undefined, k)
                    | (RespErr e, c2) =>
                        finish true (put (page e) (mkConn (k_in k) (Some (c_src c2)) (c_out c2) (c_wr c2) (k_sent k)))
                    | (RespAbort, c2) =>
                        (Stopped, mkConn (k_in k) (Some (c_src c2)) (c_out c2) (c_wr c2) (k_sent k))
                    | (RespOk close_be x _, c2) =>
                        finish (x_closed x)
                          (mkConn (k_in k) (if close_be then None else Some (c_src c2))
                                  (c_out c2) (c_wr c2) (k_sent k))
                    end
                | e => finish true (put (page e) k)
                end
            end in
          match q_target q, k_be k with
          | T_none st, _ => (Stopped, put (page st) k)
          | T_local reply ST_OK, _ =>
              finish (x_closed x) (put reply (mkConn (k_in k) None (k_out k) (k_wr k) (k_sent k)))
          | T_local reply st, _ =>
              finish true (put (page st) (put reply (mkConn (k_in k) None (k_out k) (k_wr k) (k_sent k))))
          | T_local_abort, _ => (Stopped, mkConn (k_in k) None (k_out k) (k_wr k) (k_sent k))
          | T_same, Some src => regular src k
          | T_same, None => (Stopped, put (page ST_503) k)   (* not possible: no connection to keep *)
          | T_new src, _ => regular src (mkConn (k_in k) (k_be k) (k_out k) (k_wr k) (k_sent k ++ [[]]))
          end
      end
  end.

(** The loop: one entry of the environment per request. *)
Fixpoint serve (comb : list bytes) (l : lsn) (page : status -> bytes) (qs : list rqenv) (k : conn)
  : after * conn :=
  match qs with
  | [] => (GoesOn, k)
  | q :: qs' => match serve_one comb l page q k with
                | (GoesOn, k) => serve comb l page qs' k
                | r => r
                end
  end.
