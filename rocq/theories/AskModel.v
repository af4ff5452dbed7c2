(** Model of src/poundctl.c, second part: what poundctl asks for (580-647, 835-1080, 1431-1442).
    Definitions only.  Texts contain no null character, writing does not fail. *)
From Coq Require Import Ascii String List ZArith Bool.
From Verif Require Import Bytes NumModel.
From Verif Require PtlModel ReqModel CtlModel StreamModel.
Import ListNotations.
Local Open Scope string_scope.
Local Open Scope list_scope.
Local Open Scope Z_scope.

(** ** Arguments *)

(** oi_getn, 588-606, on the text after the slash: the number and the rest; None: a message and exit (1) *)
Definition oi_getn (uri : bytes) (backend : bool) : option (Z * bytes) :=
  let '(errno, n, p) := strtol uri 10 in
  if errno || (n <? 0) || (INT_MAX <? n) then None
  else match p with
       | [] => Some (n, [])
       | c :: _ => if negb backend && beq c "/" then Some (n, p) else None
       end.

(** check_uri, 607-647: which objid is the last *)
Inductive level := Listener | Service | Backend.
Definition check_uri (uri : bytes) : option level :=
  match uri with
  | c :: uri =>
      if negb (beq c "/") then None
      else
        let first := match uri with
                     | d :: uri' => if beq d "-" then Some uri' else option_map snd (oi_getn uri false)
                     | [] => option_map snd (oi_getn uri false)
                     end in
        match first with
        | None => None
        | Some [] => Some Listener
        | Some (d :: uri) =>
            if negb (beq d "/") then None
            else match oi_getn uri false with
                 | None => None
                 | Some (_, []) => Some Service
                 | Some (_, _ :: uri) => match oi_getn uri true with None => None | Some _ => Some Backend end
                 end
        end
  | [] => None
  end.

(** ** The request *)

(** What the filter BIO_f_base64 of OpenSSL writes: lines of 64 characters for each 48 bytes, and a last one *)
Definition alphabet : bytes := lit "ABCDEFGHIJKLMNOPQRSTUVWXYZabcdefghijklmnopqrstuvwxyz0123456789+/".
Definition sextet (n : Z) : byte := nth (Z.to_nat n) alphabet NUL.
Fixpoint encode_block (s : bytes) : bytes :=
  match s with
  | a :: b :: c :: s =>
      let n := code a * 65536 + code b * 256 + code c in
      sextet (n / 262144) :: sextet (n / 4096 mod 64) :: sextet (n / 64 mod 64) :: sextet (n mod 64) :: encode_block s
  | [a; b] =>
      let n := code a * 65536 + code b * 256 in
      [sextet (n / 262144); sextet (n / 4096 mod 64); sextet (n / 64 mod 64); "="%char]
  | [a] => let n := code a * 65536 in [sextet (n / 262144); sextet (n / 4096 mod 64); "="%char; "="%char]
  | [] => []
  end.
Fixpoint encode_lines (fuel : nat) (s : bytes) : bytes :=
  match fuel, s with
  | S fuel, _ :: _ => encode_block (firstn 48 s) ++ [LF] ++ encode_lines fuel (skipn 48 s)
  | _, _ => []
  end.
(** 862-872: of it as much as fits the buffer, without the last character *)
Definition credentials (user pass : bytes) : bytes :=
  let s := user ++ lit ":" ++ pass in
  let iobuf := firstn PtlModel.MAXBUF (encode_lines (length s) s) in
  firstn (length iobuf - 1) iobuf.

(** send_request, 835-878; a password without a user does not occur *)
Definition send_request (u : PtlModel.url) (method target : bytes) : bytes :=
  method ++ lit " " ++ PtlModel.path u ++ lit "/" ++ target ++ lit " HTTP/1.1" ++ CRLF
  ++ lit "Host: " ++ PtlModel.host u ++ CRLF
  ++ match PtlModel.pass u with
     | Some p => lit "Authorization: Basic " ++ credentials (match PtlModel.user u with Some n => n | None => [] end) p ++ CRLF
     | None => []
     end
  ++ CRLF.

(** ** Commands *)

(** 1049-1080 *)
Inductive command := List_ | Disable | Enable | Delete_session | Add_session.
Definition dispatch : list (bytes * command) :=
  [(lit "list", List_); (lit "disable", Disable); (lit "off", Disable); (lit "enable", Enable); (lit "on", Enable);
   (lit "delete", Delete_session); (lit "del", Delete_session); (lit "add", Add_session)].
Definition find_command (name : bytes) : option command :=
  option_map snd (find (fun p => bytes_eqb (fst p) name) dispatch).

(** What is sent, up to the answer: command_list 880-891, command_on_off 911-927, command_delete_session 955-987,
    command_add_session 1005-1030; None: a message and a failure *)
Definition run (u : PtlModel.url) (c : command) (argv : list bytes) : option bytes :=
  match c, argv with
  | List_, [] => Some (send_request u (lit "GET") (lit "listener" ++ lit "/"))
  | List_, [uri] => Some (send_request u (lit "GET") (lit "listener" ++ uri))
  | Disable, [uri] => Some (send_request u (lit "DELETE") (lit "listener" ++ uri))
  | Enable, [uri] => Some (send_request u (lit "PUT") (lit "listener" ++ uri))
  | Delete_session, [uri; key] =>
      match check_uri uri with
      | Some Service => Some (send_request u (lit "DELETE") (lit "session" ++ uri ++ lit "?key=" ++ key))
      | _ => None
      end
  | Add_session, [uri; key] =>
      match check_uri uri with
      | Some Backend => Some (send_request u (lit "PUT") (lit "session" ++ uri ++ lit "?key=" ++ key))
      | _ => None
      end
  | _, _ => None
  end.
(** main, 1431-1446, without what C66 models *)
Definition ask (u : PtlModel.url) (argv : list bytes) : option bytes :=
  match argv with
  | [] => run u List_ []
  | name :: argv => match find_command name with Some c => run u c argv | None => None end
  end.

(** ** The daemon *)

(** What pound makes of it on a control socket: the head is read (http.c 2667-2808), the request line parsed (http.c 2931-2984,
    methods up to DELETE are allowed, config.c 4266), and the request carried out (svc.c 3009-3020).  Services, their conditions and
    rewriting of the URL are left out: parse_control_listener makes none.  The headers are given too. *)
Definition meth_of (name : bytes) : CtlModel.meth :=
  if bytes_eqb name (lit "GET") then CtlModel.GET else if bytes_eqb name (lit "PUT") then CtlModel.PUT
  else if bytes_eqb name (lit "DELETE") then CtlModel.DELETE else CtlModel.OTHER.
Definition served (c : CtlModel.config) (bs : bytes) : option (list ReqModel.header * (CtlModel.effect * CtlModel.reply)) :=
  match ReqModel.http_request_read [] (map StreamModel.RByte bs) with
  | ReqModel.RR_ok line headers [] =>
      match ReqModel.parse_http_request line 1 with
      | (ReqModel.ST_OK, Some r) => Some (headers, CtlModel.control_response_basic c (meth_of (ReqModel.rl_method r)) (ReqModel.rl_url r))
      | _ => None
      end
  | _ => None
  end.
