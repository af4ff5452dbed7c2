(** Model of the replies Pound makes itself: src/http.c 28-237, 862-897, 977-1132, 3184-3200,
    src/metrics.c 866-880, src/svc.c 2397-2437.  Definitions only.

    Output goes through [bio_write] of StreamModel; the results of BIO_printf are
    not looked at by the code.  The client version is 0 or 1. *)
From Coq Require Import Ascii String List ZArith Bool.
From Verif Require Import Bytes ReqModel XpdModel CondModel LogModel StreamModel.
Import ListNotations.
Open Scope Z_scope.

(** The output of a sequence of BIO_printf, BIO_write and BIO_flush calls. *)
Definition put_all (l : list bytes) (st : cstate) : cstate :=
  fold_left (fun st d => snd (bio_write d st)) l st.

Definition QUOTE : byte := ascii_of_N 34.

(** ** Status codes *)

(** src/pound.h 260-274 *)
Definition HTTP_STATUS_OK : Z := 0.
Definition HTTP_STATUS_NOT_FOUND : Z := 4.
Definition HTTP_STATUS_INTERNAL_SERVER_ERROR : Z := 8.
Definition HTTP_STATUS_MAX : Z := 11.

(** src/http.c 94-155 *)
Record http_status := mkHs { hs_code : Z; hs_reason : bytes; hs_text : bytes }.
Definition http_statuses : list http_status :=
  map (fun x => mkHs (fst (fst x)) (lit (snd (fst x))) (lit (snd x)))
  [ (200, "OK", "Success");
    (400, "Bad Request", "Your browser (or proxy) sent a request that this server could not understand.");
    (401, "Unauthorized", "This server could not verify that you are authorized to access the document requested.  Either you supplied the wrong credentials (e.g., bad password), or your browser doesn't understand how to supply the credentials required.");
    (403, "Forbidden", "You don't have permission to access this resource. It is either read-protected or not readable by the server.");
    (404, "Not Found", "The requested URL was not found on this server.");
    (405, "Method Not Allowed", "The request method is not supported for the requested resource.");
    (413, "Payload Too Large", "The request content is larger than the proxy server is able to process.");
    (414, "URI Too Long", "The length of the requested URL exceeds the capacity limit for this server.");
    (500, "Internal Server Error", "The server encountered an internal error and was unable to complete your request.");
    (501, "Not Implemented", "The server does not support the action requested.");
    (503, "Service Unavailable", "The server is temporarily unable to service your request due to maintenance downtime or capacity problems. Please try again later.")
  ]%string.

(** http_status[err], for 0 <= err < HTTP_STATUS_MAX *)
Definition status_entry (err : Z) : http_status :=
  nth (Z.to_nat err) http_statuses (mkHs 0 [] []).

(** src/http.c 172-181: the first entry with that code, or -1 *)
Fixpoint find_status (l : list http_status) (i status : Z) : Z :=
  match l with
  | [] => -1
  | h :: l' => if hs_code h =? status then i else find_status l' (i + 1) status
  end.
Definition http_status_to_pound (status : Z) : Z := find_status http_statuses 0 status.

(** src/http.c 183-189, and the same test in 201-205 *)
Definition clamp_err (err : Z) : Z :=
  if (0 <=? err) && (err <? HTTP_STATUS_MAX) then err else HTTP_STATUS_INTERNAL_SERVER_ERROR.
Definition pound_to_http_status (err : Z) : Z := hs_code (status_entry (clamp_err err)).

(** ** Replies *)

(** src/http.c 31-48.  [headers] is NULL or text with its own line ends. *)
Definition reply_start (proto code : Z) (text : bytes) (headers : option bytes) (type : bytes) (len : Z)
  : list bytes :=
  [lit "HTTP/1."%string ++ fmt_ld proto ++ [SP] ++ fmt_ld code ++ [SP] ++ text ++ CRLF
     ++ lit "Content-Type: "%string ++ type ++ CRLF]
  ++ (if proto =? 1
      then [lit "Content-Length: "%string ++ fmt_ld len ++ CRLF ++ lit "Connection: close"%string ++ CRLF]
      else [])
  ++ [match headers with Some h => h | None => [] end ++ CRLF].

(** src/http.c 73-82: the writes and the flush *)
Definition http_reply (proto code : Z) (text : bytes) (headers : option bytes) (type content : bytes)
  : list bytes :=
  reply_start proto code text headers type (Z.of_nat (length content)) ++ [content; []].

(** src/http.c 157-160 *)
Definition err_headers : bytes :=
  lit "Expires: now"%string ++ CRLF ++ lit "Pragma: no-cache"%string ++ CRLF
  ++ lit "Cache-control: no-cache,no-store"%string ++ CRLF.

(** src/http.c 162-170, with the arguments of lines 210-214 *)
Definition default_error_page (h : http_status) : bytes :=
  lit "<!DOCTYPE HTML PUBLIC "%string ++ [QUOTE] ++ lit "-//IETF//DTD HTML 2.0//EN"%string ++ [QUOTE]
  ++ lit "><html><head><title>"%string ++ fmt_ld (hs_code h) ++ [SP] ++ hs_reason h
  ++ lit "</title></head><body><h1>"%string ++ hs_reason h ++ lit "</h1><p>"%string ++ hs_text h
  ++ lit "</p></body></html>"%string.

(** src/http.c 197-221; allocation failures are not modelled *)
Definition err_reply (proto err : Z) (content : option bytes) : list bytes :=
  let h := status_entry (clamp_err err) in
  let page := match content with Some c => c | None => default_error_page h end in
  http_reply proto (hs_code h) (hs_reason h) (Some err_headers) (lit "text/html"%string) page.

(** src/http.c 231-237.  [http_err] gives the error pages of the listener. *)
Definition http_err_reply (proto err : Z) (http_err : Z -> option bytes) (st : cstate) : cstate :=
  put_all (err_reply proto err (http_err err)) st.

(** src/http.c 877-891: the reply to a redirect, once redirect_response (XpdModel) has made its parts *)
Definition redirect_reply (proto code : Z) (reason location body : bytes) : list bytes :=
  http_reply proto code reason (Some location) (lit "text/html"%string) body.

(** src/metrics.c 866-880 *)
Definition metrics_reply (proto : Z) (content : bytes) : list bytes :=
  [lit "HTTP/1."%string ++ fmt_ld proto ++ [SP] ++ fmt_ld 200 ++ [SP] ++ lit "OK"%string ++ CRLF
   ++ lit "Content-Type: application/openmetrics-text; version=1.0.0; charset=utf-8"%string ++ CRLF
   ++ lit "Content-Length: "%string ++ fmt_ld (Z.of_nat (length content)) ++ CRLF
   ++ CRLF ++ content; []].

(** src/svc.c 2428-2435 *)
Definition json_reply (str : bytes) : list bytes :=
  [lit "HTTP/1.1 "%string ++ fmt_ld 200 ++ [SP] ++ lit "OK"%string ++ CRLF
   ++ lit "Content-Type: application/json"%string ++ CRLF
   ++ lit "Content-Length: "%string ++ fmt_ld (Z.of_nat (length str)) ++ CRLF
   ++ lit "Connection: close"%string ++ CRLF ++ CRLF ++ str; []].

(** ** Error backends *)

Definition not_eol (c : byte) : bool := negb (beq c CR || beq c LF).
Definition skip_byte (c : byte) (s : bytes) : bytes :=
  match s with x :: s' => if beq x c then s' else s | [] => [] end.

(** src/http.c 1051-1083.  None is the return value -1; the fuel is the length of the text. *)
Fixpoint parse_header_text (fuel : nat) (head : list header) (text : bytes) : option (list header) :=
  match fuel with
  | O => Some head
  | S fuel' =>
      match span not_eol text with
      | ([], _) => Some head
      | (hdr, rest) =>
          let '(rc, head) := http_header_list_append head hdr H_REPLACE in
          if rc =? 0 then parse_header_text fuel' head (skip_byte LF (skip_byte CR rest)) else None
      end
  end.

(** src/http.c 3184-3200 with safe = 1; the loop ends at the first failure *)
Definition unsafe_header (h : header) : bool :=
  match h_code h with HEADER_CONTENT_LENGTH | HEADER_CONNECTION => true | _ => false end.
Fixpoint headers_send_safe (head : list header) (st : cstate) : cstate :=
  match head with
  | [] => st
  | h :: head' =>
      if unsafe_header h then headers_send_safe head' st
      else
        let '(ok, st) := bio_write (h_text h ++ CRLF) st in
        if ok then headers_send_safe head' st else st
  end.

(** src/http.c 52-66 *)
Definition reply_start_list (proto code : Z) (text : bytes) (head : list header) (len : Z) (st : cstate)
  : cstate :=
  let st := put_all ([lit "HTTP/1."%string ++ fmt_ld proto ++ [SP] ++ fmt_ld code ++ [SP] ++ text ++ CRLF]
    ++ (if proto =? 1
        then [lit "Content-Length: "%string ++ fmt_ld len ++ CRLF ++ lit "Connection: close"%string ++ CRLF]
        else [])) st in
  put_all [CRLF] (headers_send_safe head st).

(** src/http.c 1085-1132: Pound status and the state.  [err] is valid, see C51_codes.  [rules] is the
    application of the response rules of the service and of the listener; None: one of them failed.
    copy_bin reads from memory, which holds all of [text]. *)
Definition error_response (proto err : Z) (text : option bytes) (http_err : Z -> option bytes)
    (rules : list header -> option (list header)) (st : cstate) : Z * cstate :=
  let h := status_entry err in
  let text := match text with
              | Some t => t
              | None => match http_err err with Some t => t | None => hs_text h end
              end in
  match parse_header_text (length err_headers) [] err_headers with
  | None => (HTTP_STATUS_INTERNAL_SERVER_ERROR, st)
  | Some hs =>
      match rules hs with
      | None => (HTTP_STATUS_INTERNAL_SERVER_ERROR, st)
      | Some hs =>
          let len := Z.of_nat (length text) in
          let st := reply_start_list proto (hs_code h) (hs_reason h) hs len st in
          match copy_bin len false (mkC (map RByte text) [] (c_wr st) (c_out st) (c_cnt st)) with
          | Some (_, st') =>
              (0, put_all [[]] (mkC (c_src st) (c_plan st) (c_wr st') (c_out st') (c_cnt st)))
          | None => (0, st) (* out of fuel, which does not happen *)
          end
      end
  end.

(** What do_http does with the status of a local reply (src/http.c 4921-4937): the error reply, and
    whether phttp->conn_closed gets set by it. *)
Definition finish_local (proto : Z) (http_err : Z -> option bytes) (r : Z * cstate) : bool * cstate :=
  let '(res, st) := r in
  if res =? HTTP_STATUS_OK then (false, st) else (true, http_err_reply proto res http_err st).

(** ** Files *)

(** The part of the file system that matters: directories with named entries, regular files and
    symbolic links.  Pipes, devices, mount points and changes during a request are not modelled. *)
Inductive node := NFile (content : bytes) | NDir (entries : list (bytes * node)) | NLink (target : bytes).

Fixpoint entry (l : list (bytes * node)) (name : bytes) : option node :=
  match l with
  | [] => None
  | (n, x) :: l' => if bytes_eqb n name then Some x else entry l' name
  end.

(** The node at a location, given by the names on the way from the root. *)
Fixpoint node_at (n : node) (loc : list bytes) : option node :=
  match loc with
  | [] => Some n
  | c :: loc' =>
      match n with
      | NDir l => match entry l c with Some n' => node_at n' loc' | None => None end
      | _ => None
      end
  end.

Definition SLASH : byte := "/"%char.

(** The components of a path; a leading or doubled slash gives an empty one. *)
Fixpoint components (s : bytes) : list bytes :=
  match s with
  | [] => [[]]
  | c :: s' =>
      if beq c SLASH then [] :: components s'
      else match components s' with
           | x :: l => (c :: x) :: l
           | [] => [[c]]
           end
  end.

Inductive errno := ENOENT | ENOTDIR | ELOOP | EACCES | ENAMETOOLONG | EFAULT.
Inductive opened := Opened (loc : list bytes) (n : node) | Failed (e : errno).

Definition DOT : bytes := lit "."%string.
Definition DOTDOT : bytes := lit ".."%string.
(** NAME_MAX, PATH_MAX and the number of links followed (Linux) *)
Definition NAME_MAX : nat := 255.
Definition PATH_MAX : Z := 4096.
Definition MAXSYMLINKS : nat := 40.

(** path_resolution(7), for open with O_RDONLY.  [cur] is the location reached. *)
Fixpoint walk (links : nat) (root : node) : list bytes -> list bytes -> opened :=
  fix steps (cur comps : list bytes) : opened :=
    match comps with
    | [] => match node_at root cur with Some n => Opened cur n | None => Failed ENOENT end
    | c :: comps' =>
        match node_at root cur with
        | Some (NDir l) =>
            if bytes_eqb c [] || bytes_eqb c DOT then steps cur comps'
            else if bytes_eqb c DOTDOT then steps (removelast cur) comps'
            else if Nat.ltb NAME_MAX (length c) then Failed ENAMETOOLONG
            else
              match entry l c with
              | None => Failed ENOENT
              | Some (NLink t) =>
                  match links with
                  | O => Failed ELOOP
                  | S links' =>
                      walk links' root (if starts SLASH t then [] else cur) (components t ++ comps')
                  end
              | Some _ => steps (cur ++ [c]) comps'
              end
        | _ => Failed ENOTDIR
        end
    end.

(** openat (wd, name, O_RDONLY); [readable]: the permissions allow it.  The search permission of
    directories is not modelled. *)
Definition openat (root : node) (readable : list bytes -> bool) (wd : list bytes) (name : bytes) : opened :=
  match name with
  | [] => Failed ENOENT
  | _ =>
      if PATH_MAX <=? Z.of_nat (length name) then Failed ENAMETOOLONG
      else
        match walk MAXSYMLINKS root (if starts SLASH name then [] else wd) (components name) with
        | Opened loc n => if readable loc then Opened loc n else Failed EACCES
        | x => x
        end
  end.

(** fstat: st_size.  What it is for a directory depends on the file system; the usual value is taken. *)
Definition st_size (n : node) : Z :=
  match n with NFile c => Z.of_nat (length c) | _ => 4096 end.
(** What read gives: the contents; for a directory, EISDIR. *)
Definition contents (n : node) : list rd :=
  match n with NFile c => map RByte c | _ => [RErr] end.

(** ** ACME *)

(** src/config.c 2709: the expression ^/\.well-known/acme-challenge/(.+), as regexec matches it *)
Definition acme_prefix : bytes := lit "/.well-known/acme-challenge/"%string.
Definition acme_pattern : pattern := fun s =>
  if bytes_eqb (firstn (length acme_prefix) s) acme_prefix && Nat.ltb (length acme_prefix) (length s)
  then Some [(0, Z.of_nat (length s)); (Z.of_nat (length acme_prefix), Z.of_nat (length s))]
  else None.

(** src/config.c 2733-2741: the condition of the service *)
Definition acme_cond : cond := COND_BOOL BOOL_AND [COND_URL acme_pattern].

Inductive lres := LRes (status : Z) (st : cstate) | LUndef (u : ub).

(** src/http.c 998-1047: open and send the file.  The output is the client's; the file has its own
    source.  fstat does not fail on an open file. *)
Definition send_file (proto : Z) (r : opened) (st : cstate) : Z * cstate :=
  match r with
  | Failed ENOENT => (HTTP_STATUS_NOT_FOUND, st)
  | Failed _ => (HTTP_STATUS_INTERNAL_SERVER_ERROR, st)
  | Opened _ n =>
      let st := put_all (reply_start proto 200 (lit "OK"%string) None (lit "text/html"%string) (st_size n)) st in
      match copy_bin (st_size n) false (mkC (contents n) [] (c_wr st) (c_out st) (c_cnt st)) with
      | Some (ec, st') =>
          (match ec with COPY_OK => HTTP_STATUS_OK | _ => HTTP_STATUS_INTERNAL_SERVER_ERROR end,
           put_all [[]] (mkC (c_src st) (c_plan st) (c_wr st') (c_out st') (c_cnt st)))
      | None => (HTTP_STATUS_INTERNAL_SERVER_ERROR, st) (* out of fuel, which does not happen *)
      end
  end.

(** src/http.c 977-1049.  [lstn] and [svc] are the request rules of the listener and of the service. *)
Definition acme_response (e : env) (lstn svc : list rrule) (root : node) (readable : list bytes -> bool)
    (wd : list bytes) (proto : Z) (ph : phttp) (st : cstate) : lres :=
  match rewrite_apply e lstn ph with
  | CUndef u => LUndef u
  | CRes r ph =>
      if negb (r =? 0) then LRes HTTP_STATUS_INTERNAL_SERVER_ERROR st
      else match rewrite_apply e svc ph with
           | CUndef u => LUndef u
           | CRes r ph =>
               if negb (r =? 0) then LRes HTTP_STATUS_INTERNAL_SERVER_ERROR st
               else match expand_url (lit "$1"%string) ph true with
                    | SUndef u => LUndef u
                    | SNull _ => let '(s, st) := send_file proto (Failed EFAULT) st in LRes s st
                    | SOk name _ =>
                        let '(s, st) := send_file proto (openat root readable wd name) st in LRes s st
                    end
           end
  end.
