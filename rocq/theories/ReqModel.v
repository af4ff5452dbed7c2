(** Model of request-line and header handling of src/http.c: methods table
    (1664-1719), qualify_header (1878-1923), header values (1978-2013),
    header list search and editing (2015-2161), reading a message head
    (2600-2808), parse_http_request (2931-2984).  Definitions only. *)
From Coq Require Import Ascii String List ZArith Bool.
From Verif Require Import Bytes ClenModel StreamModel.
Import ListNotations.
Open Scope Z_scope.

(** src/http.c 1672-1706.  The C table also carries the METH_ constant; here a
    method is identified by its table index. *)
Definition methods : list (bytes * Z) :=
  [ (lit "GET", 0); (lit "POST", 0); (lit "HEAD", 0);
    (lit "PUT", 1); (lit "PATCH", 1); (lit "DELETE", 1);
    (lit "LOCK", 2); (lit "UNLOCK", 2); (lit "PROPFIND", 2); (lit "PROPPATCH", 2);
    (lit "SEARCH", 2); (lit "MKCOL", 2); (lit "MOVE", 2); (lit "COPY", 2);
    (lit "OPTIONS", 2); (lit "TRACE", 2); (lit "MKACTIVITY", 2); (lit "CHECKOUT", 2);
    (lit "MERGE", 2); (lit "REPORT", 2);
    (lit "SUBSCRIBE", 3); (lit "UNSUBSCRIBE", 3); (lit "BPROPPATCH", 3); (lit "POLL", 3);
    (lit "BMOVE", 3); (lit "BCOPY", 3); (lit "BDELETE", 3); (lit "BPROPFIND", 3);
    (lit "NOTIFY", 3); (lit "CONNECT", 3) ]%string.

(** src/http.c 1708-1719: first entry of equal length and equal text, ignoring
    case.  Result: (name in the table, group). *)
Fixpoint find_method_in (tab : list (bytes * Z)) (str : bytes) : option (bytes * Z) :=
  match tab with
  | [] => None
  | (name, group) :: tab' =>
      if Nat.eqb (length str) (length name) && ci_eqb name str then Some (name, group)
      else find_method_in tab' str
  end.
Definition find_method (str : bytes) := find_method_in methods str.

(** src/http.c: pound status numbers used here *)
Inductive status := ST_OK | ST_400 | ST_405 | ST_500 | ST_501 | ST_413 | ST_414 | ST_503.

Record reqline := mkRL { rl_method : bytes; rl_url : bytes; rl_version : Z }.

Definition not_space (c : byte) : bool := negb (beq c SP).
Definition a_space (c : byte) : bool := beq c SP.

(** src/http.c 2931-2984.  Out of memory is not modelled.  The fields of the
    request are set only with status OK. *)
Definition parse_http_request (request : bytes) (group : Z) : status * option reqline :=
  let '(meth, str) := span not_space request in
  match meth with
  | [] => (ST_400, None)
  | _ =>
      match find_method meth with
      | None => (ST_400, None)
      | Some (name, mgroup) =>
          let st := if group <? mgroup then ST_405 else ST_OK in
          let str := snd (span a_space str) in
          match str with
          | [] => (ST_400, None)
          | _ =>
              let '(url, str) := span not_space str in
              let str := snd (span a_space str) in
              match bytes_eqb (firstn 7 str) (lit "HTTP/1."), skipn 7 str with
              | true, [v] =>
                  if beq v "0"%char || beq v "1"%char then
                    match st with
                    | ST_OK => (ST_OK, Some (mkRL name url (code v - 48)))
                    | _ => (st, None)
                    end
                  else (ST_400, None)
              | _, _ => (ST_400, None)
              end
          end
      end
  end.

(** ** Headers *)

(** src/pound.h HEADER_ codes *)
Inductive hcode :=
  HEADER_ILLEGAL | HEADER_OTHER | HEADER_TRANSFER_ENCODING | HEADER_CONTENT_LENGTH
| HEADER_CONNECTION | HEADER_LOCATION | HEADER_CONTLOCATION | HEADER_HOST
| HEADER_REFERER | HEADER_USER_AGENT | HEADER_DESTINATION | HEADER_EXPECT
| HEADER_UPGRADE | HEADER_AUTHORIZATION.

(** src/http.c 1887-1903 *)
Definition hd_types : list (bytes * hcode) :=
  [ (lit "Transfer-encoding", HEADER_TRANSFER_ENCODING);
    (lit "Content-length", HEADER_CONTENT_LENGTH);
    (lit "Connection", HEADER_CONNECTION);
    (lit "Location", HEADER_LOCATION);
    (lit "Content-location", HEADER_CONTLOCATION);
    (lit "Host", HEADER_HOST);
    (lit "Referer", HEADER_REFERER);
    (lit "User-agent", HEADER_USER_AGENT);
    (lit "Destination", HEADER_DESTINATION);
    (lit "Expect", HEADER_EXPECT);
    (lit "Upgrade", HEADER_UPGRADE);
    (lit "Authorization", HEADER_AUTHORIZATION) ]%string.

Fixpoint find_hd_type (tab : list (bytes * hcode)) (name : bytes) : hcode :=
  match tab with
  | [] => HEADER_OTHER
  | (n, c) :: tab' =>
      if Nat.eqb (length name) (length n) && ci_eqb name n then c
      else find_hd_type tab' name
  end.

(** The character class of the HEADER expression, src/pound.c 1128-1130
    (compiled with ICASE, hence both cases). *)
Definition hname_char (c : byte) : bool :=
  is_alnum c || existsb (beq c) (lit "!#$%&'*+.^_`|~-"%string).

(** struct http_header: the text, and what qualify_header derives from it.
    [h_name] is header[name_start..name_end), [h_val] header[val_start..val_end). *)
Record header := mkH { h_text : bytes; h_code : hcode; h_name : bytes; h_val : bytes }.

(** src/http.c 1878-1923.  The regular expression
    (start, name characters, colon, blanks, anything, blanks, end) is replaced by a direct matcher: the name is the longest run of name
    characters and must be followed by a colon; leading blanks are skipped; group
    2 takes everything up to the end (leftmost-longest makes it include trailing
    blanks).  Valid for texts without newline, which is all that get_line
    delivers.  For an illegal header the C code leaves the offsets unset; here
    name and value are empty. *)
Definition qualify_header (text : bytes) : header :=
  match span hname_char text with
  | ((_ :: _) as name, colon :: rest) =>
      if beq colon ":"%char
      then mkH text (find_hd_type hd_types name) name (trimwsl rest)
      else mkH text HEADER_ILLEGAL [] []
  | _ => mkH text HEADER_ILLEGAL [] []
  end.

Definition illegal (h : header) : bool :=
  match h_code h with HEADER_ILLEGAL => true | _ => false end.

(** src/http.c 2036-2037 and 2051-2052: length test, then strncasecmp. *)
Definition name_eqb (h : header) (name : bytes) : bool :=
  Nat.eqb (length (h_name h)) (length name) && ci_eqb (h_name h) name.

(** src/http.c 2015-2025 *)
Fixpoint http_header_list_locate (head : list header) (eqc : hcode -> bool) : option header :=
  match head with
  | [] => None
  | h :: t => if eqc (h_code h) then Some h else http_header_list_locate t eqc
  end.

(** src/http.c 2027-2041 with len = 0: the name is the part before the colon. *)
Definition name_of_text (text : bytes) : bytes :=
  fst (span (fun c => negb (beq c ":"%char)) text).

Fixpoint http_header_list_locate_name (head : list header) (name : bytes) : option header :=
  match head with
  | [] => None
  | h :: t => if name_eqb h name then Some h else http_header_list_locate_name t name
  end.

(** src/pound.h H_KEEP, H_REPLACE, H_APPEND *)
Inductive hmode := H_KEEP | H_REPLACE | H_APPEND.

(** src/http.c 2083-2104: the text that mode H_APPEND gives the field found.
    name_start is 0 and val_end the length of the text (see qualify_header), so
    the first stringbuf_add copies the whole old text. *)
Definition appended_text (h : header) (text : bytes) : bytes :=
  match h_val h with
  | [] => text
  | _ =>
      let val := skipn (length (h_name h) + 1) text in
      h_text h ++ [","%char]
            ++ (match val with
                | c :: _ => if is_space c then [] else [SP]
                | [] => [SP]
                end) ++ val
  end.

(** Replace the first field of the given name by a new text. *)
Fixpoint change_first (head : list header) (name : bytes) (f : header -> header) : list header :=
  match head with
  | [] => []
  | h :: t => if name_eqb h name then f h :: t else h :: change_first t name f
  end.

(** src/http.c 2066-2116.  Result: return value and the list afterwards.
    Allocation failures (-1) are not modelled. *)
Definition http_header_list_append (head : list header) (text : bytes) (mode : hmode)
  : Z * list header :=
  let name := name_of_text text in
  match http_header_list_locate_name head name with
  | Some _ =>
      match mode with
      | H_KEEP => (0, head)
      | H_REPLACE => (0, change_first head name (fun _ => qualify_header text))
      | H_APPEND =>
          (0, change_first head name (fun h => qualify_header (appended_text h text)))
      end
  | None =>
      let h := qualify_header text in
      if illegal h then (1, head) else (0, head ++ [h])
  end.

(** src/http.c 2118-2129 *)
Fixpoint http_header_list_append_list (head : list header) (add : list header) (mode : hmode)
  : Z * list header :=
  match add with
  | [] => (0, head)
  | h :: add' =>
      let '(rc, head) := http_header_list_append head (h_text h) mode in
      if rc =? 0 then http_header_list_append_list head add' mode else (-1, head)
  end.

(** src/http.c 2149-2161; [m] tells whether the pattern matches a header text. *)
Definition http_header_list_filter (head : list header) (m : bytes -> bool) : list header :=
  filter (fun h => negb (m (h_text h))) head.

(** ** Reading a message head *)

(** src/http.c 1826-1835: the table of combinable headers is an argument. *)
Definition is_combinable (comb : list bytes) (h : header) : bool :=
  existsb (fun n => Nat.eqb (length n) (length (h_name h)) && ci_eqb n (h_name h)) comb.

(** One header line, src/http.c 2736-2791.  The list holds, for each header, the
    fields and (for combinable ones) the string buffer being composed; a header
    with a buffer is the entry of the composition hash table for its name. *)
Definition rdhdr := (header * option bytes)%type.

Fixpoint compose_add (hs : list rdhdr) (h : header) : option (list rdhdr) :=
  match hs with
  | [] => None
  | (h0, Some sb) :: t =>
      if Nat.eqb (length (h_name h0)) (length (h_name h)) && ci_eqb (h_name h0) (h_name h)
      then Some ((h0, Some (sb ++ lit ", " ++ h_val h)) :: t)
      else option_map (cons (h0, Some sb)) (compose_add t h)
  | (h0, None) :: t => option_map (cons (h0, None)) (compose_add t h)
  end.

Definition add_header_line (comb : list bytes) (hs : list rdhdr) (line : bytes) : list rdhdr :=
  let h := qualify_header line in
  if illegal h then hs
  else if is_combinable comb h then
    match compose_add hs h with
    | Some hs' => hs'
    | None => hs ++ [(h, Some (h_name h ++ lit ": " ++ h_val h))]
    end
  else hs ++ [(h, None)].

(** src/http.c 2646-2665, 2794-2805 *)
Definition compose_finish (hs : list rdhdr) : list header :=
  map (fun x => match x with (h, Some sb) => qualify_header sb | (h, None) => h end) hs.

(** src/http.c 2719-2792: header lines up to the empty one; None is the error
    return (the request is discarded). *)
Fixpoint read_header_lines (fuel : nat) (comb : list bytes) (hs : list rdhdr) (src : list rd)
  : option (list header * list rd) :=
  match fuel with
  | O => None
  | S fuel' =>
      match get_line MAXBUF src with
      | (COPY_OK, [], src') => Some (compose_finish hs, src')
      | (COPY_OK, line, src') =>
          read_header_lines fuel' comb (add_header_line comb hs line) src'
      | _ => None
      end
  end.

(** src/http.c 2686-2710: leading empty lines are skipped. *)
Fixpoint skip_blank_lines (fuel : nat) (src : list rd) : copy_status * bytes * list rd :=
  match fuel with
  | O => (COPY_EOF, [], src)
  | S fuel' =>
      match get_line MAXBUF src with
      | (COPY_OK, [], src') => skip_blank_lines fuel' src'
      | r => r
      end
  end.

Inductive read_result :=
| RR_ok (request : bytes) (headers : list header) (rest : list rd)
| RR_err (st : status).

(** src/http.c 2667-2808.  The fuel is enough because every line that is read
    takes at least one event (proved). *)
Definition http_request_read (comb : list bytes) (src : list rd) : read_result :=
  let '(res, buf, src) := skip_blank_lines (S (length src)) src in
  match res with
  | COPY_OK | COPY_EOF =>
      match read_header_lines (S (length src)) comb [] src with
      | Some (hs, src) => RR_ok buf hs src
      | None => RR_err ST_500
      end
  | COPY_READ_ERR => RR_err ST_500
  | _ => RR_err ST_400
  end.
