(** Model of string expansion: back references to submatches and request
    accessors (src/http.c 253-760) and of the redirect reply (778-897).
    Definitions only.  Allocation failures are not modelled. *)
From Coq Require Import Ascii String List ZArith Bool.
From Verif Require Import Bytes ClenModel ReqModel UrlModel NumModel.
Import ListNotations.
Open Scope Z_scope.

(** ** Submatches *)

(** struct submatch (src/pound.h 902-908).  [sm_matchv] is the array of group
    offsets (rm_so, rm_eo); its length is both matchn and the number of entries
    allocated, since submatch_exec frees the old array before it allocates one
    for the pattern (src/http.c 253-283, 317-318). *)
Record submatch := mkSm { sm_subject : option bytes; sm_matchv : list (Z * Z) }.
Definition sm_empty : submatch := mkSm None [].

(** src/pound.h 910 *)
Definition SMQ_SIZE : nat := 8.

(** struct submatch_queue (src/pound.h 912-916); the ninth element of the array
    is never used. *)
Record smqueue := mkSmq { smq_cur : nat; smq_sm : list submatch }.

(** A zeroed queue, as in a new POUND_HTTP. *)
Definition smq_init : smqueue := mkSmq 0 (repeat sm_empty SMQ_SIZE).

(** src/http.c 296-300.  [n] is below SMQ_SIZE at all calls. *)
Definition submatch_queue_get (q : smqueue) (n : nat) : submatch :=
  nth ((smq_cur q + SMQ_SIZE - n) mod SMQ_SIZE) (smq_sm q) sm_empty.

Fixpoint sm_set (l : list submatch) (n : nat) (s : submatch) : list submatch :=
  match l, n with
  | [], _ => []
  | _ :: t, O => s :: t
  | x :: t, S n' => x :: sm_set t n' s
  end.

(** Assign to the element submatch_queue_get (q, 0) points to. *)
Definition submatch_queue_put (q : smqueue) (s : submatch) : smqueue :=
  mkSmq (smq_cur q) (sm_set (smq_sm q) ((smq_cur q + SMQ_SIZE - 0) mod SMQ_SIZE) s).

(** src/http.c 302-310 *)
Definition submatch_queue_push (q : smqueue) : smqueue :=
  submatch_queue_put (mkSmq ((smq_cur q + 1) mod SMQ_SIZE) (smq_sm q)) sm_empty.

(** GENPAT with its gp_exec and gp_nsub: the pattern library is an oracle giving
    the group offsets on match.  The list has gp_nsub entries: none for the
    literal patterns (src/genpat.c 234-238), one more than the parenthesised
    groups for the regular expressions. *)
Definition pattern := bytes -> option (list (Z * Z)).

(** src/http.c 312-330 *)
Definition submatch_exec (re : pattern) (subject : bytes) : bool * submatch :=
  match re subject with
  | Some groups => (true, mkSm (Some subject) groups)
  | None => (false, sm_empty)
  end.

(** ** The request and the expansion outcome *)

(** The part of POUND_HTTP that is used: the request with its headers and the
    submatch queue. *)
Record phttp := mkPh { ph_req : req; ph_headers : list header; ph_smq : smqueue }.
Definition with_req (p : phttp) (r : req) : phttp := mkPh r (ph_headers p) (ph_smq p).
Definition with_headers (p : phttp) (h : list header) : phttp := mkPh (ph_req p) h (ph_smq p).
Definition with_smq (p : phttp) (q : smqueue) : phttp := mkPh (ph_req p) (ph_headers p) q.

(** Ways the C code can leave its defined behaviour during expansion. *)
Inductive ub :=
| UB_END       (* reading past the NUL that ends the template *)
| UB_GROUP     (* reading an element outside the array of groups *)
| UB_TEXT      (* a group that is not a part of the subject *)
| UB_UNSET     (* using an automatic variable that was not set *)
| UB_LOOP      (* a loop that never ends *)
| UB_NULL.     (* passing NULL where a string is needed *)

(** What an accessor returns: nothing found, the value (None: NULL), or *ret_val
    left unset although the result is RETRIEVE_OK. *)
Inductive accval := AV_NOT_FOUND | AV_VALUE (v : bytes) | AV_NULL | AV_UNSET.

Inductive accessor := ACC_URL | ACC_PATH | ACC_QUERY | ACC_PARAM | ACC_HEADER | ACC_HOST | ACC_PORT.

(** src/http.c 471-480 *)
Definition accessors : list (bytes * (accessor * bool)) :=
  [ (lit "url", (ACC_URL, false)); (lit "path", (ACC_PATH, false)); (lit "query", (ACC_QUERY, false));
    (lit "param", (ACC_PARAM, true)); (lit "header", (ACC_HEADER, true));
    (lit "host", (ACC_HOST, false)); (lit "port", (ACC_PORT, false)) ]%string.

Definition COLON : byte := ":"%char.
Definition not_colon (c : byte) : bool := negb (beq c COLON).

(** src/http.c 351-441 with the functions they call.  The request is threaded
    because the getters split it. *)
Definition accessor_call (a : accessor) (arg : bytes) (p : phttp) : accval * phttp :=
  match a with
  | ACC_URL => (AV_VALUE (http_request_get_url (ph_req p)), p)
  | ACC_PATH =>
      let '(v, r) := http_request_get_path (ph_req p) in
      (match v with Some v => AV_VALUE v | None => AV_UNSET end, with_req p r)
  | ACC_QUERY =>
      let '(v, r) := http_request_get_query (ph_req p) in
      (match v with Some v => AV_VALUE v | None => AV_UNSET end, with_req p r)
  | ACC_PARAM =>
      let '(v, r) := http_request_get_query_param_value (ph_req p) arg in
      (match v with
       | Some (Some v) => AV_VALUE v
       | Some None => AV_NULL
       | None => AV_NOT_FOUND
       end, with_req p r)
  | ACC_HEADER =>
      (match http_header_list_locate_name (ph_headers p) arg with
       | Some h => AV_VALUE (h_val h)
       | None => AV_NOT_FOUND
       end, p)
  | ACC_HOST =>
      (match http_header_list_locate_name (ph_headers p) (lit "host"%string) with
       | Some h => AV_VALUE (fst (span not_colon (h_val h)))
       | None => AV_NOT_FOUND
       end, p)
  | ACC_PORT =>
      (match http_header_list_locate_name (ph_headers p) (lit "host"%string) with
       | Some h => AV_VALUE (snd (span not_colon (h_val h)))
       | None => AV_NOT_FOUND
       end, p)
  end.

Inductive found := F_NONE | F_ACC (a : accessor) (arg : bytes) | F_LOOP.

Fixpoint find_acc_name (tab : list (bytes * (accessor * bool))) (name : bytes)
  : option (accessor * bool) :=
  match tab with
  | [] => None
  | (n, x) :: tab' =>
      if Nat.eqb (length n) (length name) && bytes_eqb n name then Some x
      else find_acc_name tab' name
  end.

(** src/http.c 482-536.  [input] is the text between the brackets; the byte after
    it is the closing bracket, which is not a space.  The loop of lines 515-520
    does not change its condition: it ends at once or never. *)
Definition find_accessor (input : bytes) : found :=
  let input := snd (span isws input) in
  match input with
  | [] => F_NONE
  | _ =>
      let '(name, rest) := span (fun c => negb (isws c)) input in
      match find_acc_name accessors name with
      | None => F_NONE
      | Some (a, true) =>
          match rest with
          | [] => F_NONE
          | _ :: rest' =>
              let arg := snd (span is_space rest') in
              match arg with
              | [] => F_NONE
              | _ => if is_space (last arg NUL) then F_LOOP else F_ACC a arg
              end
          end
      | Some (a, false) =>
          match snd (span is_space rest) with
          | [] => F_ACC a []
          | _ => F_NONE
          end
      end
  end.

(** ** Expansion *)

Definition DOLLAR : byte := "$"%char.
Definition PERCENT : byte := "%"%char.
Definition LBRACE : byte := "{"%char.
Definition RBRACE : byte := "}"%char.
Definition LPAREN : byte := "("%char.
Definition RPAREN : byte := ")"%char.
Definition LBRACK : byte := "["%char.
Definition RBRACK : byte := "]"%char.
Definition special (c : byte) : bool := beq c DOLLAR || beq c PERCENT.

(** Result: the bytes appended, the value of [result] afterwards, the state; or
    undefined behaviour. *)
Inductive xres := XDone (out : bytes) (result : Z) (p : phttp) | XUndef (u : ub) | XFuel.

(** src/http.c 609-610, 688-689 *)
Definition count (result : Z) : Z := if 0 <=? result then result + 1 else result.

(** src/http.c 684-690: the text of a group, None if the reference does not
    exist.  The comparison converts groupno to an unsigned type, so the value
    strtoul returned is used as it is.  An unset group has equal offsets and
    adds nothing. *)
Inductive gtext := G_NONE | G_TEXT (b : bytes) | G_UB (u : ub).
Definition group_text (sm : submatch) (groupno : Z) : gtext :=
  match sm_subject sm with
  | None => G_NONE
  | Some subject =>
      if groupno <=? Z.of_nat (length (sm_matchv sm)) then
        match nth_error (sm_matchv sm) (Z.to_nat groupno) with
        | None => G_UB UB_GROUP
        | Some (so, eo) =>
            if so =? eo then G_TEXT []
            else if (0 <=? so) && (so <=? eo) && (eo <=? Z.of_nat (length subject))
            then G_TEXT (firstn (Z.to_nat (eo - so)) (skipn (Z.to_nat so) subject))
            else G_UB UB_TEXT
        end
      else G_NONE
  end.

(** [starts c s]: the first character of [s] is [c]. *)
Definition starts (c : byte) (s : bytes) : bool :=
  match s with x :: _ => beq x c | [] => false end.

(** [upto s p]: the part of [s] before its suffix [p] (C: str, p - str). *)
Definition upto (s p : bytes) : bytes := firstn (length s - length p) s.

(** What one turn of the loop does after the plain characters are copied:
    src/http.c 567-712, [str] starts with '$' or '%'.  Result: the bytes added,
    the new [result], the rest of the template, the state. *)
Inductive turn := T_NEXT (out : bytes) (result : Z) (str : bytes) (p : phttp) | T_UB (u : ub).

(** src/http.c 617-701: a back reference. *)
Definition expand_ref (c0 : byte) (str : bytes) (brace : bool) (result : Z) (ph : phttp) : turn :=
  let body := skipn (if brace then 2 else 1) str in
  let '(errno, groupno, p) := strtoul body 10 in
  if errno then T_NEXT (firstn 2 str) result (skipn 2 str) ph
  else
    let after_paren :=
      (* inl: refno and p; inr: verbatim up to p *)
      if beq c0 DOLLAR && starts LPAREN p then
        let '(errno, v, p) := strtoul (skipn 1 p) 10 in
        let n := ulong_to_long v in
        if errno || negb (starts RPAREN p) then inr p
        else if (n <? 0) || (Z.of_nat SMQ_SIZE <=? n) then inr p
        else inl (Z.to_nat n, skipn 1 p)
      else inl (if beq c0 DOLLAR then 0%nat else 1%nat, p) in
    match after_paren with
    | inr p => T_NEXT (upto str p) (-1) p ph
    | inl (refno, p) =>
        if brace && negb (starts RBRACE p) then T_NEXT (upto str p) (-1) p ph
        else
          let p := if brace then skipn 1 p else p in
          match group_text (submatch_queue_get (ph_smq ph) refno) groupno with
          | G_TEXT b => T_NEXT b (count result) p ph
          | G_NONE => T_NEXT (upto str p) (-1) p ph
          | G_UB u => T_UB u
          end
    end.

(** src/http.c 580-614: an accessor; [str] starts with "%[". *)
Definition expand_acc (str : bytes) (result : Z) (ph : phttp) : turn :=
  let '(text, q) := span (fun c => negb (beq c RBRACK)) (skipn 2 str) in
  match q with
  | [] => T_NEXT (firstn 2 str) (-1) (skipn 2 str) ph
  | _ :: rest =>
      match find_accessor text with
      | F_LOOP => T_UB UB_LOOP
      | F_NONE => T_NEXT (firstn (2 + length text + 1) str) result rest ph
      | F_ACC a arg =>
          let '(v, ph) := accessor_call a arg ph in
          match v with
          | AV_VALUE v => T_NEXT v (count result) rest ph
          | AV_UNSET => T_UB UB_UNSET
          | AV_NOT_FOUND | AV_NULL => T_NEXT [] result rest ph
          end
      end
  end.

(** src/http.c 569-712.  [acc] is [req != NULL]. *)
Definition expand_turn (acc : bool) (str : bytes) (result : Z) (ph : phttp) : turn :=
  match str with
  | [] => T_NEXT [] result [] ph
  | [c0] => T_UB UB_END
  | c0 :: c1 :: s =>
      if beq c0 DOLLAR && (beq c1 DOLLAR || beq c1 PERCENT) then T_NEXT [c0] result s ph
      else if beq c0 PERCENT && is_xdigit c1 && match s with c2 :: _ => is_xdigit c2 | [] => false end
      then T_NEXT (firstn 3 str) result (skipn 3 str) ph
      else if acc && beq c0 PERCENT && beq c1 LBRACK then expand_acc str result ph
      else if beq c1 LBRACE then expand_ref c0 str true result ph
      else if is_digit c1 then expand_ref c0 str false result ph
      else T_NEXT [c0] (-1) (c1 :: s) ph
  end.

(** src/http.c 552-715.  Every turn of the loop consumes a character. *)
Fixpoint expand_loop (fuel : nat) (acc : bool) (str : bytes) (result : Z) (ph : phttp) : xres :=
  match str with
  | [] => XDone [] result ph
  | _ =>
      match fuel with
      | O => XFuel
      | S fuel' =>
          let '(plain, rest) := span (fun c => negb (special c)) str in
          match rest with
          | [] => XDone plain result ph
          | _ =>
              match expand_turn acc rest result ph with
              | T_UB u => XUndef u
              | T_NEXT out result rest ph =>
                  match expand_loop fuel' acc rest result ph with
                  | XDone out' result ph => XDone (plain ++ out ++ out') result ph
                  | x => x
                  end
              end
          end
      end
  end.

Definition expand_string_to_buffer (acc : bool) (str : bytes) (ph : phttp) : xres :=
  expand_loop (length str) acc str 0 ph.

(** Outcome of a function that returns a new string or NULL. *)
Inductive sres := SOk (s : bytes) (p : phttp) | SNull (p : phttp) | SUndef (u : ub).

(** src/http.c 717-729; called with the request, so accessors are expanded. *)
Definition expand_string (str : bytes) (ph : phttp) : sres :=
  match expand_string_to_buffer true str ph with
  | XDone out r ph => if r =? -1 then SNull ph else SOk out ph
  | XUndef u => SUndef u
  | XFuel => SNull ph
  end.

(** src/http.c 731-760 *)
Definition expand_url (url : bytes) (ph : phttp) (has_uri : bool) : sres :=
  match expand_string_to_buffer true url ph with
  | XDone out r ph =>
      if r =? -1 then SNull ph
      else
        let has_uri := if r =? 0 then has_uri else true in
        SOk (if has_uri then out else out ++ r_url (ph_req ph)) ph
  | XUndef u => SUndef u
  | XFuel => SNull ph
  end.

(** ** The redirect reply *)

Definition hexdig (n : Z) : byte :=
  nth (Z.to_nat n) (lit "0123456789abcdef"%string) "0"%char.

(** printf's %02x of a char argument: char is signed, so the argument is
    promoted to int and printed as an unsigned 32-bit number. *)
Fixpoint hex_digits (k : nat) (n : Z) (acc : bytes) : bytes :=
  match k with
  | O => acc
  | S k' => hex_digits k' (n / 16) (hexdig (n mod 16) :: acc)
  end.
Definition percent_02x (c : byte) : bytes :=
  let n := scode c in
  if n <? 0 then hex_digits 8 (n + 4294967296) []
  else hex_digits 2 n [].

(** src/http.c 843-847 *)
Definition safe_char (c : byte) : bool :=
  is_alnum c || existsb (beq c) (lit "_.:/?&;-="%string).

(** src/http.c 840-851 *)
Definition safe_url (xurl : bytes) : bytes :=
  flat_map (fun c => if safe_char c then [c] else PERCENT :: percent_02x c) xurl.

(** src/http.c 790-817: the status codes that are answered. *)
Definition redirect_reason (code : Z) : option bytes :=
  if code =? 301 then Some (lit "Moved Permanently"%string)
   else if code =? 302 then Some (lit "Found"%string)
   else if code =? 303 then Some (lit "See Other"%string)
   else if code =? 307 then Some (lit "Temporary Redirect"%string)
   else if code =? 308 then Some (lit "Permanent Redirect"%string)
   else None.

(** src/http.c 862-867 and 877 *)
Definition redirect_body (url : bytes) : bytes :=
  lit "<html><head><title>Redirect</title></head><body><h1>Redirect</h1><p>You should go to <a href="%string
   ++ [ascii_of_N 34] ++ url ++ [ascii_of_N 34; ">"%char] ++ url ++ lit "</a></p></body></html>"%string.
Definition location_line (url : bytes) : bytes := lit "Location: "%string ++ url ++ CRLF.

(** The reply passed to bio_http_reply: status code, reason, Location line and
    body; or HTTP_STATUS_INTERNAL_SERVER_ERROR; or undefined behaviour. *)
Inductive redirected :=
| R_REPLY (code : Z) (reason : bytes) (location body : bytes)
| R_500
| R_UB (u : ub).

(** src/http.c 778-897 without the rewrite rules of lines 819-823, which come
    before (see CondModel). *)
Definition redirect_response (code : Z) (url : bytes) (has_uri : bool) (ph : phttp) : redirected :=
  match redirect_reason code with
  | None => R_500
  | Some reason =>
      match expand_url url ph has_uri with
      | SNull _ => R_500
      | SUndef u => R_UB u
      | SOk xurl _ =>
          let url := safe_url xurl in
          R_REPLY code reason (location_line url) (redirect_body url)
      end
  end.
