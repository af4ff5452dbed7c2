(** Session keys: what part of a request is its session key. *)
From Coq Require Import Ascii String List ZArith Bool Arith.
From Verif Require Import Bytes ReqModel UrlModel JobModel SessModel.
Import ListNotations.

Definition SEMI : byte := ";"%char.

(** " \t" of svc.c:948 *)
Definition sptab (c : byte) : bool := beq c SP || beq c TAB.

(** svc.c:922-934, key_authbasic.  The key is what follows "Basic" and white
    space, at most KEY_SIZE bytes of it.  isspace of a byte of 128 or more is
    taken to be false. *)
Definition key_authbasic (hval : bytes) : option bytes :=
  if ci_eqb (firstn 5 hval) (lit "Basic") then
    match skipn 5 hval with
    | c :: rest => if is_space c then Some (firstn KEY_SIZE (snd (span is_space rest))) else None
    | [] => None
    end
  else None.

(** svc.c:940-971, key_cookie.  Every round but the last consumes a byte, so the
    fuel of one more than the length is never used up. *)
Fixpoint key_cookie_loop (fuel : nat) (hval sid : bytes) : option bytes :=
  match fuel with
  | O => None
  | S fuel =>
      match hval with
      | [] => None
      | _ =>
          match snd (span sptab hval) with
          | [] => None
          | hval =>
              let (item, rest) := span (fun c => negb (beq c SEMI)) hval in
              let slen := length sid in
              if Nat.ltb slen (length item)
                 && match nth_error hval slen with Some c => beq c EQS | None => false end
                 && ci_eqb (firstn slen hval) sid
              then Some (firstn (Nat.min (length item - (slen + 1)) KEY_SIZE) (skipn (slen + 1) hval))
              else match rest with
                   | [] => None
                   | _ :: rest => key_cookie_loop fuel rest sid
                   end
          end
      end
  end.
Definition key_cookie (hval sid : bytes) : option bytes :=
  key_cookie_loop (S (length hval)) hval sid.

(** svc.c:872-896, find_key_by_header; [keyfun] None is a NULL function *)
Definition find_key_by_header (headers : list header) (hname : bytes)
  (keyfun : option (bytes -> option bytes)) : option bytes :=
  match http_header_list_locate_name headers hname with
  | Some h =>
      match keyfun with
      | Some f => f (h_val h)
      | None => Some (firstn KEY_SIZE (h_val h))
      end
  | None => None
  end.

(** strrchr (s, c) + 1: what follows the last occurrence *)
Definition after_last (c : byte) (s : bytes) : option bytes :=
  let (r, l) := span (fun x => negb (beq x c)) (rev s) in
  match l with [] => None | _ => Some (rev r) end.

(** pound.h, SESS_TYPE *)
Inductive sess_type := SESS_NONE | SESS_IP | SESS_COOKIE | SESS_URL | SESS_PARM | SESS_HEADER | SESS_BASIC.

(** svc.c:1000-1039, the switch of get_backend: the key with which
    find_backend_by_key is called, if it is.  [addr] is what addr2str returns
    for the client's address. *)
Definition request_key (ty : sess_type) (sess_id : bytes) (addr : bytes) (headers : list header) (r : req)
  : option bytes :=
  match ty with
  | SESS_NONE => None
  | SESS_COOKIE => find_key_by_header headers (lit "Cookie") (Some (fun v => key_cookie v sess_id))
  | SESS_IP => Some (firstn KEY_SIZE addr)
  | SESS_URL =>
      match fst (http_request_get_query_param_value r sess_id) with
      | Some (Some v) => Some v
      | _ => None
      end
  | SESS_PARM =>
      match fst (http_request_get_path r) with
      | Some p => after_last SEMI p
      | None => None
      end
  | SESS_HEADER => find_key_by_header headers sess_id None
  | SESS_BASIC => find_key_by_header headers (lit "Authorization") (Some key_authbasic)
  end.

(** svc.c:1061-1083, the key upd_session takes from a response *)
Definition response_key (ty : sess_type) (sess_id : bytes) (headers : list header) : option bytes :=
  match ty with
  | SESS_HEADER => find_key_by_header headers sess_id None
  | SESS_COOKIE => find_key_by_header headers (lit "Cookie") (Some (fun v => key_cookie v sess_id))
  | SESS_BASIC => find_key_by_header headers (lit "Authorization") (Some key_authbasic)
  | _ => None
  end.

(** svc.c:988-1049, get_backend: [has] is service_has_backends, [c1] and [c2]
    what service_lb_select_backend returns in find_backend_by_key and at line
    1042. *)
Definition get_backend (ttl : Z) (ty : sess_type) (sess_id addr : bytes) (headers : list header) (r : req)
  (now : timespec) (has : bool) (c1 c2 : option Z) (t : stab) : stab * option Z :=
  if has then
    match request_key ty sess_id addr headers r with
    | Some key =>
        match find_backend_by_key ttl key now c1 t with
        | (t1, Some b) => (t1, Some b)
        | (t1, None) => (t1, c2)
        end
    | None => (t, c2)
    end
  else (t, None).
