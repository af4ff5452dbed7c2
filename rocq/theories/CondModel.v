(** Model of service conditions, rewrite rules and service selection:
    src/http.c 2986-3170 and 3397-3497, src/svc.c 560-600.  Definitions only.
    Only the request side is modelled, where the message examined is the request
    of the POUND_HTTP object.  Allocation failures are not modelled. *)
From Coq Require Import Ascii String List ZArith Bool.
From Verif Require Import Bytes ReqModel UrlModel AclModel XpdModel.
Import ListNotations.
Open Scope Z_scope.

Inductive bool_op := BOOL_AND | BOOL_OR | BOOL_NOT.

(** SERVICE_COND (src/pound.h).  Password files and
    certificates are represented by names, for they are examined by oracles only. *)
Inductive cond :=
| COND_ACL (acl : list cidr)
| COND_URL (re : pattern)
| COND_PATH (re : pattern)
| COND_QUERY (re : pattern)
| COND_QUERY_PARAM (name : bytes) (re : pattern)
| COND_HDR (re : pattern)
| COND_HOST (re : pattern)
| COND_BASIC_AUTH (pwfile : bytes)
| COND_STRING_MATCH (string : bytes) (re : pattern)
| COND_BOOL (op : bool_op) (head : list cond)
| COND_CLIENT_CERT (x509 : bytes).

(** What the conditions look at besides the request: the peer address, the
    result of basic_auth for a password file (0 success, 1 failure, -1 error) and
    whether the client presented the given certificate and it verified. *)
Record env := mkEnv {
  e_from : sockaddr;
  e_auth : bytes -> list header -> Z;
  e_cert : bytes -> bool
}.

(** Return value and state, or undefined behaviour. *)
Inductive cres := CRes (r : Z) (p : phttp) | CUndef (u : ub).

Definition b2z (b : bool) : Z := if b then 1 else 0.

(** submatch_exec (re, str, submatch_queue_push (&phttp->smq)) *)
Definition exec_push (re : pattern) (str : bytes) (p : phttp) : Z * phttp :=
  let '(res, sm) := submatch_exec re str in
  (b2z res, with_smq p (submatch_queue_put (submatch_queue_push (ph_smq p)) sm)).

(** src/http.c 2986-2998: the first field that matches.  Every call of
    submatch_exec overwrites the same element of the queue. *)
Fixpoint match_headers (headers : list header) (re : pattern) : bool * submatch :=
  match headers with
  | [] => (false, sm_empty)
  | h :: hs =>
      let '(res, sm) := submatch_exec re (h_text h) in
      if res then (true, sm)
      else match hs with
           | [] => (false, sm)
           | _ => match_headers hs re
           end
  end.

Definition strspn_ws (s : bytes) : nat := length (fst (span (fun c => beq c SP || beq c TAB || beq c LF) s)).

(** src/http.c 3082-3113: make the groups refer to the value of the Host field.
    With no groups matchv is NULL; a subject too short for "host:" would be read
    past its end. *)
Definition host_adjust (sm : submatch) : submatch + ub :=
  match sm_subject sm, sm_matchv sm with
  | Some subject, (so, eo) :: mv =>
      let n1 := (strspn_ws subject + 5)%nat in
      if Nat.ltb (length subject) n1 then inr UB_END
      else
        let n := (n1 + strspn_ws (skipn n1 subject))%nat in
        let d := Z.of_nat n in
        inl (mkSm (Some (skipn n subject))
               ((so, eo - d) :: map (fun g => (fst g - d, snd g - d)) mv))
  | _, _ => inr UB_NULL
  end.

(** src/http.c 3008-3170.  [acl_match] returns 0 on match. *)
Section Match.
  Variable e : env.

  Definition match_atom (c : cond) (p : phttp) : cres :=
    match c with
    | COND_ACL acl =>
        let r := acl_match acl (e_from e) in
        CRes (if r =? -1 then -1 else b2z (r =? 0)) p
    | COND_URL re =>
        let '(r, p) := exec_push re (http_request_get_url (ph_req p)) p in CRes r p
    | COND_PATH re =>
        let '(s, q) := http_request_get_path (ph_req p) in
        match s with
        | Some s => let '(r, p) := exec_push re s (with_req p q) in CRes r p
        | None => CUndef UB_NULL
        end
    | COND_QUERY re =>
        let '(s, q) := http_request_get_query (ph_req p) in
        match s with
        | Some s => let '(r, p) := exec_push re s (with_req p q) in CRes r p
        | None => CUndef UB_NULL
        end
    | COND_QUERY_PARAM name re =>
        let '(s, q) := http_request_get_query_param_value (ph_req p) name in
        match s with
        | Some (Some s) => let '(r, p) := exec_push re s (with_req p q) in CRes r p
        | _ => CRes 0 (with_req p q)
        end
    | COND_HDR re =>
        let '(res, sm) := match_headers (ph_headers p) re in
        CRes (b2z res) (with_smq p (submatch_queue_put (submatch_queue_push (ph_smq p)) sm))
    | COND_HOST re =>
        let '(res, sm) := match_headers (ph_headers p) re in
        if res then
          match host_adjust sm with
          | inl sm => CRes 1 (with_smq p (submatch_queue_put (submatch_queue_push (ph_smq p)) sm))
          | inr u => CUndef u
          end
        else CRes 0 (with_smq p (submatch_queue_put (submatch_queue_push (ph_smq p)) sm))
    | COND_BASIC_AUTH pwfile =>
        let r := e_auth e pwfile (ph_headers p) in
        CRes (if r =? -1 then -1 else b2z (r =? 0)) p
    | COND_STRING_MATCH s re =>
        match expand_string s p with
        | SOk subj p => let '(r, p) := exec_push re subj p in CRes r p
        | SNull p => CRes (-1) p
        | SUndef u => CUndef u
        end
    | COND_CLIENT_CERT x => CRes (b2z (e_cert e x)) p
    | COND_BOOL _ _ => CRes 1 p (* not an atom *)
    end.

  (** A NOT with no operand would dereference NULL; the parser never builds one. *)
  Fixpoint match_cond (c : cond) (p : phttp) : cres :=
    match c with
    | COND_BOOL BOOL_NOT head =>
        match head with
        | [] => CUndef UB_NULL
        | sub :: _ =>
            match match_cond sub p with
            | CRes r p => CRes (if r =? -1 then -1 else b2z (r =? 0)) p
            | x => x
            end
        end
    | COND_BOOL op head =>
        (fix loop (l : list cond) (res : Z) (p : phttp) : cres :=
           match l with
           | [] => CRes res p
           | sub :: l' =>
               match match_cond sub p with
               | CRes r p =>
                   if r =? -1 then CRes r p
                   else if match op with BOOL_AND => r =? 0 | _ => r =? 1 end then CRes r p
                   else loop l' r p
               | x => x
               end
           end) head 1 p
    | _ => match_atom c p
    end.

  (** ** Rewrite rules *)

  (** REWRITE_OP and REWRITE_RULE (src/pound.h).  A rule carries its condition,
      its operations and the alternative (iffalse). *)
  Inductive rop :=
  | REWRITE_REWRITE_RULE (r : rrule)
  | REWRITE_HDR_DEL (m : pattern)
  | REWRITE_HDR_SET (str : bytes)
  | REWRITE_URL_SET (str : bytes)
  | REWRITE_PATH_SET (str : bytes)
  | REWRITE_QUERY_SET (str : bytes)
  | REWRITE_QUERY_PARAM_SET (name value : bytes)
  with rrule := RRule (c : cond) (ops : list rop) (iffalse : option rrule).

  (** Expand a string and store it: src/http.c 3427-3457.  The setters of the URL
      parts return 0. *)
  Definition set_expanded (str : bytes) (p : phttp) (f : bytes -> phttp -> Z * phttp) : cres :=
    match expand_string str p with
    | SOk s p => let '(r, p) := f s p in CRes r p
    | SNull p => CRes (-1) p
    | SUndef u => CUndef u
    end.

  (** The operations other than a nested rule, src/http.c 3423-3457. *)
  Definition op_apply (o : rop) (res : Z) (p : phttp) : cres :=
    match o with
    | REWRITE_REWRITE_RULE _ => CRes res p (* not here *)
    | REWRITE_HDR_DEL m =>
        CRes res (with_headers p (http_header_list_filter (ph_headers p)
                    (fun t => match m t with Some _ => true | None => false end)))
    | REWRITE_HDR_SET str =>
        set_expanded str p (fun s p =>
          let '(r, hs) := http_header_list_append (ph_headers p) s H_REPLACE in (r, with_headers p hs))
    | REWRITE_URL_SET str =>
        set_expanded str p (fun s p => (0, with_req p (http_request_set_url (ph_req p) s)))
    | REWRITE_PATH_SET str =>
        set_expanded str p (fun s p => (0, with_req p (http_request_set_path (ph_req p) s)))
    | REWRITE_QUERY_SET str =>
        set_expanded str p (fun s p => (0, with_req p (http_request_set_query (ph_req p) s)))
    | REWRITE_QUERY_PARAM_SET name value =>
        set_expanded value p (fun s p =>
          (0, with_req p (http_request_set_query_param (ph_req p) name (Some s))))
    end.

  (** src/http.c 3397-3482 *)
  Fixpoint rewrite_rule_check (rule : rrule) (p : phttp) : cres :=
    match rule with
    | RRule c ops iffalse =>
        match match_cond c p with
        | CUndef u => CUndef u
        | CRes r p =>
            if r =? 1 then
              (fix op_loop (l : list rop) (res : Z) (p : phttp) : cres :=
                 match l with
                 | [] => CRes res p
                 | o :: l' =>
                     match match o with
                           | REWRITE_REWRITE_RULE r => rewrite_rule_check r p
                           | _ => op_apply o res p
                           end with
                     | CRes res p => if res =? 0 then op_loop l' res p else CRes res p
                     | x => x
                     end
                 end) ops 0 p
            else
              match iffalse with
              | Some r => rewrite_rule_check r p
              | None => CRes 0 p
              end
        end
    end.

  (** src/http.c 3484-3497 *)
  Fixpoint rewrite_apply (rules : list rrule) (p : phttp) : cres :=
    match rules with
    | [] => CRes 0 p
    | r :: rules' =>
        match rewrite_rule_check r p with
        | CRes res p => if res =? 0 then rewrite_apply rules' p else CRes res p
        | x => x
        end
    end.

  (** ** Services *)

  Record service := mkSvc { svc_id : Z; svc_cond : cond; svc_disabled : bool }.

  (** Result of the search: the service, NULL, or undefined behaviour. *)
  Inductive svres := SvFound (s : service) (p : phttp) | SvNone (p : phttp) | SvUndef (u : ub).

  (** src/svc.c 567-600 *)
  Fixpoint search_services (l : list service) (p : phttp) : svres :=
    match l with
    | [] => SvNone p
    | s :: l' =>
        if svc_disabled s then search_services l' p
        else
          match match_cond (svc_cond s) p with
          | CRes r p => if r =? 1 then SvFound s p else search_services l' p
          | CUndef u => SvUndef u
          end
    end.

  Definition get_service (lstn glob : list service) (p : phttp) : svres :=
    match search_services lstn p with
    | SvNone p => search_services glob p
    | x => x
    end.
End Match.
