(** Model of how the Service section builds the condition and the rewrite rules of a
    service: src/config.c 340-395, 585-625, 1126-1138, 1157-1340, 1363-1622, 1870-2440,
    2502-2698 and 4674-4680, on top of the statement parser of CfgModel.  Definitions only.

    Arguments: what genpat_compile makes of a pattern (None: refused), the lines of the
    pattern files as fgets reads them, the access lists by name, the access list written in
    place, and the certificate files.  Simplification: a service has no other statements
    than conditions, modifications and IgnoreCase; backends are the subject of FinModel. *)
From Coq Require Import Ascii String List ZArith Bool Arith.
From Verif Require Import Bytes AclModel XpdModel CondModel CfgModel.
From Verif Require HostModel NumModel LexSpec.
Import ListNotations.
Open Scope nat_scope.

(** enum genpat_type (genpat.h) *)
Inductive gptype := GENPAT_POSIX | GENPAT_EXACT | GENPAT_PREFIX | GENPAT_SUFFIX | GENPAT_CONTAIN | GENPAT_PCRE.
(** GENPAT_ICASE and GENPAT_MULTILINE *)
Record gpflags := mkFlags { f_icase : bool; f_multi : bool }.
(** The part of POUND_DEFAULTS used here, config.c 160-182 *)
Record defaults := mkDfl { re_type : gptype; ignore_case : bool }.

(** The options of parse_match_mode, config.c 1162-1188 *)
Inductive mopt := MATCH_RE | MATCH_EXACT | MATCH_BEG | MATCH_END | MATCH_CONTAIN | MATCH_ICASE | MATCH_CASE | MATCH_FILE | MATCH_POSIX | MATCH_PCRE.
Definition optab : list (bytes * mopt) :=
  [ (lit "-re", MATCH_RE); (lit "-exact", MATCH_EXACT); (lit "-beg", MATCH_BEG); (lit "-end", MATCH_END);
    (lit "-contain", MATCH_CONTAIN); (lit "-icase", MATCH_ICASE); (lit "-case", MATCH_CASE); (lit "-file", MATCH_FILE);
    (lit "-posix", MATCH_POSIX); (lit "-pcre", MATCH_PCRE); (lit "-perl", MATCH_PCRE) ].
(** kw_to_tok, cfgparser.c 146-157, with case taken into account *)
Fixpoint kw_to_tok (tab : list (bytes * mopt)) (w : bytes) : option mopt :=
  match tab with
  | [] => None
  | (k, o) :: tab => if bytes_eqb k w then Some o else kw_to_tok tab w
  end.

(** A service as parsed: name, condition, and the rules for requests and for responses *)
Record psvc := mkPsvc { ps_name : option bytes; ps_cond : cond; ps_request : list rrule; ps_response : list rrule }.

(** The objects under construction, the innermost first: a Boolean condition, a rewrite
    rule, a service, the list of services. *)
Inductive frame :=
| FBool (op : bool_op) (l : list cond)
| FRule (cs : list cond) (ops : list rop) (iffalse : option rrule) (response : bool)
| FSvc (name : option bytes) (cs : list cond) (request response : list rrule)
| FTop (l : list psvc).
Record conf := mkConf { c_stack : list frame; c_dfl : defaults }.
Definition with_stack (c : conf) (s : list frame) : conf := mkConf s (c_dfl c).

(** Offsets in SERVICE: cond and rewrite *)
Definition SVC_COND := 4%Z.
Definition SVC_REWRITE := 5%Z.

(** service_cond_append, config.c 1126-1137: the condition is added at the end of the
    Boolean condition at the given place of the innermost object *)
Definition put_cond (wh : Z) (x : cond) (c : conf) : option conf :=
  match c_stack c with
  | FBool op l :: s => if Z.eqb wh 0 then Some (with_stack c (FBool op (l ++ [x]) :: s)) else None
  | FRule cs ops e r :: s => if Z.eqb wh COND then Some (with_stack c (FRule (cs ++ [x]) ops e r :: s)) else None
  | FSvc n cs rq rs :: s => if Z.eqb wh SVC_COND then Some (with_stack c (FSvc n (cs ++ [x]) rq rs :: s)) else None
  | _ => None
  end.

(** A rule under construction, finished (rewrite_rule_alloc, config.c 2199-2211: a
    condition without operands is a conjunction) *)
Definition rule (cs : list cond) (ops : list rop) (e : option rrule) : rrule := RRule (COND_BOOL BOOL_AND cs) ops e.

(** rewrite_rule_last_uncond, config.c 2378-2390, with the operation added to its result *)
Definition empty_bool (c : cond) : bool := match c with COND_BOOL _ [] => true | _ => false end.
Definition add_op (rules : list rrule) (o : rop) : list rrule :=
  match rev rules with
  | RRule c ops e :: front => if empty_bool c then rev front ++ [RRule c (ops ++ [o]) e] else rules ++ [rule [] [o] None]
  | [] => [rule [] [o] None]
  end.

(** rewrite_op_alloc, config.c 2121-2131, for the head at the given place; in a service
    through SETFN_SVC_DECL, config.c 2396-2411 *)
Definition put_op (wh : Z) (o : rop) (c : conf) : option conf :=
  match c_stack c with
  | FRule cs ops e r :: s => if Z.eqb wh OPHEAD then Some (with_stack c (FRule cs (ops ++ [o]) e r :: s)) else None
  | FSvc n cs rq rs :: s => if Z.eqb wh SVC_REWRITE then Some (with_stack c (FSvc n cs (add_op rq o) rs :: s)) else None
  | _ => None
  end.

Section Rules.
  Variable have_pcre : bool.                                   (* HAVE_LIBPCRE *)
  Variable compile : gptype -> gpflags -> bytes -> option pattern.   (* genpat_compile *)
  Variable lines : bytes -> option (list bytes).                (* fopen_include, fgets *)
  Variable acl_by_name : bytes -> option (list cidr).
  Variable parse_acl : list tok -> option (list cidr * nat).
  Variable pem_x509 : bytes -> option bytes.

  (** parse_match_mode, config.c 1156-1266: the type, the flags and whether -file was given,
      and the number of tokens taken.  [file_ok]: from_file is not NULL. *)
  Fixpoint parse_match_mode (file_ok : bool) (dfl_re_type t : gptype) (fl : gpflags) (from_file : bool) (ts : list tok)
    : option (gptype * gpflags * bool * nat) :=
    match ts with
    | Quoted _ :: _ => Some (t, fl, from_file, 0)
    | LexSpec.Literal w :: ts =>
        let next t fl f :=
          match parse_match_mode file_ok dfl_re_type t fl f ts with
          | Some (t, fl, f, n) => Some (t, fl, f, S n)
          | None => None
          end in
        match kw_to_tok optab w with
        | None => None
        | Some MATCH_CASE => next t (mkFlags false (f_multi fl)) from_file
        | Some MATCH_ICASE => next t (mkFlags true (f_multi fl)) from_file
        | Some MATCH_FILE => if file_ok then next t fl true else None
        | Some MATCH_RE => next dfl_re_type fl from_file
        | Some MATCH_POSIX => next GENPAT_POSIX fl from_file
        | Some MATCH_EXACT => next GENPAT_EXACT fl from_file
        | Some MATCH_BEG => next GENPAT_PREFIX fl from_file
        | Some MATCH_END => next GENPAT_SUFFIX fl from_file
        | Some MATCH_CONTAIN => next GENPAT_CONTAIN fl from_file
        | Some MATCH_PCRE => if have_pcre then next GENPAT_PCRE fl from_file else None
        end
    | _ => None
    end.

  (** host_prefix_regex, config.c 1268-1314 *)
  Definition host_type (t : gptype) : option HostModel.gp_type :=
    match t with
    | GENPAT_POSIX => Some HostModel.GENPAT_POSIX
    | GENPAT_EXACT => Some HostModel.GENPAT_EXACT
    | GENPAT_PREFIX => Some HostModel.GENPAT_PREFIX
    | GENPAT_SUFFIX => Some HostModel.GENPAT_SUFFIX
    | GENPAT_CONTAIN => Some HostModel.GENPAT_CONTAIN
    | GENPAT_PCRE => None
    end.
  Definition host_prefix_regex (t : gptype) (expr : bytes) : bytes * gptype :=
    match host_type t with
    | Some ht => (fst (HostModel.host_prefix_regex ht expr), GENPAT_POSIX)
    | None => (lit "^Host:\s*" ++ match expr with "^"%char :: e => e | e => e end, GENPAT_PCRE)
    end.

  (** The conditions that compare something with a pattern (enum service_cond_type) *)
  Inductive ckind := K_URL | K_PATH | K_QUERY | K_QUERY_PARAM (name : bytes) | K_HDR | K_HOST | K_STRING_MATCH (s : bytes).
  Definition cond_of (k : ckind) (re : pattern) : cond :=
    match k with
    | K_URL => COND_URL re
    | K_PATH => COND_PATH re
    | K_QUERY => COND_QUERY re
    | K_QUERY_PARAM n => COND_QUERY_PARAM n re
    | K_HDR => COND_HDR re
    | K_HOST => COND_HOST re
    | K_STRING_MATCH s => COND_STRING_MATCH s re
    end.

  (** config.c 1424-1437 and 1454-1467: the expression for one text, and *gp_type after it *)
  Definition expr_of (k : ckind) (t : gptype) (text : bytes) : bytes * gptype :=
    match k with K_HOST => host_prefix_regex t text | _ => (text, t) end.

  (** config.c 1409-1450: the lines of a pattern file *)
  Fixpoint file_conds (k : ckind) (t : gptype) (fl : gpflags) (ls : list bytes) : option (list cond) :=
    match ls with
    | [] => Some []
    | l :: ls =>
        match HostModel.trim_line l with
        | None => file_conds k t fl ls
        | Some p =>
            let '(expr, t) := expr_of k t p in
            match compile t fl expr, file_conds k t fl ls with
            | Some re, Some cs => Some (cond_of k re :: cs)
            | _, _ => None
            end
        end
    end.

  (** parse_cond_matcher_0 and parse_cond_matcher, config.c 1363-1501: the condition and the
      number of tokens taken *)
  Definition parse_cond_matcher (k : ckind) (dfl_re_type t : gptype) (fl : gpflags) (ts : list tok) : option (cond * nat) :=
    match parse_match_mode true dfl_re_type t fl false ts with
    | None => None
    | Some (t, fl, from_file, n) =>
        match skipn n ts with
        | Quoted s :: _ =>
            if from_file then
              match lines s with
              | None => None
              | Some ls =>
                  match file_conds k t fl ls with
                  | Some cs => Some (COND_BOOL BOOL_OR cs, S n)
                  | None => None
                  end
              end
            else
              let '(expr, t) := expr_of k t s in
              match compile t fl expr with
              | Some re => Some (cond_of k re, S n)
              | None => None
              end
        | _ => None
        end
    end.

  (** Add what was read at the given place *)
  Definition put_read (r : option (cond * nat)) (wh : Z) (c : conf) : option (conf * nat) :=
    match r with
    | Some (x, n) => match put_cond wh x c with Some c => Some (c, n) | None => None end
    | None => None
    end.
  Definition more (n : nat) (r : option (cond * nat)) : option (cond * nat) :=
    match r with Some (x, m) => Some (x, n + m) | None => None end.

  (** The default type and flags: config.c 1510-1538 (URL, Path, Query), 1580-1587 and
      1589-1599 (Header, HeadDeny), 1600-1606 (Host), 1540-1578 (QueryParam, StringMatch) *)
  Definition start_type (d : defaults) (k : ckind) : gptype := match k with K_HOST => GENPAT_EXACT | _ => re_type d end.
  Definition start_flags (d : defaults) (k : ckind) : gpflags :=
    match k with
    | K_HDR => mkFlags true true
    | K_HOST => mkFlags true false
    | _ => mkFlags (ignore_case d) false
    end.
  Definition parse_kind (k : ckind) (c : conf) (ts : list tok) : option (cond * nat) :=
    parse_cond_matcher k (re_type (c_dfl c)) (start_type (c_dfl c) k) (start_flags (c_dfl c) k) ts.

  Definition simple (k : ckind) : action conf := Read (fun wh c ts => put_read (parse_kind k c ts) wh c).
  (** parse_cond_query_param_matcher and parse_cond_string_matcher, config.c 1540-1578 *)
  Definition named (k : bytes -> ckind) : action conf :=
    Read (fun wh c ts => match ts with
                         | Quoted s :: ts => put_read (more 1 (parse_kind (k s) c ts)) wh c
                         | _ => None
                         end).
  (** parse_cond_head_deny_matcher, config.c 1589-1599 *)
  Definition negated (r : option (cond * nat)) : option (cond * nat) :=
    match r with Some (x, n) => Some (COND_BOOL BOOL_NOT [x], n) | None => None end.
  Definition head_deny : action conf := Read (fun wh c ts => put_read (negated (parse_kind K_HDR c ts)) wh c).
  (** parse_cond_basic_auth, config.c 1608-1619 *)
  Definition basic_auth : action conf :=
    Read (fun wh c ts => match ts with Quoted f :: _ => put_read (Some (COND_BASIC_AUTH f, 1)) wh c | _ => None end).
  (** parse_cond_client_cert, config.c 1621-1626, and assign_cert, 296-319 *)
  Definition client_cert : action conf :=
    Read (fun wh c ts => match ts with
                         | Quoted f :: _ =>
                             match pem_x509 f with
                             | Some x => put_read (Some (COND_CLIENT_CERT x, 1)) wh c
                             | None => None
                             end
                         | _ => None
                         end).
  (** parse_cond_acl, config.c 1503-1508, and parse_acl_ref, 599-631 *)
  Definition acl_cond : action conf :=
    Read (fun wh c ts => match ts with
                         | Newline :: _ =>
                             match parse_acl ts with
                             | Some (a, n) => put_read (Some (COND_ACL a, n)) wh c
                             | None => None
                             end
                         | Quoted w :: _ =>
                             match acl_by_name w with
                             | Some a => put_read (Some (COND_ACL a, 1)) wh c
                             | None => None
                             end
                         | _ => None
                         end).

  (** Begin an object inside the innermost one; end it *)
  Definition enter (f : frame) (c : conf) : conf := with_stack c (f :: c_stack c).
  Definition leave_bool (wh : Z) (c : conf) : option conf :=
    match c_stack c with FBool op l :: s => put_cond wh (COND_BOOL op l) (with_stack c s) | _ => None end.

  (** parse_match, config.c 1879-1904, and parse_cond, 2005-2013.  The condition is linked
      before its operands are read, in the place it has when they have been. *)
  Definition match_block : action conf :=
    Block (fun _ c ts => match ts with
                         | Ident w :: _ =>
                             if ci_eqb w (lit "and") then Some (enter (FBool BOOL_AND []) c, 1)
                             else if ci_eqb w (lit "or") then Some (enter (FBool BOOL_OR []) c, 1) else None
                         | _ :: _ => Some (enter (FBool BOOL_AND []) c, 0)
                         | [] => None
                         end) (fun _ => T_LOGCON) true leave_bool.
  (** parse_not_cond, config.c 1980-1990 *)
  Definition not_cond : action conf :=
    One (fun _ c => enter (FBool BOOL_NOT []) c) T_NEGATE
        (fun wh c => match leave_bool wh c with Some c => c | None => mkConf [] (c_dfl c) end).

  (** match_conditions, config.c 1908-1968 *)
  Definition match_conditions : list (entry conf) :=
    [ Reg (lit "ACL") false 0%Z acl_cond;
      Reg (lit "URL") false 0%Z (simple K_URL);
      Reg (lit "Path") false 0%Z (simple K_PATH);
      Reg (lit "Query") false 0%Z (simple K_QUERY);
      Reg (lit "QueryParam") false 0%Z (named K_QUERY_PARAM);
      Reg (lit "Header") false 0%Z (simple K_HDR);
      Alias (lit "HeadRequire") true;
      Reg (lit "HeadDeny") true 0%Z head_deny;
      Reg (lit "Host") false 0%Z (simple K_HOST);
      Reg (lit "BasicAuth") false 0%Z basic_auth;
      Reg (lit "StringMatch") false 0%Z (named K_STRING_MATCH);
      Reg (lit "Match") false 0%Z match_block;
      Reg (lit "NOT") false 0%Z not_cond;
      Reg (lit "ClientCert") false 0%Z client_cert ].
  (** match_response_conditions, config.c 2230-2248 *)
  Definition match_response_conditions : list (entry conf) :=
    [ Reg (lit "Header") false 0%Z (simple K_HDR);
      Reg (lit "StringMatch") false 0%Z (named K_STRING_MATCH);
      Reg (lit "Match") false 0%Z match_block;
      Reg (lit "NOT") false 0%Z not_cond ].

  Definition put_op_read (r : option (rop * nat)) (wh : Z) (c : conf) : option (conf * nat) :=
    match r with
    | Some (o, n) => match put_op wh o c with Some c => Some (c, n) | None => None end
    | None => None
    end.
  (** parse_rewrite_op, config.c 2133-2144 *)
  Definition set_op (o : bytes -> rop) : action conf :=
    Read (fun wh c ts => match ts with Quoted s :: _ => put_op_read (Some (o s, 1)) wh c | _ => None end).
  (** parse_set_query_param, config.c 2181-2197 *)
  Definition set_param : action conf :=
    Read (fun wh c ts => match ts with Quoted n :: Quoted v :: _ => put_op_read (Some (REWRITE_QUERY_PARAM_SET n v, 2)) wh c | _ => None end).
  (** parse_delete_header, config.c 2146-2155, and parse_regex_compat, 1316-1338 *)
  Definition parse_regex_compat (d : defaults) (ts : list tok) : option (pattern * nat) :=
    match parse_match_mode false (re_type d) (re_type d) (mkFlags (ignore_case d) false) false ts with
    | None => None
    | Some (t, fl, _, n) =>
        match skipn n ts with
        | Quoted s :: _ => match compile t fl s with Some re => Some (re, S n) | None => None end
        | _ => None
        end
    end.
  Definition delete_header : action conf :=
    Read (fun wh c ts => put_op_read (match parse_regex_compat (c_dfl c) ts with Some (re, n) => Some (REWRITE_HDR_DEL re, n) | None => None end) wh c).

  (** rewrite_ops, config.c 2026-2051 *)
  Definition rewrite_ops : list (entry conf) :=
    [ Reg (lit "SetHeader") false 0%Z (set_op REWRITE_HDR_SET);
      Reg (lit "DeleteHeader") false 0%Z delete_header;
      Reg (lit "SetURL") false 0%Z (set_op REWRITE_URL_SET);
      Reg (lit "SetPath") false 0%Z (set_op REWRITE_PATH_SET);
      Reg (lit "SetQuery") false 0%Z (set_op REWRITE_QUERY_SET);
      Reg (lit "SetQueryParam") false 0%Z set_param ].
  (** rewrite_response_ops, config.c 2250-2260 *)
  Definition rewrite_response_ops : list (entry conf) :=
    [ Reg (lit "SetHeader") false 0%Z (set_op REWRITE_HDR_SET);
      Reg (lit "DeleteHeader") false 0%Z delete_header ].

  (** parse_sub_rewrite and parse_response_sub_rewrite, config.c 2221-2228 and 2333-2340 *)
  Definition sub_rewrite (sub : nat) : action conf :=
    Block (fun _ c _ => Some (enter (FRule [] [] None false) c, 0)) (fun _ => sub) false
          (fun wh c => match c_stack c with
                       | FRule cs ops e _ :: s => put_op wh (REWRITE_REWRITE_RULE (rule cs ops e)) (with_stack c s)
                       | _ => None
                       end).
  (** parse_else and parse_response_else, config.c 2213-2219 and 2325-2331 *)
  Definition else_block (sub : nat) : action conf :=
    Block (fun _ c _ => Some (enter (FRule [] [] None false) c, 0)) (fun _ => sub) false
          (fun wh c => match c_stack c with
                       | FRule cs ops e _ :: FRule cs' ops' _ r :: s =>
                           if Z.eqb wh IFFALSE then Some (with_stack c (FRule cs' ops' (Some (rule cs ops e)) r :: s)) else None
                       | _ => None
                       end).

  (** parse_rewrite, config.c 2341-2376: the word that follows chooses the table and the list *)
  Definition rewrite_word (ts : list tok) : option (bool * nat) :=
    match ts with
    | Ident w :: _ =>
        if ci_eqb w (lit "response") then Some (true, 1) else if ci_eqb w (lit "request") then Some (false, 1) else None
    | _ :: _ => Some (false, 0)
    | [] => None
    end.
  Definition rewrite_block : action conf :=
    Block (fun _ c ts => match rewrite_word ts with
                         | Some (r, n) => Some (enter (FRule [] [] None r) c, n)
                         | None => None
                         end)
          (fun ts => match rewrite_word ts with Some (true, _) => T_RESPONSE | _ => T_RULE end) false
          (fun wh c => match c_stack c with
                       | FRule cs ops e r :: FSvc n ks rq rs :: s =>
                           if Z.eqb wh SVC_REWRITE then
                             Some (with_stack c ((if r then FSvc n ks rq (rs ++ [rule cs ops e]) else FSvc n ks (rq ++ [rule cs ops e]) rs) :: s))
                           else None
                       | _ => None
                       end).

  (** IgnoreCase: in a service assign_dfl_ignore_case, config.c 1871-1876; outside
      cfg_assign_bool, 4676-4680.  Both store to the defaults. *)
  Definition unquoted (k : tok) : option bytes :=
    match k with LexSpec.Ident w | LexSpec.Number w | LexSpec.Literal w => Some w | _ => None end.
  Definition ignore_case_stmt : action conf :=
    Read (fun _ c ts => match ts with
                        | k :: _ =>
                            match unquoted k with
                            | Some w => match NumModel.cfg_assign_bool w with
                                        | Some b => Some (mkConf (c_stack c) (mkDfl (re_type (c_dfl c)) b), 1)
                                        | None => None
                                        end
                            | None => None
                            end
                        | [] => None
                        end).

  Definition T_SERVICE := 6.   (* service_parsetab *)
  Definition T_TOP := 7.       (* top_level_parsetab, the entries for services *)

  (** find_service_ident, config.c 2625-2635 *)
  Definition name_used (w : bytes) (l : list psvc) : bool :=
    existsb (fun s => match ps_name s with Some n => bytes_eqb n w | None => false end) l.
  (** parse_service, config.c 2657-2698 *)
  Definition service_block : action conf :=
    Block (fun _ c ts => match ts, c_stack c with
                         | Quoted w :: _, FTop l :: _ => if name_used w l then None else Some (enter (FSvc (Some w) [] [] []) c, 1)
                         | _ :: _, _ => Some (enter (FSvc None [] [] []) c, 0)
                         | [], _ => None
                         end)
          (fun _ => T_SERVICE) true
          (fun _ c => match c_stack c with
                      | FSvc n cs rq rs :: FTop l :: s => Some (with_stack c (FTop (l ++ [mkPsvc n (COND_BOOL BOOL_AND cs) rq rs]) :: s))
                      | _ => None
                      end).

  (** config.c 2053-2118, 2265-2323, 1971-1978, 1992-2003, 2502-2623 *)
  Definition tables (t : nat) : list (entry conf) :=
    match t with
    | 0 => [ Reg (lit "End") false 0%Z End;
             Reg (lit "Rewrite") false OPHEAD (sub_rewrite T_RULE);
             Reg (lit "Else") false IFFALSE (else_block T_ELSE);
             SoftRef match_conditions COND; SoftRef rewrite_ops OPHEAD ]
    | 1 => [ Reg (lit "End") false 0%Z EndElse;
             Reg (lit "Rewrite") false OPHEAD (sub_rewrite T_RULE);
             Reg (lit "Else") false IFFALSE (else_block T_ELSE);
             SoftRef match_conditions COND; SoftRef rewrite_ops OPHEAD ]
    | 2 => [ Reg (lit "End") false 0%Z End;
             Reg (lit "Rewrite") false OPHEAD (sub_rewrite T_RESPONSE);
             Reg (lit "Else") false IFFALSE (else_block T_RESPONSE_ELSE);
             SoftRef match_response_conditions COND; SoftRef rewrite_response_ops OPHEAD ]
    | 3 => [ Reg (lit "End") false 0%Z EndElse;
             Reg (lit "Rewrite") false OPHEAD (sub_rewrite T_RESPONSE);
             Reg (lit "Else") false IFFALSE (else_block T_ELSE);
             SoftRef match_response_conditions COND; SoftRef rewrite_response_ops OPHEAD ]
    | 4 => [ SoftRef match_conditions 0%Z ]
    | 5 => [ Reg (lit "End") false 0%Z End; SoftRef match_conditions 0%Z ]
    | 6 => [ Reg (lit "End") false 0%Z End;
             SoftRef match_conditions SVC_COND;
             Reg (lit "Rewrite") false SVC_REWRITE rewrite_block;
             Reg (lit "SetHeader") false SVC_REWRITE (set_op REWRITE_HDR_SET);
             Reg (lit "DeleteHeader") false SVC_REWRITE delete_header;
             Reg (lit "SetURL") false SVC_REWRITE (set_op REWRITE_URL_SET);
             Reg (lit "SetPath") false SVC_REWRITE (set_op REWRITE_PATH_SET);
             Reg (lit "SetQuery") false SVC_REWRITE (set_op REWRITE_QUERY_SET);
             Reg (lit "SetQueryParam") false SVC_REWRITE set_param;
             Reg (lit "IgnoreCase") true 0%Z ignore_case_stmt ]
    | 7 => [ Reg (lit "Service") false 0%Z service_block;
             Reg (lit "IgnoreCase") true 0%Z ignore_case_stmt ]
    | _ => []
    end.

  (** The services of a configuration file.  Deprecated statements are not refused
      (parser_loop, config.c 998-1006).  [file]: the configuration file and what it includes. *)
  Definition no_services (d : defaults) : conf := mkConf [FTop []] d.
  Definition services_of (c : conf) : list psvc := match c_stack c with [FTop l] => l | _ => [] end.
  Definition read_services (file : bytes -> option (Z * list tok)) (fuel : nat) (d : defaults) (name : bytes) : result conf :=
    cfgparser_parse tables file false fuel T_TOP (no_services d) name.
End Rules.
