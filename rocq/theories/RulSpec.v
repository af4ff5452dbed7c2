(** What the text of a Service section says, independently of the parser: statements as a
    tree, how they are written, and the conditions and rules they stand for. *)
From Coq Require Import Ascii String List ZArith Bool Arith.
From Verif Require Import Bytes AclModel XpdModel CondModel CondSpec CfgModel CfgSpec RulModel.
From Verif Require HostModel HostSpec LexSpec.
Import ListNotations.
Open Scope nat_scope.

(** ** Statements *)
Inductive gword := G_none | G_and | G_or.
(** Conditions: a comparison with a pattern or with those of a file, "HeadDeny", an access
    list by name or in place, a password file, a certificate, a group, a negation *)
Inductive cexp :=
| XKind (k : ckind) (opts : list mopt) (text : bytes)
| XDeny (opts : list mopt) (text : bytes)
| XAcl (name : bytes)
| XAclHere (ts : list tok)
| XAuth (f : bytes)
| XCert (f : bytes)
| XGroup (g : gword) (l : list cexp)
| XNot (x : cexp).
(** Modifications *)
Inductive mstmt :=
| M_header (s : bytes) | M_delete (opts : list mopt) (text : bytes)
| M_url (s : bytes) | M_path (s : bytes) | M_query (s : bytes) | M_param (n v : bytes).
(** The statements of a Rewrite section: the part before its Else, if it has one, and the
    part after it *)
Inductive rstmt := RS_cond (x : cexp) | RS_op (m : mstmt) | RS_sub (b : rbody)
with rbody := RBody (l : list rstmt) (els : option rbody).
(** The statements of a service and of the file *)
Inductive sstmt := S_cond (x : cexp) | S_op (m : mstmt) | S_rewrite (b : rbody) | S_request (b : rbody) | S_response (b : rbody) | S_ignore (b : bool).
Inductive fstmt := F_service (name : option bytes) (l : list sstmt) | F_ignore (b : bool).

(** ** How they are written *)
Inductive opt_word : bytes -> mopt -> Prop :=
| ow_re : opt_word (lit "-re") MATCH_RE
| ow_exact : opt_word (lit "-exact") MATCH_EXACT
| ow_beg : opt_word (lit "-beg") MATCH_BEG
| ow_end : opt_word (lit "-end") MATCH_END
| ow_contain : opt_word (lit "-contain") MATCH_CONTAIN
| ow_icase : opt_word (lit "-icase") MATCH_ICASE
| ow_case : opt_word (lit "-case") MATCH_CASE
| ow_file : opt_word (lit "-file") MATCH_FILE
| ow_posix : opt_word (lit "-posix") MATCH_POSIX
| ow_pcre : opt_word (lit "-pcre") MATCH_PCRE
| ow_perl : opt_word (lit "-perl") MATCH_PCRE.

Inductive keyword : ckind -> bytes -> list bytes -> Prop :=
| kw_url : keyword K_URL (lit "URL") []
| kw_path : keyword K_PATH (lit "Path") []
| kw_query : keyword K_QUERY (lit "Query") []
| kw_param : forall n, keyword (K_QUERY_PARAM n) (lit "QueryParam") [n]
| kw_header : keyword K_HDR (lit "Header") []
| kw_require : keyword K_HDR (lit "HeadRequire") []
| kw_host : keyword K_HOST (lit "Host") []
| kw_string : forall s, keyword (K_STRING_MATCH s) (lit "StringMatch") [s].

(** A keyword in any case *)
Inductive is_word (k : bytes) : tok -> Prop := iw : forall w, same_word k w -> is_word k (Ident w).
(** Options and text *)
Inductive pattern_text (opts : list mopt) (text : bytes) : list tok -> Prop :=
| pt : forall ws, Forall2 opt_word ws opts -> pattern_text opts text (map LexSpec.Literal ws ++ [Quoted text]).

Inductive group_word : gword -> list tok -> Prop :=
| gw_none : group_word G_none []
| gw_and : forall k, is_word (lit "and") k -> group_word G_and [k]
| gw_or : forall k, is_word (lit "or") k -> group_word G_or [k].

(** A condition, and a sequence of conditions: one to a line, with empty lines *)
Inductive prints : cexp -> list tok -> Prop :=
| pr_kind : forall k opts text kw args t ts, keyword k kw args -> is_word kw t -> pattern_text opts text ts ->
    prints (XKind k opts text) (t :: map Quoted args ++ ts)
| pr_deny : forall opts text t ts, is_word (lit "HeadDeny") t -> pattern_text opts text ts -> prints (XDeny opts text) (t :: ts)
| pr_acl : forall n t, is_word (lit "ACL") t -> prints (XAcl n) [t; Quoted n]
| pr_acl_here : forall t ts, is_word (lit "ACL") t -> prints (XAclHere (Newline :: ts)) (t :: Newline :: ts)
| pr_auth : forall f t, is_word (lit "BasicAuth") t -> prints (XAuth f) [t; Quoted f]
| pr_cert : forall f t, is_word (lit "ClientCert") t -> prints (XCert f) [t; Quoted f]
| pr_group : forall g l t ts body e, is_word (lit "Match") t -> group_word g ts -> prints_all l body -> is_word (lit "End") e ->
    prints (XGroup g l) (t :: ts ++ Newline :: body ++ [e])
| pr_not : forall x t ts, is_word (lit "NOT") t -> (forall y, x <> XNot y) -> prints x ts -> prints (XNot x) (t :: ts)
with prints_all : list cexp -> list tok -> Prop :=
| pa_end : prints_all [] []
| pa_blank : forall l ts, prints_all l ts -> prints_all l (Newline :: ts)
| pa_line : forall x l ts ts', prints x ts -> prints_all l ts' -> prints_all (x :: l) (ts ++ Newline :: ts').

Inductive prints_op : mstmt -> list tok -> Prop :=
| po_header : forall s t, is_word (lit "SetHeader") t -> prints_op (M_header s) [t; Quoted s]
| po_delete : forall opts text t ts, is_word (lit "DeleteHeader") t -> pattern_text opts text ts -> prints_op (M_delete opts text) (t :: ts)
| po_url : forall s t, is_word (lit "SetURL") t -> prints_op (M_url s) [t; Quoted s]
| po_path : forall s t, is_word (lit "SetPath") t -> prints_op (M_path s) [t; Quoted s]
| po_query : forall s t, is_word (lit "SetQuery") t -> prints_op (M_query s) [t; Quoted s]
| po_param : forall n v t, is_word (lit "SetQueryParam") t -> prints_op (M_param n v) [t; Quoted n; Quoted v].

(** The body of a Rewrite section, without its End: an Else has no End of its own *)
Inductive prints_rstmt : rstmt -> list tok -> Prop :=
| prs_cond : forall x ts, prints x ts -> prints_rstmt (RS_cond x) ts
| prs_op : forall m ts, prints_op m ts -> prints_rstmt (RS_op m) ts
| prs_sub : forall b t ts e, is_word (lit "Rewrite") t -> prints_body b ts -> is_word (lit "End") e ->
    prints_rstmt (RS_sub b) (t :: Newline :: ts ++ [e])
with prints_body : rbody -> list tok -> Prop :=
| pb_plain : forall l ts, prints_items l ts -> prints_body (RBody l None) ts
| pb_else : forall l ts t b ts', prints_items l ts -> is_word (lit "Else") t -> prints_body b ts' ->
    prints_body (RBody l (Some b)) (ts ++ t :: Newline :: ts')
with prints_items : list rstmt -> list tok -> Prop :=
| pi_end : prints_items [] []
| pi_blank : forall l ts, prints_items l ts -> prints_items l (Newline :: ts)
| pi_line : forall s l ts ts', prints_rstmt s ts -> prints_items l ts' -> prints_items (s :: l) (ts ++ Newline :: ts').

(** The statements admitted in the rules for responses *)
Inductive for_response : rstmt -> Prop :=
| fr_header : forall opts text, for_response (RS_cond (XKind K_HDR opts text))
| fr_string : forall s opts text, for_response (RS_cond (XKind (K_STRING_MATCH s) opts text))
| fr_group : forall g l, for_response (RS_cond (XGroup g l))
| fr_not : forall x, for_response (RS_cond (XNot x))
| fr_set : forall s, for_response (RS_op (M_header s))
| fr_delete : forall opts text, for_response (RS_op (M_delete opts text))
| fr_sub : forall b, body_for_response b -> for_response (RS_sub b)
with body_for_response : rbody -> Prop :=
| bfr_plain : forall l, items_for_response l -> body_for_response (RBody l None)
| bfr_else : forall l b, items_for_response l -> body_for_response b -> body_for_response (RBody l (Some b))
with items_for_response : list rstmt -> Prop :=
| ifr_nil : items_for_response []
| ifr_cons : forall s l, for_response s -> items_for_response l -> items_for_response (s :: l).
Definition true_word (w : bytes) : Prop := In w (map lit ["1"; "yes"; "true"; "on"]%string).
Definition false_word (w : bytes) : Prop := In w (map lit ["0"; "no"; "false"; "off"]%string).
Inductive bool_word : bool -> tok -> Prop :=
| bw_true : forall k w, unquoted k = Some w -> true_word w -> bool_word true k
| bw_false : forall k w, unquoted k = Some w -> false_word w -> bool_word false k.

Inductive prints_sstmt : sstmt -> list tok -> Prop :=
| pss_cond : forall x ts, prints x ts -> prints_sstmt (S_cond x) ts
| pss_op : forall m ts, prints_op m ts -> prints_sstmt (S_op m) ts
| pss_rewrite : forall b t ts e, is_word (lit "Rewrite") t -> prints_body b ts -> is_word (lit "End") e ->
    prints_sstmt (S_rewrite b) (t :: Newline :: ts ++ [e])
| pss_request : forall b t k ts e, is_word (lit "Rewrite") t -> is_word (lit "request") k -> prints_body b ts -> is_word (lit "End") e ->
    prints_sstmt (S_request b) (t :: k :: Newline :: ts ++ [e])
| pss_response : forall b t k ts e, is_word (lit "Rewrite") t -> is_word (lit "response") k ->
    body_for_response b -> (forall w, In (Ident w) ts -> ~ same_word (lit "HeadRequire") w) ->
    prints_body b ts -> is_word (lit "End") e ->
    prints_sstmt (S_response b) (t :: k :: Newline :: ts ++ [e])
| pss_ignore : forall b t k, is_word (lit "IgnoreCase") t -> bool_word b k -> prints_sstmt (S_ignore b) [t; k].
Inductive prints_service : list sstmt -> list tok -> Prop :=
| psv_end : prints_service [] []
| psv_blank : forall l ts, prints_service l ts -> prints_service l (Newline :: ts)
| psv_line : forall s l ts ts', prints_sstmt s ts -> prints_service l ts' -> prints_service (s :: l) (ts ++ Newline :: ts').
Inductive prints_file : list fstmt -> list tok -> Prop :=
| pf_end : prints_file [] []
| pf_blank : forall l ts, prints_file l ts -> prints_file l (Newline :: ts)
| pf_service : forall name l t ts e fs ts', is_word (lit "Service") t -> prints_service l ts -> is_word (lit "End") e -> prints_file fs ts' ->
    prints_file (F_service name l :: fs)
      (t :: (match name with Some w => [Quoted w] | None => [] end) ++ Newline :: ts ++ e :: Newline :: ts')
| pf_ignore : forall b t k fs ts, is_word (lit "IgnoreCase") t -> bool_word b k -> prints_file fs ts ->
    prints_file (F_ignore b :: fs) (t :: k :: Newline :: ts).

(** ** What they say *)

(** The last option that determines something, or its default *)
Definition setting {A} (f : mopt -> option A) (dfl : A) (opts : list mopt) (x : A) : Prop :=
  (exists l1 o l2, opts = l1 ++ o :: l2 /\ f o = Some x /\ Forall (fun o => f o = None) l2) \/
  (Forall (fun o => f o = None) opts /\ x = dfl).
Definition type_option (dfl_re_type : gptype) (o : mopt) : option gptype :=
  match o with
  | MATCH_RE => Some dfl_re_type
  | MATCH_POSIX => Some GENPAT_POSIX
  | MATCH_PCRE => Some GENPAT_PCRE
  | MATCH_EXACT => Some GENPAT_EXACT
  | MATCH_BEG => Some GENPAT_PREFIX
  | MATCH_END => Some GENPAT_SUFFIX
  | MATCH_CONTAIN => Some GENPAT_CONTAIN
  | _ => None
  end.
Definition case_option (o : mopt) : option bool :=
  match o with MATCH_ICASE => Some true | MATCH_CASE => Some false | _ => None end.

Section Says.
  Variable have_pcre : bool.
  Variable compile : gptype -> gpflags -> bytes -> option pattern.
  Variable lines : bytes -> option (list bytes).
  Variable acl_by_name : bytes -> option (list cidr).
  Variable parse_acl : list tok -> option (list cidr * nat).
  Variable pem_x509 : bytes -> option bytes.

  (** The type of a pattern and its flags, as the options say: by default the type set
      globally (a Host is compared exactly), without regard to case for Host and Header and
      as set by IgnoreCase elsewhere; a Header looks at every line *)
  Definition chosen (dfl_re_type start : gptype) (icase multi : bool) (opts : list mopt) (t : gptype) (fl : gpflags) : Prop :=
    setting (type_option dfl_re_type) start opts t /\ setting case_option icase opts (f_icase fl) /\ f_multi fl = multi /\
    (In MATCH_PCRE opts -> have_pcre = true).
  Definition kind_chosen (d : defaults) (k : ckind) (opts : list mopt) (t : gptype) (fl : gpflags) : Prop :=
    match k with
    | K_HOST => chosen (re_type d) GENPAT_EXACT true false opts t fl
    | K_HDR => chosen (re_type d) (re_type d) true true opts t fl
    | _ => chosen (re_type d) (re_type d) (ignore_case d) false opts t fl
    end.

  (** A comparison with one text.  What the expression for a Host means is C45. *)
  Definition compares (k : ckind) (t : gptype) (fl : gpflags) (text : bytes) (c : cond) : Prop :=
    exists re, c = cond_of k re /\
    match k with
    | K_HOST => compile (snd (host_prefix_regex t text)) fl (fst (host_prefix_regex t text)) = Some re
    | _ => compile t fl text = Some re
    end.
  (** The lines of a pattern file that count *)
  Fixpoint counted (ls : list bytes) : list bytes :=
    match ls with
    | [] => []
    | l :: ls => match HostModel.trim_line l with Some p => p :: counted ls | None => counted ls end
    end.
  (** The comparisons with the lines of a file.  (For Host, see C45_file_refuted: the lines
      after the first are taken for regular expressions.) *)
  Inductive compares_all (k : ckind) (fl : gpflags) : gptype -> list bytes -> list cond -> Prop :=
  | ca_nil : forall t, compares_all k fl t [] []
  | ca_cons : forall t l ls c cs, compares k t fl l c ->
      compares_all k fl (match k with K_HOST => snd (host_prefix_regex t l) | _ => t end) ls cs ->
      compares_all k fl t (l :: ls) (c :: cs).

  (** The condition a comparison stands for *)
  Inductive kind_says (d : defaults) (k : ckind) (opts : list mopt) (text : bytes) : cond -> Prop :=
  | ks_text : forall t fl c, kind_chosen d k opts t fl -> ~ In MATCH_FILE opts -> compares k t fl text c -> kind_says d k opts text c
  | ks_file : forall t fl ls cs, kind_chosen d k opts t fl -> In MATCH_FILE opts -> lines text = Some ls ->
      compares_all k fl t (counted ls) cs -> kind_says d k opts text (COND_BOOL BOOL_OR cs).

  Inductive says (d : defaults) : cexp -> cond -> Prop :=
  | sy_kind : forall k opts text c, kind_says d k opts text c -> says d (XKind k opts text) c
  | sy_deny : forall opts text c, kind_says d K_HDR opts text c -> says d (XDeny opts text) (COND_BOOL BOOL_NOT [c])
  | sy_acl : forall n a, acl_by_name n = Some a -> says d (XAcl n) (COND_ACL a)
  | sy_acl_here : forall ts a, (forall rest, parse_acl (ts ++ rest) = Some (a, length ts)) -> says d (XAclHere ts) (COND_ACL a)
  | sy_auth : forall f, says d (XAuth f) (COND_BASIC_AUTH f)
  | sy_cert : forall f x, pem_x509 f = Some x -> says d (XCert f) (COND_CLIENT_CERT x)
  | sy_group : forall g l cs, says_all d l cs -> says d (XGroup g l) (COND_BOOL (match g with G_or => BOOL_OR | _ => BOOL_AND end) cs)
  | sy_not : forall x c, says d x c -> says d (XNot x) (COND_BOOL BOOL_NOT [c])
  with says_all (d : defaults) : list cexp -> list cond -> Prop :=
  | sa_nil : says_all d [] []
  | sa_cons : forall x l c cs, says d x c -> says_all d l cs -> says_all d (x :: l) (c :: cs).

  Inductive says_op (d : defaults) : mstmt -> rop -> Prop :=
  | so_header : forall s, says_op d (M_header s) (REWRITE_HDR_SET s)
  | so_delete : forall opts text t fl re, chosen (re_type d) (re_type d) (ignore_case d) false opts t fl -> ~ In MATCH_FILE opts ->
      compile t fl text = Some re -> says_op d (M_delete opts text) (REWRITE_HDR_DEL re)
  | so_url : forall s, says_op d (M_url s) (REWRITE_URL_SET s)
  | so_path : forall s, says_op d (M_path s) (REWRITE_PATH_SET s)
  | so_query : forall s, says_op d (M_query s) (REWRITE_QUERY_SET s)
  | so_param : forall n v, says_op d (M_param n v) (REWRITE_QUERY_PARAM_SET n v).

  (** A rule: the conjunction of its conditions, its modifications in the order of the text,
      and what follows Else *)
  Inductive says_body (d : defaults) : rbody -> rrule -> Prop :=
  | sb_plain : forall l cs ops, says_items d l cs ops -> says_body d (RBody l None) (RRule (COND_BOOL BOOL_AND cs) ops None)
  | sb_else : forall l cs ops b r, says_items d l cs ops -> says_body d b r ->
      says_body d (RBody l (Some b)) (RRule (COND_BOOL BOOL_AND cs) ops (Some r))
  with says_items (d : defaults) : list rstmt -> list cond -> list rop -> Prop :=
  | si_nil : says_items d [] [] []
  | si_cond : forall x l c cs ops, says d x c -> says_items d l cs ops -> says_items d (RS_cond x :: l) (c :: cs) ops
  | si_op : forall m l o cs ops, says_op d m o -> says_items d l cs ops -> says_items d (RS_op m :: l) cs (o :: ops)
  | si_sub : forall b l r cs ops, says_body d b r -> says_items d l cs ops ->
      says_items d (RS_sub b :: l) cs (REWRITE_REWRITE_RULE r :: ops).

  (** A service: its conditions; the modifications of requests, each by itself, in the order
      of the text; and the rules for responses.  IgnoreCase changes the defaults from its
      place on. *)
  Inductive service_says : defaults -> list sstmt -> defaults -> list cond -> list rrule -> list rrule -> Prop :=
  | ss_nil : forall d, service_says d [] d [] [] []
  | ss_cond : forall d x l d' c cs rq rs, says d x c -> service_says d l d' cs rq rs -> service_says d (S_cond x :: l) d' (c :: cs) rq rs
  | ss_op : forall d m l d' o cs rq rs, says_op d m o -> service_says d l d' cs rq rs ->
      service_says d (S_op m :: l) d' cs (RRule (COND_BOOL BOOL_AND []) [o] None :: rq) rs
  | ss_rewrite : forall d b l d' r cs rq rs, says_body d b r -> service_says d l d' cs rq rs -> service_says d (S_rewrite b :: l) d' cs (r :: rq) rs
  | ss_request : forall d b l d' r cs rq rs, says_body d b r -> service_says d l d' cs rq rs -> service_says d (S_request b :: l) d' cs (r :: rq) rs
  | ss_response : forall d b l d' r cs rq rs, says_body d b r -> service_says d l d' cs rq rs -> service_says d (S_response b :: l) d' cs rq (r :: rs)
  | ss_ignore : forall d b l d' cs rq rs, service_says (mkDfl (re_type d) b) l d' cs rq rs -> service_says d (S_ignore b :: l) d' cs rq rs.
  Inductive file_says : defaults -> list fstmt -> defaults -> list psvc -> Prop :=
  | fs_nil : forall d, file_says d [] d []
  | fs_service : forall d name l d1 cs rq rs fs d2 ss, service_says d l d1 cs rq rs -> file_says d1 fs d2 ss ->
      file_says d (F_service name l :: fs) d2 (mkPsvc name (COND_BOOL BOOL_AND cs) rq rs :: ss)
  | fs_ignore : forall d b fs d2 ss, file_says (mkDfl (re_type d) b) fs d2 ss -> file_says d (F_ignore b :: fs) d2 ss.
End Says.

(** The names of services *)
Fixpoint names (fs : list fstmt) : list bytes :=
  match fs with
  | F_service (Some w) _ :: fs => w :: names fs
  | _ :: fs => names fs
  | [] => []
  end.

(** Services that do the same: the same name, condition and rules for responses, and the same
    effect on every request *)
Definition same_service (s s' : psvc) : Prop :=
  ps_name s = ps_name s' /\ ps_cond s = ps_cond s' /\ ps_response s = ps_response s' /\
  forall e p, rewrite_apply e (ps_request s) p = rewrite_apply e (ps_request s') p.

(** ** The truth of a condition *)
(** given that of the elementary statements *)
Fixpoint formula (v : cexp -> bool) (x : cexp) : bool :=
  match x with
  | XNot y => negb (formula v y)
  | XGroup G_or l => existsb (formula v) l
  | XGroup _ l => forallb (formula v) l
  | XDeny opts text => negb (v (XKind K_HDR opts text))
  | x => v x
  end.
(** The elementary statements of a condition *)
Inductive part_of (y : cexp) : cexp -> Prop :=
| po_self : (forall g l, y <> XGroup g l) -> (forall x, y <> XNot x) -> (forall opts text, y <> XDeny opts text) -> part_of y y
| po_deny : forall opts text, y = XKind K_HDR opts text -> part_of y (XDeny opts text)
| po_in : forall g l x, In x l -> part_of y x -> part_of y (XGroup g l)
| po_not : forall x, part_of y x -> part_of y (XNot x).
(** No group says "or" of nothing *)
Inductive no_empty_or : cexp -> Prop :=
| neo_part : forall x, (forall g l, x <> XGroup g l) -> (forall y, x <> XNot y) -> no_empty_or x
| neo_group : forall g l, (g = G_or -> l <> []) -> Forall no_empty_or l -> no_empty_or (XGroup g l)
| neo_not : forall x, no_empty_or x -> no_empty_or (XNot x).

(** Every condition in a rule, and in a service, has operands for its negations *)
Inductive formed_rule : rrule -> Prop :=
| fr_rule : forall c ops els, formed c -> (forall r, In (REWRITE_REWRITE_RULE r) ops -> formed_rule r) -> (forall r, els = Some r -> formed_rule r) ->
    formed_rule (RRule c ops els).
Definition formed_service (s : psvc) : Prop := formed (ps_cond s) /\ Forall formed_rule (ps_request s) /\ Forall formed_rule (ps_response s).
(** The names services have *)
Definition service_names (ss : list psvc) : list bytes := flat_map (fun s => match ps_name s with Some n => [n] | None => [] end) ss.
