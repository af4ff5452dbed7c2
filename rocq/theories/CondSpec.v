(** What conditions, rewrite rules and service selection mean. *)
From Coq Require Import Ascii String List ZArith Bool.
From Verif Require Import Bytes ReqModel UrlModel AclModel XpdModel XpdSpec CondModel.
Import ListNotations.
Open Scope Z_scope.

(** ** Conditions *)

Inductive outcome := Yes | No | Err.
Definition code_of (v : outcome) : Z := match v with Yes => 1 | No => 0 | Err => -1 end.
Definition negated (v : outcome) : outcome := match v with Yes => No | No => Yes | Err => Err end.
Definition of_bool (b : bool) : outcome := if b then Yes else No.

(** The result of a check: 0 passed, -1 error, anything else refused. *)
Definition verdict (r : Z) : outcome := if r =? 0 then Yes else if r =? -1 then Err else No.

Definition is_group (c : cond) : Prop := match c with COND_BOOL _ _ => True | _ => False end.

(** A pattern matches a text, with these groups. *)
Definition matches (re : pattern) (s : bytes) (g : list (Z * Z)) : Prop := re s = Some g.
Definition fails (re : pattern) (s : bytes) : Prop := re s = None.

(** The answer of a pattern for a text, and what is remembered of the match. *)
Inductive asks (re : pattern) (s : bytes) : outcome -> submatch -> Prop :=
| as_yes : forall g, matches re s g -> asks re s Yes (mkSm (Some s) g)
| as_no : fails re s -> asks re s No sm_empty.

(** The first line of a list that a pattern matches. *)
Inductive line_asks (re : pattern) : list header -> outcome -> submatch -> Prop :=
| la_yes : forall pre h post g, Forall (fun x => fails re (h_text x)) pre -> matches re (h_text h) g ->
    line_asks re (pre ++ h :: post) Yes (mkSm (Some (h_text h)) g)
| la_no : forall hs, Forall (fun x => fails re (h_text x)) hs -> line_asks re hs No sm_empty.

Definition gap (c : byte) : Prop := c = SP \/ c = TAB \/ c = LF.

(** A match of a Host line, referred to the value of the field: the line is
    skipped up to the value, and the groups that follow move with it.  The first
    group is the line up to the end of the match. *)
Inductive host_view : submatch -> submatch -> Prop :=
| hv : forall w name w2 v so eo g,
    Forall gap w -> Forall gap w2 ->
    length name = 5%nat -> ~ begins gap name ->
    ~ begins gap v ->
    let n := Z.of_nat (length (w ++ name ++ w2)) in
    host_view (mkSm (Some (w ++ name ++ w2 ++ v)) ((so, eo) :: g))
              (mkSm (Some v) ((so, eo - n) :: map (fun x => (fst x - n, snd x - n)) g)).

(** What an elementary condition asks of a request, and the match it leaves for
    later references (None: it leaves none). *)
Inductive answer (e : env) (p : phttp) : cond -> outcome -> option submatch -> Prop :=
| an_acl : forall acl, answer e p (COND_ACL acl) (verdict (acl_match acl (e_from e))) None
| an_url : forall re v m, asks re (http_request_get_url (ph_req p)) v m -> answer e p (COND_URL re) v (Some m)
| an_path : forall re s v m, fst (http_request_get_path (ph_req p)) = Some s -> asks re s v m ->
    answer e p (COND_PATH re) v (Some m)
| an_query : forall re s v m, fst (http_request_get_query (ph_req p)) = Some s -> asks re s v m ->
    answer e p (COND_QUERY re) v (Some m)
| an_param : forall n re s v m, fst (http_request_get_query_param_value (ph_req p) n) = Some (Some s) ->
    asks re s v m -> answer e p (COND_QUERY_PARAM n re) v (Some m)
| an_no_param : forall n re, (forall s, fst (http_request_get_query_param_value (ph_req p) n) <> Some (Some s)) ->
    answer e p (COND_QUERY_PARAM n re) No None
| an_hdr : forall re v m, line_asks re (ph_headers p) v m -> answer e p (COND_HDR re) v (Some m)
| an_host : forall re m m', line_asks re (ph_headers p) Yes m -> host_view m m' ->
    answer e p (COND_HOST re) Yes (Some m')
| an_no_host : forall re m, line_asks re (ph_headers p) No m -> answer e p (COND_HOST re) No (Some m)
| an_auth : forall f, answer e p (COND_BASIC_AUTH f) (verdict (e_auth e f (ph_headers p))) None
| an_string : forall t re s p' v m, expand_string t p = SOk s p' -> asks re s v m ->
    answer e p (COND_STRING_MATCH t re) v (Some m)
| an_no_string : forall t re p', expand_string t p = SNull p' -> answer e p (COND_STRING_MATCH t re) Err None
| an_cert : forall x, answer e p (COND_CLIENT_CERT x) (of_bool (e_cert e x)) None.

(** The state after it: the request is as before, and the match is entered in
    the queue. *)
Definition alike (p p' : phttp) : Prop :=
  ph_headers p' = ph_headers p /\ same_req (ph_req p) (ph_req p').
Definition remembers (p : phttp) (m : option submatch) (p' : phttp) : Prop :=
  alike p p' /\ ph_smq p' = match m with Some m => pushed (ph_smq p) m | None => ph_smq p end.

(** *** The Boolean formula *)

(** Truth of a condition given the truth of its elementary conditions. *)
Fixpoint truth (A : cond -> bool) (c : cond) : bool :=
  match c with
  | COND_BOOL BOOL_AND l => forallb (truth A) l
  | COND_BOOL BOOL_OR [] => true
  | COND_BOOL BOOL_OR l => existsb (truth A) l
  | COND_BOOL BOOL_NOT (x :: _) => negb (truth A x)
  | COND_BOOL BOOL_NOT [] => true
  | c => A c
  end.

(** The elementary conditions of a condition. *)
Inductive atom_of (a : cond) : cond -> Prop :=
| ao_self : ~ is_group a -> atom_of a a
| ao_sub : forall op l c, In c l -> atom_of a c -> atom_of a (COND_BOOL op l).

(** A negation has an operand; the first counts. *)
Inductive formed : cond -> Prop :=
| fm_atom : forall c, ~ is_group c -> formed c
| fm_not : forall c l, formed c -> Forall formed l -> formed (COND_BOOL BOOL_NOT (c :: l))
| fm_group : forall op l, op <> BOOL_NOT -> Forall formed l -> formed (COND_BOOL op l).

(** [A] is right about every elementary condition of [c]; none of them is in
    error and none depends on earlier matches. *)
Definition settles (e : env) (p : phttp) (A : cond -> bool) (c : cond) : Prop :=
  forall a, atom_of a c ->
    (forall t re, a <> COND_STRING_MATCH t re) /\ exists m, answer e p a (of_bool (A a)) m.

(** *** Evaluation step by step *)

(** An operand after which a group looks no further. *)
Definition decisive (op : bool_op) (v : outcome) : Prop :=
  v = Err \/ (op = BOOL_AND /\ v = No) \/ (op = BOOL_OR /\ v = Yes).

(** [eval e c p tr v p']: examining [c] asks the elementary conditions of [tr] in
    order, with these answers, and yields [v]. *)
Inductive eval (e : env) : cond -> phttp -> list (cond * outcome) -> outcome -> phttp -> Prop :=
| ev_atom : forall c p v m p', ~ is_group c -> answer e p c v m -> remembers p m p' ->
    eval e c p [(c, v)] v p'
| ev_not : forall c l p tr v p', eval e c p tr v p' ->
    eval e (COND_BOOL BOOL_NOT (c :: l)) p tr (negated v) p'
| ev_empty : forall op p, op <> BOOL_NOT -> eval e (COND_BOOL op []) p [] Yes p
| ev_stop : forall op c l p tr v p', op <> BOOL_NOT -> eval e c p tr v p' -> decisive op v ->
    eval e (COND_BOOL op (c :: l)) p tr v p'
| ev_last : forall op c p tr v p', op <> BOOL_NOT -> eval e c p tr v p' -> ~ decisive op v ->
    eval e (COND_BOOL op [c]) p tr v p'
| ev_next : forall op c l p tr v p' tr' v' p'', op <> BOOL_NOT -> l <> [] -> eval e c p tr v p' -> ~ decisive op v ->
    eval e (COND_BOOL op l) p' tr' v' p'' -> eval e (COND_BOOL op (c :: l)) p (tr ++ tr') v' p''.

(** ** Rewrite rules *)

(** The alternatives of a rule, in order. *)
Fixpoint alternatives (r : rrule) : list (cond * list rop) :=
  match r with
  | RRule c ops None => [(c, ops)]
  | RRule c ops (Some r') => (c, ops) :: alternatives r'
  end.

(** [picks e alts p ops p']: the conditions are examined in order up to the first
    that holds; [ops] is what goes with it (None: none holds). *)
Inductive picks (e : env) : list (cond * list rop) -> phttp -> option (list rop) -> phttp -> Prop :=
| pk_none : forall p, picks e [] p None p
| pk_this : forall c ops alts p p', match_cond e c p = CRes 1 p' -> picks e ((c, ops) :: alts) p (Some ops) p'
| pk_next : forall c ops alts p r p' o p'', match_cond e c p = CRes r p' -> r <> 1 ->
    picks e alts p' o p'' -> picks e ((c, ops) :: alts) p o p''.

(** Expanding a template. *)
Definition expands (t : bytes) (p : phttp) (s : bytes) (p' : phttp) : Prop := expand_string t p = SOk s p'.

(** The template of an operation. *)
Inductive template : rop -> bytes -> Prop :=
| tm_hdr : forall t, template (REWRITE_HDR_SET t) t
| tm_url : forall t, template (REWRITE_URL_SET t) t
| tm_path : forall t, template (REWRITE_PATH_SET t) t
| tm_query : forall t, template (REWRITE_QUERY_SET t) t
| tm_param : forall n t, template (REWRITE_QUERY_PARAM_SET n t) t.

(** [r] = 0: done; otherwise the operation failed. *)
Inductive performs (e : env) : rop -> phttp -> Z -> phttp -> Prop :=
| pf_rule : forall r p v p', applies e r p v p' -> performs e (REWRITE_REWRITE_RULE r) p v p'
| pf_del : forall m p, performs e (REWRITE_HDR_DEL m) p 0
    (with_headers p (filter (fun h => match m (h_text h) with Some _ => false | None => true end) (ph_headers p)))
| pf_hdr : forall t p s p' v hs, expands t p s p' ->
    http_header_list_append (ph_headers p') s H_REPLACE = (v, hs) ->
    performs e (REWRITE_HDR_SET t) p v (with_headers p' hs)
| pf_url : forall t p s p', expands t p s p' ->
    performs e (REWRITE_URL_SET t) p 0 (with_req p' (http_request_set_url (ph_req p') s))
| pf_path : forall t p s p', expands t p s p' ->
    performs e (REWRITE_PATH_SET t) p 0 (with_req p' (http_request_set_path (ph_req p') s))
| pf_query : forall t p s p', expands t p s p' ->
    performs e (REWRITE_QUERY_SET t) p 0 (with_req p' (http_request_set_query (ph_req p') s))
| pf_param : forall n t p s p', expands t p s p' ->
    performs e (REWRITE_QUERY_PARAM_SET n t) p 0 (with_req p' (http_request_set_query_param (ph_req p') n (Some s)))
| pf_fail : forall o t p p', template o t -> expand_string t p = SNull p' -> performs e o p (-1) p'
with performs_all (e : env) : list rop -> phttp -> Z -> phttp -> Prop :=
| pa_nil : forall p, performs_all e [] p 0 p
| pa_next : forall o l p p' v p'', performs e o p 0 p' -> performs_all e l p' v p'' ->
    performs_all e (o :: l) p v p''
| pa_fail : forall o l p v p', performs e o p v p' -> v <> 0 -> performs_all e (o :: l) p v p'
with applies (e : env) : rrule -> phttp -> Z -> phttp -> Prop :=
| ap_none : forall r p p', picks e (alternatives r) p None p' -> applies e r p 0 p'
| ap_some : forall r p ops p' v p'', picks e (alternatives r) p (Some ops) p' ->
    performs_all e ops p' v p'' -> applies e r p v p''.

(** The rules of a list, in order, until one fails. *)
Inductive applies_all (e : env) : list rrule -> phttp -> Z -> phttp -> Prop :=
| aa_nil : forall p, applies_all e [] p 0 p
| aa_next : forall r l p p' v p'', applies e r p 0 p' -> applies_all e l p' v p'' ->
    applies_all e (r :: l) p v p''
| aa_fail : forall r l p v p', applies e r p v p' -> v <> 0 -> applies_all e (r :: l) p v p'.

(** ** Services *)

(** [s] is the first service of the list that is enabled and whose condition
    holds; the conditions of the enabled services before it are examined in turn. *)
Inductive selects (e : env) : list service -> phttp -> option service -> phttp -> Prop :=
| sl_none : forall p, selects e [] p None p
| sl_skip : forall s l p o p', svc_disabled s = true -> selects e l p o p' -> selects e (s :: l) p o p'
| sl_this : forall s l p p', svc_disabled s = false -> match_cond e (svc_cond s) p = CRes 1 p' ->
    selects e (s :: l) p (Some s) p'
| sl_next : forall s l p r p' o p'', svc_disabled s = false -> match_cond e (svc_cond s) p = CRes r p' -> r <> 1 ->
    selects e l p' o p'' -> selects e (s :: l) p o p''.
