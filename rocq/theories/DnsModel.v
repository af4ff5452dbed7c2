(** Model of the resolver, src/resolver.c 34-40, 185-320, 330-653, and of what a dynamic backend
    does with its answers, src/dynbe.c 23-39, 61-198, 481-485, 681-687, 692-722.

    The library adns is outside: a query gets an error number or an answer ([server]).  Its
    constants are those of adns.h (adns 1.6).  One dynamic backend is looked at; a run of its job
    is one step, and a cancelled job goes at once (see JobModel for the queue).  Not modelled:
    running out of memory. *)
From Coq Require Import String List Arith ZArith Bool.
From Verif Require Import Bytes HashModel DynModel.
Import ListNotations.
Local Open Scope Z_scope.

(** ** Queries *)
Inductive rrtype := R_A | R_AAAA | R_SRV | R_CNAME.

(** adns_answer; of [a_addrs], [a_srvs] and [a_cname] the one that belongs to the type of the query *)
Record answer := mkAns { a_status : Z; a_expires : Z; a_addrs : list (list Z); a_srvs : list srv; a_cname : bytes }.
Inductive reply := Errno (e : Z) | Answer (a : answer).
(** adns_synchronous: the reply to the n-th query made *)
Definition server := nat -> rrtype -> bytes -> reply.

(** adns.h *)
Definition adns_s_ok : Z := 0.
Definition adns_s_max_localfail : Z := 29.
Definition adns_s_timeout : Z := 30.
Definition adns_s_allservfail : Z := 31.
Definition adns_s_norecurse : Z := 32.
Definition adns_s_max_remotefail : Z := 59.
Definition adns_s_rcodeservfail : Z := 60.
Definition adns_s_rcoderefused : Z := 63.
Definition adns_s_max_tempfail : Z := 99.
Definition adns_s_prohibitedcname : Z := 101.
Definition adns_s_max_misconfig : Z := 199.
Definition adns_s_max_misquery : Z := 299.
Definition adns_s_nxdomain : Z := 300.
Definition adns_s_nodata : Z := 301.

(** src/resolver.h 28-34 *)
Inductive dns_status := dns_success | dns_failure | dns_temp_failure | dns_not_found.
Definition status_code (s : dns_status) : Z :=
  match s with dns_success => 0 | dns_failure => 1 | dns_temp_failure => 2 | dns_not_found => 3 end.

(** src/resolver.c 185-224 *)
Definition adns_to_dns_tab : list (Z * dns_status) :=
  [ (adns_s_ok, dns_success);
    (1, dns_failure);                    (* nomemory *)
    (2, dns_failure);                    (* unknownrrtype *)
    (3, dns_failure);                    (* systemfail *)
    (adns_s_timeout, dns_temp_failure);
    (adns_s_allservfail, dns_temp_failure);
    (adns_s_norecurse, dns_temp_failure);
    (33, dns_failure);                   (* invalidresponse *)
    (34, dns_failure);                   (* unknownformat *)
    (adns_s_rcodeservfail, dns_not_found);
    (61, dns_not_found);                 (* rcodeformaterror *)
    (62, dns_not_found);                 (* rcodenotimplemented *)
    (adns_s_rcoderefused, dns_not_found);
    (64, dns_not_found);                 (* rcodeunknown *)
    (100, dns_not_found);                (* inconsistent *)
    (adns_s_prohibitedcname, dns_not_found);
    (102, dns_not_found);                (* answerdomaininvalid *)
    (103, dns_not_found);                (* answerdomaintoolong *)
    (104, dns_not_found);                (* invaliddata *)
    (200, dns_failure);                  (* querydomainwrong *)
    (201, dns_failure);                  (* querydomaininvalid *)
    (202, dns_failure);                  (* querydomaintoolong *)
    (adns_s_nxdomain, dns_not_found);
    (adns_s_nodata, dns_not_found) ].

Fixpoint lookup (l : list (Z * dns_status)) (e : Z) : option dns_status :=
  match l with
  | [] => None
  | (k, s) :: l' => if k =? e then Some s else lookup l' e
  end.

(** adns_to_dns_status, 227-257 *)
Definition adns_to_dns_status (e : Z) : dns_status :=
  if e <? 0 then dns_failure
  else match lookup adns_to_dns_tab e with
       | Some s => s
       | None =>
           if e <? adns_s_max_localfail then dns_failure
           else if e <? adns_s_max_remotefail then dns_not_found
           else if e <? adns_s_max_tempfail then dns_temp_failure
           else dns_not_found
       end.

(** errno_to_dns_status, 259-278; EAGAIN, EINPROGRESS and ETIMEDOUT of Linux *)
Definition errno_to_dns_status (e : Z) : dns_status :=
  if e =? 0 then dns_success
  else if (e =? 11) || (e =? 115) || (e =? 110) then dns_temp_failure
  else dns_failure.

(** ** Following CNAMEs *)
Section Query.
  (** Bytes that malloc (1) gives, at least 1; CNAMEChain *)
  Variables (usable max_chain : Z).
  Variable dns : server.

  (** cname_install, 303-319: the names in the table, if the name was new.  The table is a list
      here, see HashProps. *)
  Inductive install := Overflow | Exists | Installed (names : list bytes).
  Definition cname_install (names : list bytes) (name : bytes) : install :=
    if usable <? Z.of_nat (length name) + 1 then Overflow
    else if existsb (fun x => cname_cmp0 x name) names then Exists
    else Installed (name :: names).

  Inductive followed := FOverflow | FFuel | F (rc : Z) (ans : answer) (n : nat).

  (** The loop, 357-404.  [n]: queries made so far; the number of names is cname_count *)
  Fixpoint follow (fuel : nat) (name : bytes) (type : rrtype) (names : list bytes) (ans : answer) (n : nat) : followed :=
    match fuel with
    | O => FFuel
    | S fuel' =>
        if Z.of_nat (length names) - 1 <=? max_chain then
          match dns n R_CNAME name with
          | Errno e => F e ans (S n)
          | Answer c =>
              if a_status c =? adns_s_ok then
                match cname_install names (a_cname c) with
                | Overflow => FOverflow
                | Exists => F 0 ans (S n)
                | Installed names' => follow fuel' name type names' ans (S n)
                end
              else if a_status c =? adns_s_nodata then
                match dns (S n) type name with
                | Errno e => F e ans (S (S n))
                | Answer a => F 0 a (S (S n))
                end
              else F 0 c (S n)
          end
        else F 0 ans n
    end.

  Inductive queried := QOverflow | QFuel | QError (st : dns_status) (n : nat) | QOk (a : answer) (n : nat).

  (** dns_query, 330-410 *)
  Definition dns_query (n : nat) (name : bytes) (type : rrtype) : queried :=
    let finish (rc : Z) (a : answer) (n : nat) :=
      if rc =? 0 then QOk a n else QError (adns_to_dns_status rc) n in
    match dns n type name with
    | Errno e => QError (adns_to_dns_status e) (S n)
    | Answer a =>
        if (a_status a =? adns_s_prohibitedcname) && (1 <? max_chain) then
          match cname_install [] name with
          | Overflow => QOverflow
          | Exists => QOk a (S n)                    (* not possible: the table is empty *)
          | Installed names =>
              match follow (Z.to_nat max_chain + 2) name type names a (S n) with
              | FOverflow => QOverflow
              | FFuel => QFuel
              | F rc a n => finish rc a n
              end
          end
        else QOk a (S n)
    end.

  (** struct dns_response: [r_addrs] or [r_srvs] *)
  Record response := mkResp { r_expires : Z; r_addrs : list (list Z); r_srvs : list srv }.
  Inductive looked := LOverflow | LFuel | L (st : dns_status) (r : option response) (n : nat).

  Definition nrrs (type : rrtype) (a : answer) : nat :=
    match type with R_A | R_AAAA => length (a_addrs a) | R_SRV => length (a_srvs a) | R_CNAME => 1 end.

  (** dns_generic_lookup, 412-493, for the types R_A, R_AAAA and R_SRV; the status of dns_query is
      taken for an error number (441) *)
  Definition dns_generic_lookup (n : nat) (name : bytes) (type : rrtype) : looked :=
    match dns_query n name type with
    | QOverflow => LOverflow
    | QFuel => LFuel
    | QError st n => L (errno_to_dns_status (status_code st)) None n
    | QOk a n =>
        if negb (a_status a =? adns_s_ok) then L (adns_to_dns_status (a_status a)) None n
        else if Nat.eqb (nrrs type a) 0 then L dns_not_found None n
        else L dns_success (Some (mkResp (a_expires a)
               (match type with R_A | R_AAAA => a_addrs a | _ => [] end)
               (match type with R_SRV => a_srvs a | _ => [] end))) n
    end.

  Inductive family := AF_INET | AF_INET6 | AF_UNSPEC.

  (** dns_addr_lookup, 542-609: the number of queries is not needed after it *)
  Definition dns_addr_lookup (name : bytes) (f : family) : looked :=
    match f with
    | AF_INET => dns_generic_lookup 0 name R_A
    | AF_INET6 => dns_generic_lookup 0 name R_AAAA
    | AF_UNSPEC =>
        match dns_generic_lookup 0 name R_A with
        | L rc r4 n =>
            match dns_generic_lookup n name R_AAAA with
            | L st6 r6 n =>
                let ok := match rc with dns_success => true | _ => false end in
                let merge (rc : dns_status) :=
                  match r4, r6 with
                  | None, _ => L rc r6 n
                  | _, None => L rc r4 n
                  | Some a, Some b =>
                      L rc (Some (mkResp (if r_expires a <? r_expires b then r_expires a else r_expires b)
                                         (r_addrs a ++ r_addrs b) [])) n
                  end in
                match st6 with
                | dns_success => merge dns_success
                | dns_not_found => if ok then merge rc else L dns_not_found None n
                | dns_temp_failure => if ok then merge rc else L rc None n
                | dns_failure => if ok then merge rc else L dns_failure None n
                end
            | e => e
            end
        | e => e
        end
    end.

  (** srv_cmp, 625-638 *)
  Fixpoint strcasecmp (a b : bytes) : Z :=
    match a, b with
    | [], [] => 0
    | [], _ => -1
    | _, [] => 1
    | x :: a', y :: b' =>
        let d := code (to_lower x) - code (to_lower y) in if d =? 0 then strcasecmp a' b' else d
    end.
  Definition srv_cmp (a b : srv) : Z :=
    let rc := s_prio a - s_prio b in
    if rc =? 0 then let rc := s_weight b - s_weight a in if rc =? 0 then strcasecmp (s_host a) (s_host b) else rc
    else rc.

  (** qsort of the C library *)
  Variable qsort : (srv -> srv -> Z) -> list srv -> list srv.

  (** dns_srv_lookup, 641-653 *)
  Definition dns_srv_lookup (name : bytes) : looked :=
    match dns_generic_lookup 0 name R_SRV with
    | L dns_success (Some r) n => L dns_success (Some (mkResp (r_expires r) [] (qsort srv_cmp (r_srvs r)))) n
    | x => x
    end.
End Query.

(** ** Updates *)

(** Resolver configuration and the parameters of the dynamic backend *)
Record params := mkP {
  p_usable : Z; p_max_chain : Z; p_conf_retry : Z;
  p_hostname : bytes; p_family : family; p_retry : Z; p_ttl : Z
}.

(** get_negative_expire_time, resolver.c 34-40 *)
Definition retry_time (p : params) (now : Z) : Z := now + (if p_retry p =? 0 then p_conf_retry p else p_retry p).

(** What an update leads to: the answer to be used and its time of expiry; another try; nothing *)
Inductive action (A : Type) := Broken | Apply (answer : A) (t : Z) | Retry (t : Z) | Stop.
Arguments Broken {A}. Arguments Apply {A}. Arguments Retry {A}. Arguments Stop {A}.

(** dynbe.c 86-120 and 122-157, from the result of the lookup *)
Definition act {A} (p : params) (now : Z) (get : response -> A) (none : A) (l : looked) : action A :=
  let expires (t : Z) := if p_ttl p =? 0 then t else now + p_ttl p in
  match l with
  | L dns_not_found _ _ => Apply none (expires (retry_time p now))
  | L dns_success (Some r) _ => Apply (get r) (expires (r_expires r))
  | L dns_success None _ => Broken               (* no response: not possible, see C52_total *)
  | L dns_temp_failure _ _ => Retry (retry_time p now)
  | L dns_failure _ _ => Stop
  | LOverflow | LFuel => Broken
  end.
Definition addr_action (p : params) (now : Z) (dns : server) : action (list (list Z)) :=
  act p now r_addrs [] (dns_addr_lookup (p_usable p) (p_max_chain p) dns (p_hostname p) (p_family p)).
Definition srv_action (p : params) (now : Z) (dns : server) (qsort : (srv -> srv -> Z) -> list srv -> list srv) : action (list srv) :=
  act p now r_srvs [] (dns_srv_lookup (p_usable p) (p_max_chain p) dns qsort (p_hostname p)).

(** backend_matrix_addr_update together with DynModel: the generated backends, and the time of the
    job that is scheduled *)
Inductive updated := Undefined | Updated (s : state) (job : option Z).
Definition addr_job (p : params) (w pri : Z) (disabled : bool) (m : mode) (now : Z) (dns : server) (s : state) : updated :=
  match addr_action p now dns with
  | Broken => Undefined
  | Apply l t => match addr_update w pri disabled m l s with
                 | Ok s' => Updated s' (if disabled then None else Some t)
                 | Use_after_free => Undefined
                 end
  | Retry t => Updated s (Some t)
  | Stop => Updated s None
  end.

(** ** The jobs *)

(** A waiting job: its id, whether it resolves the dynamic backend looked at, and its time *)
Record job := mkJob { j_id : Z; j_mine : bool; j_due : Z }.
(** [jid]: be->v.mtx.jid; [next_id]: job_next_id *)
Record sched := mkS { jobs : list job; next_id : Z; jid : Z; off : bool }.

(** The outcome of a lookup, as far as the jobs are concerned *)
Inductive outcome := OApply (t : Z) | ORetry (t : Z) | OStop.
Definition outcome_of {A} (a : action A) : option outcome :=
  match a with Broken => None | Apply _ t => Some (OApply t) | Retry t => Some (ORetry t) | Stop => Some OStop end.

Definition enqueue (mine : bool) (t : Z) (s : sched) : sched := mkS (mkJob (next_id s) mine t :: jobs s) (next_id s + 1) (jid s) (off s).

(** backend_matrix_update: 484 and 686 keep the id, 112 and 149 do not *)
Definition update_jobs (o : outcome) (s : sched) : sched :=
  match o with
  | OApply t => if off s then s else let s' := enqueue true t s in mkS (jobs s') (next_id s') (next_id s) (off s)
  | ORetry t => enqueue true t s
  | OStop => s
  end.

Inductive op :=
| Run (id : Z) (o : outcome)     (** the job becomes due and runs *)
| Disable                        (** backend_matrix_disable, 710-721 *)
| Enable (o : outcome)           (** 702-709 *)
| Foreign (t : Z)                (** some other part of the program schedules a job *)
| Done (id : Z).                 (** such a job runs *)

Definition remove_job (id : Z) (l : list job) : list job := filter (fun j => negb (j_id j =? id)) l.
Definition has_job (mine : bool) (id : Z) (l : list job) : bool := existsb (fun j => (j_id j =? id) && Bool.eqb (j_mine j) mine) l.

(** None: not possible *)
Definition step (s : sched) (o : op) : option sched :=
  match o with
  | Run id x => if has_job true id (jobs s)
                then Some (update_jobs x (mkS (remove_job id (jobs s)) (next_id s) (jid s) (off s))) else None
  | Disable => Some (mkS (remove_job (jid s) (jobs s)) (next_id s) (jid s) true)
  | Enable x => if off s then Some (update_jobs x (mkS (jobs s) (next_id s) (jid s) false)) else Some s
  | Foreign t => Some (enqueue false t s)
  | Done id => if has_job false id (jobs s) then Some (mkS (remove_job id (jobs s)) (next_id s) (jid s) (off s)) else None
  end.
Fixpoint run (s : sched) (ops : list op) : option sched :=
  match ops with
  | [] => Some s
  | o :: ops' => match step s o with Some s' => run s' ops' | None => None end
  end.

(** backend_matrix_init, dynbe.c 692-697: the first job; the id in the backend is 0, its memory having been cleared.
    [l], [n]: the jobs that wait already, and the number of ids given out. *)
Definition start (l : list job) (n now : Z) : sched := enqueue true now (mkS l n 0 false).
