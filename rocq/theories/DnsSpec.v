(** Vocabulary of the properties of name resolution. *)
From Coq Require Import String List Arith ZArith Bool Permutation Sorted.
From Verif Require Import Bytes DynModel DynSpec DnsModel.
Import ListNotations.
Local Open Scope Z_scope.

(** What the name server says to the n-th query *)
Definition found (dns : server) (n : nat) (t : rrtype) (name : bytes) (l : list (list Z)) (e : Z) : Prop :=
  exists a, dns n t name = Answer a /\ a_status a = adns_s_ok /\ a_addrs a = l /\ l <> [] /\ a_expires a = e.
Definition found_srv (dns : server) (n : nat) (name : bytes) (l : list srv) (e : Z) : Prop :=
  exists a, dns n R_SRV name = Answer a /\ a_status a = adns_s_ok /\ a_srvs a = l /\ l <> [] /\ a_expires a = e.
(** There is no such name, or it has no records of that type, which may also be said by an empty answer *)
Definition absent (dns : server) (n : nat) (t : rrtype) (name : bytes) : Prop :=
  exists a, dns n t name = Answer a /\ (a_status a = adns_s_nxdomain \/ a_status a = adns_s_nodata \/
    a_status a = adns_s_ok /\ t <> R_CNAME /\ a_addrs a = [] /\ a_srvs a = []).
(** No answer in time, failure of all the name servers, no server that does recursion, or one of the numbers that the library
    reserves for further temporary failures *)
Definition temporary (dns : server) (n : nat) (t : rrtype) (name : bytes) : Prop :=
  exists a, dns n t name = Answer a /\
    (a_status a = adns_s_timeout \/ a_status a = adns_s_allservfail \/ a_status a = adns_s_norecurse \/ 65 <= a_status a < 99).
(** The server reports a failure of its own, or refuses *)
Definition server_failure (dns : server) (n : nat) (t : rrtype) (name : bytes) : Prop :=
  exists a, dns n t name = Answer a /\ (a_status a = adns_s_rcodeservfail \/ a_status a = adns_s_rcoderefused).
(** The query could not be made *)
Definition not_asked (dns : server) (n : nat) (t : rrtype) (name : bytes) : Prop :=
  exists e, dns n t name = Errno e /\ 0 < e.

(** Error numbers are positive *)
Definition proper (dns : server) : Prop := forall n t name e, dns n t name = Errno e -> 0 < e.

(** When the addresses are looked up again *)
Definition again (p : params) (now expires : Z) : Z := if p_ttl p =? 0 then expires else now + p_ttl p.
Definition after_failure (p : params) (now : Z) : Z := now + (if p_retry p =? 0 then p_conf_retry p else p_retry p).

(** The same answers all the time *)
Definition stable (dns : server) : Prop := forall n n' t name, dns n t name = dns n' t name.

(** A sorting function *)
Definition sorts (qsort : (srv -> srv -> Z) -> list srv -> list srv) : Prop :=
  forall cmp l, (forall a b, cmp a b <= 0 \/ cmp b a <= 0) -> (forall a b c, cmp a b <= 0 -> cmp b c <= 0 -> cmp a c <= 0) ->
    Permutation l (qsort cmp l) /\ StronglySorted (fun a b => cmp a b <= 0) (qsort cmp l).

(** Records in the order of RFC 2782: by priority; then the heavier ones first *)
Definition srv_before (a b : srv) : Prop := s_prio a < s_prio b \/ s_prio a = s_prio b /\ s_weight b <= s_weight a.

(** Waiting jobs that resolve the dynamic backend *)
Definition mine (s : sched) : list job := filter j_mine (jobs s).

(** Ids are given out once; they identify jobs *)
Definition ids_ok (l : list job) (n : Z) : Prop := NoDup (map j_id l) /\ Forall (fun j => 0 <= j_id j < n) l /\ 0 <= n.

(** The operation is, or contains, a lookup with this outcome *)
Definition with_outcome (P : outcome -> Prop) (o : op) : Prop :=
  match o with Run _ x | Enable x => P x | _ => True end.
Definition no_switch (o : op) : Prop := match o with Disable | Enable _ => False | _ => True end.

(** What the name server gives for the configured address family: addresses and time of expiry *)
Inductive gives (dns : server) (name : bytes) : family -> list (list Z) -> Z -> Prop :=
| gives_4 : forall l e, found dns 0 R_A name l e -> gives dns name AF_INET l e
| gives_6 : forall l e, found dns 0 R_AAAA name l e -> gives dns name AF_INET6 l e
| gives_both : forall l e l' e', found dns 0 R_A name l e -> found dns 1 R_AAAA name l' e' ->
    gives dns name AF_UNSPEC (l ++ l') (Z.min e e')
| gives_only_4 : forall l e, found dns 0 R_A name l e -> absent dns 1 R_AAAA name -> gives dns name AF_UNSPEC l e
| gives_only_6 : forall l e, absent dns 0 R_A name -> found dns 1 R_AAAA name l e -> gives dns name AF_UNSPEC l e.

(** The same thing is said for every kind of address asked for *)
Definition everywhere (P : server -> nat -> rrtype -> bytes -> Prop) (dns : server) (name : bytes) (f : family) : Prop :=
  match f with
  | AF_INET => P dns 0%nat R_A name
  | AF_INET6 => P dns 0%nat R_AAAA name
  | AF_UNSPEC => P dns 0%nat R_A name /\ P dns 1%nat R_AAAA name
  end.

(** One query fails for the moment, the other one gives addresses / says there are none *)
Definition half_found (dns : server) (name : bytes) (l : list (list Z)) (e : Z) : Prop :=
  found dns 0 R_A name l e /\ temporary dns 1 R_AAAA name \/ temporary dns 0 R_A name /\ found dns 1 R_AAAA name l e.
Definition half_absent (dns : server) (name : bytes) : Prop :=
  absent dns 0 R_A name /\ temporary dns 1 R_AAAA name \/ temporary dns 0 R_A name /\ absent dns 1 R_AAAA name.

(** The update takes the addresses [l] for the new ones, at time [t] the next one is due *)
Definition takes (m : mode) (l : list (list Z)) (t : Z) (u : updated) : Prop :=
  exists s', u = Updated s' (Some t) /\ NoDup (map addr (tab s')) /\ forall a, In a (map addr (tab s')) <-> In a (used m l).
(** The update removes everything that was generated, or uses memory that was released (when nothing else is in
    the balancer, see C35_empty_refuted) *)
Definition clears (w : Z) (s : state) (t : Z) (u : updated) : Prop :=
  (exists s', u = Updated s' (Some t) /\ tab s' = []) \/
  u = Undefined /\ tab s <> [] /\ forall i, In i (members (bls s) w) -> In i (map gid (tab s)).
