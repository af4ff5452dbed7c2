From Coq Require Import String List Arith ZArith Bool Lia Permutation Sorted ZifyBool ZifyNat.
From Verif Require Import Bytes DynModel DynSpec DynProofs DnsModel DnsSpec.
From Verif Require HashModel HashProofs.
Import ListNotations.
Local Open Scope Z_scope.

(** *** Queries *)
Section Query.
  Variables (usable maxc : Z) (dns : server).

  Lemma query_plain : forall n name t a, dns n t name = Answer a ->
    a_status a <> adns_s_prohibitedcname -> dns_query usable maxc dns n name t = QOk a (S n).
  Proof.
    intros n name t a E S. unfold dns_query. rewrite E.
    destruct (a_status a =? adns_s_prohibitedcname) eqn:X; [apply Z.eqb_eq in X; contradiction|]. reflexivity.
  Qed.

  Lemma query_errno : forall n name t e, dns n t name = Errno e ->
    dns_query usable maxc dns n name t = QError (adns_to_dns_status e) (S n).
  Proof. intros n name t e E. unfold dns_query. rewrite E. reflexivity. Qed.

  Lemma errno_lost : forall st, st <> dns_success -> errno_to_dns_status (status_code st) = dns_failure.
  Proof. intros [] H; try contradiction; reflexivity. Qed.

  Lemma lookup_pos : forall e, 0 < e -> adns_to_dns_status e <> dns_success.
  Proof.
    intros e H. unfold adns_to_dns_status. destruct (e <? 0) eqn:N; [lia|].
    destruct (lookup adns_to_dns_tab e) as [s|] eqn:L.
    - unfold adns_to_dns_tab in L. cbn [lookup] in L.
      destruct (adns_s_ok =? e) eqn:Z; [unfold adns_s_ok in Z; lia|].
      repeat match type of L with (if ?b then _ else _) = _ => destruct b; [congruence|] end. discriminate.
    - repeat match goal with |- (if ?b then _ else _) <> _ => destruct b; try discriminate end.
  Qed.

  Lemma generic_found : forall n t name l e, t = R_A \/ t = R_AAAA -> found dns n t name l e ->
    dns_generic_lookup usable maxc dns n name t = L dns_success (Some (mkResp e l [])) (S n).
  Proof.
    intros n t name l e T (a & E & S & A & NE & X). unfold dns_generic_lookup.
    rewrite (query_plain n name t a E) by (rewrite S; discriminate). rewrite S. cbn [Z.eqb negb].
    unfold adns_s_ok at 1. cbn [Z.eqb negb]. unfold nrrs. subst l e.
    destruct (a_addrs a) as [|x r]; [contradiction|]. destruct T; subst t; reflexivity.
  Qed.

  Lemma generic_srv : forall n name l e, found_srv dns n name l e ->
    dns_generic_lookup usable maxc dns n name R_SRV = L dns_success (Some (mkResp e [] l)) (S n).
  Proof.
    intros n name l e (a & E & S & A & NE & X). unfold dns_generic_lookup.
    rewrite (query_plain n name R_SRV a E) by (rewrite S; discriminate). rewrite S.
    unfold adns_s_ok at 1. cbn [Z.eqb negb]. unfold nrrs. subst l e.
    destruct (a_srvs a) as [|x r]; [contradiction|]. reflexivity.
  Qed.

  Lemma generic_status : forall n t name a st, dns n t name = Answer a ->
    a_status a <> adns_s_prohibitedcname -> a_status a <> adns_s_ok -> adns_to_dns_status (a_status a) = st ->
    dns_generic_lookup usable maxc dns n name t = L st None (S n).
  Proof.
    intros n t name a st E P O S. unfold dns_generic_lookup. rewrite (query_plain n name t a E P).
    destruct (a_status a =? adns_s_ok) eqn:X; [apply Z.eqb_eq in X; contradiction|]. cbn [negb]. rewrite S. reflexivity.
  Qed.

  Lemma reserved_temporary : forall e, 65 <= e < 99 -> adns_to_dns_status e = dns_temp_failure.
  Proof.
    intros e H. unfold adns_to_dns_status. destruct (Z.ltb_spec e 0); [lia|].
    assert (N : lookup adns_to_dns_tab e = None).
    { unfold adns_to_dns_tab, adns_s_ok, adns_s_timeout, adns_s_allservfail, adns_s_norecurse, adns_s_rcodeservfail, adns_s_rcoderefused, adns_s_prohibitedcname, adns_s_nxdomain, adns_s_nodata.
      cbn [lookup]. repeat match goal with |- context [?k =? e] => destruct (Z.eqb_spec k e); [lia|] end. reflexivity. }
    rewrite N. unfold adns_s_max_localfail, adns_s_max_remotefail, adns_s_max_tempfail.
    destruct (Z.ltb_spec e 29); [lia|]. destruct (Z.ltb_spec e 59); [lia|]. destruct (Z.ltb_spec e 99); [reflexivity|lia].
  Qed.
  Lemma generic_absent : forall n t name, absent dns n t name ->
    dns_generic_lookup usable maxc dns n name t = L dns_not_found None (S n).
  Proof.
    intros n t name (a & E & [S|[S|(S & T & A & V)]]); [apply (generic_status n t name a); auto; rewrite S; try discriminate; reflexivity..|].
    unfold dns_generic_lookup. rewrite (query_plain n name t a E) by (rewrite S; discriminate). rewrite S. unfold adns_s_ok at 1. cbn [Z.eqb negb]. unfold nrrs. rewrite A, V.
    destruct t; try reflexivity. contradiction.
  Qed.
  Lemma generic_temporary : forall n t name, temporary dns n t name ->
    dns_generic_lookup usable maxc dns n name t = L dns_temp_failure None (S n).
  Proof.
    intros n t name (a & E & [S|[S|[S|S]]]); [apply (generic_status n t name a); auto; rewrite S; try discriminate; reflexivity..|].
    apply (generic_status n t name a); auto; [unfold adns_s_prohibitedcname; lia|unfold adns_s_ok; lia|]. apply reserved_temporary. exact S.
  Qed.
  Lemma generic_server_failure : forall n t name, server_failure dns n t name ->
    dns_generic_lookup usable maxc dns n name t = L dns_not_found None (S n).
  Proof.
    intros n t name (a & E & [S|S]); apply (generic_status n t name a); auto; rewrite S; try discriminate; reflexivity.
  Qed.
  Lemma generic_not_asked : forall n t name, not_asked dns n t name ->
    dns_generic_lookup usable maxc dns n name t = L dns_failure None (S n).
  Proof.
    intros n t name (e & E & P). unfold dns_generic_lookup. rewrite (query_errno n name t e E).
    rewrite errno_lost by (apply lookup_pos; auto). reflexivity.
  Qed.

  (** *** Chains *)
  Lemma follow_fuel : forall fuel name t names a n, (0 < length names)%nat ->
    (Z.to_nat (maxc + 2) <= fuel + (length names - 1))%nat -> (0 < fuel)%nat ->
    follow usable maxc dns fuel name t names a n <> FFuel.
  Proof.
    induction fuel as [|fuel IH]; intros name t names a n L F P; [lia|]. cbn [follow].
    destruct (Z.of_nat (length names) - 1 <=? maxc) eqn:C; [|discriminate].
    destruct (dns n R_CNAME name) as [e|c]; [discriminate|].
    destruct (a_status c =? adns_s_ok).
    - unfold cname_install. destruct (usable <? _); [discriminate|].
      destruct (existsb _ names); [discriminate|]. apply IH; cbn [length]; lia.
    - destruct (a_status c =? adns_s_nodata); [|discriminate]. destruct (dns (S n) t name); discriminate.
  Qed.

  Lemma query_total : forall n name t, dns_query usable maxc dns n name t <> QFuel.
  Proof.
    intros n name t. unfold dns_query. destruct (dns n t name) as [e|a]; [discriminate|].
    destruct ((a_status a =? adns_s_prohibitedcname) && (1 <? maxc)) eqn:C; [|discriminate].
    unfold cname_install. destruct (usable <? _); [discriminate|]. cbn [existsb].
    pose proof (follow_fuel (Z.to_nat maxc + 2) name t [name] a (S n)) as F. cbn [length] in F.
    destruct (follow usable maxc dns (Z.to_nat maxc + 2) name t [name] a (S n)) as [| |rc a' n']; try discriminate.
    - exfalso. apply F; auto; lia.
    - destruct (rc =? 0); discriminate.
  Qed.

  Lemma cmp_refl : forall s, HashModel.cname_cmp0 s s = true.
  Proof.
    unfold HashModel.cname_cmp0. induction s as [|c s IH]; [reflexivity|]. cbn [HashModel.strcasecmp0].
    rewrite IH, andb_true_r. unfold beq. apply Ascii.eqb_refl.
  Qed.

  (** The CNAME query is repeated for the same name: the second answer is "already seen" *)
  Lemma query_chain : forall n name t a c, stable dns -> 1 < maxc ->
    dns n t name = Answer a -> a_status a = adns_s_prohibitedcname ->
    dns n R_CNAME name = Answer c -> a_status c = adns_s_ok ->
    Z.of_nat (length name) < usable -> Z.of_nat (length (a_cname c)) < usable ->
    exists n', dns_query usable maxc dns n name t = QOk a n'.
  Proof.
    intros n name t a c St M E Hs E2 S2 U1 U2. unfold dns_query. rewrite E, Hs.
    replace (1 <? maxc) with true by lia. rewrite Z.eqb_refl. cbn [andb].
    unfold cname_install at 1. replace (usable <? Z.of_nat (length name) + 1) with false by lia. cbn [existsb].
    replace (Z.to_nat maxc + 2)%nat with (S (S (Z.to_nat maxc))) by lia. cbn [follow length].
    replace (Z.of_nat 1 - 1 <=? maxc) with true by lia.
    rewrite (St (S n) n), E2, S2. rewrite Z.eqb_refl. unfold cname_install.
    replace (usable <? Z.of_nat (length (a_cname c)) + 1) with false by lia. cbn [existsb]. rewrite orb_false_r.
    destruct (HashModel.cname_cmp0 name (a_cname c)); [eexists; reflexivity|].
    cbn [follow length]. replace (Z.of_nat 2 - 1 <=? maxc) with true by lia.
    rewrite (St (S (S n)) n), E2, S2. rewrite Z.eqb_refl. unfold cname_install.
    replace (usable <? Z.of_nat (length (a_cname c)) + 1) with false by lia. cbn [existsb].
    rewrite cmp_refl. cbn [orb]. eexists; reflexivity.
  Qed.

  Lemma generic_chain : forall n name t a c, stable dns -> 1 < maxc ->
    dns n t name = Answer a -> a_status a = adns_s_prohibitedcname ->
    dns n R_CNAME name = Answer c -> a_status c = adns_s_ok ->
    Z.of_nat (length name) < usable -> Z.of_nat (length (a_cname c)) < usable ->
    exists n', dns_generic_lookup usable maxc dns n name t = L dns_not_found None n'.
  Proof.
    intros n name t a c St M E S E2 S2 U1 U2.
    destruct (query_chain n name t a c St M E S E2 S2 U1 U2) as [n' Q]. exists n'.
    unfold dns_generic_lookup. rewrite Q, S. reflexivity.
  Qed.

  Lemma generic_no_chain : forall n name t a, maxc <= 1 -> dns n t name = Answer a -> a_status a = adns_s_prohibitedcname ->
    dns_generic_lookup usable maxc dns n name t = L dns_not_found None (S n).
  Proof.
    intros n name t a M E S. unfold dns_generic_lookup, dns_query. rewrite E, S.
    replace (1 <? maxc) with false by lia. rewrite andb_false_r. rewrite S. reflexivity.
  Qed.

  Lemma generic_overflow : forall n name t a, 1 < maxc -> dns n t name = Answer a -> a_status a = adns_s_prohibitedcname ->
    usable <= Z.of_nat (length name) -> dns_generic_lookup usable maxc dns n name t = LOverflow.
  Proof.
    intros n name t a M E S U. unfold dns_generic_lookup, dns_query. rewrite E, S.
    replace (1 <? maxc) with true by lia. rewrite Z.eqb_refl. cbn [andb].
    unfold cname_install. replace (usable <? Z.of_nat (length name) + 1) with true by lia. reflexivity.
  Qed.

  (** *** No lookup runs out of fuel, and a successful one has a response *)
  Lemma query_error : proper dns -> forall n name t st n', dns_query usable maxc dns n name t = QError st n' -> st <> dns_success.
  Proof.
    intros P n name t st n'. unfold dns_query. destruct (dns n t name) as [e|a] eqn:E.
    - intros H. injection H as <- _. apply lookup_pos. eapply P; eauto.
    - destruct (_ && _); [|discriminate]. destruct (cname_install usable [] name) as [| |names]; try discriminate.
      assert (F : forall fuel names n, match follow usable maxc dns fuel name t names a n with F rc _ _ => rc = 0 \/ 0 < rc | _ => True end).
      { clear -P. induction fuel as [|fuel IH]; intros names n; cbn [follow]; [exact I|].
        destruct (_ <=? maxc); [|auto]. destruct (dns n R_CNAME name) as [e|c] eqn:X; [right; eapply P; eauto|].
        destruct (a_status c =? adns_s_ok).
        - destruct (cname_install usable names (a_cname c)); auto. apply IH.
        - destruct (a_status c =? adns_s_nodata); [|auto].
          destruct (dns (S n) t name) as [e|b] eqn:Y; [right; eapply P; eauto|auto]. }
      specialize (F (Z.to_nat maxc + 2)%nat names (S n)).
      destruct (follow usable maxc dns _ name t names a (S n)) as [| |rc b m]; try discriminate.
      destruct (rc =? 0) eqn:R; [discriminate|]. intros H. injection H as <- _. apply lookup_pos. lia.
  Qed.

  Lemma generic_total : proper dns -> forall n name t, t <> R_CNAME ->
    match dns_generic_lookup usable maxc dns n name t with
    | LFuel => False
    | LOverflow => True
    | L st r _ => st = dns_success <-> r <> None
    end.
  Proof.
    intros P n name t T. unfold dns_generic_lookup. pose proof (query_total n name t) as Q.
    destruct (dns_query usable maxc dns n name t) as [| |st n'|a n'] eqn:E; try contradiction; auto.
    - rewrite errno_lost by (eapply query_error; eauto). split; congruence.
    - destruct (a_status a =? adns_s_ok) eqn:X; cbn [negb].
      + destruct (Nat.eqb (nrrs t a) 0); [split; congruence|]. split; congruence.
      + split; [|congruence]. intros H. exfalso.
        unfold adns_to_dns_status in H. destruct (a_status a <? 0) eqn:N; [discriminate|].
        assert (K : 0 < a_status a) by (unfold adns_s_ok in X; lia). apply lookup_pos in K.
        unfold adns_to_dns_status in K. rewrite N in K. contradiction.
  Qed.

  Lemma addr_total : proper dns -> forall name f,
    match dns_addr_lookup usable maxc dns name f with
    | LFuel => False
    | LOverflow => True
    | L st r _ => st = dns_success <-> r <> None
    end.
  Proof.
    intros P name f. destruct f; cbn [dns_addr_lookup]; try (apply generic_total; [auto|discriminate]).
    pose proof (generic_total P 0 name R_A ltac:(discriminate)) as H4.
    destruct (dns_generic_lookup usable maxc dns 0 name R_A) as [| |s4 r4 n]; auto.
    pose proof (generic_total P n name R_AAAA ltac:(discriminate)) as H6.
    destruct (dns_generic_lookup usable maxc dns n name R_AAAA) as [| |s6 r6 n']; auto. cbv zeta.
    destruct s4, s6; cbv iota; destruct r4, r6; cbv iota;
      try (split; congruence);
      try (exfalso; destruct H4 as [A B]; (discriminate B || (apply A; reflexivity)); congruence);
      exfalso;
      try (destruct H4 as [A B]; first [now apply A | now assert (X := B ltac:(discriminate))]);
      try (destruct H6 as [A B]; first [now apply A | now assert (X := B ltac:(discriminate))]).
  Qed.
End Query.

(** *** Updates *)
Lemma min_if : forall a b, (if a <? b then a else b) = Z.min a b.
Proof. intros. destruct (a <? b) eqn:E; lia. Qed.

Lemma action_gives : forall p now dns l e, gives dns (p_hostname p) (p_family p) l e ->
  addr_action p now dns = Apply l (again p now e) /\ l <> [].
Proof.
  intros p now dns l e G. unfold addr_action. inversion G; subst; cbn [dns_addr_lookup].
  - rewrite (generic_found _ _ _ _ _ _ l e) by auto. split; [reflexivity|]. destruct H0 as (a & ? & ? & ? & N & ?). auto.
  - rewrite (generic_found _ _ _ _ _ _ l e) by auto. split; [reflexivity|]. destruct H0 as (a & ? & ? & ? & N & ?). auto.
  - rewrite (generic_found _ _ _ _ _ _ l0 e0) by auto. rewrite (generic_found _ _ _ _ _ _ l' e') by auto.
    cbn [r_addrs r_expires act]. rewrite min_if. split; [reflexivity|].
    destruct H0 as (a & ? & ? & ? & N & ?). destruct l0; [contradiction|discriminate].
  - rewrite (generic_found _ _ _ _ _ _ l e) by auto. rewrite generic_absent by auto. cbn [act r_addrs r_expires].
    split; [reflexivity|]. destruct H0 as (a & ? & ? & ? & N & ?). auto.
  - rewrite generic_absent by auto. rewrite (generic_found _ _ _ _ _ _ l e) by auto. cbn [act r_addrs r_expires].
    split; [reflexivity|]. destruct H1 as (a & ? & ? & ? & N & ?). auto.
Qed.

Lemma action_half : forall p now dns l e, p_family p = AF_UNSPEC -> half_found dns (p_hostname p) l e ->
  addr_action p now dns = Apply l (again p now e) /\ l <> [].
Proof.
  intros p now dns l e F H. unfold addr_action. rewrite F. cbn [dns_addr_lookup]. destruct H as [[A B]|[A B]].
  - rewrite (generic_found _ _ _ _ _ _ l e) by auto. rewrite generic_temporary by auto. cbn [act r_addrs r_expires].
    split; [reflexivity|]. destruct A as (a & ? & ? & ? & N & ?). auto.
  - rewrite generic_temporary by auto. rewrite (generic_found _ _ _ _ _ _ l e) by auto. cbn [act r_addrs r_expires].
    split; [reflexivity|]. destruct B as (a & ? & ? & ? & N & ?). auto.
Qed.

Lemma action_absent : forall p now dns, everywhere absent dns (p_hostname p) (p_family p) \/
    everywhere server_failure dns (p_hostname p) (p_family p) \/
    p_family p = AF_UNSPEC /\ half_absent dns (p_hostname p) ->
  addr_action p now dns = Apply [] (again p now (after_failure p now)).
Proof.
  intros p now dns H. unfold addr_action, again, after_failure. destruct H as [H|[H|[F H]]].
  - destruct (p_family p); cbn [dns_addr_lookup everywhere] in *; try (rewrite generic_absent by auto; reflexivity).
    destruct H. rewrite !generic_absent by auto. reflexivity.
  - destruct (p_family p); cbn [dns_addr_lookup everywhere] in *; try (rewrite generic_server_failure by auto; reflexivity).
    destruct H. rewrite !generic_server_failure by auto. reflexivity.
  - rewrite F. cbn [dns_addr_lookup]. destruct H as [[A B]|[A B]].
    + rewrite generic_absent by auto. rewrite generic_temporary by auto. reflexivity.
    + rewrite generic_temporary by auto. rewrite generic_absent by auto. reflexivity.
Qed.

Lemma action_temporary : forall p now dns, everywhere temporary dns (p_hostname p) (p_family p) ->
  addr_action p now dns = Retry (after_failure p now).
Proof.
  intros p now dns H. unfold addr_action, after_failure.
  destruct (p_family p); cbn [dns_addr_lookup everywhere] in *; try (rewrite generic_temporary by auto; reflexivity).
  destruct H. rewrite !generic_temporary by auto. reflexivity.
Qed.

Lemma action_not_asked : forall p now dns, everywhere not_asked dns (p_hostname p) (p_family p) ->
  addr_action p now dns = Stop.
Proof.
  intros p now dns H. unfold addr_action.
  destruct (p_family p); cbn [dns_addr_lookup everywhere] in *; try (rewrite generic_not_asked by auto; reflexivity).
  destruct H. rewrite !generic_not_asked by auto. reflexivity.
Qed.

Lemma job_takes : forall p w pri m now dns s l t, reachable w pri m s ->
  addr_action p now dns = Apply l t -> l <> [] -> takes m l t (addr_job p w pri false m now dns s).
Proof.
  intros p w pri m now dns s l t R A N. unfold addr_job. rewrite A.
  destruct (addr_update w pri false m l s) as [|s'] eqn:E.
  - apply (update_fails w pri m l s R) in E as (E & _). contradiction.
  - exists s'. split; [reflexivity|]. exact (update_set w pri m l s s' R E).
Qed.

Lemma job_clears : forall p w pri m now dns s t, reachable w pri m s ->
  addr_action p now dns = Apply [] t -> clears w s t (addr_job p w pri false m now dns s).
Proof.
  intros p w pri m now dns s t R A. unfold addr_job. rewrite A.
  destruct (addr_update w pri false m [] s) as [|s'] eqn:E.
  - right. split; [reflexivity|]. apply (update_fails w pri m [] s R) in E as (_ & E). exact E.
  - left. exists s'. split; [reflexivity|]. pose proof (update_set w pri m [] s s' R E) as [_ H].
    destruct (tab s') as [|g t']; [reflexivity|]. exfalso.
    assert (K : In (addr g) (used m [])) by (apply H; left; reflexivity). destruct m; exact K.
Qed.

(** *** Sorting *)
Lemma casecmp_antisym : forall a b, strcasecmp b a = - strcasecmp a b.
Proof.
  induction a as [|x a IH]; intros [|y b]; cbn [strcasecmp]; try lia.
  destruct (code (to_lower x) - code (to_lower y) =? 0) eqn:E;
  destruct (code (to_lower y) - code (to_lower x) =? 0) eqn:E'; try lia; auto.
Qed.
Lemma casecmp_trans : forall a b c, strcasecmp a b <= 0 -> strcasecmp b c <= 0 -> strcasecmp a c <= 0.
Proof.
  induction a as [|x a IH]; intros [|y b] [|z c]; cbn [strcasecmp]; try lia.
  destruct (code (to_lower x) - code (to_lower y) =? 0) eqn:E1;
  destruct (code (to_lower y) - code (to_lower z) =? 0) eqn:E2;
  destruct (code (to_lower x) - code (to_lower z) =? 0) eqn:E3; try lia; auto. eapply IH; eauto.
Qed.
Lemma srv_cmp_total : forall a b, srv_cmp a b <= 0 \/ srv_cmp b a <= 0.
Proof.
  intros a b. unfold srv_cmp. pose proof (casecmp_antisym (s_host a) (s_host b)).
  repeat match goal with |- context [if ?x then _ else _] => destruct x eqn:? end; lia.
Qed.
Lemma srv_cmp_trans : forall a b c, srv_cmp a b <= 0 -> srv_cmp b c <= 0 -> srv_cmp a c <= 0.
Proof.
  intros a b c. unfold srv_cmp. pose proof (casecmp_trans (s_host a) (s_host b) (s_host c)).
  repeat match goal with |- context [if ?x then _ else _] => destruct x eqn:? end; lia.
Qed.
Lemma srv_cmp_before : forall a b, srv_cmp a b <= 0 -> srv_before a b.
Proof. intros a b. unfold srv_cmp, srv_before. repeat match goal with |- context [if ?x then _ else _] => destruct x eqn:? end; lia. Qed.

Lemma sorted_impl : forall (A : Type) (P Q : A -> A -> Prop) l, (forall a b, P a b -> Q a b) -> StronglySorted P l -> StronglySorted Q l.
Proof. intros A P Q l H S. induction S; constructor; auto. eapply Forall_impl; [|eauto]. auto. Qed.

Lemma srv_sorted : forall p now dns qsort l e, sorts qsort -> found_srv dns 0 (p_hostname p) l e ->
  exists l', srv_action p now dns qsort = Apply l' (again p now e) /\ Permutation l l' /\ StronglySorted srv_before l'.
Proof.
  intros p now dns qsort l e Q F. unfold srv_action, dns_srv_lookup. rewrite (generic_srv _ _ _ _ _ l e F).
  cbn [r_srvs r_expires act]. eexists. split; [reflexivity|].
  destruct (Q srv_cmp l srv_cmp_total srv_cmp_trans) as [P S]. split; [exact P|].
  eapply sorted_impl; [|exact S]. exact srv_cmp_before.
Qed.

Definition run_before (a b : list srv) : Prop := forall x y, In x a -> In y b -> s_prio x < s_prio y.
Lemma sorted_app : forall (A : Type) (R : A -> A -> Prop) a b, StronglySorted R (a ++ b) ->
  StronglySorted R b /\ forall x y, In x a -> In y b -> R x y.
Proof.
  induction a as [|x a IH]; intros b S; cbn [app] in S; [split; [auto|intros ? ? []]|].
  inversion S as [|? ? S' F]; subst. destruct (IH b S') as [B C]. split; [auto|]. intros u v [->|U] V; [|auto].
  rewrite Forall_forall in F. apply F. apply in_or_app. auto.
Qed.

Lemma runs_sorted : forall ls, StronglySorted srv_before (concat ls) -> Forall one_priority ls -> runs_differ ls -> StronglySorted run_before ls.
Proof.
  induction ls as [|a ls IH]; intros S O D; [constructor|]. cbn [concat] in S. apply sorted_app in S as [S H].
  inversion O as [|? ? [NE OA] O']; subst. assert (D' : runs_differ ls) by (destruct ls; [exact I|apply D]).
  specialize (IH S O' D'). constructor; [exact IH|].
  destruct ls as [|b ls]; [constructor|]. destruct D as [D _].
  assert (AB : run_before a b).
  { intros x y X Y. specialize (H x y X). assert (Y' : In y (concat (b :: ls))) by (cbn [concat]; apply in_or_app; auto).
    specialize (H Y'). specialize (D x y X Y). destruct H as [|[]]; [auto|]. congruence. }
  constructor; [exact AB|]. inversion IH as [|? ? _ F]; subst. inversion O' as [|? ? [NB _] _]; subst.
  rewrite Forall_forall in *. intros c C x y X Y. destruct b as [|z b]; [contradiction|].
  specialize (AB x z X (or_introl eq_refl)). specialize (F c C z y (or_introl eq_refl) Y). lia.
Qed.

(** *** Jobs *)
Lemma enqueue_ids : forall m t s, ids_ok (jobs s) (next_id s) -> ids_ok (jobs (enqueue m t s)) (next_id (enqueue m t s)).
Proof.
  intros m t s (N & F & P). unfold ids_ok, enqueue. cbn [jobs next_id map j_id]. split; [|split; [|lia]].
  - constructor; [|exact N]. intros I. apply in_map_iff in I as (j & E & I). rewrite Forall_forall in F. apply F in I. lia.
  - constructor; [cbn [j_id]; lia|]. eapply Forall_impl; [|exact F]. cbn. intros; lia.
Qed.
Lemma nodup_filter : forall (f : job -> bool) l, NoDup (map j_id l) -> NoDup (map j_id (filter f l)).
Proof.
  induction l as [|j l IH]; intros H; [constructor|]. cbn [map] in H. inversion H; subst. cbn [filter].
  destruct (f j); [|auto]. cbn [map]. constructor; [|auto]. intros I. apply H2. apply in_map_iff in I as (k & E & I).
  apply filter_In in I as [I _]. apply in_map_iff. eauto.
Qed.
Lemma remove_ids : forall id l n, ids_ok l n -> ids_ok (remove_job id l) n.
Proof.
  intros id l n (N & F & P). split; [apply nodup_filter; auto|]. split; [|auto].
  rewrite Forall_forall in *. intros j I. apply filter_In in I as [I _]. auto.
Qed.
Lemma update_ids : forall o s, ids_ok (jobs s) (next_id s) -> ids_ok (jobs (update_jobs o s)) (next_id (update_jobs o s)).
Proof.
  intros o s H. destruct o; cbn [update_jobs]; auto.
  - destruct (off s); auto. cbn [jobs next_id]. apply (enqueue_ids true t s H).
  - apply enqueue_ids; auto.
Qed.
Lemma step_ids : forall s o s', ids_ok (jobs s) (next_id s) -> step s o = Some s' -> ids_ok (jobs s') (next_id s').
Proof.
  intros s o s' H E. destruct o; cbn [step] in E.
  - destruct (has_job true id (jobs s)); [|discriminate]. injection E as <-. apply update_ids. cbn [jobs next_id]. apply remove_ids; auto.
  - injection E as <-. cbn [jobs next_id]. apply remove_ids; auto.
  - destruct (off s); injection E as <-; auto. apply update_ids. auto.
  - injection E as <-. apply enqueue_ids; auto.
  - destruct (has_job false id (jobs s)); [|discriminate]. injection E as <-. cbn [jobs next_id]. apply remove_ids; auto.
Qed.

(** Removing a job that is there once *)
Lemma remove_count : forall l id, NoDup (map j_id l) -> has_job true id l = true ->
  S (length (filter j_mine (remove_job id l))) = length (filter j_mine l).
Proof.
  induction l as [|j l IH]; intros id N H; [discriminate|]. cbn [map] in N. inversion N as [|? ? X N']; subst.
  unfold has_job in H. cbn [existsb] in H. unfold remove_job. cbn [filter].
  destruct (j_id j =? id) eqn:E; cbn [negb].
  - apply Z.eqb_eq in E. subst id.
    assert (K : filter (fun k => negb (j_id k =? j_id j)) l = l).
    { clear -X. induction l as [|k l IH]; [reflexivity|]. cbn [filter].
      assert (j_id k <> j_id j) by (intros Y; apply X; left; auto).
      replace (j_id k =? j_id j) with false by lia. cbn [negb]. f_equal. apply IH. intros I; apply X; right; auto. }
    rewrite K. cbn [andb] in H.
    destruct (j_mine j) eqn:M; [reflexivity|].
    cbn [Bool.eqb orb] in H. exfalso. apply X. apply existsb_exists in H as (k & I & H). apply andb_true_iff in H as [H _].
    apply Z.eqb_eq in H. apply in_map_iff. eauto.
  - cbn [andb orb] in H. specialize (IH id N' H). unfold remove_job in IH. cbn [filter].
    destruct (j_mine j); cbn [length]; lia.
Qed.
Lemma remove_foreign : forall l id, NoDup (map j_id l) -> has_job false id l = true ->
  filter j_mine (remove_job id l) = filter j_mine l.
Proof.
  induction l as [|j l IH]; intros id N H; [discriminate|]. cbn [map] in N. inversion N as [|? ? X N']; subst.
  unfold has_job in H. cbn [existsb] in H. unfold remove_job. cbn [filter].
  destruct (j_id j =? id) eqn:E; cbn [negb].
  - apply Z.eqb_eq in E. subst id.
    assert (K : filter (fun k => negb (j_id k =? j_id j)) l = l).
    { clear -X. induction l as [|k l IH]; [reflexivity|]. cbn [filter].
      assert (j_id k <> j_id j) by (intros Y; apply X; left; auto).
      replace (j_id k =? j_id j) with false by lia. cbn [negb]. f_equal. apply IH. intros I; apply X; right; auto. }
    rewrite K. cbn [andb] in H. destruct (j_mine j) eqn:M; [|reflexivity].
    cbn [Bool.eqb orb] in H. exfalso. apply X. apply existsb_exists in H as (k & I & H). apply andb_true_iff in H as [H _].
    apply Z.eqb_eq in H. apply in_map_iff. eauto.
  - cbn [andb orb] in H. specialize (IH id N' H). unfold remove_job in IH. cbn [filter].
    destruct (j_mine j); [f_equal|]; auto.
Qed.

(** Runs that do not stop keep the number of jobs *)
Lemma step_count : forall s o s', ids_ok (jobs s) (next_id s) -> off s = false -> no_switch o ->
  with_outcome (fun x => x <> OStop) o -> step s o = Some s' -> length (mine s') = length (mine s) /\ off s' = false.
Proof.
  intros s o s' I F NS W E. destruct I as (N & _ & _). unfold mine. destruct o; cbn [step no_switch with_outcome] in *; try contradiction.
  - destruct (has_job true id (jobs s)) eqn:H; [|discriminate]. injection E as <-.
    pose proof (remove_count _ _ N H) as C. destruct o as [t|t|]; [| |contradiction]; cbn [update_jobs off].
    + rewrite F. cbn [jobs enqueue filter j_mine length off]. split; [lia|auto].
    + cbn [enqueue jobs filter j_mine length off]. split; [lia|auto].
  - injection E as <-. cbn [enqueue jobs filter j_mine off]. auto.
  - destruct (has_job false id (jobs s)) eqn:H; [|discriminate]. injection E as <-. cbn [jobs off].
    rewrite (remove_foreign _ _ N H). auto.
Qed.
Lemma run_count : forall ops s s', ids_ok (jobs s) (next_id s) -> off s = false -> Forall no_switch ops ->
  Forall (with_outcome (fun x => x <> OStop)) ops -> run s ops = Some s' -> length (mine s') = length (mine s) /\ off s' = false.
Proof.
  induction ops as [|o ops IH]; intros s s' I F NS W E; cbn [run] in E; [injection E as <-; auto|].
  destruct (step s o) as [s1|] eqn:S1; [|discriminate]. inversion NS; inversion W; subst.
  destruct (step_count s o s1) as [C F1]; auto. destruct (IH s1 s') as [C' F']; auto; [eapply step_ids; eauto|]. split; [lia|auto].
Qed.
Lemma start_ids : forall l n now, ids_ok l n -> ids_ok (jobs (start l n now)) (next_id (start l n now)).
Proof. intros l n now H. unfold start. apply enqueue_ids. exact H. Qed.
Lemma foreign_none : forall l, Forall (fun j => j_mine j = false) l -> filter j_mine l = [].
Proof. induction 1 as [|j l H F IH]; [reflexivity|]. cbn [filter]. rewrite H. auto. Qed.
Lemma one_job : forall l n now ops s, ids_ok l n -> Forall (fun j => j_mine j = false) l -> Forall no_switch ops ->
  Forall (with_outcome (fun x => x <> OStop)) ops -> run (start l n now) ops = Some s -> length (mine s) = 1%nat.
Proof.
  intros l n now ops s I F NS W E. destruct (run_count ops _ _ (start_ids l n now I) eq_refl NS W E) as [C _].
  rewrite C. unfold mine, start. cbn [enqueue jobs filter j_mine]. rewrite foreign_none by auto. reflexivity.
Qed.

(** With answers all the time it can be switched off and on *)
Definition is_apply (x : outcome) : Prop := exists t, x = OApply t.
Record inv (s : sched) : Prop := {
  v_ids : ids_ok (jobs s) (next_id s);
  v_jid : 0 <= jid s < next_id s;
  v_on : off s = false -> exists t, mine s = [mkJob (jid s) true t];
  v_off : off s = true -> mine s = [] /\ ~ In (jid s) (map j_id (jobs s))
}.
Lemma only_mine : forall l id t, NoDup (map j_id l) -> filter j_mine l = [mkJob id true t] -> filter j_mine (remove_job id l) = [].
Proof.
  intros l id t N H. assert (K : has_job true id l = true).
  { assert (I : In (mkJob id true t) l) by (apply (filter_In j_mine); rewrite H; left; auto).
    unfold has_job. apply existsb_exists. eexists. split; [exact I|]. cbn [j_id j_mine]. rewrite Z.eqb_refl. reflexivity. }
  pose proof (remove_count l id N K) as C. rewrite H in C. cbn [length] in C.
  destruct (filter j_mine (remove_job id l)); [reflexivity|cbn [length] in C; lia].
Qed.
Lemma removed : forall id l, ~ In id (map j_id (remove_job id l)).
Proof. intros id l I. apply in_map_iff in I as (j & E & I). apply filter_In in I as [_ I]. rewrite E, Z.eqb_refl in I. discriminate. Qed.
Lemma apply_inv : forall t s, ids_ok (jobs s) (next_id s) -> mine s = [] -> off s = false -> inv (update_jobs (OApply t) s).
Proof.
  intros t s I M F. cbn [update_jobs]. rewrite F. destruct I as (N & B & P). constructor; cbn [jobs next_id jid off enqueue].
  - apply (enqueue_ids true t s). split; auto.
  - lia.
  - intros _. exists t. unfold mine in *. cbn [jobs filter j_mine]. rewrite M. reflexivity.
  - congruence.
Qed.
Lemma step_inv : forall s o s', inv s -> with_outcome is_apply o -> step s o = Some s' -> inv s'.
Proof.
  intros s o s' V W E. pose proof (v_ids s V) as I. destruct o; cbn [step with_outcome] in *.
  - destruct (has_job true id (jobs s)) eqn:H; [|discriminate]. injection E as <-. destruct W as [t ->].
    destruct (off s) eqn:F.
    { exfalso. destruct (v_off s V F) as [M _]. apply existsb_exists in H as (j & J & X). apply andb_true_iff in X as [_ X].
      apply Bool.eqb_prop in X. assert (In j (mine s)) by (apply filter_In; auto). rewrite M in H. exact H. }
    destruct (v_on s V F) as [t0 M]. apply apply_inv; cbn [jobs next_id off]; [apply remove_ids; auto| |auto].
    assert (id = jid s).
    { apply existsb_exists in H as (j & J & X). apply andb_true_iff in X as [Y X]. apply Bool.eqb_prop in X. apply Z.eqb_eq in Y.
      assert (K : In j (mine s)) by (apply filter_In; auto). rewrite M in K. destruct K as [<-|[]]. cbn [j_id] in Y. auto. }
    subst id. unfold mine in *. cbn [jobs]. eapply only_mine; [apply I|eauto].
  - injection E as <-. constructor; cbn [jobs next_id jid off].
    + apply remove_ids; auto.
    + apply V.
    + congruence.
    + intros _. split; [|apply removed]. unfold mine. cbn [jobs]. destruct (off s) eqn:F.
      * destruct (v_off s V F) as [M _]. unfold mine in M. clear -M. unfold remove_job.
        induction (jobs s) as [|j l IH]; [reflexivity|]. cbn [filter] in *. destruct (j_mine j) eqn:X; [discriminate|].
        destruct (negb _); cbn [filter]; [rewrite X|]; auto.
      * destruct (v_on s V F) as [t M]. eapply only_mine; [apply I|exact M].
  - destruct (off s) eqn:F; injection E as <-; [|auto]. destruct W as [t ->]. destruct (v_off s V F) as [M _].
    apply apply_inv; auto.
  - injection E as <-. constructor; cbn [jobs next_id jid off enqueue].
    + apply (enqueue_ids false t s I).
    + pose proof (v_jid s V). lia.
    + intros F. destruct (v_on s V F) as [t0 M]. exists t0. unfold mine in *. cbn [jobs filter j_mine]. exact M.
    + intros F. destruct (v_off s V F) as [M NI]. split; [unfold mine in *; cbn [jobs filter j_mine]; exact M|].
      cbn [map j_id]. intros [X|X]; [|auto]. pose proof (v_jid s V). lia.
  - destruct (has_job false id (jobs s)) eqn:H; [|discriminate]. injection E as <-.
    assert (R : filter j_mine (remove_job id (jobs s)) = filter j_mine (jobs s)) by (apply remove_foreign; [apply I|auto]).
    constructor; cbn [jobs next_id jid off].
    + apply remove_ids; auto.
    + apply V.
    + intros F. destruct (v_on s V F) as [t M]. exists t. unfold mine in *. cbn [jobs]. rewrite R. exact M.
    + intros F. destruct (v_off s V F) as [M NI]. unfold mine in *. cbn [jobs]. rewrite R. split; [auto|].
      intros X. apply NI. apply in_map_iff in X as (j & Y & X). apply filter_In in X as [X _]. apply in_map_iff. eauto.
Qed.
Lemma run_inv : forall ops s s', inv s -> Forall (with_outcome is_apply) ops -> run s ops = Some s' -> inv s'.
Proof.
  induction ops as [|o ops IH]; intros s s' V W E; cbn [run] in E; [injection E as <-; auto|].
  destruct (step s o) as [s1|] eqn:S1; [|discriminate]. inversion W; subst. eapply IH; [|eauto|eauto]. eapply step_inv; eauto.
Qed.
Lemma switched : forall l n now t ops s, ids_ok l n -> Forall (fun j => j_mine j = false) l ->
  Forall (with_outcome is_apply) ops -> run (start l n now) (Run n (OApply t) :: ops) = Some s ->
  length (mine s) = if off s then 0%nat else 1%nat.
Proof.
  intros l n now t ops s I F W E.
  assert (V : inv s).
  { cbn [run] in E. destruct (step (start l n now) (Run n (OApply t))) as [s1|] eqn:S1; [|discriminate].
    eapply run_inv; [|exact W|exact E]. cbn [step] in S1.
    destruct (has_job true n (jobs (start l n now))) eqn:H; [|discriminate]. match type of S1 with Some ?x = _ => assert (X1 : s1 = x) by congruence; clear S1; subst s1 end.
    apply apply_inv; cbn [jobs next_id off]; [apply remove_ids; apply start_ids; auto| |reflexivity].
    unfold mine. cbn [jobs]. eapply only_mine; [apply (start_ids l n now I)|].
    unfold start. cbn [enqueue jobs filter j_mine next_id]. rewrite foreign_none by auto. reflexivity. }
  destruct (off s) eqn:O; [destruct (v_off s V O) as [-> _]; reflexivity|destruct (v_on s V O) as [x ->]; reflexivity].
Qed.

(** Without a job there is none until it is switched off and on again *)
Lemma none_step : forall s o s', mine s = [] -> no_switch o -> step s o = Some s' -> mine s' = [].
Proof.
  intros s o s' M NS E. destruct o; cbn [step no_switch] in *; try contradiction.
  - destruct (has_job true id (jobs s)) eqn:H; [|discriminate]. exfalso.
    apply existsb_exists in H as (j & J & X). apply andb_true_iff in X as [_ X]. apply Bool.eqb_prop in X.
    assert (K : In j (mine s)) by (apply filter_In; auto). rewrite M in K. exact K.
  - injection E as <-. unfold mine in *. cbn [enqueue jobs filter j_mine]. exact M.
  - destruct (has_job false id (jobs s)); [|discriminate]. injection E as <-. unfold mine in *. cbn [jobs].
    clear -M. unfold remove_job. induction (jobs s) as [|j l IH]; [reflexivity|]. cbn [filter] in *.
    destruct (j_mine j) eqn:X; [discriminate|]. destruct (negb _); cbn [filter]; [rewrite X|]; auto.
Qed.
Lemma none_run : forall ops s s', mine s = [] -> Forall no_switch ops -> run s ops = Some s' -> mine s' = [].
Proof.
  induction ops as [|o ops IH]; intros s s' M NS E; cbn [run] in E; [injection E as <-; auto|].
  destruct (step s o) as [s1|] eqn:S1; [|discriminate]. inversion NS; subst. eapply IH; [|eauto|eauto]. eapply none_step; eauto.
Qed.
Lemma stopped : forall l n now ops s, ids_ok l n -> Forall (fun j => j_mine j = false) l -> Forall no_switch ops ->
  run (start l n now) (Run n OStop :: ops) = Some s -> mine s = [].
Proof.
  intros l n now ops s I F NS E. cbn [run] in E.
  destruct (step (start l n now) (Run n OStop)) as [s1|] eqn:S1; [|discriminate].
  eapply none_run; [|exact NS|exact E]. cbn [step] in S1.
  destruct (has_job true n (jobs (start l n now))) eqn:H; [|discriminate]. match type of S1 with Some ?x = _ => assert (X1 : s1 = x) by congruence; clear S1; subst s1 end. cbn [update_jobs].
  unfold mine. cbn [jobs]. eapply only_mine; [apply (start_ids l n now I)|].
  unfold start. cbn [enqueue jobs filter j_mine next_id]. rewrite foreign_none by auto. reflexivity.
Qed.
