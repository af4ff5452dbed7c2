(** C61: the backends of a configuration. *)
From Coq Require Import Ascii String List ZArith Bool Lia.
From Coq Require Import ZifyBool.
From Verif Require Import Bytes FinModel FinSpec FinProofs.
Import ListNotations.
Local Open Scope Z_scope.

(** Which configurations are accepted: all sections are readable, the names of global backends differ, each
    backend of a service has an address that can be used (that of the global backend, if it refers to
    one), and a balancer with several backends has servers and redirects only. *)
Theorem C61_accepted : forall sys dfl ts,
  (exists svcs, parse_config_file sys dfl ts = Ok svcs) <-> acceptable sys ts.
Proof. exact accepted. Qed.
Print Assumptions C61_accepted.

(** The services of an accepted configuration have, in order, the backends their statements stand for, each parameter as
    the last directive for it says.  (Partial: what UseBackend stands for is not what the manual says, and
    not all numeric addresses are recognised, see below.) *)
Theorem C61_values_partial : forall sys dfl ts svcs, parse_config_file sys dfl ts = Ok svcs ->
  Forall2 (fun is s => Forall2 (stands_for sys dfl ts) (normal is) (fst s) /\
                       Forall2 (stands_for sys dfl ts) (emergency is) (snd s)) (services ts) svcs.
Proof. exact values. Qed.
Print Assumptions C61_values_partial.

(** Backend "name" in a service has the same effect as the definition in its place followed by the directives
    given, wherever the definition stands. *)
Theorem C61_reference_partial : forall sys dfl pre post a b n us ss,
  In (TBackend n ss) (pre ++ post) -> address_of ss <> None ->
  parse_config_file sys dfl (pre ++ TService (a ++ IRef n us :: b) :: post) =
  parse_config_file sys dfl (pre ++ TService (a ++ IBackend (ss ++ uses us) :: b) :: post).
Proof. exact reference. Qed.
Print Assumptions C61_reference_partial.

(** UseBackend "name" should have the same effect as the definition in its place.  It has the effect of the
    definition with Priority 5 and Disabled no, whatever the definition says: the weight of a
    global backend is forgotten and a disabled one is enabled. *)
Theorem C61_use_backend_refuted : forall sys dfl pre post a b n ss,
  In (TBackend n ss) (pre ++ post) -> address_of ss <> None ->
  parse_config_file sys dfl (pre ++ TService (a ++ IUse n :: b) :: post) =
  parse_config_file sys dfl (pre ++ TService (a ++ IBackend (ss ++ [Priority 5; Disabled false]) :: b) :: post).
Proof.
  intros sys dfl pre post a b n ss H A; etransitivity; [exact (use_backend sys dfl pre post a b n)|].
  exact (reference sys dfl pre post a b n [UPriority 5; UDisabled false] ss H A).
Qed.
Print Assumptions C61_use_backend_refuted.

(** A reference to a global backend without Address should be an error in the configuration.  It crashes the program
    (a null pointer is copied as a string). *)
Theorem C61_no_address_refuted : forall sys dfl n ss us, readable ss -> readable (uses us) -> address_of ss = None ->
  parse_config_file sys dfl [TBackend n ss; TService [IRef n us]] = Crash /\
  parse_config_file sys dfl [TService [IBackend (ss ++ uses us)]] <> Crash.
Proof.
  intros sys dfl n ss us R U A; split.
  - unfold parse_config_file; cbn [parse_tops]; rewrite (internal_some dfl ss R).
    cbn [named_backend_retrieve parse_items parse_item app]; rewrite (set_uses_some us _ _ U).
    cbn [parse_tops app finalize_services].
    unfold service_finalize, finalize_balancer, setup, backend_finalize; cbn [fst snd be_kind named_backend_retrieve].
    assert (B : bytes_eqb n n = true) by (apply bytes_eqb_eq; reflexivity); rewrite B; cbn [nb_mtx].
    change (m_host (params (start dfl) ss)) with (address_of ss); rewrite A; reflexivity.
  - unfold parse_config_file; cbn [parse_tops parse_items parse_item].
    destruct (parse_backend_internal dfl (ss ++ uses us)) as [[[m p] d]|]; [|discriminate].
    cbn [parse_tops app finalize_services]; unfold service_finalize, finalize_balancer, setup, backend_finalize.
    cbn [fst snd be_kind priority disabled].
    assert (N := finalize_no_crash sys m p d); destruct (finalize_matrix sys m p d) as [| |be]; try congruence; try discriminate.
Qed.
Print Assumptions C61_no_address_refuted.

(** IPv6 addresses with all their eight groups are recognised as numeric. *)
Theorem C61_numeric_partial : forall gs, length gs = 8%nat -> Forall hexgroup gs -> str_is_ip (joined gs) = true.
Proof. exact full_ipv6. Qed.
Print Assumptions C61_numeric_partial.

(** No IPv4 address is: a backend with such an address and Resolve first, all or srv is not created
    from its address, but is left to be looked up in DNS by the digits as if they were a name. *)
Theorem C61_ipv4_refuted : forall sys dfl h ss svcs,
  In "."%char h -> starts_with_slash h = false -> address_of ss = Some h -> mode_of ss <> RImmediate ->
  parse_config_file sys dfl [TService [IBackend ss]] = Ok svcs ->
  exists be m, svcs = [([be], [])] /\ be_kind be = KMatrix m /\ m_host m = Some h.
Proof.
  intros sys dfl h ss svcs D S1 A M E; apply values in E.
  unfold services in E; cbn [map concat app] in E.
  inversion E as [|is [n e] l1 l2 [E1 E2] E3]; subst; inversion E3; subst; cbn [fst snd] in *.
  unfold normal, emergency in *; cbn in E1, E2; inversion E2; subst.
  inversion E1 as [|i be l1 l2 E4 E5]; subst; inversion E5; subst.
  destruct E4 as (_ & _ & h' & m & A' & P & K).
  assert (h' = h) by congruence; subst h'.
  assert (ST : static h ss = false).
  { unfold static; rewrite S1, (dotted h D); destruct (mode_of ss); try reflexivity; contradiction M; reflexivity. }
  rewrite ST in K; destruct K as [K _]; exists be, m; repeat split; auto.
  destruct P as [P _]; rewrite P; exact A.
Qed.
Print Assumptions C61_ipv4_refuted.

(** The path of a UNIX socket may have 108 bytes, and then its address has 111: more than the 110 of
    struct sockaddr_un, which the system refuses. *)
Theorem C61_path_refuted : forall sys dfl h ss svcs,
  Z.of_nat (length h) = 108 -> address_of ss = Some h -> starts_with_slash h = true ->
  getaddr sys (feature_dns sys) h (family_of ss) = None ->
  parse_config_file sys dfl [TService [IBackend ss]] = Ok svcs ->
  exists be m, svcs = [([be], [])] /\ be_kind be = KRegular (Unix h 111) m.
Proof.
  intros sys dfl h ss svcs L A S1 G E; apply values in E.
  unfold services in E; cbn [map concat app] in E.
  inversion E as [|is [n e] l1 l2 [E1 E2] E3]; subst; inversion E3; subst; cbn [fst snd] in *.
  unfold normal, emergency in *; cbn in E1, E2; inversion E2; subst.
  inversion E1 as [|i be l1 l2 E4 E5]; subst; inversion E5; subst.
  destruct E4 as (_ & _ & h' & m & A' & P & K).
  assert (h' = h) by congruence; subst h'.
  assert (ST : static h ss = true) by (unfold static; rewrite S1, orb_true_r; reflexivity).
  rewrite ST, G, L in K; destruct K as [_ K]; exists be, m; auto.
Qed.
Print Assumptions C61_path_refuted.

(** The manual allows a priority of 0; it is refused. *)
Theorem C61_priority_refuted : forall sys dfl s1 s2,
  parse_config_file sys dfl [TService [IBackend (s1 ++ Priority 0 :: s2)]] = Fail.
Proof.
  intros sys dfl s1 s2; unfold parse_config_file; cbn [parse_tops parse_items parse_item].
  destruct (internal_dec dfl (s1 ++ Priority 0 :: s2)) as [[R _]|[_ E]]; [|rewrite E; reflexivity].
  exfalso; destruct R as [F _]; apply Forall_app in F; destruct F as [_ F]; inversion F as [|s l K1 K2]; subst.
  cbn in K1; lia.
Qed.
Print Assumptions C61_priority_refuted.

(** Non-vacuity. *)
Local Open Scope string_scope.
Definition ex_sys : system :=
  {| getaddr := fun dns n f => if bytes_eqb n (lit "www.example.org") then Some (2%Z, lit "addr") else None;
     feature_dns := true; dynamic := true |}.
Definition ex_dfl : defaults := Build_defaults 15 15 600.
Definition ex_config : list top :=
  [TService [IBackend [Address (lit "www.example.org"); HTTPS; TimeOut 20; TimeOut 30];
             IUse (lit "g"); IRef (lit "g") [UDisabled false];
             ISpecial Redirect; IEmergency [Address (lit "/run/sock")]];
   TService [ISpecial Control];
   TBackend (lit "g") [Address (lit "192.0.2.1"); Port (Some 8080%Z); Resolve RFirst; Priority 70000; Disabled true]].
Example C61_example :
  parse_config_file ex_sys ex_dfl ex_config =
  Ok [([Build_backend (KRegular (Inet 2 (lit "addr") 443)
          (Build_matrix (Some (lit "www.example.org")) 443 0 RImmediate 0 false 0 30 15 600 true None)) 5 0;
        Build_backend (KMatrix (Build_matrix (Some (lit "192.0.2.1")) 8080 0 RFirst 0 false 0 15 15 600 false None)) 5 0;
        Build_backend (KMatrix (Build_matrix (Some (lit "192.0.2.1")) 8080 0 RFirst 0 false 0 15 15 600 false None)) 65535 0;
        Build_backend (KSpecial Redirect) 1 0],
       [Build_backend (KRegular (Unix (lit "/run/sock") 12)
          (Build_matrix (Some (lit "/run/sock")) 80 0 RImmediate 0 false 0 120 120 120 false None)) 5 0]);
      ([Build_backend (KSpecial Control) 1 0], [])]%Z.
Proof. vm_compute; reflexivity. Qed.
Example C61_refused_example :
  parse_config_file ex_sys ex_dfl [TService [ISpecial Control; IBackend [Address (lit "www.example.org")]]] = Fail /\
  parse_config_file ex_sys ex_dfl [TService [IUse (lit "x")]] = Fail /\
  parse_config_file ex_sys ex_dfl [TService [IBackend [Address (lit "/run/sock"); Port (Some 80%Z)]]] = Fail.
Proof. repeat split; vm_compute; reflexivity. Qed.
Example C61_crash_example :
  parse_config_file ex_sys ex_dfl [TBackend (lit "g") [Port (Some 80%Z)]; TService [IUse (lit "g")]] = Crash.
Proof. vm_compute; reflexivity. Qed.
Example C61_numeric_example : str_is_ip (lit "2001:db8:0:0:0:0:0:1") = true /\ str_is_ip (lit "2001:db8::1") = true /\
  str_is_ip (lit "::1") = false /\ str_is_ip (lit "192.0.2.1") = false.
Proof. repeat split; vm_compute; reflexivity. Qed.
Definition ex_path : bytes := (lit "/" ++ repeat "a"%char 107)%list.
Example C61_path_example : Z.of_nat (length ex_path) = 108%Z /\
  exists svcs, parse_config_file ex_sys ex_dfl [TService [IBackend [Address ex_path]]] = Ok svcs.
Proof. split; [vm_compute; reflexivity|]; eexists; vm_compute; reflexivity. Qed.
