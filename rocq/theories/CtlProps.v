(** C30: addressing in the control interface.  C31: its routing. *)
From Coq Require Import Ascii String List ZArith Bool Lia.
From Verif Require Import Bytes ClenSpec NumSpec NumModel CtlModel CtlSpec CtlProofs CtlRouteProofs CtlEffectProofs.
Import ListNotations.
Local Open Scope nat_scope.

(** A sample: a listener "main" with services "a" and "b", and the control service *)
Definition be (t : be_kind) : backend := mkBe t false.
Definition sample : config :=
  mkCfg [ mkLstn (Some (lit "main")) false
            [ mkSvc (Some (lit "a")) false [[be Regular; be Regular]; [be Matrix]]; mkSvc (Some (lit "b")) false [[be OtherKind]] ];
          mkLstn (Some (lit "ctl")) false [ mkSvc None false [[be Control]] ] ]
        [ mkSvc (Some (lit "a")) false [[be Regular]]; mkSvc (Some (lit "+0")) false [[be Regular]] ].
Lemma plain_num : plain (lit "0") /\ plain (lit "2") /\ plain (lit "9") /\ plain (lit "7").
Proof.
  assert (H : forall s, number_token s -> s <> [] -> ~ In "/"%char s -> ~ In "?"%char s -> plain s) by (unfold plain; auto).
  repeat split; try discriminate; try (cbn; intuition discriminate); left; apply NumProofs.number_token_digits; split; try discriminate; reflexivity.
Qed.
Lemma not_signed : forall s, match s with c :: _ => ~ white c /\ c <> "+"%char /\ c <> "-"%char /\ ~ (exists d, decimal c d) | [] => True end -> ~ signed_number s.
Proof.
  intros s H (sp & sg & ds & -> & Hsp & Hsg & Hne & Hds). destruct sp as [|x sp].
  - destruct Hsg as [-> |[-> | ->]]; cbn in H.
    + destruct ds as [|d ds]; [congruence|]. inversion Hds; subst. cbn in H. tauto.
    + tauto.
    + tauto.
  - inversion Hsp; subst. cbn in H. tauto.
Qed.
Lemma plain_name : plain (lit "main") /\ plain (lit "a") /\ plain (lit "ctl").
Proof.
  repeat split; try discriminate; try (cbn; intuition discriminate); right; apply not_signed; cbn; (split; [cbn; intuition discriminate|split; [discriminate|split; [discriminate|]]]);
    intros [d Hd]; apply NumProofs.num_digit_decimal in Hd as [Hd _]; discriminate.
Qed.
Lemma sample_fits : fits sample.
Proof.
  split; [vm_compute; discriminate|]. intros [[|[|[|i]]]|] ss H.
  - destruct H as (x & [= <-] & ->). cbn. split; [vm_compute; discriminate|]. repeat constructor; vm_compute; discriminate.
  - destruct H as (x & [= <-] & ->). cbn. split; [vm_compute; discriminate|]. repeat constructor; vm_compute; discriminate.
  - destruct H as (x & H & _). discriminate.
  - destruct H as (x & H & _). destruct i; discriminate.
  - cbn in H. subst ss. cbn. split; [vm_compute; discriminate|]. repeat constructor; vm_compute; discriminate.
Qed.

(** ** C30 *)

(** A path addresses at most one object. *)
Theorem C30_unique : forall c comps o o', addressed c comps o -> addressed c comps o' -> o = o'.
Proof. exact addressed_fun. Qed.
Print Assumptions C30_unique.

(** Disabling (DELETE) and enabling (PUT) act on the object addressed, unless it leads to
    the control interface; a path that addresses nothing is not found and changes nothing.
    Components are decimal indices or names that do not look like numbers. *)
Theorem C30_disable_partial : forall c comps q m dis,
  fits c -> comps <> [] -> Forall plain comps -> query q ->
  (m = DELETE /\ dis = true \/ m = PUT /\ dis = false) ->
  let r := control_response_basic c m (lit "/listener" ++ path comps ++ q) in
  (forall o, addressed c comps o -> protected c o -> r = (NoEffect, Reply BAD_REQUEST)) /\
  (forall o, addressed c comps o -> ~ protected c o -> switchable c o -> fst r = SetDisabled o dis) /\
  (forall o, addressed c comps o -> ~ protected c o -> switchable c o -> q = [] -> snd r = Reply OK) /\
  ((forall o, ~ addressed c comps o) -> r = (NoEffect, Reply NOT_FOUND)).
Proof.
  intros c comps q m dis Hf Hn Hp Hq Hm r. destruct (disable_target c Hf comps q m dis Hp Hn Hq Hm) as [H1 H2]. fold r in H1, H2.
  split; [|split; [|split; [|exact H2]]].
  - intros o Ho Hpr. apply (H1 o Ho). auto.
  - intros o Ho Hpr Hs. destruct (H1 o Ho) as [_ K]. rewrite K by auto. reflexivity.
  - intros o Ho Hpr Hs ->. destruct (H1 o Ho) as [_ K]. rewrite K by auto. reflexivity.
Qed.
Print Assumptions C30_disable_partial.
Example C30_disable_ex : addressed sample [lit "main"; lit "a"; lit "2"] (ObjBackend (Some 0) 0 2) /\ Forall plain [lit "main"; lit "a"; lit "2"] /\
  switchable sample (ObjBackend (Some 0) 0 2) /\
  control_response_basic sample DELETE (lit "/listener/main/a/2") = (SetDisabled (ObjBackend (Some 0) 0 2) true, Reply OK) /\
  control_response_basic sample DELETE (lit "/listener/ctl") = (NoEffect, Reply BAD_REQUEST) /\
  control_response_basic sample DELETE (lit "/listener/main/c") = (NoEffect, Reply NOT_FOUND) /\
  control_response_basic sample DELETE (lit "/listener/main/9") = (NoEffect, Reply NOT_FOUND).
Proof.
  destruct plain_num as (_ & P2 & _), plain_name as (Pm & Pa & _). split; [|split; [auto|split; [|vm_compute; auto]]].
  - eapply addr_backend with (ss := lstn_services (nth 0 (listeners sample) (mkLstn None false []))).
    + split; [discriminate|]. right. split; [intros [_ H]; inversion H as [|? ? [d Hd]]; apply NumProofs.num_digit_decimal in Hd as [Hd _]; discriminate|].
      split; [reflexivity|]. intros j Hj. lia.
    + eexists. split; reflexivity.
    + right. split; [intros [_ H]; inversion H as [|? ? [d Hd]]; apply NumProofs.num_digit_decimal in Hd as [Hd _]; discriminate|].
      split; [reflexivity|]. intros j Hj. lia.
    + reflexivity.
    + split; [|split; [|cbn; lia]]. 
      * apply NumProofs.number_token_digits. split; [discriminate|reflexivity].
      * apply num_one. apply NumProofs.num_digit_decimal. split; reflexivity.
  - exists (be Matrix). split; [|auto]. exists (mkSvc (Some (lit "a")) false [[be Regular; be Regular]; [be Matrix]]). split; [|reflexivity].
    eexists. split; [eexists; split; reflexivity|reflexivity].
Qed.

(** Adding and deleting sessions *)
Theorem C30_session_partial : forall c comps k,
  fits c -> comps <> [] -> Forall plain comps -> ~ In "&"%char k -> (length k <= 127)%nat ->
  let put := control_response_basic c PUT (lit "/session" ++ path comps ++ lit "?key=" ++ k) in
  let del := control_response_basic c DELETE (lit "/session" ++ path comps ++ lit "?key=" ++ k) in
  (forall o, addressed c comps o ->
     put = match o with ObjBackend l s b => (SessionAdd l s b k, Reply OK) | _ => (NoEffect, Reply BAD_REQUEST) end /\
     del = match o with ObjService l s => (SessionRemove l s k, Reply OK) | _ => (NoEffect, Reply BAD_REQUEST) end) /\
  ((forall o, ~ addressed c comps o) -> (length comps <= 3)%nat ->
     put = (NoEffect, Reply NOT_FOUND) /\ del = (NoEffect, Reply NOT_FOUND)).
Proof. intros c comps k Hf Hn Hp Hk Hl. exact (session_target c Hf comps k Hp Hn Hk Hl). Qed.
Print Assumptions C30_session_partial.
(** Further parameters do not get into the key. *)
Theorem C30_session_key : forall c comps k rest o,
  fits c -> comps <> [] -> Forall plain comps -> ~ In "&"%char k -> (length k <= 127)%nat -> addressed c comps o ->
  fst (control_response_basic c PUT (lit "/session" ++ path comps ++ lit "?key=" ++ k ++ "&"%char :: rest)) =
    match o with ObjBackend l s b => SessionAdd l s b k | _ => NoEffect end /\
  fst (control_response_basic c DELETE (lit "/session" ++ path comps ++ lit "?key=" ++ k ++ "&"%char :: rest)) =
    match o with ObjService l s => SessionRemove l s k | _ => NoEffect end.
Proof. intros c comps k rest o Hf Hn Hp Hk Hl Ho. exact (session_effect c Hf comps k rest o Hp Hn Hk Hl Ho). Qed.
Print Assumptions C30_session_key.
Example C30_session_ex : control_response_basic sample PUT (lit "/session/0/a/1?key=k1") = (SessionAdd (Some 0) 0 1 (lit "k1"), Reply OK) /\
  control_response_basic sample DELETE (lit "/session/-/0?key=k1") = (SessionRemove None 0 (lit "k1"), Reply OK) /\
  control_response_basic sample DELETE (lit "/session/-/7?key=k1") = (NoEffect, Reply NOT_FOUND).
Proof. vm_compute. auto. Qed.

(** /service is the global scope of /listener *)
Theorem C30_service : forall c m comps q, m <> OTHER -> comps <> [] -> Forall plain comps -> query q ->
  control_response_basic c m (lit "/service" ++ path comps ++ q) = control_response_basic c m (lit "/listener" ++ path (lit "-" :: comps) ++ q).
Proof.
  intros c m comps q Hm Hn Hp Hq.
  assert (Pd : plain (lit "-")).
  { split; [discriminate|]. split; [cbn; intuition discriminate|]. split; [cbn; intuition discriminate|]. right.
    intros (sp & sg & ds & E & Hsp & Hsg & Hne & Hds). destruct sp as [|x sp].
    - destruct Hsg as [-> |[-> | ->]]; cbn in E; [|destruct ds; [congruence|discriminate]|destruct ds; discriminate].
      subst ds. inversion Hds as [|? ? [d Hd]]; subst. apply NumProofs.num_digit_decimal in Hd as [Hd _]. discriminate.
    - injection E as <- E. inversion Hsp as [|? ? Hw]; subst. vm_compute in Hw. intuition discriminate. }
  assert (L : forall f, ctl_listener c f (path (lit "-" :: comps) ++ q) = ctl_service c f (path comps ++ q) None).
  { intros f. destruct comps as [|a comps]; [congruence|]. unfold ctl_listener. cbv zeta.
    change (path (lit "-" :: a :: comps) ++ q) with (slash :: dash :: slash :: (a ++ path comps) ++ q).
    cbv beta iota; rewrite ?beq_refl. cbn [andb]. destruct (Nat.eqb _ 1) eqn:E; [exfalso; cbn in E; destruct (span _ _); discriminate|]. rewrite orb_true_r. reflexivity. }
  assert (Hc : lit "-" :: comps <> []) by discriminate.
  assert (Hp' : Forall plain (lit "-" :: comps)) by auto.
  destruct m; [ | | |congruence].
  - pose proof (response_known c (mkEp (lit "/service") GET ListService) q comps) as A. pose proof (response_known c (mkEp (lit "/listener") GET ListListener) q) as B.
    cbn [method uri endfn] in A, B. rewrite A, (B (lit "-" :: comps)); auto; try (cbn; tauto); try discriminate.
    rewrite !call_listener by auto. symmetry. apply L.
  - pose proof (response_known c (mkEp (lit "/service") PUT EnableService) q comps) as A. pose proof (response_known c (mkEp (lit "/listener") PUT EnableListener) q) as B.
    cbn [method uri endfn] in A, B. rewrite A, (B (lit "-" :: comps)); auto; try (cbn; tauto); try discriminate.
    rewrite !call_listener by auto. symmetry. apply L.
  - pose proof (response_known c (mkEp (lit "/service") DELETE DisableService) q comps) as A. pose proof (response_known c (mkEp (lit "/listener") DELETE DisableListener) q) as B.
    cbn [method uri endfn] in A, B. rewrite A, (B (lit "-" :: comps)); auto; try (cbn; tauto); try discriminate.
    rewrite !call_listener by auto. symmetry. apply L.
Qed.
Print Assumptions C30_service.
Example C30_service_ex : control_response_basic sample DELETE (lit "/service/a/0") = (SetDisabled (ObjBackend None 0 0) true, Reply OK).
Proof. vm_compute. auto. Qed.

(** The change concerns the object alone, and no address changes *)
Theorem C30_only_target : forall c o dis,
  let c' := apply_effect (SetDisabled o dis) c in
  (forall d, disabled_is c o d -> disabled_is c' o dis) /\
  (forall p d, p <> o -> (disabled_is c' p d <-> disabled_is c p d)) /\
  (forall comps p, addressed c' comps p <-> addressed c comps p).
Proof.
  intros c o dis c'. destruct (effect_only c o dis) as [H1 H2]. split; [exact H1|split; [exact H2|]]. apply addressed_after.
Qed.
Print Assumptions C30_only_target.
Example C30_only_target_ex : disabled_is sample (ObjBackend (Some 0) 0 2) false /\
  apply_effect (SetDisabled (ObjBackend (Some 0) 0 2) true) sample <> sample.
Proof.
  split; [|vm_compute; intros H; discriminate]. exists (be Matrix). split; [|reflexivity].
  exists (mkSvc (Some (lit "a")) false [[be Regular; be Regular]; [be Matrix]]). split; [|reflexivity].
  eexists. split; [eexists; split; reflexivity|reflexivity].
Qed.

(** Whatever the request, nothing has changed if the answer is "not found", or if it is
    another error and the request has no query. *)
Theorem C30_nochange : forall c m url,
  (snd (control_response_basic c m url) = Reply NOT_FOUND -> fst (control_response_basic c m url) = NoEffect) /\
  (~ In "?"%char url -> snd (control_response_basic c m url) <> Reply OK -> fst (control_response_basic c m url) = NoEffect).
Proof. exact response_calm. Qed.
Print Assumptions C30_nochange.
(** Listing changes nothing *)
Theorem C30_get : forall c url, fst (control_response_basic c GET url) = NoEffect.
Proof. exact get_quiet. Qed.
Print Assumptions C30_get.
Example C30_nochange_ex : control_response_basic sample DELETE (lit "/listener//x") = (NoEffect, Reply NOT_FOUND) /\
  control_response_basic sample GET (lit "/listener/0") = (NoEffect, Reply OK).
Proof. vm_compute. auto. Qed.

(** An empty component selects the first object: with a final slash, a request to disable
    a listener disables its first service instead. *)
Theorem C30_empty_refuted : exists c, control_response_basic c DELETE (lit "/listener/0/") = (SetDisabled (ObjService (Some 0) 0) true, Reply OK).
Proof. exists sample. vm_compute. reflexivity. Qed.
Print Assumptions C30_empty_refuted.
(** A name that reads as a number with a sign is taken as an index: here the service "+0"
    is asked for and "a" is disabled. *)
Theorem C30_signed_refuted : exists c, map svc_name (services c) = [Some (lit "a"); Some (lit "+0")] /\
  control_response_basic c DELETE (lit "/service/+0") = (SetDisabled (ObjService None 0) true, Reply OK).
Proof. exists sample. split; vm_compute; reflexivity. Qed.
Print Assumptions C30_signed_refuted.
(** Negative numbers are reduced modulo 2^32 *)
Theorem C30_wrap_refuted : exists c, control_response_basic c DELETE (lit "/service/-4294967296") = (SetDisabled (ObjService None 0) true, Reply OK).
Proof. exists sample. vm_compute. reflexivity. Qed.
Print Assumptions C30_wrap_refuted.
(** To disable or enable the global scope follows a null pointer. *)
Theorem C30_core_refuted : forall c m, m = DELETE \/ m = PUT ->
  control_response_basic c m (lit "/listener/-") = (NoEffect, Crash) /\ control_response_basic c m (lit "/listener/") = (NoEffect, Crash).
Proof. intros c m [-> | ->]; split; reflexivity. Qed.
Print Assumptions C30_core_refuted.
(** An error may be reported although the change has been made. *)
Theorem C30_late_refuted : exists c, control_response_basic c DELETE (lit "/service/0?indent=99") = (SetDisabled (ObjService None 0) true, Reply BAD_REQUEST).
Proof. exists sample. vm_compute. reflexivity. Qed.
Print Assumptions C30_late_refuted.
(** With an empty query the length of the parameter is read uninitialised. *)
Theorem C30_query_refuted : exists c, snd (control_response_basic c GET (lit "/service/0?")) = Undef /\ snd (control_response_basic c DELETE (lit "/session/-/0?")) = Undef.
Proof. exists sample. vm_compute. auto. Qed.
Print Assumptions C30_query_refuted.
(** Components after that of the backend are ignored when a session is added. *)
Theorem C30_junk_refuted : exists c, control_response_basic c PUT (lit "/session/-/0/0/junk?key=k") = (SessionAdd None 0 0 (lit "k"), Reply OK).
Proof. exists sample. vm_compute. reflexivity. Qed.
Print Assumptions C30_junk_refuted.

(** ** C31 *)

(** For any table of endpoints: the endpoint has the method and a URI prefix of the
    request, and none with that method has a longer one; if no endpoint covers the path
    with this method, the answer tells if one does with another. *)
Theorem C31_route : forall tab m u p, ~ empty_path u -> target u p ->
  match find_endpoint tab m u with
  | Found e => In e tab /\ method e = m /\ covers (uri e) p /\
      forall e', In e' tab -> method e' = m -> covers (uri e') p -> (length (uri e') <= length (uri e))%nat
  | Missing (Some BAD_REQUEST) => (forall e, In e tab -> covers (uri e) p -> method e <> m) /\ exists e, In e tab /\ covers (uri e) p
  | Missing (Some NOT_FOUND) => forall e, In e tab -> ~ covers (uri e) p
  | Missing _ => False
  end.
Proof. exact route. Qed.
Print Assumptions C31_route.
(** Every request has one path *)
Theorem C31_path : forall u, exists p, target u p /\ (~ empty_path u -> forall p', target u p' -> p' = p).
Proof. intros u. destruct (target_total u) as [p H]. exists p. split; auto. intros Hn p' H'. exact (target_fun u p' p Hn H' H). Qed.
Print Assumptions C31_path.
(** The endpoints proper *)
Theorem C31_endpoint : forall c e q comps, In e control_endpoint -> uri e <> [] -> Forall plain comps -> comps <> [] -> query q ->
  find_endpoint control_endpoint (method e) (uri e ++ path comps ++ q) = Found e /\
  control_response_basic c (method e) (uri e ++ path comps ++ q) = call c (endfn e) (path comps ++ q).
Proof.
  intros c e q comps He Hu Hp Hn Hq. split; [|apply response_known; auto].
  destruct (table_endpoint e q (method e) comps He eq_refl Hu Hp Hn Hq) as (e' & H1 & H2 & H3 & H4).
  now rewrite (table_unique e e' He H1 H3 H4) in H2.
Qed.
Print Assumptions C31_endpoint.
Example C31_route_ex : find_endpoint control_endpoint PUT (lit "/listener/0/a?indent=2") = Found (mkEp (lit "/listener") PUT EnableListener) /\
  find_endpoint control_endpoint PUT (lit "/core") = Missing (Some BAD_REQUEST) /\
  find_endpoint control_endpoint GET (lit "nowhere") = Missing (Some NOT_FOUND) /\ target (lit "/core/?x") (lit "/core").
Proof.
  split; [reflexivity|]. split; [reflexivity|]. split; [reflexivity|]. exists (lit "?x").
  split; [right; exists (lit "x"); reflexivity|]. split; [cbn; intuition discriminate|]. left. reflexivity.
Qed.

(** The empty URI in the table covers everything: an unknown URI gives the complete
    listing, or, with another method, the error for known URIs.  Not found is never given. *)
Theorem C31_unknown_refuted : forall c m t p, ~ In "?"%char t -> target (lit "/" ++ t) p ->
  (forall e, In e [lit "/core"; lit "/listener"; lit "/service"; lit "/session"] -> ~ covers e p) ->
  control_response_basic c m (lit "/" ++ t) = (NoEffect, Reply (match m with GET => OK | _ => BAD_REQUEST end)).
Proof. exact unknown_uri. Qed.
Print Assumptions C31_unknown_refuted.
Example C31_unknown_ex : forall c, control_response_basic c GET (lit "/nowhere") = (NoEffect, Reply OK).
Proof. reflexivity. Qed.
(** So does it for GET of a URI that is known for other methods only. *)
Theorem C31_method_refuted : forall c, control_response_basic c GET (lit "/session/0/0") = (NoEffect, Reply OK).
Proof. reflexivity. Qed.
Print Assumptions C31_method_refuted.
(** With an empty path the status is read uninitialised. *)
Theorem C31_empty_refuted : forall c m u, empty_path u -> snd (control_response_basic c m u) = Undef.
Proof. intros c m u [-> |[t ->]]; reflexivity. Qed.
Print Assumptions C31_empty_refuted.
