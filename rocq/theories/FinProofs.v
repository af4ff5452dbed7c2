(** C61: proofs. *)
From Coq Require Import Ascii String List ZArith Bool Lia.
From Coq Require Import ZifyBool ZifyNat.
From Verif Require Import Bytes FinModel FinSpec.
Import ListNotations.
Local Open Scope Z_scope.

(** * Sections *)
Lemma last_cons : forall A (f : stmt -> option A) d s ss,
  last_of f d (s :: ss) = last_of f (match f s with Some x => x | None => d end) ss.
Proof. reflexivity. Qed.
Lemma last_app : forall A (f : stmt -> option A) d s1 s2,
  last_of f d (s1 ++ s2) = last_of f (last_of f d s1) s2.
Proof. intros; unfold last_of; apply fold_left_app. Qed.

Fixpoint readable_from (ssl : bool) (ss : list stmt) : Prop :=
  match ss with
  | [] => True
  | s :: ss => fine s /\ (match s with Ssl _ => ssl = true | _ => True end) /\
               readable_from (match s with HTTPS => true | _ => ssl end) ss
  end.

Lemma readable_from_ok : forall ss ssl, readable_from ssl ss <->
  Forall fine ss /\ forall s1 v s2, ss = s1 ++ Ssl v :: s2 -> ssl = true \/ In HTTPS s1.
Proof.
  induction ss as [|s ss IH]; intro ssl; cbn [readable_from].
  - split; [intros _|auto]; split; [constructor|]; intros [|] ? ? E; discriminate.
  - rewrite IH; split.
    + intros (A & B & C & D); split; [constructor; auto|].
      intros [|s0 s1] v s2 E; cbn in E; injection E as E1 E2.
      * subst s; auto.
      * subst s0; destruct (D _ _ _ E2) as [K|K]; [|right; right; exact K].
        destruct s; auto; right; left; reflexivity.
    + intros (A & B); inversion A as [|s' ss' F G]; subst; split; [exact F|]; split.
      * destruct s; auto; destruct (B [] valid ss eq_refl) as [K|[]]; exact K.
      * split; [exact G|]; intros s1 v s2 ->.
        destruct (B (s :: s1) v s2 eq_refl) as [K|[K|K]]; subst; auto.
        destruct s; auto.
Qed.

Definition params (m : matrix) (ss : list stmt) : matrix :=
  Build_matrix
    (last_of (fun s => match s with Address h => Some (Some h) | _ => None end) (m_host m) ss)
    (last_of (fun s => match s with Port p => p | _ => None end) (m_port m) ss)
    (last_of (fun s => match s with Family f => Some f | _ => None end) (m_family m) ss)
    (last_of (fun s => match s with Resolve r => Some r | _ => None end) (m_mode m) ss)
    (last_of (fun s => match s with RetryInterval n => Some n | _ => None end) (m_retry m) ss)
    (last_of (fun s => match s with IgnoreSRVWeight b => Some b | _ => None end) (m_ignore_weight m) ss)
    (last_of (fun s => match s with OverrideTTL n => Some n | _ => None end) (m_ttl m) ss)
    (last_of (fun s => match s with TimeOut n => Some n | _ => None end) (m_to m) ss)
    (last_of (fun s => match s with ConnTO n => Some n | _ => None end) (m_conn_to m) ss)
    (last_of (fun s => match s with WSTimeOut n => Some n | _ => None end) (m_ws_to m) ss)
    (last_of (fun s => match s with HTTPS => Some true | _ => None end) (m_ssl m) ss)
    (last_of (fun s => match s with ServerName n => Some (Some n) | _ => None end) (m_servername m) ss).

Definition pri_from (p : Z) ss := last_of (fun s => match s with Priority n => Some n | _ => None end) p ss.
Definition dis_from (d : Z) ss := last_of (fun s => match s with Disabled b => Some (num b) | _ => None end) d ss.

Lemma set_stmts_some : forall ss m pri dis, readable_from (m_ssl m) ss ->
  set_stmts m pri dis ss = Some (params m ss, pri_from pri ss, dis_from dis ss).
Proof.
  induction ss as [|s ss IH]; intros m pri dis H.
  - destruct m; reflexivity.
  - destruct H as (F & L & R); cbn [set_stmts]; destruct m as [h p f r rt iw tl t c w ssl sn]; cbn [m_ssl] in *.
    destruct s as [h'|[p'|]|f'|r'|b'|n'|n'|n'|n'|n'|n'| |v|b'|s']; cbn [set_stmt fine] in *;
      try contradiction;
      try (match goal with |- context [set_stmts ?mm _ _ ss] =>
             rewrite (IH mm) by exact R; unfold params, pri_from, dis_from;
             cbn [m_host m_port m_family m_mode m_retry m_ignore_weight m_ttl m_to m_conn_to m_ws_to m_ssl m_servername];
             rewrite !last_cons; reflexivity end).
    + destruct (n' <? 1) eqn:Q; [lia|]; rewrite IH by exact R.
      unfold params, pri_from, dis_from; cbn [m_host m_port m_family m_mode m_retry m_ignore_weight m_ttl m_to m_conn_to m_ws_to m_ssl m_servername].
      rewrite !last_cons; reflexivity.
    + subst v; rewrite L; cbn [andb]; subst ssl; rewrite IH by exact R.
      unfold params, pri_from, dis_from; cbn [m_host m_port m_family m_mode m_retry m_ignore_weight m_ttl m_to m_conn_to m_ws_to m_ssl m_servername].
      rewrite !last_cons; reflexivity.
Qed.

Lemma set_stmts_readable : forall ss m pri dis r, set_stmts m pri dis ss = Some r -> readable_from (m_ssl m) ss.
Proof.
  induction ss as [|s ss IH]; intros m pri dis r E; cbn [set_stmts readable_from] in *; [exact I|].
  destruct (set_stmt m pri dis s) as [[[m' p'] d']|] eqn:Q; [|discriminate].
  apply IH in E; destruct m as [h p f rr rt iw tl t c w ssl sn]; cbn [m_ssl].
  destruct s as [h'|[q|]|f'|r'|b'|n'|n'|n'|n'|n'|n'| |v|b'|s']; cbn [set_stmt] in Q; cbn [fine];
    try discriminate; try (injection Q as <- <- <-; cbn [m_ssl] in E; auto).
  - destruct (n' <? 1) eqn:K; [discriminate|]; injection Q as <- <- <-; cbn [m_ssl] in E; repeat split; auto; lia.
  - destruct ssl, v; cbn in Q; try discriminate; injection Q as <- <- <-; cbn [m_ssl] in E; auto.
Qed.

Definition start (dfl : defaults) : matrix :=
  Build_matrix None 0 0 RImmediate 0 false 0 (be_to dfl) (be_connto dfl) (ws_to dfl) false None.

Lemma internal_some : forall dfl ss, readable ss ->
  parse_backend_internal dfl ss = Some (params (start dfl) ss, priority_of ss, dis_from 0 ss).
Proof.
  intros dfl ss R; unfold parse_backend_internal; apply (set_stmts_some ss (start dfl) 5 0).
  apply readable_from_ok; destruct R as [A B]; split; [exact A|]; intros; right; eapply B; eassumption.
Qed.
Lemma internal_readable : forall dfl ss r, parse_backend_internal dfl ss = Some r -> readable ss.
Proof.
  intros dfl ss r E; unfold parse_backend_internal in E; apply set_stmts_readable in E; cbn in E.
  apply readable_from_ok in E; destruct E as [A B]; split; [exact A|].
  intros s1 v s2 Q; destruct (B _ _ _ Q) as [K|K]; [discriminate|exact K].
Qed.
Lemma internal_dec : forall dfl ss,
  (readable ss /\ parse_backend_internal dfl ss = Some (params (start dfl) ss, priority_of ss, dis_from 0 ss)) \/
  (~ readable ss /\ parse_backend_internal dfl ss = None).
Proof.
  intros dfl ss; destruct (parse_backend_internal dfl ss) as [r|] eqn:E.
  - left; assert (R := internal_readable _ _ _ E); split; [exact R|].
    rewrite (internal_some dfl ss R) in E; symmetry; exact E.
  - right; split; [|reflexivity]; intro R; rewrite (internal_some dfl ss R) in E; discriminate.
Qed.

Lemma dis_num : forall ss b, dis_from (num b) ss =
  num (last_of (fun s => match s with Disabled b => Some b | _ => None end) b ss).
Proof.
  unfold dis_from; induction ss as [|s ss IH]; intro b; [reflexivity|]; rewrite !last_cons.
  destruct s; apply IH.
Qed.
Lemma dis_zero : forall ss, dis_from 0 ss = num (disabled_of ss).
Proof. intro ss; exact (dis_num ss false). Qed.

Lemma https_in : forall ss b, last_of (fun s => match s with HTTPS => Some true | _ => None end) b ss = true <->
  b = true \/ In HTTPS ss.
Proof.
  induction ss as [|s ss IH]; intro b; [cbn; tauto|]; rewrite last_cons.
  destruct s; rewrite IH; cbn; intuition congruence.
Qed.

(** Directives of references. *)
Lemma set_uses_some : forall us pri dis, readable (uses us) ->
  set_uses pri dis us = Some (pri_from pri (uses us), dis_from dis (uses us)).
Proof.
  induction us as [|u us IH]; intros pri dis R; [reflexivity|].
  assert (R' : readable (uses us)).
  { destruct R as [A B]; inversion A as [|s l F G]; subst; split; [exact G|].
    intros s1 v s2 E; exfalso; destruct u as [n|b];
      (assert (H : In (Ssl v) (uses us)) by (rewrite E; apply in_app_iff; right; left; reflexivity);
       unfold uses in H; apply in_map_iff in H; destruct H as ([x|x] & H & _); discriminate). }
  destruct u as [n|b]; cbn [set_uses uses map].
  - destruct R as [A _]; inversion A as [|s l F G]; subst; cbn in F.
    destruct (n <? 1) eqn:Q; [lia|]; rewrite IH by exact R'; reflexivity.
  - rewrite IH by exact R'; reflexivity.
Qed.
Lemma set_uses_readable : forall us pri dis r, set_uses pri dis us = Some r -> readable (uses us).
Proof.
  intros us pri dis r E; split.
  - revert pri dis E; induction us as [|[n|b] us IH]; intros pri dis E; cbn [set_uses] in E; cbn [uses map].
    + constructor.
    + destruct (n <? 1) eqn:Q; [discriminate|]; constructor; [cbn; lia|eapply IH; exact E].
    + constructor; [exact I|eapply IH; exact E].
  - intros s1 v s2 Q; exfalso.
    assert (H : In (Ssl v) (uses us)) by (rewrite Q; apply in_app_iff; right; left; reflexivity).
    unfold uses in H; apply in_map_iff in H; destruct H as ([x|x] & H & _); discriminate.
Qed.

(** [-1] stands for "not given". *)
Lemma pri_minus : forall us p, Forall fine us -> 1 <= p ->
  (if pri_from (-1) us =? -1 then p else pri_from (-1) us) = pri_from p us.
Proof.
  assert (G : forall us q p, Forall fine us -> 1 <= p -> 1 <= q \/ q = -1 ->
    (if pri_from q us =? -1 then p else pri_from q us) = pri_from (if q =? -1 then p else q) us).
  { unfold pri_from; induction us as [|s us IH]; intros q p F P Q.
    - cbn; destruct (q =? -1) eqn:K; reflexivity.
    - inversion F as [|s' l F1 F2]; subst; rewrite !last_cons.
      destruct s; try (apply IH; auto; fail).
      cbn in F1; rewrite IH by (auto; lia); destruct (n =? -1) eqn:K; [lia|reflexivity]. }
  intros us p F P; exact (G us (-1) p F P (or_intror eq_refl)).
Qed.
Lemma dis_minus : forall us b, (if dis_from (-1) us =? -1 then num b else dis_from (-1) us) = dis_from (num b) us.
Proof.
  assert (G : forall us q b, (if dis_from q us =? -1 then num b else dis_from q us) =
     dis_from (if q =? -1 then num b else q) us).
  { unfold dis_from; induction us as [|s us IH]; intros q b.
    - cbn; destruct (q =? -1); reflexivity.
    - rewrite !last_cons; destruct s; try apply IH.
      rewrite IH; destruct b0; reflexivity. }
  intros us b; exact (G us (-1) b).
Qed.
Lemma pri_pos : forall ss p, Forall fine ss -> 1 <= p -> 1 <= pri_from p ss.
Proof.
  unfold pri_from; induction ss as [|s ss IH]; intros p F P; [exact P|].
  inversion F as [|s' l F1 F2]; subst; rewrite last_cons; destruct s; apply IH; auto.
Qed.

Lemma params_uses : forall m us, params m (uses us) = m.
Proof.
  intros m us; destruct m as [h p f r rt iw tl t c w ssl sn].
  induction us as [|[n|b] us IH]; [reflexivity| |]; cbn [uses map]; rewrite <- IH at 2;
    unfold params; rewrite !last_cons; reflexivity.
Qed.
Lemma params_app : forall m s1 s2, params m (s1 ++ s2) = params (params m s1) s2.
Proof.
  intros m s1 s2; unfold params; rewrite !last_app;
  cbn [m_host m_port m_family m_mode m_retry m_ignore_weight m_ttl m_to m_conn_to m_ws_to m_ssl m_servername]; reflexivity.
Qed.

(** * Completion of one backend *)
Lemma finalize_ok : forall sys dfl ss pri dis be,
  finalize_matrix sys (params (start dfl) ss) pri dis = Ok be ->
  priority be = pri /\ disabled be = dis /\
  exists h m, address_of ss = Some h /\ has_params dfl ss m /\
    if static h ss then
      match getaddr sys (feature_dns sys) h (family_of ss) with
      | Some (f, a) => be_kind be = KRegular (Inet f a (m_port m)) m
      | None => Z.of_nat (length h) <= 108 /\
                be_kind be = KRegular (Unix h (Z.of_nat (length h) + 3)) m
      end
    else be_kind be = KMatrix m /\ m_mode m = mode_of ss.
Proof.
  intros sys dfl ss pri dis be; unfold finalize_matrix.
  assert (SSL : m_ssl (params (start dfl) ss) = true <-> In HTTPS ss).
  { cbn [m_ssl params start]; rewrite https_in; split; [intros [K|K]; [discriminate|exact K]|auto]. }
  change (m_host (params (start dfl) ss)) with (address_of ss).
  destruct (address_of ss) as [h|] eqn:A; [|discriminate].
  set (m0 := params (start dfl) ss) in *.
  assert (P0 : m_port m0 = port_of ss) by reflexivity.
  assert (D0 : m_mode m0 = mode_of ss) by reflexivity.
  assert (HP : forall r, has_params dfl ss
     (if port_of ss =? 0 then set_port (if m_ssl m0 then PORT_HTTPS else PORT_HTTP) (set_mode r m0) else set_mode r m0)).
  { intro r; unfold has_params, effective_port; subst m0.
    destruct (port_of ss =? 0) eqn:Z0; cbn [set_mode set_port params m_host m_port m_family m_mode m_retry m_ignore_weight m_ttl m_to m_conn_to m_ws_to m_ssl m_servername];
    repeat split; try exact SSL; try (apply SSL); rewrite ?Z0; try reflexivity. }
  assert (SM : set_mode (m_mode m0) m0 = m0) by (subst m0; reflexivity).
  destruct (starts_with_slash h || str_is_ip h) eqn:B.
  - assert (ST : static h ss = true) by (unfold static; rewrite <- orb_assoc, B; apply orb_true_r).
    change (m_port (set_mode RImmediate m0)) with (m_port m0); rewrite P0.
    change (m_ssl (set_mode RImmediate m0)) with (m_ssl m0).
    destruct (negb (port_of ss =? 0) && starts_with_slash h); [discriminate|].
    set (m1 := if port_of ss =? 0 then _ else _).
    assert (M1 : is_immediate (m_mode m1) = true) by (subst m1; destruct (port_of ss =? 0); reflexivity).
    assert (F1 : m_family m1 = family_of ss) by (subst m1; destruct (port_of ss =? 0); reflexivity).
    rewrite M1; unfold backend_resolve; rewrite F1.
    intro E; destruct (getaddr sys (feature_dns sys) h (family_of ss)) as [[f a]|] eqn:G.
    + injection E as <-; cbn [priority disabled be_kind]; split; [reflexivity|]; split; [reflexivity|].
      exists h, m1; split; [reflexivity|]; split; [exact (HP RImmediate)|]; rewrite ST, G; reflexivity.
    + destruct (UNIX_PATH_MAX <? Z.of_nat (length h)) eqn:U; [discriminate|].
      injection E as <-; cbn [priority disabled be_kind]; split; [reflexivity|]; split; [reflexivity|].
      exists h, m1; split; [reflexivity|]; split; [exact (HP RImmediate)|]; rewrite ST, G; unfold UNIX_PATH_MAX in U.
      split; [lia|]; replace (Z.of_nat (length h) + 2 + 1) with (Z.of_nat (length h) + 3) by lia; reflexivity.
  - assert (ST : static h ss = is_immediate (mode_of ss)) by (unfold static; rewrite <- orb_assoc, B; apply orb_false_r).
    rewrite P0.
    destruct (negb (port_of ss =? 0) && starts_with_slash h); [discriminate|].
    set (m1 := if port_of ss =? 0 then _ else _).
    assert (HP1 : has_params dfl ss m1).
    { assert (K := HP (m_mode m0)); rewrite SM in K; exact K. }
    assert (M1 : m_mode m1 = mode_of ss) by (subst m1; destruct (port_of ss =? 0); reflexivity).
    assert (F1 : m_family m1 = family_of ss) by (subst m1; destruct (port_of ss =? 0); reflexivity).
    rewrite M1; destruct (is_immediate (mode_of ss)) eqn:IM.
    + unfold backend_resolve; rewrite F1.
      intro E; destruct (getaddr sys (feature_dns sys) h (family_of ss)) as [[f a]|] eqn:G.
      * injection E as <-; cbn [priority disabled be_kind]; split; [reflexivity|]; split; [reflexivity|].
        exists h, m1; split; [reflexivity|]; split; [exact HP1|]; rewrite ST, G; reflexivity.
      * destruct (UNIX_PATH_MAX <? Z.of_nat (length h)) eqn:U; [discriminate|].
        injection E as <-; cbn [priority disabled be_kind]; split; [reflexivity|]; split; [reflexivity|].
        exists h, m1; split; [reflexivity|]; split; [exact HP1|]; rewrite ST, G; unfold UNIX_PATH_MAX in U.
        split; [lia|]; replace (Z.of_nat (length h) + 2 + 1) with (Z.of_nat (length h) + 3) by lia; reflexivity.
    + destruct (dynamic sys && feature_dns sys); [|discriminate].
      intro E; injection E as <-; cbn [priority disabled be_kind]; split; [reflexivity|]; split; [reflexivity|].
      exists h, m1; split; [reflexivity|]; split; [exact HP1|]; rewrite ST; auto.
Qed.

Lemma finalize_accepts : forall sys dfl ss pri dis,
  (exists be, finalize_matrix sys (params (start dfl) ss) pri dis = Ok be) <-> locatable sys ss.
Proof.
  intros sys dfl ss pri dis; unfold finalize_matrix, locatable.
  change (m_host (params (start dfl) ss)) with (address_of ss).
  destruct (address_of ss) as [h|] eqn:A.
  2: { split; [intros [be E]; discriminate|intros (h & E & _); discriminate]. }
  set (m0 := params (start dfl) ss) in *.
  set (m1 := if starts_with_slash h || str_is_ip h then set_mode RImmediate m0 else m0).
  assert (P1 : m_port m1 = port_of ss) by (subst m1; destruct (starts_with_slash h || str_is_ip h); reflexivity).
  cbv zeta; rewrite P1.
  set (m2 := if port_of ss =? 0 then _ else m1).
  assert (F2 : m_family m2 = family_of ss).
  { subst m2 m1; destruct (starts_with_slash h || str_is_ip h), (port_of ss =? 0); reflexivity. }
  assert (D2 : is_immediate (m_mode m2) = static h ss).
  { subst m2 m1; unfold static; rewrite <- orb_assoc.
    destruct (starts_with_slash h || str_is_ip h), (port_of ss =? 0); rewrite ?orb_true_r, ?orb_false_r; reflexivity. }
  rewrite D2; unfold backend_resolve; rewrite F2.
  assert (X : forall X Y : Prop, (X <-> Y) -> (exists h0, Some h = Some h0 /\ Y) -> X) by (intros X Y Q (h0 & _ & K); tauto).
  clear X.
  destruct (negb (port_of ss =? 0) && starts_with_slash h) eqn:B.
  - split; [intros [be E]; discriminate|].
    intros (h' & E & K & _); injection E as <-; apply andb_true_iff in B; destruct B as [B1 B2].
    specialize (K B2); rewrite K in B1; discriminate.
  - assert (K : starts_with_slash h = true -> port_of ss = 0).
    { intro S1; rewrite S1, andb_true_r in B; apply negb_false_iff in B; lia. }
    destruct (static h ss) eqn:ST.
    + destruct (getaddr sys (feature_dns sys) h (family_of ss)) as [[f a]|] eqn:G.
      * split; [intros _|intros _; eexists; reflexivity].
        exists h; rewrite ST, G; repeat split; auto; left; discriminate.
      * destruct (UNIX_PATH_MAX <? Z.of_nat (length h)) eqn:U; unfold UNIX_PATH_MAX in U.
        -- split; [intros [be E]; discriminate|].
           intros (h' & E & _ & K2); injection E as <-; rewrite ST, G in K2; destruct K2 as [K2|K2]; [contradiction K2; reflexivity|lia].
        -- split; [intros _|intros _; eexists; reflexivity].
           exists h; rewrite ST, G; repeat split; auto; right; lia.
    + destruct (dynamic sys && feature_dns sys) eqn:DY.
      * split; [intros _|intros _; eexists; reflexivity].
        apply andb_true_iff in DY; exists h; rewrite ST; repeat split; auto; tauto.
      * split; [intros [be E]; discriminate|].
        intros (h' & E & _ & K2); injection E as <-; rewrite ST in K2; destruct K2 as [K2 K3]; rewrite K2, K3 in DY; discriminate.
Qed.

Lemma finalize_no_crash : forall sys m pri dis, finalize_matrix sys m pri dis <> Crash.
Proof.
  intros sys m pri dis; unfold finalize_matrix; destruct (m_host m); [|discriminate]; cbv zeta.
  destruct (_ && _); [discriminate|]; destruct (is_immediate _).
  - destruct (backend_resolve _ _ _); discriminate.
  - destruct (_ && _); discriminate.
Qed.

(** * The configuration *)
Definition entry (dfl : defaults) (n : bytes) (ss : list stmt) : bytes * named :=
  (n, Build_named (params (start dfl) ss) (priority_of ss) (dis_from 0 ss)).
Definition table (dfl : defaults) (ts : list top) : list (bytes * named) :=
  concat (map (fun t => match t with TBackend n ss => [entry dfl n ss] | TService _ => [] end) ts).

Lemma table_app : forall dfl a b, table dfl (a ++ b) = table dfl a ++ table dfl b.
Proof. intros; unfold table; rewrite map_app, concat_app; reflexivity. Qed.
Lemma names_app : forall a b, names (a ++ b) = names a ++ names b.
Proof. intros; unfold names; rewrite map_app, concat_app; reflexivity. Qed.
Lemma table_names : forall dfl ts, map fst (table dfl ts) = names ts.
Proof.
  intros dfl ts; induction ts as [|[n ss|is] ts IH]; cbn; [reflexivity| |exact IH].
  f_equal; exact IH.
Qed.

Lemma retrieve_some : forall tab n nb, named_backend_retrieve tab n = Some nb -> In (n, nb) tab.
Proof.
  induction tab as [|[x y] tab IH]; intros n nb E; cbn in E; [discriminate|].
  destruct (bytes_eqb x n) eqn:B.
  - injection E as ->; apply bytes_eqb_eq in B; subst; left; reflexivity.
  - right; apply IH; exact E.
Qed.
Lemma retrieve_none : forall tab n, named_backend_retrieve tab n = None <-> ~ In n (map fst tab).
Proof.
  induction tab as [|[x y] tab IH]; intro n; cbn; [tauto|].
  destruct (bytes_eqb x n) eqn:B.
  - apply bytes_eqb_eq in B; subst; split; [discriminate|intro K; exfalso; apply K; left; reflexivity].
  - rewrite IH; split; [|tauto]; intros K [E|E]; [subst|tauto].
    assert (bytes_eqb n n = true) by (apply bytes_eqb_eq; reflexivity); congruence.
Qed.
Lemma retrieve_in : forall tab n nb, NoDup (map fst tab) -> In (n, nb) tab -> named_backend_retrieve tab n = Some nb.
Proof.
  intros tab n nb; induction tab as [|[x y] tab IH]; intros D H; [destruct H|].
  cbn in D; inversion D as [|x' l ND D2]; subst; cbn; destruct H as [H|H].
  - injection H as -> ->; assert (B : bytes_eqb n n = true) by (apply bytes_eqb_eq; reflexivity); rewrite B; reflexivity.
  - destruct (bytes_eqb x n) eqn:B; [|apply IH; auto].
    apply bytes_eqb_eq in B; subst; exfalso; apply ND; apply (in_map fst) in H; exact H.
Qed.

(** What a statement of a service gives before completion. *)
Definition raw (dfl : defaults) (i : item) : backend :=
  match i with
  | IBackend ss => Build_backend (KMatrix (params (start dfl) ss)) (priority_of ss) (dis_from 0 ss)
  | IRef n us => Build_backend (KRef n) (pri_from (-1) (uses us)) (dis_from (-1) (uses us))
  | IUse n => Build_backend (KRef n) 5 0
  | IEmergency ss => Build_backend (KMatrix (params (start (Build_defaults 120 120 120)) ss)) (priority_of ss) (dis_from 0 ss)
  | ISpecial s => Build_backend (KSpecial s) 1 0
  end.
Definition raws dfl is := (map (raw dfl) (normal is), map (raw dfl) (emergency is)).

Lemma parse_item_some : forall dfl i, item_readable i -> parse_item dfl i = Some (is_emergency i, raw dfl i).
Proof.
  intros dfl i R; destruct i as [ss|n us|n|ss|s]; cbn in R; cbn [parse_item is_emergency raw].
  - rewrite (internal_some dfl ss R); reflexivity.
  - rewrite (set_uses_some us _ _ R); reflexivity.
  - reflexivity.
  - rewrite (internal_some _ ss R); reflexivity.
  - reflexivity.
Qed.
Lemma parse_item_readable : forall dfl i r, parse_item dfl i = Some r -> item_readable i.
Proof.
  intros dfl i r E; destruct i as [ss|n us|n|ss|s]; cbn [parse_item item_readable] in *; auto.
  - destruct (parse_backend_internal dfl ss) as [[[m p] d]|] eqn:Q; [|discriminate]; eapply internal_readable; exact Q.
  - destruct (set_uses (-1) (-1) us) as [[p d]|] eqn:Q; [|discriminate]; eapply set_uses_readable; exact Q.
  - destruct (parse_backend_internal _ ss) as [[[m p] d]|] eqn:Q; [|discriminate]; eapply internal_readable; exact Q.
Qed.
Lemma parse_items_some : forall dfl is, Forall item_readable is -> parse_items dfl is = Some (raws dfl is).
Proof.
  intros dfl is H; induction H as [|i is R _ IH]; [reflexivity|]; cbn [parse_items].
  rewrite (parse_item_some dfl i R), IH; unfold raws, normal, emergency; cbn [filter].
  destruct (is_emergency i); reflexivity.
Qed.
Lemma parse_items_readable : forall dfl is r, parse_items dfl is = Some r -> Forall item_readable is.
Proof.
  intros dfl is; induction is as [|i is IH]; intros r E; [constructor|]; cbn [parse_items] in E.
  destruct (parse_item dfl i) as [[em be]|] eqn:Q; [|discriminate].
  destruct (parse_items dfl is) as [[n e]|]; [|discriminate].
  constructor; [eapply parse_item_readable; exact Q|eapply IH; reflexivity].
Qed.

Lemma nodup_snoc : forall A (l : list A) x, NoDup (l ++ [x]) <-> NoDup l /\ ~ In x l.
Proof.
  intros A l x; split.
  - intro H; split; [apply NoDup_remove_1 in H; rewrite app_nil_r in H; exact H|].
    apply NoDup_remove_2 in H; rewrite app_nil_r in H; exact H.
  - intros [H N]; induction l as [|y l IH]; cbn; [repeat constructor; intros []|].
    inversion H as [|y' l' H1 H2]; subst; constructor.
    + rewrite in_app_iff; intros [K|[K|[]]]; [contradiction|subst; apply N; left; reflexivity].
    + apply IH; [exact H2|intro K; apply N; right; exact K].
Qed.

Lemma parse_tops_ok : forall dfl ts tab svcs, NoDup (map fst tab) ->
  match parse_tops dfl tab svcs ts with
  | Some (tab', svcs') => Forall top_readable ts /\ NoDup (map fst tab ++ names ts) /\
      tab' = tab ++ table dfl ts /\ svcs' = svcs ++ map (raws dfl) (services ts)
  | None => ~ (Forall top_readable ts /\ NoDup (map fst tab ++ names ts))
  end.
Proof.
  intros dfl ts; induction ts as [|t ts IH]; intros tab svcs D; cbn [parse_tops].
  - unfold names, table, services; cbn; rewrite !app_nil_r; auto.
  - destruct t as [n ss|is].
    + destruct (internal_dec dfl ss) as [[R E]|[R E]]; rewrite E.
      2: { intros [K _]; inversion K; subst; contradiction. }
      destruct (named_backend_retrieve tab n) as [nb|] eqn:Q.
      * intros [_ K]; apply retrieve_some in Q; apply (in_map fst) in Q; cbn in Q.
        unfold names in K; cbn [map concat app] in K; apply NoDup_remove_2 in K.
        apply K; apply in_app_iff; left; exact Q.
      * apply retrieve_none in Q.
        assert (D2 : NoDup (map fst (tab ++ [entry dfl n ss]))) by (rewrite map_app; cbn; apply nodup_snoc; auto).
        specialize (IH (tab ++ [entry dfl n ss]) svcs D2); unfold entry in IH at 1.
        change (Build_named (params (start dfl) ss) (priority_of ss) (dis_from 0 ss)) with (snd (entry dfl n ss)).
        change (n, snd (entry dfl n ss)) with (entry dfl n ss).
        change (n, {| nb_mtx := params (start dfl) ss; nb_priority := priority_of ss; nb_disabled := dis_from 0 ss |}) with (entry dfl n ss) in IH.
        assert (AP : map fst (tab ++ [entry dfl n ss]) ++ names ts = map fst tab ++ names (TBackend n ss :: ts)).
        { rewrite map_app, <- app_assoc; reflexivity. }
        rewrite AP in IH.
        destruct (parse_tops dfl (tab ++ [entry dfl n ss]) svcs ts) as [[tab' svcs']|].
        -- destruct IH as (A & B & -> & ->); split; [constructor; auto|]; split; [exact B|]; split; [|reflexivity].
           rewrite <- app_assoc; reflexivity.
        -- intros [K1 K2]; apply IH; split; [inversion K1; assumption|exact K2].
    + destruct (parse_items dfl is) as [s|] eqn:E.
      * assert (R := parse_items_readable _ _ _ E); rewrite (parse_items_some dfl is R) in E; injection E as <-.
        specialize (IH tab (svcs ++ [raws dfl is]) D).
        destruct (parse_tops dfl tab (svcs ++ [raws dfl is]) ts) as [[tab' svcs']|].
        -- destruct IH as (A & B & -> & ->); split; [constructor; auto|]; split; [exact B|]; split; [reflexivity|].
           rewrite <- app_assoc; reflexivity.
        -- intros [K1 K2]; apply IH; split; [inversion K1; assumption|exact K2].
      * intros [K _]; inversion K as [|t l K1 K2]; subst; cbn in K1.
        rewrite (parse_items_some dfl is K1) in E; discriminate.
Qed.

(** Completion of the backend of a statement. *)
Definition readable_all (ts : list top) := Forall top_readable ts /\ NoDup (names ts).

Lemma in_table : forall dfl ts n nb, In (n, nb) (table dfl ts) <-> exists ss, In (TBackend n ss) ts /\ nb = snd (entry dfl n ss).
Proof.
  intros dfl ts n nb; induction ts as [|[n' ss|is] ts IH]; cbn.
  - split; [intros []|intros (ss & [] & _)].
  - unfold table in IH; rewrite IH; split.
    + intros [E|(ss' & A & B)]; [injection E as -> <-; exists ss; auto|exists ss'; auto].
    + intros (ss' & [E|A] & B); [injection E as -> ->; left; subst nb; reflexivity|right; exists ss'; auto].
  - unfold table in IH; rewrite IH; split; [intros (ss & A & B); exists ss; auto|].
    intros (ss & [E|A] & B); [discriminate|exists ss; auto].
Qed.

Lemma retrieve_table : forall dfl ts n ss, NoDup (names ts) -> In (TBackend n ss) ts ->
  named_backend_retrieve (table dfl ts) n = Some (snd (entry dfl n ss)).
Proof.
  intros dfl ts n ss D H; apply retrieve_in; [rewrite table_names; exact D|].
  apply in_table; exists ss; auto.
Qed.
Lemma retrieve_undeclared : forall dfl ts n, (forall ss, ~ In (TBackend n ss) ts) ->
  named_backend_retrieve (table dfl ts) n = None.
Proof.
  intros dfl ts n H; destruct (named_backend_retrieve (table dfl ts) n) as [nb|] eqn:E; [|reflexivity].
  apply retrieve_some, in_table in E; destruct E as (ss & A & _); exfalso; exact (H ss A).
Qed.
Lemma declared_dec : forall ts n, (exists ss, In (TBackend n ss) ts) \/ (forall ss, ~ In (TBackend n ss) ts).
Proof.
  intros ts n; induction ts as [|t ts IH]; [right; intros ss []|].
  destruct IH as [(ss & A)|A]; [left; exists ss; right; exact A|].
  destruct t as [n' ss|is].
  - destruct (bytes_eqb n' n) eqn:B.
    + apply bytes_eqb_eq in B; subst; left; exists ss; left; reflexivity.
    + right; intros ss' [E|K]; [|exact (A ss' K)].
      injection E as -> _; assert (bytes_eqb n n = true) by (apply bytes_eqb_eq; reflexivity); congruence.
  - right; intros ss [E|K]; [discriminate|exact (A ss K)].
Qed.
Lemma unique : forall ts n s1 s2, NoDup (names ts) -> In (TBackend n s1) ts -> In (TBackend n s2) ts -> s1 = s2.
Proof.
  intros ts n s1 s2; induction ts as [|t ts IH]; intros D A B; [destruct A|].
  assert (NI : forall s, In (TBackend n s) ts -> In n (names ts)).
  { intros s K; unfold names; apply in_concat; exists [n]; split; [|left; reflexivity].
    apply in_map_iff; exists (TBackend n s); auto. }
  destruct A as [A|A], B as [B|B].
  - congruence.
  - subst t; unfold names in D; cbn in D; inversion D as [|x l X Y]; subst; exfalso; apply X; eapply NI; exact B.
  - subst t; unfold names in D; cbn in D; inversion D as [|x l X Y]; subst; exfalso; apply X; eapply NI; exact A.
  - apply IH; auto; destruct t; unfold names in D; cbn in D; [inversion D; assumption|exact D].
Qed.

(** A reference stands for the definition followed by its own directives. *)
Lemma address_uses : forall ss us, address_of (ss ++ uses us) = address_of ss.
Proof.
  intros ss us; change (address_of (ss ++ uses us)) with (m_host (params (start (Build_defaults 0 0 0)) (ss ++ uses us))).
  rewrite params_app, params_uses; reflexivity.
Qed.
Lemma locatable_uses : forall sys ss us, locatable sys (ss ++ uses us) <-> locatable sys ss.
Proof.
  intros sys ss us; unfold locatable, static.
  assert (P : params (start (Build_defaults 0 0 0)) (ss ++ uses us) = params (start (Build_defaults 0 0 0)) ss)
    by (rewrite params_app, params_uses; reflexivity).
  rewrite address_uses.
  assert (A : port_of (ss ++ uses us) = port_of ss) by (apply (f_equal m_port) in P; exact P).
  assert (B : mode_of (ss ++ uses us) = mode_of ss) by (apply (f_equal m_mode) in P; exact P).
  assert (C : family_of (ss ++ uses us) = family_of ss) by (apply (f_equal m_family) in P; exact P).
  rewrite A, B, C; reflexivity.
Qed.

Lemma cap_kind : forall be, be_kind (cap be) = be_kind be.
Proof. intro be; unfold cap; destruct (PRI_MAX <? priority be); reflexivity. Qed.
Lemma cap_dis : forall be, disabled (cap be) = disabled be.
Proof. intro be; unfold cap; destruct (PRI_MAX <? priority be); reflexivity. Qed.
Lemma cap_pri : forall be, priority (cap be) = Z.min 65535 (priority be).
Proof. intro be; unfold cap; destruct (PRI_MAX <? priority be) eqn:E; unfold PRI_MAX in *; cbn [priority]; lia. Qed.

Lemma described : forall sys dfl ss be,
  finalize_matrix sys (params (start dfl) ss) (priority_of ss) (dis_from 0 ss) = Ok be ->
  as_described sys dfl ss (cap be).
Proof.
  intros sys dfl ss be E; apply finalize_ok in E; destruct E as (A & B & C).
  unfold as_described; rewrite cap_pri, cap_dis, cap_kind, A, B, dis_zero; auto.
Qed.

Lemma ref_as_inline : forall sys dfl ts n us ss, NoDup (names ts) -> In (TBackend n ss) ts ->
  readable ss -> readable (uses us) -> address_of ss <> None ->
  backend_finalize sys (table dfl ts) (raw dfl (IRef n us)) =
  backend_finalize sys (table dfl ts) (raw dfl (IBackend (ss ++ uses us))).
Proof.
  intros sys dfl ts n us ss D H R U A; unfold backend_finalize; cbn [be_kind raw priority disabled].
  rewrite (retrieve_table dfl ts n ss D H); cbn [entry snd nb_mtx nb_priority nb_disabled].
  change (m_host (params (start dfl) ss)) with (address_of ss).
  destruct (address_of ss); [|contradiction A; reflexivity].
  rewrite params_app, params_uses; f_equal.
  - rewrite pri_minus; [|apply U|apply pri_pos; [apply R|lia]].
    unfold priority_of, pri_from; rewrite last_app; reflexivity.
  - rewrite (dis_zero ss), dis_minus, <- (dis_zero ss); unfold dis_from; rewrite last_app; reflexivity.
Qed.

Lemma use_as_ref : forall dfl n, raw dfl (IUse n) = raw dfl (IRef n [UPriority 5; UDisabled false]).
Proof. reflexivity. Qed.

Definition iclass (i : item) : bool := match i with ISpecial Redirect => true | ISpecial _ => false | _ => true end.

Lemma described_class : forall sys dfl ss be, as_described sys dfl ss be -> class_ok be = true.
Proof.
  intros sys dfl ss be (_ & _ & h & m & _ & _ & K); unfold class_ok.
  destruct (static h ss).
  - destruct (getaddr sys (feature_dns sys) h (family_of ss)) as [[f a]|]; [rewrite K|destruct K as [_ K]; rewrite K]; reflexivity.
  - destruct K as [K _]; rewrite K; reflexivity.
Qed.

Lemma item_ref : forall sys dfl ts n us, readable_all ts -> readable (uses us) ->
  match backend_finalize sys (table dfl ts) (raw dfl (IRef n us)) with
  | Ok be => (exists ss, In (TBackend n ss) ts /\ as_described sys dfl (ss ++ uses us) (cap be)) /\
             (exists ss, In (TBackend n ss) ts /\ locatable sys ss)
  | _ => ~ (exists ss, In (TBackend n ss) ts /\ locatable sys ss)
  end.
Proof.
  intros sys dfl ts n us [R D] U; destruct (declared_dec ts n) as [(ss & H)|N].
  - assert (RS : readable ss) by (rewrite Forall_forall in R; exact (R _ H)).
    destruct (address_of ss) as [h|] eqn:A.
    + rewrite (ref_as_inline sys dfl ts n us ss D H RS U) by (rewrite A; discriminate).
      unfold backend_finalize; cbn [be_kind raw priority disabled].
      assert (AC := finalize_accepts sys dfl (ss ++ uses us) (priority_of (ss ++ uses us)) (dis_from 0 (ss ++ uses us))).
      rewrite locatable_uses in AC.
      assert (NO : (forall be, finalize_matrix sys (params (start dfl) (ss ++ uses us)) (priority_of (ss ++ uses us)) (dis_from 0 (ss ++ uses us)) <> Ok be) ->
        ~ (exists ss, In (TBackend n ss) ts /\ locatable sys ss)).
      { intros K (s2 & H2 & L); rewrite (unique ts n s2 ss D H2 H) in L; apply AC in L; destruct L as [be L]; exact (K be L). }
      destruct (finalize_matrix sys (params (start dfl) (ss ++ uses us)) (priority_of (ss ++ uses us)) (dis_from 0 (ss ++ uses us))) as [| |be] eqn:F.
      * apply NO; discriminate.
      * apply NO; discriminate.
      * split; exists ss; (split; [exact H|]); [apply described; exact F|apply AC; exists be; reflexivity].
    + unfold backend_finalize; cbn [be_kind raw]; rewrite (retrieve_table dfl ts n ss D H); cbn [entry snd nb_mtx].
      change (m_host (params (start dfl) ss)) with (address_of ss); rewrite A.
      intros (s2 & H2 & h & L & _); rewrite (unique ts n s2 ss D H2 H) in L; congruence.
  - unfold backend_finalize; cbn [be_kind raw]; rewrite (retrieve_undeclared dfl ts n N).
    intros (ss & H & _); exact (N ss H).
Qed.

Lemma item_inline : forall sys dfl ss,
  match finalize_matrix sys (params (start dfl) ss) (priority_of ss) (dis_from 0 ss) with
  | Ok be => as_described sys dfl ss (cap be) /\ locatable sys ss
  | _ => ~ locatable sys ss
  end.
Proof.
  intros sys dfl ss; assert (AC := finalize_accepts sys dfl ss (priority_of ss) (dis_from 0 ss)).
  destruct (finalize_matrix sys (params (start dfl) ss) (priority_of ss) (dis_from 0 ss)) as [| |be] eqn:F.
  - intro L; apply AC in L; destruct L as [be L]; discriminate.
  - intro L; apply AC in L; destruct L as [be L]; discriminate.
  - split; [apply described; exact F|apply AC; exists be; reflexivity].
Qed.

Lemma item_ok : forall sys dfl ts i, readable_all ts -> item_readable i ->
  match backend_finalize sys (table dfl ts) (raw dfl i) with
  | Ok be => stands_for sys dfl ts i (cap be) /\ item_locatable sys ts i /\ class_ok (cap be) = iclass i
  | _ => ~ item_locatable sys ts i
  end.
Proof.
  intros sys dfl ts i RA RI; destruct i as [ss|n us|n|ss|s]; cbn [item_readable item_locatable stands_for] in *.
  - assert (H := item_inline sys dfl ss); unfold backend_finalize; cbn [be_kind raw priority disabled].
    destruct (finalize_matrix _ _ _ _) as [| |be]; try exact H; destruct H as [H1 H2]; split; [exact H1|]; split; [exact H2|].
    eapply described_class; exact H1.
  - assert (H := item_ref sys dfl ts n us RA RI).
    destruct (backend_finalize _ _ _) as [| |be]; try exact H; destruct H as [H1 H2]; split; [exact H1|]; split; [exact H2|].
    destruct H1 as (ss & _ & H1); eapply described_class; exact H1.
  - assert (U : readable (uses [UPriority 5; UDisabled false])).
    { apply (set_uses_readable [UPriority 5; UDisabled false] 0 0 (5, 0)); reflexivity. }
    rewrite use_as_ref; assert (H := item_ref sys dfl ts n [UPriority 5; UDisabled false] RA U).
    destruct (backend_finalize _ _ _) as [| |be]; try exact H; destruct H as [H1 H2]; split; [exact H1|]; split; [exact H2|].
    destruct H1 as (ss & _ & H1); eapply described_class; exact H1.
  - assert (H := item_inline sys (Build_defaults 120 120 120) ss); unfold backend_finalize; cbn [be_kind raw priority disabled].
    destruct (finalize_matrix _ _ _ _) as [| |be]; try exact H; destruct H as [H1 H2]; split; [exact H1|]; split; [exact H2|].
    eapply described_class; exact H1.
  - unfold backend_finalize; cbn [be_kind raw]; split; [reflexivity|]; split; [exact I|]; destruct s; reflexivity.
Qed.

Lemma setup_ok : forall sys dfl ts is, readable_all ts -> Forall item_readable is ->
  match setup sys (table dfl ts) (map (raw dfl) is) with
  | Ok l => Forall2 (stands_for sys dfl ts) is l /\ Forall (item_locatable sys ts) is /\ map class_ok l = map iclass is
  | _ => ~ Forall (item_locatable sys ts) is
  end.
Proof.
  intros sys dfl ts is RA; induction is as [|i is IH]; intro R; cbn [map setup].
  - repeat split; constructor.
  - inversion R as [|i' is' R1 R2]; subst; specialize (IH R2); assert (H := item_ok sys dfl ts i RA R1).
    destruct (backend_finalize sys (table dfl ts) (raw dfl i)) as [| |be].
    + intro K; inversion K; subst; contradiction.
    + destruct (setup sys (table dfl ts) (map (raw dfl) is)); intro K; inversion K; subst; contradiction.
    + destruct H as (H1 & H2 & H3); destruct (setup sys (table dfl ts) (map (raw dfl) is)) as [| |l].
      * intro K; inversion K; subst; contradiction.
      * intro K; inversion K; subst; contradiction.
      * destruct IH as (A & B & C); split; [constructor; auto|]; split; [constructor; auto|].
        cbn [map]; rewrite H3, C; reflexivity.
Qed.

Lemma combinable_ok : forall is l, map class_ok l = map iclass is -> (balancer_ok l = true <-> combinable is).
Proof.
  intros is l E.
  assert (F : forallb class_ok l = true <-> forall s, In (ISpecial s) is -> s = Redirect).
  { assert (X : forallb class_ok l = forallb iclass is).
    { clear -E; revert is E; induction l as [|b l IH]; intros [|i is] E; try discriminate; [reflexivity|].
      cbn in *; injection E as E1 E2; rewrite E1, (IH is E2); reflexivity. }
    rewrite X, forallb_forall; split.
    - intros H s K; specialize (H _ K); destruct s; try discriminate; reflexivity.
    - intros H i K; destruct i as [ss|n us|n|ss|s]; try reflexivity; rewrite (H s K); reflexivity. }
  assert (L : length l = length is) by (rewrite <- (map_length class_ok l), E, map_length; reflexivity).
  unfold combinable; rewrite <- L; destruct l as [|b1 [|b2 l]].
  - cbn; split; [left; lia|reflexivity].
  - cbn; split; [left; lia|reflexivity].
  - change (balancer_ok (b1 :: b2 :: l)) with (forallb class_ok (b1 :: b2 :: l)); rewrite F; cbn [length]; split; [auto|].
    intros [K|K]; [lia|exact K].
Qed.

Lemma balancer_fin : forall sys dfl ts is, readable_all ts -> Forall item_readable is ->
  match finalize_balancer sys (table dfl ts) (map (raw dfl) is) with
  | Ok l => Forall2 (stands_for sys dfl ts) is l /\ Forall (item_locatable sys ts) is /\ combinable is
  | _ => ~ (Forall (item_locatable sys ts) is /\ combinable is)
  end.
Proof.
  intros sys dfl ts is RA R; unfold finalize_balancer; assert (H := setup_ok sys dfl ts is RA R).
  destruct (setup sys (table dfl ts) (map (raw dfl) is)) as [| |l]; try tauto.
  destruct H as (A & B & C); assert (K := combinable_ok is l C).
  destruct (balancer_ok l); [tauto|].
  intros [_ K2]; apply K in K2; discriminate.
Qed.

Lemma parts : forall sys ts is, Forall (item_locatable sys ts) is <->
  Forall (item_locatable sys ts) (normal is) /\ Forall (item_locatable sys ts) (emergency is).
Proof.
  intros sys ts is; unfold normal, emergency; rewrite !Forall_forall; split.
  - intro H; split; intros i K; apply filter_In in K; apply H; apply K.
  - intros [A B] i K; destruct (is_emergency i) eqn:E.
    + apply B; apply filter_In; auto.
    + apply A; apply filter_In; rewrite E; auto.
Qed.
Lemma parts_readable : forall is, Forall item_readable is ->
  Forall item_readable (normal is) /\ Forall item_readable (emergency is).
Proof.
  intros is; unfold normal, emergency; rewrite !Forall_forall; intro H; split; intros i K; apply filter_In in K; apply H; apply K.
Qed.

Definition service_as (sys : system) dfl ts (is : list item) (s : list backend * list backend) : Prop :=
  Forall2 (stands_for sys dfl ts) (normal is) (fst s) /\ Forall2 (stands_for sys dfl ts) (emergency is) (snd s).
Definition service_good (sys : system) ts (is : list item) : Prop :=
  Forall (item_locatable sys ts) is /\ combinable (normal is) /\ combinable (emergency is).

Lemma service_fin : forall sys dfl ts is, readable_all ts -> Forall item_readable is ->
  match service_finalize sys (table dfl ts) (raws dfl is) with
  | Ok s => service_as sys dfl ts is s /\ service_good sys ts is
  | _ => ~ service_good sys ts is
  end.
Proof.
  intros sys dfl ts is RA R; destruct (parts_readable is R) as [RN RE].
  assert (N := balancer_fin sys dfl ts (normal is) RA RN); assert (E := balancer_fin sys dfl ts (emergency is) RA RE).
  unfold service_finalize, raws, service_good, service_as; cbn [fst snd].
  assert (P := parts sys ts is).
  destruct (finalize_balancer sys (table dfl ts) (map (raw dfl) (normal is))) as [| |n]; try tauto.
  destruct (finalize_balancer sys (table dfl ts) (map (raw dfl) (emergency is))) as [| |e]; try tauto.
Qed.

Lemma services_fin : forall sys dfl ts iss, readable_all ts -> (forall is, In is iss -> Forall item_readable is) ->
  match finalize_services sys (table dfl ts) (map (raws dfl) iss) with
  | Ok l => Forall2 (service_as sys dfl ts) iss l /\ forall is, In is iss -> service_good sys ts is
  | _ => ~ (forall is, In is iss -> service_good sys ts is)
  end.
Proof.
  intros sys dfl ts iss RA; induction iss as [|is iss IH]; intro R; cbn [map finalize_services].
  - split; [constructor|intros is []].
  - assert (S1 := service_fin sys dfl ts is RA (R is (or_introl eq_refl))).
    assert (S2 := IH (fun x H => R x (or_intror H))).
    destruct (service_finalize sys (table dfl ts) (raws dfl is)) as [| |s].
    + intro K; apply S1; apply K; left; reflexivity.
    + intro K; apply S1; apply K; left; reflexivity.
    + destruct (finalize_services sys (table dfl ts) (map (raws dfl) iss)) as [| |l].
      * intro K; apply S2; intros x H; apply K; right; exact H.
      * intro K; apply S2; intros x H; apply K; right; exact H.
      * destruct S1 as [A B], S2 as [C D]; split; [constructor; auto|].
        intros x [<-|H]; [exact B|apply D; exact H].
Qed.

Lemma services_readable : forall ts is, Forall top_readable ts -> In is (services ts) -> Forall item_readable is.
Proof.
  intros ts is R H; unfold services in H; apply in_concat in H; destruct H as (l & A & B).
  apply in_map_iff in A; destruct A as (t & <- & A); rewrite Forall_forall in R; specialize (R t A).
  destruct t as [n ss|is']; [destruct B|]; destruct B as [<-|[]]; exact R.
Qed.

Lemma config_fin : forall sys dfl ts,
  match parse_config_file sys dfl ts with
  | Ok svcs => Forall2 (service_as sys dfl ts) (services ts) svcs /\ acceptable sys ts
  | _ => ~ acceptable sys ts
  end.
Proof.
  intros sys dfl ts; unfold parse_config_file, acceptable.
  assert (P := parse_tops_ok dfl ts [] [] (NoDup_nil _)); cbn [map app] in P.
  destruct (parse_tops dfl [] [] ts) as [[tab svcs]|]; [|tauto].
  destruct P as (A & B & -> & ->).
  assert (F := services_fin sys dfl ts (services ts) (conj A B) (fun is => services_readable ts is A)).
  destruct (finalize_services sys (table dfl ts) (map (raws dfl) (services ts))) as [| |l]; tauto.
Qed.

Theorem values : forall sys dfl ts svcs, parse_config_file sys dfl ts = Ok svcs ->
  Forall2 (fun is s => Forall2 (stands_for sys dfl ts) (normal is) (fst s) /\
                       Forall2 (stands_for sys dfl ts) (emergency is) (snd s)) (services ts) svcs.
Proof. intros sys dfl ts svcs E; assert (H := config_fin sys dfl ts); rewrite E in H; apply H. Qed.

Theorem accepted : forall sys dfl ts, (exists svcs, parse_config_file sys dfl ts = Ok svcs) <-> acceptable sys ts.
Proof.
  intros sys dfl ts; assert (H := config_fin sys dfl ts); destruct (parse_config_file sys dfl ts) as [| |svcs].
  - split; [intros [x E]; discriminate|contradiction].
  - split; [intros [x E]; discriminate|contradiction].
  - split; [intros _; apply H|intros _; exists svcs; reflexivity].
Qed.

(** * References instead of definitions in place *)
Definition put (a b : list item) (i : item) : top := TService (a ++ i :: b).

Lemma table_service : forall dfl pre x y post, table dfl (pre ++ TService x :: post) = table dfl (pre ++ TService y :: post).
Proof. intros; rewrite !table_app; reflexivity. Qed.
Lemma names_service : forall pre x y post, names (pre ++ TService x :: post) = names (pre ++ TService y :: post).
Proof. intros; rewrite !names_app; reflexivity. Qed.
Lemma services_app : forall a b, services (a ++ b) = services a ++ services b.
Proof. intros; unfold services; rewrite map_app, concat_app; reflexivity. Qed.

Lemma setup_cong : forall sys tab a x y b, backend_finalize sys tab x = backend_finalize sys tab y ->
  setup sys tab (a ++ x :: b) = setup sys tab (a ++ y :: b).
Proof.
  intros sys tab a x y b E; induction a as [|z a IH]; cbn [app setup]; [rewrite E; reflexivity|rewrite IH; reflexivity].
Qed.
Lemma finalize_cong : forall sys tab s x y l, service_finalize sys tab x = service_finalize sys tab y ->
  finalize_services sys tab (s ++ x :: l) = finalize_services sys tab (s ++ y :: l).
Proof.
  intros sys tab s x y l E; induction s as [|z s IH]; cbn [app finalize_services]; [rewrite E; reflexivity|rewrite IH; reflexivity].
Qed.

Theorem replaced : forall sys dfl pre post a b i j, is_emergency i = false -> is_emergency j = false ->
  (item_readable i <-> item_readable j) ->
  (NoDup (names (pre ++ post)) -> Forall top_readable (pre ++ post) -> item_readable i ->
   forall tab, tab = table dfl (pre ++ post) ->
   backend_finalize sys tab (raw dfl i) = backend_finalize sys tab (raw dfl j)) ->
  parse_config_file sys dfl (pre ++ put a b i :: post) = parse_config_file sys dfl (pre ++ put a b j :: post).
Proof.
  intros sys dfl pre post a b i j EI EJ RR F; unfold parse_config_file.
  assert (P := parse_tops_ok dfl (pre ++ put a b i :: post) [] [] (NoDup_nil _)).
  assert (Q := parse_tops_ok dfl (pre ++ put a b j :: post) [] [] (NoDup_nil _)).
  cbn [map app] in P, Q.
  assert (NN : names (pre ++ put a b i :: post) = names (pre ++ put a b j :: post)) by apply names_service.
  assert (TT : table dfl (pre ++ put a b i :: post) = table dfl (pre ++ put a b j :: post)) by apply table_service.
  assert (TP : table dfl (pre ++ put a b j :: post) = table dfl (pre ++ post)) by (rewrite !table_app; reflexivity).
  assert (NP : names (pre ++ put a b i :: post) = names (pre ++ post)) by (rewrite !names_app; reflexivity).
  assert (RR2 : Forall top_readable (pre ++ put a b i :: post) <-> Forall top_readable (pre ++ put a b j :: post)).
  { unfold put; rewrite !Forall_app, !Forall_cons_iff; cbn [top_readable]; rewrite !Forall_app, !Forall_cons_iff; tauto. }
  destruct (parse_tops dfl [] [] (pre ++ put a b i :: post)) as [[tab svcs]|],
           (parse_tops dfl [] [] (pre ++ put a b j :: post)) as [[tab' svcs']|].
  - destruct P as (A & B & -> & ->), Q as (_ & _ & -> & ->); rewrite TT.
    rewrite !services_app.
    change (services (put a b i :: post)) with ((a ++ i :: b) :: services post).
    change (services (put a b j :: post)) with ((a ++ j :: b) :: services post).
    rewrite !map_app; cbn [map].
    apply finalize_cong; unfold service_finalize, raws; cbn [fst snd].
    assert (NI : normal (a ++ i :: b) = normal a ++ i :: normal b) by (unfold normal; rewrite filter_app; cbn; rewrite EI; reflexivity).
    assert (NJ : normal (a ++ j :: b) = normal a ++ j :: normal b) by (unfold normal; rewrite filter_app; cbn; rewrite EJ; reflexivity).
    assert (MI : emergency (a ++ i :: b) = emergency a ++ emergency b) by (unfold emergency; rewrite filter_app; cbn; rewrite EI; reflexivity).
    assert (MJ : emergency (a ++ j :: b) = emergency a ++ emergency b) by (unfold emergency; rewrite filter_app; cbn; rewrite EJ; reflexivity).
    rewrite NI, NJ, MI, MJ, !map_app; cbn [map].
    unfold finalize_balancer.
    rewrite (setup_cong sys (table dfl (pre ++ put a b j :: post)) (map (raw dfl) (normal a)) (raw dfl i) (raw dfl j)); [reflexivity|].
    apply Forall_app in A; destruct A as [A1 A2]; inversion A2 as [|t l A3 A4]; subst; cbn [top_readable put] in A3.
    apply Forall_app in A3; destruct A3 as [_ A3]; inversion A3 as [|i' l' A5 A6]; subst.
    apply F; [rewrite <- NP; exact B|apply Forall_app; auto|exact A5|exact TP].
  - exfalso; apply Q; rewrite <- NN, <- RR2; tauto.
  - exfalso; apply P; rewrite NN, RR2; tauto.
  - reflexivity.
Qed.

Theorem reference : forall sys dfl pre post a b n us ss, In (TBackend n ss) (pre ++ post) ->
  address_of ss <> None ->
  parse_config_file sys dfl (pre ++ put a b (IRef n us) :: post) =
  parse_config_file sys dfl (pre ++ put a b (IBackend (ss ++ uses us)) :: post).
Proof.
  intros sys dfl pre post a b n us ss H A.
  destruct (internal_dec dfl ss) as [[R _]|[R _]].
  - assert (RU : item_readable (IRef n us) <-> item_readable (IBackend (ss ++ uses us))).
    { cbn [item_readable]; unfold readable; rewrite Forall_app; split.
      - intros [U1 U2]; split; [split; [apply R|exact U1]|].
        intros s1 v s2 E; destruct R as [R1 R2].
        assert (NU : ~ In (Ssl v) (uses us)).
        { unfold uses; intro K; apply in_map_iff in K; destruct K as ([x|x] & K & _); discriminate. }
        clear -E R2 NU; revert s1 E R2; induction ss as [|s ss IH]; intros s1 E R2.
        + exfalso; apply NU; cbn in E; rewrite E; apply in_app_iff; right; left; reflexivity.
        + destruct s1 as [|s' s1]; cbn in E; injection E as E1 E2.
          * subst s; exact (R2 [] v ss eq_refl).
          * subst s'; destruct s; try (right; apply IH; [exact E2|]; intros x w y Q;
              destruct (R2 (_ :: x) w y (f_equal (cons _) Q)) as [K|K]; [discriminate K|exact K]).
            left; reflexivity.
      - intros [[_ U] _]; split; [exact U|].
        intros s1 v s2 E; exfalso; assert (K : In (Ssl v) (uses us)) by (rewrite E; apply in_app_iff; right; left; reflexivity).
        unfold uses in K; apply in_map_iff in K; destruct K as ([x|x] & K & _); discriminate. }
    apply replaced; auto.
    intros D T RI tab ->; apply ref_as_inline; auto.
  - unfold parse_config_file.
    assert (NR : forall t, ~ Forall top_readable (pre ++ t :: post)).
    { intros t K; apply R; rewrite Forall_forall in K; apply (K (TBackend n ss)).
      rewrite in_app_iff in *; cbn; tauto. }
    assert (P := parse_tops_ok dfl (pre ++ put a b (IRef n us) :: post) [] [] (NoDup_nil _)).
    assert (Q := parse_tops_ok dfl (pre ++ put a b (IBackend (ss ++ uses us)) :: post) [] [] (NoDup_nil _)).
    destruct (parse_tops dfl [] [] (pre ++ put a b (IRef n us) :: post)) as [[tab svcs]|]; [exfalso; eapply NR; apply P|].
    destruct (parse_tops dfl [] [] (pre ++ put a b (IBackend (ss ++ uses us)) :: post)) as [[tab svcs]|]; [exfalso; eapply NR; apply Q|].
    reflexivity.
Qed.

Theorem use_backend : forall sys dfl pre post a b n,
  parse_config_file sys dfl (pre ++ put a b (IUse n) :: post) =
  parse_config_file sys dfl (pre ++ put a b (IRef n [UPriority 5; UDisabled false]) :: post).
Proof.
  intros sys dfl pre post a b n; apply replaced; auto.
  cbn [item_readable]; split; auto; intros _.
  apply (set_uses_readable [UPriority 5; UDisabled false] 0 0 (5, 0)); reflexivity.
Qed.

(** * Numeric addresses *)
Lemma ip_is_ipv6 : forall s, str_is_ip s = match s with c :: _ => is_xdigit c && str_is_ipv6 s | [] => false end.
Proof.
  intros [|c s]; [reflexivity|]; unfold str_is_ip; cbn [ip_loop].
  destruct (is_xdigit c) eqn:X; cbn [andb].
  - destruct (is_ascii c) eqn:A; [reflexivity|]; unfold str_is_ipv6; cbn [ipv6_loop]; rewrite A; reflexivity.
  - destruct (negb (is_ascii c)); [reflexivity|].
    destruct (beq c NUL) eqn:N.
    + apply beq_eq in N; subst c; reflexivity.
    + destruct (is_digit c) eqn:D; [|reflexivity]. unfold is_xdigit in X; rewrite D in X; discriminate.
Qed.

Lemma ipv6_chars : forall s a b c, ipv6_loop a b c s = true -> Forall (fun x => is_xdigit x = true \/ x = ":"%char) s.
Proof.
  induction s as [|x s IH]; intros a b c E; [constructor|]; cbn [ipv6_loop] in E.
  destruct (negb (is_ascii x)); [discriminate|]; destruct (is_xdigit x) eqn:X.
  - destruct (4 <? c + 1); [discriminate|]; constructor; [auto|eapply IH; exact E].
  - destruct (beq x ":") eqn:C; [|discriminate]; apply beq_eq in C; cbv zeta in E.
    destruct (_ && _) in E; [discriminate|]; destruct (7 <? a + 1); [discriminate|].
    constructor; [auto|eapply IH; exact E].
Qed.

Theorem dotted : forall s, In "."%char s -> str_is_ip s = false.
Proof.
  intros s H; destruct (str_is_ip s) eqn:E; [|reflexivity]; rewrite ip_is_ipv6 in E.
  destruct s as [|c s]; [discriminate|]; apply andb_true_iff in E; destruct E as [_ E].
  apply ipv6_chars in E; rewrite Forall_forall in E; destruct (E _ H) as [K|K]; discriminate.
Qed.

Lemma ipv6_group : forall g a d c s, Forall (fun x => is_xdigit x = true) g -> c + Z.of_nat (length g) <= 4 ->
  ipv6_loop a d c (g ++ s) = ipv6_loop a d (c + Z.of_nat (length g)) s.
Proof.
  induction g as [|x g IH]; intros a d c s F L; [cbn; f_equal; lia|].
  inversion F as [|x' g' F1 F2]; subst; cbn [app ipv6_loop length] in *.
  assert (A : is_ascii x = true).
  { unfold is_xdigit, is_digit in F1; unfold is_ascii; lia. }
  rewrite A, F1; cbn [negb].
  destruct (4 <? c + 1) eqn:Q; [lia|]; rewrite IH by (auto; lia); f_equal; lia.
Qed.

Lemma joined_cons : forall g g2 gs, joined (g :: g2 :: gs) = g ++ ":"%char :: joined (g2 :: gs).
Proof. reflexivity. Qed.

Lemma ipv6_joined : forall gs g a d, Forall hexgroup (g :: gs) -> a + Z.of_nat (length gs) = 7 ->
  ipv6_loop a d 0 (joined (g :: gs)) = true.
Proof.
  induction gs as [|g2 gs IH]; intros g a d F L; inversion F as [|g' l [L1 F1] F2]; subst.
  - cbn [joined]; rewrite <- (app_nil_r g), ipv6_group by (auto; lia); cbn in *; lia.
  - rewrite joined_cons, ipv6_group by (auto; lia); cbn [ipv6_loop].
    assert (X : is_ascii ":" = true /\ is_xdigit ":" = false /\ beq ":" ":" = true) by (repeat split; reflexivity).
    destruct X as (X1 & X2 & X3); rewrite X1, X2, X3; cbn [negb].
    replace (0 + Z.of_nat (length g) =? 0) with false by lia.
    rewrite andb_false_r; cbn [andb].
    cbn [length] in L; destruct (7 <? a + 1) eqn:Q; [lia|].
    apply IH; [exact F2|lia].
Qed.

Theorem full_ipv6 : forall gs, length gs = 8%nat -> Forall hexgroup gs -> str_is_ip (joined gs) = true.
Proof.
  intros [|g gs] L F; [discriminate|]; rewrite ip_is_ipv6.
  assert (K : str_is_ipv6 (joined (g :: gs)) = true) by (apply ipv6_joined; [exact F|cbn in L; lia]).
  inversion F as [|g' l [L1 F1] F2]; subst.
  destruct g as [|c g]; [cbn in L1; lia|]; inversion F1; subst.
  destruct gs as [|g2 gs]; cbn [joined app] in *; rewrite K, andb_true_r; assumption.
Qed.
