(** C73: proofs. *)
From Coq Require Import Ascii String List ZArith Bool Lia ZifyBool ZifyNat.
From Verif Require Import Bytes CondModel CondSpec CctModel CctSpec.
Import ListNotations.
Local Open Scope list_scope.
Local Open Scope Z_scope.

(** ** Reading the directives *)

Definition join (s t : store) : store :=
  mkStore (trust s ++ trust t) (match revoked s, revoked t with None, None => None | None, Some r => Some r | Some r, None => Some r | Some r, Some q => Some (r ++ q) end).

Lemma join_nil_r : forall s, join s (mkStore [] None) = s.
Proof. intros [t r]. unfold join. cbn. rewrite app_nil_r. destruct r; reflexivity. Qed.

Lemma join_assoc : forall a b c, join (join a b) c = join a (join b c).
Proof. intros [t1 r1] [t2 r2] [t3 r3]. unfold join. cbn. rewrite app_assoc. destruct r1, r2, r3; cbn; rewrite ?app_assoc; reflexivity. Qed.

Lemma lists_cons : forall d ds i n, lists i n (d :: ds) = join (lists i n [d]) (lists i (n + loads d) ds).
Proof.
  intros d ds i n. cbn [lists]. destruct (Nat.ltb i n); [|destruct (lists i (n + loads d) ds); unfold join; cbn; destruct revoked; reflexivity].
  destruct (lists i (n + loads d) ds) as [t r]. destruct d as [?|?|[?|]|[?|]|?|?]; unfold join; cbn; destruct r; cbn; rewrite ?app_nil_r; reflexivity.
Qed.

Lemma loaded_app : forall a b, loaded (a ++ b) = (loaded a + loaded b)%nat.
Proof. intros a b. unfold loaded. rewrite map_app. apply list_sum_app. Qed.

Lemma lists_app : forall a b i n, lists i n (a ++ b) = join (lists i n a) (lists i (n + loaded a) b).
Proof.
  induction a as [|d a IH]; intros b i n.
  - cbn [app lists]. unfold loaded. cbn. rewrite Nat.add_0_r. destruct (lists i n b) as [t [r|]]; reflexivity.
  - cbn [app]. rewrite (lists_cons d (a ++ b)), IH, (lists_cons d a), join_assoc. change (loaded (d :: a)) with (loads d + loaded a)%nat. rewrite Nat.add_assoc. reflexivity.
Qed.

Lemma last_mode_app : forall a b, last_mode (a ++ b) = match last_mode b with Some m => Some m | None => last_mode a end.
Proof.
  induction a as [|d a IH]; intros b; cbn [app last_mode]; [destruct (last_mode b); reflexivity|].
  destruct d; rewrite IH; try reflexivity. destruct (last_mode b), (last_mode a); reflexivity.
Qed.

Lemma directives_app : forall a b l, parse_directives (a ++ b) l = match parse_directives a l with Some l => parse_directives b l | None => None end.
Proof. induction a as [|d a IH]; intros b l; cbn; [reflexivity|]. destruct (parse_directive d l); [apply IH|reflexivity]. Qed.

Fixpoint services_of (ds : list directive) : list service := match ds with [] => [] | Service s :: ds => s :: services_of ds | _ :: ds => services_of ds end.

Lemma services_app : forall a b, services_of (a ++ b) = services_of a ++ services_of b.
Proof. induction a as [|d a IH]; intros b; cbn; [reflexivity|]. destruct d; rewrite ?IH; reflexivity. Qed.

Lemma services_in : forall ds s, In s (services_of ds) <-> In (Service s) ds.
Proof.
  induction ds as [|d ds IH]; intros s; cbn; [tauto|].
  destruct d as [n|a|f|f|v|c]; cbn; rewrite IH; (split; [intros H|intros [H|H]]); try discriminate H; auto.
  - destruct H as [<-|H]; auto.
  - injection H as ->. auto.
Qed.

Definition flags (c : ctx) := (v_peer c, v_must c, v_lax c).
Definition mode_flags (m : Z) := (negb (m =? 0), m =? 2, m =? 3).

Record inv (ds : list directive) (l : listener) : Prop := {
  i_len : length (l_ctx l) = loaded ds;
  i_serv : l_services l = services_of ds;
  i_empty : l_ctx l = [] -> last_mode ds = None;
  i_check : match last_mode ds with None => l_check l = -1 | Some a => words a /\ exists r, a = Some (l_check l) :: r end;
  i_first : forall c, hd_error (l_ctx l) = Some c ->
    match last_mode ds with None => flags c = (false, false, false) | Some a => flags c = mode_flags (l_check l) /\ (0 < l_check l -> a = [Some (l_check l); Some (v_depth c)]) end;
  i_store : forall i c, nth_error (l_ctx l) i = Some c -> v_store c = lists i 0 ds
}.

Lemma nth_map_inv : forall A B (f : A -> B) l i y, nth_error (map f l) i = Some y -> exists x, nth_error l i = Some x /\ y = f x.
Proof. induction l as [|a l IH]; intros [|i] y H; try discriminate H; cbn in H; [injection H as <-; exists a; auto|apply IH; exact H]. Qed.

Lemma ltb_some : forall A (l : list A) i x, nth_error l i = Some x -> Nat.ltb i (length l) = true.
Proof. intros A l i x H. apply Nat.ltb_lt. apply nth_error_Some. congruence. Qed.

Lemma words_set : forall args l l', l_ctx l <> [] -> https_parse_client_cert args l = Some l' ->
  words args /\ exists m d, l_check l' = m /\ (exists r, args = Some m :: r) /\ 0 <= m <= 3 /\ (0 < m -> args = [Some m; Some d]) /\ l_ctx l' = map (set_verify m d) (l_ctx l) /\ l_services l' = l_services l.
Proof.
  intros args l l' _ H. unfold https_parse_client_cert in H. destruct args as [|[m|] rest]; try discriminate.
  destruct ((0 <=? m) && (m <=? 3)) eqn:R; [|discriminate]. apply andb_true_iff in R as [R1 R2]. destruct (0 <? m) eqn:M.
  - destruct rest as [|[d|] [|? ?]]; try discriminate. injection H as <-. split; [constructor; lia|]. exists m, d. cbn. repeat split; eauto; lia.
  - destruct rest; [|discriminate]. injection H as <-. assert (m = 0) by lia. subst m. split; [constructor|]. exists 0, 0. cbn. repeat split; eauto; lia.
Qed.

Lemma set_flags : forall m d c, 0 <= m <= 3 -> flags (set_verify m d c) = mode_flags m /\ (0 < m -> v_depth (set_verify m d c) = d) /\ v_store (set_verify m d c) = v_store c.
Proof.
  intros m d c R. assert (X : m = 0 \/ m = 1 \/ m = 2 \/ m = 3) by lia. destruct X as [-> |[-> |[-> | ->]]]; cbn; repeat split; try lia; reflexivity.
Qed.

Lemma store_app : forall ds d i c0, v_store c0 = lists i 0 ds -> forall t, lists i (loaded ds) [d] = t -> lists i 0 (ds ++ [d]) = join (v_store c0) t.
Proof. intros ds d i c0 H t T. rewrite lists_app, H. cbn [plus]. rewrite T. reflexivity. Qed.

Lemma inv_all : forall ds l, parse_directives ds listener_alloc = Some l -> inv ds l.
Proof.
  induction ds as [|d ds IH] using rev_ind; intros l H.
  - cbn in H. injection H as <-. constructor; cbn; auto; intros; try discriminate. destruct i; discriminate.
  - rewrite directives_app in H. destruct (parse_directives ds listener_alloc) as [l1|]; [|discriminate]. specialize (IH l1 eq_refl). cbn [parse_directives] in H.
    destruct (parse_directive d l1) as [l2|] eqn:P; [|discriminate]. injection H as ->. destruct IH as [L S E C F T].
    assert (NM : (forall a, d <> ClientCert a) -> last_mode (ds ++ [d]) = last_mode ds). { intros N. rewrite last_mode_app. destruct d; try reflexivity. exfalso. eapply N; reflexivity. }
    destruct d as [[n|]|args|[cs|]|[cs|]|s|c]; cbn in P; try discriminate.
    + injection P as <-. rewrite <- NM in E, C, F by discriminate. constructor; cbn [with_ctx l_ctx l_check l_services].
      * rewrite app_length, repeat_length, loaded_app, L. unfold loaded. cbn. lia.
      * rewrite services_app. cbn. rewrite app_nil_r. exact S.
      * intros X. apply app_eq_nil in X as [X _]. apply E. exact X.
      * exact C.
      * intros c H. destruct (l_ctx l1) as [|c1 r] eqn:Q; [|cbn in H; apply F; exact H]. rewrite E by reflexivity. destruct n as [|n]; [discriminate|]. cbn in H. injection H as <-. reflexivity.
      * intros i c H. destruct (Nat.ltb i (length (l_ctx l1))) eqn:Q.
        -- apply Nat.ltb_lt in Q. rewrite nth_error_app1 in H by exact Q. rewrite (store_app ds _ i c (T i c H) (mkStore [] None)), join_nil_r; [reflexivity|]. cbn [lists]; destruct (Nat.ltb i (loaded ds)); reflexivity.
        -- apply Nat.ltb_ge in Q. rewrite nth_error_app2 in H by exact Q. apply nth_error_In in H. apply repeat_spec in H. subst c.
           assert (G : forall ds i n, (n + loaded ds <= i)%nat -> lists i n ds = mkStore [] None).
           { clear. induction ds as [|d ds IH]; intros i n H; [reflexivity|]. change (loaded (d :: ds)) with (loads d + loaded ds)%nat in H. cbn [lists]. rewrite IH by lia.
             destruct (Nat.ltb i n) eqn:X; [apply Nat.ltb_lt in X; lia|reflexivity]. }
           rewrite lists_app, G by (cbn; rewrite <- L; exact Q). cbn [lists plus]; destruct (Nat.ltb i (loaded ds)); reflexivity.
    + destruct (l_ctx l1) as [|c1 r] eqn:Q; [discriminate|].
      destruct (words_set args l1 l ltac:(rewrite Q; discriminate) P) as (W & m & d & Ck & (ar & Ar) & R & Ar2 & Cx & Sv).
      assert (LM : last_mode (ds ++ [ClientCert args]) = Some args) by (rewrite last_mode_app; reflexivity).
      constructor; rewrite ?LM, ?Cx.
      * rewrite map_length, Q, loaded_app, L. unfold loaded. cbn. lia.
      * rewrite Sv, services_app. cbn. rewrite app_nil_r. exact S.
      * rewrite Q. discriminate.
      * rewrite Ck. split; [exact W|]. exists ar. exact Ar.
      * rewrite Q, Ck. cbn. intros c [= <-]. destruct (set_flags m d c1 R) as (F1 & F2 & _). split; [exact F1|]. intros M. rewrite (F2 M). apply Ar2. exact M.
      * intros i c H. apply nth_map_inv in H as (c0 & H & ->). destruct (set_flags m d c0 R) as (_ & _ & ->). rewrite Q in H.
        rewrite (store_app ds _ i c0 (T i c0 H) (mkStore [] None)), join_nil_r; [reflexivity|]. cbn [lists]; destruct (Nat.ltb i (loaded ds)); reflexivity.
    + destruct (l_ctx l1) as [|c1 r] eqn:Q; [discriminate|]. rewrite <- Q in *. injection P as <-. rewrite <- NM in E, C, F by discriminate. constructor; cbn [with_ctx l_ctx l_check l_services].
      * rewrite map_length, loaded_app, L. unfold loaded. cbn. lia.
      * rewrite services_app. cbn. rewrite app_nil_r. exact S.
      * rewrite Q. discriminate.
      * exact C.
      * intros c H. rewrite Q in H. cbn in H. injection H as <-. specialize (F c1). rewrite Q in F. exact (F eq_refl).
      * intros i c H. apply nth_map_inv in H as (c0 & H & ->). rewrite (store_app ds _ i c0 (T i c0 H) (mkStore cs None)).
        -- unfold on_store, add_trust, join. cbn [v_store trust revoked]. destruct (revoked (v_store c0)); reflexivity.
        -- cbn [lists trust revoked]. rewrite <- L, (ltb_some _ _ _ _ H), app_nil_r. reflexivity.
    + destruct (l_ctx l1) as [|c1 r] eqn:Q; [discriminate|]. discriminate.
    + destruct (l_ctx l1) as [|c1 r] eqn:Q; [discriminate|]. rewrite <- Q in *. injection P as <-. rewrite <- NM in E, C, F by discriminate. constructor; cbn [with_ctx l_ctx l_check l_services].
      * rewrite map_length, loaded_app, L. unfold loaded. cbn. lia.
      * rewrite services_app. cbn. rewrite app_nil_r. exact S.
      * rewrite Q. discriminate.
      * exact C.
      * intros c H. rewrite Q in H. cbn in H. injection H as <-. specialize (F c1). rewrite Q in F. exact (F eq_refl).
      * intros i c H. apply nth_map_inv in H as (c0 & H & ->). rewrite (store_app ds _ i c0 (T i c0 H) (mkStore [] (Some cs))).
        -- unfold on_store, add_revoked, join. cbn [v_store trust revoked]. rewrite app_nil_r. destruct (revoked (v_store c0)); reflexivity.
        -- cbn [lists trust revoked]. rewrite <- L, (ltb_some _ _ _ _ H), app_nil_r. reflexivity.
    + destruct (l_ctx l1) as [|c1 r] eqn:Q; [discriminate|]. discriminate.
    + injection P as <-. rewrite <- NM in E, C, F by discriminate. constructor; cbn [l_ctx l_check l_services]; auto.
      * rewrite loaded_app, L. unfold loaded. cbn. lia.
      * rewrite services_app, S. reflexivity.
      * intros i c H. rewrite (store_app ds _ i c (T i c H) (mkStore [] None)), join_nil_r; [reflexivity|]. cbn [lists]; destruct (Nat.ltb i (loaded ds)); reflexivity.
    + injection P as <-. rewrite <- NM in E, C, F by discriminate. constructor; cbn [l_ctx l_check l_services]; auto.
      * rewrite loaded_app, L. unfold loaded. cbn. lia.
      * rewrite services_app. cbn. rewrite app_nil_r. exact S.
      * intros i c' H. rewrite (store_app ds _ i c' (T i c' H) (mkStore [] None)), join_nil_r; [reflexivity|]. cbn [lists]; destruct (Nat.ltb i (loaded ds)); reflexivity.
Qed.

(** ** Certificates of conditions *)

Fixpoint cond_ind' (P : cond -> Prop) (A : forall c, ~ is_group c -> P c) (G : forall op l, Forall P l -> P (COND_BOOL op l)) (c : cond) : P c.
Proof.
  destruct c as [acl|re|re|re|nm re|re|re|f|st re|op l|x]; try (apply A; intros H; exact H).
  apply G. induction l as [|c l IH]; constructor; [apply cond_ind'; assumption|exact IH].
Defined.

Lemma certs_atoms : forall c x, In x (client_certs c) <-> atom_of (COND_CLIENT_CERT x) c.
Proof.
  induction c as [c N|op l IH] using cond_ind'; intros x.
  - split.
    + intros H. destruct c; try (destruct H; fail); [destruct N; exact Logic.I|]. destruct H as [<-|[]]. apply ao_self. intros X; exact X.
    + intros H. inversion H as [Q|op l c0 I H0]; subst; [left; reflexivity|]. destruct N. exact Logic.I.
  - cbn. rewrite in_flat_map. split.
    + intros (c & I & H). rewrite Forall_forall in IH. apply (ao_sub _ op l c I). apply (IH c I x). exact H.
    + intros H. inversion H as [Q|op' l' c I H0]; subst. rewrite Forall_forall in IH. exists c. split; [exact I|]. apply (IH c I x). exact H0.
Qed.

Definition conf_certs (ds : list directive) : list bytes := flat_map (fun s => client_certs (s_cond s)) (services_of ds).

Lemma conf_wanted : forall ds x, In x (conf_certs ds) <-> wanted ds x.
Proof.
  intros ds x. unfold conf_certs, wanted, wanted_by. rewrite in_flat_map. split; intros (s & I & H); exists s; (split; [apply services_in; exact I|]); apply certs_atoms; exact H.
Qed.

Lemma forbid_none : forall ss, forbid_ssl_usage ss = false <-> forall s x, In s ss -> ~ wanted_by s x.
Proof.
  intros ss. unfold forbid_ssl_usage, wanted_by. split.
  - intros H s x I W. apply certs_atoms in W. assert (E : existsb (fun s => match client_certs (s_cond s) with [] => false | _ => true end) ss = true); [|congruence].
    apply existsb_exists. exists s. split; [exact I|]. destruct (client_certs (s_cond s)); [destruct W|reflexivity].
  - intros H. destruct (existsb _ ss) eqn:E; [|reflexivity]. apply existsb_exists in E as (s & I & E). destruct (client_certs (s_cond s)) as [|x r] eqn:Q; [discriminate|].
    exfalso. apply (H s x I). apply certs_atoms. rewrite Q. left. reflexivity.
Qed.

(** ** What is accepted *)

Lemma https_accepted : forall ds, (exists l, parse_listen_https ds = Some l) <->
  (forall a d b, ds = a ++ d :: b -> in_place (loaded a) d) /\ loaded ds <> O /\ (last_mode ds <> None -> forall x, ~ wanted ds x).
Proof.
  assert (A : forall ds, (exists l, parse_directives ds listener_alloc = Some l) <-> (forall a d b, ds = a ++ d :: b -> in_place (loaded a) d)).
  { induction ds as [|d ds IH] using rev_ind.
    - split; [intros _ a d b H; destruct a; discriminate|intros _; cbn; eauto].
    - assert (ST : forall l, inv ds l -> (exists l', parse_directive d l = Some l') <-> in_place (loaded ds) d).
      { intros l [L _ _ _ _ _]. rewrite <- L. destruct d as [[n|]|args|[cs|]|[cs|]|s|c]; cbn.
        - split; [discriminate|eauto].
        - split; [intros (? & X); discriminate|congruence].
        - destruct (l_ctx l) as [|c0 r] eqn:Q; [split; [intros (? & X); discriminate|intros [X _]; destruct X; reflexivity]|]. split.
          + intros (l' & H). split; [discriminate|]. apply (words_set args l l'); [rewrite Q; discriminate|exact H].
          + intros [_ W]. inversion W as [E|m d R E]; subst; unfold https_parse_client_cert.
            * cbn. eauto.
            * replace ((0 <=? m) && (m <=? 3)) with true by lia. replace (0 <? m) with true by lia. eauto.
        - destruct (l_ctx l); [split; [intros (? & X); discriminate|intros [X _]; destruct X; reflexivity]|]. split; [split; discriminate|eauto].
        - split; [intros (? & X); destruct (l_ctx l); discriminate|intros [_ X]; congruence].
        - destruct (l_ctx l); [split; [intros (? & X); discriminate|intros [X _]; destruct X; reflexivity]|]. split; [split; discriminate|eauto].
        - split; [intros (? & X); destruct (l_ctx l); discriminate|intros [_ X]; congruence].
        - split; eauto.
        - split; eauto. }
      split.
      + intros (l & H). rewrite directives_app in H. destruct (parse_directives ds listener_alloc) as [l1|] eqn:P; [|discriminate].
        cbn in H. destruct (parse_directive d l1) as [l2|] eqn:Q; [|discriminate].
        intros a d0 b E. destruct (exists_last (l := d0 :: b)) as (b' & e & Eb); [discriminate|]. rewrite Eb, app_assoc in E. apply app_inj_tail in E as [E1 E2]. subst e.
        destruct b' as [|d1 b'].
        * injection Eb as -> ->. rewrite app_nil_r in E1. subst a. apply (ST l1 (inv_all _ _ P)). eauto.
        * injection Eb as -> ->. destruct IH as [IH _]. apply (IH (ex_intro _ l1 eq_refl) a d1 b'). exact E1.
      + intros H. destruct IH as [_ IH]. destruct IH as (l1 & P).
        * intros a d0 b E. apply (H a d0 (b ++ [d])). rewrite E, <- app_assoc. reflexivity.
        * destruct (ST l1 (inv_all _ _ P)) as [_ S2]. destruct S2 as (l2 & Q); [apply (H ds d []); reflexivity|].
          exists l2. rewrite directives_app, P. cbn. rewrite Q. reflexivity. }
  intros ds. unfold parse_listen_https. split.
  - intros (l & H). destruct (parse_directives ds listener_alloc) as [l1|] eqn:P; [|discriminate]. pose proof (inv_all _ _ P) as V.
    split; [apply A; eauto|]. destruct (l_ctx l1) as [|c r] eqn:Q; [discriminate|]. split; [rewrite <- (i_len _ _ V), Q; discriminate|].
    intros M x W. unfold flush_service_client_cert in H. rewrite (i_serv _ _ V) in H. fold (conf_certs ds) in H. apply conf_wanted in W.
    destruct (conf_certs ds); [destruct W|]. pose proof (i_check _ _ V) as C. destruct (last_mode ds) as [a|]; [|congruence]. destruct C as (Wa & r' & E).
    destruct (l_check l1 =? -1) eqn:K; [|discriminate]. inversion Wa as [X|m d R X]; subst; injection X as X _; lia.
  - intros (H & N & M). apply A in H as (l1 & P). rewrite P. pose proof (inv_all _ _ P) as V. pose proof (i_len _ _ V) as L.
    destruct (l_ctx l1) as [|c r] eqn:Q; [cbn in L; congruence|]. unfold flush_service_client_cert. rewrite (i_serv _ _ V). fold (conf_certs ds).
    destruct (conf_certs ds) as [|x cs] eqn:X; [eauto|]. pose proof (i_check _ _ V) as C. destruct (last_mode ds) as [a|].
    + exfalso. apply (M ltac:(discriminate) x). apply conf_wanted. rewrite X. left. reflexivity.
    + rewrite C. cbn. eauto.
Qed.

(** ** Connections *)
Section Conn.
  Variable chain : store -> Z -> bytes -> bool.

  Lemma conf_none : forall ds, (forall x, ~ wanted ds x) -> conf_certs ds = [].
  Proof. intros ds H. destruct (conf_certs ds) as [|x r] eqn:E; [reflexivity|]. exfalso. apply (H x). apply conf_wanted. rewrite E. left. reflexivity. Qed.

  Lemma flush_none : forall ds l, (forall x, ~ wanted ds x) -> parse_listen_https ds = Some l -> inv ds l /\ l_ctx l <> [].
  Proof.
    intros ds l W H. unfold parse_listen_https in H. destruct (parse_directives ds listener_alloc) as [l1|] eqn:P; [|discriminate]. pose proof (inv_all _ _ P) as V.
    destruct (l_ctx l1) as [|c r] eqn:Q; [discriminate|]. unfold flush_service_client_cert in H. rewrite (i_serv _ _ V) in H. fold (conf_certs ds) in H. rewrite (conf_none ds W) in H. injection H as <-.
    split; [exact V|]. rewrite Q. discriminate.
  Qed.

  Lemma nth_store : forall ds l i c, inv ds l -> (i < loaded ds)%nat -> v_store (nth i (l_ctx l) c) = lists i 0 ds.
  Proof. intros ds l i c V I. apply (i_store _ _ V). apply nth_error_nth'. rewrite (i_len _ _ V). exact I. Qed.

  Lemma level : forall ds l m d i shown, parse_listen_https ds = Some l -> (forall x, ~ wanted ds x) -> last_mode ds = Some [Some m; Some d] -> (i < loaded ds)%nat ->
    accept chain l i shown = policy m (chain (lists i 0 ds) d) shown.
  Proof.
    intros ds l m d i shown H W M I. destruct (flush_none ds l W H) as [V NE]. pose proof (i_check _ _ V) as C. pose proof (i_first _ _ V) as F. rewrite M in C, F.
    destruct C as [Wd (r & E)]. injection E as E1 E2. unfold accept. destruct (l_ctx l) as [|c rest] eqn:Q; [congruence|]. rewrite <- Q. specialize (F c eq_refl) as [F1 F2].
    rewrite <- E1 in *. assert (R : 1 <= m <= 3) by (inversion Wd; assumption). specialize (F2 ltac:(lia)). injection F2 as Fd. unfold flags, mode_flags in F1. injection F1 as F3 F4 F5.
    unfold handshake. rewrite F3, F4, F5, (nth_store ds l i c V I), <- Fd.
    assert (X : m = 1 \/ m = 2 \/ m = 3) by lia. destruct X as [-> |[-> | ->]]; cbn [negb Z.eqb Pos.eqb policy Z.ltb Z.compare Pos.compare Pos.compare_cont]; destruct shown as [x|]; cbn [orb]; try reflexivity.
    - destruct (chain (lists i 0 ds) d x); reflexivity.
    - destruct (chain (lists i 0 ds) d x); reflexivity.
    - rewrite orb_true_r. reflexivity.
  Qed.

  Lemma never : forall ds l i shown, parse_listen_https ds = Some l -> (forall x, ~ wanted ds x) -> last_mode ds = None \/ last_mode ds = Some [Some 0] ->
    accept chain l i shown = Some None.
  Proof.
    intros ds l i shown H W M. destruct (flush_none ds l W H) as [V NE]. pose proof (i_check _ _ V) as C. pose proof (i_first _ _ V) as F.
    unfold accept. destruct (l_ctx l) as [|c rest] eqn:Q; [reflexivity|]. specialize (F c eq_refl).
    assert (X : v_peer c = false). { destruct M as [M|M]; rewrite M in *; [injection F as -> _ _; reflexivity|]. destruct C as [_ (r & E)]. injection E as E _. rewrite <- E in F. destruct F as [F _]. injection F as -> _ _. reflexivity. }
    unfold handshake. rewrite X. reflexivity.
  Qed.

  Lemma condition : forall ds l i shown, parse_listen_https ds = Some l -> (exists x, wanted ds x) -> (i < loaded ds)%nat ->
    exists cs depth, (forall x, In x cs <-> wanted ds x) /\
      accept chain l i shown = Some (match shown with None => None | Some c => Some (c, chain (mkStore (trust (lists i 0 ds) ++ cs) (revoked (lists i 0 ds))) depth c) end).
  Proof.
    intros ds l i shown H (x & W) I. unfold parse_listen_https in H. destruct (parse_directives ds listener_alloc) as [l1|] eqn:P; [|discriminate]. pose proof (inv_all _ _ P) as V.
    destruct (l_ctx l1) as [|c r] eqn:Q; [discriminate|]. unfold flush_service_client_cert in H. rewrite (i_serv _ _ V) in H. fold (conf_certs ds) in H.
    pose proof W as W'. apply conf_wanted in W'. destruct (conf_certs ds) as [|y cs] eqn:E; [destruct W'|]. destruct (l_check l1 =? -1); [|discriminate]. injection H as <-.
    exists (y :: cs), (v_depth c). split; [intros z; rewrite <- E; apply conf_wanted|].
    unfold accept. cbn [l_ctx l_check]. rewrite Q. cbn [map]. set (f := fun c0 => mkCtx true false true (v_depth c0) (add_trust (y :: cs) (v_store c0))).
    change (mkCtx true false true (v_depth c) (add_trust (y :: cs) (v_store c))) with (f c). change (f c :: map f r) with (map f (c :: r)). rewrite <- Q, map_nth.
    unfold handshake. cbn [v_peer v_must v_lax v_depth v_store f]. destruct shown as [z|]; [|reflexivity]. rewrite orb_true_r. cbn.
    unfold add_trust. rewrite (nth_store ds l1 i c V I). reflexivity.
  Qed.
End Conn.
