(** The configuration after a change. *)
From Coq Require Import Ascii String List ZArith Bool Lia ZifyBool ZifyNat.
From Verif Require Import Bytes ClenSpec NumSpec NumModel NumProofs CtlModel CtlSpec CtlProofs CtlRouteProofs.
Import ListNotations.
Local Open Scope nat_scope.

Section Upd.
  Context {A : Type}.
  Variable f : A -> A.

  Lemma nth_update : forall n (l : list A) i, nth_error (update f n l) i = if Nat.eqb i n then option_map f (nth_error l n) else nth_error l i.
  Proof.
    intros n l i. unfold update. destruct (nth_error l n) as [x|] eqn:E.
    - assert (Hn : n < length l) by (apply nth_error_Some; congruence). destruct (Nat.eqb_spec i n) as [-> |Hi].
      + rewrite nth_error_app2; rewrite firstn_length_le by lia; [|lia]. rewrite Nat.sub_diag. reflexivity.
      + destruct (Nat.lt_ge_cases i n) as [H|H].
        * rewrite nth_error_app1 by (rewrite firstn_length_le; lia). rewrite <- (firstn_skipn n l) at 2. rewrite nth_error_app1; [auto|rewrite firstn_length_le; lia].
        * rewrite nth_error_app2 by (rewrite firstn_length_le; lia). rewrite firstn_length_le by lia.
          destruct (i - n) as [|k] eqn:Ek; [lia|]. cbn [nth_error].
          rewrite <- (firstn_skipn (S n) l) at 2. rewrite nth_error_app2 by (rewrite firstn_length_le; lia). rewrite firstn_length_le by lia. f_equal. lia.
    - destruct (Nat.eqb_spec i n) as [-> |Hi]; auto.
  Qed.
  Lemma length_update : forall n (l : list A), length (update f n l) = length l.
  Proof.
    intros n l. unfold update. destruct (nth_error l n) as [x|] eqn:E; auto.
    assert (Hn : n < length l) by (apply nth_error_Some; congruence). rewrite app_length. cbn [length]. rewrite firstn_length_le, skipn_length by lia. lia.
  Qed.
  Lemma map_update : forall B (g : A -> B) n l, (forall x, g (f x) = g x) -> map g (update f n l) = map g l.
  Proof.
    intros B g n l Hg. unfold update. destruct (nth_error l n) as [x|] eqn:E; auto.
    apply nth_error_split in E as (l1 & l2 & -> & <-). rewrite firstn_app, firstn_all, Nat.sub_diag. cbn [firstn]. rewrite app_nil_r.
    rewrite skipn_app, skipn_all2 by lia. replace (S (length l1) - length l1) with 1 by lia. cbn [skipn app]. rewrite !map_app. cbn. rewrite Hg. reflexivity.
  Qed.
  Lemma concat_update2 : forall (ls : list (list A)) n, concat (update2 f n ls) = update f n (concat ls).
  Proof.
    induction ls as [|x ls IH]; intros n; cbn [update2 concat]; [unfold update; destruct n; reflexivity|].
    destruct (Nat.ltb_spec n (length x)) as [H|H]; cbn [concat].
    - unfold update. rewrite nth_error_app1 by auto. destruct (nth_error x n) as [y|] eqn:E; [|apply nth_error_None in E; lia].
      rewrite firstn_app, skipn_app. replace (n - length x) with 0 by lia. replace (S n - length x) with 0 by lia. cbn [firstn skipn].
      rewrite app_nil_r, <- app_assoc. reflexivity.
    - rewrite IH. unfold update. rewrite nth_error_app2 by auto. destruct (nth_error (concat ls) (n - length x)) as [y|] eqn:E; auto.
      rewrite firstn_app, skipn_app, (firstn_all2 x), (skipn_all2 x) by lia. replace (S n - length x) with (S (n - length x)) by lia. cbn [app]. rewrite <- app_assoc. reflexivity.
  Qed.
End Upd.

Definition same_scope (l l0 : option nat) : bool := match l, l0 with Some i, Some j => Nat.eqb i j | None, None => true | _, _ => false end.
Lemma same_scope_eq : forall l l0, same_scope l l0 = true <-> l = l0.
Proof. intros [i|] [j|]; cbn; split; try discriminate; auto; intros H; [apply Nat.eqb_eq in H; congruence|injection H as ->; apply Nat.eqb_refl]. Qed.

Section Effect.
  Variables (c : config) (o : object) (dis : bool).
  Let c' := apply_effect (SetDisabled o dis) c.

  (** the services of a scope *)
  Definition fsvc (l : option nat) : list service -> list service :=
    match o with
    | ObjService l0 s => if same_scope l l0
                         then update (fun x => mkSvc (svc_name x) dis (balancers x)) s else id
    | ObjBackend l0 s b => if same_scope l l0
                         then update (fun x => mkSvc (svc_name x) (svc_disabled x) (update2 (fun y => mkBe (be_type y) dis) b (balancers x))) s else id
    | _ => id
    end.
  Lemma scope_after : forall l, scope c' l = fsvc l (scope c l) \/ (exists i, l = Some i /\ nth_error (listeners c) i = None /\ scope c' l = [] /\ scope c l = []).
  Proof.
    intros l. unfold c', apply_effect, fsvc.
    destruct o as [[i0|]|l0 s|l0 s b].
    - left. destruct l as [i|]; cbn; [|auto]. rewrite nth_update. destruct (Nat.eqb_spec i i0) as [-> |]; auto.
      destruct (nth_error (listeners c) i0); reflexivity.
    - left. reflexivity.
    - unfold upd_scope. destruct l as [i|], l0 as [j|]; cbn [scope listeners services same_scope]; auto.
      rewrite nth_update. destruct (Nat.eqb_spec i j) as [-> |]; auto.
      destruct (nth_error (listeners c) j) eqn:E; cbn; [auto|]. right. exists j. rewrite E. auto.
    - unfold upd_scope. destruct l as [i|], l0 as [j|]; cbn [scope listeners services same_scope]; auto.
      rewrite nth_update. destruct (Nat.eqb_spec i j) as [-> |]; auto.
      destruct (nth_error (listeners c) j) eqn:E; cbn; [auto|]. right. exists j. rewrite E. auto.
  Qed.

  Lemma names_after : map lstn_name (listeners c') = map lstn_name (listeners c).
  Proof.
    unfold c', apply_effect, upd_scope. destruct o as [[i0|]|[j|] s|[j|] s b]; cbn [listeners]; auto; apply map_update; reflexivity.
  Qed.
  Lemma fsvc_names : forall l ss, map svc_name (fsvc l ss) = map svc_name ss.
  Proof. intros l ss. unfold fsvc. destruct o as [?|l0 s|l0 s b]; auto; destruct (same_scope l l0); auto; apply map_update; reflexivity. Qed.
  Lemma fsvc_sizes : forall l ss, map (fun x => length (concat (balancers x))) (fsvc l ss) = map (fun x => length (concat (balancers x))) ss.
  Proof.
    intros l ss. unfold fsvc. destruct o as [?|l0 s|l0 s b]; auto; destruct (same_scope l l0); auto; apply map_update; intros x; cbn [balancers]; auto.
    rewrite concat_update2. apply length_update.
  Qed.
  Lemma fsvc_types : forall l ss, map (fun x => map be_type (concat (balancers x))) (fsvc l ss) = map (fun x => map be_type (concat (balancers x))) ss.
  Proof.
    intros l ss. unfold fsvc. destruct o as [?|l0 s|l0 s b]; auto; destruct (same_scope l l0); auto; apply map_update; intros x; cbn [balancers]; auto.
    rewrite concat_update2. apply map_update. reflexivity.
  Qed.

  Lemma in_scope_scope : forall d l ss, in_scope d l ss <-> scope d l = ss /\ (forall i, l = Some i -> nth_error (listeners d) i <> None).
  Proof.
    intros d [i|] ss; cbn; split.
    - intros (x & H & ->). rewrite H. split; auto. intros j [= <-]. congruence.
    - intros [H K]. destruct (nth_error (listeners d) i) as [x|] eqn:E; [|destruct (K i eq_refl E)]. eauto.
    - intros ->. split; auto. discriminate.
    - intros [<- _]. auto.
  Qed.
  Lemma lstn_exists : forall i, nth_error (listeners c') i <> None <-> nth_error (listeners c) i <> None.
  Proof.
    intros i. rewrite !nth_error_Some. enough (length (listeners c') = length (listeners c)) as -> by tauto.
    pose proof (f_equal (@length _) names_after) as H. rewrite !map_length in H. exact H.
  Qed.
  Lemma in_scope_after : forall l ss, in_scope c l ss -> in_scope c' l (fsvc l ss).
  Proof.
    intros l ss H. apply in_scope_scope in H as [H K]. apply in_scope_scope. split.
    - destruct (scope_after l) as [E|(i & -> & E & _)]; [congruence|]. destruct (K i eq_refl E).
    - intros i Hi. apply lstn_exists. auto.
  Qed.
  Lemma in_scope_before : forall l ss, in_scope c' l ss -> exists ss0, in_scope c l ss0 /\ ss = fsvc l ss0.
  Proof.
    intros l ss H. apply in_scope_scope in H as [H K]. exists (scope c l). split.
    - apply in_scope_scope. split; auto. intros i Hi. apply lstn_exists. auto.
    - destruct (scope_after l) as [E|(i & -> & E & _)]; [congruence|]. specialize (K i eq_refl). apply lstn_exists in K. congruence.
  Qed.

  Lemma names_scope_after : forall a l, names_scope c' a l <-> names_scope c a l.
  Proof. intros a [i|]; unfold names_scope; [rewrite names_after|]; tauto. Qed.

  Lemma nth_map : forall A B (g : A -> B) (l l' : list A) i x, map g l = map g l' -> nth_error l i = Some x -> exists x', nth_error l' i = Some x' /\ g x' = g x.
  Proof.
    intros A B g l l' i x E H. assert (K : nth_error (map g l') i = Some (g x)) by (rewrite <- E; apply map_nth_error; auto).
    destruct (nth_error l' i) as [x'|] eqn:E'.
    - exists x'. split; auto. rewrite (map_nth_error g i l' E') in K. congruence.
    - apply nth_error_None in E'. assert (nth_error (map g l') i = None) by (apply nth_error_None; rewrite map_length; auto). congruence.
  Qed.

  Lemma addressed_after : forall comps p, addressed c' comps p <-> addressed c comps p.
  Proof.
    intros comps p. split; intros H; destruct H.
    - constructor. apply names_scope_after; auto.
    - apply in_scope_before in H0 as (ss0 & Hs & ->). rewrite fsvc_names in H1. econstructor; eauto. apply names_scope_after; auto.
    - apply in_scope_before in H0 as (ss0 & Hs & ->). rewrite fsvc_names in H1.
      destruct (nth_map _ _ _ _ _ _ _ (fsvc_sizes l ss0) H2) as (x0 & Hx & Ex).
      econstructor; eauto; [apply names_scope_after; auto|]. unfold picks_backend in *. rewrite Ex. auto.
    - constructor. apply names_scope_after; auto.
    - apply (addr_service c' a b l (fsvc l ss) s); [apply names_scope_after; auto|apply in_scope_after; auto|rewrite fsvc_names; auto].
    - destruct (nth_map _ _ _ _ _ _ _ (eq_sym (fsvc_sizes l ss)) H2) as (x0 & Hx & Ex).
      apply (addr_backend c' a b k l (fsvc l ss) s x0 n); [apply names_scope_after; auto|apply in_scope_after; auto|rewrite fsvc_names; auto|auto|].
      unfold picks_backend in *. rewrite Ex. auto.
  Qed.

  (** services and backends after the change *)

  Definition gsvc (l : option nat) (s : nat) (x : service) : service :=
    match o with
    | ObjService l0 s0 => if same_scope l l0 && Nat.eqb s s0 then mkSvc (svc_name x) dis (balancers x) else x
    | ObjBackend l0 s0 b => if same_scope l l0 && Nat.eqb s s0 then mkSvc (svc_name x) (svc_disabled x) (update2 (fun y => mkBe (be_type y) dis) b (balancers x)) else x
    | _ => x
    end.
  Lemma nth_fsvc : forall l ss s, nth_error (fsvc l ss) s = option_map (gsvc l s) (nth_error ss s).
  Proof.
    intros l ss s. unfold fsvc, gsvc. destruct o as [?|l0 s0|l0 s0 b].
    - unfold id. destruct (nth_error ss s); reflexivity.
    - destruct (same_scope l l0); unfold id; cbn [andb].
      + rewrite nth_update. destruct (Nat.eqb_spec s s0) as [-> |]; auto. destruct (nth_error ss s); reflexivity.
      + destruct (nth_error ss s); reflexivity.
    - destruct (same_scope l l0); unfold id; cbn [andb].
      + rewrite nth_update. destruct (Nat.eqb_spec s s0) as [-> |]; auto. destruct (nth_error ss s); reflexivity.
      + destruct (nth_error ss s); reflexivity.
  Qed.
  Lemma the_service_after : forall l s x', the_service c' l s x' <-> exists x, the_service c l s x /\ x' = gsvc l s x.
  Proof.
    intros l s x'. unfold the_service. split.
    - intros (ss & H & K). apply in_scope_before in H as (ss0 & H & ->). rewrite nth_fsvc in K. destruct (nth_error ss0 s) as [x|] eqn:E; [|discriminate].
      exists x. split; [eauto|]. cbn in K. congruence.
    - intros (x & (ss & H & K) & ->). exists (fsvc l ss). split; [apply in_scope_after; auto|]. rewrite nth_fsvc, K. reflexivity.
  Qed.
  Definition gbe (l : option nat) (s b : nat) (y : backend) : backend :=
    match o with ObjBackend l0 s0 b0 => if same_scope l l0 && Nat.eqb s s0 && Nat.eqb b b0 then mkBe (be_type y) dis else y | _ => y end.
  Lemma the_backend_after : forall l s b y', the_backend c' l s b y' <-> exists y, the_backend c l s b y /\ y' = gbe l s b y.
  Proof.
    intros l s b y'. unfold the_backend.
    assert (K : forall x, nth_error (concat (balancers (gsvc l s x))) b = option_map (gbe l s b) (nth_error (concat (balancers x)) b)).
    { intros x. unfold gsvc, gbe. destruct o as [?|l0 s0|l0 s0 b0].
      - destruct (nth_error _ b); reflexivity.
      - destruct (same_scope l l0 && Nat.eqb s s0); cbn [balancers]; destruct (nth_error _ b); reflexivity.
      - destruct (same_scope l l0 && Nat.eqb s s0); cbn [balancers andb]; [|destruct (nth_error _ b); reflexivity].
        rewrite concat_update2, nth_update. destruct (Nat.eqb_spec b b0) as [-> |]; auto. destruct (nth_error _ b); reflexivity. }
    split.
    - intros (x' & H & E). apply the_service_after in H as (x & H & ->). rewrite K in E. destruct (nth_error (concat (balancers x)) b) as [y|] eqn:Ey; [|discriminate].
      exists y. split; [eauto|]. cbn in E. congruence.
    - intros (y & (x & H & E) & ->). exists (gsvc l s x). split; [apply the_service_after; eauto|]. rewrite K, E. reflexivity.
  Qed.

  Lemma disabled_after : forall p d, disabled_is c' p d <-> exists d0, disabled_is c p d0 /\ d = (if match p, o with
      | ObjListener (Some i), ObjListener (Some j) => Nat.eqb i j
      | ObjService l s, ObjService l0 s0 => same_scope l l0 && Nat.eqb s s0
      | ObjBackend l s b, ObjBackend l0 s0 b0 => same_scope l l0 && Nat.eqb s s0 && Nat.eqb b b0
      | _, _ => false end then dis else d0).
  Proof.
    intros p d. destruct p as [[i|]|l s|l s b]; cbn [disabled_is].
    - assert (E : nth_error (listeners c') i = option_map (fun x => match o with
        | ObjListener (Some j) => if Nat.eqb i j then mkLstn (lstn_name x) dis (lstn_services x) else x
        | _ => mkLstn (lstn_name x) (lstn_disabled x) (fsvc (Some i) (lstn_services x)) end) (nth_error (listeners c) i)).
      { unfold c', apply_effect, upd_scope, fsvc. destruct o as [[j|]|[j|] s|[j|] s b]; cbn [listeners services].
        - rewrite nth_update. destruct (Nat.eqb_spec i j) as [-> |]; auto. destruct (nth_error (listeners c) _); reflexivity.
        - unfold id. destruct (nth_error (listeners c) _) as [[]|]; reflexivity.
        - cbn [same_scope]. rewrite nth_update. destruct (Nat.eqb_spec i j) as [-> |H]; unfold id; destruct (nth_error (listeners c) _) as [[]|]; reflexivity.
        - unfold id. destruct (nth_error (listeners c) _) as [[]|]; reflexivity.
        - cbn [same_scope]. rewrite nth_update. destruct (Nat.eqb_spec i j) as [-> |H]; unfold id; destruct (nth_error (listeners c) _) as [[]|]; reflexivity.
        - unfold id. destruct (nth_error (listeners c) _) as [[]|]; reflexivity. }
      rewrite E. clear E. split.
      + intros (x' & H & <-). destruct (nth_error (listeners c) i) as [x|]; [|discriminate]. injection H as <-. exists (lstn_disabled x). split; [eauto|].
        destruct o as [[j|]|?|?]; cbn [lstn_disabled]; auto. destruct (Nat.eqb i j); reflexivity.
      + intros (d0 & (x & H & <-) & ->). rewrite H. cbn [option_map]. eexists. split; [reflexivity|].
        destruct o as [[j|]|?|?]; cbn [lstn_disabled]; auto. destruct (Nat.eqb i j); reflexivity.
    - split; [tauto|]. intros (d0 & [] & _).
    - split.
      + intros (x' & H & <-). apply the_service_after in H as (x & H & ->). exists (svc_disabled x). split; [eauto|].
        unfold gsvc. destruct o as [?|l0 s0|l0 s0 b0]; auto; destruct (same_scope l l0 && Nat.eqb s s0); reflexivity.
      + intros (d0 & (x & H & <-) & ->). exists (gsvc l s x). split; [apply the_service_after; eauto|].
        unfold gsvc. destruct o as [?|l0 s0|l0 s0 b0]; auto; destruct (same_scope l l0 && Nat.eqb s s0); reflexivity.
    - split.
      + intros (x' & H & <-). apply the_backend_after in H as (x & H & ->). exists (be_disabled x). split; [eauto|].
        unfold gbe. destruct o as [?|l0 s0|l0 s0 b0]; auto; destruct (same_scope l l0 && Nat.eqb s s0 && Nat.eqb b b0); reflexivity.
      + intros (d0 & (x & H & <-) & ->). exists (gbe l s b x). split; [apply the_backend_after; eauto|].
        unfold gbe. destruct o as [?|l0 s0|l0 s0 b0]; auto; destruct (same_scope l l0 && Nat.eqb s s0 && Nat.eqb b b0); reflexivity.
  Qed.

  Lemma effect_only : (forall d, disabled_is c o d -> disabled_is c' o dis) /\
    (forall p d, p <> o -> (disabled_is c' p d <-> disabled_is c p d)).
  Proof.
    split.
    - intros d H. apply disabled_after. exists d. split; auto.
      destruct o as [[i|]|l s|l s b]; cbn in H; [|destruct H| |]; rewrite ?Nat.eqb_refl, ?(proj2 (same_scope_eq _ _) eq_refl); reflexivity.
    - intros p d Hp. rewrite disabled_after.
      assert (E : match p, o with
      | ObjListener (Some i), ObjListener (Some j) => Nat.eqb i j
      | ObjService l s, ObjService l0 s0 => same_scope l l0 && Nat.eqb s s0
      | ObjBackend l s b, ObjBackend l0 s0 b0 => same_scope l l0 && Nat.eqb s s0 && Nat.eqb b b0
      | _, _ => false end = false).
      { destruct p as [[i|]|l s|l s b], o as [[j|]|l0 s0|l0 s0 b0]; auto; apply not_true_is_false; intros K; apply Hp;
          rewrite ?andb_true_iff, ?same_scope_eq, ?Nat.eqb_eq in K; intuition congruence. }
      rewrite E. split; [intros (d0 & H & ->); auto|eauto].
  Qed.
End Effect.
