From Coq Require Import Ascii String List ZArith Bool Lia ZifyBool ZifyNat.
From Verif Require Import Bytes ClenSpec NumSpec NumModel NumProofs CtlModel CtlSpec CtlProofs.
Import ListNotations.
Open Scope Z_scope.

(** ** Routing *)

Definition okpath (s : bytes) : Prop := ~ In quest s.
Lemma span_q : forall s q, ~ In quest s -> query q -> span (fun c => negb (beq c quest)) (s ++ q) = (s, q).
Proof. intros s q Hs Hq. exact (span_quest q Hq s Hs). Qed.

Lemma last_snoc : forall (p : bytes) x d, last (p ++ [x]) d = x.
Proof. induction p as [|y p IH]; intros x d; [reflexivity|]. cbn [app last]. destruct (p ++ [x]) eqn:E; [destruct p; discriminate|]. rewrite <- E. apply IH. Qed.

(** the path of the request and the length used *)
Lemma target_len : forall u p, target u p -> ~ query u ->
  exists pp q, u = pp ++ q /\ query q /\ span (fun c => negb (beq c quest)) u = (pp, q) /\ length pp <> 0%nat /\
    (if beq (last pp NUL) slash then (length pp - 1)%nat else length pp) = length p /\ (pp = p \/ pp = p ++ lit "/").
Proof.
  intros u p (q & Hq & Hp & Hu) Hne. destruct Hu as [Hu|[Hu Hlast]].
  - assert (Hpp : ~ In quest (p ++ lit "/")) by (rewrite in_app_iff; intros [K|[K|[]]]; [auto|discriminate]).
    exists (p ++ lit "/"), q. subst u. rewrite app_assoc. rewrite span_q by auto. repeat split; auto.
    + rewrite app_length. cbn. lia.
    + cbn [lit list_ascii_of_string]. rewrite last_snoc. rewrite beq_refl. rewrite app_length. cbn. lia.
  - exists p, q. subst u. rewrite span_q by auto. repeat split; auto.
    + intros E. destruct p; [|discriminate]. apply Hne. exact Hq.
    + destruct (beq (last p NUL) slash) eqn:E; auto. exfalso. apply beq_eq in E.
      destruct (exists_last (l := p)) as (p' & x & Ep); [intros ->; cbn in E; discriminate|]. subst p. rewrite last_snoc in E. subst x.
      apply (Hlast p'). reflexivity.
Qed.

Lemma skipn_exact : forall (e w : bytes), skipn (length e) (e ++ w) = w.
Proof. induction e; cbn; auto. Qed.
Lemma match_covers : forall e u p pp q, u = pp ++ q -> query q -> ~ In quest pp -> (pp = p \/ pp = p ++ lit "/") ->
  (Nat.leb (length e) (length p) && bytes_eqb e (firstn (length e) u) && at_stop (skipn (length e) u) = true <-> covers e p).
Proof.
  intros e u p pp q Hu Hq Hn Hpp. rewrite !andb_true_iff, bytes_eqb_eq, Nat.leb_le. split.
  - intros [[Hl He] Hs].
    assert (E : exists t, p = e ++ t).
    { exists (skipn (length e) p). rewrite He at 1. rewrite <- (firstn_skipn (length e) p) at 1. f_equal.
      subst u. destruct Hpp as [-> | ->]; rewrite <- ?app_assoc, firstn_app; replace (length e - length p)%nat with 0%nat by lia; cbn; rewrite app_nil_r; auto. }
    destruct E as [t ->]. destruct t as [|x t]; [left; apply app_nil_r|]. right. exists t. cbn. f_equal. f_equal.
    assert (Hsk : exists w, skipn (length e) u = x :: w).
    { subst u. destruct Hpp as [-> | ->]; rewrite <- ?app_assoc, skipn_exact; cbn [app]; eauto. }
    destruct Hsk as [w Hsk]. rewrite Hsk in Hs. cbn in Hs. unfold stops in Hs. apply orb_true_iff in Hs as [Hs|Hs]; apply beq_eq in Hs; subst x; auto.
    exfalso. apply Hn. destruct Hpp as [-> | ->]; rewrite ?in_app_iff; cbn; tauto.
  - intros [-> |[t ->]].
    + split; [split; [auto|]|].
      * subst u. destruct Hpp as [-> | ->]; rewrite <- ?app_assoc, firstn_app, firstn_all, Nat.sub_diag; cbn; rewrite app_nil_r; auto.
      * subst u. destruct Hpp as [-> | ->]; rewrite <- ?app_assoc, skipn_app, skipn_all, Nat.sub_diag; cbn; auto.
        destruct Hq as [-> |[t ->]]; reflexivity.
    + split; [split; [rewrite app_length; lia|]|].
      * subst u. destruct Hpp as [-> | ->]; rewrite <- ?app_assoc, firstn_app, firstn_all, Nat.sub_diag; cbn; rewrite app_nil_r; auto.
      * subst u. destruct Hpp as [-> | ->]; rewrite <- ?app_assoc, skipn_app, skipn_all, Nat.sub_diag; cbn; auto.
Qed.

Lemma meth_eqb_eq : forall a b, meth_eqb a b = true <-> a = b.
Proof. intros [] []; cbn; split; congruence. Qed.

Section Loop.
  Variables (m : meth) (u : bytes) (len : nat) (cov : bytes -> Prop).
  Hypothesis Hcov : forall e, Nat.leb (length e) len && bytes_eqb e (firstn (length e) u) && at_stop (skipn (length e) u) = true <-> cov e.

  Lemma find_loop_spec : forall tab cp um r um', find_loop tab m u len cp um = (r, um') ->
    (forall e, cp = Some e -> method e = m /\ cov (uri e)) ->
    match r with
    | Some e => (cp = Some e \/ In e tab) /\ method e = m /\ cov (uri e) /\
        (forall e', cp = Some e' -> (length (uri e') <= length (uri e))%nat) /\
        (forall e', In e' tab -> method e' = m -> cov (uri e') -> (length (uri e') <= length (uri e))%nat)
    | None => cp = None /\ (forall e', In e' tab -> method e' = m -> ~ cov (uri e'))
    end /\ (um' = true <-> um = true \/ exists e, In e tab /\ method e <> m /\ cov (uri e)).
  Proof.
    induction tab as [|p tab IH]; intros cp um r um' H Hcp; cbn [find_loop] in H.
    - injection H as <- <-. split.
      + destruct cp as [e|]; [|auto]. destruct (Hcp e eq_refl) as [H1 H2]. repeat split; auto; [intros e' [= <-]; auto|intros e' []].
      + split; [auto|]. intros [H|(e & [] & _)]; auto.
    - specialize (Hcov (uri p)) as Hp.
      destruct (Nat.leb (length (uri p)) len && bytes_eqb (uri p) (firstn (length (uri p)) u) && at_stop (skipn (length (uri p)) u)) eqn:E.
      + assert (Hc : cov (uri p)) by (apply Hp; auto). destruct (meth_eqb (method p) m) eqn:Em.
        * apply meth_eqb_eq in Em. apply IH in H.
          2:{ destruct cp as [q|]; [destruct (Nat.ltb _ _)|]; intros e [= <-]; auto. }
          destruct H as [H1 H2]. split.
          -- destruct r as [e|].
             ++ destruct H1 as (A & B & C & D & F). split; [|split; [auto|split; [auto|split]]].
                ** destruct cp as [q|]; [destruct (Nat.ltb (length (uri q)) (length (uri p)))|]; cbn; intuition congruence.
                ** intros e' ->. destruct (Nat.ltb (length (uri e')) (length (uri p))) eqn:El.
                   --- apply Nat.ltb_lt in El. specialize (D p eq_refl). lia.
                   --- apply D. auto.
                ** intros e' [<- |Hin]; [|eauto]. intros _ _. destruct cp as [q|]; [|apply D; auto].
                   destruct (Nat.ltb (length (uri q)) (length (uri p))) eqn:El; [apply D; auto|]. apply Nat.ltb_ge in El. specialize (D q eq_refl). lia.
             ++ destruct H1 as [A _]. exfalso. destruct cp as [q|]; [destruct (Nat.ltb _ _)|]; discriminate.
          -- rewrite H2. split.
             ++ intros [?|(e & ? & ?)]; [auto|]. right. exists e. cbn; tauto.
             ++ intros [?|(e & [<- |?] & ?)]; [auto|tauto|]. right. exists e. auto.
        * assert (Hm : method p <> m) by (intros K; apply meth_eqb_eq in K; congruence). apply IH in H; [|auto]. destruct H as [H1 H2]. split.
          -- destruct r as [e|].
             ++ destruct H1 as (A & B & C & D & F). repeat split; auto; [cbn; tauto|]. intros e' [<- |Hin]; [congruence|eauto].
             ++ destruct H1 as [A B]. split; auto. intros e' [<- |Hin]; [congruence|eauto].
          -- rewrite H2. split; [|auto]. intros _. right. exists p. cbn; auto.
      + assert (Hc : ~ cov (uri p)) by (intros K; apply Hp in K; congruence). apply IH in H; [|auto]. destruct H as [H1 H2]. split.
        -- destruct r as [e|].
           ++ destruct H1 as (A & B & C & D & F). repeat split; auto; [cbn; tauto|]. intros e' [<- |Hin]; [tauto|eauto].
           ++ destruct H1 as [A B]. split; auto. intros e' [<- |Hin]; [auto|eauto].
        -- rewrite H2. split.
           ++ intros [?|(e & ? & ?)]; [auto|]. right. exists e. cbn; tauto.
           ++ intros [?|(e & [<- |?] & ?)]; [auto|tauto|]. right. exists e. auto.
  Qed.
End Loop.

Lemma route : forall tab m u p, ~ query u -> target u p ->
  match find_endpoint tab m u with
  | Found e => In e tab /\ method e = m /\ covers (uri e) p /\
      forall e', In e' tab -> method e' = m -> covers (uri e') p -> (length (uri e') <= length (uri e))%nat
  | Missing (Some BAD_REQUEST) => (forall e, In e tab -> covers (uri e) p -> method e <> m) /\ exists e, In e tab /\ covers (uri e) p
  | Missing (Some NOT_FOUND) => forall e, In e tab -> ~ covers (uri e) p
  | Missing _ => False
  end.
Proof.
  intros tab m u p Hne Ht. destruct (target_len u p Ht Hne) as (pp & q & Hu & Hq & Hs & Hl & Hlen & Hpp).
  assert (Hn : ~ In quest pp).
  { pose proof (span_fst_all (fun c => negb (beq c quest)) u) as A. rewrite Hs in A. cbn in A. rewrite forallb_forall in A.
    intros K. apply A in K. rewrite beq_refl in K. discriminate. }
  unfold find_endpoint. rewrite Hs. cbn [fst]. destruct (Nat.eqb_spec (length pp) 0) as [?|_]; [congruence|].
  rewrite Hlen. destruct (find_loop tab m u (length p) None false) as [r um] eqn:E.
  destruct (find_loop_spec m u (length p) (fun e => covers e p) (fun e => match_covers e u p pp q Hu Hq Hn Hpp) tab None false r um E ltac:(discriminate)) as [H1 H2].
  destruct r as [e|].
  - destruct H1 as ([A|A] & B & C & _ & D); [discriminate|]. auto.
  - destruct H1 as [_ H1]. destruct um.
    + split; [intros e He Hc Hm; apply (H1 e); auto|]. destruct (proj1 H2 eq_refl) as [?|(e & He & _ & Hc)]; [discriminate|eauto].
    + intros e He Hc. destruct (meth_eqb (method e) m) eqn:Em.
      * apply meth_eqb_eq in Em. apply (H1 e); auto.
      * enough (false = true) by discriminate. apply H2. right. exists e. repeat split; auto. intros K. apply meth_eqb_eq in K. congruence.
Qed.

Lemma target_total : forall u, exists p, target u p.
Proof.
  intros u. set (pp := fst (span (fun c => negb (beq c quest)) u)). set (q := snd (span (fun c => negb (beq c quest)) u)).
  assert (Hu : u = pp ++ q) by (symmetry; apply span_app).
  assert (Hn : ~ In quest pp).
  { pose proof (span_fst_all (fun c => negb (beq c quest)) u) as A. fold pp in A. rewrite forallb_forall in A.
    intros K. apply A in K. rewrite beq_refl in K. discriminate. }
  assert (Hq : query q).
  { destruct q as [|x t] eqn:E; [left; auto|]. right. exists t. f_equal.
    pose proof (span_snd_head (fun c => negb (beq c quest)) u x t E) as K. apply negb_false_iff in K. apply beq_eq in K. exact K. }
  destruct pp as [|x pp'] eqn:Ep.
  - exists [], q. split; auto. split; [auto|]. right. split; auto. intros [|? ?]; discriminate.
  - destruct (@exists_last _ (x :: pp')) as (p' & y & E'); [discriminate|]. rewrite E' in *. destruct (beq y slash) eqn:Ey.
    + apply beq_eq in Ey. subst y. exists p', q. split; auto. split; [intros K; apply Hn; apply in_or_app; auto|].
      left. rewrite Hu. rewrite <- app_assoc. reflexivity.
    + exists (p' ++ [y]), q. split; auto. split; [auto|]. right. split; auto. intros p'' K. apply app_inj_tail in K as [_ ->].
      rewrite beq_refl in Ey. discriminate.
Qed.

Lemma target_fun : forall u p p', ~ query u -> target u p -> target u p' -> p = p'.
Proof.
  intros u p p' Hne H H'. destruct (target_len u p H Hne) as (pp & q & Hu & _ & Hs & _ & Hl & Hpp).
  destruct (target_len u p' H' Hne) as (pp' & q' & Hu' & _ & Hs' & _ & Hl' & Hpp').
  rewrite Hs in Hs'. injection Hs' as -> ->. rewrite Hl in Hl'.
  assert (K : forall x, pp' = x \/ pp' = x ++ lit "/" -> x = firstn (length x) pp').
  { intros x [-> | ->]; [now rewrite firstn_all|]. rewrite firstn_app, firstn_all, Nat.sub_diag. cbn. now rewrite app_nil_r. }
  rewrite (K p Hpp), (K p' Hpp'), Hl'. reflexivity.
Qed.

(** ** The endpoint of a request *)

Lemma path_last : forall comps, Forall plain comps -> comps <> [] -> forall p', path comps <> p' ++ lit "/".
Proof.
  induction comps as [|a comps IH]; [congruence|]. intros Hp _ p' E. apply Forall_cons_iff in Hp as [Ha Hp]. destruct comps as [|b comps].
  - cbn in E. rewrite app_nil_r in E. destruct Ha as (Hne & Hs & _). destruct (@exists_last _ a Hne) as (a' & x & Ea). subst a.
    destruct p' as [|y p']; cbn in E; [injection E as E; destruct a'; discriminate|]. injection E as _ E. apply app_inj_tail in E as [_ E].
    apply Hs. apply in_or_app. right. left. exact E.
  - cbn [path] in E. destruct p' as [|y p'].
    + destruct a; discriminate.
    + injection E as <- E. destruct Ha as (Hne & _).
      (* compare the last characters *)
      assert (K : exists p'', path (b :: comps) = p'' ++ lit "/").
      { assert (Hl : path (b :: comps) <> []) by discriminate. destruct (@exists_last _ _ Hl) as (p'' & x & Ex). exists p''. rewrite Ex in *.
        change ("/"%char :: b ++ path comps) with (path (b :: comps)) in E. rewrite Ex in E. rewrite app_assoc in E. apply app_inj_tail in E as [_ ->]. reflexivity. }
      destruct K as [p'' K]. exact (IH Hp ltac:(discriminate) p'' K).
Qed.

Lemma request_target : forall pre comps q, Forall plain comps -> comps <> [] -> query q -> ~ In quest pre ->
  target (pre ++ path comps ++ q) (pre ++ path comps) /\ ~ query (pre ++ path comps ++ q).
Proof.
  intros pre comps q Hp Hn Hq Hpre. split.
  - exists q. split; auto. split; [rewrite in_app_iff; intros [K|K]; [auto|apply (path_quest comps Hp); auto]|].
    right. split; [now rewrite app_assoc|]. intros p' E. destruct (@exists_last _ (path comps)) as (pc & x & Ex); [destruct comps; [congruence|discriminate]|].
    rewrite Ex, app_assoc in E. apply app_inj_tail in E as [_ ->]. apply (path_last comps Hp Hn pc). exact Ex.
  - destruct comps as [|a comps]; [congruence|]. destruct pre as [|x pre].
    + intros [K|[t K]]; discriminate.
    + intros [K|[t K]]; [discriminate|]. injection K as -> _. apply Hpre. cbn; auto.
Qed.

Lemma covers_listed : forall e comps, comps <> [] -> covers e (e ++ path comps).
Proof. intros e [|a comps] H; [congruence|]. right. exists (a ++ path comps). reflexivity. Qed.

(** only the empty URI and the URI itself cover the path *)
Lemma covers_len : forall e e' t, covers e (e' ++ "/"%char :: t) -> (length e <= length e')%nat -> ~ In "/"%char (tl e') -> e = [] \/ e = e'.
Proof.
  intros e e' t Hc Hl Hs. destruct (Nat.eq_dec (length e) (length e')) as [E|E].
  - right. assert (K : exists r, e' ++ "/"%char :: t = e ++ r).
    { destruct Hc as [-> |[r ->]]; [exists []; now rewrite app_nil_r|eauto]. }
    destruct K as [r K]. revert E K. clear. revert e'. induction e as [|x e IH]; intros [|y e'] E K; cbn in *; try lia; auto.
    injection K as -> K. f_equal. apply (IH e'); [lia|auto].
  - destruct e as [|x e]; [auto|]. exfalso. destruct e' as [|y e']; [cbn in *; lia|]. cbn in Hs, Hl, E.
    destruct Hc as [K|[r K]]; cbn [app] in K.
    + assert (length (y :: e' ++ "/"%char :: t) = length (x :: e)) by (f_equal; exact K). cbn in H. rewrite app_length in H. cbn in H. lia.
    + injection K as _ K. assert (nth_error (e' ++ "/"%char :: t) (length e) = nth_error (e ++ lit "/" ++ r) (length e)) by (f_equal; exact K).
      rewrite nth_error_app1 in H by lia. rewrite nth_error_app2, Nat.sub_diag in H by lia. cbn in H. apply nth_error_In in H. auto.
Qed.

Lemma table_endpoint : forall e q m comps, In e control_endpoint -> method e = m -> uri e <> [] -> Forall plain comps -> comps <> [] -> query q ->
  (exists e', In e' control_endpoint /\ find_endpoint control_endpoint m (uri e ++ path comps ++ q) = Found e' /\ uri e' = uri e /\ method e' = m).
Proof.
  intros e q m comps He Hm Hu Hp Hn Hq.
  assert (Hpre : ~ In quest (uri e) /\ ~ In "/"%char (tl (uri e))).
  { cbn in He. repeat (destruct He as [<- |He]; [cbn in *; split; intuition discriminate|]). destruct He. }
  destruct (request_target (uri e) comps q Hp Hn Hq (proj1 Hpre)) as [Ht Hne].
  pose proof (route control_endpoint m _ _ Hne Ht) as R. destruct (find_endpoint control_endpoint m (uri e ++ path comps ++ q)) as [e'|[[]|]]; try tauto.
  - destruct R as (R1 & R2 & R3 & R4). exists e'. split; auto. split; auto. split; auto.
    specialize (R4 e He Hm (covers_listed _ _ Hn)).
    destruct comps as [|a comps]; [congruence|]. cbn [path] in R3.
    assert (Hl : (length (uri e') <= length (uri e))%nat \/ (length (uri e) < length (uri e'))%nat) by lia.
    destruct Hl as [Hl|Hl].
    + destruct (covers_len _ _ _ R3 Hl (proj2 Hpre)) as [K|K]; [|auto]. rewrite K in R4. cbn in R4. destruct (uri e); [congruence|cbn in R4; lia].
    + exfalso. destruct (covers_len (uri e) (uri e') [] ) as [K|K].
      * destruct R3 as [R3|[t R3]].
        -- right. rewrite <- R3. exists (a ++ path comps ++ "/"%char :: []). cbn. rewrite <- !app_assoc. cbn. rewrite <- app_assoc. reflexivity.
        -- right. assert (exists r, uri e' = uri e ++ r /\ r <> []) as (r & Er & Hr).
           { exists (skipn (length (uri e)) (uri e')). split.
             - rewrite <- (firstn_skipn (length (uri e)) (uri e')) at 1. f_equal.
               apply (f_equal (firstn (length (uri e)))) in R3. rewrite !firstn_app, firstn_all, Nat.sub_diag in R3. cbn in R3. rewrite app_nil_r in R3.
               rewrite R3 at 2. replace (length (uri e) - length (uri e'))%nat with 0%nat by lia. cbn. now rewrite app_nil_r.
             - intros K. apply (f_equal (@length _)) in K. rewrite skipn_length in K. cbn in K. lia. }
           rewrite Er in R3. rewrite <- app_assoc in R3. apply app_inv_head in R3. destruct r as [|x r]; [congruence|]. injection R3 as <- R3.
           exists (r ++ ["/"%char]). rewrite Er. cbn. now rewrite <- app_assoc.
      * lia.
      * assert (Hpre' : ~ In "/"%char (tl (uri e'))).
        { clear - R1. cbn in R1. repeat (destruct R1 as [<- |R1]; [cbn; intuition discriminate|]). destruct R1. }
        exact Hpre'.
      * auto.
      * rewrite K in Hl. lia.
  - destruct R as [R _]. exfalso. apply (R e He); auto. apply covers_listed; auto.
  - exfalso. apply (R e He). apply covers_listed; auto.
Qed.

Lemma table_unique : forall e e', In e control_endpoint -> In e' control_endpoint -> uri e' = uri e -> method e' = method e -> e' = e.
Proof.
  intros e e' H H' Hu Hm. cbn in H, H'.
  repeat (destruct H as [<- |H]; [repeat (destruct H' as [<- |H']; [try reflexivity; try discriminate|]); destruct H'|]). destruct H.
Qed.

Lemma response_known : forall c e q comps, In e control_endpoint -> uri e <> [] -> Forall plain comps -> comps <> [] -> query q ->
  control_response_basic c (method e) (uri e ++ path comps ++ q) = call c (endfn e) (path comps ++ q).
Proof.
  intros c e q comps He Hu Hp Hn Hq. destruct (table_endpoint e q (method e) comps He eq_refl Hu Hp Hn Hq) as (e' & H1 & H2 & H3 & H4).
  rewrite (table_unique e e' He H1 H3 H4) in H2. unfold control_response_basic. rewrite H2. rewrite skipn_exact. reflexivity.
Qed.

Lemma call_listener : forall c a comps q, comps <> [] ->
  call c a (path comps ++ q) =
  match a with
  | ListAll | ListCore => (NoEffect, send_json_reply (path comps ++ q))
  | ListListener => ctl_listener c list_handler (path comps ++ q)
  | DisableListener => ctl_listener c (disable_handler c true) (path comps ++ q)
  | EnableListener => ctl_listener c (disable_handler c false) (path comps ++ q)
  | ListService => ctl_service c list_handler (path comps ++ q) None
  | DisableService => ctl_service c (disable_handler c true) (path comps ++ q) None
  | EnableService => ctl_service c (disable_handler c false) (path comps ++ q) None
  | DeleteSession => ctl_listener c session_remove_handler (path comps ++ q)
  | AddSession => ctl_listener c session_add_handler (path comps ++ q)
  end.
Proof. intros c a [|b comps] q H; [congruence|]. destruct a; reflexivity. Qed.

(** ** Disabling *)

Section Disable.
  Variable c : config.
  Hypothesis Hfits : fits c.

  Lemma addressed_backend : forall comps l s b, addressed c comps (ObjBackend l s b) -> exists y, the_backend c l s b y /\ get_backend c l s b = Some y.
  Proof.
    intros comps l s b H. inversion H as [| |a0 b0 k l0 ss s0 x n Hns Hin Hpk Hnth Hpb]; subst. destruct Hpb as (_ & _ & Hb).
    destruct (nth_error (concat (balancers x)) b) as [y|] eqn:E; [|apply nth_error_None in E; lia].
    exists y. split; [exists x; split; [exists ss; auto|auto]|]. unfold get_backend, get_service. rewrite (in_scope_iff c l ss Hin), Hnth. exact E.
  Qed.
  Lemma addressed_service : forall comps l s, addressed c comps (ObjService l s) -> exists x, the_service c l s x /\ get_service c l s = Some x.
  Proof.
    intros comps l s H. inversion H as [|a0 b0 l0 ss s0 Hns Hin Hpk|]; subst. pose proof (picks_nth _ _ _ Hpk) as Hs. rewrite map_length in Hs.
    destruct (nth_error ss s) as [x|] eqn:E; [|apply nth_error_None in E; lia].
    exists x. split; [exists ss; auto|]. unfold get_service. rewrite (in_scope_iff c l ss Hin). exact E.
  Qed.
  Lemma addressed_listener : forall comps i, addressed c comps (ObjListener (Some i)) -> exists x, nth_error (listeners c) i = Some x.
  Proof.
    intros comps i H. inversion H as [a l Hs| |]; subst. destruct Hs as [_ Hs]. apply picks_nth in Hs. rewrite map_length in Hs.
    destruct (nth_error (listeners c) i) as [x|] eqn:E; [eauto|apply nth_error_None in E; lia].
  Qed.
  Lemma the_service_iff : forall l s x, the_service c l s x <-> get_service c l s = Some x.
  Proof.
    intros l s x. unfold the_service, get_service. split.
    - intros (ss & H & K). now rewrite (in_scope_iff c l ss H).
    - intros H. destruct l as [i|]; cbn in *; [|eauto]. destruct (nth_error (listeners c) i) as [y|] eqn:E; [eauto 6|].
      destruct s; discriminate.
  Qed.
  Lemma the_backend_iff : forall l s b y, the_backend c l s b y <-> get_backend c l s b = Some y.
  Proof.
    intros l s b y. unfold the_backend, get_backend. split.
    - intros (x & H & K). apply the_service_iff in H. now rewrite H.
    - intros H. destruct (get_service c l s) as [x|] eqn:E; [|discriminate]. exists x. split; auto. apply the_service_iff; auto.
  Qed.
  Lemma has_control_iff : forall x, has_control x <-> service_has_control x = true.
  Proof.
    intros x. unfold has_control, service_has_control. rewrite existsb_exists. split; intros (y & H & K); exists y; split; auto.
    - rewrite K. auto.
    - destruct (be_type y); congruence.
  Qed.

  Definition outcome (o : object) (q : bytes) (dis : bool) (r : effect * reply) : Prop :=
    (protected c o -> r = (NoEffect, Reply BAD_REQUEST)) /\
    (~ protected c o -> switchable c o -> r = (SetDisabled o dis, send_json_reply q)).

  Lemma disable_outcome : forall comps o q dis, addressed c comps o -> query q -> outcome o q dis (disable_handler c dis o q).
  Proof.
    intros comps o q dis Ha Hq. unfold disable_handler. rewrite no_more_query by auto. unfold outcome. destruct o as [[i|]|l s|l s b].
    - destruct (addressed_listener _ _ Ha) as [x Hx]. rewrite Hx. cbn [protected switchable].
      assert (K : (exists x0 s, nth_error (listeners c) i = Some x0 /\ In s (lstn_services x0) /\ has_control s) <-> listener_has_control x = true).
      { unfold listener_has_control. rewrite existsb_exists. split.
        - intros (x0 & s & E & H1 & H2). assert (x0 = x) as -> by congruence. exists s. split; auto. apply has_control_iff; auto.
        - intros (s & H1 & H2). exists x, s. repeat split; auto. apply has_control_iff; auto. }
      rewrite K. destruct (listener_has_control x); split; auto; try discriminate; try congruence.
    - cbn. tauto.
    - destruct (addressed_service _ _ _ Ha) as (x & Hx & Hg). rewrite Hg. cbn [protected switchable].
      assert (K : (exists x0, the_service c l s x0 /\ has_control x0) <-> service_has_control x = true).
      { rewrite <- has_control_iff. split; [|eauto]. intros (x0 & H1 & H2). apply the_service_iff in H1. congruence. }
      destruct (service_has_control x) eqn:E; split; try tauto. intros H. apply K in H. discriminate.
    - destruct (addressed_backend _ _ _ _ Ha) as (y & Hy & Hg). rewrite Hg. cbn [protected switchable].
      assert (U : forall y', the_backend c l s b y' -> y' = y) by (intros y' H; apply the_backend_iff in H; congruence).
      split.
      + intros (y' & H & K). apply U in H. subst y'. rewrite K. auto.
      + intros H (y' & H1 & H2). apply U in H1. subst y'. destruct H2 as [-> | ->]; auto.
  Qed.

  Lemma disable_target : forall comps q m dis, Forall plain comps -> comps <> [] -> query q ->
    (m = DELETE /\ dis = true \/ m = PUT /\ dis = false) ->
    let r := control_response_basic c m (lit "/listener" ++ path comps ++ q) in
    (forall o, addressed c comps o -> outcome o q dis r) /\
    ((forall o, ~ addressed c comps o) -> r = (NoEffect, Reply NOT_FOUND)).
  Proof.
    intros comps q m dis Hp Hn Hq Hm r.
    assert (Hr : r = ctl_listener c (disable_handler c dis) (path comps ++ q)).
    { unfold r. destruct Hm as [[-> ->]|[-> ->]].
      - change (control_response_basic c (method (mkEp (lit "/listener") DELETE DisableListener)) (uri (mkEp (lit "/listener") DELETE DisableListener) ++ path comps ++ q) = ctl_listener c (disable_handler c true) (path comps ++ q)).
        rewrite response_known by (auto; cbn; try tauto; discriminate). rewrite call_listener by auto. reflexivity.
      - change (control_response_basic c (method (mkEp (lit "/listener") PUT EnableListener)) (uri (mkEp (lit "/listener") PUT EnableListener) ++ path comps ++ q) = ctl_listener c (disable_handler c false) (path comps ++ q)).
        rewrite response_known by (auto; cbn; try tauto; discriminate). rewrite call_listener by auto. reflexivity. }
    clearbody r. subst r. split.
    - intros o Ho. pose proof (target_hit c Hfits q Hq (disable_handler c dis) comps o [] Hp (Forall_nil _) Ho (or_introl eq_refl)) as T.
      rewrite app_nil_r in T. cbn [path app] in T. rewrite T. apply (disable_outcome comps); auto.
    - intros Ho. destruct (target_miss c Hfits q Hq (disable_handler c dis) comps Hp Hn Ho) as [H|(c3 & rest & o & E & Hr & Ha & _ & H)]; auto.
      rewrite H. destruct rest as [|d rest]; [congruence|]. reflexivity.
  Qed.

  (** sessions *)
  Lemma get_param_key : forall k, ~ In amp k -> get_param (lit "?key=" ++ k) (lit "key") = Some (k, Some (length k)) /\
    get_param (lit "?key=" ++ k) (lit "indent") = None.
  Proof.
    intros k Hk. assert (Hf : forall w, (forall x, In x w -> x <> amp) -> span (fun c => negb (beq c amp)) (w ++ []) = (w, [])).
    { intros w Hw. apply span_unique; auto. apply forallb_forall. intros x Hx. apply negb_true_iff, beq_neq. auto. }
    assert (Hkk : span (fun c => negb (beq c amp)) k = (k, [])) by (rewrite <- (app_nil_r k) at 1; apply Hf; intros x Hx ->; auto).
    split.
    - unfold get_param. cbn. rewrite Hkk. reflexivity.
    - unfold get_param. cbn [lit list_ascii_of_string app span beq]. cbn [Ascii.eqb Bool.eqb negb quest snd].
      change (snd (span (fun c0 => negb (beq c0 quest)) ("?"%char :: "k"%char :: "e"%char :: "y"%char :: "="%char :: k))) with (lit "?key=" ++ k).
      cbn [lit list_ascii_of_string app length]. 
      assert (E : forall w, (forall x, In x w -> x <> amp) -> w <> [] -> forall fuel, firstn (length (lit "indent")) w <> lit "indent" ->
        get_param_from fuel w (lit "indent") = None).
      { intros w Hw Hne fuel Hd. specialize (Hf w Hw). rewrite app_nil_r in Hf. destruct fuel; cbn [get_param_from].
        - destruct w; [congruence|]. destruct (skipn _ _); auto.
          destruct (bytes_eqb _ _) eqn:Eb; [apply bytes_eqb_eq in Eb; congruence|]. reflexivity.
        - destruct w; [congruence|]. rewrite Hf. cbn [snd]. destruct (skipn _ _); auto.
          destruct (bytes_eqb _ _) eqn:Eb; [apply bytes_eqb_eq in Eb; congruence|]. reflexivity. }
      apply E; [|discriminate|discriminate].
      intros x [<- |[<- |[<- |[<- |Hx]]]]; try discriminate. intros ->. auto.
  Qed.

  Lemma session_key_ok : forall k o, ~ In amp k -> (length k <= 127)%nat ->
    session_add_handler o (lit "?key=" ++ k) = match o with ObjBackend l s b => (SessionAdd l s b k, Reply OK) | _ => (NoEffect, Reply BAD_REQUEST) end /\
    session_remove_handler o (lit "?key=" ++ k) = match o with ObjService l s => (SessionRemove l s k, Reply OK) | _ => (NoEffect, Reply BAD_REQUEST) end.
  Proof.
    intros k o Hk Hl. destruct (get_param_key k Hk) as [G1 G2]. unfold session_add_handler, session_remove_handler, send_json_reply.
    rewrite G1, G2. assert (E : Nat.ltb KEY_SIZE (length k) = false) by (apply Nat.ltb_ge; auto). rewrite E, firstn_all.
    destruct o; auto.
  Qed.

  Lemma session_target : forall comps k, Forall plain comps -> comps <> [] -> ~ In amp k -> (length k <= 127)%nat ->
    (forall o, addressed c comps o ->
       control_response_basic c PUT (lit "/session" ++ path comps ++ lit "?key=" ++ k) =
         match o with ObjBackend l s b => (SessionAdd l s b k, Reply OK) | _ => (NoEffect, Reply BAD_REQUEST) end /\
       control_response_basic c DELETE (lit "/session" ++ path comps ++ lit "?key=" ++ k) =
         match o with ObjService l s => (SessionRemove l s k, Reply OK) | _ => (NoEffect, Reply BAD_REQUEST) end) /\
    ((forall o, ~ addressed c comps o) -> (length comps <= 3)%nat ->
       control_response_basic c PUT (lit "/session" ++ path comps ++ lit "?key=" ++ k) = (NoEffect, Reply NOT_FOUND) /\
       control_response_basic c DELETE (lit "/session" ++ path comps ++ lit "?key=" ++ k) = (NoEffect, Reply NOT_FOUND)).
  Proof.
    intros comps k Hp Hn Hk Hl. assert (Hq : query (lit "?key=" ++ k)) by (right; exists (lit "key=" ++ k); reflexivity).
    assert (E1 : control_response_basic c PUT (lit "/session" ++ path comps ++ lit "?key=" ++ k) = ctl_listener c session_add_handler (path comps ++ lit "?key=" ++ k)).
    { change (control_response_basic c (method (mkEp (lit "/session") PUT AddSession)) (uri (mkEp (lit "/session") PUT AddSession) ++ path comps ++ lit "?key=" ++ k) = ctl_listener c session_add_handler (path comps ++ lit "?key=" ++ k)).
      rewrite response_known; auto; [|cbn; tauto|discriminate]. rewrite call_listener by auto. reflexivity. }
    assert (E2 : control_response_basic c DELETE (lit "/session" ++ path comps ++ lit "?key=" ++ k) = ctl_listener c session_remove_handler (path comps ++ lit "?key=" ++ k)).
    { change (control_response_basic c (method (mkEp (lit "/session") DELETE DeleteSession)) (uri (mkEp (lit "/session") DELETE DeleteSession) ++ path comps ++ lit "?key=" ++ k) = ctl_listener c session_remove_handler (path comps ++ lit "?key=" ++ k)).
      rewrite response_known; auto; [|cbn; tauto|discriminate]. rewrite call_listener by auto. reflexivity. }
    rewrite E1, E2. clear E1 E2. split.
    - intros o Ho. pose proof (target_hit c Hfits _ Hq session_add_handler comps o [] Hp (Forall_nil _) Ho (or_introl eq_refl)) as T1.
      pose proof (target_hit c Hfits _ Hq session_remove_handler comps o [] Hp (Forall_nil _) Ho (or_introl eq_refl)) as T2.
      rewrite app_nil_r in T1, T2. cbn [path] in T1, T2. change ([] ++ lit "?key=" ++ k) with (lit "?key=" ++ k) in *. rewrite T1, T2.
      apply session_key_ok; auto.
    - intros Ho Hc. assert (Hmiss : forall f, ctl_listener c f (path comps ++ lit "?key=" ++ k) = (NoEffect, Reply NOT_FOUND)).
      { intros f. destruct (target_miss c Hfits _ Hq f comps Hp Hn Ho) as [H|(c3 & rest & o & E & Hr & _ & H3 & _)]; auto.
        exfalso. rewrite E, app_length in Hc. destruct rest; [congruence|]. cbn in Hc. lia. }
      auto.
  Qed.
  (** The key ends where the next parameter begins. *)
  Lemma session_effect : forall comps k rest o, Forall plain comps -> comps <> [] -> ~ In amp k -> (length k <= 127)%nat -> addressed c comps o ->
    fst (control_response_basic c PUT (lit "/session" ++ path comps ++ lit "?key=" ++ k ++ amp :: rest)) = match o with ObjBackend l s b => SessionAdd l s b k | _ => NoEffect end /\
    fst (control_response_basic c DELETE (lit "/session" ++ path comps ++ lit "?key=" ++ k ++ amp :: rest)) = match o with ObjService l s => SessionRemove l s k | _ => NoEffect end.
  Proof.
    intros comps k rest o Hp Hn Hk Hl Ho. set (q := lit "?key=" ++ k ++ amp :: rest). assert (Hq : query q) by (right; exists (lit "key=" ++ k ++ amp :: rest); reflexivity).
    assert (G : get_param q (lit "key") = Some (k ++ amp :: rest, Some (length k))).
    { assert (Hs : span (fun c0 => negb (beq c0 amp)) (k ++ amp :: rest) = (k, amp :: rest)).
      { apply span_unique; [|reflexivity]. apply forallb_forall. intros x Hx. apply negb_true_iff, beq_neq. intros ->. auto. }
      unfold q, get_param. cbn. cbn in Hs. rewrite Hs. reflexivity. }
    assert (K : Nat.ltb KEY_SIZE (length k) = false) by (apply Nat.ltb_ge; auto).
    assert (F : firstn (length k) (k ++ amp :: rest) = k) by (rewrite firstn_app, firstn_all, Nat.sub_diag; apply app_nil_r).
    assert (E1 : control_response_basic c PUT (lit "/session" ++ path comps ++ q) = ctl_listener c session_add_handler (path comps ++ q)).
    { change (control_response_basic c (method (mkEp (lit "/session") PUT AddSession)) (uri (mkEp (lit "/session") PUT AddSession) ++ path comps ++ q) = ctl_listener c session_add_handler (path comps ++ q)).
      rewrite response_known; auto; [|cbn; tauto|discriminate]. rewrite call_listener by auto. reflexivity. }
    assert (E2 : control_response_basic c DELETE (lit "/session" ++ path comps ++ q) = ctl_listener c session_remove_handler (path comps ++ q)).
    { change (control_response_basic c (method (mkEp (lit "/session") DELETE DeleteSession)) (uri (mkEp (lit "/session") DELETE DeleteSession) ++ path comps ++ q) = ctl_listener c session_remove_handler (path comps ++ q)).
      rewrite response_known; auto; [|cbn; tauto|discriminate]. rewrite call_listener by auto. reflexivity. }
    rewrite E1, E2.
    pose proof (target_hit c Hfits _ Hq session_add_handler comps o [] Hp (Forall_nil _) Ho (or_introl eq_refl)) as T1.
    pose proof (target_hit c Hfits _ Hq session_remove_handler comps o [] Hp (Forall_nil _) Ho (or_introl eq_refl)) as T2.
    rewrite app_nil_r in T1, T2. cbn [path] in T1, T2. change ([] ++ q) with q in *. rewrite T1, T2. unfold session_add_handler, session_remove_handler. rewrite G, K, F. destruct o; auto.
  Qed.
End Disable.

(** ** Nothing changes *)

Lemma get_param_noq : forall url p, ~ In quest url -> get_param url p = None.
Proof.
  intros url p H. unfold get_param. assert (E : span (fun c => negb (beq c quest)) (url ++ []) = (url, [])) by (apply span_q; auto; left; auto).
  rewrite app_nil_r in E. rewrite E. reflexivity.
Qed.
Lemma reply_not_404 : forall url, send_json_reply url <> Reply NOT_FOUND.
Proof.
  intros url. unfold send_json_reply. destruct (get_param url _) as [[v [len|]]|]; try discriminate.
  destruct (strtol v 10) as [[errno n] e]. destruct (_ || _); discriminate.
Qed.
Lemma reply_no_query : forall url, ~ In quest url -> send_json_reply url = Reply OK.
Proof. intros url H. unfold send_json_reply. rewrite get_param_noq by auto. reflexivity. Qed.

(** an unchanged configuration *)
Definition calm (url : bytes) (r : effect * reply) : Prop :=
  (snd r = Reply NOT_FOUND -> fst r = NoEffect) /\ (~ In quest url -> snd r <> Reply OK -> fst r = NoEffect).
Definition calm_handler (f : handler) : Prop := forall o url, calm url (f o url).

Lemma calm_none : forall url r, calm url (NoEffect, r).
Proof. intros url r. split; auto. Qed.
Lemma calm_json : forall url e, calm url (e, send_json_reply url).
Proof.
  intros url e. split; cbn [fst snd].
  - intros H. destruct (reply_not_404 url H).
  - intros H K. rewrite reply_no_query in K; auto. congruence.
Qed.
Lemma list_calm : calm_handler list_handler.
Proof. intros o url. unfold list_handler. destruct (no_more url); apply calm_none. Qed.
Lemma disable_calm : forall c dis, calm_handler (disable_handler c dis).
Proof.
  intros c dis o url. unfold disable_handler. destruct (no_more url); [|apply calm_none]. destruct o as [[i|]|l s|l s b].
  - destruct (nth_error _ _); [destruct (listener_has_control _)|]; try apply calm_none. apply calm_json.
  - apply calm_none.
  - destruct (get_service _ _ _); [destruct (service_has_control _)|]; try apply calm_none. apply calm_json.
  - destruct (get_backend _ _ _ _) as [x|]; [destruct (be_type x)|]; try apply calm_none; apply calm_json.
Qed.
Lemma add_calm : calm_handler session_add_handler.
Proof.
  intros o url. unfold session_add_handler. destruct o; try apply calm_none. destruct (get_param _ _) as [[v [n|]]|]; try apply calm_none.
  destruct (Nat.ltb _ _); [apply calm_none|apply calm_json].
Qed.
Lemma remove_calm : calm_handler session_remove_handler.
Proof.
  intros o url. unfold session_remove_handler. destruct o; try apply calm_none. destruct (get_param _ _) as [[v [n|]]|]; try apply calm_none.
  destruct (Nat.ltb _ _); [apply calm_none|apply calm_json].
Qed.

Lemma calm_suffix : forall a b r, (In quest b -> In quest a) -> calm b r -> calm a r.
Proof. intros a b r H [K1 K2]. split; auto. Qed.
Lemma strtol_suffix : forall s b errno n e, strtol s b = (errno, n, e) -> forall x, In x e -> In x s.
Proof.
  intros s b errno n e H x Hx. unfold strtol, scan_number in H.
  pose proof (span_app is_space s) as A. set (sp := fst (span is_space s)) in *. set (s1 := snd (span is_space s)) in *. clearbody sp s1.
  assert (K : forall y, y = match s1 with [] => (false, s1) | c :: r => if beq c "-"%char then (true, r) else if beq c "+"%char then (false, r) else (false, s1) end -> In x (snd y) -> In x s).
  { intros y -> Hy. rewrite <- A. apply in_or_app. right. destruct s1 as [|c r]; [auto|].
    destruct (beq c "-"%char); [cbn in *; auto|]. destruct (beq c "+"%char); cbn in *; auto. }
  destruct (match s1 with [] => _ | _ => _ end) as [neg s2]. specialize (K _ eq_refl). cbn [snd] in K.
  pose proof (span_app (num_digit b) s2) as B. destruct (span (num_digit b) s2) as [ds r]. cbn [fst snd] in B.
  destruct ds as [|d ds].
  - injection H as <- <- <-. auto.
  - assert (e = r) as -> by (destruct (LONG_MAX <? _); [congruence|]; destruct (_ <? LONG_MIN); congruence).
    apply K. rewrite <- B. apply in_or_app. auto.
Qed.
Lemma getident_suffix : forall url id r, ctl_getident url = (id, r) -> forall x, In x r -> In x url.
Proof.
  intros url id r H x Hx. unfold ctl_getident in H. destruct url as [|c u]; [injection H as <- <-; auto|].
  destruct (beq c slash); [|injection H as <- <-; auto]. destruct (strtol u 10) as [[errno n] e] eqn:E.
  destruct (negb (at_stop e)).
  - pose proof (span_app (fun c => negb (stops c)) u) as A. destruct (span _ u) as [nm rest]. injection H as <- <-. cbn in A. right. rewrite <- A. apply in_or_app. auto.
  - destruct (negb errno && (n <=? INT_MAX)); injection H as <- <-; right; auto. eapply strtol_suffix; eauto.
Qed.
Lemma backend_calm : forall c f url l s, calm_handler f -> calm url (ctl_backend c f url l s).
Proof.
  intros c f url l s Hf. unfold ctl_backend. destruct (ctl_getident url) as [id r] eqn:E. pose proof (getident_suffix _ _ _ E quest) as Hs.
  destruct (get_service c l s); [|apply calm_none]. destruct (locate_backend _ _); [|apply calm_none]. eapply calm_suffix; [exact Hs|]. apply Hf.
Qed.
Lemma service_calm : forall c f url l, calm_handler f -> calm url (ctl_service c f url l).
Proof.
  intros c f url l Hf. unfold ctl_service. destruct (ctl_getident url) as [id r] eqn:E. pose proof (getident_suffix _ _ _ E quest) as Hs.
  destruct (locate_service _ _ _); [|apply calm_none]. eapply calm_suffix; [exact Hs|]. destruct (no_more r); [apply Hf|apply backend_calm; auto].
Qed.
Lemma listener_calm : forall c f url, calm_handler f -> calm url (ctl_listener c f url).
Proof.
  intros c f url Hf. unfold ctl_listener. cbv zeta.
  assert (G : forall l u, (In quest u -> In quest url) -> calm url (if no_more u then f (ObjListener l) u else ctl_service c f u l)).
  { intros l u Hu. eapply calm_suffix; [exact Hu|]. destruct (no_more u); [apply Hf|apply service_calm; auto]. }
  assert (O : calm url (let (id, url0) := ctl_getident url in match locate_listener c id with Some l => (if no_more url0 then f (ObjListener (Some l)) url0 else ctl_service c f url0 (Some l)) | None => (NoEffect, Reply NOT_FOUND) end)).
  { destruct (ctl_getident url) as [id r] eqn:E. pose proof (getident_suffix _ _ _ E quest) as Hs. destruct (locate_listener c id); [apply G; auto|apply calm_none]. }
  destruct url as [|a url1]; [exact O|]. destruct (beq a slash && _); [apply G; cbn; auto|]. destruct url1 as [|b url2]; [exact O|].
  destruct (beq a slash && beq b dash && _); [apply G; cbn; auto|exact O].
Qed.

Lemma response_calm : forall c m url, calm url (control_response_basic c m url).
Proof.
  intros c m url. unfold control_response_basic. destruct (find_endpoint control_endpoint m url) as [e|[code|]]; [|apply calm_none|apply calm_none].
  apply (calm_suffix url (skipn (length (uri e)) url)).
  { intros H. rewrite <- (firstn_skipn (length (uri e)) url). apply in_or_app. auto. }
  set (u := skipn _ _). clearbody u. unfold call.
  assert (H : forall r, calm u r -> calm u (match u with x :: _ => if beq x slash then r else (NoEffect, Reply NOT_FOUND) | [] => (NoEffect, Reply NOT_FOUND) end)).
  { intros r Hr. destruct u as [|x u']; [apply calm_none|]. destruct (beq x slash); [auto|apply calm_none]. }
  destruct (endfn e); try apply calm_json; apply H.
  all: try apply listener_calm; try apply service_calm; auto using list_calm, disable_calm, add_calm, remove_calm.
Qed.

(** Listing changes nothing *)
Lemma get_quiet : forall c url, fst (control_response_basic c GET url) = NoEffect.
Proof.
  intros c url. unfold control_response_basic.
  assert (H : match find_endpoint control_endpoint GET url with Found e => method e = GET /\ In e control_endpoint | _ => True end).
  { unfold find_endpoint. destruct (Nat.eqb _ 0); [auto|]. match goal with |- context [find_loop ?t ?m ?u ?l None false] => destruct (find_loop t m u l None false) as [r um] eqn:E end.
    match type of E with find_loop _ _ ?u ?l _ _ = _ => pose proof (find_loop_spec GET u l (fun e => Nat.leb (length e) l && bytes_eqb e (firstn (length e) u) && at_stop (skipn (length e) u) = true) (fun e => iff_refl _) _ _ _ _ _ E ltac:(discriminate)) as [K _] end.
    destruct r as [e|]; [|auto]. destruct K as ([K|K] & M & _); [discriminate|auto]. }
  destruct (find_endpoint control_endpoint GET url) as [e|[?|]]; auto. destruct H as [H1 H2].
  assert (L : forall o u, fst (list_handler o u) = NoEffect) by (intros o u; unfold list_handler; destruct (no_more u); auto).
  assert (Q : forall A (x : option A) (g : A -> effect * reply) r, (forall a, fst (g a) = NoEffect) -> fst (match x with Some a => g a | None => (NoEffect, r) end) = NoEffect) by (intros A [a|] g r Hg; auto).
  assert (B : forall u l s, fst (ctl_backend c list_handler u l s) = NoEffect).
  { intros u l s. unfold ctl_backend. destruct (ctl_getident u). apply Q. intros a. apply Q. auto. }
  assert (S : forall u l, fst (ctl_service c list_handler u l) = NoEffect).
  { intros u l. unfold ctl_service. destruct (ctl_getident u) as [id r]. apply Q. intros a. destruct (no_more r); auto. }
  assert (G : forall l u, fst (if no_more u then list_handler (ObjListener l) u else ctl_service c list_handler u l) = NoEffect) by (intros l u; destruct (no_more u); auto).
  assert (LL : forall u, fst (ctl_listener c list_handler u) = NoEffect).
  { intros u. unfold ctl_listener. cbv zeta.
    assert (O : fst (let (id, url0) := ctl_getident u in match locate_listener c id with Some l => (if no_more url0 then list_handler (ObjListener (Some l)) url0 else ctl_service c list_handler url0 (Some l)) | None => (NoEffect, Reply NOT_FOUND) end) = NoEffect).
    { destruct (ctl_getident u) as [id r]. apply Q. intros; apply G. }
    destruct u as [|a u1]; [exact O|]. destruct (beq a slash && _); [apply G|]. destruct u1 as [|b u2]; [exact O|].
    destruct (beq a slash && beq b dash && _); [apply G|exact O]. }
  set (u := skipn _ _). clearbody u. cbn in H2.
  repeat (destruct H2 as [<- |H2]; [try discriminate H1; unfold call; cbn [endfn]; try reflexivity; destruct u as [|x u']; try reflexivity; destruct (beq x slash); auto|]).
  destruct H2.
Qed.

Lemma unknown_uri : forall c m t p, ~ In "?"%char t -> target (lit "/" ++ t) p ->
  (forall e, In e [lit "/core"; lit "/listener"; lit "/service"; lit "/session"] -> ~ covers e p) ->
  control_response_basic c m (lit "/" ++ t) = (NoEffect, Reply (match m with GET => OK | _ => BAD_REQUEST end)).
Proof.
  intros c m t p Ht Hp Hu.
  assert (Hne : ~ query (lit "/" ++ t)) by (intros [H|[r H]]; discriminate).
  assert (Hnq : ~ In quest (lit "/" ++ t)) by (intros [H|H]; [discriminate|auto]).
  assert (He : covers [] p).
  { destruct Hp as (q & _ & _ & [H|[H _]]).
    - destruct p as [|x p]; [left; auto|]. injection H as <- _. right. exists p. reflexivity.
    - destruct p as [|x p]; [left; auto|]. injection H as <- _. right. exists p. reflexivity. }
  pose proof (route control_endpoint m _ _ Hne Hp) as R. unfold control_response_basic.
  destruct (find_endpoint control_endpoint m (lit "/" ++ t)) as [e|[[]|]]; try tauto.
  - destruct R as (R1 & R2 & R3 & _).
    assert (K : e = mkEp [] GET ListAll).
    { cbn in R1. destruct R1 as [<- |R1]; [reflexivity|]. exfalso. apply (Hu (uri e)); [|exact R3].
      repeat (destruct R1 as [<- |R1]; [cbn; auto 6|]). destruct R1. }
    subst e m. cbn [method uri endfn length skipn call]. f_equal. apply reply_no_query. exact Hnq.
  - destruct R as [R _]. destruct m; auto. exfalso. apply (R (mkEp [] GET ListAll)); cbn; auto.
  - exfalso. apply (R (mkEp [] GET ListAll)); cbn; auto.
Qed.
