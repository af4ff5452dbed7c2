(** Proofs about JSON objects and texts. *)
From Coq Require Import Ascii String List ZArith Bool Lia ZifyBool ZifyNat Arith Sorted.
From Verif Require Import Bytes JsonModel JsonSpec.
Import ListNotations.
Local Open Scope nat_scope.
Local Open Scope string_scope.
Local Open Scope list_scope.

(** ** The order of keys *)

Lemma strcmp_eq : forall a b, strcmp a b = Eq <-> a = b.
Proof.
  induction a as [|x a IH]; destruct b as [|y b]; cbn [strcmp]; try (split; congruence).
  destruct (code x ?= code y)%Z eqn:E.
  - apply Z.compare_eq in E. apply code_inj in E. subst y. rewrite IH. split; congruence.
  - split; [discriminate|]. intros X. injection X as -> _. rewrite Z.compare_refl in E. discriminate.
  - split; [discriminate|]. intros X. injection X as -> _. rewrite Z.compare_refl in E. discriminate.
Qed.
Lemma strcmp_refl : forall a, strcmp a a = Eq.
Proof. intros a. apply strcmp_eq. auto. Qed.
Lemma strcmp_opp : forall a b, strcmp b a = CompOpp (strcmp a b).
Proof.
  induction a as [|x a IH]; destruct b as [|y b]; cbn [strcmp]; auto.
  rewrite (Z.compare_antisym (code x) (code y)). destruct (code x ?= code y)%Z; cbn; auto.
Qed.
Definition lt (a b : bytes) : Prop := strcmp a b = Lt.
Lemma strcmp_gt : forall a b, strcmp a b = Gt <-> lt b a.
Proof. intros a b. unfold lt. rewrite (strcmp_opp a b). destruct (strcmp a b); cbn; split; congruence. Qed.
Lemma lt_trans : forall a b c, lt a b -> lt b c -> lt a c.
Proof.
  unfold lt. induction a as [|x a IH]; destruct b as [|y b]; destruct c as [|z c]; cbn [strcmp]; try congruence.
  destruct (code x ?= code y)%Z eqn:E1; destruct (code y ?= code z)%Z eqn:E2; try discriminate; intros H1 H2.
  - apply Z.compare_eq in E1. rewrite E1, E2. eauto.
  - apply Z.compare_eq in E1. rewrite E1, E2. auto.
  - apply Z.compare_eq in E2. rewrite <- E2, E1. auto.
  - rewrite Z.compare_lt_iff in E1, E2. assert (E : (code x ?= code z)%Z = Lt) by (apply Z.compare_lt_iff; lia). rewrite E. auto.
Qed.
Lemma lt_irrefl : forall a, ~ lt a a.
Proof. intros a H. unfold lt in H. rewrite strcmp_refl in H. discriminate. Qed.

Lemma lt_precedes : forall a b, lt a b <-> precedes a b.
Proof.
  unfold lt, precedes. induction a as [|x a IH]; intros b.
  - destruct b as [|y b]; cbn [strcmp].
    + split; [discriminate|]. intros [(c & r & E)|(p & x & y & a' & b' & E & _)]; [discriminate|destruct p; discriminate].
    + split; [|auto]. intros _. left. exists y, b. auto.
  - destruct b as [|y b]; cbn [strcmp].
    + split; [discriminate|]. intros [(c & r & E)|(p & x' & y & a' & b' & _ & E & _)]; [discriminate|destruct p; discriminate].
    + destruct (code x ?= code y)%Z eqn:E.
      * apply Z.compare_eq in E. apply code_inj in E. subst y. rewrite IH. split.
        -- intros [(c & r & ->)|(p & u & v & a' & b' & -> & -> & L)]; [left; exists c, r; auto|].
           right. exists (x :: p), u, v, a', b'. auto.
        -- intros [(c & r & H)|(p & u & v & a' & b' & H1 & H2 & L)].
           ++ injection H as ->. left. exists c, r. auto.
           ++ destruct p as [|z p]; cbn [app] in *.
              ** injection H1 as <- <-. injection H2 as <- <-. lia.
              ** injection H1 as <- ->. injection H2 as ->. right. exists p, u, v, a', b'. auto.
      * rewrite Z.compare_lt_iff in E. split; auto. intros _. right. exists [], x, y, a, b. auto.
      * rewrite Z.compare_gt_iff in E. split; [discriminate|].
        intros [(c & r & H)|(p & u & v & a' & b' & H1 & H2 & L)].
        -- injection H as -> _. lia.
        -- destruct p as [|z p]; cbn [app] in *; injection H1 as <- _; injection H2 as -> _; lia.
Qed.

(** ** Objects *)

Section Maps.
  Context {V : Type}.
  Implicit Types (o : object V) (ps : list (bytes * V)).

  Definition keys ps : list bytes := map fst ps.
  Definition inv o : Prop := pair_count o = length (pairs o) /\ StronglySorted lt (keys (pairs o)).

  Lemma key_at_keys : forall ps i, key_at ps i = nth_error (keys ps) i.
  Proof. intros ps i. unfold key_at, keys. rewrite nth_error_map. auto. Qed.

  Lemma sorted_nth : forall ks : list bytes, StronglySorted lt ks -> forall i j a b, i < j ->
    nth_error ks i = Some a -> nth_error ks j = Some b -> lt a b.
  Proof.
    intros ks S. induction S as [|k ks S IH F]; intros i j a b L A B; [destruct i; discriminate|].
    destruct i as [|i], j as [|j]; cbn [nth_error] in *; try lia.
    - injection A as <-. apply nth_error_In in B. rewrite Forall_forall in F. auto.
    - apply (IH i j); auto. lia.
  Qed.

  Lemma search_spec : forall name ps fuel l count, StronglySorted lt (keys ps) ->
    count <= fuel -> 1 <= count -> l + count <= length ps ->
    (exists a, key_at ps l = Some a /\ strcmp a name <> Gt) ->
    (forall j b, l + count <= j -> key_at ps j = Some b -> lt name b) ->
    match search fuel ps name l count with
    | Found i => key_at ps i = Some name
    | After (Some i) => (exists a, key_at ps i = Some a /\ lt a name) /\ (forall j b, i < j -> key_at ps j = Some b -> lt name b)
    | _ => False
    end.
  Proof.
    intros name ps fuel. induction fuel as [|fuel IH]; intros l count S F C L (a & A & NA) U; [lia|].
    cbn [search]. destruct count as [|count']; [lia|]. set (count := Datatypes.S count') in *.
    pose proof (Nat.div2_odd count) as D. set (n := Nat.div2 count) in *.
    assert (Dn : n < count) by (unfold n; apply Nat.lt_div2; unfold count; lia).
    destruct (key_at ps (l + n)) as [k|] eqn:K.
    2:{ rewrite key_at_keys in K. apply nth_error_None in K. unfold keys in K. rewrite map_length in K. lia. }
    destruct (strcmp k name) eqn:E.
    - apply strcmp_eq in E. congruence.
    - destruct n as [|n'] eqn:Nn.
      + replace (l + 0) with l in * by lia. split; [exists k; auto|]. intros j b Hj B.
        apply (U j b); auto. destruct (Nat.odd count); cbn [Nat.b2n] in D; lia.
      + rewrite <- Nn in *. apply IH; auto; try lia.
        * exists k. split; [auto|]. congruence.
        * intros j b Hj B. apply (U j b); auto. lia.
    - destruct n as [|n'] eqn:Nn.
      + replace (l + 0) with l in * by lia. congruence.
      + rewrite <- Nn in *. apply IH; auto; try lia.
        * exists a. auto.
        * intros j b Hj B. apply strcmp_gt in E. destruct (Nat.eq_dec j (l + n)) as [->|Ne]; [congruence|].
          apply lt_trans with k; auto. rewrite key_at_keys in *. eapply (sorted_nth _ S (l + n) j); eauto. lia.
  Qed.

  Lemma lookup_spec : forall o name, inv o ->
    match lookup o name with
    | Found i => key_at (pairs o) i = Some name
    | After None => Forall (lt name) (keys (pairs o))
    | After (Some i) => i < length (pairs o) /\ Forall (fun k => lt k name) (firstn (S i) (keys (pairs o))) /\
        Forall (lt name) (skipn (S i) (keys (pairs o)))
    | Null => False
    end.
  Proof.
    intros [ps n] name [C S]. cbn [pair_count pairs] in *. subst n. unfold lookup. cbn [pair_count pairs].
    destruct ps as [|p ps'] eqn:Ep; [constructor|]. rewrite <- Ep in *. assert (Lp : 0 < length ps) by (rewrite Ep; cbn; lia).
    destruct (Nat.eqb (length ps) 0) eqn:E0; [apply Nat.eqb_eq in E0; lia|]. clear E0.
    destruct (key_at ps 0) as [first|] eqn:K0.
    2:{ rewrite Ep in K0. discriminate. }
    assert (Hs : forall i, key_at ps i <> None <-> i < length ps).
    { intros i. rewrite key_at_keys, nth_error_Some. unfold keys. rewrite map_length. tauto. }
    destruct (key_at ps (length ps - 1)) as [last|] eqn:K1.
    2:{ apply (Hs (length ps - 1)) in K1; [destruct K1|lia]. }
    assert (SPLIT : forall i, i < length ps -> (exists a, key_at ps i = Some a /\ lt a name) ->
      (forall j b, i < j -> key_at ps j = Some b -> lt name b) ->
      i < length ps /\ Forall (fun k => lt k name) (firstn (Datatypes.S i) (keys ps)) /\ Forall (lt name) (skipn (Datatypes.S i) (keys ps))).
    { intros i Hi (a & A & La) U. split; [auto|]. split; apply Forall_forall; intros k Hk; apply In_nth_error in Hk as [j Hj].
      - assert (j < Datatypes.S i).
        { assert (H : nth_error (firstn (Datatypes.S i) (keys ps)) j <> None) by congruence. apply nth_error_Some in H.
          rewrite firstn_length in H. lia. }
        assert (Hj' : nth_error (keys ps) j = Some k).
        { rewrite <- (firstn_skipn (Datatypes.S i) (keys ps)). rewrite nth_error_app1; auto.
          apply nth_error_Some. congruence. }
        destruct (Nat.eq_dec j i) as [->|Ne]; [rewrite key_at_keys in A; congruence|].
        apply lt_trans with a; auto. rewrite key_at_keys in A. apply (sorted_nth _ S j i); auto. lia.
      - apply (U (Datatypes.S i + j)); [lia|]. rewrite key_at_keys. rewrite <- Hj. symmetry.
        rewrite <- (firstn_skipn (Datatypes.S i) (keys ps)) at 2. assert (Lk : length (firstn (Datatypes.S i) (keys ps)) = Datatypes.S i)
          by (rewrite firstn_length; unfold keys; rewrite map_length; lia).
        rewrite nth_error_app2; rewrite Lk; [f_equal; lia|lia]. }
    assert (SR : strcmp first name <> Gt -> match search (length ps) ps name 0 (length ps) with
      | Found i => key_at ps i = Some name
      | After None => Forall (lt name) (keys ps)
      | After (Some i) => i < length ps /\ Forall (fun k => lt k name) (firstn (Datatypes.S i) (keys ps)) /\
          Forall (lt name) (skipn (Datatypes.S i) (keys ps))
      | Null => False
      end).
    { intros Hf. assert (X : match search (length ps) ps name 0 (length ps) with
        | Found i => key_at ps i = Some name
        | After (Some i) => (exists a, key_at ps i = Some a /\ lt a name) /\ (forall j b, i < j -> key_at ps j = Some b -> lt name b)
        | _ => False
        end).
      { apply search_spec; auto; try lia; [exists first; auto|].
        intros j b Hj B. exfalso. assert (Y : key_at ps j <> None) by congruence. apply Hs in Y. lia. }
      destruct (search _ _ _ _ _) as [i|[i|]|]; auto; [|destruct X]. destruct X as [X1 X2]. apply SPLIT; auto.
      apply Hs. destruct X1 as (a & X1 & _). congruence. }
    assert (LAST : lt last name -> length ps - 1 < length ps /\ Forall (fun k => lt k name) (firstn (Datatypes.S (length ps - 1)) (keys ps)) /\
          Forall (lt name) (skipn (Datatypes.S (length ps - 1)) (keys ps))).
    { intros Hl. apply SPLIT; [lia|exists last; auto|]. intros j b Hj B. exfalso.
      assert (Y : key_at ps j <> None) by congruence. apply Hs in Y. lia. }
    destruct (strcmp first name) eqn:E1.
    - destruct (strcmp last name) eqn:E2; [apply SR; discriminate|apply LAST; auto|apply SR; discriminate].
    - destruct (strcmp last name) eqn:E2; [apply SR; discriminate|apply LAST; auto|apply SR; discriminate].
    - apply strcmp_gt in E1. apply Forall_forall. intros k Hk. apply In_nth_error in Hk as [j Hj].
      rewrite key_at_keys in K0. destruct j as [|j]; [congruence|].
      apply lt_trans with first; auto. apply (sorted_nth _ S 0 (Datatypes.S j)); auto. lia.
  Qed.

  Lemma smaller_none : forall name ps, Forall (lt name) (keys ps) -> smaller name ps = ([], ps).
  Proof.
    intros name [|p ps] F; auto. inversion F as [|? ? H _]; subst. cbn [smaller].
    unfold lt in H. rewrite strcmp_opp in H. destruct (strcmp (fst p) name); try discriminate. auto.
  Qed.

  Lemma sorted_app : forall (R : bytes -> bytes -> Prop) a b, StronglySorted R (a ++ b) <->
    StronglySorted R a /\ StronglySorted R b /\ (forall x y, In x a -> In y b -> R x y).
  Proof.
    intros R a b. induction a as [|x a IH]; cbn [app].
    - split; [intros H; split; [constructor|split; [auto|intros x y []]]|tauto].
    - split.
      + intros H. inversion H as [|? ? S F]; subst. apply IH in S as (S1 & S2 & S3). rewrite Forall_app in F. destruct F as [F1 F2].
        split; [constructor; auto|]. split; [auto|]. intros u v [<-|Hu] Hv; auto. rewrite Forall_forall in F2. auto.
      + intros (S1 & S2 & S3). inversion S1 as [|? ? S F]; subst. constructor.
        * apply IH. split; [auto|]. split; [auto|]. intros u v Hu Hv. apply S3; auto. right. auto.
        * apply Forall_app. split; auto. apply Forall_forall. intros y Hy. apply S3; auto. left. auto.
  Qed.

  Lemma keys_replace : forall ps i v, keys (replace ps i v) = keys ps.
  Proof. induction ps as [|p ps IH]; intros [|i] v; cbn; auto. f_equal. apply IH. Qed.
  Lemma length_replace : forall ps i v, length (replace ps i v) = length ps.
  Proof. intros ps i v. rewrite <- (map_length fst (replace ps i v)). change (map fst (replace ps i v)) with (keys (replace ps i v)). rewrite keys_replace. apply map_length. Qed.

  Lemma sorted_fresh : forall name ps, Forall (lt name) (keys ps) -> ~ In name (keys ps).
  Proof. intros name ps F H. rewrite Forall_forall in F. apply F in H. apply lt_irrefl in H. auto. Qed.

  Lemma in_replace : forall ps i name v, StronglySorted lt (keys ps) -> key_at ps i = Some name -> forall k w,
    In (k, w) (replace ps i v) <-> (k = name /\ w = v) \/ (k <> name /\ In (k, w) ps).
  Proof.
    induction ps as [|[k0 w0] ps IH]; intros i name v S K k w; [destruct i; discriminate|].
    cbn [keys map fst] in S. inversion S as [|? ? S' F]; subst. destruct i as [|i]; cbn [replace fst].
    - injection K as ->. assert (N : ~ In name (keys ps)) by (apply sorted_fresh; auto). split.
      + intros [X|X]; [injection X as <- <-; auto|]. right. split; [|right; auto]. intros ->. apply N. apply (in_map fst) in X. auto.
      + intros [[-> ->]|[Hne [X|X]]]; [left; auto|injection X as <- <-; congruence|right; auto].
    - change (key_at ps i = Some name) in K. assert (NE : k0 <> name).
      { intros ->. rewrite key_at_keys in K. apply nth_error_In in K. rewrite Forall_forall in F. apply F in K. apply lt_irrefl in K. auto. }
      split.
      + intros [X|X]; [injection X as <- <-; right; split; [auto|left; auto]|]. apply (IH i name v S' K) in X. destruct X as [X|[X1 X2]]; auto. right. split; auto. right. auto.
      + intros [X|[X1 [X2|X2]]]; [right; apply (IH i name v S' K); auto|left; auto|right; apply (IH i name v S' K); auto].
  Qed.

  Lemma set_spec : forall o name v, inv o -> exists o', json_object_set o name v = Some o' /\ inv o' /\
    forall k w, In (k, w) (pairs o') <-> (k = name /\ w = v) \/ (k <> name /\ In (k, w) (pairs o)).
  Proof.
    intros o name v I. pose proof (lookup_spec o name I) as L. destruct I as [C S]. unfold json_object_set.
    destruct (lookup o name) as [i|[i|]|]; [| | |destruct L].
    - eexists. split; [reflexivity|]. split.
      + split; cbn [pairs pair_count]; [rewrite length_replace; auto|rewrite keys_replace; auto].
      + cbn [pairs]. apply in_replace; auto.
    - destruct L as (Li & F1 & F2). eexists. split; [reflexivity|]. unfold install, inv. cbn [pairs pair_count].
      rewrite smaller_none by (unfold keys in *; rewrite <- skipn_map; auto). cbn [app]. set (a := firstn (Datatypes.S i) (pairs o)) in *.
      set (b := skipn (Datatypes.S i) (pairs o)) in *.
      assert (E : pairs o = a ++ b) by (symmetry; apply firstn_skipn).
      assert (Ka : keys a = firstn (Datatypes.S i) (keys (pairs o))) by (unfold a, keys; symmetry; apply firstn_map).
      assert (Kb : keys b = skipn (Datatypes.S i) (keys (pairs o))) by (unfold b, keys; symmetry; apply skipn_map).
      rewrite <- Ka in F1. rewrite <- Kb in F2.
      split; [split|].
      + rewrite C, E, !app_length. cbn [length]. lia.
      + unfold keys in *. rewrite map_app. cbn [map fst]. rewrite E, map_app in S. apply sorted_app in S as (S1 & S2 & S3).
        apply sorted_app. split; [auto|]. split; [constructor; auto|]. intros x y Hx [<-|Hy]; [rewrite Forall_forall in F1; auto|auto].
      + intros k w. rewrite E, !in_app_iff. cbn [In].
        assert (N : ~ In name (keys a) /\ ~ In name (keys b)).
        { split; [|apply sorted_fresh; auto]. intros X. rewrite Forall_forall in F1. apply F1 in X. apply lt_irrefl in X. auto. }
        destruct N as [Na Nb].
        assert (Ia : In (k, w) a -> k <> name) by (intros X ->; apply (in_map fst) in X; auto).
        assert (Ib : In (k, w) b -> k <> name) by (intros X ->; apply (in_map fst) in X; auto).
        split.
        * intros [X|[X|X]]; [right; auto|injection X as <- <-; auto|right; auto].
        * intros [[-> ->]|[X [Y|Y]]]; auto.
    - eexists. split; [reflexivity|]. unfold install, inv. cbn [pairs pair_count]. split; [split|].
      + cbn [length]. lia.
      + cbn [keys map fst]. constructor; auto.
      + intros k w. cbn [In]. pose proof (sorted_fresh _ _ L) as N.
        assert (Ia : In (k, w) (pairs o) -> k <> name) by (intros X ->; apply (in_map fst) in X; auto).
        split; [intros [X|X]; [injection X as <- <-; auto|auto]|intros [[-> ->]|[X Y]]; auto].
  Qed.

  Lemma nodup_in : forall ps k v w, StronglySorted lt (keys ps) -> In (k, v) ps -> In (k, w) ps -> v = w.
  Proof.
    induction ps as [|[k0 v0] ps IH]; intros k v w S H1 H2; [destruct H1|]. cbn [keys map fst] in S. inversion S as [|? ? S' F]; subst.
    pose proof (sorted_fresh _ _ F) as N.
    destruct H1 as [H1|H1], H2 as [H2|H2]; try congruence.
    - injection H1 as -> ->. apply (in_map fst) in H2. tauto.
    - injection H2 as -> ->. apply (in_map fst) in H1. tauto.
    - eauto.
  Qed.

  Lemma get_spec : forall o name, inv o -> exists r, json_object_get o name = Some r /\ (forall v, r = Some v <-> In (name, v) (pairs o)).
  Proof.
    intros o name I. pose proof (lookup_spec o name I) as L. destruct I as [C S]. unfold json_object_get.
    destruct (lookup o name) as [i|[i|]|]; [| | |destruct L].
    - eexists. split; [reflexivity|]. intros v. unfold key_at in L. destruct (nth_error (pairs o) i) as [[k w]|] eqn:E; [|discriminate].
      injection L as ->. cbn. apply nth_error_In in E. split; [congruence|]. intros X. f_equal. eapply nodup_in; eauto.
    - exists None. split; auto. intros v. split; [discriminate|]. intros X. exfalso. apply (in_map fst) in X. cbn [fst] in X.
      destruct L as (_ & F1 & F2). change (map fst (pairs o)) with (keys (pairs o)) in X. rewrite <- (firstn_skipn (Datatypes.S i) (keys (pairs o))) in X. apply in_app_iff in X as [X|X].
      + rewrite Forall_forall in F1. apply F1 in X. apply lt_irrefl in X. auto.
      + rewrite Forall_forall in F2. apply F2 in X. apply lt_irrefl in X. auto.
    - exists None. split; auto. intros v. split; [discriminate|]. intros X. exfalso. apply (in_map fst) in X. apply sorted_fresh in L. auto.
  Qed.

  Lemma inv_new : inv json_new_object.
  Proof. split; [auto|constructor]. Qed.

  Lemma set_all_spec : forall ops, exists o, set_all ops = Some o /\ inv o /\ forall k v, In (k, v) (pairs o) <-> last_set ops k v.
  Proof.
    induction ops as [|[k0 v0] ops (o & E & I & H)] using rev_ind.
    - exists json_new_object. split; [reflexivity|]. split; [apply inv_new|]. intros k v. split; [intros []|].
      intros (pre & post & X & _). destruct pre; discriminate.
    - unfold set_all in *. rewrite fold_left_app, E. cbn [fold_left fst snd]. destruct (set_spec o k0 v0 I) as (o' & E' & I' & H').
      exists o'. split; [auto|]. split; [auto|]. intros k v. rewrite H'. split.
      + intros [[-> ->]|[Ne X]].
        * exists ops, []. auto.
        * apply H in X as (pre & post & -> & N). exists pre, (post ++ [(k0, v0)]). split; [rewrite <- app_assoc; auto|].
          rewrite map_app, in_app_iff. intros [Y|[Y|[]]]; auto.
      + intros (pre & post & X & N). destruct post as [|q post] using rev_ind.
        * apply app_inj_tail in X as [-> X]. injection X as -> ->. auto.
        * clear IHpost. right. change (pre ++ (k, v) :: post ++ [q]) with (pre ++ ((k, v) :: post) ++ [q]) in X. rewrite app_assoc in X.
          apply app_inj_tail in X as [-> <-]. rewrite map_app, in_app_iff in N. split; [intros ->; apply N; right; left; auto|].
          apply H. exists pre, post. split; auto.
  Qed.

  (** Adding a key greater than all others. *)
  Lemma set_last : forall ps name v, Forall (fun k => lt k name) (keys ps) ->
    json_object_set (mkObj ps (length ps)) name v = Some (mkObj (ps ++ [(name, v)]) (length (ps ++ [(name, v)]))).
  Proof.
    intros ps name v F. unfold json_object_set, lookup. cbn [pair_count pairs].
    destruct ps as [|p ps'] eqn:Ep; [reflexivity|]. rewrite <- Ep in *. assert (Lp : 0 < length ps) by (rewrite Ep; cbn; lia).
    destruct (Nat.eqb (length ps) 0) eqn:E0; [apply Nat.eqb_eq in E0; lia|].
    assert (K : forall i, i < length ps -> exists k, key_at ps i = Some k /\ lt k name).
    { intros i Hi. destruct (key_at ps i) as [k|] eqn:K.
      - exists k. split; auto. rewrite key_at_keys in K. apply nth_error_In in K. rewrite Forall_forall in F. auto.
      - rewrite key_at_keys in K. apply nth_error_None in K. unfold keys in K. rewrite map_length in K. lia. }
    destruct (K 0 Lp) as (k0 & -> & L0). destruct (K (length ps - 1)) as (k1 & -> & L1); [lia|].
    unfold lt in L0, L1. rewrite L0, L1. unfold install. cbn [pairs pair_count].
    replace (Datatypes.S (length ps - 1)) with (length ps) by lia. rewrite skipn_all, firstn_all. cbn [smaller app].
    rewrite app_length. cbn [length]. do 2 f_equal. lia.
  Qed.
End Maps.

Lemma last_exists : forall (V : Type) (ops : list (bytes * V)) k, In k (map fst ops) -> exists v, last_set ops k v.
Proof.
  intros V ops k. induction ops as [|[k0 v0] ops IH]; cbn [map fst]; [intros []|]. intros H.
  destruct (in_dec (list_eq_dec Ascii.ascii_dec) k (map fst ops)) as [D|D].
  - destruct (IH D) as (v & pre & post & -> & X). exists v, ((k0, v0) :: pre), post. auto.
  - destruct H as [->|H]; [|contradiction]. exists v0, [], ops. auto.
Qed.
Lemma lt_sorted : forall ks, StronglySorted lt ks -> StronglySorted precedes ks.
Proof.
  intros ks S. induction S as [|k ks S IH F]; constructor; auto. rewrite Forall_forall in *. intros x Hx. apply lt_precedes. auto.
Qed.
Lemma sorted_nodup : forall ks, StronglySorted lt ks -> NoDup ks.
Proof.
  intros ks S. induction S as [|k ks S IH F]; constructor; auto. intros K. rewrite Forall_forall in F. specialize (F k K).
  unfold lt in F. assert (E : strcmp k k = Eq) by (apply strcmp_eq; auto). congruence.
Qed.
