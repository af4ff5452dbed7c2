From Coq Require Import Ascii String List ZArith Bool Lia ZifyBool ZifyNat.
From Verif Require Import Bytes ClenSpec NumSpec NumModel NumProofs CtlModel CtlSpec.
Import ListNotations.
Open Scope Z_scope.

(** ** Components *)

Definition nostop (s : bytes) : Prop := forallb (fun c => negb (stops c)) s = true.

Lemma nostop_in : forall s, nostop s <-> ~ In slash s /\ ~ In quest s.
Proof.
  intros s. unfold nostop. rewrite forallb_forall. unfold stops. split.
  - intros H. split; intros K; apply H in K; rewrite beq_refl in K; cbn in K; rewrite ?orb_true_r in K; discriminate.
  - intros [H K] x Hx. apply negb_true_iff, orb_false_iff. split; apply beq_neq; intros ->; auto.
Qed.
Lemma split_stop : forall a b r1 r2, nostop a -> nostop b -> at_stop r1 = true -> at_stop r2 = true -> a ++ r1 = b ++ r2 -> a = b /\ r1 = r2.
Proof.
  intros a b r1 r2 Ha Hb H1 H2 E.
  assert (K1 : span (fun c => negb (stops c)) (a ++ r1) = (a, r1)) by (apply span_unique; [auto|destruct r1; cbn in *; [auto|now rewrite H1]]).
  assert (K2 : span (fun c => negb (stops c)) (b ++ r2) = (b, r2)) by (apply span_unique; [auto|destruct r2; cbn in *; [auto|now rewrite H2]]).
  rewrite E in K1. rewrite K1 in K2. injection K2 as -> ->. auto.
Qed.
Lemma span_nostop : forall a r, nostop a -> at_stop r = true -> span (fun c => negb (stops c)) (a ++ r) = (a, r).
Proof. intros a r Ha H. apply span_unique; [auto|]. destruct r; cbn in *; [auto|now rewrite H]. Qed.

Lemma digit_nostop : forall c, num_digit 10 c = true -> negb (stops c) = true.
Proof. intros c H. destruct c as [[] [] [] [] [] [] [] []]; vm_compute in H; try discriminate; reflexivity. Qed.
Lemma space_nostop : forall c, is_space c = true -> negb (stops c) = true.
Proof. intros c H. destruct c as [[] [] [] [] [] [] [] []]; vm_compute in H; try discriminate; reflexivity. Qed.
Lemma space_white : forall c, is_space c = true -> white c.
Proof. intros c H. destruct c as [[] [] [] [] [] [] [] []]; vm_compute in H; try discriminate; vm_compute; tauto. Qed.
Lemma stop_not_digit : forall c, stops c = true -> num_digit 10 c = false.
Proof. intros c H. destruct (num_digit 10 c) eqn:E; auto. apply digit_nostop in E. rewrite H in E. discriminate. Qed.

(** What strtol scans: white space, a sign, digits *)
Lemma scan_inv : forall s neg v rest, scan_number 10 s = Some (neg, v, rest) ->
  exists sp sg ds, s = sp ++ sg ++ ds ++ rest /\ forallb is_space sp = true /\ (sg = [] \/ sg = lit "-" \/ sg = lit "+")
    /\ ds <> [] /\ forallb (num_digit 10) ds = true.
Proof.
  intros s neg v rest H. unfold scan_number in H.
  pose proof (span_app is_space s) as A. pose proof (span_fst_all is_space s) as B.
  set (sp := fst (span is_space s)) in *. set (s1 := snd (span is_space s)) in *. clearbody sp s1.
  set (x := match s1 with [] => (false, s1) | c :: r => if beq c "-"%char then (true, r) else if beq c "+"%char then (false, r) else (false, s1) end) in *.
  assert (K : exists sg, s1 = sg ++ snd x /\ (sg = [] \/ sg = lit "-" \/ sg = lit "+")).
  { subst x. destruct s1 as [|c r]; [exists []; auto|].
    destruct (beq c "-"%char) eqn:E1; [apply beq_eq in E1; subst; exists (lit "-"); auto|].
    destruct (beq c "+"%char) eqn:E2; [apply beq_eq in E2; subst; exists (lit "+"); auto|exists []; auto]. }
  destruct x as [neg' s2]. cbn [snd] in K. destruct K as (sg & K1 & K2).
  pose proof (span_app (num_digit 10) s2) as C. pose proof (span_fst_all (num_digit 10) s2) as D.
  destruct (span (num_digit 10) s2) as [ds r]. cbn [fst snd] in *.
  destruct ds as [|d ds]; [discriminate|]. injection H as <- <- <-.
  exists sp, sg, (d :: ds). subst s s1 s2. split; [|split; [auto|split; [auto|split; [discriminate|auto]]]].
  rewrite <- ?app_assoc. reflexivity.
Qed.

Lemma strtol_none : forall s, scan_number 10 s = None -> strtol s 10 = (false, 0, s).
Proof. intros s H. unfold strtol. rewrite H. reflexivity. Qed.

Lemma getident_name : forall a rest, plain a -> ~ number_token a -> at_stop rest = true ->
  ctl_getident (slash :: a ++ rest) = (IdStr a, rest).
Proof.
  intros a rest (Hn & Hs & Hq & Hp) Hnn Hr. destruct Hp as [?|Hp]; [tauto|].
  assert (Hns : nostop a) by (apply nostop_in; auto).
  unfold ctl_getident. rewrite beq_refl.
  destruct (strtol (a ++ rest) 10) as [[errno n] e] eqn:E.
  assert (K : at_stop e = false).
  { destruct (at_stop e) eqn:He; auto. exfalso. unfold strtol in E. destruct (scan_number 10 (a ++ rest)) as [[[neg v] r]|] eqn:Es.
    - assert (r = e) as <- by (destruct (LONG_MAX <? _); [congruence|]; destruct (_ <? LONG_MIN); congruence).
      apply scan_inv in Es as (sp & sg & ds & E1 & E2 & E3 & E4 & E5). rewrite 2 app_assoc in E1.
      apply split_stop in E1 as [E1 _]; auto.
      + apply Hp. exists sp, sg, ds. rewrite <- app_assoc in E1. split; [auto|]. split; [|split; [auto|apply number_token_digits; auto]].
        apply Forall_forall. intros x Hx. apply space_white. rewrite forallb_forall in E2. auto.
      + unfold nostop. rewrite 2 forallb_app, !andb_true_iff. repeat split.
        * apply forallb_forall. intros x Hx. apply space_nostop. rewrite forallb_forall in E2. auto.
        * destruct E3 as [-> |[-> | ->]]; reflexivity.
        * apply forallb_forall. intros x Hx. apply digit_nostop. rewrite forallb_forall in E5. auto.
    - injection E as <- <- <-. destruct a as [|x a]; [congruence|]. cbn in He. cbn in Hns. unfold nostop in Hns. cbn in Hns. rewrite He in Hns. discriminate. }
  rewrite K. cbn [negb]. rewrite span_nostop by auto. reflexivity.
Qed.

Lemma getident_number : forall a rest, number_token a -> at_stop rest = true ->
  exists r, ctl_getident (slash :: a ++ rest) = (if num_value 10 a <=? INT_MAX then IdNum (num_value 10 a) else IdErr, r) /\
    (num_value 10 a <= INT_MAX -> r = rest).
Proof.
  intros a rest Ha Hr. pose proof (token_nonneg a Ha) as H0. apply number_token_digits in Ha as [H1 H2].
  unfold ctl_getident. rewrite beq_refl. unfold strtol.
  rewrite (scan_plain 10 a rest) by (auto; try lia; intros c r ->; apply stop_not_digit; exact Hr).
  set (v := num_value 10 a) in *. clearbody v. cbv zeta.
  destruct (LONG_MAX <? v) eqn:E1.
  - unfold at_stop in *. cbn in *. eexists. rewrite Hr. cbn. unfold LONG_MAX, INT_MAX in *.
    destruct (v <=? 2147483647) eqn:E; [lia|]. split; [reflexivity|lia].
  - destruct (v <? LONG_MIN) eqn:E2; [unfold LONG_MIN in *; lia|]. cbn [negb andb]. rewrite Hr. cbn [negb andb].
    destruct (v <=? INT_MAX) eqn:E3.
    + exists rest. split; auto. unfold INT_MAX in *. f_equal. f_equal. unfold to_int. rewrite Z.mod_small; lia.
    + eexists. split; [reflexivity|]. lia.
Qed.

(** ** Location *)

Lemma locate_num : forall names k n z, locate names (IdNum k) n = Some z <-> (z = k /\ n <= k < n + Z.of_nat (length names)).
Proof.
  induction names as [|x names IH]; intros k n z; cbn [locate length]; [split; [discriminate|lia]|].
  destruct (Z.eqb_spec n k) as [-> |Hn].
  - split; [intros [= <-]; lia|intros [-> _]; auto].
  - rewrite IH. lia.
Qed.
Lemma locate_str : forall names a n z, locate names (IdStr a) n = Some z <->
  exists i, z = n + Z.of_nat i /\ nth_error names i = Some (Some a) /\ forall j, (j < i)%nat -> nth_error names j <> Some (Some a).
Proof.
  induction names as [|x names IH]; intros a n z; cbn [locate].
  - split; [discriminate|]. intros ([|i] & _ & H & _); discriminate.
  - destruct (match x with Some y => bytes_eqb y a | None => false end) eqn:E.
    + assert (x = Some a) as -> by (destruct x; [apply bytes_eqb_eq in E; congruence|discriminate]). split.
      * intros [= <-]. exists 0%nat. split; [lia|]. split; [reflexivity|]. intros j Hj. lia.
      * intros (i & -> & H1 & H2). destruct i as [|i]; [f_equal; lia|]. exfalso. apply (H2 0%nat); [lia|reflexivity].
    + assert (Hx : x <> Some a) by (intros ->; rewrite (proj2 (bytes_eqb_eq a a) eq_refl) in E; discriminate). rewrite IH. split.
      * intros (i & -> & H1 & H2). exists (S i). split; [lia|]. split; [exact H1|].
        intros [|j] Hj; cbn; [congruence|]. apply H2. lia.
      * intros (i & -> & H1 & H2). destruct i as [|i]; [cbn in H1; congruence|]. exists i. split; [lia|]. split; [exact H1|].
        intros j Hj. apply (H2 (S j)). lia.
Qed.

Definition small (n : nat) : Prop := Z.of_nat n <= 2147483648.
Definition found_at (names : list (option bytes)) (id : ident) : option nat :=
  match id with IdErr => None | _ => nat_of (locate names id 0) end.

Lemma nat_of_some : forall o i, nat_of o = Some i <-> exists z, o = Some z /\ i = Z.to_nat z.
Proof. intros [z|] i; cbn; split; try discriminate; [intros [= <-]; eauto|intros (z' & [= <-] & ->); auto|intros (z & ? & _); discriminate]. Qed.

Lemma number_dec : forall a, {number_token a} + {~ number_token a}.
Proof.
  intros a. destruct a as [|c a]; [right; intros [H _]; auto|].
  destruct (forallb (num_digit 10) (c :: a)) eqn:E.
  - left. apply number_token_digits. split; [discriminate|auto].
  - right. intros H. apply number_token_digits in H as [_ H]. congruence.
Qed.

Lemma ident_spec : forall a rest, plain a -> at_stop rest = true ->
  exists id r, ctl_getident (slash :: a ++ rest) = (id, r) /\ (id <> IdErr -> r = rest) /\
    (forall names, small (length names) -> forall i, found_at names id = Some i <-> picks names a i) /\
    (forall x, small (length (concat (balancers x))) -> forall i, locate_backend x id = Some i <-> picks_backend x a i).
Proof.
  intros a rest Ha Hr. destruct (number_dec a) as [Hn|Hn].
  - destruct (getident_number a rest Hn Hr) as (r & E & K). rewrite E. pose proof (token_nonneg a Hn) as H0.
    pose proof (token_numeral a) as T. set (v := num_value 10 a) in *. clearbody v.
    assert (KL : forall names i, small (length names) ->
      (found_at names (if v <=? INT_MAX then IdNum v else IdErr) = Some i <-> numeral decimal 10 a (Z.of_nat i) /\ (i < length names)%nat)).
    { intros names i Hs. rewrite T by auto. unfold small, INT_MAX in *. destruct (v <=? 2147483647) eqn:Ev; cbn [found_at].
      - rewrite nat_of_some. split.
        + intros (z & Hz & ->). apply locate_num in Hz as [-> Hz]. lia.
        + intros [Hv Hi]. exists v. rewrite locate_num. lia.
      - split; [discriminate|]. intros [Hv Hi]. lia. }
    eexists _, r. split; [reflexivity|]. split; [|split].
    + intros Hid. apply K. destruct (v <=? INT_MAX) eqn:Ev; [lia|congruence].
    + intros names Hs i. rewrite KL by auto. unfold picks. tauto.
    + intros x Hs i. unfold picks_backend.
      assert (Hl : length (map (fun _ : backend => @None bytes) (backends x)) = length (concat (balancers x))) by apply map_length.
      specialize (KL (map (fun _ => None) (backends x)) i). unfold small in KL. rewrite Hl in KL.
      destruct (v <=? INT_MAX) eqn:Ev; cbn [locate_backend found_at] in *; rewrite KL by auto; tauto.
  - rewrite getident_name by auto. eexists _, rest. split; [reflexivity|]. split; [auto|]. split.
    + intros names _ i. cbn [found_at]. rewrite nat_of_some. unfold picks. split.
      * intros (z & Hz & ->). apply locate_str in Hz as (j & -> & H1 & H2). rewrite Z.add_0_l, Nat2Z.id. auto.
      * intros [[? _]|(_ & H1 & H2)]; [tauto|]. exists (Z.of_nat i). rewrite Nat2Z.id. split; auto. apply locate_str. exists i. auto.
    + intros x _ i. unfold picks_backend. cbn [locate_backend]. split; [discriminate|tauto].
Qed.

(** ** Paths *)

Lemma stop_after : forall comps q, query q -> at_stop (path comps ++ q) = true.
Proof. intros [|a comps] q Hq; cbn; [|reflexivity]. destruct Hq as [-> |[t ->]]; reflexivity. Qed.
Lemma no_more_query : forall q, query q -> no_more q = true.
Proof. intros q [-> |[t ->]]; reflexivity. Qed.
Lemma no_more_path : forall a comps q, no_more (path (a :: comps) ++ q) = false.
Proof. reflexivity. Qed.
Lemma path_cons : forall a comps q, path (a :: comps) ++ q = slash :: a ++ (path comps ++ q).
Proof. intros. cbn. rewrite app_assoc. reflexivity. Qed.

Section Targets.
  Variable c : config.
  Hypothesis Hfits : fits c.
  Variable q : bytes.
  Hypothesis Hq : query q.
  Variable f : handler.

  Lemma in_scope_iff : forall l ss, in_scope c l ss -> scope c l = ss.
  Proof. intros [i|] ss H; cbn in *; [destruct H as (x & -> & ->)|]; auto. Qed.

  Lemma backend_target : forall comps l ss s x, Forall plain comps -> in_scope c l ss -> nth_error ss s = Some x ->
    match comps with
    | [] => True
    | k :: rest =>
        (forall n, picks_backend x k n -> ctl_backend c f (path comps ++ q) l s = f (ObjBackend l s n) (path rest ++ q)) /\
        ((forall n, ~ picks_backend x k n) -> ctl_backend c f (path comps ++ q) l s = (NoEffect, Reply NOT_FOUND))
    end.
  Proof.
    intros [|k rest] l ss s x Hp Hs Hx; [auto|]. apply Forall_cons_iff in Hp as [Hk Hp]. rewrite path_cons.
    destruct (ident_spec k (path rest ++ q) Hk (stop_after _ _ Hq)) as (id & r & E & Hid & _ & Hb).
    assert (Hsm : small (length (concat (balancers x)))).
    { destruct Hfits as [_ H]. destruct (H l ss Hs) as [_ H']. rewrite Forall_forall in H'. apply H'. eapply nth_error_In; eauto. }
    specialize (Hb x Hsm). unfold ctl_backend, get_service. rewrite E, (in_scope_iff l ss Hs), Hx. split.
    - intros n Hn. apply Hb in Hn. rewrite Hn. rewrite Hid; auto. intros ->. discriminate.
    - intros Hn. destruct (locate_backend x id) as [n|] eqn:El; auto. exfalso. apply (Hn n). apply Hb. auto.
  Qed.

  Lemma service_target : forall comps l ss, Forall plain comps -> in_scope c l ss ->
    match comps with
    | [] => True
    | b :: rest =>
        (forall s, picks (map svc_name ss) b s -> ctl_service c f (path comps ++ q) l =
           match rest with [] => f (ObjService l s) q | _ => ctl_backend c f (path rest ++ q) l s end) /\
        ((forall s, ~ picks (map svc_name ss) b s) -> ctl_service c f (path comps ++ q) l = (NoEffect, Reply NOT_FOUND))
    end.
  Proof.
    intros [|b rest] l ss Hp Hs; [auto|]. apply Forall_cons_iff in Hp as [Hb Hp]. rewrite path_cons.
    destruct (ident_spec b (path rest ++ q) Hb (stop_after _ _ Hq)) as (id & r & E & Hid & Hn & _).
    assert (Hsm : small (length (map svc_name ss))).
    { rewrite map_length. destruct Hfits as [_ H]. apply (H l ss Hs). }
    specialize (Hn _ Hsm). unfold ctl_service, locate_service. rewrite E, (in_scope_iff l ss Hs).
    change (match id with IdErr => None | _ => nat_of (locate (map svc_name ss) id 0) end) with (found_at (map svc_name ss) id). split.
    - intros s H. apply Hn in H. rewrite H. rewrite Hid by (intros ->; discriminate).
      destruct rest; [cbn [path app]; now rewrite no_more_query|now rewrite no_more_path].
    - intros H. destruct (found_at (map svc_name ss) id) as [n|] eqn:El; auto. exfalso. apply (H n). apply Hn. auto.
  Qed.

  Lemma span_quest : forall s, ~ In quest s -> span (fun c => negb (beq c quest)) (s ++ q) = (s, q).
  Proof.
    intros s Hs. apply span_unique.
    - apply forallb_forall. intros x Hx. apply negb_true_iff, beq_neq. intros ->. auto.
    - destruct Hq as [-> |[t ->]]; cbn; auto.
  Qed.
  Lemma path_quest : forall comps, Forall plain comps -> ~ In quest (path comps).
  Proof.
    induction comps as [|a comps IH]; intros Hp; cbn; [auto|]. apply Forall_cons_iff in Hp as [(_ & _ & Ha & _) Hp].
    rewrite in_app_iff. intros [H|[H|H]]; [discriminate|auto|exact (IH Hp H)].
  Qed.

  Lemma listener_target : forall a rest, plain a -> Forall plain rest ->
    (forall l, names_scope c a l -> ctl_listener c f (path (a :: rest) ++ q) =
       match rest with [] => f (ObjListener l) q | _ => ctl_service c f (path rest ++ q) l end) /\
    ((forall l, ~ names_scope c a l) -> ctl_listener c f (path (a :: rest) ++ q) = (NoEffect, Reply NOT_FOUND)).
  Proof.
    intros a rest Ha Hp. pose proof Ha as (Hne & Hs & Hqu & _).
    assert (Hlen : length (fst (span (fun c => negb (beq c quest)) (path (a :: rest) ++ q))) = S (length a + length (path rest))).
    { rewrite span_quest by (apply (path_quest (a :: rest)); auto). cbn. rewrite app_length. auto. }
    unfold ctl_listener. cbv zeta. rewrite Hlen. clear Hlen. rewrite path_cons. rewrite beq_refl. cbn [andb].
    destruct (Nat.eqb_spec (S (length a + length (path rest))) 1) as [E|_]; [destruct a; cbn in E; [congruence|lia]|].
    destruct (list_eq_dec ascii_dec a (lit "-")) as [-> |Hd].
    - cbn [app]. change (lit "-") with [dash]. cbn [app length]. rewrite beq_refl. cbn [andb].
      replace (Nat.eqb (S (1 + length (path rest))) 2 || match path rest ++ q with [] => false | d :: _ => beq d slash end) with true.
      2:{ symmetry. destruct rest; cbn; auto. }
      split.
      + intros [l|] H; [destruct H as [H _]; exfalso; apply H; reflexivity|]. destruct rest; [cbn [path app]; now rewrite no_more_query|now rewrite no_more_path].
      + intros H. exfalso. apply (H None). reflexivity.
    - destruct a as [|b a]; [congruence|]. cbn [app].
      replace (beq b dash && (Nat.eqb (S (length (b :: a) + length (path rest))) 2 || match a ++ path rest ++ q with [] => false | d :: _ => beq d slash end)) with false.
      2:{ symmetry. destruct (beq b dash) eqn:E; [|auto]. apply beq_eq in E. subst b. destruct a as [|d a]; [exfalso; apply Hd; reflexivity|]. cbn.
          apply beq_neq. intros ->. apply Hs. cbn; auto. }
      destruct (ident_spec (b :: a) (path rest ++ q) Ha (stop_after _ _ Hq)) as (id & r & E & Hid & Hn & _).
      assert (Hsm : small (length (map lstn_name (listeners c)))) by (rewrite map_length; apply Hfits).
      specialize (Hn _ Hsm). cbn [app] in E. unfold locate_listener. rewrite E.
      change (match id with IdErr => None | _ => nat_of (locate (map lstn_name (listeners c)) id 0) end) with (found_at (map lstn_name (listeners c)) id).
      split.
      + intros [l|] H; [|exfalso; exact (Hd H)]. destruct H as [_ H]. apply Hn in H. rewrite H. rewrite Hid by (intros ->; discriminate).
        destruct rest; [cbn [path app]; now rewrite no_more_query|now rewrite no_more_path].
      + intros H. destruct (found_at _ id) as [n|] eqn:El; auto. exfalso. apply (H (Some n)). split; auto. apply Hn. auto.
  Qed.

  (** decidability of the selections *)
  Lemma picks_dec : forall names a, plain a -> small (length names) -> (exists i, picks names a i) \/ (forall i, ~ picks names a i).
  Proof.
    intros names a Ha Hs. destruct (ident_spec a [] Ha eq_refl) as (id & r & _ & _ & Hn & _). specialize (Hn names Hs).
    destruct (found_at names id) as [i|] eqn:E; [left; exists i; apply Hn; auto|right; intros i H; apply Hn in H; congruence].
  Qed.
  Lemma scope_dec : forall a, plain a -> (exists l, names_scope c a l) \/ (forall l, ~ names_scope c a l).
  Proof.
    intros a Ha. destruct (list_eq_dec ascii_dec a (lit "-")) as [-> |Hd]; [left; exists None; reflexivity|].
    destruct (picks_dec (map lstn_name (listeners c)) a Ha) as [[i H]|H].
    - rewrite map_length. apply Hfits.
    - left. exists (Some i). split; auto.
    - right. intros [i|] K; [destruct K as [_ K]; apply (H i K)|exact (Hd K)].
  Qed.
  Lemma picks_nth : forall names a i, picks names a i -> (i < length names)%nat.
  Proof. intros names a i [(_ & _ & H)|(_ & H & _)]; [auto|]. apply nth_error_Some. congruence. Qed.
  Lemma scope_in : forall a l, names_scope c a l -> exists ss, in_scope c l ss.
  Proof.
    intros a [i|] H; [|exists (services c); reflexivity]. destruct H as [_ H]. apply picks_nth in H. rewrite map_length in H.
    destruct (nth_error (listeners c) i) as [x|] eqn:E; [|apply nth_error_None in E; lia]. exists (lstn_services x), x. auto.
  Qed.
  Lemma in_scope_fun : forall l s1 s2, in_scope c l s1 -> in_scope c l s2 -> s1 = s2.
  Proof. intros l s1 s2 H1 H2. apply in_scope_iff in H1, H2. congruence. Qed.

  Lemma numeral_fun : forall a n m, number_token a -> numeral decimal 10 a n -> numeral decimal 10 a m -> n = m.
  Proof. intros a n m Ha H1 H2. apply token_numeral in H1, H2; auto. congruence. Qed.
  Lemma picks_fun : forall names a i j, picks names a i -> picks names a j -> i = j.
  Proof.
    intros names a i j [(H1 & H2 & _)|(H1 & H2 & H3)] [(K1 & K2 & _)|(K1 & K2 & K3)]; try tauto.
    - pose proof (numeral_fun a _ _ H1 H2 K2). lia.
    - destruct (Nat.lt_trichotomy i j) as [H|[H|H]]; auto; exfalso; [apply (K3 i)|apply (H3 j)]; auto.
  Qed.
  Lemma names_scope_fun : forall a l m, names_scope c a l -> names_scope c a m -> l = m.
  Proof.
    intros a [i|] [j|] H K; cbn in *; auto; [|destruct H; congruence|destruct K; congruence].
    f_equal. eapply picks_fun; [apply H|apply K].
  Qed.
  Lemma addressed_fun : forall comps o o', addressed c comps o -> addressed c comps o' -> o = o'.
  Proof.
    intros comps o o' H K. destruct H.
    - remember [a] as w eqn:Ew. destruct K; try discriminate. injection Ew as ->. f_equal. eapply names_scope_fun; eauto.
    - remember [a; b] as w eqn:Ew. destruct K; try discriminate. injection Ew as -> ->.
      assert (l = l0) as <- by (eapply names_scope_fun; eauto). rewrite (in_scope_fun _ _ _ H3 H0) in *. f_equal. eapply picks_fun; eauto.
    - remember [a; b; k] as w eqn:Ew. destruct K; try discriminate. injection Ew as -> -> ->.
      assert (l = l0) as <- by (eapply names_scope_fun; eauto). rewrite (in_scope_fun _ _ _ H5 H0) in *.
      assert (s = s0) as <- by (eapply picks_fun; eauto). assert (x = x0) as <- by congruence. f_equal.
      destruct H3 as (A & B & _), H8 as (_ & C & _). pose proof (numeral_fun k _ _ A B C). lia.
  Qed.

  (** the object reached, for at most three components *)
  Lemma target_hit : forall comps o rest, Forall plain comps -> Forall plain rest -> addressed c comps o ->
    (rest = [] \/ length comps = 3%nat) -> ctl_listener c f (path (comps ++ rest) ++ q) = f o (path rest ++ q).
  Proof.
    intros comps o rest Hp Hr H Hl. destruct H as [a l H|a b l ss s H H0 H1|a b k l ss s x n H H0 H1 H2 H3]; cbn [app].
    - destruct Hl as [-> |E]; [|discriminate]. apply Forall_cons_iff in Hp as [Ha _].
      destruct (listener_target a [] Ha (Forall_nil _)) as [K _]. rewrite (K l H). reflexivity.
    - destruct Hl as [-> |E]; [|discriminate]. apply Forall_cons_iff in Hp as [Ha Hp].
      destruct (listener_target a [b] Ha Hp) as [K _]. rewrite (K l H). cbv iota.
      destruct (service_target [b] l ss Hp H0) as [K' _]. rewrite (K' s H1). reflexivity.
    - apply Forall_cons_iff in Hp as [Ha Hp]. pose proof (proj1 (Forall_cons_iff _ _ _) Hp) as [Hb Hk].
      assert (Hbr : Forall plain (b :: k :: rest)) by (inversion Hk; auto).
      destruct (listener_target a (b :: k :: rest) Ha Hbr) as [K _]. rewrite (K l H). cbv iota.
      destruct (service_target (b :: k :: rest) l ss Hbr H0) as [K' _]. rewrite (K' s H1). cbv iota.
      apply Forall_cons_iff in Hbr as [_ Hbr].
      destruct (backend_target (k :: rest) l ss s x Hbr H0 H2) as [K'' _]. apply K''. auto.
  Qed.

  Lemma target_miss : forall comps, Forall plain comps -> comps <> [] -> (forall o, ~ addressed c comps o) ->
    ctl_listener c f (path comps ++ q) = (NoEffect, Reply NOT_FOUND)
    \/ (exists c3 rest o, comps = c3 ++ rest /\ rest <> [] /\ addressed c c3 o /\ length c3 = 3%nat /\ ctl_listener c f (path comps ++ q) = f o (path rest ++ q)).
  Proof.
    intros [|a comps] Hp Hn H; [congruence|]. apply Forall_cons_iff in Hp as [Ha Hp].
    destruct (listener_target a comps Ha Hp) as [K1 K2].
    destruct (scope_dec a Ha) as [[l Hl]|Hl]; [|left; auto]. rewrite (K1 l Hl).
    destruct comps as [|b comps]; [exfalso; apply (H (ObjListener l)); constructor; auto|].
    destruct (scope_in a l Hl) as [ss Hss]. apply Forall_cons_iff in Hp as [Hb Hp'].
    destruct (service_target (b :: comps) l ss (Forall_cons _ Hb Hp') Hss) as [K3 K4].
    assert (Hsm : small (length (map svc_name ss))) by (rewrite map_length; destruct Hfits as [_ F]; apply (F l ss Hss)).
    destruct (picks_dec (map svc_name ss) b Hb Hsm) as [[s Hs]|Hs]; [|left; auto]. rewrite (K3 s Hs).
    destruct comps as [|k rest]; [exfalso; apply (H (ObjService l s)); econstructor; eauto|].
    destruct (nth_error ss s) as [x|] eqn:Ex.
    2:{ apply picks_nth in Hs. rewrite map_length in Hs. apply nth_error_None in Ex. lia. }
    destruct (backend_target (k :: rest) l ss s x Hp' Hss Ex) as [K5 K6].
    apply Forall_cons_iff in Hp' as [Hk Hr].
    destruct (ident_spec k [] Hk eq_refl) as (id & r & _ & _ & _ & Hbk).
    assert (Hsx : small (length (concat (balancers x)))).
    { destruct Hfits as [_ F]. destruct (F l ss Hss) as [_ F']. rewrite Forall_forall in F'. apply F'. eapply nth_error_In; eauto. }
    specialize (Hbk x Hsx). destruct (locate_backend x id) as [n|] eqn:En.
    2:{ left. apply K6. intros n C. apply Hbk in C. congruence. }
    assert (Hx : picks_backend x k n) by (apply Hbk; auto).
    destruct rest as [|d rest]; [exfalso; apply (H (ObjBackend l s n)); econstructor; eauto|].
    right. exists [a; b; k], (d :: rest), (ObjBackend l s n). split; [reflexivity|]. split; [discriminate|]. split; [econstructor; eauto|].
    split; [reflexivity|]. apply K5. auto.
  Qed.
End Targets.
