(** C18 to C21 and C44: balancing. *)
From Coq Require Import List ZArith Lia Permutation.
From Verif Require Import BalModel BalSpec BalProofs BalHistProofs.
Import ListNotations.
Open Scope Z_scope.

(** C18.  Every draw below the sum of the usable priorities selects a usable backend... *)
Theorem C18_every_draw_selects : forall l d, Forall (fun b => 0 <= b_pri b) l ->
  0 <= d < total_pri l ->
  exists b, rand_walk d l = Some b /\ In b l /\ usable b.
Proof. exact rand_walk_hit. Qed.
Print Assumptions C18_every_draw_selects.

(** ... and each backend is selected by exactly as many of these draws as its
    priority if it is usable, and by none if it is not. *)
Theorem C18_proportional : forall l b, Forall (fun b => 0 <= b_pri b) l -> NoDup (ids l) -> In b l ->
  how_many (fun d => match rand_walk d l with Some c => b_id c =? b_id b | None => false end)
           (ints 0 (Z.to_nat (total_pri l)))
  = if usableb b then Z.to_nat (b_pri b) else 0%nat.
Proof.
  intros l b F N I. pose proof (rand_count l (b_id b) F N) as R. unfold picks in R. rewrite R.
  rewrite total_single by assumption. destruct (usableb b); reflexivity.
Qed.
Print Assumptions C18_proportional.

(** A group of a running service draws below that sum: whatever random() returns,
    the selection is still waiting for an acceptable number or is the backend that a
    draw in range designates. *)
Theorem C18_select : forall l os bl rs, config_ok l -> few (length os + length l) ->
  ops_ok ALGO_RANDOM (configured ALGO_RANDOM l) os ->
  In bl (brun ALGO_RANDOM (configured ALGO_RANDOM l) os) -> 0 < total_pri (l_bes bl) ->
  rand_select bl rs = Looping \/
  exists d rs' b, 0 <= d < total_pri (l_bes bl) /\
    random_in_range (total_pri (l_bes bl)) rs = Some (d, rs') /\
    rand_walk d (l_bes bl) = Some b /\ rand_select bl rs = Picked b rs'.
Proof.
  intros l os bl rs C F O B T. pose proof (reach_inv _ _ _ C F O) as [_ G _ _].
  rewrite Forall_forall in G. destruct (G bl B) as ((_ & A) & AL & _ & NE & S).
  rewrite AL in A. unfold rand_select. rewrite A.
  destruct (l_bes bl) as [|b0 bs] eqn:E; [congruence|]. rewrite <- E in *.
  destruct (random_in_range (total_pri (l_bes bl)) rs) as [[d rs']|] eqn:R; [|auto].
  pose proof (random_in_range_range _ _ _ _ T R) as D.
  destruct (rand_walk_hit (l_bes bl) d) as (b & W & _); auto.
  { eapply Forall_impl; [|exact S]. cbn. intros; lia. }
  right. exists d, rs', b. rewrite W. auto.
Qed.
Print Assumptions C18_select.

(** Not so: the draws are equally likely.  random() yields 0 .. 2^31-1 while the
    numbers to reject are computed as for a 64-bit generator, so with a sum of 3 the
    2^31-1 accepted numbers do not fall evenly on the three draws. *)
Theorem C18_uniform_refuted : exists max,
  let accepted := ints ((ULONG_MOD - max) mod max)
                       (Z.to_nat (RANDOM_MOD - (ULONG_MOD - max) mod max)) in
  ~ (forall d e, 0 <= d < max -> 0 <= e < max ->
       how_many (fun r => r mod max =? d) accepted = how_many (fun r => r mod max =? e) accepted).
Proof.
  exists 3. change ((ULONG_MOD - 3) mod 3) with 1. cbv zeta. intros H.
  apply biased. cbv zeta. split; apply H; lia.
Qed.
Print Assumptions C18_uniform_refuted.

Example C18_ex :
  let l := [mkBe 1 BE_REGULAR 2 false true; mkBe 2 BE_REGULAR 5 true true;
            mkBe 3 BE_REGULAR 1 false true] in
  total_pri l = 3 /\
  map (fun d => option_map b_id (rand_walk d l)) [0; 1; 2] = [Some 1; Some 1; Some 3].
Proof. split; reflexivity. Qed.

(** C19.  In a group of a running service, from whatever position: the next S
    selections, S being the sum of the usable priorities, are of usable members only
    and contain each of them exactly priority times. *)
Theorem C19_fair : forall l os bl fuel, config_ok l -> few (length os + length l) ->
  ops_ok ALGO_IWRR (configured ALGO_IWRR l) os ->
  In bl (brun ALGO_IWRR (configured ALGO_IWRR l) os) ->
  0 < total_pri (l_bes bl) ->
  (Z.to_nat (top_pri (l_bes bl) + 2) * length (l_bes bl) <= fuel)%nat ->
  exists picked bl', select_many fuel (Z.to_nat (total_pri (l_bes bl))) bl = Some (picked, bl') /\
    (forall b, In b picked -> In b (l_bes bl) /\ usable b) /\
    (forall b, In b (l_bes bl) ->
       times (b_id b) picked = if usableb b then Z.to_nat (b_pri b) else 0%nat).
Proof.
  intros l os bl fuel C F O B T FU. pose proof (reach_inv _ _ _ C F O) as [N G _ _].
  rewrite Forall_forall in G. destruct (G bl B) as ((_ & A) & AL & GP & NE & S).
  rewrite AL in A. apply iwrr_fair; auto.
  - split; [eapply nodup_group; eauto|]. split; [auto|]. intros b I U. rewrite A.
    pose proof (top_ge _ _ I U). unfold small in S. rewrite Forall_forall in S.
    specialize (S b I). lia.
  - rewrite A. apply top_nonneg.
  - rewrite A. exact FU.
Qed.
Print Assumptions C19_fair.

(** The same for any position the round robin may be in, reached or not: any current
    member (or none) and any round number, even one beyond the present priorities. *)
Theorem C19_fair_anywhere : forall bl fuel, NoDup (ids (l_bes bl)) -> good_pos bl ->
  Forall (fun b => 0 <= b_pri b) (l_bes bl) -> l_max bl = top_pri (l_bes bl) ->
  0 < total_pri (l_bes bl) ->
  (Z.to_nat (top_pri (l_bes bl) + 2) * length (l_bes bl) <= fuel)%nat ->
  exists picked bl', select_many fuel (Z.to_nat (total_pri (l_bes bl))) bl = Some (picked, bl') /\
    (forall b, In b picked -> In b (l_bes bl) /\ usable b) /\
    (forall b, In b (l_bes bl) ->
       times (b_id b) picked = if usableb b then Z.to_nat (b_pri b) else 0%nat).
Proof.
  intros bl fuel N G P M T F. apply iwrr_fair; auto.
  - split; [auto|]. split; [auto|]. intros b I U. rewrite M. pose proof (top_ge _ _ I U).
    rewrite Forall_forall in P. specialize (P b I). lia.
  - rewrite M. apply top_nonneg.
  - rewrite M. exact F.
Qed.
Print Assumptions C19_fair_anywhere.

Example C19_ex :
  let bl := hd (new_balancer 0 ALGO_IWRR)
              (configured ALGO_IWRR [(0, mkBe 1 BE_REGULAR 2 false true);
                                     (0, mkBe 2 BE_REGULAR 5 true true);
                                     (0, mkBe 3 BE_REGULAR 3 false true)]) in
  total_pri (l_bes bl) = 5 /\
  option_map (fun p => map b_id (fst p)) (select_many 20 5 bl) = Some [1; 3; 1; 3; 3].
Proof. vm_compute. split; reflexivity. Qed.

(** C20, random algorithm.  The selection ends as soon as random() has returned one
    number of at least 2^30 per group, never crashes, gives a usable backend of the
    first group that has one, and none only if no group has one. *)
Theorem C20_random : forall l os rs fuel, config_ok l -> few (length os + length l) ->
  ops_ok ALGO_RANDOM (configured ALGO_RANDOM l) os ->
  let bls := brun ALGO_RANDOM (configured ALGO_RANDOM l) os in
  Forall (fun b => usable b -> 1 <= b_pri b) (members bls) ->
  Forall (fun bl => total_pri (l_bes bl) <= 2 ^ 30) bls ->
  (length bls <= how_many (fun r => Z.leb (2 ^ 30) r) rs)%nat ->
  match get_backend_nosess fuel bls rs with
  | Picked b _ => exists pre bl post, bls = pre ++ bl :: post /\ In b (l_bes bl) /\ usable b /\
                    Forall (fun g => forall c, In c (l_bes g) -> ~ usable c) pre
  | NoBackend _ => forall b, In b (members bls) -> ~ usable b
  | Looping | Crash => False
  end.
Proof.
  intros l os rs fuel C F O bls P T R. pose proof (reach_inv _ _ _ C F O) as [N G _ _].
  fold bls in N, G. unfold get_backend_nosess.
  assert (AG : Forall agrees bls) by (eapply Forall_impl; [|exact G]; intros a Ha; apply Ha).
  pose proof (has_backends_iff bls AG) as HB.
  destruct (service_has_backends bls).
  2:{ intros b I U. destruct HB as [_ HB]. assert (false = true) by (apply HB; eauto). discriminate. }
  assert (SV : svc_answers bls (service_lb_select_backend fuel bls rs)).
  { apply svc_select; [|exact R]. intros bl rs0 k I K. rewrite Forall_forall in *.
    destruct (G bl I) as ((_ & A) & AL & _ & NE & S). rewrite AL in A.
    apply random_group; auto. apply Forall_forall. intros b Ib. apply P. eapply member_group; eauto. }
  destruct (service_lb_select_backend fuel bls rs) as [b ?|?| |]; cbn in SV; auto.
  - destruct SV as (pre & bl & post & E & I & U & X). exists pre, bl, post.
    repeat split; auto. eapply Forall_impl; [|exact X]. intros g Hg c Ic Uc. apply Hg. exists c; auto.
  - intros b I U. unfold members in I. apply in_flat_map in I. destruct I as (g & Ig & Ib).
    rewrite Forall_forall in SV. apply (SV g Ig). exists b; auto.
Qed.
Print Assumptions C20_random.

(** C20, round robin: the same, within a bounded number of iterations, provided that
    every group of more than one member has a usable one.  Missing: groups of several
    members none of which is usable, where the claim is false (below). *)
Theorem C20_iwrr_partial : forall l os rs fuel, config_ok l -> few (length os + length l) ->
  ops_ok ALGO_IWRR (configured ALGO_IWRR l) os ->
  let bls := brun ALGO_IWRR (configured ALGO_IWRR l) os in
  Forall (fun b => usable b -> 1 <= b_pri b) (members bls) ->
  Forall (fun bl => length (l_bes bl) = 1%nat \/ exists b, In b (l_bes bl) /\ usable b) bls ->
  (Z.to_nat 65537 * length (members bls) <= fuel)%nat ->
  match get_backend_nosess fuel bls rs with
  | Picked b _ => exists pre bl post, bls = pre ++ bl :: post /\ In b (l_bes bl) /\ usable b /\
                    Forall (fun g => forall c, In c (l_bes g) -> ~ usable c) pre
  | NoBackend _ => forall b, In b (members bls) -> ~ usable b
  | Looping | Crash => False
  end.
Proof.
  intros l os rs fuel C F O bls P T R. pose proof (reach_inv _ _ _ C F O) as [N G _ _].
  fold bls in N, G. unfold get_backend_nosess.
  assert (AG : Forall agrees bls) by (eapply Forall_impl; [|exact G]; intros a Ha; apply Ha).
  pose proof (has_backends_iff bls AG) as HB.
  destruct (service_has_backends bls).
  2:{ intros b I U. destruct HB as [_ HB]. assert (false = true) by (apply HB; eauto). discriminate. }
  assert (SV : svc_answers bls (service_lb_select_backend fuel bls rs)).
  { apply iwrr_svc; auto. intros bl I. rewrite Forall_forall in *. 
    destruct (G bl I) as ((_ & A) & AL & GP & NE & S). rewrite AL in A.
    intros rs0. apply (iwrr_group_any fuel bl rs0); auto.
    - eapply nodup_group; eauto.
    - apply Forall_forall. intros b Ib. apply P. eapply member_group; eauto.
    - destruct (T bl I); auto.
    - eapply Nat.le_trans; [|exact R]. apply Nat.mul_le_mono.
      + rewrite A. pose proof (small_top _ S). lia.
      + apply group_len. auto. }
  destruct (service_lb_select_backend fuel bls rs) as [b ?|?| |]; cbn in SV; auto.
  - destruct SV as (pre & bl & post & E & I & U & X). exists pre, bl, post.
    repeat split; auto. eapply Forall_impl; [|exact X]. intros g Hg c Ic Uc. apply Hg. exists c; auto.
  - intros b I U. unfold members in I. apply in_flat_map in I. destruct I as (g & Ig & Ib).
    rewrite Forall_forall in SV. apply (SV g Ig). exists b; auto.
Qed.
Print Assumptions C20_iwrr_partial.

(** Round robin, two backends and an emergency one: when both backends have died the
    request loops for ever, with the service locked, although the emergency backend
    is usable. *)
Theorem C20_iwrr_hang_refuted :
  exists l os, config_ok l /\ ops_ok ALGO_IWRR (configured ALGO_IWRR l) os /\
    let bls := brun ALGO_IWRR (configured ALGO_IWRR l) os in
    (exists b, In b (members bls) /\ usable b) /\
    forall fuel rs, get_backend_nosess fuel bls rs = Looping.
Proof.
  exists [(0, mkBe 1 BE_REGULAR 5 false true); (0, mkBe 2 BE_REGULAR 5 false true);
          (65535, mkBe 3 BE_REGULAR 1 false true)].
  exists [OMode 1 BE_KILL; OMode 2 BE_KILL].
  split; [split; [repeat constructor; cbn; intuition lia|repeat constructor; cbn; lia]|].
  split; [cbn; auto|]. cbv zeta. split.
  - exists (mkBe 3 BE_REGULAR 1 false true). split; [vm_compute; auto|reflexivity].
  - intros fuel rs. unfold get_backend_nosess.
    set (bls := brun _ _ _). vm_compute in bls. cbn [service_has_backends bls existsb l_act orb Z.ltb Z.compare].
    unfold bls. cbn [service_lb_select_backend]. unfold balancer_select_backend. cbn [l_bes l_algo].
    rewrite iwrr_never; [reflexivity| | | |]; cbn; try lia; try discriminate.
    + intros b [<-|[<-|[]]] U; cbn in U; discriminate.
    + split; cbn; auto; lia.
Qed.
Print Assumptions C20_iwrr_hang_refuted.

(** A backend of priority 0 (from an SRV record of weight 0) whose group has no other
    usable member is enabled and alive, yet no request is given to it. *)
Theorem C20_zero_priority_refuted :
  exists l os, config_ok l /\ ops_ok ALGO_RANDOM (configured ALGO_RANDOM l) os /\
    let bls := brun ALGO_RANDOM (configured ALGO_RANDOM l) os in
    (exists b, In b (members bls) /\ usable b) /\
    forall fuel rs, get_backend_nosess fuel bls rs = NoBackend (bls, rs).
Proof.
  exists [(0, mkBe 1 BE_REGULAR 5 false true); (0, mkBe 2 BE_REGULAR 5 false true)].
  exists [OSetPri 1 0; OMode 2 BE_KILL].
  split; [split; [repeat constructor; cbn; intuition lia|repeat constructor; cbn; lia]|].
  split; [cbn; repeat split; auto; lia|]. cbv zeta. split.
  - exists (mkBe 1 BE_REGULAR 0 false true). split; [vm_compute; auto|reflexivity].
  - intros fuel rs. vm_compute. reflexivity.
Qed.
Print Assumptions C20_zero_priority_refuted.

(** A group without members crashes the selection. *)
Theorem C20_empty_group_refuted : forall fuel rs w a r,
  service_lb_select_backend fuel (new_balancer w a :: r) rs = Crash.
Proof. reflexivity. Qed.
Print Assumptions C20_empty_group_refuted.

Example C20_ex :
  let bls := brun ALGO_RANDOM
     (configured ALGO_RANDOM [(0, mkBe 1 BE_REGULAR 5 false true); (0, mkBe 2 BE_REGULAR 5 false true);
                              (65535, mkBe 3 BE_REGULAR 1 false true)])
     [OMode 1 BE_KILL; OMode 2 BE_DISABLE] in
  match get_backend_nosess 10 bls [7] with Picked b _ => b_id b = 3 | _ => False end.
Proof. vm_compute. reflexivity. Qed.

(** C21.  After any history the counters of every group are those of its members. *)
Theorem C21_counters : forall algo l os, config_ok l -> few (length os + length l) ->
  ops_ok algo (configured algo l) os ->
  Forall agrees (brun algo (configured algo l) os).
Proof.
  intros algo l os C F O. pose proof (reach_inv _ _ _ C F O) as [_ G _ _].
  eapply Forall_impl; [|exact G]. intros a Ha. apply Ha.
Qed.
Print Assumptions C21_counters.

(** Hence a service is treated as having backends exactly when one is usable. *)
Theorem C21_has_backends : forall algo l os, config_ok l -> few (length os + length l) ->
  ops_ok algo (configured algo l) os ->
  let bls := brun algo (configured algo l) os in
  service_has_backends bls = true <-> exists b, In b (members bls) /\ usable b.
Proof.
  intros algo l os C F O bls. apply has_backends_iff. apply C21_counters; auto.
Qed.
Print Assumptions C21_has_backends.

(** Disabling, enabling and killing change the one flag of the one backend. *)
Theorem C21_mode_effect : forall algo l os id m b, config_ok l -> few (length os + length l) ->
  ops_ok algo (configured algo l) os ->
  let bls := brun algo (configured algo l) os in
  In b (members bls) -> b_id b = id -> b_kind b = BE_REGULAR ->
  members (bstep algo bls (OMode id m))
  = map (fun c => if b_id c =? id
                  then match m with
                       | BE_DISABLE => mkBe (b_id c) (b_kind c) (b_pri c) true (b_alive c)
                       | BE_ENABLE => mkBe (b_id c) (b_kind c) (b_pri c) false (b_alive c)
                       | BE_KILL => mkBe (b_id c) (b_kind c) (b_pri c) (b_disabled c) false
                       end
                  else c) (members bls).
Proof.
  intros algo l os id m b C F O bls I E K. pose proof (reach_inv _ _ _ C F O) as RI.
  assert (FB : find_in_groups id bls = Some b) by (apply find_in_groups_some; auto; apply RI).
  cbn [bstep]. rewrite (kill_members algo (length os + length l) bls id m b); auto.
Qed.
Print Assumptions C21_mode_effect.

(** An answered probe makes the backend alive and changes nothing else. *)
Theorem C21_revive_effect : forall algo l os id b, config_ok l -> few (length os + length l) ->
  ops_ok algo (configured algo l) os ->
  let bls := brun algo (configured algo l) os in
  In b (members bls) -> b_id b = id -> b_kind b = BE_REGULAR ->
  members (bstep algo bls (OTouch id))
  = map (fun c => if b_id c =? id then mkBe (b_id c) (b_kind c) (b_pri c) (b_disabled c) true else c)
        (members bls).
Proof.
  intros algo l os id b C F O bls I E K. pose proof (reach_inv _ _ _ C F O) as RI.
  assert (FB : find_in_groups id bls = Some b) by (apply find_in_groups_some; auto; apply RI).
  cbn [bstep]. rewrite (touch_members bls id b); auto. apply RI.
Qed.
Print Assumptions C21_revive_effect.

(** Removing a dynamic backend removes it and no other. *)
Theorem C21_remove_effect : forall algo l os id, config_ok l -> few (length os + length l) ->
  ops_ok algo (configured algo l) os ->
  let bls := brun algo (configured algo l) os in
  members (bstep algo bls (ORemove id)) = filter (fun c => negb (b_id c =? id)) (members bls).
Proof.
  intros algo l os id C F O bls. pose proof (reach_inv _ _ _ C F O) as RI.
  cbn [bstep]. eapply inv_remove_members; eauto.
Qed.
Print Assumptions C21_remove_effect.

(** Not so when another backend's state changes between the two phases of a probe:
    the revived backend is counted twice. *)
Theorem C21_probe_race_refuted : exists algo l os, config_ok l /\
  Forall (fun o => match o with OAdd _ _ | OSetPri _ _ => False | _ => True end) os /\
  ~ Forall agrees (brun algo (configured algo l) os).
Proof.
  exists ALGO_RANDOM, [(0, mkBe 1 BE_REGULAR 5 false true); (0, mkBe 2 BE_REGULAR 5 false true)].
  exists [OMode 1 BE_KILL; OTouchMark 1; OMode 2 BE_DISABLE; OTouchCount 1].
  split; [split; [repeat constructor; cbn; intuition lia|repeat constructor; cbn; lia]|].
  split; [repeat constructor|]. intros H. vm_compute in H. inversion H as [|? ? A B]; subst.
  destruct A as [A _]. vm_compute in A. discriminate.
Qed.
Print Assumptions C21_probe_race_refuted.

Example C21_ex :
  let bls := brun ALGO_RANDOM
     (configured ALGO_RANDOM [(0, mkBe 1 BE_REGULAR 5 false true); (0, mkBe 2 BE_REGULAR 7 false true)])
     [OMode 1 BE_KILL; OAdd 0 (mkBe 3 BE_REGULAR 4 false true); OMode 2 BE_DISABLE; OTouch 1] in
  map l_act bls = [2] /\ map l_sum bls = [9].
Proof. vm_compute. split; reflexivity. Qed.

(** C44.  Any sequence of look-ups by weight keeps the groups strictly ordered. *)
Theorem C44_ordered : forall ws, 
  increasing (weights (fold_left (fun bls wa => balancer_list_get bls (fst wa) (snd wa)) ws [])).
Proof.
  intros ws. assert (H : forall bls, increasing (weights bls) ->
    increasing (weights (fold_left (fun bls wa => balancer_list_get bls (fst wa) (snd wa)) ws bls))).
  { induction ws as [|wa ws IH]; intros bls I; [exact I|]. cbn. apply IH. apply get_increasing. auto. }
  apply H. cbn. auto.
Qed.
Print Assumptions C44_ordered.

(** A look-up leaves the list as it is if it has a group of that weight, and
    otherwise inserts one empty group at its place; no other group changes. *)
Theorem C44_lookup : forall bls w a, increasing (weights bls) ->
  (In w (weights bls) /\ balancer_list_get bls w a = bls) \/
  (~ In w (weights bls) /\ exists pre post, bls = pre ++ post /\
     Forall (fun g => l_weight g < w) pre /\ Forall (fun g => w < l_weight g) post /\
     exists g, balancer_list_get bls w a = pre ++ g :: post /\
       l_weight g = w /\ l_algo g = a /\ l_bes g = [] /\ l_act g = 0).
Proof.
  intros bls w a I. destruct (get_split bls w a I) as (pre & g & post & Q & W & P1 & P2 & D).
  destruct D as [E|[E G]].
  - left. split; [|congruence]. rewrite E, weights_app. apply in_or_app. right. cbn. auto.
  - right. split.
    + intros H. rewrite E in H. unfold weights in H. apply in_map_iff in H. destruct H as (x & X & Y).
      rewrite Forall_forall in P1, P2. apply in_app_or in Y.
      destruct Y as [Y|Y]; [specialize (P1 x Y)|specialize (P2 x Y)]; lia.
    + exists pre, post. repeat split; auto. exists g. rewrite Q. subst g. cbn. repeat split; auto.
Qed.
Print Assumptions C44_lookup.

(** All groups of a running service stay ordered, one per weight, none empty. *)
Theorem C44_running : forall algo l os, config_ok l -> few (length os + length l) ->
  ops_ok algo (configured algo l) os ->
  let bls := brun algo (configured algo l) os in
  increasing (weights bls) /\ Forall (fun bl => l_bes bl <> []) bls /\ NoDup (ids (members bls)).
Proof.
  intros algo l os C F O bls. pose proof (reach_inv _ _ _ C F O) as [N G W _].
  repeat split; auto. eapply Forall_impl; [|exact G]. intros g Hg. apply Hg.
Qed.
Print Assumptions C44_running.

Example C44_ex :
  weights (fold_left (fun bls wa => balancer_list_get bls (fst wa) (snd wa))
     [(5, ALGO_RANDOM); (0, ALGO_RANDOM); (65535, ALGO_IWRR); (5, ALGO_IWRR); (3, ALGO_IWRR)] [])
  = [0; 3; 5; 65535].
Proof. reflexivity. Qed.
