From Coq Require Import List ZArith Lia Bool Sorted ZifyBool.
From Verif Require Import JobModel JobSpec.
Import ListNotations.
Open Scope Z_scope.

Lemma cmp_lt : forall a b, ts_ok a -> ts_ok b -> ((timespec_cmp a b <? 0) = true <-> ns a < ns b).
Proof.
  unfold timespec_cmp, ns, ts_ok. intros a b A B.
  destruct (Z.ltb_spec (tv_sec a) (tv_sec b)); [cbn; lia|].
  destruct (tv_sec a >? tv_sec b) eqn:E; [cbn; lia|].
  destruct (Z.ltb_spec (tv_nsec a) (tv_nsec b)); [cbn; lia|].
  destruct (tv_nsec a >? tv_nsec b) eqn:E'; cbn; lia.
Qed.
Lemma cmp_le : forall a b, ts_ok a -> ts_ok b -> ((timespec_cmp a b <=? 0) = true <-> ns a <= ns b).
Proof.
  unfold timespec_cmp, ns, ts_ok. intros a b A B.
  destruct (Z.ltb_spec (tv_sec a) (tv_sec b)); [cbn; lia|].
  destruct (tv_sec a >? tv_sec b) eqn:E; [cbn; lia|].
  destruct (Z.ltb_spec (tv_nsec a) (tv_nsec b)); [cbn; lia|].
  destruct (tv_nsec a >? tv_nsec b) eqn:E'; cbn; lia.
Qed.
Lemma cmp_ge : forall a b, ts_ok a -> ts_ok b -> ((timespec_cmp a b <? 0) = false <-> ns b <= ns a).
Proof.
  intros a b A B. pose proof (cmp_lt a b A B) as H.
  destruct (timespec_cmp a b <? 0); [|split; auto; intros _; destruct (Z_lt_le_dec (ns a) (ns b)) as [L|L]; auto; apply H in L; discriminate].
  split; [discriminate|]. intro L. assert (ns a < ns b) by (apply H; auto). lia.
Qed.
Lemma sub_ns : forall a b, ts_ok a -> ts_ok b ->
  ns (timespec_sub a b) = ns a - ns b /\ ts_ok (timespec_sub a b).
Proof.
  unfold ns, timespec_sub, ts_ok. intros a b A B.
  destruct (Z.ltb_spec (tv_nsec a - tv_nsec b) 0); cbn [tv_sec tv_nsec]; lia.
Qed.

Lemma snoc_split : forall (T : Type) (tr : list T) e tr1 x tr2, tr ++ [e] = tr1 ++ x :: tr2 ->
  (tr2 = [] /\ x = e /\ tr1 = tr) \/ (exists t, tr2 = t ++ [e] /\ tr = tr1 ++ x :: t).
Proof.
  intros T tr e tr1 x tr2 H. destruct tr2 as [|y tr2] using rev_ind.
  - apply app_inj_tail in H. destruct H. subst. auto.
  - right. exists tr2. change (tr1 ++ x :: tr2 ++ [y]) with (tr1 ++ (x :: tr2) ++ [y]) in H.
    rewrite app_assoc in H. apply app_inj_tail in H. destruct H. subst. auto.
Qed.

Definition before (a b : job) : Prop := goes_first (j_id a) (j_ts a) (j_id b) (j_ts b).
Definition done (tr : list event) (id : Z) : Prop :=
  (exists f now arg, In (Ran id f now arg) tr) \/ (exists f, In (Cancelled id f) tr).

Record inv (l : list job) (cs : list Z) (nx : Z) (tr : list event) : Prop := mkInv {
  i_jobs : forall j, In j l <-> (In (Scheduled (j_id j) (j_ts j) (j_fun j)) tr /\ ~ done tr (j_id j));
  i_sorted : StronglySorted before l;
  i_next : forall id ts f, In (Scheduled id ts f) tr -> id < nx;
  i_done : forall id, done tr id -> id < nx;
  i_uniq : forall id ts f ts' f', In (Scheduled id ts f) tr -> In (Scheduled id ts' f') tr -> ts = ts' /\ f = f';
  i_ok : forall id ts f, In (Scheduled id ts f) tr -> ts_ok ts;
  i_ask : forall c, In c cs -> In (CancelAsked c) tr;
  i_run : runs_in_order tr;
  i_can : cancels_properly tr;
  i_inc : ids_increase tr
}.

Lemma waiting_job : forall l cs nx tr id ts, inv l cs nx tr ->
  (waiting tr id ts <-> exists f, In (mkJob id ts f) l).
Proof.
  intros l cs nx tr id ts I. unfold waiting. split.
  - intros ((f & S) & R & C). exists f. apply (i_jobs _ _ _ _ I). cbn. split; [exact S|].
    intros [(f' & n & a & D)|(f' & D)]; [exact (R _ _ _ D)|exact (C _ D)].
  - intros (f & J). apply (i_jobs _ _ _ _ I) in J. cbn in J. destruct J as [S D].
    split; [eauto|]. unfold done in D. split; intros; intro; apply D; eauto 6.
Qed.

Lemma inv_init : inv [] [] 0 [].
Proof.
  constructor.
  - intros j; split; [intros []|intros [[] _]].
  - constructor.
  - intros id ts f [].
  - intros id [(f & n & a & [])|(f & [])].
  - intros id ts f ts' f' [].
  - intros id ts f [].
  - intros c [].
  - intros tr1 id f now arg tr2 H. destruct tr1; discriminate.
  - intros tr1 id f tr2 H. destruct tr1; discriminate.
  - intros tr1 i ti fi tr2 k tk fk tr3 H. destruct tr1; discriminate.
Qed.

(* generic pieces for appending one event *)
Lemma run_snoc : forall tr e, runs_in_order tr ->
  (forall id f now arg, e = Ran id f now arg -> waiting tr id arg /\ In (Scheduled id arg f) tr /\ ns arg <= ns now /\
     forall k tk, waiting tr k tk -> k = id \/ goes_first id arg k tk) ->
  runs_in_order (tr ++ [e]).
Proof.
  intros tr e R H tr1 id f now arg tr2 E. apply snoc_split in E.
  destruct E as [(-> & E & ->)|(t & -> & E)]; [apply (H id f now arg); congruence|]. apply (R _ _ _ _ _ _ E).
Qed.
Lemma can_snoc : forall tr e, cancels_properly tr ->
  (forall id f, e = Cancelled id f -> In (CancelAsked id) tr /\ exists ts, waiting tr id ts /\ In (Scheduled id ts f) tr) ->
  cancels_properly (tr ++ [e]).
Proof.
  intros tr e R H tr1 id f tr2 E. apply snoc_split in E.
  destruct E as [(-> & E & ->)|(t & -> & E)]; [apply (H id f); congruence|]. apply (R _ _ _ _ E).
Qed.
Lemma inc_snoc : forall tr e, ids_increase tr ->
  (forall k tk fk, e = Scheduled k tk fk -> forall i ti fi, In (Scheduled i ti fi) tr -> i < k) ->
  ids_increase (tr ++ [e]).
Proof.
  intros tr e R H tr1 i ti fi tr2 k tk fk tr3 E.
  rewrite app_comm_cons, app_assoc in E. apply snoc_split in E.
  destruct E as [(-> & E & <-)|(t & -> & E)].
  - apply (H k tk fk (eq_sym E) i ti fi). apply in_or_app. right. left. reflexivity.
  - rewrite <- app_assoc in E. apply (R _ _ _ _ _ _ _ _ _ E).
Qed.

Lemma sched_snoc : forall tr e id ts f, In (Scheduled id ts f) (tr ++ [e]) <->
  In (Scheduled id ts f) tr \/ e = Scheduled id ts f.
Proof. intros. rewrite in_app_iff. cbn. intuition. Qed.
Lemma done_snoc : forall tr e id, done (tr ++ [e]) id <->
  done tr id \/ (exists f n a, e = Ran id f n a) \/ (exists f, e = Cancelled id f).
Proof.
  intros. unfold done. split.
  - intros [(f & n & a & H)|(f & H)]; apply in_app_or in H; cbn in H; destruct H as [H|[H|[]]]; subst; eauto 10.
  - intros [[(f & n & a & H)|(f & H)]|[(f & n & a & ->)|(f & ->)]].
    + left; do 3 eexists; apply in_or_app; left; exact H.
    + right; eexists; apply in_or_app; left; exact H.
    + left; do 3 eexists; apply in_or_app; right; left; reflexivity.
    + right; eexists; apply in_or_app; right; left; reflexivity.
Qed.

(* insertion *)
Lemma insert_in : forall j l x, In x (job_insert j l) <-> x = j \/ In x l.
Proof.
  induction l as [|t l IH]; intros x; cbn [job_insert]; [cbn; intuition|].
  destruct (timespec_cmp (j_ts j) (j_ts t) <? 0); cbn; [intuition|]. rewrite IH. intuition.
Qed.
Lemma insert_sorted : forall j l, StronglySorted before l -> ts_ok (j_ts j) ->
  Forall (fun t => ts_ok (j_ts t) /\ j_id t < j_id j) l -> StronglySorted before (job_insert j l).
Proof.
  induction l as [|t l IH]; intros S O F; cbn [job_insert].
  - constructor; constructor.
  - inversion S as [|? ? S' Ft]; subst. inversion F as [|? ? [Ot It] F']; subst.
    destruct (timespec_cmp (j_ts j) (j_ts t) <? 0) eqn:E.
    + constructor; [exact S|]. apply cmp_lt in E; auto. constructor.
      * left. exact E.
      * eapply Forall_impl; [|exact Ft]. intros a [A|[A _]]; left; lia.
    + apply cmp_ge in E; auto. constructor; [apply IH; auto|].
      apply Forall_forall. intros x X. apply insert_in in X. destruct X as [->|X].
      * unfold before, goes_first. lia.
      * rewrite Forall_forall in Ft. auto.
Qed.

Lemma inv_sched : forall l cs nx tr ts f, inv l cs nx tr -> ts_ok ts ->
  inv (job_insert (mkJob nx ts f) l) cs (nx + 1) (tr ++ [Scheduled nx ts f]).
Proof.
  intros l cs nx tr ts f I O. destruct I as [J S N D U K A R C G].
  assert (ND : ~ done tr nx) by (intro X; apply D in X; lia).
  constructor.
  - intros j. rewrite insert_in, sched_snoc, done_snoc, J. destruct j as [jid jts jf]; cbn. split.
    + intros [E|[E Q]].
      * injection E as -> -> ->. split; [auto|]. intros [X|[(? & ? & ? & X)|(? & X)]]; [tauto|discriminate|discriminate].
      * split; [auto|]. intros [X|[(? & ? & ? & X)|(? & X)]]; [tauto|discriminate|discriminate].
    + intros [[E|E] Q]; [right; tauto|left; congruence].
  - apply insert_sorted; cbn; auto. apply Forall_forall. intros x X. apply J in X. destruct X as [X _].
    split; [apply (K _ _ _ X)|apply (N _ _ _ X)].
  - intros id ts' f' X. apply sched_snoc in X. destruct X as [X|X]; [apply N in X; lia|injection X; lia].
  - intros id X. apply done_snoc in X. destruct X as [X|[(?&?&?&X)|(?&X)]]; [apply D in X; lia|discriminate|discriminate].
  - intros id t1 f1 t2 f2 X Y. apply sched_snoc in X, Y. destruct X as [X|X], Y as [Y|Y].
    + eauto.
    + injection Y as <- _ _. apply N in X; lia.
    + injection X as <- _ _. apply N in Y; lia.
    + split; congruence.
  - intros id t1 f1 X. apply sched_snoc in X. destruct X as [X|X]; [eauto|congruence].
  - intros c X. apply in_or_app; auto.
  - apply run_snoc; [auto|discriminate].
  - apply can_snoc; [auto|discriminate].
  - apply inc_snoc; [auto|]. intros k tk fk E i ti fi X. injection E as <- _ _. apply N in X. lia.
Qed.

Lemma inv_ask : forall l cs nx tr c, inv l cs nx tr -> inv l (cs ++ [c]) nx (tr ++ [CancelAsked c]).
Proof.
  intros l cs nx tr c [J S N D U K A R C G]. constructor; auto.
  - intros j. rewrite sched_snoc, done_snoc, J. split.
    + intros [E Q]. split; [auto|]. intros [X|[(? & ? & ? & X)|(? & X)]]; [tauto|discriminate|discriminate].
    + intros [[E|E] Q]; [tauto|discriminate].
  - intros id t f X. apply sched_snoc in X. destruct X as [X|X]; [eauto|discriminate].
  - intros id X. apply done_snoc in X. destruct X as [X|[(?&?&?&X)|(?&X)]]; [auto|discriminate|discriminate].
  - intros id t1 f1 t2 f2 X Y. apply sched_snoc in X, Y. destruct X as [X|X], Y as [Y|Y]; try discriminate. eauto.
  - intros id t1 f1 X. apply sched_snoc in X. destruct X as [X|X]; [eauto|discriminate].
  - intros c' X. apply in_app_or in X. apply in_or_app. destruct X as [X|[->|[]]]; [auto|right; left; auto].
  - apply run_snoc; [auto|discriminate].
  - apply can_snoc; [auto|discriminate].
  - apply inc_snoc; [auto|discriminate].
Qed.

Lemma before_irrefl_id : forall a b, before a b -> j_id a <> j_id b \/ ns (j_ts a) < ns (j_ts b).
Proof. unfold before, goes_first. intros. lia. Qed.

(* removing the element j, done by event e *)
Lemma inv_take : forall l1 j l2 cs cs' nx tr e, inv (l1 ++ j :: l2) cs nx tr ->
  ((exists n, e = Ran (j_id j) (j_fun j) n (j_ts j) /\ l1 = [] /\ ns (j_ts j) <= ns n) \/
   (e = Cancelled (j_id j) (j_fun j) /\ In (CancelAsked (j_id j)) tr)) ->
  (forall c, In c cs' -> In c cs) ->
  inv (l1 ++ l2) cs' nx (tr ++ [e]).
Proof.
  intros l1 j l2 cs cs' nx tr e I E SUB.
  assert (WJ := fun id ts => waiting_job _ _ _ _ id ts I).
  destruct I as [J S N D U K A R C G].
  assert (Ij : In j (l1 ++ j :: l2)) by (apply in_or_app; right; left; reflexivity).
  assert (Sj := proj1 (J j) Ij).
  assert (DE : forall id, done (tr ++ [e]) id <-> done tr id \/ id = j_id j).
  { intros id. rewrite done_snoc. destruct E as [(n & -> & _)|(-> & _)]; split.
    - intros [X|[(f & m & a & X)|(f & X)]]; [auto|right; congruence|discriminate].
    - intros [X| ->]; [auto|right; left; eauto].
    - intros [X|[(f & m & a & X)|(f & X)]]; [auto|discriminate|right; congruence].
    - intros [X| ->]; [auto|right; right; eauto]. }
  assert (SE : forall id ts f, In (Scheduled id ts f) (tr ++ [e]) <-> In (Scheduled id ts f) tr).
  { intros id ts f. rewrite sched_snoc. destruct E as [(n & -> & _)|(-> & _)]; split; auto; intros [X|X]; auto; discriminate. }
  assert (ONLY : forall x, In x (l1 ++ j :: l2) -> j_id x = j_id j -> x = j).
  { intros x X E1. apply J in X. destruct X as [X _]. rewrite E1 in X.
    destruct (U _ _ _ _ _ X (proj1 Sj)). destruct x, j; cbn in *; congruence. }
  assert (NOT : ~ In j (l1 ++ l2)).
  { intro X. clear - S X. induction l1 as [|a l1 IH]; cbn in *.
    - inversion S as [|? ? _ F]; subst. rewrite Forall_forall in F. apply F in X. destruct (before_irrefl_id _ _ X); [congruence|lia].
    - inversion S as [|? ? S' F]; subst. destruct X as [->|X]; [|auto].
      rewrite Forall_forall in F. assert (Y : before j j) by (apply F; apply in_or_app; right; left; auto).
      destruct (before_irrefl_id _ _ Y); [congruence|lia]. }
  constructor.
  - intros x. rewrite SE, DE. split.
    + intros X. assert (X' : In x (l1 ++ j :: l2)) by (apply in_app_or in X; apply in_or_app; destruct X; [auto|right; right; auto]).
      destruct (proj1 (J x) X') as [P Q]. split; [auto|]. intros [Y|Y]; [auto|].
      apply NOT. rewrite <- (ONLY x X' Y). exact X.
    + intros [P Q]. assert (X : In x (l1 ++ j :: l2)) by (apply J; split; [auto|tauto]).
      apply in_app_or in X. apply in_or_app. destruct X as [X|[X|X]]; auto. subst x. tauto.
  - clear - S. induction l1 as [|a l1 IH]; cbn in *; inversion S as [|? ? S' F]; subst; [exact S'|].
    constructor; [auto|]. apply Forall_app in F. destruct F as [F1 F2]. inversion F2; subst. apply Forall_app; auto.
  - intros id ts f X. apply SE in X. eauto.
  - intros id X. apply DE in X. destruct X as [X| ->]; [auto|]. apply (N _ _ _ (proj1 Sj)).
  - intros id t1 f1 t2 f2 X Y. apply SE in X, Y. eauto.
  - intros id t1 f1 X. apply SE in X. eauto.
  - intros c X. apply in_or_app. auto.
  - apply run_snoc; [auto|]. intros id f now arg X. destruct E as [(n & E & L & T)|(E & _)]; [|congruence].
    rewrite E in X. injection X as <- <- <- <-. subst l1. cbn in *.
    split; [apply WJ; exists (j_fun j); left; destruct j; reflexivity|]. split; [tauto|]. split; [exact T|].
    intros k tk W. apply WJ in W. destruct W as (f & [W|W]).
    + left. subst j. reflexivity.
    + right. inversion S as [|? ? _ F]; subst. rewrite Forall_forall in F. apply F in W. exact W.
  - apply can_snoc; [auto|]. intros id f X. destruct E as [(n & E & _)|(E & Q)]; [congruence|].
    rewrite E in X. injection X as <- <-. split; [auto|]. exists (j_ts j). split; [|tauto].
    apply WJ. exists (j_fun j). destruct j; exact Ij.
  - apply inc_snoc; [auto|]. intros k tk fk X. destruct E as [(n & E & _)|(E & _)]; congruence.
Qed.

Lemma job_remove_split : forall c l, 
  (fst (job_remove c l) = l /\ snd (job_remove c l) = [] /\ (forall x, In x l -> j_id x <> c)) \/
  exists l1 j l2, l = l1 ++ j :: l2 /\ j_id j = c /\ fst (job_remove c l) = l1 ++ l2 /\
    snd (job_remove c l) = [Cancelled (j_id j) (j_fun j)].
Proof.
  induction l as [|a l IH]; cbn [job_remove]; [left; cbn; auto|].
  destruct (Z.eqb_spec (j_id a) c) as [E|E].
  - right. exists [], a, l. cbn. auto.
  - destruct (job_remove c l) as [r e]. cbn in *. destruct IH as [(-> & -> & H)|(l1 & j & l2 & -> & H1 & -> & ->)].
    + left. split; [auto|]. split; [auto|]. intros x [->|X]; auto.
    + right. exists (a :: l1), j, l2. cbn. auto.
Qed.

Lemma inv_weaken : forall l cs cs' nx tr, inv l cs nx tr -> (forall c, In c cs' -> In c cs) -> inv l cs' nx tr.
Proof. intros l cs cs' nx tr [J S N D U K A R C G] H. constructor; auto. Qed.

Lemma drain_inv : forall cs l nx tr, inv l cs nx tr ->
  inv (fst (drain cs l)) [] nx (tr ++ snd (drain cs l)).
Proof.
  induction cs as [|c cs IH]; intros l nx tr I; cbn [drain].
  - cbn. rewrite app_nil_r. exact I.
  - assert (Q := job_remove_split c l). destruct (job_remove c l) as [l1 e1]. cbn in Q.
    specialize (IH l1 nx (tr ++ e1)). destruct (drain cs l1) as [l2 e2]. cbn in *.
    rewrite app_assoc. apply IH. destruct Q as [(-> & -> & _)|(a & j & b & -> & E & -> & ->)].
    + rewrite app_nil_r. eapply inv_weaken; [exact I|]. cbn; auto.
    + eapply inv_take; [exact I| |cbn; auto]. right. split; [auto|].
      rewrite E. apply (i_ask _ _ _ _ I). left. auto.
Qed.

Definition held_ok (q : jobq) (tr : list event) : Prop :=
  forall h, q_held q = Some h -> In (Scheduled (j_id h) (j_ts h) (j_fun h)) tr.
Definition qinv (q : jobq) (tr : list event) : Prop :=
  inv (q_jobs q) (q_cncl q) (q_next q) tr /\ held_ok q tr.

Lemma top_inv : forall q tr, inv (q_jobs q) (q_cncl q) (q_next q) tr ->
  qinv (fst (timer_top q)) (tr ++ snd (timer_top q)).
Proof.
  intros q tr I. unfold timer_top. assert (D := drain_inv _ _ _ _ I).
  destruct (drain (q_cncl q) (q_jobs q)) as [l e]. cbn in *. split; [exact D|].
  intros h H. cbn in H. destruct l as [|j l]; cbn in H; [discriminate|]. injection H as ->.
  apply (i_jobs _ _ _ _ D). left. auto.
Qed.

Lemma held_mono : forall q tr e, held_ok q tr -> held_ok q (tr ++ e).
Proof. intros q tr e H h E. apply in_or_app. auto. Qed.

Lemma step_inv : forall q tr o, qinv q tr -> jop_ok o ->
  qinv (fst (jstep q o)) (tr ++ snd (jstep q o)).
Proof.
  intros q tr o [I H] O. destruct o as [ts f|c| |now]; cbn [jstep].
  - cbn. split; [apply inv_sched; auto|]. apply (held_mono q tr); auto.
  - cbn. split; [apply inv_ask; auto|]. apply (held_mono q tr); auto.
  - apply top_inv; auto.
  - unfold timer_timeout. destruct (q_held q) as [h|] eqn:Eh; [|cbn; rewrite app_nil_r; split; auto].
    assert (Sh := H h Eh). cbn in O.
    destruct (timespec_cmp now (j_ts h) <? 0) eqn:Ec; [cbn; rewrite app_nil_r; split; auto|].
    apply cmp_ge in Ec; [|auto|apply (i_ok _ _ _ _ I _ _ _ Sh)].
    destruct (q_jobs q) as [|j l] eqn:Ej; [apply top_inv; rewrite Ej; auto|].
    destruct (Z.eqb_spec (j_id h) (j_id j)) as [E|E]; [|apply top_inv; rewrite Ej; auto].
    assert (Sj := proj1 (proj1 (i_jobs _ _ _ _ I j) (or_introl eq_refl))).
    rewrite E in Sh. destruct (i_uniq _ _ _ _ I _ _ _ _ _ Sh Sj) as [E1 E2].
    assert (T := top_inv (mkQ l (q_cncl q) (q_next q) (q_held q)) (tr ++ [Ran (j_id j) (j_fun j) now (j_ts j)])).
    destruct (timer_top _) as [q' e] in *. cbn in *. rewrite <- app_assoc in T. apply T.
    apply (inv_take [] j l (q_cncl q) (q_cncl q) (q_next q) tr); auto.
    left. exists now. rewrite <- E1. auto.
Qed.

Lemma run_inv_gen : forall os q tr, qinv q tr -> Forall jop_ok os ->
  qinv (fst (jrun q os)) (tr ++ snd (jrun q os)).
Proof.
  induction os as [|o os IH]; intros q tr Q F; cbn [jrun].
  - cbn. rewrite app_nil_r. auto.
  - inversion F; subst. assert (S := step_inv q tr o Q H1). destruct (jstep q o) as [q1 e1].
    specialize (IH q1 (tr ++ e1) S H2). destruct (jrun q1 os) as [q2 e2]. cbn in *. rewrite app_assoc. auto.
Qed.
Lemma run_inv : forall os, Forall jop_ok os -> qinv (queue os) (events os).
Proof.
  intros os F. apply (run_inv_gen os q_init []); [|auto]. split; [apply inv_init|]. intros h H. discriminate.
Qed.

Lemma jrun_app : forall a b q, jrun q (a ++ b) =
  (fst (jrun (fst (jrun q a)) b), snd (jrun q a) ++ snd (jrun (fst (jrun q a)) b)).
Proof.
  induction a as [|o a IH]; intros b q; cbn [app jrun]; [cbn; destruct (jrun q b); reflexivity|].
  destruct (jstep q o) as [q1 e1]. rewrite IH. destruct (jrun q1 a) as [q2 e2]. cbn. rewrite app_assoc. reflexivity.
Qed.
Lemma events_app : forall a b, events (a ++ b) = events a ++ snd (jrun (queue a) b).
Proof. intros. unfold events, queue. rewrite jrun_app. reflexivity. Qed.
Lemma queue_app : forall a b, queue (a ++ b) = fst (jrun (queue a) b).
Proof. intros. unfold events, queue. rewrite jrun_app. reflexivity. Qed.

Lemma job_find_in : forall l id ts, job_find id l = Some ts -> exists f, In (mkJob id ts f) l.
Proof.
  induction l as [|j l IH]; intros id ts H; cbn in H; [discriminate|].
  destruct (Z.eqb_spec (j_id j) id) as [E|E].
  - injection H as <-. exists (j_fun j). left. destruct j; cbn in *; congruence.
  - destruct (IH _ _ H) as (f & I). exists f. right. exact I.
Qed.
Lemma job_find_some : forall l id ts f, In (mkJob id ts f) l -> exists ts', job_find id l = Some ts'.
Proof.
  induction l as [|j l IH]; intros id ts f H; [destruct H|]. cbn [job_find].
  destruct (Z.eqb_spec (j_id j) id) as [E|E]; [eauto|]. destruct H as [->|H]; [cbn in E; congruence|]. eauto.
Qed.
Lemma get_timestamp_spec : forall os id ts, Forall jop_ok os ->
  (job_get_timestamp id (queue os) = Some ts <-> waiting (events os) id ts).
Proof.
  intros os id ts F. destruct (run_inv os F) as [I _]. unfold job_get_timestamp.
  rewrite (waiting_job _ _ _ _ id ts I). split; [apply job_find_in|].
  intros (f & X). destruct (job_find_some _ _ _ _ X) as (ts' & E). rewrite E. f_equal.
  destruct (job_find_in _ _ _ E) as (f' & Y). apply (i_jobs _ _ _ _ I) in X, Y. cbn in X, Y.
  destruct X as [X _], Y as [Y _]. symmetry. apply (i_uniq _ _ _ _ I _ _ _ _ _ X Y).
Qed.

(* a requested cancellation is honoured by the next pass *)
Lemma remove_hit : forall c l j, In j l -> j_id j = c -> exists f, In (Cancelled c f) (snd (job_remove c l)).
Proof.
  intros c l j I E. destruct (job_remove_split c l) as [(_ & _ & H)|(l1 & k & l2 & _ & E2 & _ & ->)].
  - apply H in I. congruence.
  - rewrite <- E2. eexists. left. reflexivity.
Qed.
Lemma remove_keep : forall c l j, In j l -> j_id j <> c -> In j (fst (job_remove c l)).
Proof.
  intros c l j I E. destruct (job_remove_split c l) as [(-> & _)|(l1 & k & l2 & -> & E2 & -> & _)]; [auto|].
  apply in_app_or in I. apply in_or_app. destruct I as [I|[->|I]]; auto. congruence.
Qed.
Lemma drain_hit : forall cs l j, In j l -> In (j_id j) cs -> exists f, In (Cancelled (j_id j) f) (snd (drain cs l)).
Proof.
  induction cs as [|c cs IH]; intros l j I C; [destruct C|]. cbn [drain].
  destruct (Z.eq_dec (j_id j) c) as [E|E].
  - destruct (remove_hit c l j I E) as (f & H). destruct (job_remove c l) as [l1 e1]. destruct (drain cs l1) as [l2 e2].
    cbn in *. exists f. rewrite E. apply in_or_app. auto.
  - destruct C as [C|C]; [congruence|]. assert (K := remove_keep c l j I E).
    destruct (job_remove c l) as [l1 e1]. cbn in K. destruct (IH l1 j K C) as (f & H).
    destruct (drain cs l1) as [l2 e2]. cbn in *. exists f. apply in_or_app. auto.
Qed.
Lemma drain_keep : forall cs l j, In j l -> ~ In (j_id j) cs -> In j (fst (drain cs l)).
Proof.
  induction cs as [|c cs IH]; intros l j I C; [exact I|]. cbn [drain].
  assert (K := remove_keep c l j I). destruct (job_remove c l) as [l1 e1]. cbn in K.
  specialize (IH l1 j). destruct (drain cs l1) as [l2 e2]. cbn in *. apply IH; [apply K|]; intuition.
Qed.

Lemma mid_keep : forall mid q j, Forall not_timer mid -> In j (q_jobs q) -> In (j_id j) (q_cncl q) ->
  In j (q_jobs (fst (jrun q mid))) /\ In (j_id j) (q_cncl (fst (jrun q mid))).
Proof.
  induction mid as [|o mid IH]; intros q j F I C; cbn [jrun]; [auto|]. inversion F as [|? ? N F']; subst.
  assert (X : In j (q_jobs (fst (jstep q o))) /\ In (j_id j) (q_cncl (fst (jstep q o)))).
  { destruct o; try destruct N; cbn; split; auto; [apply insert_in; auto|apply in_or_app; auto]. }
  destruct (jstep q o) as [q1 e1]. cbn in X. destruct X as [X Y].
  specialize (IH q1 j F' X Y). destruct (jrun q1 mid). exact IH.
Qed.

Lemma cancel_next : forall os id ts mid, Forall jop_ok os -> waiting (events os) id ts -> Forall not_timer mid ->
  exists f, In (Cancelled id f) (events (os ++ JCancel id :: mid ++ [JWake])).
Proof.
  intros os id ts mid F W M. destruct (run_inv os F) as [I _]. apply (waiting_job _ _ _ _ id ts I) in W.
  destruct W as (f0 & W).
  replace (os ++ JCancel id :: mid ++ [JWake]) with ((os ++ [JCancel id] ++ mid) ++ [JWake])
    by (cbn; rewrite <- !app_assoc; reflexivity).
  destruct (mid_keep mid (queue (os ++ [JCancel id])) (mkJob id ts f0) M) as [A B].
  - rewrite queue_app. cbn. exact W.
  - rewrite queue_app. cbn. apply in_or_app. right. left. reflexivity.
  - rewrite <- queue_app, <- app_assoc in A, B. cbn [app] in *.
    destruct (drain_hit _ _ _ A B) as (f & H). cbn [j_id] in H. exists f.
    rewrite events_app. apply in_or_app. right. cbn [jrun jstep]. unfold timer_wake, timer_top.
    destruct (drain _ _) as [l e]. cbn in *. rewrite app_nil_r. exact H.
Qed.

Lemma due_runs : forall os now id ts, Forall jop_ok os -> ts_ok now ->
  waiting (events (os ++ [JWake])) id ts -> ns ts <= ns now ->
  starts_job (JTimeout now) (queue (os ++ [JWake])).
Proof.
  intros os now id ts F N W T.
  assert (F' : Forall jop_ok (os ++ [JWake])) by (apply Forall_app; split; [auto|constructor; [exact Logic.I|constructor]]).
  destruct (run_inv _ F') as [I _]. apply (waiting_job _ _ _ _ id ts I) in W. destruct W as (f & W).
  assert (S := i_sorted _ _ _ _ I). assert (J := i_jobs _ _ _ _ I). assert (K := i_ok _ _ _ _ I).
  assert (HD : q_held (queue (os ++ [JWake])) = hd_error (q_jobs (queue (os ++ [JWake])))).
  { rewrite queue_app. cbn. unfold timer_wake, timer_top. destruct (drain _ _). reflexivity. }
  set (q := queue (os ++ [JWake])) in *.
  unfold starts_job. cbn [jstep]. unfold timer_timeout. rewrite HD.
  destruct (q_jobs q) as [|j l] eqn:E; [destruct W|]. cbn [hd_error].
  assert (Oj : ts_ok (j_ts j)) by (apply (K (j_id j) (j_ts j) (j_fun j)); apply (J j); left; auto).
  assert (LE : ns (j_ts j) <= ns now).
  { destruct W as [->|W]; [exact T|]. inversion S as [|? ? _ Fa]; subst. rewrite Forall_forall in Fa.
    apply Fa in W. unfold before, goes_first in W. cbn in W. lia. }
  replace (timespec_cmp now (j_ts j) <? 0) with false by (symmetry; apply cmp_ge; auto).
  rewrite Z.eqb_refl. destruct (timer_top _) as [q' e]. do 4 eexists. left. reflexivity.
Qed.

(* consequences on events *)
Lemma waiting_sched : forall tr id ts, waiting tr id ts -> exists f, In (Scheduled id ts f) tr.
Proof. intros tr id ts (H & _). exact H. Qed.

Lemma once : forall os tr1 e tr2 id, Forall jop_ok os -> events os = tr1 ++ e :: tr2 ->
  ends id e -> forall e', In e' tr2 -> ~ ends id e'.
Proof.
  intros os tr1 e tr2 id F E D e' X. destruct (run_inv os F) as [I _].
  apply in_split in X. destruct X as (t1 & t2 & ->). rewrite app_comm_cons, app_assoc in E.
  assert (IN : forall z, z = e -> In z (tr1 ++ e :: t1)) by (intros z ->; apply in_or_app; right; left; auto).
  intros [(f & n & a & ->)|(f & ->)].
  - destruct (i_run _ _ _ _ I _ _ _ _ _ _ E) as ((_ & R & C) & _).
    destruct D as [(f' & n' & a' & ->)|(f' & ->)]; [eapply R|eapply C]; apply IN; reflexivity.
  - destruct (i_can _ _ _ _ I _ _ _ _ E) as (_ & ts & (_ & R & C) & _).
    destruct D as [(f' & n' & a' & ->)|(f' & ->)]; [eapply R|eapply C]; apply IN; reflexivity.
Qed.
