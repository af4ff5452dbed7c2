(** Proofs about the worker pool. *)
From Coq Require Import List Arith Bool Lia ZifyBool.
From Verif Require Import PoolModel PoolSpec.
Import ListNotations.
Local Arguments firstn : simpl never.
Local Arguments skipn : simpl never.

(** ** Lists of workers *)
Definition b2n (b : bool) : nat := if b then 1 else 0.

Lemma count_app : forall A (f : A -> bool) a b, count f (a ++ b) = count f a + count f b.
Proof. intros. unfold count. rewrite filter_app, app_length. auto. Qed.
Lemma count_cons : forall A (f : A -> bool) x l, count f (x :: l) = b2n (f x) + count f l.
Proof. intros. unfold count. cbn [filter]. destruct (f x); auto. Qed.
Lemma count_set : forall f l i w w', nth_error l i = Some w -> count f (set l i w') + b2n (f w) = count f l + b2n (f w').
Proof.
  intros f l i w w' H. unfold set. apply nth_error_split in H as (a & b & -> & <-).
  rewrite firstn_app, firstn_all, Nat.sub_diag, firstn_O, app_nil_r.
  replace (skipn (S (length a)) (a ++ w :: b)) with b.
  - rewrite !count_app, !count_cons. lia.
  - rewrite skipn_app, skipn_all2 by lia. replace (S (length a) - length a) with 1 by lia. reflexivity.
Qed.
Lemma set_length : forall l i w w', nth_error l i = Some w -> length (set l i w') = length l.
Proof.
  intros l i w w' H. unfold set. assert (i < length l) by (apply nth_error_Some; congruence).
  rewrite app_length, firstn_length. cbn [length]. rewrite skipn_length. lia.
Qed.
Lemma set_same : forall l i w w', nth_error l i = Some w -> nth_error (set l i w') i = Some w'.
Proof.
  intros l i w w' H. unfold set. assert (i < length l) by (apply nth_error_Some; congruence).
  rewrite nth_error_app2; rewrite firstn_length; [|lia]. replace (i - Nat.min i (length l)) with 0 by lia. auto.
Qed.
Lemma set_other : forall l i w w' j, nth_error l i = Some w -> j <> i -> nth_error (set l i w') j = nth_error l j.
Proof.
  intros l i w w' j H N. unfold set. assert (i < length l) by (apply nth_error_Some; congruence).
  apply nth_error_split in H as (a & b & -> & <-). rewrite firstn_app, firstn_all, Nat.sub_diag, firstn_O, app_nil_r.
  replace (skipn (S (length a)) (a ++ w :: b)) with b.
  2: { rewrite skipn_app, skipn_all2 by lia. replace (S (length a) - length a) with 1 by lia. reflexivity. }
  destruct (Nat.lt_ge_cases j (length a)).
  - rewrite !nth_error_app1 by lia. auto.
  - rewrite !nth_error_app2 by lia. destruct (j - length a) eqn:E; [lia|]. auto.
Qed.
Lemma set_in : forall l i w w' x, nth_error l i = Some w -> In x (set l i w') -> x = w' \/ In x l.
Proof.
  intros l i w w' x H I. unfold set in I. apply in_app_or in I as [I|[I|I]]; auto.
  - right. eapply (proj1 (in_app_iff _ _ _)) || (rewrite <- (firstn_skipn i l); apply in_or_app; auto).
  - right. rewrite <- (firstn_skipn (S i) l). apply in_or_app. auto.
Qed.

Lemma count_pos : forall f (l : list wstate), 1 <= count f l <-> exists i w, nth_error l i = Some w /\ f w = true.
Proof.
  intros f l. unfold count. split.
  - intros H. destruct (filter f l) as [|w r] eqn:E; [cbn in H; lia|]. assert (I : In w (filter f l)) by (rewrite E; left; auto).
    apply filter_In in I as [I F]. apply In_nth_error in I as [i I]. eauto.
  - intros (i & w & N & F). assert (I : In w (filter f l)) by (apply filter_In; split; auto; eapply nth_error_In; eauto).
    destruct (filter f l); [destruct I|cbn; lia].
Qed.
Lemma count_zero : forall f (l : list wstate), count f l = 0 <-> forall i w, nth_error l i = Some w -> f w = false.
Proof.
  intros f l. split.
  - intros H i w N. destruct (f w) eqn:F; auto. assert (1 <= count f l) by (apply count_pos; eauto). lia.
  - intros H. destruct (count f l) eqn:E; auto. assert (P : 1 <= count f l) by lia. apply count_pos in P as (i & w & N & F). rewrite (H i w N) in F. discriminate.
Qed.

(** A thread that will look at the queue or is serving a request *)
Definition alert (w : wstate) : bool := match w with Entry | Woken false | Busy _ => true | _ => false end.

Section Proofs.
  Variables mn mx : nat.
  Notation step := (step mn mx).
  Notation run := (run mn mx).
  Notation init := (init mn).

  (** ** Order *)
  Lemma loop_fifo : forall s i c s' out, loop mn s i c = Some (s', out) -> out ++ queue s' = queue s.
  Proof.
    intros s i c s' out H. unfold loop in H. destruct (queue s) as [|r q].
    - destruct c; [discriminate|]. injection H as <- <-. auto.
    - destruct q as [|r' q].
      + destruct c; [discriminate|]. injection H as <- <-. auto.
      + destruct (signal _ c); [|discriminate]. injection H as <- <-. auto.
  Qed.
  Lemma step_fifo : forall s l s' out, step s l = Some (s', out) -> out ++ queue s' = queue s ++ arrivals [l].
  Proof.
    intros s l s' out H. destruct l as [r c|i|i|i c|i c|i|]; cbn [PoolModel.step arrivals flat_map] in *; rewrite ?app_nil_r in *.
    - destruct (main s); try discriminate. unfold enqueue in H. destruct (signal _ c); [|discriminate]. injection H as <- <-. auto.
    - destruct (nth_error (workers s) i) as [[|[]| | |]|]; try discriminate. injection H as <- <-. auto.
    - destruct (nth_error (workers s) i) as [[|[]| | |]|]; try discriminate; injection H as <- <-; auto.
    - destruct (nth_error (workers s) i) as [[|[]| | |]|]; try discriminate. eapply loop_fifo; eauto.
    - destruct (nth_error (workers s) i) as [[|[]|late| |]|]; try discriminate. unfold resume in H. destruct (late && _).
      + destruct c; [discriminate|]. injection H as <- <-. auto.
      + eapply loop_fifo; eauto.
    - destruct (nth_error (workers s) i) as [[|[]| | |]|]; try discriminate. injection H as <- <-. auto.
    - destruct (main s) as [[|k]|k|k|]; try discriminate; injection H as <- <-; auto.
  Qed.
  Lemma run_fifo : forall ls s s' out, run s ls = Some (s', out) -> out ++ queue s' = queue s ++ arrivals ls.
  Proof.
    induction ls as [|l ls IH]; intros s s' out H; cbn [PoolModel.run] in H.
    - injection H as <- <-. cbn. rewrite app_nil_r. auto.
    - destruct (step s l) as [[s1 o1]|] eqn:S1; [|discriminate]. destruct (run s1 ls) as [[s2 o2]|] eqn:R; [|discriminate]. injection H as <- <-.
      apply IH in R. apply step_fifo in S1. rewrite <- app_assoc, R, app_assoc, S1, <- app_assoc. f_equal. cbn. rewrite app_nil_r. auto.
  Qed.

  Lemma run_app : forall a b s, run s (a ++ b) =
    match run s a with
    | None => None
    | Some (s', o) => match run s' b with None => None | Some (s'', o') => Some (s'', o ++ o') end
    end.
  Proof.
    induction a as [|l a IH]; intros b s; cbn [PoolModel.run app].
    - destruct (run s b) as [[]|]; auto.
    - destruct (step s l) as [[s1 o1]|]; auto. rewrite IH. destruct (run s1 a) as [[s2 o2]|]; auto.
      destruct (run s2 b) as [[s3 o3]|]; auto. rewrite app_assoc. auto.
  Qed.

  (** ** Counting *)
  Definition quiet (s : state) : Prop := queue s = [] /\ forall w, In w (workers s) -> match w with Dead | Woken true | Busy _ => False | _ => True end.
  Definition inv (s : state) : Prop :=
    active_threads s = count busy (workers s) /\
    match main s with
    | Boot k | Created k => worker_count s = mn /\ length (workers s) + k = mn /\ quiet s
    | Counted k => worker_count s = S mn /\ length (workers s) + k = mn /\ quiet s
    | Up => worker_count s = count live (workers s) /\ mn <= worker_count s <= mx /\
            (1 <= mn -> queue s <> [] -> 1 <= count alert (workers s) \/ (count waiting (workers s) = 0 /\ 1 <= count live (workers s)))
    end.

  Lemma init_inv : mn <= mx -> inv init.
  Proof. intros L. unfold inv, PoolModel.init, quiet. cbn. repeat split; auto. intros w []. Qed.

  Lemma signal_spec : forall l c l', signal l c = Some l' ->
    count busy l' = count busy l /\ count live l' = count live l /\ length l' = length l /\
    (forall w, In w l' -> w = Woken false \/ In w l) /\
    (c = None -> l' = l /\ count waiting l = 0) /\ (c <> None -> 1 <= count alert l') /\ count alert l <= count alert l' /\
    (forall i w, nth_error l i = Some w -> waiting w = false -> nth_error l' i = Some w).
  Proof.
    intros l c l' H. unfold signal in H. destruct c as [j|].
    - destruct (nth_error l j) as [[|t| | |]|] eqn:N; try discriminate. injection H as <-.
      pose proof (count_set busy l j _ (Woken false) N). pose proof (count_set live l j _ (Woken false) N). pose proof (count_set alert l j _ (Woken false) N). cbn [busy live alert b2n] in *.
      split; [lia|]. split; [lia|]. split; [eapply set_length; eauto|]. split; [intros w I; eapply set_in in I; eauto|]. split; [discriminate|]. split; [lia|]. split; [lia|].
      intros i w Ni Wi. destruct (Nat.eq_dec i j) as [->|D]; [rewrite N in Ni; injection Ni as <-; discriminate|]. erewrite set_other; eauto.
    - destruct (existsb waiting l) eqn:E; [discriminate|]. injection H as <-. repeat split; auto; try lia; try congruence.
      apply count_zero. intros i w N. destruct (waiting w) eqn:W; auto. exfalso. enough (existsb waiting l = true) by congruence. apply existsb_exists. exists w. split; auto. eapply nth_error_In; eauto.
  Qed.

  (** worker [i] in state [w], not busy, goes through the loop *)
  Lemma loop_inv : forall s i c s' out w, inv s -> nth_error (workers s) i = Some w -> live w = true -> busy w = false -> loop mn s i c = Some (s', out) -> inv s'.
  Proof.
    intros s i c s' out w (IA & IM) N LV NB H. unfold loop in H. destruct (queue s) as [|r q] eqn:Q.
    - destruct c; [discriminate|]. injection H as <- <-. unfold inv. cbn [active_threads main worker_count workers queue].
      set (t := negb (worker_count s =? mn)).
      pose proof (count_set busy _ i _ (Wait t) N) as CB. pose proof (count_set live _ i _ (Wait t) N) as CL. cbn [busy live b2n] in *. rewrite NB in CB. rewrite LV in CL. cbn [b2n] in *.
      split; [lia|]. assert (QS : quiet s -> quiet (mkSt (main s) [] (worker_count s) (active_threads s) (set (workers s) i (Wait t)))).
      { intros [_ Q2]. split; [auto|]. cbn [workers]. intros x I. apply (set_in _ _ _ _ _ N) in I as [->|I]; [exact Logic.I|exact (Q2 x I)]. }
      unfold quiet in *. cbn [queue workers] in *. destruct (main s); rewrite ?(set_length _ _ _ _ N); try tauto. split; [lia|]. split; [lia|]. congruence.
    - assert (U : main s = Up) by (unfold quiet in IM; rewrite Q in IM; destruct (main s); auto; destruct IM as (_ & _ & IM & _); discriminate). rewrite U in *.
      destruct IM as (M1 & M2 & M3).
      pose proof (count_set busy _ i _ (Busy r) N) as CB. pose proof (count_set live _ i _ (Busy r) N) as CL. pose proof (count_set alert _ i _ (Busy r) N) as CA. cbn [busy live alert b2n] in *. rewrite NB in CB. rewrite LV in CL. cbn [b2n] in *.
      assert (P : 1 <= count alert (set (workers s) i (Busy r))). { apply count_pos. exists i, (Busy r). split; auto. eapply set_same; eauto. }
      destruct q as [|r' q].
      + destruct c; [discriminate|]. injection H as <- <-. unfold inv. cbn [active_threads main worker_count workers queue]. split; [lia|]. split; [lia|]. split; [lia|]. auto.
      + destruct (signal _ c) as [ws|] eqn:SG; [|discriminate]. injection H as <- <-. apply signal_spec in SG as (S1 & S2 & S3 & S4 & S5 & S6 & S7 & S8).
        unfold inv. cbn [active_threads main worker_count workers queue]. split; [lia|]. split; [lia|]. split; [lia|]. intros _ _. left. lia.
  Qed.

  Definition early (s : state) (l : label) : Prop := match l with Timeout _ => main s <> Up | _ => False end.

  Lemma step_inv : forall s l s' out, mn <= mx -> inv s -> ~ early s l -> step s l = Some (s', out) -> inv s'.
  Proof.
    intros s l s' out MM I NE H. destruct l as [r c|i|i|i c|i c|i|]; cbn [PoolModel.step early] in *.
    - destruct (main s) eqn:U; try discriminate. unfold enqueue in H. destruct I as (IA & IM). rewrite U in IM. destruct IM as (M1 & M2 & M3).
      destruct (signal _ c) as [ws|] eqn:SG; [|discriminate]. injection H as <- <-. apply signal_spec in SG as (S1 & S2 & S3 & S4 & S5 & S6 & S7 & S8).
      unfold inv. cbn [active_threads main worker_count workers queue]. rewrite S1, S2, U.
      destruct ((worker_count s <? mx) && (worker_count s =? active_threads s)) eqn:ST.
      + rewrite !count_app. cbn [count filter length busy live]. change (count busy [Entry]) with 0. change (count live [Entry]) with 1. split; [lia|]. split; [lia|]. split; [lia|].
        intros _ _. left. rewrite count_app in S7. change (count alert [Entry]) with 1 in S7. lia.
      + split; [lia|]. split; [lia|]. split; [lia|]. intros P _. destruct c as [j|]; [left; apply S6; discriminate|]. destruct (S5 eq_refl) as [-> W0]. right. split; [auto|]. lia.
    - assert (U : main s = Up) by (destruct (main s); auto; exfalso; apply NE; discriminate). destruct I as (IA & IM). rewrite U in IM. destruct IM as (M1 & M2 & M3).
      destruct (nth_error (workers s) i) as [[|[]| | |]|] eqn:N; try discriminate. injection H as <- <-. unfold inv. cbn [active_threads main worker_count workers queue]. rewrite U.
      pose proof (count_set busy _ i _ (Woken true) N) as CB. pose proof (count_set live _ i _ (Woken true) N) as CL. pose proof (count_set alert _ i _ (Woken true) N) as CA. pose proof (count_set waiting _ i _ (Woken true) N) as CW. cbn [busy live alert waiting b2n] in *.
      split; [lia|]. split; [lia|]. split; [lia|]. intros P Q. specialize (M3 P Q). lia.
    - destruct I as (IA & IM).
      destruct (nth_error (workers s) i) as [[|t| | |]|] eqn:N; try discriminate. injection H as <- <-. unfold inv. cbn [active_threads main worker_count workers queue].
      pose proof (count_set busy _ i _ (Woken false) N) as CB. pose proof (count_set live _ i _ (Woken false) N) as CL. pose proof (count_set alert _ i _ (Woken false) N) as CA. pose proof (count_set waiting _ i _ (Woken false) N) as CW. cbn [busy live alert waiting b2n] in *.
      split; [lia|]. assert (QS : quiet s -> quiet (mkSt (main s) (queue s) (worker_count s) (active_threads s) (set (workers s) i (Woken false)))).
      { intros [Q1 Q2]. split; [auto|]. cbn [workers]. intros x J. apply (set_in _ _ _ _ _ N) in J as [->|J]; [exact Logic.I|exact (Q2 x J)]. }
      unfold quiet in *. cbn [queue workers] in *. destruct (main s); rewrite ?(set_length _ _ _ _ N); try tauto. destruct IM as (M1 & M2 & M3). split; [lia|]. split; [lia|]. intros P Q. specialize (M3 P Q). lia.
    - destruct (nth_error (workers s) i) as [[|[]| | |]|] eqn:N; try discriminate. eapply loop_inv; eauto.
    - destruct (nth_error (workers s) i) as [[|[]|late| |]|] eqn:N; try discriminate. unfold resume in H. destruct (late && negb (worker_count s =? mn)) eqn:LT.
      + destruct c; [discriminate|]. injection H as <- <-. destruct late; [|discriminate]. destruct I as (IA & IM).
        assert (U : main s = Up). { unfold quiet in IM. destruct (main s); auto; exfalso; destruct IM as (_ & _ & _ & IM); exact (IM (Woken true) (nth_error_In _ _ N)). }
        rewrite U in IM. destruct IM as (M1 & M2 & M3). unfold inv. cbn [active_threads main worker_count workers queue]. rewrite U.
        pose proof (count_set busy _ i _ Dead N) as CB. pose proof (count_set live _ i _ Dead N) as CL. pose proof (count_set alert _ i _ Dead N) as CA. pose proof (count_set waiting _ i _ Dead N) as CW. cbn [busy live alert waiting b2n] in *.
        split; [lia|]. split; [lia|]. split; [lia|]. intros P Q. specialize (M3 P Q). lia.
      + eapply loop_inv; eauto.
    - destruct I as (IA & IM). destruct (nth_error (workers s) i) as [[|[]| | |]|] eqn:N; try discriminate. injection H as <- <-. unfold inv. cbn [active_threads main worker_count workers queue].
      assert (U : main s = Up). { unfold quiet in IM. destruct (main s); auto; exfalso; destruct IM as (_ & _ & _ & IM); exact (IM (Busy r) (nth_error_In _ _ N)). }
      rewrite U in *. destruct IM as (M1 & M2 & M3).
      pose proof (count_set busy _ i _ Entry N) as CB. pose proof (count_set live _ i _ Entry N) as CL. pose proof (count_set alert _ i _ Entry N) as CA. pose proof (count_set waiting _ i _ Entry N) as CW. cbn [busy live alert waiting b2n] in *.
      split; [lia|]. split; [lia|]. split; [lia|]. intros P Q. specialize (M3 P Q). lia.
    - destruct I as (IA & IM). unfold inv, quiet in *. destruct (main s) as [[|k]|k|k|]; try discriminate; injection H as <- <-; cbn [active_threads main worker_count workers queue].
      + destruct IM as (M1 & M2 & M3 & M4). split; [auto|]. assert (LV : count live (workers s) = length (workers s)).
        { clear - M4. unfold count. f_equal. induction (workers s) as [|w l IH]; auto. cbn [filter]. pose proof (M4 w (or_introl eq_refl)) as W. destruct w as [| |[]| |]; try contradiction; cbn [live]; rewrite IH; auto; intros; apply M4; right; auto. }
        split; [lia|]. split; [lia|]. rewrite M3. congruence.
      + rewrite count_app, app_length. change (count busy [Entry]) with 0. cbn [length]. destruct IM as (M1 & M2 & M3 & M4). repeat split; auto; try lia.
        intros w J. apply in_app_or in J as [J|[<-|[]]]; [exact (M4 w J)|exact Logic.I].
      + destruct IM as (M1 & M2 & M3). split; [auto|]. split; [lia|]. split; [lia|]. exact M3.
      + destruct IM as (M1 & M2 & M3). repeat split; try tauto; try lia.
  Qed.

  Lemma run_inv : forall ls s s' out, mn <= mx -> inv s -> (forall a i b s1 o, ls = a ++ Timeout i :: b -> run s a = Some (s1, o) -> main s1 = Up) -> run s ls = Some (s', out) -> inv s'.
  Proof.
    induction ls as [|l ls IH]; intros s s' out MM I C H; cbn [PoolModel.run] in H; [injection H as <- <-; auto|].
    destruct (step s l) as [[s1 o1]|] eqn:S1; [|discriminate]. destruct (run s1 ls) as [[s2 o2]|] eqn:R; [|discriminate]. injection H as <- <-.
    apply (IH s1 s2 o2); auto.
    - eapply step_inv; eauto. intros E. destruct l; cbn [early] in E; try contradiction. apply E. exact (C [] i ls s [] eq_refl eq_refl).
    - intros a i b s3 o E RA. apply (C (l :: a) i b s3 (o1 ++ o)); [rewrite E; auto|]. cbn [PoolModel.run]. rewrite S1, RA. auto.
  Qed.

  (** ** Progress *)
  Lemma signal_exists : forall l, exists c l', signal l c = Some l'.
  Proof.
    intros l. destruct (existsb waiting l) eqn:E.
    - apply existsb_exists in E as (w & I & W). apply In_nth_error in I as [j N]. destruct w; try discriminate. exists (Some j). unfold signal. rewrite N. eauto.
    - exists None. unfold signal. rewrite E. eauto.
  Qed.
  Lemma loop_takes : forall s i r q, queue s = r :: q -> exists c s', loop mn s i c = Some (s', [r]).
  Proof.
    intros s i r q Q. unfold loop. rewrite Q. destruct q as [|r' q]; [exists None; eauto|].
    destruct (signal_exists (set (workers s) i (Busy r))) as (c & l' & S). exists c. rewrite S. eauto.
  Qed.

  Lemma progress : forall n s, mn <= mx -> 1 <= mn -> inv s -> main s = Up -> queue s <> [] -> count live (workers s) <= n ->
    exists ls s' out, forallb own ls = true /\ run s ls = Some (s', out) /\ out = firstn 1 (queue s).
  Proof.
    induction n as [|n IH]; intros s MM P I U Q L; pose proof I as (IA & IM); rewrite U in IM; destruct IM as (M1 & M2 & M3); [lia|].
    destruct (queue s) as [|r q] eqn:QE; [congruence|]. destruct (M3 P Q) as [A|(W0 & LV)].
    - apply count_pos in A as (i & w & N & A). destruct w as [| |[]|r0|]; try discriminate.
      + destruct (loop_takes s i r q QE) as (c & s' & T). exists [Enter i c], s', [r]. split; [auto|]. split; [|auto]. cbn [PoolModel.run PoolModel.step]. rewrite N, T. auto.
      + destruct (loop_takes s i r q QE) as (c & s' & T). exists [Resume i c], s', [r]. split; [auto|]. split; [|auto]. cbn [PoolModel.run PoolModel.step]. rewrite N. unfold resume. cbn [andb]. rewrite T. auto.
      + set (s1 := mkSt (main s) (queue s) (worker_count s) (pred (active_threads s)) (set (workers s) i Entry)).
        destruct (loop_takes s1 i r q QE) as (c & s' & T). exists [Finish i; Enter i c], s', [r]. split; [auto|]. split; [|auto]. cbn [PoolModel.run PoolModel.step]. rewrite N. fold s1.
        replace (nth_error (workers s1) i) with (Some Entry) by (symmetry; eapply set_same; eauto). rewrite T. auto.
    - apply count_pos in LV as (i & w & N & LV). destruct w as [|t|late|r0|]; try discriminate.
      + destruct (loop_takes s i r q QE) as (c & s' & T). exists [Enter i c], s', [r]. split; [auto|]. split; [|auto]. cbn [PoolModel.run PoolModel.step]. rewrite N, T. auto.
      + exfalso. pose proof (proj1 (count_zero waiting (workers s)) W0 i _ N). discriminate.
      + destruct (late && negb (worker_count s =? mn)) eqn:D.
        * set (s1 := mkSt (main s) (queue s) (pred (worker_count s)) (active_threads s) (set (workers s) i Dead)).
          assert (S1 : step s (Resume i None) = Some (s1, [])) by (cbn [PoolModel.step]; rewrite N; unfold resume; rewrite D; auto).
          assert (I1 : inv s1) by (refine (step_inv s (Resume i None) s1 [] MM I _ S1); intros []).
          pose proof (count_set live _ i _ Dead N) as CL. cbn [live b2n] in CL.
          destruct (IH s1 MM P I1 U) as (ls & s' & out & O & R & E); [cbn; congruence|cbn [workers s1]; lia|].
          exists (Resume i None :: ls), s', out. split; [auto|]. split; [|rewrite E; cbn [queue s1]; rewrite QE; auto]. cbn [PoolModel.run]. rewrite S1, R. auto.
        * destruct (loop_takes s i r q QE) as (c & s' & T). exists [Resume i c], s', [r]. split; [auto|]. split; [|auto]. cbn [PoolModel.run PoolModel.step]. rewrite N. unfold resume. rewrite D, T. auto.
      + set (s1 := mkSt (main s) (queue s) (worker_count s) (pred (active_threads s)) (set (workers s) i Entry)).
        destruct (loop_takes s1 i r q QE) as (c & s' & T). exists [Finish i; Enter i c], s', [r]. split; [auto|]. split; [|auto]. cbn [PoolModel.run PoolModel.step]. rewrite N. fold s1.
        replace (nth_error (workers s1) i) with (Some Entry) by (symmetry; eapply set_same; eauto). rewrite T. auto.
  Qed.
End Proofs.
