From Coq Require Import List ZArith Bool Lia Arith.
From Verif Require Import Bytes TunModel TunSpec.
Import ListNotations.

Lemma some_inj : forall {A} (a b : A), Some a = Some b -> a = b.
Proof. congruence. Qed.
Lemma run_app : forall ws a b s, run ws (a ++ b) s = match run ws a s with Some s' => run ws b s' | None => None end.
Proof.
  induction a as [|x a IH]; intros b s; cbn [run app]; [reflexivity|].
  destruct (step ws x s) as [s'|]; [apply IH|reflexivity].
Qed.
Lemma run_snoc : forall ws a x s s', run ws (a ++ [x]) s = Some s' -> exists s1, run ws a s = Some s1 /\ step ws x s1 = Some s'.
Proof.
  intros ws a x s s' H; rewrite run_app in H. destruct (run ws a s) as [s1|]; [|discriminate].
  exists s1; split; [reflexivity|]. cbn [run] in H. destruct (step ws x s1); congruence.
Qed.
Lemma sent_app : forall p a b, sent p (a ++ b) = sent p a ++ sent p b.
Proof.
  induction a as [|x a IH]; intros b; [reflexivity|].
  destruct x as [q d|q|d|k w f|]; cbn [app sent]; rewrite ?IH; [|reflexivity..].
  destruct (same p q); [rewrite app_assoc|]; reflexivity.
Qed.
Lemma elapsed_app : forall a b, elapsed (a ++ b) = (elapsed a + elapsed b)%Z.
Proof.
  induction a as [|x a IH]; intros b; [reflexivity|].
  destruct x as [q d|q|d|k w f|]; cbn [app elapsed]; rewrite ?IH; lia.
Qed.

(** ** Nothing is lost, repeated or reordered *)

Record inv (c b : bytes) (n : Z) (tr : list label) (s : st) (lc lb : bytes) : Prop := mkInv {
  i_c : c ++ sent Client tr = got (be s) ++ obuf (be s) ++ lc ++ pend (cl s) ++ net (cl s);
  i_b : b ++ sent Backend tr = got (cl s) ++ obuf (cl s) ++ lb ++ pend (be s) ++ net (be s);
  i_lc : pc s <> Ended (WriteError Backend) -> lc = [];
  i_lb : pc s <> Ended (WriteError Client) -> lb = [];
  i_n : count s = (n + Z.of_nat (length (got (cl s) ++ obuf (cl s))))%Z;
  i_pend : match pc s with
           | Polling _ => pend (cl s) = [] /\ pend (be s) = []
           | DrainBe => pend (cl s) = []
           | RecvCl => pend (cl s) = [] /\ pend (be s) = []
           | RecvBe => pend (be s) = []
           | Ended Idle => pend (cl s) = [] /\ pend (be s) = []
           | Ended (Eof Client) => pend (cl s) = []
           | Ended (Eof Backend) => pend (be s) = []
           | _ => True
           end
}.

Lemma taken_take : forall k s, net s = taken k s ++ skipn MAXBUF (firstn k (net s)) ++ skipn k (net s).
Proof. intros; unfold taken; rewrite app_assoc, firstn_skipn, firstn_skipn; reflexivity. Qed.

Ltac norm := cbn [pc cl be now count r_cl r_be at_ send close set_pend write take net closed pend obuf got flush] in *; rewrite ?app_nil_r, ?app_nil_l, <- ?app_assoc in *.
Ltac fl_case fl := destruct fl; norm.

Lemma inv_step : forall ws c b n tr s lc lb a s',
  inv c b n tr s lc lb -> step ws a s = Some s' -> exists lc lb, inv c b n (tr ++ [a]) s' lc lb.
Proof.
  intros ws c b n tr s lc lb a s' [Ic Ib Lc Lb In Ip] H.
  destruct s as [t p [cn cc cp co cg] [bn bc bp bo bg] r0 r1 k0].
  destruct a as [q d|q|d|k wr fl|].
  - destruct q; cbn [step] in H; norm.
    + destruct cc; [discriminate|]. apply some_inj in H; subst s'. exists lc, lb. constructor; norm; auto.
      * rewrite sent_app; cbn [sent same]. rewrite app_nil_r, app_assoc, Ic, <- ?app_assoc; reflexivity.
      * rewrite sent_app; cbn [sent same]. rewrite app_nil_r; assumption.
    + destruct bc; [discriminate|]. apply some_inj in H; subst s'. exists lc, lb. constructor; norm; auto.
      * rewrite sent_app; cbn [sent same]. rewrite app_nil_r; assumption.
      * rewrite sent_app; cbn [sent same]. rewrite app_nil_r, app_assoc, Ib, <- ?app_assoc; reflexivity.
  - destruct q; cbn [step] in H; norm; apply some_inj in H; subst s'; exists lc, lb; constructor; norm; auto;
      rewrite sent_app; cbn [sent]; rewrite app_nil_r; assumption.
  - cbn [step] in H; norm. destruct (0 <=? d)%Z; [|discriminate]. apply some_inj in H; subst s'; exists lc, lb; constructor; norm; auto;
      rewrite sent_app; cbn [sent]; rewrite app_nil_r; assumption.
  - cbn [step] in H. unfold go in H.
    destruct p as [|since| | | | |e]; norm;
      try (specialize (Lc ltac:(discriminate))); try (specialize (Lb ltac:(discriminate))); subst; norm.
    + apply some_inj in H; subst s'; exists [], []; constructor; norm; auto;
        try (rewrite sent_app; cbn [sent]; rewrite app_nil_r; assumption).
      destruct cp; destruct bp; cbn; auto.
    + destruct (ready _ || ready _).
      * apply some_inj in H; subst s'; exists [], []; constructor; norm; auto;
          rewrite sent_app; cbn [sent]; rewrite app_nil_r; assumption.
      * destruct (_ <=? _)%Z; [|discriminate].
        apply some_inj in H; subst s'; exists [], []; constructor; norm; auto;
          rewrite sent_app; cbn [sent]; rewrite app_nil_r; assumption.
    + destruct cp as [|x l].
      * apply some_inj in H; subst s'; exists [], []. fl_case fl; constructor; norm; auto;
          rewrite sent_app; cbn [sent]; rewrite app_nil_r; assumption.
      * destruct wr; apply some_inj in H; subst s'.
        -- exists [], []; constructor; norm; auto; rewrite sent_app; cbn [sent]; rewrite app_nil_r; norm; assumption.
        -- exists [x], []; constructor; norm; auto; try (rewrite sent_app; cbn [sent]; rewrite app_nil_r; norm; assumption); intros X; now elim X.
    + subst; destruct bp as [|x l].
      * apply some_inj in H; subst s'; exists [], []. fl_case fl; constructor; norm; auto;
          try (rewrite sent_app; cbn [sent]; rewrite app_nil_r; assumption); auto.
      * destruct wr; apply some_inj in H; subst s'.
        -- exists [], []; constructor; norm; auto; try (rewrite sent_app; cbn [sent]; rewrite app_nil_r; norm; assumption).
           rewrite ?app_length in *; cbn [length]; lia.
        -- exists [], [x]; constructor; norm; auto; try (rewrite sent_app; cbn [sent]; rewrite app_nil_r; norm; assumption); intros X; now elim X.
    + destruct Ip as [-> ->]. destruct r0.
      * destruct cn as [|x l].
        -- destruct cc; [|discriminate]. apply some_inj in H; subst s'; exists [], []; constructor; norm; auto;
             rewrite sent_app; cbn [sent]; rewrite app_nil_r; norm; assumption.
        -- pose proof (taken_take (S k) (mkSide (x :: l) cc [] co cg)) as T. cbn [net] in T.
           destruct wr; apply some_inj in H; subst s'.
           ++ exists [], []. fl_case fl; constructor; norm; auto; try (rewrite sent_app; cbn [sent]; rewrite app_nil_r; norm; assumption);
                rewrite sent_app; cbn [sent]; rewrite app_nil_r; norm; rewrite <- T; assumption.
           ++ exists (taken (S k) (mkSide (x :: l) cc [] co cg)), []; constructor; norm; auto;
                rewrite ?sent_app; cbn [sent]; rewrite ?app_nil_r; norm; auto.
              ** rewrite <- T; assumption.
              ** intros X; now elim X.
      * apply some_inj in H; subst s'; exists [], []; constructor; norm; auto;
          rewrite sent_app; cbn [sent]; rewrite app_nil_r; norm; assumption.
    + destruct r1.
      * destruct bn as [|x l].
        -- destruct bc; [|discriminate]. apply some_inj in H; subst s'; exists [], []; constructor; norm; auto;
             rewrite sent_app; cbn [sent]; rewrite app_nil_r; norm; assumption.
        -- pose proof (taken_take (S k) (mkSide (x :: l) bc [] bo bg)) as T. cbn [net] in T.
           destruct wr; apply some_inj in H; subst s'.
           ++ exists [], []. fl_case fl; constructor; norm; auto; try (rewrite sent_app; cbn [sent]; rewrite app_nil_r; norm; assumption);
                try (rewrite sent_app; cbn [sent]; rewrite app_nil_r; norm; rewrite <- T; assumption);
                rewrite ?app_length in *; lia.
           ++ exists [], (taken (S k) (mkSide (x :: l) bc [] bo bg)); constructor; norm; auto;
                rewrite ?sent_app; cbn [sent]; rewrite ?app_nil_r; norm; auto.
              ** rewrite <- T; assumption.
              ** intros X; now elim X.
      * apply some_inj in H; subst s'; exists [], []; constructor; norm; auto;
          rewrite sent_app; cbn [sent]; rewrite app_nil_r; norm; assumption.
    + discriminate.
  - cbn [step fault] in H. unfold fault in H. destruct p; norm; try discriminate.
    + destruct r0; [|discriminate]. specialize (Lc ltac:(discriminate)); specialize (Lb ltac:(discriminate)); subst.
      apply some_inj in H; subst s'; exists [], []; constructor; norm; auto;
        rewrite sent_app; cbn [sent]; rewrite app_nil_r; norm; assumption.
    + destruct r1; [|discriminate]. specialize (Lc ltac:(discriminate)); specialize (Lb ltac:(discriminate)); subst.
      apply some_inj in H; subst s'; exists [], []; constructor; norm; auto;
        rewrite sent_app; cbn [sent]; rewrite app_nil_r; norm; assumption.
Qed.

Lemma inv_run : forall ws c b n tr s, run ws tr (start c b n) = Some s -> exists lc lb, inv c b n tr s lc lb.
Proof.
  intros ws c b n; induction tr as [|a tr IH] using rev_ind; intros s H.
  - cbn [run] in H; injection H as H; subst s. exists [], []. constructor; cbn; auto; rewrite ?app_nil_r; auto; lia.
  - apply run_snoc in H; destruct H as (s1 & R & H). destruct (IH _ R) as (lc & lb & I).
    eapply inv_step; eassumption.
Qed.

(** ** Output buffers *)

Definition emptied (s : st) : Prop :=
  (match pc s with DrainCl | Ended (WriteError Backend) => True | _ => obuf (be s) = [] end) /\
  (match pc s with DrainBe | Ended (WriteError Client) => True | _ => obuf (cl s) = [] end).

Lemma emptied_step : forall ws a s s',
  emptied s -> match a with Go _ _ fl => fl = true | _ => True end -> step ws a s = Some s' -> emptied s'.
Proof.
  intros ws a s s' [Eb Ec] F H.
  destruct s as [t p [cn cc cp co cg] [bn bc bp bo bg] r0 r1 k0].
  destruct a as [q d|q|d|k wr fl|]; cbn [step] in H.
  - destruct q; norm; [destruct cc|destruct bc]; try discriminate; apply some_inj in H; subst s'; split; norm; assumption.
  - destruct q; norm; apply some_inj in H; subst s'; split; norm; assumption.
  - norm; destruct (0 <=? d)%Z; [|discriminate]; apply some_inj in H; subst s'; split; norm; assumption.
  - subst fl. unfold go in H. destruct p as [|since| | | | |e]; norm.
    + apply some_inj in H; subst s'; destruct (_ && _); split; norm; auto.
    + destruct (_ || _); [|destruct (_ <=? _)%Z; [|discriminate]]; apply some_inj in H; subst s'; split; norm; auto.
    + destruct cp as [|x l]; [|destruct wr]; apply some_inj in H; subst s'; split; norm; auto.
    + destruct bp as [|x l]; [|destruct wr]; apply some_inj in H; subst s'; split; norm; auto.
    + destruct r0; [|apply some_inj in H; subst s'; split; norm; auto].
      destruct cn as [|x l]; [destruct cc; [|discriminate]|destruct wr]; apply some_inj in H; subst s'; split; norm; auto.
    + destruct r1; [|apply some_inj in H; subst s'; split; norm; auto].
      destruct bn as [|x l]; [destruct bc; [|discriminate]|destruct wr]; apply some_inj in H; subst s'; split; norm; auto.
    + discriminate.
  - unfold fault in H; destruct p; norm; try discriminate.
    + destruct r0; [|discriminate]; apply some_inj in H; subst s'; split; norm; auto.
    + destruct r1; [|discriminate]; apply some_inj in H; subst s'; split; norm; auto.
Qed.
Lemma emptied_run : forall ws tr s s', emptied s -> flushed tr -> run ws tr s = Some s' -> emptied s'.
Proof.
  induction tr as [|a tr IH]; intros s s' E F H; cbn [run] in H; [apply some_inj in H; subst; assumption|].
  destruct (step ws a s) as [s1|] eqn:S; [|discriminate].
  apply (IH s1); [|intros x X; apply F; right; exact X|exact H].
  apply (emptied_step _ _ _ _ E (F a (or_introl eq_refl)) S).
Qed.
Lemma emptied_start : forall c b n, emptied (start c b n).
Proof. split; reflexivity. Qed.

(** ** Waiting *)

Definition still (p : peer) (tr : list label) : Prop :=
  forall a, In a tr -> match a with Send q b => same p q = true -> b = [] | Close q => same p q = false | _ => True end.
Definition since_when (tr : list label) (s : st) : Prop :=
  match pc s with
  | Polling t => exists tr1 tr2, tr = tr1 ++ tr2 /\ elapsed tr2 = (now s - t)%Z /\
                   (ready (cl s) = false -> still Client tr2) /\ (ready (be s) = false -> still Backend tr2)
  | _ => True
  end.
Lemma still_snoc : forall p tr a, still p tr -> match a with Send q b => same p q = true -> b = [] | Close q => same p q = false | _ => True end -> still p (tr ++ [a]).
Proof. intros p tr a S A x X. apply in_app_iff in X. destruct X as [X|[X|[]]]; [apply S; exact X|subst; exact A]. Qed.

Lemma since_step : forall ws tr a s s', since_when tr s -> step ws a s = Some s' -> since_when (tr ++ [a]) s'.
Proof.
  intros ws tr a s s' W H. unfold since_when in *.
  destruct s as [t p [cn cc cp co cg] [bn bc bp bo bg] r0 r1 k0].
  destruct a as [q d|q|d|k wr fl|]; cbn [step] in H.
  - assert (K : forall t1, p = Polling t1 -> exists tr1 tr2, tr ++ [Send q d] = tr1 ++ tr2 /\ elapsed tr2 = (t - t1)%Z /\
                   (ready (cl s') = false -> still Client tr2) /\ (ready (be s') = false -> still Backend tr2)).
    { intros t1 ->. norm. destruct W as (tr1 & tr2 & -> & E & Rc & Rb).
      exists tr1, (tr2 ++ [Send q d]). rewrite elapsed_app, E; cbn [elapsed]. split; [rewrite <- app_assoc; reflexivity|]. split; [lia|].
      destruct q; [destruct cc|destruct bc]; try discriminate; apply some_inj in H; subst s'; norm; unfold ready in *; norm.
      - split; intros R; apply still_snoc; try (intros; discriminate).
        + apply Rc. destruct cn; [reflexivity|discriminate R].
        + intros _. destruct d; [reflexivity|]. destruct cn; discriminate R.
        + apply Rb; exact R.
      - split; intros R; apply still_snoc; try (intros; discriminate).
        + apply Rc; exact R.
        + apply Rb. destruct bn; [reflexivity|discriminate R].
        + intros _. destruct d; [reflexivity|]. destruct bn; discriminate R. }
    destruct q; norm; [destruct cc|destruct bc]; try discriminate; apply some_inj in H; subst s'; norm; destruct p; auto; apply (K since eq_refl).
  - assert (K : forall t1, p = Polling t1 -> exists tr1 tr2, tr ++ [Close q] = tr1 ++ tr2 /\ elapsed tr2 = (t - t1)%Z /\
                   (ready (cl s') = false -> still Client tr2) /\ (ready (be s') = false -> still Backend tr2)).
    { intros t1 ->. norm. destruct W as (tr1 & tr2 & -> & E & Rc & Rb).
      exists tr1, (tr2 ++ [Close q]). rewrite elapsed_app, E; cbn [elapsed]. split; [rewrite <- app_assoc; reflexivity|]. split; [lia|].
      destruct q; apply some_inj in H; subst s'; norm; unfold ready in *; norm.
      - split; intros R; [destruct cn; discriminate R|]. apply still_snoc; [apply Rb; exact R|reflexivity].
      - split; intros R; [|destruct bn; discriminate R]. apply still_snoc; [apply Rc; exact R|reflexivity]. }
    destruct q; norm; apply some_inj in H; subst s'; norm; destruct p; auto; apply (K since eq_refl).
  - norm. destruct (0 <=? d)%Z eqn:D; [|discriminate]. apply some_inj in H; subst s'. destruct p; norm; auto.
    destruct W as (tr1 & tr2 & -> & E & Rc & Rb).
    exists tr1, (tr2 ++ [Tick d]). rewrite elapsed_app, E; cbn [elapsed]. split; [rewrite <- app_assoc; reflexivity|]. split; [lia|].
    split; intros R; (apply still_snoc; [auto|exact I]).
  - unfold go in H. destruct p as [|since| | | | |e]; norm.
    + apply some_inj in H; subst s'; norm. destruct (_ && _); [|exact I].
      exists (tr ++ [Go k wr fl]), []. rewrite app_nil_r. repeat split; [cbn [elapsed]; lia|intros _ a []|intros _ a []].
    + destruct (_ || _); [|destruct (_ <=? _)%Z; [|discriminate]]; apply some_inj in H; subst s'; exact I.
    + destruct cp as [|x l]; [|destruct wr]; apply some_inj in H; subst s'; exact I.
    + destruct bp as [|x l]; [|destruct wr]; apply some_inj in H; subst s'; exact I.
    + destruct r0; [|apply some_inj in H; subst s'; exact I].
      destruct cn as [|x l]; [destruct cc; [|discriminate]|destruct wr]; apply some_inj in H; subst s'; exact I.
    + destruct r1; [|apply some_inj in H; subst s'; exact I].
      destruct bn as [|x l]; [destruct bc; [|discriminate]|destruct wr]; apply some_inj in H; subst s'; exact I.
    + discriminate.
  - unfold fault in H; destruct p; norm; try discriminate.
    + destruct r0; [|discriminate]; apply some_inj in H; subst s'; exact I.
    + destruct r1; [|discriminate]; apply some_inj in H; subst s'; exact I.
Qed.
Lemma since_run : forall ws c b n tr s, run ws tr (start c b n) = Some s -> since_when tr s.
Proof.
  intros ws c b n; induction tr as [|a tr IH] using rev_ind; intros s H.
  - cbn [run] in H; apply some_inj in H; subst s; exact I.
  - apply run_snoc in H; destruct H as (s1 & R & H). eapply since_step; [apply IH; exact R|exact H].
Qed.

(** ** The theorems *)

Lemma relay : forall ws c b n tr s, run ws tr (start c b n) = Some s ->
  prefix (got (be s)) (c ++ sent Client tr) /\ prefix (got (cl s)) (b ++ sent Backend tr).
Proof.
  intros ws c b n tr s H. destruct (inv_run _ _ _ _ _ _ H) as (lc & lb & I).
  rewrite (i_c _ _ _ _ _ _ _ I), (i_b _ _ _ _ _ _ _ I). split; eexists; reflexivity.
Qed.

Lemma counted : forall ws c b n tr s, run ws tr (start c b n) = Some s -> flushed tr ->
  pc s <> DrainBe -> pc s <> Ended (WriteError Client) ->
  count s = (n + Z.of_nat (length (got (cl s))))%Z.
Proof.
  intros ws c b n tr s H F P1 P2. destruct (inv_run _ _ _ _ _ _ H) as (lc & lb & I).
  pose proof (emptied_run _ _ _ _ (emptied_start c b n) F H) as [_ E].
  rewrite (i_n _ _ _ _ _ _ _ I). replace (obuf (cl s)) with (@nil Ascii.ascii); [rewrite app_nil_r; reflexivity|].
  destruct (pc s) as [| | | | | |[ | | |[]]]; congruence.
Qed.

Lemma flushed_app : forall a b, flushed (a ++ b) -> flushed a /\ flushed b.
Proof. intros a b F; split; intros x X; apply F; apply in_app_iff; auto. Qed.

Lemma ends_run : forall ws c b n tr e s, ends ws c b n tr e s -> run ws tr (start c b n) = Some s.
Proof.
  intros ws c b n tr e s (tr0 & a & s0 & -> & R & _ & S & _). rewrite run_app, R. cbn [run]; rewrite S; reflexivity.
Qed.

(** What holds at the moment of the end *)
Lemma at_end_idle : forall ws a s s', running s -> step ws a s = Some s' -> pc s' = Ended Idle ->
  exists t, pc s = Polling t /\ (t + ws <= now s)%Z /\ ready (cl s) = false /\ ready (be s) = false /\ s' = at_ (Ended Idle) s /\ exists k wr fl, a = Go k wr fl.
Proof.
  intros ws a s s' R H E. destruct s as [t p [cn cc cp co cg] [bn bc bp bo bg] r0 r1 k0]. unfold running in R; norm.
  destruct a as [q d|q|d|k wr fl|]; cbn [step] in H.
  - destruct q; norm; [destruct cc|destruct bc]; try discriminate; apply some_inj in H; subst s'; norm; subst p; elim R.
  - destruct q; norm; apply some_inj in H; subst s'; norm; subst p; elim R.
  - norm; destruct (0 <=? d)%Z; [|discriminate]; apply some_inj in H; subst s'; norm; subst p; elim R.
  - unfold go in H. destruct p as [|since| | | | |e]; norm.
    + apply some_inj in H; subst s'; norm. destruct (_ && _); discriminate E.
    + destruct (ready _ || ready _) eqn:Y; [apply some_inj in H; subst s'; discriminate E|].
      apply orb_false_iff in Y. destruct (_ <=? _)%Z eqn:L; [|discriminate]. apply some_inj in H; subst s'.
      exists since. repeat split; try tauto; [lia|exists k, wr, fl; reflexivity].
    + destruct cp as [|x l]; [|destruct wr]; apply some_inj in H; subst s'; discriminate E.
    + destruct bp as [|x l]; [|destruct wr]; apply some_inj in H; subst s'; discriminate E.
    + destruct r0; [|apply some_inj in H; subst s'; discriminate E].
      destruct cn as [|x l]; [destruct cc; [|discriminate]|destruct wr]; apply some_inj in H; subst s'; discriminate E.
    + destruct r1; [|apply some_inj in H; subst s'; discriminate E].
      destruct bn as [|x l]; [destruct bc; [|discriminate]|destruct wr]; apply some_inj in H; subst s'; discriminate E.
    + discriminate.
  - unfold fault in H; destruct p; norm; try discriminate.
    + destruct r0; [|discriminate]; apply some_inj in H; subst s'; discriminate E.
    + destruct r1; [|discriminate]; apply some_inj in H; subst s'; discriminate E.
Qed.
Lemma at_end_eof : forall ws a s s' p, running s -> step ws a s = Some s' -> pc s' = Ended (Eof p) ->
  s' = at_ (Ended (Eof p)) s /\ (exists k wr fl, a = Go k wr fl) /\
  match p with
  | Client => pc s = RecvCl /\ net (cl s) = [] /\ closed (cl s) = true
  | Backend => pc s = RecvBe /\ net (be s) = [] /\ closed (be s) = true
  end.
Proof.
  intros ws a s s' w R H E. destruct s as [t p [cn cc cp co cg] [bn bc bp bo bg] r0 r1 k0]. unfold running in R; norm.
  destruct a as [q d|q|d|k wr fl|]; cbn [step] in H.
  - destruct q; norm; [destruct cc|destruct bc]; try discriminate; apply some_inj in H; subst s'; norm; subst p; elim R.
  - destruct q; norm; apply some_inj in H; subst s'; norm; subst p; elim R.
  - norm; destruct (0 <=? d)%Z; [|discriminate]; apply some_inj in H; subst s'; norm; subst p; elim R.
  - unfold go in H. destruct p as [|since| | | | |e]; norm.
    + apply some_inj in H; subst s'; norm. destruct (_ && _); discriminate E.
    + destruct (ready _ || ready _) eqn:Y; [apply some_inj in H; subst s'; discriminate E|].
      destruct (_ <=? _)%Z eqn:L; [|discriminate]. apply some_inj in H; subst s'; discriminate E.
    + destruct cp as [|x l]; [|destruct wr]; apply some_inj in H; subst s'; discriminate E.
    + destruct bp as [|x l]; [|destruct wr]; apply some_inj in H; subst s'; discriminate E.
    + destruct r0; [|apply some_inj in H; subst s'; discriminate E].
      destruct cn as [|x l]; [destruct cc; [|discriminate]|destruct wr]; apply some_inj in H; subst s'; try discriminate E.
      norm. injection E as <-. repeat split. exists k, wr, fl; reflexivity.
    + destruct r1; [|apply some_inj in H; subst s'; discriminate E].
      destruct bn as [|x l]; [destruct bc; [|discriminate]|destruct wr]; apply some_inj in H; subst s'; try discriminate E.
      norm. injection E as <-. repeat split. exists k, wr, fl; reflexivity.
    + discriminate.
  - unfold fault in H; destruct p; norm; try discriminate.
    + destruct r0; [|discriminate]; apply some_inj in H; subst s'; discriminate E.
    + destruct r1; [|discriminate]; apply some_inj in H; subst s'; discriminate E.
Qed.

Lemma sent_go : forall p tr k wr fl, sent p (tr ++ [Go k wr fl]) = sent p tr.
Proof. intros; rewrite sent_app; cbn [sent]; apply app_nil_r. Qed.

Lemma idle : forall ws c b n tr s, ends ws c b n tr Idle s -> flushed tr ->
  all_arrived c b tr s /\ exists tr1 tr2, tr = tr1 ++ tr2 /\ quiet tr2 /\ (ws <= elapsed tr2)%Z.
Proof.
  intros ws c b n tr s H F. pose proof (ends_run _ _ _ _ _ _ _ H) as RR.
  destruct H as (tr0 & a & s0 & -> & R & G & S & E).
  destruct (at_end_idle _ _ _ _ G S E) as (t & P & T & Rc & Rb & -> & k & wr & fl & ->).
  apply flushed_app in F; destruct F as [F _].
  destruct (inv_run _ _ _ _ _ _ R) as (lc & lb & [Ic Ib Lc Lb _ Ip]).
  rewrite P in *. destruct Ip as [Pc Pb]. specialize (Lc ltac:(discriminate)); specialize (Lb ltac:(discriminate)); subst lc lb.
  pose proof (emptied_run _ _ _ _ (emptied_start c b n) F R) as [Eb Ec]. rewrite P in Eb, Ec.
  assert (Nc : net (cl s0) = []) by (unfold ready in Rc; destruct (net (cl s0)); [reflexivity|discriminate]).
  assert (Nb : net (be s0) = []) by (unfold ready in Rb; destruct (net (be s0)); [reflexivity|discriminate]).
  rewrite Pc, Nc, Eb, ?app_nil_r in Ic. rewrite Pb, Nb, Ec, ?app_nil_r in Ib. cbn [app] in Ic, Ib.
  split.
  - unfold all_arrived. rewrite !sent_go. cbn [at_ cl be]. rewrite ?app_nil_r in *. split; congruence.
  - pose proof (since_run _ _ _ _ _ _ R) as W. unfold since_when in W. rewrite P in W.
    destruct W as (tr1 & tr2 & -> & El & Wc & Wb). specialize (Wc Rc); specialize (Wb Rb).
    exists tr1, (tr2 ++ [Go k wr fl]). split; [rewrite <- app_assoc; reflexivity|]. split.
    + intros x X. apply in_app_iff in X. destruct X as [X|[X|[]]]; [|subst; exact I].
      pose proof (Wc x X) as A; pose proof (Wb x X) as B. destruct x as [q d|q| | |]; try exact I; destruct q; cbn [same] in *; auto; discriminate.
    + rewrite elapsed_app, El; cbn [elapsed]; lia.
Qed.

Lemma eof : forall ws c b n tr p s, ends ws c b n tr (Eof p) s -> flushed tr ->
  match p with
  | Client => got (be s) = c ++ sent Client tr
  | Backend => got (cl s) = b ++ sent Backend tr
  end.
Proof.
  intros ws c b n tr p s H F. pose proof (ends_run _ _ _ _ _ _ _ H) as RR.
  destruct H as (tr0 & a & s0 & -> & R & G & S & E).
  destruct (at_end_eof _ _ _ _ _ G S E) as (-> & (k & wr & fl & ->) & Q).
  apply flushed_app in F; destruct F as [F _].
  destruct (inv_run _ _ _ _ _ _ R) as (lc & lb & [Ic Ib Lc Lb _ Ip]).
  pose proof (emptied_run _ _ _ _ (emptied_start c b n) F R) as [Eb Ec].
  destruct p; destruct Q as (P & N & _); rewrite P in *; rewrite sent_go; cbn [at_ cl be];
    specialize (Lc ltac:(discriminate)); specialize (Lb ltac:(discriminate)); subst lc lb.
  - destruct Ip as [Pc Pb]. rewrite Eb, Pc, N in Ic. cbn [app] in Ic. rewrite app_nil_r in Ic. congruence.
  - rewrite Ec, Ip, N in Ib. cbn [app] in Ib. rewrite app_nil_r in Ib. congruence.
Qed.

(** ** Progress *)

Definition waiting (s : st) : bool :=
  negb (none_left (net (cl s)) && none_left (net (be s)) && none_left (pend (cl s)) && none_left (pend (be s))).
Definition pendq (s : st) : bool := negb (none_left (pend (cl s)) && none_left (pend (be s))).
Definition nonempty (b : bytes) : bool := negb (none_left b).
Definition rank (s : st) : nat :=
  match pc s with
  | DrainCl => if pendq s || (r_cl s && nonempty (net (cl s))) || (r_be s && nonempty (net (be s))) || negb (waiting s) then 5 else 11
  | DrainBe => if nonempty (pend (be s)) || (r_cl s && nonempty (net (cl s))) || (r_be s && nonempty (net (be s))) || negb (waiting s) then 4 else 10
  | RecvCl => if (r_cl s && nonempty (net (cl s))) || (r_be s && nonempty (net (be s))) || negb (waiting s) then 3 else 9
  | RecvBe => if (r_be s && nonempty (net (be s))) || negb (waiting s) then 2 else 8
  | Test => if pendq s then 6 else if waiting s then 7 else 1
  | Polling _ => if waiting s then 6 else 0
  | Ended _ => 0
  end.
Definition measure (s : st) : nat :=
  20 * (length (net (cl s)) + length (net (be s))) + 10 * (length (pend (cl s)) + length (pend (be s))) + rank s.

Definition placed (s : st) : Prop :=
  match pc s with
  | Polling _ => pend (cl s) = [] /\ pend (be s) = []
  | DrainBe => pend (cl s) = []
  | RecvCl => pend (cl s) = [] /\ pend (be s) = []
  | RecvBe => pend (be s) = []
  | _ => True
  end.
(** revents are set only where poll found something; they stay true until the read *)
Definition flags (s : st) : Prop :=
  (r_cl s = true -> ready (cl s) = true) /\ (r_be s = true -> ready (be s) = true).
Lemma flags_step : forall ws a s s', flags s -> step ws a s = Some s' -> running s' -> flags s'.
Proof.
  intros ws a s s' [Fc Fb] H R. unfold flags, running in *.
  destruct s as [t p [cn cc cp co cg] [bn bc bp bo bg] r0 r1 k0]. unfold ready in *; norm.
  destruct a as [q d|q|d|k wr fl|]; cbn [step] in H.
  - destruct q; norm; [destruct cc|destruct bc]; try discriminate; apply some_inj in H; subst s'; norm; split; auto; intros X;
      [destruct cn|destruct bn]; auto; [specialize (Fc X)|specialize (Fb X)]; discriminate.
  - destruct q; norm; apply some_inj in H; subst s'; norm; split; auto; intros X; [destruct cn|destruct bn]; auto.
  - norm; destruct (0 <=? d)%Z; [|discriminate]; apply some_inj in H; subst s'; norm; auto.
  - unfold go in H. destruct p as [|since| | | | |e]; norm.
    + apply some_inj in H; subst s'; norm; auto.
    + unfold ready in H; cbn [net closed] in H. destruct (_ || _) eqn:Y; [apply some_inj in H; subst s'; norm; auto|].
      destruct (_ <=? _)%Z eqn:L; [|discriminate]. apply some_inj in H; subst s'; norm; auto.
    + destruct cp as [|x l]; [|destruct wr]; apply some_inj in H; subst s'; destruct fl; norm; auto.
    + destruct bp as [|x l]; [|destruct wr]; apply some_inj in H; subst s'; destruct fl; norm; auto.
    + destruct r0; [|apply some_inj in H; subst s'; norm; auto].
      destruct cn as [|x l]; [destruct cc; [|discriminate]|destruct wr]; apply some_inj in H; subst s'; destruct fl; norm; try (elim R); auto; split; auto; discriminate.
    + destruct r1; [|apply some_inj in H; subst s'; norm; auto].
      destruct bn as [|x l]; [destruct bc; [|discriminate]|destruct wr]; apply some_inj in H; subst s'; destruct fl; norm; try (elim R); auto; split; auto; discriminate.
    + discriminate.
  - unfold fault in H; destruct p; norm; try discriminate.
    + destruct r0; [|discriminate]; apply some_inj in H; subst s'; elim R.
    + destruct r1; [|discriminate]; apply some_inj in H; subst s'; elim R.
Qed.
Lemma ended_final : forall ws a s s' e, pc s = Ended e -> step ws a s = Some s' -> pc s' = Ended e.
Proof.
  intros ws a s s' e E H. destruct a as [q d|q|d|k wr fl|]; cbn [step] in H.
  - destruct q; [destruct (closed (cl s))|destruct (closed (be s))]; try discriminate; apply some_inj in H; subst s'; exact E.
  - destruct q; apply some_inj in H; subst s'; exact E.
  - destruct (0 <=? d)%Z; [|discriminate]; apply some_inj in H; subst s'; exact E.
  - unfold go in H; rewrite E in H; discriminate.
  - unfold fault in H; rewrite E in H; discriminate.
Qed.
Lemma flags_run : forall ws tr s s', flags s -> run ws tr s = Some s' -> running s' -> flags s'.
Proof.
  intros ws; induction tr as [|a tr IH] using rev_ind; intros s s' F H R.
  - cbn [run] in H; apply some_inj in H; subst; exact F.
  - apply run_snoc in H; destruct H as (s1 & R1 & H).
    assert (G : running s1).
    { unfold running in *. destruct (pc s1) eqn:E; auto. rewrite (ended_final _ _ _ _ _ E H) in R; exact R. }
    exact (flags_step _ _ _ _ (IH _ _ F R1 G) H R).
Qed.

Definition fine (s : st) : Prop :=
  running s /\ placed s /\ flags s /\ closed (cl s) = false /\ closed (be s) = false.

Lemma take_len : forall k x l cc co cg,
  let s := mkSide (x :: l) cc [] co cg in
  length (net (take (S k) s)) + length (pend (take (S k) s)) <= length l /\ length (net (take (S k) s)) <= length l.
Proof.
  intros k x l cc co cg s. subst s. unfold take. cbn [net pend app].
  rewrite !skipn_length, firstn_length.
  change (length (x :: l)) with (S (length l)).
  assert (M : 1 <= MAXBUF) by (unfold MAXBUF; lia). lia.
Qed.

Ltac dn X := let E := fresh "E" in destruct (none_left X) eqn:E.

Lemma progress_step : forall ws k s, fine s -> (exists t, pc s = Polling t /\ waiting s = false) \/
  exists s', go ws k true true s = Some s' /\ measure s' < measure s /\ fine s'.
Proof.
  intros ws k s (R & P & F & Cc & Cb).
  assert (X : (exists t, pc s = Polling t /\ waiting s = false) \/
              exists s', go ws k true true s = Some s' /\ measure s' < measure s /\ running s' /\ placed s' /\ closed (cl s') = false /\ closed (be s') = false).
  { destruct s as [t p [cn cc cp co cg] [bn bc bp bo bg] r0 r1 k0].
    destruct F as [Fc Fb]. unfold running, placed, ready in *; norm. subst cc bc.
    destruct p as [|since| | | | |e].
    - right. eexists; split; [reflexivity|].
      unfold measure, rank, pendq, waiting, nonempty; cbn [pc cl be r_cl r_be net pend at_ closed].
      destruct cp, bp; cbn [none_left andb negb orb length]; rewrite ?andb_true_r, ?andb_false_r; cbn [negb];
        (split; [|auto]); destruct cn, bn; cbn [none_left andb negb orb length]; try lia;
        destruct r0, r1; cbn; lia.
    - destruct P as [-> ->]. destruct cn as [|x l]; destruct bn as [|y m].
      + left; exists since; split; reflexivity.
      + right; eexists; split; [reflexivity|]. unfold measure, rank, pendq, waiting, nonempty; cbn. split; [lia|auto].
      + right; eexists; split; [reflexivity|]. unfold measure, rank, pendq, waiting, nonempty; cbn. split; [lia|auto].
      + right; eexists; split; [reflexivity|]. unfold measure, rank, pendq, waiting, nonempty; cbn. split; [lia|auto].
    - right. destruct cp as [|x l]; (eexists; split; [reflexivity|]);
        unfold measure, rank, pendq, waiting, nonempty; cbn [pc cl be r_cl r_be net pend at_ closed set_pend write flush obuf got];
        (split; [|auto]).
      + destruct bp, cn, bn, r0, r1; cbn; lia.
      + destruct l, bp, cn, bn, r0, r1; cbn; lia.
    - right. subst cp. destruct bp as [|x l]; (eexists; split; [reflexivity|]);
        unfold measure, rank, pendq, waiting, nonempty; cbn [pc cl be r_cl r_be net pend at_ closed set_pend write flush obuf got];
        (split; [|auto]).
      + destruct cn, bn, r0, r1; cbn; lia.
      + destruct l, cn, bn, r0, r1; cbn; lia.
    - right. destruct P as [-> ->]. destruct r0.
      + specialize (Fc eq_refl). destruct cn as [|x l]; [discriminate|].
        eexists; split; [reflexivity|]. pose proof (take_len k x l false co cg) as L; cbn zeta in L.
        split; [|split; [exact I|split; [reflexivity|split; reflexivity]]].
        set (q := take (S k) _) in *. unfold measure. cbn [cl be net pend flush write].
        assert (K : forall s', pc s' = RecvBe -> rank s' <= 8).
        { intros s' E; unfold rank; rewrite E; destruct (_ || _); lia. }
        match goal with |- context [rank ?z] => match z with context [RecvBe] => pose proof (K z eq_refl) end end.
        cbn [length] in *. lia.
      + eexists; split; [reflexivity|]. split; [|cbn; auto].
        unfold measure, rank, pendq, waiting, nonempty; cbn [pc cl be r_cl r_be net pend at_ closed].
        destruct cn, bn, r1; cbn; lia.
    - right. subst bp. destruct r1.
      + specialize (Fb eq_refl). destruct bn as [|x l]; [discriminate|].
        eexists; split; [reflexivity|]. pose proof (take_len k x l false bo bg) as L; cbn zeta in L.
        split; [|split; [exact I|split; [exact I|split; reflexivity]]].
        set (q := take (S k) _) in *. unfold measure. cbn [cl be net pend flush write].
        assert (K : forall s', pc s' = Test -> rank s' <= 7).
        { intros s' E; unfold rank; rewrite E; destruct (pendq s'), (waiting s'); lia. }
        match goal with |- context [rank ?z] => match z with context [Test] => pose proof (K z eq_refl) end end.
        cbn [length] in *. lia.
      + eexists; split; [reflexivity|]. split; [|cbn; auto].
        unfold measure, rank, pendq, waiting, nonempty; cbn [pc cl be r_cl r_be net pend at_ closed].
        destruct cp, cn, bn; cbn; lia.
    - elim R. }
  destruct X as [X|(s' & G & M & R' & P' & C1 & C2)]; [left; exact X|right].
  exists s'; split; [exact G|]. split; [exact M|]. split; [exact R'|]. split; [exact P'|]. split; [|split; assumption].
  apply (flags_step ws (Go k true true) s s' F G R').
Qed.

Lemma progress_run : forall ws m s, measure s <= m -> fine s -> forall ks, m <= length ks ->
  exists n s', run ws (alone (firstn n ks)) s = Some s' /\ (exists t, pc s' = Polling t) /\ waiting s' = false.
Proof.
  intros ws; induction m as [|m IH]; intros s M F ks L.
  - destruct (progress_step ws 0 s F) as [(t & P & W)|(s' & _ & M' & _)]; [|lia].
    exists 0, s. cbn. split; [reflexivity|]. split; [exists t; exact P|exact W].
  - destruct ks as [|k ks]; [cbn in L; lia|].
    destruct (progress_step ws k s F) as [(t & P & W)|(s' & G & M' & F')].
    + exists 0, s. cbn. split; [reflexivity|]. split; [exists t; exact P|exact W].
    + destruct (IH s' ltac:(lia) F' ks ltac:(cbn in L; lia)) as (n & s2 & R & T & W).
      exists (S n), s2. split; [|split; assumption]. cbn [firstn alone map run step]. rewrite G. exact R.
Qed.

Lemma closed_trace : forall ws tr s s', run ws tr s = Some s' -> forall p,
  (match p with Client => closed (cl s') | Backend => closed (be s') end = true) ->
  (match p with Client => closed (cl s) | Backend => closed (be s) end = true) \/ In (Close p) tr.
Proof.
  intros ws; induction tr as [|a tr IH]; intros s s' H p C; cbn [run] in H; [apply some_inj in H; subst; left; exact C|].
  destruct (step ws a s) as [s1|] eqn:S; [|discriminate].
  destruct (IH _ _ H p C) as [X|X]; [|right; right; exact X].
  assert (K : match p with Client => closed (cl s) | Backend => closed (be s) end = true \/ a = Close p);
    [|destruct K; [left; assumption|right; left; congruence]].
  clear IH H C. destruct s as [t q0 [cn cc cp co cg] [bn bc bp bo bg] r0 r1 k0].
  destruct a as [q d|q|d|k wr fl|]; cbn [step] in S.
  - destruct q; norm; [destruct cc|destruct bc]; try discriminate; apply some_inj in S; subst s1; destruct p; norm; auto.
  - destruct q; norm; apply some_inj in S; subst s1; destruct p; norm; auto.
  - norm; destruct (0 <=? d)%Z; [|discriminate]; apply some_inj in S; subst s1; destruct p; norm; auto.
  - unfold go in S. destruct q0 as [|since| | | | |e]; norm.
    + apply some_inj in S; subst s1; destruct p; norm; auto.
    + destruct (_ || _); [apply some_inj in S; subst s1; destruct p; norm; auto|].
      destruct (_ <=? _)%Z; [|discriminate]. apply some_inj in S; subst s1; destruct p; norm; auto.
    + destruct cp as [|x l]; [|destruct wr]; apply some_inj in S; subst s1; destruct fl, p; norm; auto.
    + destruct bp as [|x l]; [|destruct wr]; apply some_inj in S; subst s1; destruct fl, p; norm; auto.
    + destruct r0; [|apply some_inj in S; subst s1; destruct p; norm; auto].
      destruct cn as [|x l]; [destruct cc; [|discriminate]|destruct wr]; apply some_inj in S; subst s1; destruct fl, p; norm; auto.
    + destruct r1; [|apply some_inj in S; subst s1; destruct p; norm; auto].
      destruct bn as [|x l]; [destruct bc; [|discriminate]|destruct wr]; apply some_inj in S; subst s1; destruct fl, p; norm; auto.
    + discriminate.
  - unfold fault in S; destruct q0; norm; try discriminate.
    + destruct r0; [|discriminate]; apply some_inj in S; subst s1; destruct p; norm; auto.
    + destruct r1; [|discriminate]; apply some_inj in S; subst s1; destruct p; norm; auto.
Qed.

Lemma sent_alone : forall p ks, sent p (alone ks) = [].
Proof. induction ks as [|k ks IH]; [reflexivity|exact IH]. Qed.
Lemma flushed_alone : forall ks, flushed (alone ks).
Proof. intros ks a A. apply in_map_iff in A. destruct A as (k & <- & _). reflexivity. Qed.

Lemma progress : forall ws c b n tr s, run ws tr (start c b n) = Some s -> flushed tr -> running s ->
  (forall p, ~ In (Close p) tr) ->
  exists m, forall ks, m <= length ks -> exists i s',
    run ws (alone (firstn i ks)) s = Some s' /\ all_arrived c b tr s' /\ running s'.
Proof.
  intros ws c b n tr s H F R N.
  assert (G : fine s).
  { split; [exact R|]. destruct (inv_run _ _ _ _ _ _ H) as (lc & lb & [_ _ _ _ _ Ip]).
    split; [unfold placed; unfold running in R; destruct (pc s) as [| | | | | |[]]; auto; elim R|].
    split; [eapply flags_run; [|exact H|exact R]; split; discriminate|].
    split.
    - destruct (closed (cl s)) eqn:C; [|reflexivity]. destruct (closed_trace _ _ _ _ H Client C) as [X|X]; [discriminate X|elim (N _ X)].
    - destruct (closed (be s)) eqn:C; [|reflexivity]. destruct (closed_trace _ _ _ _ H Backend C) as [X|X]; [discriminate X|elim (N _ X)]. }
  exists (measure s). intros ks L.
  destruct (progress_run ws (measure s) s (le_n _) G ks L) as (i & s' & R' & (t & P) & W).
  exists i, s'. split; [exact R'|].
  assert (H2 : run ws (tr ++ alone (firstn i ks)) (start c b n) = Some s') by (rewrite run_app, H; exact R').
  assert (F2 : flushed (tr ++ alone (firstn i ks))).
  { intros a A. apply in_app_iff in A. destruct A as [A|A]; [exact (F a A)|exact (flushed_alone _ a A)]. }
  destruct (inv_run _ _ _ _ _ _ H2) as (lc & lb & [Ic Ib Lc Lb _ Ip]).
  pose proof (emptied_run _ _ _ _ (emptied_start c b n) F2 H2) as [Eb Ec]. rewrite P in *.
  specialize (Lc ltac:(discriminate)); specialize (Lb ltac:(discriminate)); subst lc lb.
  destruct Ip as [Pc Pb]. unfold waiting in W. rewrite Pc, Pb in W. cbn [none_left] in W. rewrite !andb_true_r in W.
  assert (Nc : net (cl s') = []) by (destruct (net (cl s')); [reflexivity|discriminate]).
  assert (Nb : net (be s') = []) by (destruct (net (cl s')), (net (be s')); try reflexivity; discriminate).
  rewrite !sent_app, !sent_alone, !app_nil_r in *. rewrite Eb, Pc, Nc in Ic. rewrite Ec, Pb, Nb in Ib. cbn [app] in Ic, Ib. rewrite app_nil_r in Ic, Ib.
  split; [split; congruence|]. unfold running; rewrite P; exact I.
Qed.

(** ** A peer that closes its sending direction *)

(** What the thread does from the moment it sees the end of one stream: nothing *)
Lemma over : forall ws tr s s' e, pc s = Ended e -> run ws tr s = Some s' -> got (cl s') = got (cl s) /\ got (be s') = got (be s).
Proof.
  intros ws; induction tr as [|a tr IH]; intros s s' e E H; cbn [run] in H; [apply some_inj in H; subst; split; reflexivity|].
  destruct (step ws a s) as [s1|] eqn:S; [|discriminate].
  destruct (IH _ _ _ (ended_final _ _ _ _ _ E S) H) as [A B]. rewrite A, B.
  destruct a as [q d|q|d|k wr fl|]; cbn [step] in S.
  - destruct q; [destruct (closed (cl s))|destruct (closed (be s))]; try discriminate; apply some_inj in S; subst s1; split; reflexivity.
  - destruct q; apply some_inj in S; subst s1; split; reflexivity.
  - destruct (0 <=? d)%Z; [|discriminate]; apply some_inj in S; subst s1; split; reflexivity.
  - unfold go in S; rewrite E in S; discriminate.
  - unfold fault in S; rewrite E in S; discriminate.
Qed.

Lemma half_closed : forall ws c b n tr s t, run ws tr (start c b n) = Some s -> flushed tr ->
  pc s = Polling t -> closed (cl s) = true -> got (be s) = c ++ sent Client tr ->
  exists s', run ws (alone [0; 0; 0; 0]) s = Some s' /\ pc s' = Ended (Eof Client) /\
    forall tr2 s2, run ws tr2 s' = Some s2 -> got (cl s2) = got (cl s).
Proof.
  intros ws c b n tr s t H F P C G.
  destruct (inv_run _ _ _ _ _ _ H) as (lc & lb & [Ic Ib Lc Lb _ Ip]).
  pose proof (emptied_run _ _ _ _ (emptied_start c b n) F H) as [Eb Ec].
  destruct s as [w p [cn cc cp co cg] [bn bc bp bo bg] r0 r1 k0]. norm. subst p cc. destruct Ip as [-> ->].
  specialize (Lc ltac:(discriminate)); subst lc co bo.
  assert (cn = []) as ->.
  { rewrite <- G in Ic. cbn [app] in Ic. destruct cn; [reflexivity|]. apply (f_equal (@length _)) in Ic. rewrite app_length in Ic. cbn [length] in Ic. lia. }
  eexists. split; [cbn; reflexivity|]. split; [reflexivity|].
  intros tr2 s2 R. eapply over in R; [|reflexivity]. destruct R as [R _]. rewrite R. cbn. apply app_nil_r.
Qed.
