From Coq Require Import List Arith Bool Lia.
From Verif Require Import LkModel LkSpec.
Import ListNotations.

(** * Lists *)
Lemma nth_put_same {A} (l : list A) : forall i x y, nth_error l i = Some y -> nth_error (put l i x) i = Some x.
Proof. induction l as [|z l IH]; intros [|i] x y H; cbn in *; try discriminate; eauto. Qed.
Lemma nth_put_other {A} (l : list A) : forall i j x, i <> j -> nth_error (put l i x) j = nth_error l j.
Proof. induction l as [|z l IH]; intros [|i] [|j] x H; cbn; try reflexivity; try congruence. apply IH. congruence. Qed.
Lemma nth_put {A} (l : list A) i j x z : nth_error (put l i x) j = Some z -> (j = i /\ z = x) \/ (j <> i /\ nth_error l j = Some z).
Proof.
  intros H. destruct (Nat.eq_dec j i) as [->|N].
  - left. split; [reflexivity|]. destruct (nth_error l i) as [y|] eqn:E.
    + rewrite (nth_put_same l i x y E) in H. congruence.
    + exfalso. revert i E H. induction l as [|w l IH]; intros [|i] E H; cbn in *; try discriminate. eapply IH; eassumption.
  - right. split; [exact N|]. rewrite nth_put_other in H by congruence. exact H.
Qed.
Lemma in_others {A} (l : list A) : forall i j x, nth_error l j = Some x -> j <> i -> In x (others l i).
Proof.
  induction l as [|z l IH]; intros [|i] [|j] x H N; cbn in *; try discriminate; try congruence.
  - apply nth_error_In in H. exact H.
  - left. congruence.
  - right. eapply IH; [exact H|congruence].
Qed.

Lemma lock_eqb_ok a b : lock_eqb a b = true <-> a = b.
Proof.
  destruct a, b; cbn; split; intros H; try discriminate; try reflexivity; try (apply Nat.eqb_eq in H; congruence); inversion H; subst; apply Nat.eqb_refl.
Qed.
Lemma lock_eqb_refl a : lock_eqb a a = true.
Proof. apply lock_eqb_ok. reflexivity. Qed.
Lemma mem_in l h : mem lock_eqb l h = true <-> In l h.
Proof.
  unfold mem. rewrite existsb_exists. split.
  - intros (x & I & E). apply lock_eqb_ok in E. congruence.
  - intros I. exists l. split; [exact I|apply lock_eqb_refl].
Qed.
Lemma drop_in x l h : In x (drop lock_eqb l h) -> In x h.
Proof. induction h as [|y h IH]; cbn; [tauto|]. destruct (lock_eqb l y); cbn; tauto. Qed.
Lemma drop_head l h : drop lock_eqb l (l :: h) = h.
Proof. cbn. rewrite lock_eqb_refl. reflexivity. Qed.

(** * The order *)
Section Order.
  Variable level : nat -> nat.
  Definition cls (l : lock) : nat := match l with Svc _ => 0 | Be _ => 1 | Arg => 2 | Job => 3 | Crypt => 4 | Rsa => 5 | Log => 6 end.
  Definition lev (l : lock) : nat := match l with Be b => level b | _ => 0 end.
  Definition before (a b : lock) : bool := (cls a <? cls b) || ((cls a =? cls b) && (lev a <? lev b)).

  Lemma before_trans a b c : before a b = true -> before b c = true -> before a c = true.
  Proof.
    unfold before. rewrite !orb_true_iff, !andb_true_iff, !Nat.ltb_lt, !Nat.eqb_eq. intros [A|[A A']] [B|[B B']]; [left|left|left|right]; lia.
  Qed.
  Lemma before_irrefl a : before a a = false.
  Proof. unfold before. rewrite !Nat.ltb_irrefl, andb_false_r. reflexivity. Qed.

  Lemma maximal : forall (l : list lock), l <> [] -> exists m, In m l /\ forall y, In y l -> before m y = false.
  Proof.
    induction l as [|x [|z l] IH]; [congruence| |]; intros _.
    - exists x. split; [left; reflexivity|]. intros y [->|[]]. apply before_irrefl.
    - destruct IH as (m & I & M); [discriminate|]. destruct (before m x) eqn:B.
      + exists x. split; [left; reflexivity|]. intros y [->|J]; [apply before_irrefl|]. destruct (before x y) eqn:C; [|reflexivity].
        rewrite <- (M y J). symmetry. eapply before_trans; eassumption.
      + exists m. split; [right; exact I|]. intros y [->|J]; [exact B|apply M; exact J].
  Qed.

  (** * What a thread may do *)
  Record policy := mkP { guard : bool; nopost : bool; timer : bool }.

  Definition order (p : policy) (c : bool) (h : list lock) (l : lock) : Prop :=
    In l h \/ (forall x, In x h -> before x l = true) \/ (c = true /\ timer p = true /\ h = [Job] /\ exists b, l = Be b).

  Fixpoint ok (p : policy) (c : bool) (h : list lock) (t : list action) : Prop :=
    match t with
    | [] => h = []
    | Acq l :: t => order p c h l /\ ok p c (l :: h) t
    | Rel l :: t => In l h /\ ok p c (drop lock_eqb l h) t
    | Sleep l :: t => h = [l] /\ ok p c h t
    | Use s _ :: t => (guard p = true -> In (Svc s) h) /\ ok p c h t
    | Net :: t => h = [] /\ ok p c h t
    | Post _ :: t => nopost p = false /\ ok p c h t
    | Take _ :: t => timer p = true /\ ok p true h t
    | (Enq _ | Fire _) :: t => ok p c h t
    end.

  Lemma order_mono p h l : order p false h l -> order p true h l.
  Proof. unfold order. intuition congruence. Qed.
  Lemma ok_mono p t : forall h, ok p false h t -> ok p true h t.
  Proof.
    induction t as [|a t IH]; intros h; [exact (fun H => H)|]. destruct a; cbn [ok]; intuition eauto using order_mono.
  Qed.
  Lemma ok_le p t h c c' : (c = true -> c' = true) -> ok p c h t -> ok p c' h t.
  Proof. destruct c, c'; intros L H; try exact H; [discriminate (L eq_refl)|apply ok_mono; exact H]. Qed.

  Definition good (p : policy) (h : list lock) (a : action) : Prop :=
    match a with
    | Acq _ | Rel _ => False
    | Sleep l => h = [l]
    | Use s _ => guard p = true -> In (Svc s) h
    | Net => h = []
    | Post _ => nopost p = false
    | Take _ => timer p = true
    | Enq _ | Fire _ => True
    end.

  Fixpoint out (c : bool) (q : prog) : bool :=
    match q with Do (Take _) => true | Seq q r => out (out c q) r | _ => c end.
  Lemma out_le q : forall c, c = true -> out c q = true.
  Proof. induction q; intros c E; cbn; try exact E; [destruct a; try exact E; reflexivity|]. apply IHq2, IHq1, E. Qed.

  Fixpoint fits (p : policy) (c : bool) (h : list lock) (q : prog) : Prop :=
    match q with
    | Nop => True
    | Do a => good p h a
    | Sync l q => order p c h l /\ fits p c (l :: h) q
    | Seq q r => fits p c h q /\ fits p (out c q) h r
    | Either q r => fits p c h q /\ fits p c h r
    | Many q => fits p c h q
    end.

  Lemma fits_ok p q t : runs q t -> forall c h k, fits p c h q -> ok p (out c q) h k -> ok p c h (t ++ k).
  Proof.
    induction 1 as [|a|l q t R IH|q r t u R1 IH1 R2 IH2|q r t R IH|q r t R IH|q|q t u R1 IH1 R2 IH2]; intros c h k F K; cbn [fits] in F; cbn [out] in K.
    - exact K.
    - destruct a; cbn [app ok]; cbn [good] in F; try contradiction; try (split; [exact F|exact K]); exact K.
    - destruct F as [O F]. cbn [app ok]. split; [exact O|]. rewrite <- app_assoc. apply IH; [exact F|]. cbn [app ok]. split; [left; reflexivity|].
      rewrite drop_head. eapply ok_le; [apply (out_le q c)|exact K].
    - destruct F as [F1 F2]. rewrite <- app_assoc. apply IH1; [exact F1|]. apply IH2; [exact F2|exact K].
    - apply IH; [apply F|]. eapply ok_le; [apply (out_le q c)|exact K].
    - apply IH; [apply F|]. eapply ok_le; [apply (out_le r c)|exact K].
    - exact K.
    - rewrite <- app_assoc. apply IH1; [exact F|]. apply (ok_le _ _ _ c); [apply out_le|]. apply IH2; [exact F|exact K].
  Qed.

  (** * Programs *)
  Lemma fits_seqs p h l : (forall q, In q l -> forall c, fits p c h q) -> forall c, fits p c h (seqs l).
  Proof.
    induction l as [|q l IH]; intros H c; cbn [seqs fits]; [exact I|]. split; [apply H; left; reflexivity|]. apply IH. intros r J. apply H. right. exact J.
  Qed.
  Lemma fits_some p h l c : (forall q, In q l -> fits p c h q) -> fits p c h (some l).
  Proof.
    induction l as [|q l IH]; intros H; cbn [some fits]; [exact I|]. split; [apply H; left; reflexivity|]. apply IH. intros r J. apply H. right. exact J.
  Qed.
  Lemma fits_map {A} p h (f : A -> prog) l : (forall x, In x l -> forall c, fits p c h (f x)) -> forall c, fits p c h (seqs (map f l)).
  Proof. intros H. apply fits_seqs. intros q J. apply in_map_iff in J. destruct J as (x & <- & J). apply H. exact J. Qed.
  Lemma fits_somemap {A} p h (f : A -> prog) l c : (forall x, In x l -> fits p c h (f x)) -> fits p c h (some (map f l)).
  Proof. intros H. apply fits_some. intros q J. apply in_map_iff in J. destruct J as (x & <- & J). apply H. exact J. Qed.

  Lemma placed_kid b l k : placed level (Mtx b l) -> In k l -> level b < level (root k) /\ placed level k.
  Proof. cbn [placed]. induction l as [|z l IH]; intros P I; [destruct I|]. destruct P as (P1 & P2 & P3). destruct I as [->|I]; [split; assumption|apply IH; assumption]. Qed.
  Lemma placed_kids t k : placed level t -> In k (kids t) -> level (root t) < level (root k) /\ placed level k.
  Proof. destruct t as [b|b l]; [intros _ []|apply placed_kid]. Qed.

  Lemma tree_ind2 (P : tree -> Prop) : (forall b, P (Reg b)) -> (forall b l, (forall k, In k l -> P k) -> P (Mtx b l)) -> forall t, P t.
  Proof.
    intros R M. fix IH 1. intros [b|b l]; [apply R|]. apply M. induction l as [|k l IHl]; [intros k []|].
    intros k' [<-|I]; [apply IH|apply IHl; exact I].
  Qed.

  Lemma before_be_job x b : before x (Be b) = true -> before x Job = true.
  Proof. unfold before. cbn. destruct x; cbn; intros H; try discriminate; reflexivity. Qed.
  Lemma before_be b b' : level b < level b' -> before (Be b) (Be b') = true.
  Proof. intros H. unfold before. cbn. apply Nat.ltb_lt. exact H. Qed.

  Lemma fits_sweep p s t : forall c h, placed level t -> (guard p = true -> In (Svc s) h) -> (nopost p = true -> exists b, t = Reg b) ->
    (forall x, In x h -> before x (Be (root t)) = true) -> fits p c h (backend_sweep s t).
  Proof.
    induction t as [b|b l IH] using tree_ind2; intros c h PL G N O.
    - cbn. repeat split; [right; left; exact O|]. intros g. right. apply G. exact g.
    - assert (NP : nopost p = false) by (destruct (nopost p); [destruct (N eq_refl); discriminate|reflexivity]).
      assert (OK' : forall k, In k l -> forall x, In x (Be b :: h) -> before x (Be (root k)) = true).
      { intros k I x [<-|X].
        - apply before_be. apply (placed_kid b l k PL I).
        - eapply before_trans; [apply O; exact X|]. apply before_be. apply (placed_kid b l k PL I). }
      cbn [backend_sweep fits opt]. split; [right; left; exact O|]. split; [|exact I]. apply fits_seqs. intros q [<-|[<-|[<-|[<-|[]]]]] c'.
      + cbn. split; [|exact NP]. right. left. intros x [<-|X]; [reflexivity|]. eapply before_be_job. apply O. exact X.
      + apply fits_map. intros k I c2. cbn. split; [|exact Logic.I]. right. left. intros x X. apply (OK' k I x X).
      + apply fits_map. intros k I c2. apply IH; [exact I|apply (placed_kid b l k PL I)| |congruence|].
        * intros g. right. apply G. exact g.
        * exact (OK' k I).
      + cbn. intros g. right. apply G. exact g.
  Qed.

  Ltac ord := first [left; cbn; tauto | right; left; let x := fresh in let X := fresh in intros x X; cbn in X; intuition (subst; reflexivity)].
  Ltac fit := cbn -[before]; repeat match goal with |- _ /\ _ => split | |- True => exact I end; try (unfold order; ord); try (cbn; tauto); try reflexivity.

  Lemma fits_resolver p c h b : (forall x, In x h -> x = Be b \/ before x (Be b) = true) -> In (Be b) h \/ (forall x, In x h -> before x (Be b) = true) ->
    fits p c h (job_enqueue_resolver b).
  Proof.
    intros O E. cbn. repeat split; [destruct E as [E|E]; [left; exact E|right; left; exact E]|]. right. left. intros x X.
    destruct (O x X) as [->|B]; [reflexivity|]. eapply before_be_job. exact B.
  Qed.

  Lemma fits_update p c s t fresh : placed level t -> Forall (fun b => level (root t) < level b) fresh -> (nopost p = true -> ~ makes_dynamic t) ->
    fits p c [] (backend_matrix_update s t fresh).
  Proof.
    intros PL FR N.
    assert (K : forall k, In k (kids t) -> forall x, In x [Be (root t); Svc s] -> before x (Be (root k)) = true).
    { intros k I x [<-|[<-|[]]]; [apply before_be; apply (placed_kids t k PL I)|reflexivity]. }
    assert (M : forall k, In k (kids t) -> forall c, fits p c [Be (root t); Svc s] (backend_mark k)).
    { intros k I c'. cbn [backend_mark fits]. split; [right; left; exact (K k I)|exact Logic.I]. }
    assert (SW : forall k, In k (kids t) -> forall c, fits p c [Be (root t); Svc s] (backend_sweep s k)).
    { intros k I c'. apply fits_sweep; [apply (placed_kids t k PL I)|intros _; cbn; tauto| |exact (K k I)].
      intros n. destruct k as [b|b l]; [eexists; reflexivity|]. exfalso. apply (N n). exists b, l. exact I. }
    assert (R : forall c, fits p c [Be (root t); Svc s] (job_enqueue_resolver (root t))).
    { intros c'. apply fits_resolver; [|left; left; reflexivity]. intros x [<-|[<-|[]]]; [left; reflexivity|right; reflexivity]. }
    assert (U : forall c w, fits p c [Be (root t); Svc s] (Do (Use s w))) by (intros c' w; cbn; tauto).
    unfold backend_matrix_update. cbn [fits]. split; [apply fits_seqs; intros q [<-|[<-|[]]] c'; fit|]. split; [split|].
    - unfold service_matrix_addr_update_backends. unfold opt; cbn [fits]. split; [ord|]. split; [ord|]. split; [cbn; tauto|]. split; [|exact I].
      apply fits_seqs. intros q [<-|[<-|[<-|[<-|[<-|[]]]]]] c'.
      + apply fits_map. exact M.
      + cbn [fits]. apply fits_some. intros q [<-|J]; [apply U|]. apply in_map_iff in J. destruct J as (k & <- & J). apply M. exact J.
      + apply fits_map. exact SW.
      + apply U.
      + apply R.
    - unfold service_matrix_srv_update_backends. unfold opt; cbn [fits]. split; [ord|]. split; [ord|]. split; [|exact I].
      apply fits_seqs. intros q [<-|[<-|[]]] c'; [|apply R]. cbn [fits]. split; [|exact I]. apply fits_seqs. intros q [<-|[<-|[<-|[<-|[]]]]] c2.
      + apply fits_map. exact M.
      + cbn [fits]. split; apply fits_somemap.
        * intros k J. apply fits_map. intros g G c3. cbn [backend_set_prio fits]. split; [|exact I]. right. left. intros x X.
          eapply before_trans; [apply (K k J x X)|]. apply before_be. apply (placed_kids k g); [apply (placed_kids t k PL J)|exact G].
        * intros b J. rewrite Forall_forall in FR. apply FR in J.
          assert (Z : forall x, In x [Be (root t); Svc s] -> before x (Be b) = true).
          { intros x [<-|[<-|[]]]; [apply before_be; exact J|reflexivity]. }
          apply fits_resolver; [intros x X; right; apply Z; exact X|right; exact Z].
      + apply fits_map. exact SW.
      + apply U.
    - unfold opt; cbn [fits]. split; [|exact I]. apply fits_resolver; [intros x []|right; intros x []].
  Qed.

  Lemma fits_serialize p c h s b : h = [Svc s] -> fits p c h (backend_serialize s b).
  Proof. intros ->. fit. Qed.
  Lemma fits_service p c s bs : fits p c [] (service_serialize s bs).
  Proof.
    unfold service_serialize. cbn [fits]. split; [ord|]. apply fits_seqs. intros q [<-|J] c'; [fit|].
    apply in_map_iff in J. destruct J as (b & <- & J). apply fits_serialize. reflexivity.
  Qed.

  Definition is_timer (k : thread) : bool := match k with Timer _ => true | _ => false end.

  Lemma fits_code g n k : well_placed level k -> (g = true -> ~ looks k) -> (n = true -> ~ cancels k) -> fits (mkP g n (is_timer k)) false [] (code k).
  Proof.
    intros W G N. destruct k; cbn [code is_timer]; cbn [well_placed looks cancels] in *.
    - unfold worker. apply fits_seqs. intros q J c. apply in_app_or in J. destruct J as [J|[<-|[]]]; [|fit].
      apply in_map_iff in J. destruct J as ([[s b] b'] & <- & J). fit.
    - fit.
    - fit.
    - unfold thr_timer. cbn [fits]. split; [ord|]. split; [|fit]. apply fits_somemap. intros b J. cbn. repeat split. right. right. repeat split. exists b. reflexivity.
    - fit.
    - fit.
    - fit.
    - unfold job_resolver_run. apply fits_seqs. intros q [<-|[<-|[<-|[]]]] c; [fit| |fit]. apply fits_update; [apply W|apply W|exact N].
    - unfold thr_backend_remover. unfold opt; cbn [fits seqs]. repeat split; try (fit; fail). apply fits_somemap. intros b J. fit.
    - cbn [fits]. split; [|reflexivity]. unfold pound_serialize. apply fits_seqs. intros q [<-|[<-|[<-|[]]]] c; [fit|fit|]. apply fits_map. intros x J c'. apply fits_service.
    - unfold session_remove. apply fits_seqs. intros q [<-|[<-|[<-|[]]]] c; [fit|apply fits_service|fit].
    - fit.
    - unfold session_add. apply fits_seqs. intros q [<-|[<-|[<-|[<-|[]]]]] c; [fit|fit|apply fits_service|fit].
    - fit.
    - unfold disable_service. apply fits_seqs. intros q [<-|[<-|[<-|[]]]] c; [fit|apply fits_service|fit].
    - unfold enable_dynamic, backend_matrix_enable. apply fits_seqs. intros q [<-|[<-|[<-|[]]]] c; [fit| |fit]. unfold opt; cbn [fits]. split; [|exact I].
      apply fits_update; [apply W|apply W|exact N].
    - assert (NF : n = false) by (destruct n; [destruct (N eq_refl I)|reflexivity]). assert (GF : g = false) by (destruct g; [destruct (G eq_refl I)|reflexivity]). subst.
      unfold disable_dynamic. apply fits_seqs. intros q [<-|[<-|[<-|[]]]] c; [fit| |fit].
      unfold backend_matrix_disable. apply fits_seqs. intros q [<-|[<-|[<-|[<-|[]]]]] c'.
      + apply fits_map. intros k J c2. fit.
      + apply fits_map. intros k J c2. apply fits_sweep; [apply (placed_kids t k W J)|discriminate|discriminate|intros x []].
      + fit.
      + fit.
  Qed.

  (** * Executions *)
  Definition inv (ps : list policy) (st : state) : Prop :=
    Forall2 (fun p r => exists c, ok p c (has r) (todo r)) ps (threads st) /\ (forall i j l, holding st i l -> holding st j l -> i = j).

  Lemma Forall2_nth {A B} (R : A -> B -> Prop) l m : Forall2 R l m -> forall i y, nth_error m i = Some y -> exists x, nth_error l i = Some x /\ R x y.
  Proof.
    induction 1 as [|x y l m H F IH]; intros [|i] z E; cbn in *; try discriminate; [exists x; split; [reflexivity|congruence]|apply IH; exact E].
  Qed.
  Lemma Forall2_put {A B} (R : A -> B -> Prop) l m : Forall2 R l m -> forall i y, (forall x, nth_error l i = Some x -> R x y) -> Forall2 R l (put m i y).
  Proof.
    induction 1 as [|x y l m H F IH]; intros [|i] z E; cbn in *; constructor; auto.
  Qed.

  Lemma excl_put st i h t h' t' q cn : nth_error (threads st) i = Some (mkR h t) -> (forall i j l, holding st i l -> holding st j l -> i = j) ->
    (forall x, In x h' -> In x h \/ forall j, j <> i -> ~ holding st j x) ->
    forall a b l, holding (mkS (put (threads st) i (mkR h' t')) q cn) a l -> holding (mkS (put (threads st) i (mkR h' t')) q cn) b l -> a = b.
  Proof.
    intros E X S a b l (ra & A & IA) (rb & B & IB). cbn in A, B. apply nth_put in A, B.
    destruct A as [[-> ->]|[NA A]]; destruct B as [[-> ->]|[NB B]]; cbn in *; try reflexivity.
    - destruct (S l IA) as [J|J].
      + apply (X i b l); [exists (mkR h t); split; [exact E|exact J]|exists rb; split; assumption].
      + exfalso. apply (J b NB). exists rb. split; assumption.
    - destruct (S l IB) as [J|J].
      + apply (X a i l); [exists ra; split; assumption|exists (mkR h t); split; [exact E|exact J]].
      + exfalso. apply (J a NA). exists ra. split; assumption.
    - apply (X a b l); [exists ra|exists rb]; split; assumption.
  Qed.

  Lemma step_inv ps st i st' : inv ps st -> step st i = Some st' -> inv ps st'.
  Proof.
    intros [F X] S. unfold step in S. destruct (nth_error (threads st) i) as [[h [|a t]]|] eqn:E; try discriminate.
    destruct (Forall2_nth _ _ _ F i _ E) as (p & P & c & K). cbn [has todo] in K.
    assert (Q : forall h' t' q cn c', ok p c' h' t' -> (forall x, In x h' -> In x h \/ forall j, j <> i -> ~ holding st j x) ->
      inv ps (mkS (put (threads st) i (mkR h' t')) q cn)).
    { intros h' t' q cn c' K' S'. split.
      - cbn [threads]. apply Forall2_put; [exact F|]. intros p' P'. exists c'. cbn. congruence.
      - eapply excl_put; eassumption. }
    destruct a; cbn [ok] in K.
    - destruct (taken st i l) eqn:T; inversion S; subst. eapply Q; [apply K|]. intros x [<-|J]; [|left; exact J]. right. intros j NJ (r & R & J).
      unfold taken in T. assert (Z : existsb (fun r => mem lock_eqb l (has r)) (others (threads st) i) = true).
      { apply existsb_exists. exists r. split; [eapply in_others; eassumption|apply mem_in; exact J]. }
      congruence.
    - destruct (mem lock_eqb l h); inversion S; subst. eapply Q; [apply K|]. intros x J. left. eapply drop_in. exact J.
    - destruct (mem lock_eqb l h); inversion S; subst. destruct K as [-> K]. eapply Q.
      + cbn [ok]. rewrite drop_head. split; [right; left; intros x []|exact K].
      + rewrite drop_head. intros x [].
    - inversion S; subst. eapply Q; [apply K|]. intros x J. left. exact J.
    - inversion S; subst. eapply Q; [apply K|]. intros x J. left. exact J.
    - inversion S; subst. eapply Q; [apply K|]. intros x J. left. exact J.
    - destruct (mem Nat.eqb b (queue st)); inversion S; subst. eapply Q; [apply K|]. intros x J. left. exact J.
    - inversion S; subst. eapply Q; [apply K|]. intros x J. left. exact J.
    - destruct (mem Nat.eqb b (cancelled st) && mem Nat.eqb b (queue st)); inversion S; subst. eapply Q; [apply K|]. intros x J. left. exact J.
  Qed.

  Lemma after_inv ps sched : forall st st', inv ps st -> after st sched = Some st' -> inv ps st'.
  Proof.
    induction sched as [|i sched IH]; intros st st' H A; cbn in A; [congruence|]. destruct (step st i) as [st1|] eqn:S; [|discriminate].
    eapply IH; [eapply step_inv; eassumption|exact A].
  Qed.

  Lemma start_inv g n ks ts q : Forall2 (fun k t => runs (code k) t) ks ts -> Forall (well_placed level) ks -> (g = true -> Forall (fun k => ~ looks k) ks) ->
    (n = true -> Forall (fun k => ~ cancels k) ks) -> inv (map (fun k => mkP g n (is_timer k)) ks) (start ts q).
  Proof.
    intros F W G N. split.
    - cbn [start threads]. induction F as [|k t ks ts R F IH]; cbn [map]; constructor.
      + exists false. cbn [has todo]. rewrite <- (app_nil_r t). eapply fits_ok; [exact R| |reflexivity]. apply fits_code.
        * inversion W; assumption.
        * intros g'. specialize (G g'). inversion G; assumption.
        * intros n'. specialize (N n'). inversion N; assumption.
      + apply IH; [inversion W; assumption|intros g'; specialize (G g'); inversion G; assumption|intros n'; specialize (N n'); inversion N; assumption].
    - intros i j l (r & R & I). cbn in R. rewrite nth_error_map in R. destruct (nth_error ts i); [|discriminate]. inversion R; subst. destruct I.
  Qed.

  Lemma reachable_inv g n ks q st : reachable ks q st -> Forall (well_placed level) ks -> (g = true -> Forall (fun k => ~ looks k) ks) ->
    (n = true -> Forall (fun k => ~ cancels k) ks) -> inv (map (fun k => mkP g n (is_timer k)) ks) st.
  Proof. intros (ts & sched & F & A) W G N. eapply after_inv; [|exact A]. apply start_inv; assumption. Qed.

  (** ** Deadlock *)
  Lemma split_all {A} (P Q : A -> Prop) d : (forall i, In i d -> P i \/ Q i) -> (exists i, In i d /\ P i) \/ (forall i, In i d -> Q i).
  Proof.
    induction d as [|x d IH]; intros H; [right; intros i []|]. destruct (H x (or_introl eq_refl)) as [p|q0]; [left; exists x; split; [left; reflexivity|exact p]|].
    destruct IH as [(i & I & p)|Q']; [intros i I; apply H; right; exact I|left; exists i; split; [right; exact I|exact p]|right; intros i [<-|I]; auto].
  Qed.

  Lemma nth_error_map_some {A B} (f : A -> B) l i y : nth_error (map f l) i = Some y -> exists x, nth_error l i = Some x /\ y = f x.
  Proof. rewrite nth_error_map. destruct (nth_error l i) as [x|]; cbn; intros H; inversion H; exists x; split; reflexivity. Qed.

  Lemma deadlock_timer g n ks st d : inv (map (fun k => mkP g n (is_timer k)) ks) st -> deadlock st d ->
    exists i bs b t, In i d /\ nth_error ks i = Some (Timer bs) /\ nth_error (threads st) i = Some (mkR [Job] (Acq (Be b) :: t)).
  Proof.
    intros [F X] [NE D].
    destruct (split_all
      (fun i => exists bs b t, nth_error ks i = Some (Timer bs) /\ nth_error (threads st) i = Some (mkR [Job] (Acq (Be b) :: t)))
      (fun i => exists l h t, nth_error (threads st) i = Some (mkR h (Acq l :: t)) /\ forall x, In x h -> before x l = true) d) as [Y|Y].
    - intros i I. destruct (D i I) as (j & J & NJ & l & (h & t & E) & HJ). destruct (Forall2_nth _ _ _ F i _ E) as (p & P & c & K).
      cbn [has todo ok] in K. destruct K as [[O|[O|(-> & TM & -> & b & ->)]] K].
      + exfalso. apply NJ. apply (X i j l); [exists (mkR h (Acq l :: t)); split; [exact E|exact O]|exact HJ].
      + right. exists l, h, t. split; assumption.
      + left. apply nth_error_map_some in P. destruct P as (k & P & ->). cbn in TM. destruct k; try discriminate. exists bs, b, t. split; [exact P|]. exact E.
    - destruct Y as (i & I & bs & b & t & Y). exists i, bs, b, t. split; assumption.
    - exfalso. set (aw := fun i => match nth_error (threads st) i with Some (mkR _ (Acq l :: _)) => l | _ => Log end).
      destruct (maximal (map aw d)) as (m & M & MX); [destruct d; [congruence|discriminate]|].
      apply in_map_iff in M. destruct M as (i & AI & I). destruct (D i I) as (j & J & NJ & l & (h & t & E) & (r & R & HL)).
      assert (L : l = m) by (unfold aw in AI; rewrite E in AI; exact AI). subst l.
      destruct (Y j J) as (l' & h' & t' & E' & B). rewrite E' in R. inversion R; subst r. cbn in HL.
      specialize (MX (aw j) (in_map _ _ _ J)). unfold aw in MX at 1. rewrite E' in MX. rewrite (B m HL) in MX. discriminate.
  Qed.

  Definition calm (ps : list policy) (st : state) : Prop :=
    Forall2 (fun p r => nopost p = true /\ ok p false (has r) (todo r)) ps (threads st) /\ cancelled st = [].

  Lemma step_calm ps st i st' : calm ps st -> step st i = Some st' -> calm ps st'.
  Proof.
    intros [F C] S. unfold step in S. destruct (nth_error (threads st) i) as [[h [|a t]]|] eqn:E; try discriminate.
    destruct (Forall2_nth _ _ _ F i _ E) as (p & P & NP & K). cbn [has todo] in K.
    assert (Q : forall h' t' q, ok p false h' t' -> calm ps (mkS (put (threads st) i (mkR h' t')) q (cancelled st))).
    { intros h' t' q K'. split; [|exact C]. cbn [threads]. apply Forall2_put; [exact F|]. intros p' P'. cbn. replace p' with p by congruence. split; assumption. }
    destruct a; cbn [ok] in K.
    - destruct (taken st i l); inversion S; subst. apply Q. apply K.
    - destruct (mem lock_eqb l h); inversion S; subst. apply Q. apply K.
    - destruct (mem lock_eqb l h); inversion S; subst. destruct K as [-> K]. apply Q. cbn [ok]. rewrite drop_head. split; [right; left; intros x []|exact K].
    - inversion S; subst. apply Q. apply K.
    - inversion S; subst. apply Q. apply K.
    - inversion S; subst. apply Q. apply K.
    - destruct (mem Nat.eqb b (queue st)); inversion S; subst. apply Q. apply K.
    - destruct K as [K _]. congruence.
    - rewrite C in S. discriminate.
  Qed.
  Lemma after_calm ps sched : forall st st', calm ps st -> after st sched = Some st' -> calm ps st'.
  Proof.
    induction sched as [|i sched IH]; intros st st' H A; cbn in A; [congruence|]. destruct (step st i) as [st1|] eqn:S; [|discriminate].
    eapply IH; [eapply step_calm; eassumption|exact A].
  Qed.

  Lemma reachable_calm ks q st : reachable ks q st -> Forall (well_placed level) ks -> Forall (fun k => ~ cancels k) ks ->
    calm (map (fun k => mkP false true (is_timer k)) ks) st.
  Proof.
    intros (ts & sched & F & A) W N. eapply after_calm; [|exact A]. split; [|reflexivity]. clear A. cbn [start threads].
    induction F as [|k t ks ts R F IH]; cbn [map]; constructor.
    - split; [reflexivity|]. cbn [has todo]. rewrite <- (app_nil_r t). eapply fits_ok; [exact R| |reflexivity]. apply fits_code; [inversion W; assumption|discriminate|].
      intros _. inversion N; assumption.
    - apply IH; [inversion W; assumption|inversion N; assumption].
  Qed.

  Lemma only_cancel ks q st d : Forall (well_placed level) ks -> reachable ks q st -> deadlock st d ->
    exists i bs b, In i d /\ nth_error ks i = Some (Timer bs) /\ holding st i Job /\ next st i (Acq (Be b)).
  Proof.
    intros W R D. assert (V : inv (map (fun k => mkP false false (is_timer k)) ks) st) by (eapply reachable_inv; try eassumption; discriminate).
    destruct (deadlock_timer _ _ _ _ _ V D) as (i & bs & b & t & I & T & E). exists i, bs, b. split; [exact I|]. split; [exact T|]. split.
    - exists (mkR [Job] (Acq (Be b) :: t)). split; [exact E|left; reflexivity].
    - exists [Job], t. exact E.
  Qed.

  Lemma no_deadlock ks q st d : Forall (well_placed level) ks -> Forall (fun k => ~ cancels k) ks -> reachable ks q st -> ~ deadlock st d.
  Proof.
    intros W N R D. assert (V : inv (map (fun k => mkP false false (is_timer k)) ks) st) by (eapply reachable_inv; try eassumption; discriminate).
    destruct (deadlock_timer _ _ _ _ _ V D) as (i & bs & b & t & I & T & E).
    destruct (reachable_calm ks q st R W N) as [F _]. destruct (Forall2_nth _ _ _ F i _ E) as (p & _ & _ & K). cbn [has todo ok] in K.
    destruct K as [[[O|[]]|[O|(O & _)]] _]; try discriminate. specialize (O Job (or_introl eq_refl)). discriminate.
  Qed.

  Lemma at_thread ks q st i r : Forall (well_placed level) ks -> reachable ks q st -> nth_error (threads st) i = Some r ->
    exists p c, ok p c (has r) (todo r).
  Proof.
    intros W R E. assert (V : inv (map (fun k => mkP false false (is_timer k)) ks) st) by (eapply reachable_inv; try eassumption; discriminate).
    destruct V as [F _]. destruct (Forall2_nth _ _ _ F i _ E) as (p & _ & c & K). exists p, c. exact K.
  Qed.

  Lemma no_race ks q st i j : Forall (well_placed level) ks -> Forall (fun k => ~ looks k) ks -> reachable ks q st -> ~ race st i j.
  Proof.
    intros W N R (NE & s & w & (h & t & E) & (h' & t' & E')).
    assert (V : inv (map (fun k => mkP true false (is_timer k)) ks) st) by (eapply reachable_inv; try eassumption; [intros _; exact N|discriminate]).
    destruct V as [F X]. apply NE. apply (X i j (Svc s)).
    - destruct (Forall2_nth _ _ _ F i _ E) as (p & P & c & K). apply nth_error_map_some in P. destruct P as (k & _ & ->). cbn in K. exists (mkR h (Use s true :: t)).
      split; [exact E|]. apply K. reflexivity.
    - destruct (Forall2_nth _ _ _ F j _ E') as (p & P & c & K). apply nth_error_map_some in P. destruct P as (k & _ & ->). cbn in K. exists (mkR h' (Use s w :: t')).
      split; [exact E'|]. apply K. reflexivity.
  Qed.
  Lemma guarded ks q st i s w : Forall (well_placed level) ks -> Forall (fun k => ~ looks k) ks -> reachable ks q st -> next st i (Use s w) -> holding st i (Svc s).
  Proof.
    intros W N R (h & t & E).
    assert (V : inv (map (fun k => mkP true false (is_timer k)) ks) st) by (eapply reachable_inv; try eassumption; [intros _; exact N|discriminate]).
    destruct V as [F X]. destruct (Forall2_nth _ _ _ F i _ E) as (p & P & c & K). apply nth_error_map_some in P. destruct P as (k & _ & ->). cbn in K.
    exists (mkR h (Use s w :: t)). split; [exact E|]. apply K. reflexivity.
  Qed.
End Order.

Lemma exclusive level ks q st i j l : Forall (well_placed level) ks -> reachable ks q st -> holding st i l -> holding st j l -> i = j.
Proof.
  intros W R. assert (V : inv level (map (fun k => mkP false false (is_timer k)) ks) st) by (eapply reachable_inv; try eassumption; discriminate). apply V.
Qed.

(** * Sequences of actions, by choices: for Either 0 is the first, for Many 0 is the end *)
Fixpoint pick (n : nat) (p : prog) (cs : list nat) : option (list action * list nat) :=
  match n with
  | 0 => None
  | S n =>
      match p with
      | Nop => Some ([], cs)
      | Do a => Some ([a], cs)
      | Sync l p => match pick n p cs with Some (t, cs) => Some (Acq l :: t ++ [Rel l], cs) | None => None end
      | Seq p q => match pick n p cs with
                   | Some (t, cs) => match pick n q cs with Some (u, cs) => Some (t ++ u, cs) | None => None end
                   | None => None
                   end
      | Either p q => match cs with 0 :: cs => pick n p cs | _ :: cs => pick n q cs | [] => pick n q [] end
      | Many p => match cs with
                  | S _ :: cs => match pick n p cs with
                                 | Some (t, cs) => match pick n (Many p) cs with Some (u, cs) => Some (t ++ u, cs) | None => None end
                                 | None => None
                                 end
                  | _ :: cs => Some ([], cs)
                  | [] => Some ([], [])
                  end
      end
  end.

Lemma pick_runs n : forall p cs t cs', pick n p cs = Some (t, cs') -> runs p t.
Proof.
  induction n as [|n IH]; intros p cs t cs' H; [discriminate|]. destruct p as [|a|l p|p q|p q|p]; cbn [pick] in H.
  - inversion H; subst. constructor.
  - inversion H; subst. constructor.
  - destruct (pick n p cs) as [[u c1]|] eqn:E; [|discriminate]. inversion H; subst. constructor. eapply IH. exact E.
  - destruct (pick n p cs) as [[u c1]|] eqn:E; [|discriminate]. destruct (pick n q c1) as [[u2 c2]|] eqn:E2; [|discriminate]. inversion H; subst.
    constructor; eapply IH; eassumption.
  - destruct cs as [|[|c] cs]; [apply r_right|apply r_left|apply r_right]; eapply IH; exact H.
  - destruct cs as [|[|c] cs]; [inversion H; subst; apply r_none|inversion H; subst; apply r_none|].
    destruct (pick n p cs) as [[u c1]|] eqn:E; [|discriminate]. destruct (pick n (Many p) c1) as [[u2 c2]|] eqn:E2; [|discriminate]. inversion H; subst.
    apply r_more; eapply IH; eassumption.
Qed.

Definition trace (k : thread) (cs : list nat) : list action := match pick 60 (code k) cs with Some (t, _) => t | None => [] end.
Lemma trace_runs k cs : pick 60 (code k) cs <> None -> runs (code k) (trace k cs).
Proof. intros H. unfold trace. destruct (pick 60 (code k) cs) as [[t c]|] eqn:E; [|congruence]. eapply pick_runs. exact E. Qed.
