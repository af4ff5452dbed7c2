(** Running a template: actions. *)
From Coq Require Import Ascii String List ZArith Bool Lia Sorted.
From Verif Require Import Bytes TplModel TevModel TevSpec TevProofs.
From Verif Require JsonModel JsonSpec JsonProofs.
Import ListNotations.
Local Open Scope nat_scope.
Local Open Scope string_scope.
Local Open Scope list_scope.

Section Proofs.
  Variable N : JsonModel.numbers.
  Variable A : arith N.
  Hypothesis sn : sane A.
  Notation jv := (JsonModel.jv N).
  Notation JNull := (JsonModel.JNull N).
  Notation JString := (JsonModel.JString N).
  Notation JArray := (JsonModel.JArray N).
  Notation JObject := (JsonModel.JObject N).
  Variable printf : list jv -> ev bytes.
  Variable T : list (bytes * list act).
  Notation pipeline_eval := (pipeline_eval N A printf).
  Notation action_eval := (action_eval N A printf T).
  Notation iterate := (iterate N A printf T).
  Notation formed := (formed N).
  Notation agrees := (agrees N).
  Notation holds := (holds N).

  (** ** Variables *)

  (** The variables other than [xs] *)
  Definition holds_but (xs : list bytes) (o : JsonModel.object jv) (V : variables N) : Prop :=
    JsonProofs.inv o
    /\ (forall x v, In (x, v) (JsonModel.pairs o) -> formed v /\ (~ In x xs -> V x = v))
    /\ (forall x, ~ In x xs -> (forall v, ~ In (x, v) (JsonModel.pairs o)) -> V x = JNull).
  Lemma holds_but_nil : forall o V, holds_but [] o V -> holds o V.
  Proof.
    intros o V (I & H1 & H2). split; [exact I|]. split.
    - intros x v X. destruct (H1 x v X) as [F E]. split; [apply E; intros []|exact F].
    - intros x X. apply H2; [intros []|exact X].
  Qed.
  Lemma holds_holds_but : forall xs o V, holds o V -> holds_but xs o V.
  Proof.
    intros xs o V (I & H1 & H2). split; [exact I|]. split.
    - intros x v X. destruct (H1 x v X) as [E F]. auto.
    - intros x _ X. apply H2, X.
  Qed.

  Lemma set_holds : forall xs e V x v, holds_but (x :: xs) (vars N e) V -> formed v ->
    exists e', set_var N x v e = Val e' /\ dot N e' = dot N e /\ holds_but xs (vars N e') (set N x v V).
  Proof.
    intros xs e V x v (I & H1 & H2) F. destruct (JsonProofs.set_spec (vars N e) x v I) as (o & E & IO & S).
    exists (mkEnv N (dot N e) o). unfold set_var. rewrite E. split; [reflexivity|]. split; [reflexivity|].
    cbn [vars]. split; [exact IO|]. split.
    - intros y w X. apply S in X as [(-> & ->)|(NE & X)].
      + split; [exact F|]. intros _. unfold set. rewrite bytes_eqb_refl. reflexivity.
      + destruct (H1 y w X) as [FW EW]. split; [exact FW|]. intros NI. unfold set.
        destruct (bytes_eqb y x) eqn:B; [apply bytes_eqb_eq in B; congruence|]. apply EW. intros [Y|Y]; [congruence|contradiction].
    - intros y NI X. unfold set. destruct (bytes_eqb y x) eqn:B.
      + apply bytes_eqb_eq in B. subst y. exfalso. apply (X v). apply S. left. split; reflexivity.
      + apply H2.
        * intros [Y|Y]; [subst; rewrite bytes_eqb_refl in B; discriminate|contradiction].
        * intros w Y. apply (X w). apply S. right. split; [intros ->; rewrite bytes_eqb_refl in B; discriminate|exact Y].
  Qed.

  Definition opt_list (x : option bytes) : list bytes := match x with Some x => [x] | None => [] end.
  Lemma set_opt_holds : forall x xs e V v, holds_but (opt_list x ++ xs) (vars N e) V -> formed v ->
    exists e', set_opt N x v e = Val e' /\ dot N e' = dot N e /\ holds_but xs (vars N e') (set_if N x v V).
  Proof.
    intros [x|] xs e V v H F; cbn [opt_list app set_opt set_if] in *; [exact (set_holds xs e V x v H F)|].
    exists e. split; [reflexivity|]. split; [reflexivity|exact H].
  Qed.

  (** The environment of a range, before an element is set *)
  Definition between (kx vx : option bytes) (e : env N) (d : jv) (V : variables N) : Prop :=
    formed d /\ (kx <> None \/ vx <> None -> dot N e = d) /\ holds_but (opt_list kx ++ opt_list vx) (vars N e) V.

  Lemma holds_but_set : forall x xs o V v, holds_but xs o (set_if N x v V) -> holds_but (opt_list x ++ xs) o V.
  Proof.
    intros [x|] xs o V v H; cbn [set_if opt_list app] in *; [|exact H]. destruct H as (I & H1 & H2). split; [exact I|]. split.
    - intros y w X. destruct (H1 y w X) as [F E]. split; [exact F|]. intros NI.
      rewrite <- (E ltac:(intros Y; apply NI; right; exact Y)). unfold set.
      destruct (bytes_eqb y x) eqn:B; [apply bytes_eqb_eq in B; subst; exfalso; apply NI; left; reflexivity|reflexivity].
    - intros y NI X. specialize (H2 y ltac:(intros Y; apply NI; right; exact Y) X). unfold set in H2.
      destruct (bytes_eqb y x) eqn:B; [apply bytes_eqb_eq in B; subst; exfalso; apply NI; left; reflexivity|exact H2].
  Qed.

  Lemma holds_but_perm : forall xs ys o V, (forall x, In x xs <-> In x ys) -> holds_but xs o V -> holds_but ys o V.
  Proof.
    intros xs ys o V P (I & H1 & H2). split; [exact I|]. split.
    - intros x v X. destruct (H1 x v X) as [F E]. split; [exact F|]. intros NI. apply E. rewrite P. exact NI.
    - intros x NI X. apply H2; [rewrite P; exact NI|exact X].
  Qed.

  Lemma element_set : forall kx vx e d V k v, between kx vx e d V -> formed k -> formed v ->
    exists e', set_element N kx vx k v e = Val e' /\ agrees e' (range_dot N kx vx d v) (range_vars N kx vx V k v)
      /\ between kx vx e' d V.
  Proof.
    intros kx vx e d V k v (FD & D & H) FK FV. destruct (option_map (fun _ => tt) kx) as [[]|] eqn:EK.
    - assert (K : kx <> None) by (intros ->; discriminate).
      destruct (set_opt_holds kx (opt_list vx) e V k H FK) as (e1 & E1 & D1 & H1).
      destruct (set_opt_holds vx [] e1 (set_if N kx k V) v) as (e2 & E2 & D2 & H2); [rewrite app_nil_r; exact H1|exact FV|].
      exists e2. assert (X : set_element N kx vx k v e = let! e <- set_opt N kx k e; set_opt N vx v e).
      { destruct kx; [reflexivity|congruence]. }
      assert (Y : range_dot N kx vx d v = d) by (destruct kx; [reflexivity|congruence]).
      rewrite X, E1. cbn [andthen]. split; [exact E2|]. rewrite Y. specialize (D (or_introl K)). split.
      + split; [congruence|]. split; [exact FD|]. apply holds_but_nil. exact H2.
      + split; [exact FD|]. split; [intros _; congruence|]. apply (holds_but_set kx) with (v := k).
        rewrite <- (app_nil_r (opt_list vx)). apply (holds_but_set vx) with (v := v). exact H2.
    - assert (K : kx = None) by (destruct kx; [discriminate|reflexivity]). subst kx. destruct vx as [x|].
      + destruct (set_holds [] e V x v H FV) as (e2 & E2 & D2 & H2). exists e2. cbn [set_element set_opt andthen]. split; [exact E2|].
        assert (K : Some x <> None) by discriminate. specialize (D (or_intror K)). cbn [range_dot]. split.
        * split; [congruence|]. split; [exact FD|]. apply holds_but_nil. exact H2.
        * split; [exact FD|]. split; [intros _; congruence|]. exact (holds_but_set (Some x) [] _ V v H2).
      + exists (mkEnv N v (vars N e)). cbn [set_element]. split; [reflexivity|]. cbn [range_dot range_vars set_if]. split.
        * split; [reflexivity|]. split; [exact FV|]. apply holds_but_nil. exact H.
        * split; [exact FD|]. split; [intros [X|X]; congruence|]. exact H.
  Qed.

  (** ** The elements of a range *)

  Lemma numbered_eq : forall l i, numbered N A i l = number_from N A i l.
  Proof. induction l as [|v l IH]; intros i; cbn; [reflexivity|]. rewrite IH. reflexivity. Qed.

  Definition formed_pair (p : jv * jv) : Prop := formed (fst p) /\ formed (snd p).
  Lemma members_elements : forall v l, members N A v l -> formed v ->
    Forall formed_pair l /\ elements N A v = match l with [] => None | _ => Some l end.
  Proof.
    intros v l M F. destruct M as [l|l|v HA HO].
    - split.
      + inversion F as [| | | | |l0 F0 E|]. subst. clear F. generalize 0%Z. induction F0 as [|v l FV F0 IH]; intros i; constructor; [|apply IH].
        split; [constructor|exact FV].
      + rewrite numbered_eq. destruct l; reflexivity.
    - split.
      + inversion F as [| | | | | |l0 F0 S E]. subst. clear F S. induction F0 as [|v l FV F0 IH]; constructor; [|apply IH].
        split; [constructor|exact FV].
      + destruct l as [|[k v] l]; reflexivity.
    - split; [constructor|]. destruct v as [| | | | |l|l]; try reflexivity; [exfalso; apply (HA l); reflexivity|exfalso; apply (HO l); reflexivity].
  Qed.

  (** ** Actions *)

  Definition one_action (fuel : nat) (e : env N) (a : act) : ran :=
    match a with
    | AText s => Ran s false
    | ANull => RUndef
    | APipe p => with_value (pipeline_eval fuel e None p) (fun v => Ran (print_json N v) false)
    | ACond p no yes =>
        with_value (pipeline_eval fuel e None p) (fun v => with_value (is_empty N A v) (fun m =>
              action_eval fuel e (if m then no else yes)))
    | AWith x p no yes =>
        with_value (pipeline_eval fuel e None p) (fun v => with_value (is_empty N A v) (fun m =>
              if m then action_eval fuel e no
              else match x with
                   | Some x => with_value (set_var N x v e) (fun e => action_eval fuel e yes)
                   | None => action_eval fuel (mkEnv N v (vars N e)) yes
                   end))
    | ARange kx vx p no yes =>
        with_value (pipeline_eval fuel e None p) (fun v =>
              match elements N A v with
              | Some l => iterate fuel e kx vx yes l
              | None => action_eval fuel e no
              end)
    | ABlock name arg =>
        with_value (pipeline_eval fuel e None arg) (fun v =>
              match template_lookup name T with
              | Some body =>
                  match action_eval fuel (mkEnv N v (vars N e)) body with
                  | Ran o _ => Ran o false
                  | r => r
                  end
              | None => RUndef
              end)
    | AContinue => Ran [] false
    | ABreak => Ran [] true
    end.
  Definition goes_on (r k : ran) : ran := match r with Ran o false => after o k | _ => r end.
  Definition leaves (a : act) : bool := match a with ABreak | AContinue | ANull => true | _ => false end.
  Lemma action_step : forall fuel e a acts, leaves a = false ->
    action_eval (S fuel) e (a :: acts) = goes_on (one_action fuel e a) (action_eval fuel e acts).
  Proof. intros fuel e a acts H. destruct a; try discriminate H; reflexivity. Qed.

  Scheme runs_mut := Induction for runs Sort Prop
  with does_mut := Induction for does Sort Prop
  with loops_mut := Induction for loops Sort Prop.
  Combined Scheme run_comb from runs_mut, does_mut, loops_mut.

  Definition stopped (e : ending) : bool := match e with Broken => true | _ => false end.
  Hypothesis bodies : forall n b, In (n, b) T -> placed false b.

  Inductive placed_act : act -> Prop :=
  | pa_text : forall s, placed_act (AText s)
  | pa_pipe : forall p, placed_act (APipe p)
  | pa_block : forall n p, placed_act (ABlock n p)
  | pa_if : forall p no yes, placed false no -> placed false yes -> placed_act (ACond p no yes)
  | pa_with : forall x p no yes, placed false no -> placed false yes -> placed_act (AWith x p no yes)
  | pa_range : forall kx vx p no yes, placed false no -> placed true yes -> placed_act (ARange kx vx p no yes).

  Definition P_runs (d : jv) (V : variables N) (acts : list act) (o : bytes) (en : ending) : Prop :=
    forall b e, placed b acts -> agrees e d V -> (b = false -> en <> Continued)
      /\ exists n, forall fuel, n <= fuel -> action_eval fuel e acts = Ran o (stopped en).
  Definition P_does (d : jv) (V : variables N) (a : act) (o : bytes) (en : ending) : Prop :=
    forall e, placed_act a -> agrees e d V -> en <> Continued /\ leaves a = false
      /\ exists n, forall fuel, n <= fuel -> one_action fuel e a = Ran o (stopped en).
  Definition P_loops (d : jv) (V : variables N) (kx vx : option bytes) (yes : list act) (l : list (jv * jv)) (o : bytes) : Prop :=
    forall e, placed true yes -> between kx vx e d V -> Forall formed_pair l ->
      exists n, forall fuel, n <= fuel -> iterate fuel e kx vx yes l = Ran o false.

  Lemma placed_split : forall b a acts d V o en, does N A printf T d V a o en -> placed b (a :: acts) -> placed_act a /\ placed b acts.
  Proof.
    intros b a acts d V o en H P. inversion P; subst; try (split; [constructor; assumption|assumption]); inversion H.
  Qed.

  Lemma stands_lookup : forall n b, stands_for T n b -> template_lookup n T = Some b /\ In (n, b) T.
  Proof.
    intros n b (T1 & T2 & -> & NI). split; [|apply in_elt]. clear bodies. unfold template_lookup.
    induction T1 as [|[m c] T1 IH]; cbn [app find fst].
    - rewrite bytes_eqb_refl. reflexivity.
    - destruct (bytes_eqb m n) eqn:B; [apply bytes_eqb_eq in B; subst; exfalso; apply NI; left; reflexivity|].
      apply IH. intros X. apply NI. right. exact X.
  Qed.

  Lemma run_all : (forall d V acts o en, runs N A printf T d V acts o en -> P_runs d V acts o en)
    /\ (forall d V a o en, does N A printf T d V a o en -> P_does d V a o en)
    /\ (forall d V kx vx yes l o, loops N A printf T d V kx vx yes l o -> P_loops d V kx vx yes l o).
  Proof.
    apply (run_comb N A printf T (fun d V acts o en _ => P_runs d V acts o en) (fun d V a o en _ => P_does d V a o en)
      (fun d V kx vx yes l o _ => P_loops d V kx vx yes l o)).
    - intros d V b e P G. split; [discriminate|]. exists 1. intros [|fuel] L; [lia|]. reflexivity.
    - intros d V acts b e P G. split; [discriminate|]. exists 1. intros [|fuel] L; [lia|]. reflexivity.
    - intros d V acts b e P G. split; [intros ->; inversion P|]. exists 1. intros [|fuel] L; [lia|]. reflexivity.
    - intros d V a acts o o' en HD IH1 _ IH2 b e P G. destruct (placed_split b a acts _ _ _ _ HD P) as [PA PB].
      destruct (IH1 e PA G) as (_ & L1 & n1 & E1). destruct (IH2 b e PB G) as (C & n2 & E2). split; [exact C|].
      exists (S (n1 + n2)). intros [|fuel] L; [lia|]. rewrite (action_step _ _ _ _ L1), (E1 fuel ltac:(lia)), (E2 fuel ltac:(lia)). reflexivity.
    - intros d V a acts o en HD IH1 NT b e P G. destruct (placed_split b a acts _ _ _ _ HD P) as [PA PB].
      destruct (IH1 e PA G) as (C & L1 & n1 & E1). split; [intros _; exact C|].
      exists (S n1). intros [|fuel] L; [lia|]. rewrite (action_step _ _ _ _ L1), (E1 fuel ltac:(lia)).
      destruct en; [congruence|reflexivity|congruence].
    - intros d V s e P G. split; [discriminate|]. split; [reflexivity|]. exists 0. reflexivity.
    - intros d V p v t HV HS e P G. destruct (value_eval N A sn printf d V p v HV e G) as (F & n & E).
      split; [discriminate|]. split; [reflexivity|]. exists n. intros fuel L. cbn [one_action]. rewrite (E fuel L). cbn [with_value].
      rewrite (shown_print N v t HS). reflexivity.
    - intros d V p no yes v o en HV HF _ IH e P G. destruct (value_eval N A sn printf d V p v HV e G) as (F & n & E).
      inversion P as [| | |p0 no0 yes0 PN PY E0| |]. subst. destruct (IH false e PY G) as (C & n2 & E2).
      split; [exact (C eq_refl)|]. split; [reflexivity|]. exists (n + n2). intros fuel L. cbn [one_action]. rewrite (E fuel ltac:(lia)). cbn [with_value].
      rewrite (full_false N A sn v HF). cbn [with_value]. apply E2. lia.
    - intros d V p no yes v o en HV HF _ IH e P G. destruct (value_eval N A sn printf d V p v HV e G) as (F & n & E).
      inversion P as [| | |p0 no0 yes0 PN PY E0| |]. subst. destruct (IH false e PN G) as (C & n2 & E2).
      split; [exact (C eq_refl)|]. split; [reflexivity|]. exists (n + n2). intros fuel L. cbn [one_action]. rewrite (E fuel ltac:(lia)). cbn [with_value].
      rewrite (empty_true N A sn v HF). cbn [with_value]. apply E2. lia.
    - intros d V p no yes v o en HV HF _ IH e P G. destruct (value_eval N A sn printf d V p v HV e G) as (F & n & E).
      inversion P as [| | | |x0 p0 no0 yes0 PN PY E0|]. subst.
      destruct (IH false (mkEnv N v (vars N e)) PY) as (C & n2 & E2); [split; [reflexivity|split; [exact F|exact (proj2 (proj2 G))]]|].
      split; [exact (C eq_refl)|]. split; [reflexivity|]. exists (n + n2). intros fuel L. cbn [one_action]. rewrite (E fuel ltac:(lia)). cbn [with_value].
      rewrite (full_false N A sn v HF). cbn [with_value]. apply E2. lia.
    - intros d V x p no yes v o en HV HF _ IH e P G. destruct (value_eval N A sn printf d V p v HV e G) as (F & n & E).
      inversion P as [| | | |x0 p0 no0 yes0 PN PY E0|]. subst.
      destruct (set_holds [] e V x v (holds_holds_but [x] _ _ (proj2 (proj2 G))) F) as (e2 & ES & D & H2).
      destruct (IH false e2 PY) as (C & n2 & E2).
      { split; [rewrite D; exact (proj1 G)|]. split; [exact (proj1 (proj2 G))|]. apply holds_but_nil. exact H2. }
      split; [exact (C eq_refl)|]. split; [reflexivity|]. exists (n + n2). intros fuel L. cbn [one_action]. rewrite (E fuel ltac:(lia)). cbn [with_value].
      rewrite (full_false N A sn v HF). cbn [with_value]. rewrite ES. cbn [with_value]. apply E2. lia.
    - intros d V x p no yes v o en HV HF _ IH e P G. destruct (value_eval N A sn printf d V p v HV e G) as (F & n & E).
      inversion P as [| | | |x0 p0 no0 yes0 PN PY E0|]. subst. destruct (IH false e PN G) as (C & n2 & E2).
      split; [exact (C eq_refl)|]. split; [reflexivity|]. exists (n + n2). intros fuel L. cbn [one_action]. rewrite (E fuel ltac:(lia)). cbn [with_value].
      rewrite (empty_true N A sn v HF). cbn [with_value]. apply E2. lia.
    - intros d V kx vx p no yes v l o HV HM NE _ IH e P G. destruct (value_eval N A sn printf d V p v HV e G) as (F & n & E).
      inversion P as [| | | | |kx0 vx0 p0 no0 yes0 PN PY E0]. subst. destruct (members_elements v l HM F) as [FL EL].
      destruct (IH e PY) as (n2 & E2); [|exact FL|].
      { split; [exact (proj1 (proj2 G))|]. split; [intros _; exact (proj1 G)|]. apply holds_holds_but. exact (proj2 (proj2 G)). }
      split; [discriminate|]. split; [reflexivity|]. exists (n + n2). intros fuel L. cbn [one_action]. rewrite (E fuel ltac:(lia)). cbn [with_value].
      rewrite EL. destruct l; [congruence|]. apply E2. lia.
    - intros d V kx vx p no yes v o en HV HM _ IH e P G. destruct (value_eval N A sn printf d V p v HV e G) as (F & n & E).
      inversion P as [| | | | |kx0 vx0 p0 no0 yes0 PN PY E0]. subst. destruct (members_elements v [] HM F) as [FL EL].
      destruct (IH false e PN G) as (C & n2 & E2).
      split; [exact (C eq_refl)|]. split; [reflexivity|]. exists (n + n2). intros fuel L. cbn [one_action]. rewrite (E fuel ltac:(lia)). cbn [with_value].
      rewrite EL. apply E2. lia.
    - intros d V nm arg v b o HV HS _ IH e P G. destruct (value_eval N A sn printf d V arg v HV e G) as (F & n & E).
      destruct (stands_lookup nm b HS) as [EL I]. pose proof (bodies nm b I) as PB.
      destruct (IH false (mkEnv N v (vars N e)) PB) as (C & n2 & E2); [split; [reflexivity|split; [exact F|exact (proj2 (proj2 G))]]|].
      split; [discriminate|]. split; [reflexivity|]. exists (n + n2). intros fuel L. cbn [one_action]. rewrite (E fuel ltac:(lia)). cbn [with_value].
      rewrite EL, (E2 fuel ltac:(lia)). reflexivity.
    - intros d V kx vx yes e P B F. exists 1. intros [|fuel] L; [lia|]. reflexivity.
    - intros d V kx vx yes k v l o en o' _ IH1 HE _ IH2 e P B F. inversion F as [|p l0 [FK FV] FL E0]. subst. cbn [fst snd] in FK, FV.
      destruct (element_set kx vx e d V k v B FK FV) as (e2 & ES & G2 & B2). destruct (IH1 true e2 P G2) as (_ & n1 & E1).
      destruct (IH2 e2 P B2 FL) as (n2 & E2). exists (S (n1 + n2)). intros [|fuel] L; [lia|].
      change (iterate (S fuel) e kx vx yes ((k, v) :: l)) with (with_value (set_element N kx vx k v e) (fun e =>
        match action_eval fuel e yes with Ran o true => Ran o false | Ran o false => after o (iterate fuel e kx vx yes l) | r => r end)).
      rewrite ES. cbn [with_value]. rewrite (E1 fuel ltac:(lia)). replace (stopped en) with false by (destruct HE as [->| ->]; reflexivity).
      rewrite (E2 fuel ltac:(lia)). reflexivity.
    - intros d V kx vx yes k v l o _ IH1 e P B F. inversion F as [|p l0 [FK FV] FL E0]. subst. cbn [fst snd] in FK, FV.
      destruct (element_set kx vx e d V k v B FK FV) as (e2 & ES & G2 & B2). destruct (IH1 true e2 P G2) as (_ & n1 & E1).
      exists (S n1). intros [|fuel] L; [lia|].
      change (iterate (S fuel) e kx vx yes ((k, v) :: l)) with (with_value (set_element N kx vx k v e) (fun e =>
        match action_eval fuel e yes with Ran o true => Ran o false | Ran o false => after o (iterate fuel e kx vx yes l) | r => r end)).
      rewrite ES. cbn [with_value]. rewrite (E1 fuel ltac:(lia)). reflexivity.
  Qed.

  Lemma runs_eval : forall d V acts o en, runs N A printf T d V acts o en -> P_runs d V acts o en.
  Proof. exact (proj1 run_all). Qed.
  Lemma does_eval : forall d V a o en, does N A printf T d V a o en -> P_does d V a o en.
  Proof. exact (proj1 (proj2 run_all)). Qed.

  Lemma template_runs : forall d acts o, runs N A printf T d (unset N) acts o Through -> placed false acts -> formed d ->
    exists n, forall fuel, n <= fuel -> template_run N A printf T fuel d acts = Ran o false.
  Proof.
    intros d acts o H P F. destruct (runs_eval d (unset N) acts o Through H false (mkEnv N d JsonModel.json_new_object) P) as (_ & E); [|exact E].
    split; [reflexivity|]. split; [exact F|]. split; [exact JsonProofs.inv_new|]. split; [intros x v []|reflexivity].
  Qed.
End Proofs.
