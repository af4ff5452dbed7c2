(** Running a template: errors. *)
From Coq Require Import Ascii String List ZArith Bool Lia Sorted.
From Verif Require Import Bytes TplModel TevModel TevSpec TevProofs TevRunProofs.
From Verif Require JsonModel JsonSpec JsonProofs.
Import ListNotations.
Local Open Scope nat_scope.
Local Open Scope string_scope.
Local Open Scope list_scope.

Section Proofs.
  Variable N : JsonModel.numbers.
  Variable A : arith N.
  Hypothesis sn : sane A.
  Notation jv := (JsonModel.jv N).
  Notation JNull := (JsonModel.JNull N).
  Notation JString := (JsonModel.JString N).
  Notation JArray := (JsonModel.JArray N).
  Notation JObject := (JsonModel.JObject N).
  Variable printf : list jv -> ev bytes.
  Variable T : list (bytes * list act).
  Notation call := (call N A printf).
  Notation pipeline_eval := (pipeline_eval N A printf).
  Notation eval_args := (eval_args N A printf).
  Notation one_eval := (one_eval N A printf).
  Notation action_eval := (action_eval N A printf T).
  Notation one_action := (one_action N A printf T).
  Notation iterate := (iterate N A printf T).
  Notation formed := (formed N).
  Notation agrees := (agrees N).

  Lemma items_index_on : forall v ks w ks', items N A v ks w -> formed v -> index_by N A v (ks ++ ks') = index_by N A w ks' /\ formed w.
  Proof.
    intros v ks w ks' H. induction H as [v|v k w ks u HI HS IH]; intros F; [split; [reflexivity|exact F]|].
    destruct HI as [l k z v W E P|l k v I].
    - cbn [app index_by]. rewrite (cast_whole N A sn k z W). cbn [andthen]. rewrite (long_exact N A sn z (proj1 W)). cbn [andthen].
      assert (L : (z <? 0)%Z = false) by (apply Z.ltb_ge; lia). rewrite L.
      assert (B : Z.to_nat z < length l) by (apply nth_error_Some; rewrite E; discriminate).
      assert (L' : (z <? Z.of_nat (length l))%Z = true) by (apply Z.ltb_lt; lia). rewrite L', E.
      apply IH. apply (formed_array N l v F). apply (nth_error_In _ _ E).
    - cbn [app index_by json_cast_to_string andthen]. destruct (attribute_spec N l k F) as (r & E & S). rewrite E. cbn [andthen].
      apply S in I as I'. rewrite I'. apply IH. apply (formed_object N l k v F I).
  Qed.

  Lemma fold_stops : forall op l ns v l' n, Forall2 (number N) l ns -> no_number N v -> fold_numeric N op n (l ++ v :: l') = Stop Bad_type.
  Proof.
    intros op l ns v l' n H NV. revert n. induction H as [|a m l ns HN H IH]; intros n; cbn [app fold_numeric].
    - destruct v; try reflexivity; exfalso; apply (NV n0); [left|right]; reflexivity.
    - rewrite (numeric_spec N a m HN). cbn [andthen]. apply IH.
  Qed.

  Lemma refused_call : forall f args x, refused N A printf f args x -> Forall formed args -> call f args = Stop x.
  Proof.
    intros f args x H F. destruct H as [f H|f a b l H|f l H L|f l H L|f cs a b H K|f op H|f op l v l' ns H HS NV|a b H|v ks l k ks' H NI|v ks w k ks' H K|args c H].
    - unfold of_one in H. repeat (destruct H as [H|H]; [subst f; reflexivity|]). destruct H.
    - unfold of_one in H. repeat (destruct H as [H|H]; [subst f; reflexivity|]). destruct H.
    - assert (C : l = [] \/ exists a, l = [a]).
      { destruct l as [|a [|b l]]; [left; reflexivity|right; exists a; reflexivity|cbn [length] in L; lia]. }
      unfold of_two in H. destruct C as [->|(a & ->)]; repeat (destruct H as [H|H]; [subst f; reflexivity|]); destruct H.
    - destruct l as [|a [|b [|c l]]]; cbn [length] in L; try lia.
      unfold of_two in H. repeat (destruct H as [H|H]; [subst f; reflexivity|]). destruct H.
    - destruct (tests_call N A printf f cs [a; b] H) as (t & -> & _). unfold compare_with.
      replace (json_cmp N A [a; b]) with (@Stop comparison Not_comparable); [reflexivity|].
      unfold json_cmp. cbn [two_args andthen]. destruct a, b; try reflexivity; cbn [kind_of] in K; destruct K; congruence.
    - unfold operations in H. repeat (destruct H as [H|H]; [injection H as <- <-; reflexivity|]). destruct H.
    - assert (X : call f (l ++ v :: l') = arithmetic N op (l ++ v :: l')).
      { unfold operations in H. repeat (destruct H as [H|H]; [injection H as <- <-; reflexivity|]). destruct H. }
      rewrite X. destruct HS as [|a m l ns HN HS]; cbn [app arithmetic].
      + replace (numeric N v) with (@Stop (JsonModel.dbl N) Bad_type); [reflexivity|].
        destruct v; try reflexivity; exfalso; apply (NV n); [left|right]; reflexivity.
      + rewrite (numeric_spec N a m HN). cbn [andthen]. rewrite (fold_stops op l ns v l' m HS NV). reflexivity.
    - change (call (lit "div") [a; b]) with (func_div N A [a; b]). unfold func_div. cbn [two_args andthen].
      assert (Y : forall v : jv, no_number N v -> numeric N v = Stop Bad_type).
      { intros v NV. destruct v; try reflexivity; exfalso; apply (NV n); [left|right]; reflexivity. }
      destruct H as [H|H].
      + rewrite (Y a H). reflexivity.
      + rewrite (Y b H). destruct a; reflexivity.
    - inversion F as [|y z FV FK]. subst. change (index_by N A v (ks ++ JString k :: ks') = Stop No_attribute).
      destruct (items_index_on v ks (JObject l) (JString k :: ks') H FV) as [-> FO]. cbn [index_by json_cast_to_string andthen].
      destruct (attribute_spec N l k FO) as (r & E & S). rewrite E. cbn [andthen]. destruct r as [w|]; [|reflexivity].
      exfalso. apply NI. apply in_map_iff. exists (k, w). split; [reflexivity|]. apply S. reflexivity.
    - inversion F as [|y z FV FK]. subst. change (index_by N A v (ks ++ k :: ks') = Stop Not_indexed).
      destruct (items_index_on v ks w (k :: ks') H FV) as [-> FO]. cbn [index_by]. destruct w; try reflexivity; exfalso; apply K; reflexivity.
    - change (call (lit "printf") args) with (func_printf N printf args). unfold func_printf. rewrite H. reflexivity.
  Qed.

  (** ** Pipelines *)

  Scheme stops_mut := Induction for stops Sort Prop
  with stops_piped_mut := Induction for stops_piped Sort Prop
  with stops_at_mut := Induction for stops_at Sort Prop.

  Definition S_stops (d : jv) (V : variables N) (p : list cmd) (x : complaint) : Prop :=
    forall e, agrees e d V -> exists n, forall fuel, n <= fuel -> pipeline_eval fuel e None p = Stop x.
  Definition S_piped (d : jv) (V : variables N) (prev : jv) (p : list cmd) (x : complaint) : Prop :=
    forall e, agrees e d V -> formed prev -> exists n, forall fuel, n <= fuel -> pipeline_eval fuel e (Some prev) p = Stop x.
  Definition S_at (d : jv) (V : variables N) (prev : option jv) (c : cmd) (x : complaint) : Prop :=
    forall e, agrees e d V -> formed_prev N prev -> exists n, forall fuel, n <= fuel -> one_eval fuel e prev c = Stop x.

  Lemma args_stop : forall ps vs p ps' x e n1 n2, (forall fuel, n1 <= fuel -> eval_args fuel e ps = Val vs) ->
    (forall fuel, n2 <= fuel -> pipeline_eval fuel e None p = Stop x) ->
    exists n, forall fuel, n <= fuel -> eval_args fuel e (ps ++ p :: ps') = Stop x.
  Proof.
    induction ps as [|q ps IH]; intros vs p ps' x e n1 n2 H1 H2.
    - exists (S n2). intros [|fuel] L; [lia|]. cbn [app].
      change (eval_args (S fuel) e (p :: ps')) with (let! v <- pipeline_eval fuel e None p; let! vs <- eval_args fuel e ps'; Val (v :: vs)).
      rewrite (H2 fuel ltac:(lia)). reflexivity.
    - assert (Q : forall fuel, n1 <= fuel -> exists v us, pipeline_eval fuel e None q = Val v /\ eval_args fuel e ps = Val us).
      { intros fuel L. specialize (H1 (S fuel) ltac:(lia)).
        change (eval_args (S fuel) e (q :: ps)) with (let! v <- pipeline_eval fuel e None q; let! vs <- eval_args fuel e ps; Val (v :: vs)) in H1.
        destruct (pipeline_eval fuel e None q) as [v| | |]; try discriminate. cbn [andthen] in H1.
        destruct (eval_args fuel e ps) as [us| | |]; try discriminate. exists v, us. split; reflexivity. }
      assert (U : forall fuel, n1 <= fuel -> eval_args fuel e ps = Val (tl vs)).
      { intros fuel L. specialize (H1 (S fuel) ltac:(lia)).
        change (eval_args (S fuel) e (q :: ps)) with (let! v <- pipeline_eval fuel e None q; let! vs <- eval_args fuel e ps; Val (v :: vs)) in H1.
        destruct (pipeline_eval fuel e None q) as [v| | |]; try discriminate. cbn [andthen] in H1.
        destruct (eval_args fuel e ps) as [us| | |]; try discriminate. cbn [andthen] in H1. injection H1 as <-. reflexivity. }
      destruct (IH (tl vs) p ps' x e n1 n2 U H2) as (n & E). exists (S (n + n1)). intros [|fuel] L; [lia|]. cbn [app].
      change (eval_args (S fuel) e (q :: ps ++ p :: ps')) with (let! v <- pipeline_eval fuel e None q; let! vs <- eval_args fuel e (ps ++ p :: ps'); Val (v :: vs)).
      destruct (Q fuel ltac:(lia)) as (v & us & -> & _). cbn [andthen]. rewrite (E fuel ltac:(lia)). reflexivity.
  Qed.

  Lemma stops_eval : forall d V p x, stops N A printf d V p x -> S_stops d V p x.
  Proof.
    intros d V p x H.
    apply (stops_mut N A printf (fun d V p x _ => S_stops d V p x) (fun d V prev p x _ => S_piped d V prev p x)
      (fun d V prev c x _ => S_at d V prev c x)); try exact H; clear d V p x H.
    - intros d V c p x _ IH e G. destruct (IH e G I) as (n & E). exists (S n). intros [|fuel] L; [lia|].
      rewrite pipeline_step, (E fuel ltac:(lia)). reflexivity.
    - intros d V c p v x HO _ IH e G. destruct (one_eval_ok N A sn printf d V None c v HO e G I) as (F & n1 & E1).
      destruct (IH e G F) as (n2 & E2). exists (S (n1 + n2)). intros [|fuel] L; [lia|].
      rewrite pipeline_step, (E1 fuel ltac:(lia)). cbn [andthen]. apply E2. lia.
    - intros d V prev c p x _ IH e G FP. destruct (IH e G FP) as (n & E). exists (S n). intros [|fuel] L; [lia|].
      rewrite pipeline_step, (E fuel ltac:(lia)). reflexivity.
    - intros d V prev c p v x HO _ IH e G FP. destruct (one_eval_ok N A sn printf d V (Some prev) c v HO e G FP) as (F & n1 & E1).
      destruct (IH e G F) as (n2 & E2). exists (S (n1 + n2)). intros [|fuel] L; [lia|].
      rewrite pipeline_step, (E1 fuel ltac:(lia)). cbn [andthen]. apply E2. lia.
    - intros d V prev p x _ IH e G _. exact (IH e G).
    - intros d V prev p q x _ IH e G _. destruct (IH e G) as (n & E). exists n. intros fuel L. cbn [TevProofs.one_eval]. rewrite (E fuel L). reflexivity.
    - intros d V prev p q v x HV _ IH e G _. destruct (value_eval N A sn printf d V p v HV e G) as (F & n1 & E1).
      destruct (IH (mkEnv N v (vars N e))) as (n2 & E2); [split; [reflexivity|split; [exact F|exact (proj2 (proj2 G))]]|].
      exists (n1 + n2). intros fuel L. cbn [TevProofs.one_eval]. rewrite (E1 fuel ltac:(lia)). cbn [andthen]. apply E2. lia.
    - intros d V prev f ps vs p ps' x HV _ IH e G _. destruct (values_eval N A sn printf d V ps vs HV e G) as (F & n1 & E1).
      destruct (IH e G) as (n2 & E2). destruct (args_stop ps vs p ps' x e n1 n2 E1 E2) as (n & E).
      exists n. intros fuel L. cbn [TevProofs.one_eval]. rewrite (E fuel L). reflexivity.
    - intros d V f args vs x HV R e G _. destruct (values_eval N A sn printf d V args vs HV e G) as (F & n1 & E1).
      exists n1. intros fuel L. cbn [TevProofs.one_eval]. rewrite (E1 fuel L). cbn [andthen]. rewrite app_nil_r. exact (refused_call f vs x R F).
    - intros d V prev f args vs x HV R e G FP. destruct (values_eval N A sn printf d V args vs HV e G) as (F & n1 & E1).
      exists n1. intros fuel L. cbn [TevProofs.one_eval]. rewrite (E1 fuel L). cbn [andthen]. apply (refused_call f (vs ++ [prev]) x R).
      apply Forall_app. split; [exact F|]. constructor; [exact FP|constructor].
  Qed.

  (** ** Actions *)

  Scheme aborts_mut := Induction for aborts Sort Prop
  with aborts_at_mut := Induction for aborts_at Sort Prop
  with loop_aborts_mut := Induction for loop_aborts Sort Prop.

  Hypothesis bodies : forall n b, In (n, b) T -> placed false b.

  Definition S_aborts (d : jv) (V : variables N) (acts : list act) (o : bytes) (x : complaint) : Prop :=
    forall b e, placed b acts -> agrees e d V -> exists n, forall fuel, n <= fuel -> action_eval fuel e acts = Exited o x.
  Definition S_aborts_at (d : jv) (V : variables N) (a : act) (o : bytes) (x : complaint) : Prop :=
    forall e, placed_act a -> agrees e d V -> exists n, forall fuel, n <= fuel -> one_action fuel e a = Exited o x.
  Definition S_loop (d : jv) (V : variables N) (kx vx : option bytes) (yes : list act) (l : list (jv * jv)) (o : bytes) (x : complaint) : Prop :=
    forall e, placed true yes -> between N kx vx e d V -> Forall (formed_pair N) l ->
      exists n, forall fuel, n <= fuel -> iterate fuel e kx vx yes l = Exited o x.

  Lemma placed_split_at : forall b a acts d V o x, aborts_at N A printf T d V a o x -> placed b (a :: acts) -> placed_act a /\ leaves a = false.
  Proof.
    intros b a acts d V o x H P. inversion P; subst; try (split; [constructor; assumption|reflexivity]); inversion H.
  Qed.

  Lemma aborts_eval : forall d V acts o x, aborts N A printf T d V acts o x -> S_aborts d V acts o x.
  Proof.
    intros d V acts o x H.
    apply (aborts_mut N A printf T (fun d V acts o x _ => S_aborts d V acts o x) (fun d V a o x _ => S_aborts_at d V a o x)
      (fun d V kx vx yes l o x _ => S_loop d V kx vx yes l o x)); try exact H; clear d V acts o x H.
    - intros d V a acts o o' x HD _ IH b e P G. destruct (placed_split N A printf T b a acts _ _ _ _ HD P) as [PA PB].
      destruct (does_eval N A sn printf T bodies d V a o Through HD e PA G) as (_ & LV & n1 & E1). destruct (IH b e PB G) as (n2 & E2).
      exists (S (n1 + n2)). intros [|fuel] L; [lia|]. rewrite (action_step N A printf T _ _ _ _ LV), (E1 fuel ltac:(lia)), (E2 fuel ltac:(lia)). reflexivity.
    - intros d V a acts o x HD IH b e P G. destruct (placed_split_at b a acts _ _ _ _ HD P) as [PA LV].
      destruct (IH e PA G) as (n1 & E1). exists (S n1). intros [|fuel] L; [lia|].
      rewrite (action_step N A printf T _ _ _ _ LV), (E1 fuel ltac:(lia)). reflexivity.
    - intros d V p x HS e P G. destruct (stops_eval d V p x HS e G) as (n & E). exists n. intros fuel L. cbn [TevRunProofs.one_action]. rewrite (E fuel L). reflexivity.
    - intros d V p no yes x HS e P G. destruct (stops_eval d V p x HS e G) as (n & E). exists n. intros fuel L. cbn [TevRunProofs.one_action]. rewrite (E fuel L). reflexivity.
    - intros d V y p no yes x HS e P G. destruct (stops_eval d V p x HS e G) as (n & E). exists n. intros fuel L. cbn [TevRunProofs.one_action]. rewrite (E fuel L). reflexivity.
    - intros d V kx vx p no yes x HS e P G. destruct (stops_eval d V p x HS e G) as (n & E). exists n. intros fuel L. cbn [TevRunProofs.one_action]. rewrite (E fuel L). reflexivity.
    - intros d V nm arg x HS e P G. destruct (stops_eval d V arg x HS e G) as (n & E). exists n. intros fuel L. cbn [TevRunProofs.one_action]. rewrite (E fuel L). reflexivity.
    - intros d V p no yes v o x HV HF _ IH e P G. destruct (value_eval N A sn printf d V p v HV e G) as (F & n & E).
      inversion P as [| | |p0 no0 yes0 PN PY E0| |]. subst. destruct (IH false e PY G) as (n2 & E2).
      exists (n + n2). intros fuel L. cbn [TevRunProofs.one_action]. rewrite (E fuel ltac:(lia)). cbn [with_value].
      rewrite (full_false N A sn v HF). cbn [with_value]. apply E2. lia.
    - intros d V p no yes v o x HV HF _ IH e P G. destruct (value_eval N A sn printf d V p v HV e G) as (F & n & E).
      inversion P as [| | |p0 no0 yes0 PN PY E0| |]. subst. destruct (IH false e PN G) as (n2 & E2).
      exists (n + n2). intros fuel L. cbn [TevRunProofs.one_action]. rewrite (E fuel ltac:(lia)). cbn [with_value].
      rewrite (empty_true N A sn v HF). cbn [with_value]. apply E2. lia.
    - intros d V p no yes v o x HV HF _ IH e P G. destruct (value_eval N A sn printf d V p v HV e G) as (F & n & E).
      inversion P as [| | | |x0 p0 no0 yes0 PN PY E0|]. subst.
      destruct (IH false (mkEnv N v (vars N e)) PY) as (n2 & E2); [split; [reflexivity|split; [exact F|exact (proj2 (proj2 G))]]|].
      exists (n + n2). intros fuel L. cbn [TevRunProofs.one_action]. rewrite (E fuel ltac:(lia)). cbn [with_value].
      rewrite (full_false N A sn v HF). cbn [with_value]. apply E2. lia.
    - intros d V y p no yes v o x HV HF _ IH e P G. destruct (value_eval N A sn printf d V p v HV e G) as (F & n & E).
      inversion P as [| | | |x0 p0 no0 yes0 PN PY E0|]. subst.
      destruct (set_holds N [] e V y v (holds_holds_but N [y] _ _ (proj2 (proj2 G))) F) as (e2 & ES & D & H2).
      destruct (IH false e2 PY) as (n2 & E2).
      { split; [rewrite D; exact (proj1 G)|]. split; [exact (proj1 (proj2 G))|]. apply holds_but_nil. exact H2. }
      exists (n + n2). intros fuel L. cbn [TevRunProofs.one_action]. rewrite (E fuel ltac:(lia)). cbn [with_value].
      rewrite (full_false N A sn v HF). cbn [with_value]. rewrite ES. cbn [with_value]. apply E2. lia.
    - intros d V y p no yes v o x HV HF _ IH e P G. destruct (value_eval N A sn printf d V p v HV e G) as (F & n & E).
      inversion P as [| | | |x0 p0 no0 yes0 PN PY E0|]. subst. destruct (IH false e PN G) as (n2 & E2).
      exists (n + n2). intros fuel L. cbn [TevRunProofs.one_action]. rewrite (E fuel ltac:(lia)). cbn [with_value].
      rewrite (empty_true N A sn v HF). cbn [with_value]. apply E2. lia.
    - intros d V kx vx p no yes v l o x HV HM HL IH e P G. destruct (value_eval N A sn printf d V p v HV e G) as (F & n & E).
      inversion P as [| | | | |kx0 vx0 p0 no0 yes0 PN PY E0]. subst. destruct (members_elements N A v l HM F) as [FL EL].
      destruct (IH e PY) as (n2 & E2); [|exact FL|].
      { split; [exact (proj1 (proj2 G))|]. split; [intros _; exact (proj1 G)|]. apply holds_holds_but. exact (proj2 (proj2 G)). }
      exists (n + n2). intros fuel L. cbn [TevRunProofs.one_action]. rewrite (E fuel ltac:(lia)). cbn [with_value].
      rewrite EL. destruct l; [inversion HL|]. apply E2. lia.
    - intros d V kx vx p no yes v o x HV HM _ IH e P G. destruct (value_eval N A sn printf d V p v HV e G) as (F & n & E).
      inversion P as [| | | | |kx0 vx0 p0 no0 yes0 PN PY E0]. subst. destruct (members_elements N A v [] HM F) as [FL EL].
      destruct (IH false e PN G) as (n2 & E2).
      exists (n + n2). intros fuel L. cbn [TevRunProofs.one_action]. rewrite (E fuel ltac:(lia)). cbn [with_value].
      rewrite EL. apply E2. lia.
    - intros d V nm arg v b o x HV HS _ IH e P G. destruct (value_eval N A sn printf d V arg v HV e G) as (F & n & E).
      destruct (stands_lookup T bodies nm b HS) as [EL I]. pose proof (bodies nm b I) as PB.
      destruct (IH false (mkEnv N v (vars N e)) PB) as (n2 & E2); [split; [reflexivity|split; [exact F|exact (proj2 (proj2 G))]]|].
      exists (n + n2). intros fuel L. cbn [TevRunProofs.one_action]. rewrite (E fuel ltac:(lia)). cbn [with_value].
      rewrite EL, (E2 fuel ltac:(lia)). reflexivity.
    - intros d V kx vx yes k v l o x _ IH1 e P B F. inversion F as [|p l0 [FK FV] FL E0]. subst. cbn [fst snd] in FK, FV.
      destruct (element_set N kx vx e d V k v B FK FV) as (e2 & ES & G2 & B2). destruct (IH1 true e2 P G2) as (n1 & E1).
      exists (S n1). intros [|fuel] L; [lia|].
      change (iterate (S fuel) e kx vx yes ((k, v) :: l)) with (with_value (set_element N kx vx k v e) (fun e =>
        match action_eval fuel e yes with Ran o true => Ran o false | Ran o false => after o (iterate fuel e kx vx yes l) | r => r end)).
      rewrite ES. cbn [with_value]. rewrite (E1 fuel ltac:(lia)). reflexivity.
    - intros d V kx vx yes k v l o en o' x HR HE _ IH2 e P B F. inversion F as [|p l0 [FK FV] FL E0]. subst. cbn [fst snd] in FK, FV.
      destruct (element_set N kx vx e d V k v B FK FV) as (e2 & ES & G2 & B2).
      destruct (runs_eval N A sn printf T bodies _ _ _ _ _ HR true e2 P G2) as (_ & n1 & E1).
      destruct (IH2 e2 P B2 FL) as (n2 & E2). exists (S (n1 + n2)). intros [|fuel] L; [lia|].
      change (iterate (S fuel) e kx vx yes ((k, v) :: l)) with (with_value (set_element N kx vx k v e) (fun e =>
        match action_eval fuel e yes with Ran o true => Ran o false | Ran o false => after o (iterate fuel e kx vx yes l) | r => r end)).
      rewrite ES. cbn [with_value]. rewrite (E1 fuel ltac:(lia)). replace (stopped en) with false by (destruct HE as [->| ->]; reflexivity).
      rewrite (E2 fuel ltac:(lia)). reflexivity.
  Qed.

  Lemma template_aborts : forall d acts o x, aborts N A printf T d (unset N) acts o x -> placed false acts -> formed d ->
    exists n, forall fuel, n <= fuel -> template_run N A printf T fuel d acts = Exited o x.
  Proof.
    intros d acts o x H P F. apply (aborts_eval d (unset N) acts o x H false (mkEnv N d JsonModel.json_new_object) P).
    split; [reflexivity|]. split; [exact F|]. split; [exact JsonProofs.inv_new|]. split; [intros y v []|reflexivity].
  Qed.
End Proofs.
