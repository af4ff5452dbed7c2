(** Running a template: the program outputs what the template means. *)
From Coq Require Import Ascii String List ZArith Bool Lia Sorted.
From Verif Require Import Bytes TplModel TevModel TevSpec.
From Verif Require JsonModel JsonSpec JsonProofs JsonTextProofs.
Import ListNotations.
Local Open Scope nat_scope.
Local Open Scope string_scope.
Local Open Scope list_scope.

Section Proofs.
  Variable N : JsonModel.numbers.
  Variable A : arith N.
  Hypothesis sn : sane A.
  Notation jv := (JsonModel.jv N).
  Notation JNull := (JsonModel.JNull N).
  Notation JBool := (JsonModel.JBool N).
  Notation JNumber := (JsonModel.JNumber N).
  Notation JInteger := (JsonModel.JInteger N).
  Notation JString := (JsonModel.JString N).
  Notation JArray := (JsonModel.JArray N).
  Notation JObject := (JsonModel.JObject N).
  Variable printf : list jv -> ev bytes.
  Notation call := (call N A printf).
  Notation pipeline_eval := (pipeline_eval N A printf).
  Notation eval_args := (eval_args N A printf).
  Notation formed := (formed N).
  Notation whole := (whole N A).
  Notation empty := (empty N A).
  Notation full := (full N A).

  (** ** Values *)

  Lemma long_exact : forall z, exact z -> long N A (of_long A z) = Val z.
  Proof. intros z E. unfold long. rewrite (proj1 sn z E). reflexivity. Qed.

  Lemma exact_0 : exact 0.
  Proof. split; discriminate. Qed.

  Lemma empty_true : forall v, empty v -> is_empty N A v = Val true.
  Proof.
    intros v H. destruct H as [| |v [E [->| ->]]| | |]; try reflexivity; cbn [is_empty].
    - destruct sn as (_ & _ & _ & L1 & L2). rewrite L1, L2. reflexivity.
    - rewrite (long_exact 0 E). reflexivity.
  Qed.
  Lemma full_false : forall v, full v -> is_empty N A v = Val false.
  Proof.
    intros v H. destruct H as [|z E Z|n H|s H|l H|l H]; cbn [is_empty]; try reflexivity.
    - rewrite (long_exact z E). cbn [andthen]. apply Z.eqb_neq in Z. rewrite Z. reflexivity.
    - destruct H as [H|H]; rewrite H; [rewrite andb_false_r|]; reflexivity.
    - destruct s; [congruence|reflexivity].
    - destruct l; [congruence|reflexivity].
    - destruct l; [congruence|reflexivity].
  Qed.

  Lemma precedes_sorted : forall ks, StronglySorted JsonSpec.precedes ks -> StronglySorted JsonProofs.lt ks.
  Proof.
    intros ks S. induction S as [|k ks S IH F]; constructor; auto. rewrite Forall_forall in *. intros x X. apply JsonProofs.lt_precedes. auto.
  Qed.

  Lemma object_inv : forall l, formed (JObject l) -> JsonProofs.inv (object_of N l).
  Proof.
    intros l F. inversion F as [| | | | | |l0 F0 S E]. subst. split; [reflexivity|]. apply precedes_sorted. exact S.
  Qed.

  Lemma attribute_spec : forall l k, formed (JObject l) ->
    exists r, attribute N l k = Val r /\ forall v, r = Some v <-> In (k, v) l.
  Proof.
    intros l k F. destruct (JsonProofs.get_spec (object_of N l) k (object_inv l F)) as (r & E & H).
    exists r. unfold attribute. rewrite E. split; [reflexivity|exact H].
  Qed.

  Lemma formed_array : forall l v, formed (JArray l) -> In v l -> formed v.
  Proof. intros l v F I. inversion F as [| | | | |l0 F0 E|]. subst. rewrite Forall_forall in F0. auto. Qed.
  Lemma formed_object : forall l k v, formed (JObject l) -> In (k, v) l -> formed v.
  Proof.
    intros l k v F I. inversion F as [| | | | | |l0 F0 S E]. subst. rewrite Forall_forall in F0. apply (F0 _ I).
  Qed.

  (** ** Functions *)

  Lemma whole_number : forall v z, whole v z -> (v = JNumber (of_long A z) \/ v = JInteger (of_long A z)) /\ exact z.
  Proof. intros v z [E H]. auto. Qed.

  Lemma z_cmp : forall x y, (if (x <? y)%Z then Lt else if (y <? x)%Z then Gt else Eq) = (x ?= y)%Z.
  Proof.
    intros x y. destruct (Z.compare_spec x y) as [->|L|L].
    - rewrite Z.ltb_irrefl. reflexivity.
    - apply Z.ltb_lt in L. rewrite L. reflexivity.
    - assert (L' : (x <? y)%Z = false) by (apply Z.ltb_ge; lia). apply Z.ltb_lt in L. rewrite L', L. reflexivity.
  Qed.

  Lemma order_cmp : forall a b c, order N A a b c -> json_cmp N A [a; b] = Val c.
  Proof.
    intros a b c H. destruct H as [a b x y HA HB|x y H|x y H|x y H1 H2|s|s t H|s t H]; unfold json_cmp; cbn [two_args andthen].
    - destruct (whole_number a x HA) as [[->| ->] EX], (whole_number b y HB) as [[->| ->] EY]; cbn iota beta;
        unfold json_integer_cmp, json_number_cmp; rewrite ?(long_exact x EX), ?(long_exact y EY); cbn [andthen]; rewrite ?z_cmp; try reflexivity.
      destruct sn as (_ & L & _). rewrite (L x y EX EY), (L y x EY EX), z_cmp. reflexivity.
    - unfold json_number_cmp. rewrite H. reflexivity.
    - unfold json_number_cmp. destruct sn as (_ & _ & L & _). rewrite (L _ _ H), H. reflexivity.
    - unfold json_number_cmp. rewrite H1, H2. reflexivity.
    - rewrite JsonProofs.strcmp_refl. reflexivity.
    - apply JsonProofs.lt_precedes in H. unfold JsonProofs.lt in H. rewrite H. reflexivity.
    - apply JsonProofs.lt_precedes in H. apply JsonProofs.strcmp_gt in H. rewrite H. reflexivity.
  Qed.

  Lemma cast_whole : forall v z, whole v z -> json_cast_to_integer N A v = Val (of_long A z).
  Proof.
    intros v z H. destruct (whole_number v z H) as [[->| ->] E]; unfold json_cast_to_integer; cbn [andthen]; rewrite (long_exact z E); reflexivity.
  Qed.

  Lemma items_index : forall v ks w, items N A v ks w -> formed v -> index_by N A v ks = Val w /\ formed w.
  Proof.
    intros v ks w H. induction H as [v|v k w ks u HI HS IH]; intros F; [split; [reflexivity|exact F]|].
    destruct HI as [l k z v W E P|l k v I].
    - cbn [index_by]. rewrite (cast_whole k z W). cbn [andthen]. rewrite (long_exact z (proj1 W)). cbn [andthen].
      assert (L : (z <? 0)%Z = false) by (apply Z.ltb_ge; lia). rewrite L.
      assert (B : Z.to_nat z < length l) by (apply nth_error_Some; rewrite E; discriminate).
      assert (L' : (z <? Z.of_nat (length l))%Z = true) by (apply Z.ltb_lt; lia). rewrite L', E.
      apply IH. apply (formed_array l v F). apply (nth_error_In _ _ E).
    - cbn [index_by json_cast_to_string andthen]. destruct (attribute_spec l k F) as (r & E & S). rewrite E. cbn [andthen].
      apply S in I as I'. rewrite I'. apply IH. apply (formed_object l k v F I).
  Qed.

  Lemma and_spec : forall a v b, Forall full a -> empty v \/ (full v /\ b = []) -> func_and N A (a ++ v :: b) = Val v.
  Proof.
    intros a v b H C. induction H as [|x a X H IH]; cbn [app].
    - destruct C as [C|[C ->]]; [|cbn [func_and]; rewrite (full_false v C); reflexivity].
      destruct b; cbn [func_and]; rewrite (empty_true v C); reflexivity.
    - destruct (a ++ v :: b) as [|y l] eqn:E; [destruct a; discriminate|]. rewrite <- IH.
      change (func_and N A (x :: y :: l)) with (andthen (is_empty N A x) (fun e => if e then Val x else func_and N A (y :: l))).
      rewrite (full_false x X). reflexivity.
  Qed.
  Lemma or_spec : forall a v b, Forall empty a -> full v \/ (empty v /\ b = []) -> func_or N A (a ++ v :: b) = Val v.
  Proof.
    intros a v b H C. induction H as [|x a X H IH]; cbn [app].
    - destruct C as [C|[C ->]]; [|cbn [func_or]; rewrite (empty_true v C); reflexivity].
      destruct b; cbn [func_or]; rewrite (full_false v C); reflexivity.
    - destruct (a ++ v :: b) as [|y l] eqn:E; [destruct a; discriminate|]. rewrite <- IH.
      change (func_or N A (x :: y :: l)) with (andthen (is_empty N A x) (fun e => if negb e then Val x else func_or N A (y :: l))).
      rewrite (empty_true x X). reflexivity.
  Qed.

  Lemma numeric_spec : forall v n, number N v n -> numeric N v = Val n.
  Proof. intros v n [->| ->]; reflexivity. Qed.
  Lemma fold_spec : forall op args ns n, Forall2 (number N) args ns -> fold_numeric N op n args = Val (fold_left op ns n).
  Proof.
    intros op args ns n H. revert n. induction H as [|a m args ns HN H IH]; intros n; [reflexivity|].
    cbn [fold_numeric fold_left]. rewrite (numeric_spec a m HN). cbn [andthen]. apply IH.
  Qed.

  Definition comparisons : list (bytes * (comparison -> bool)) :=
    [(lit "eq", is_eq); (lit "ne", fun c => negb (is_eq c)); (lit "lt", is_lt); (lit "le", fun c => negb (is_gt c));
     (lit "gt", is_gt); (lit "ge", fun c => negb (is_lt c))].
  Lemma tests_call : forall f cs args, In (f, cs) tests -> exists t, call f args = compare_with N A t args /\
    forall c, t c = true <-> In c cs.
  Proof.
    intros f cs args H. unfold tests in H.
    repeat (destruct H as [H|H]; [injection H as <- <-; eexists; (split; [reflexivity|]); intros c; destruct c; cbn; intuition congruence|]).
    destruct H.
  Qed.

  Lemma call_spec : forall f args v, calls N A printf f args v -> Forall formed args -> call f args = Val v /\ formed v.
  Proof.
    intros f args v H F. destruct H as [a v b H C|a v b H C|v ks w H|v n H|v H|v H|f cs a b c H O I|f cs a b c H O I|v z H|v t H|l k H|l k H
      |f op v n args ns H HN HS|a b x y HA HB|args s H].
    - split; [exact (and_spec a v b H C)|]. rewrite Forall_forall in F. apply F. apply in_elt.
    - split; [exact (or_spec a v b H C)|]. rewrite Forall_forall in F. apply F. apply in_elt.
    - inversion F as [|x l FV FK]. subst. exact (items_index v ks w H FV).
    - split; [|constructor]. destruct H; reflexivity.
    - split; [|constructor]. change (call (lit "not") [v]) with (func_not N A [v]). unfold func_not. cbn [single_arg andthen].
      rewrite (empty_true v H). reflexivity.
    - split; [|constructor]. change (call (lit "not") [v]) with (func_not N A [v]). unfold func_not. cbn [single_arg andthen].
      rewrite (full_false v H). reflexivity.
    - split; [|constructor]. destruct (tests_call f cs [a; b] H) as (t & -> & X). unfold compare_with. rewrite (order_cmp a b c O). cbn [andthen].
      apply X in I. rewrite I. reflexivity.
    - split; [|constructor]. destruct (tests_call f cs [a; b] H) as (t & -> & X). unfold compare_with. rewrite (order_cmp a b c O). cbn [andthen].
      destruct (t c) eqn:E; [apply X in E; contradiction|reflexivity].
    - split; [|constructor]. change (call (lit "even") [v]) with (func_even N A [v]). unfold func_even. cbn [single_arg andthen].
      rewrite (cast_whole v z H). cbn [andthen]. rewrite (long_exact z (proj1 H)). cbn [andthen]. do 2 f_equal.
      destruct (Z.Even_or_Odd z) as [[q ->]|[q ->]].
      + rewrite Z.even_mul. cbn [Z.even orb]. apply Z.eqb_eq. Z.to_euclidean_division_equations. lia.
      + rewrite Z.even_add, Z.even_mul. cbn [Z.even orb eqb]. apply Z.eqb_neq. Z.to_euclidean_division_equations. lia.
    - split; [|constructor]. destruct H as [(-> & ->)|[(b & -> & ->)|[(b & -> & ->)|[(b & -> & ->)|[(b & -> & ->)|[(b & -> & ->)|(b & -> & ->)]]]]]]; reflexivity.
    - split; [|constructor]. change (call (lit "exists") [JObject l; JString k]) with (func_exists N [JObject l; JString k]). unfold func_exists. cbn [two_args andthen].
      inversion F as [|x y FV FK]. subst. destruct (attribute_spec l k FV) as (r & E & S). rewrite E. cbn [andthen].
      apply in_map_iff in H as ((k0 & v) & EK & I). cbn [fst] in EK. subst k0. apply S in I. rewrite I. reflexivity.
    - split; [|constructor]. change (call (lit "exists") [JObject l; JString k]) with (func_exists N [JObject l; JString k]). unfold func_exists. cbn [two_args andthen].
      inversion F as [|x y FV FK]. subst. destruct (attribute_spec l k FV) as (r & E & S). rewrite E. cbn [andthen].
      destruct r as [v|]; [|reflexivity]. exfalso. apply H. apply in_map_iff. exists (k, v). split; [reflexivity|]. apply S. reflexivity.
    - split; [|constructor]. assert (X : call f (v :: args) = arithmetic N op (v :: args)).
      { unfold operations in H. repeat (destruct H as [H|H]; [injection H as <- <-; reflexivity|]). destruct H. }
      rewrite X. cbn [arithmetic]. rewrite (numeric_spec v n HN). cbn [andthen]. rewrite (fold_spec op args ns n HS). reflexivity.
    - split; [|constructor]. change (call (lit "div") [a; b]) with (func_div N A [a; b]). unfold func_div. cbn [two_args andthen].
      rewrite (numeric_spec a x HA), (numeric_spec b y HB). reflexivity.
    - split; [|constructor]. change (call (lit "printf") args) with (func_printf N printf args). unfold func_printf. rewrite H. reflexivity.
  Qed.

  (** ** Pipelines *)

  (** The environment of the program has this dot and these variables *)
  Definition holds (o : JsonModel.object jv) (V : variables N) : Prop :=
    JsonProofs.inv o
    /\ (forall x v, In (x, v) (JsonModel.pairs o) -> V x = v /\ formed v)
    /\ (forall x, (forall v, ~ In (x, v) (JsonModel.pairs o)) -> V x = JNull).
  Definition agrees (e : env N) (d : jv) (V : variables N) : Prop :=
    dot N e = d /\ formed d /\ holds (vars N e) V.

  Lemma var_get : forall o V x, holds o V ->
    exists r, JsonModel.json_object_get o x = Some r /\ V x = match r with Some v => v | None => JNull end /\ formed (V x).
  Proof.
    intros o V x (I & H1 & H2). destruct (JsonProofs.get_spec o x I) as (r & E & S). exists r. split; [exact E|].
    destruct r as [v|].
    - destruct (H1 x v (proj1 (S v) eq_refl)) as [-> F]. split; [reflexivity|exact F].
    - rewrite (H2 x); [split; [reflexivity|constructor]|]. intros v X. apply S in X. discriminate.
  Qed.

  Definition one_eval (fuel : nat) (e : env N) (prev : option jv) (c : cmd) : ev jv :=
    match c with
    | CArg l => Val (literal_value N A l)
    | CCall f args =>
        let! vs <- eval_args fuel e args;
        call f (vs ++ match prev with Some v => [v] | None => [] end)
    | CDot => Val (dot N e)
    | CAttr a =>
        match dot N e with
        | JsonModel.JObject _ l =>
            let! r <- attribute N l a; Val (match r with Some v => v | None => JNull end)
        | _ => Val JNull
        end
    | CVar x =>
        match JsonModel.json_object_get (vars N e) x with
        | Some (Some v) => Val v
        | Some None => Val JNull
        | None => Undef
        end
    | CPipe q => pipeline_eval fuel e None q
    | CWith d b =>
        let! v <- pipeline_eval fuel e None d;
        pipeline_eval fuel (mkEnv N v (vars N e)) None b
    end.
  Lemma pipeline_step : forall fuel e prev c p, pipeline_eval (S fuel) e prev (c :: p)
    = let! v <- one_eval fuel e prev c; pipeline_eval fuel e (Some v) p.
  Proof. reflexivity. Qed.

  Definition formed_prev (prev : option jv) : Prop := match prev with Some v => formed v | None => True end.

  Scheme value_mut := Induction for value Sort Prop
  with piped_mut := Induction for piped Sort Prop
  with one_mut := Induction for one Sort Prop
  with values_mut := Induction for values Sort Prop.
  Combined Scheme eval_comb from value_mut, piped_mut, one_mut, values_mut.

  Definition P_value (d : jv) (V : variables N) (p : list cmd) (v : jv) : Prop :=
    forall e, agrees e d V -> formed v /\ exists n, forall fuel, n <= fuel -> pipeline_eval fuel e None p = Val v.
  Definition P_piped (d : jv) (V : variables N) (prev : jv) (p : list cmd) (v : jv) : Prop :=
    forall e, agrees e d V -> formed prev -> formed v /\ exists n, forall fuel, n <= fuel -> pipeline_eval fuel e (Some prev) p = Val v.
  Definition P_one (d : jv) (V : variables N) (prev : option jv) (c : cmd) (v : jv) : Prop :=
    forall e, agrees e d V -> formed_prev prev -> formed v /\ exists n, forall fuel, n <= fuel -> one_eval fuel e prev c = Val v.
  Definition P_values (d : jv) (V : variables N) (ps : list (list cmd)) (vs : list jv) : Prop :=
    forall e, agrees e d V -> Forall formed vs /\ exists n, forall fuel, n <= fuel -> eval_args fuel e ps = Val vs.

  Lemma eval_all : (forall d V p v, value N A printf d V p v -> P_value d V p v)
    /\ (forall d V prev p v, piped N A printf d V prev p v -> P_piped d V prev p v)
    /\ (forall d V prev c v, one N A printf d V prev c v -> P_one d V prev c v)
    /\ (forall d V ps vs, values N A printf d V ps vs -> P_values d V ps vs).
  Proof.
    apply (eval_comb N A printf (fun d V p v _ => P_value d V p v) (fun d V prev p v _ => P_piped d V prev p v)
      (fun d V prev c v _ => P_one d V prev c v) (fun d V ps vs _ => P_values d V ps vs)).
    - intros d V e G. split; [constructor|]. exists 1. intros [|fuel] L; [lia|]. reflexivity.
    - intros d V c p v w _ IH1 _ IH2 e G. destruct (IH1 e G I) as (F1 & n1 & E1). destruct (IH2 e G F1) as (F2 & n2 & E2).
      split; [exact F2|]. exists (S (n1 + n2)). intros [|fuel] L; [lia|]. rewrite pipeline_step, (E1 fuel ltac:(lia)). cbn [andthen]. apply E2. lia.
    - intros d V v e G F. split; [exact F|]. exists 1. intros [|fuel] L; [lia|]. reflexivity.
    - intros d V prev c p v w _ IH1 _ IH2 e G F. destruct (IH1 e G F) as (F1 & n1 & E1). destruct (IH2 e G F1) as (F2 & n2 & E2).
      split; [exact F2|]. exists (S (n1 + n2)). intros [|fuel] L; [lia|]. rewrite pipeline_step, (E1 fuel ltac:(lia)). cbn [andthen]. apply E2. lia.
    - intros d V prev l v C e G F. destruct l as [z|s|b]; cbn [constant] in C; subst v; (split; [constructor|]); exists 0; reflexivity.
    - intros d V prev e (E & F & G) _. split; [exact F|]. exists 0. intros fuel _. cbn [one_eval]. rewrite E. reflexivity.
    - intros d V prev a v C e (E & F & G) _. destruct C as [(l & -> & I)|(-> & C)].
      + split; [apply (formed_object l a v F I)|]. exists 0. intros fuel _. cbn [one_eval]. rewrite E.
        destruct (attribute_spec l a F) as (r & -> & S). cbn [andthen]. apply S in I. rewrite I. reflexivity.
      + split; [constructor|]. exists 0. intros fuel _. cbn [one_eval]. rewrite E. destruct d as [| | | | | |l]; try reflexivity.
        destruct (attribute_spec l a F) as (r & -> & S). cbn [andthen]. destruct r as [v|]; [|reflexivity].
        exfalso. apply (C l v eq_refl). apply S. reflexivity.
    - intros d V prev x e (E & F & G) _. destruct (var_get (vars N e) V x G) as (r & ER & EV & FV). split; [exact FV|].
      exists 0. intros fuel _. cbn [one_eval]. rewrite ER, EV. destruct r; reflexivity.
    - intros d V prev p v _ IH e G _. exact (IH e G).
    - intros d V prev p q v w _ IH1 _ IH2 e G _. destruct (IH1 e G) as (F1 & n1 & E1).
      destruct (IH2 (mkEnv N v (vars N e))) as (F2 & n2 & E2); [split; [reflexivity|split; [exact F1|exact (proj2 (proj2 G))]]|].
      split; [exact F2|]. exists (n1 + n2). intros fuel L. cbn [one_eval]. rewrite (E1 fuel ltac:(lia)). cbn [andthen]. apply E2. lia.
    - intros d V f args vs v _ IH C e G _. destruct (IH e G) as (F & n & E). destruct (call_spec f vs v C F) as [EC FC].
      split; [exact FC|]. exists n. intros fuel L. cbn [one_eval]. rewrite (E fuel L). cbn [andthen]. rewrite app_nil_r. exact EC.
    - intros d V prev f args vs v _ IH C e G FP. destruct (IH e G) as (F & n & E).
      destruct (call_spec f (vs ++ [prev]) v C) as [EC FC]; [apply Forall_app; split; [exact F|constructor; [exact FP|constructor]]|].
      split; [exact FC|]. exists n. intros fuel L. cbn [one_eval]. rewrite (E fuel L). cbn [andthen]. exact EC.
    - intros d V e G. split; [constructor|]. exists 1. intros [|fuel] L; [lia|]. reflexivity.
    - intros d V p v ps vs _ IH1 _ IH2 e G. destruct (IH1 e G) as (F1 & n1 & E1). destruct (IH2 e G) as (F2 & n2 & E2).
      split; [constructor; assumption|]. exists (S (n1 + n2)). intros [|fuel] L; [lia|].
      change (eval_args (S fuel) e (p :: ps)) with (let! v <- pipeline_eval fuel e None p; let! vs <- eval_args fuel e ps; Val (v :: vs)).
      rewrite (E1 fuel ltac:(lia)), (E2 fuel ltac:(lia)). reflexivity.
  Qed.
  Lemma value_eval : forall d V p v, value N A printf d V p v -> P_value d V p v.
  Proof. exact (proj1 eval_all). Qed.
  Lemma one_eval_ok : forall d V prev c v, one N A printf d V prev c v -> P_one d V prev c v.
  Proof. exact (proj1 (proj2 (proj2 eval_all))). Qed.
  Lemma values_eval : forall d V ps vs, values N A printf d V ps vs -> P_values d V ps vs.
  Proof. exact (proj2 (proj2 (proj2 eval_all))). Qed.

  (** ** The text of a value *)

  Lemma escape_none : forall c, ~ In c (map fst escapes) -> JsonModel.escape c = None.
  Proof.
    intros c H. unfold JsonModel.escape, JsonModel.transtab. cbn [find snd]. cbn [map fst escapes In] in H.
    repeat match goal with |- context [beq ?x c] => destruct (beq x c) eqn:?; [apply beq_eq in Heqb; exfalso; tauto|clear Heqb] end. reflexivity.
  Qed.
  Lemma quoted_escape : forall s t, quoted s t -> JsonModel.escape_text s = t.
  Proof.
    intros s t H. induction H as [|c e s t I H IH|c s t I H IH]; [reflexivity| |].
    - cbn [JsonModel.escape_text]. rewrite IH. unfold escapes in I.
      repeat (destruct I as [I|I]; [injection I as <- <-; reflexivity|]). destruct I.
    - cbn [JsonModel.escape_text]. rewrite IH, (escape_none c I). reflexivity.
  Qed.

  Notation flat := (JsonModel.mkFormat 0 0).
  Lemma enclose_flat : forall level ts t, separated ts t -> JsonModel.enclose flat level ts = t.
  Proof.
    intros level ts t H. destruct ts as [|u us]; cbn [separated] in H; subst t; [reflexivity|].
    unfold JsonModel.enclose, JsonModel.if_indent, JsonModel.json_format_indent, JsonModel.json_format_delim. cbn [JsonModel.f_indent].
    rewrite Nat.mul_0_r. cbn [repeat app]. rewrite app_nil_r. reflexivity.
  Qed.

  Lemma json_format : forall v t, json N v t -> forall level, JsonModel.json_value_format N flat v level = t.
  Proof.
    intros v. induction v as [| | | | |l IH|l IH] using JsonTextProofs.jv_nest; intros t H level.
    - inversion H. reflexivity.
    - inversion H; reflexivity.
    - inversion H. reflexivity.
    - inversion H. reflexivity.
    - inversion H as [| | | | |s0 t0 Q E1 E2| |]. cbn [JsonModel.json_value_format]. unfold JsonModel.json_format_escape. rewrite (quoted_escape _ _ Q). reflexivity.
    - inversion H as [| | | | | |l0 ts t0 F S E1 E2|]. subst. cbn [JsonModel.json_value_format].
      assert (X : map (fun v => JsonModel.json_value_format N flat v (Datatypes.S level)) l = ts).
      { clear S H. revert ts F. induction IH as [|v l HV HL IHL]; intros ts F; inversion F as [|v0 u0 l0 ts0 J F0 E1 E2]; [reflexivity|]. subst.
        cbn [map]. rewrite (HV u0 J), (IHL ts0 F0). reflexivity. }
      rewrite X, (enclose_flat (Datatypes.S level) ts t0 S). reflexivity.
    - inversion H as [| | | | | | |l0 ts t0 F S E1 E2]. subst. cbn [JsonModel.json_value_format].
      match goal with |- context [JsonModel.enclose _ _ (map ?f l)] => assert (X : map f l = ts) end.
      { clear S H. revert ts F. induction IH as [|v l HV HL IHL]; intros ts F; inversion F as [|v0 u0 l0 ts0 J F0 E1 E2]; [reflexivity|]. subst.
        cbn [map]. rewrite (IHL ts0 F0). destruct J as (k & u & Q & J & ->). rewrite (HV u J).
        unfold JsonModel.json_format_escape, JsonModel.if_indent. cbn [JsonModel.f_indent]. rewrite (quoted_escape _ _ Q).
        cbn [app]. rewrite <- app_assoc. reflexivity. }
      rewrite X, (enclose_flat (Datatypes.S level) ts t0 S). reflexivity.
  Qed.

  Lemma shown_print : forall v t, shown N v t -> print_json N v = t.
  Proof.
    intros v t [(-> & ->)|[->|(H1 & H2 & J)]]; [reflexivity|reflexivity|].
    pose proof (json_format v t J 0) as E. destruct v; try exact E; [congruence|exfalso; apply (H2 s); reflexivity].
  Qed.
End Proofs.
