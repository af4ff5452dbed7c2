(** Running a template comes to an end unless templates use one another in a circle. *)
From Coq Require Import Ascii String List ZArith Bool Lia.
From Verif Require Import Bytes TplModel TevModel TevSpec TevProofs TevRunProofs.
From Verif Require JsonModel.
Import ListNotations.
Local Open Scope nat_scope.
Local Open Scope string_scope.
Local Open Scope list_scope.

Section CmdInd.
  Variable P : cmd -> Prop.
  Hypothesis Harg : forall v, P (CArg v).
  Hypothesis Hcall : forall f args, Forall (Forall P) args -> P (CCall f args).
  Hypothesis Hdot : P CDot.
  Hypothesis Hattr : forall a, P (CAttr a).
  Hypothesis Hvar : forall x, P (CVar x).
  Hypothesis Hpipe : forall p, Forall P p -> P (CPipe p).
  Hypothesis Hwith : forall d b, Forall P d -> Forall P b -> P (CWith d b).
  Fixpoint cmd_nest (c : cmd) : P c :=
    let all := fix all (l : list cmd) : Forall P l :=
      match l return Forall P l with [] => Forall_nil P | c :: l' => @Forall_cons _ P c l' (cmd_nest c) (all l') end in
    match c with
    | CArg v => Harg v
    | CCall f args => Hcall f args ((fix go (l : list (list cmd)) : Forall (Forall P) l :=
        match l return Forall (Forall P) l with [] => Forall_nil _ | p :: l' => @Forall_cons _ (Forall P) p l' (all p) (go l') end) args)
    | CDot => Hdot
    | CAttr a => Hattr a
    | CVar x => Hvar x
    | CPipe p => Hpipe p (all p)
    | CWith d b => Hwith d b (all d) (all b)
    end.
End CmdInd.

Section ActInd.
  Variable P : act -> Prop.
  Hypothesis Htext : forall s, P (AText s).
  Hypothesis Hnull : P ANull.
  Hypothesis Hpipe : forall p, P (APipe p).
  Hypothesis Hcond : forall p no yes, Forall P no -> Forall P yes -> P (ACond p no yes).
  Hypothesis Hwith : forall x p no yes, Forall P no -> Forall P yes -> P (AWith x p no yes).
  Hypothesis Hrange : forall k v p no yes, Forall P no -> Forall P yes -> P (ARange k v p no yes).
  Hypothesis Hbreak : P ABreak.
  Hypothesis Hcontinue : P AContinue.
  Hypothesis Hblock : forall n p, P (ABlock n p).
  Fixpoint act_nest (a : act) : P a :=
    let all := fix all (l : list act) : Forall P l :=
      match l return Forall P l with [] => Forall_nil P | a :: l' => @Forall_cons _ P a l' (act_nest a) (all l') end in
    match a with
    | AText s => Htext s
    | ANull => Hnull
    | APipe p => Hpipe p
    | ACond p no yes => Hcond p no yes (all no) (all yes)
    | AWith x p no yes => Hwith x p no yes (all no) (all yes)
    | ARange k v p no yes => Hrange k v p no yes (all no) (all yes)
    | ABreak => Hbreak
    | AContinue => Hcontinue
    | ABlock n p => Hblock n p
    end.
End ActInd.

Section Proofs.
  Variable N : JsonModel.numbers.
  Variable A : arith N.
  Notation jv := (JsonModel.jv N).
  Variable printf : list jv -> ev bytes.
  Hypothesis printf_ends : forall args, printf args <> Deep.
  Variable T : list (bytes * list act).
  Notation pipeline_eval := (pipeline_eval N A printf).
  Notation eval_args := (eval_args N A printf).
  Notation one_eval := (one_eval N A printf).
  Notation action_eval := (action_eval N A printf T).
  Notation one_action := (one_action N A printf T).
  Notation iterate := (iterate N A printf T).

  (** With enough fuel the result is always the same, and not that there was too little *)
  Definition settles {B : Type} (f : nat -> ev B) : Prop := exists n r, r <> Deep /\ forall fuel, n <= fuel -> f fuel = r.
  Definition finishes (f : nat -> ran) : Prop := exists n r, r <> RDeep /\ forall fuel, n <= fuel -> f fuel = r.

  Lemma settles_const : forall (B : Type) (r : ev B), r <> Deep -> settles (fun _ => r).
  Proof. intros B r H. exists 0, r. split; [exact H|reflexivity]. Qed.
  Lemma settles_andthen : forall (B C : Type) (f : nat -> ev B) (g : nat -> B -> ev C), settles f ->
    (forall b, settles (fun fuel => g fuel b)) -> settles (fun fuel => andthen (f fuel) (g fuel)).
  Proof.
    intros B C f g (n1 & r1 & D1 & E1) G. destruct r1 as [b|c| |].
    - destruct (G b) as (n2 & r2 & D2 & E2). exists (n1 + n2), r2. split; [exact D2|]. intros fuel L.
      rewrite (E1 fuel ltac:(lia)). cbn [andthen]. apply E2. lia.
    - exists n1, (Stop c). split; [discriminate|]. intros fuel L. rewrite (E1 fuel L). reflexivity.
    - exists n1, Undef. split; [discriminate|]. intros fuel L. rewrite (E1 fuel L). reflexivity.
    - congruence.
  Qed.
  Lemma settles_S : forall (B : Type) (f : nat -> ev B), settles (fun fuel => f (S fuel)) -> settles f.
  Proof. intros B f (n & r & D & E). exists (S n), r. split; [exact D|]. intros [|fuel] L; [lia|]. apply E. lia. Qed.
  Lemma finishes_S : forall (f : nat -> ran), finishes (fun fuel => f (S fuel)) -> finishes f.
  Proof. intros f (n & r & D & E). exists (S n), r. split; [exact D|]. intros [|fuel] L; [lia|]. apply E. lia. Qed.

  Lemma settles_is : forall (B : Type) (f : nat -> ev B) r, r <> Deep -> (forall fuel, f fuel = r) -> settles f.
  Proof. intros B f r D E. exists 0, r. split; [exact D|]. intros fuel _. apply E. Qed.
  Lemma finishes_is : forall (f : nat -> ran) r, r <> RDeep -> (forall fuel, f fuel = r) -> finishes f.
  Proof. intros f r D E. exists 0, r. split; [exact D|]. intros fuel _. apply E. Qed.
  Ltac fixed_value := eapply settles_is; [|intros fuel; cbn [TevProofs.one_eval TevModel.pipeline_eval TevModel.eval_args]; reflexivity].
  Ltac fixed_run := eapply finishes_is; [|intros fuel; cbn [TevRunProofs.one_action TevModel.action_eval TevModel.iterate]; reflexivity].

  (** *** Functions *)

  Lemma long_ends : forall n, long N A n <> Deep.
  Proof. intros n. unfold long. destruct (to_long A n); discriminate. Qed.
  Lemma andthen_ends : forall (B C : Type) (o : ev B) (k : B -> ev C), o <> Deep -> (forall b, k b <> Deep) -> andthen o k <> Deep.
  Proof. intros B C o k H K. destruct o; cbn [andthen]; try discriminate; auto. Qed.
  Lemma is_empty_ends : forall v, is_empty N A v <> Deep.
  Proof. intros v. destruct v; cbn [is_empty]; try discriminate. apply andthen_ends; [apply long_ends|discriminate]. Qed.
  Lemma single_ends : forall args, single_arg N args <> Deep.
  Proof. intros [|a [|b args]]; discriminate. Qed.
  Lemma two_ends : forall args, two_args N args <> Deep.
  Proof. intros [|a [|b [|c args]]]; discriminate. Qed.
  Lemma attribute_ends : forall l k, attribute N l k <> Deep.
  Proof. intros l k. unfold attribute. destruct (JsonModel.json_object_get _ _); discriminate. Qed.
  Lemma cast_integer_ends : forall v, json_cast_to_integer N A v <> Deep.
  Proof.
    intros v. unfold json_cast_to_integer. apply andthen_ends; [|intros n; apply andthen_ends; [apply long_ends|discriminate]].
    destruct v; try discriminate. destruct (NumModel.strtol s 10) as [[r z] rest]. discriminate.
  Qed.
  Lemma cast_string_ends : forall v, json_cast_to_string N A v <> Deep.
  Proof. intros v. destruct v; cbn [json_cast_to_string]; try discriminate. apply andthen_ends; [apply long_ends|discriminate]. Qed.
  Lemma numeric_ends : forall v, numeric N v <> Deep.
  Proof. intros v. destruct v; discriminate. Qed.
  Lemma index_ends : forall args v, index_by N A v args <> Deep.
  Proof.
    induction args as [|a args IH]; intros v; [discriminate|]. cbn [index_by]. destruct v as [| | | | |l|l]; try discriminate.
    - apply andthen_ends; [apply cast_integer_ends|]. intros n. apply andthen_ends; [apply long_ends|]. intros z.
      destruct (z <? 0)%Z; [discriminate|]. destruct (z <? Z.of_nat (length l))%Z; [|apply IH].
      destruct (nth_error l (Z.to_nat z)); [apply IH|discriminate].
    - apply andthen_ends; [apply cast_string_ends|]. intros k. apply andthen_ends; [apply attribute_ends|]. intros [w|]; [apply IH|discriminate].
  Qed.
  Lemma and_ends : forall args, func_and N A args <> Deep.
  Proof.
    induction args as [|a args IH]; [discriminate|]. cbn [func_and]. destruct args as [|b args].
    - apply andthen_ends; [apply is_empty_ends|discriminate].
    - apply andthen_ends; [apply is_empty_ends|]. intros [|]; [discriminate|exact IH].
  Qed.
  Lemma or_ends : forall args, func_or N A args <> Deep.
  Proof.
    induction args as [|a args IH]; [discriminate|]. cbn [func_or]. destruct args as [|b args].
    - apply andthen_ends; [apply is_empty_ends|discriminate].
    - apply andthen_ends; [apply is_empty_ends|]. intros [|]; [exact IH|discriminate].
  Qed.
  Lemma cmp_ends : forall args, json_cmp N A args <> Deep.
  Proof.
    intros args. unfold json_cmp. apply andthen_ends; [apply two_ends|]. intros [a b].
    assert (I : forall x y, json_integer_cmp N A x y <> Deep).
    { intros x y. unfold json_integer_cmp. apply andthen_ends; [apply long_ends|]. intros z. apply andthen_ends; [apply long_ends|discriminate]. }
    destruct a, b; try discriminate; apply I.
  Qed.
  Lemma fold_ends : forall op args n, fold_numeric N op n args <> Deep.
  Proof.
    induction args as [|a args IH]; intros n; [discriminate|]. cbn [fold_numeric]. apply andthen_ends; [apply numeric_ends|]. intros m. apply IH.
  Qed.
  Lemma arithmetic_ends : forall op args, arithmetic N op args <> Deep.
  Proof.
    intros op [|a args]; [discriminate|]. cbn [arithmetic]. apply andthen_ends; [apply numeric_ends|]. intros n.
    apply andthen_ends; [apply fold_ends|discriminate].
  Qed.
  Lemma call_ends : forall f args, call N A printf f args <> Deep.
  Proof.
    intros f args. unfold call. destruct (find _ (func_tab N A printf)) as [d|] eqn:F; [|discriminate].
    apply find_some in F as [I _]. unfold func_tab in I.
    repeat (destruct I as [<-|I]; [cbn [snd]|]); [..|destruct I].
    - apply and_ends.
    - apply or_ends.
    - destruct args as [|v args]; [discriminate|]. apply index_ends.
    - unfold func_len. apply andthen_ends; [apply single_ends|]. intros v. apply andthen_ends; [|discriminate].
      destruct v; try discriminate; (apply andthen_ends; [apply cast_string_ends|discriminate]).
    - unfold func_not. apply andthen_ends; [apply single_ends|]. intros v. apply andthen_ends; [apply is_empty_ends|discriminate].
    - apply andthen_ends; [apply cmp_ends|discriminate].
    - apply andthen_ends; [apply cmp_ends|discriminate].
    - apply andthen_ends; [apply cmp_ends|discriminate].
    - apply andthen_ends; [apply cmp_ends|discriminate].
    - apply andthen_ends; [apply cmp_ends|discriminate].
    - apply andthen_ends; [apply cmp_ends|discriminate].
    - unfold func_even. apply andthen_ends; [apply single_ends|]. intros v. apply andthen_ends; [apply cast_integer_ends|].
      intros n. apply andthen_ends; [apply long_ends|discriminate].
    - unfold func_printf. apply andthen_ends; [apply printf_ends|discriminate].
    - unfold func_typeof. apply andthen_ends; [apply single_ends|discriminate].
    - unfold func_exists. apply andthen_ends; [apply two_ends|]. intros [a b].
      destruct a; try discriminate. destruct b; try discriminate. apply andthen_ends; [apply attribute_ends|discriminate].
    - apply arithmetic_ends.
    - apply arithmetic_ends.
    - apply arithmetic_ends.
    - unfold func_div. apply andthen_ends; [apply two_ends|]. intros [a b]. apply andthen_ends; [apply numeric_ends|]. intros x.
      apply andthen_ends; [apply numeric_ends|discriminate].
  Qed.

  (** *** Pipelines *)

  Definition one_settles (c : cmd) : Prop := forall e prev, settles (fun fuel => one_eval fuel e prev c).
  Lemma pipeline_of_one : forall p, Forall one_settles p -> forall e prev, settles (fun fuel => pipeline_eval fuel e prev p).
  Proof.
    intros p H. induction H as [|c p HC H IH]; intros e prev; apply settles_S.
    - fixed_value. discriminate.
    - apply (settles_andthen _ _ (fun fuel => one_eval fuel e prev c) (fun fuel v => pipeline_eval fuel e (Some v) p)); [apply HC|].
      intros v. apply IH.
  Qed.
  Lemma args_of_one : forall ps, Forall (Forall one_settles) ps -> forall e, settles (fun fuel => eval_args fuel e ps).
  Proof.
    intros ps H. induction H as [|p ps HP H IH]; intros e; apply settles_S.
    - fixed_value. discriminate.
    - apply (settles_andthen _ _ (fun fuel => pipeline_eval fuel e None p)
        (fun fuel v => let! vs <- eval_args fuel e ps; Val (v :: vs))); [apply pipeline_of_one; exact HP|].
      intros v. apply (settles_andthen _ _ (fun fuel => eval_args fuel e ps) (fun fuel vs => Val (v :: vs))); [apply IH|].
      intros vs. fixed_value. discriminate.
  Qed.
  Lemma one_all : forall c, one_settles c.
  Proof.
    induction c as [l|f args IH| |a|x|p IH|d b IH1 IH2] using cmd_nest; intros e prev.
    - fixed_value. discriminate.
    - apply (settles_andthen _ _ (fun fuel => eval_args fuel e args)
        (fun fuel vs => call N A printf f (vs ++ match prev with Some v => [v] | None => [] end))); [apply args_of_one; exact IH|].
      intros vs. fixed_value. apply call_ends.
    - fixed_value. discriminate.
    - fixed_value. destruct (dot N e); try discriminate. apply andthen_ends; [apply attribute_ends|discriminate].
    - fixed_value. destruct (JsonModel.json_object_get (vars N e) x) as [[v|]|]; discriminate.
    - apply (pipeline_of_one p IH).
    - apply (settles_andthen _ _ (fun fuel => pipeline_eval fuel e None d) (fun fuel v => pipeline_eval fuel (mkEnv N v (vars N e)) None b)).
      + apply (pipeline_of_one d IH1).
      + intros v. apply (pipeline_of_one b IH2).
  Qed.
  Lemma pipeline_settles : forall p e prev, settles (fun fuel => pipeline_eval fuel e prev p).
  Proof. intros p. apply pipeline_of_one. apply Forall_forall. intros c _. apply one_all. Qed.

  (** *** Actions *)

  Lemma finishes_const : forall r, r <> RDeep -> finishes (fun _ => r).
  Proof. intros r H. exists 0, r. split; [exact H|reflexivity]. Qed.
  Lemma finishes_value : forall (B : Type) (f : nat -> ev B) (g : nat -> B -> ran), settles f ->
    (forall b, finishes (fun fuel => g fuel b)) -> finishes (fun fuel => with_value (f fuel) (g fuel)).
  Proof.
    intros B f g (n1 & r1 & D1 & E1) G. destruct r1 as [b|c| |].
    - destruct (G b) as (n2 & r2 & D2 & E2). exists (n1 + n2), r2. split; [exact D2|]. intros fuel L.
      rewrite (E1 fuel ltac:(lia)). cbn [with_value]. apply E2. lia.
    - exists n1, (Exited [] c). split; [discriminate|]. intros fuel L. rewrite (E1 fuel L). reflexivity.
    - exists n1, RUndef. split; [discriminate|]. intros fuel L. rewrite (E1 fuel L). reflexivity.
    - congruence.
  Qed.
  Lemma after_deep : forall o r, r <> RDeep -> after o r <> RDeep.
  Proof. intros o r H. destruct r; try discriminate. congruence. Qed.
  Lemma finishes_goes_on : forall f g, finishes f -> finishes g -> finishes (fun fuel => goes_on (f fuel) (g fuel)).
  Proof.
    intros f g (n1 & r1 & D1 & E1) (n2 & r2 & D2 & E2). exists (n1 + n2), (goes_on r1 r2). split.
    - destruct r1 as [o [|]| | |]; cbn [goes_on]; try discriminate; [apply after_deep; exact D2|congruence].
    - intros fuel L. rewrite (E1 fuel ltac:(lia)), (E2 fuel ltac:(lia)). reflexivity.
  Qed.
  Lemma finishes_ext : forall f g, (forall fuel, f fuel = g fuel) -> finishes f -> finishes g.
  Proof. intros f g H (n & r & D & E). exists n, r. split; [exact D|]. intros fuel L. rewrite <- H. apply E, L. Qed.

  (** The body of a template that is used finishes *)
  Definition calls_finish (acts : list act) : Prop :=
    forall n b e, uses acts n -> template_lookup n T = Some b -> finishes (fun fuel => action_eval fuel e b).
  Definition act_finishes (a : act) : Prop := calls_finish [a] -> forall e, finishes (fun fuel => one_action fuel e a).

  Lemma uses_cons : forall a acts n, uses [a] n -> uses (a :: acts) n.
  Proof.
    intros a acts n H. inversion H as [a0 acts0 n0 X|n0 p acts0|p no yes acts0 n0 X|x p no yes acts0 n0 X|k v p no yes acts0 n0 X]; subst.
    - inversion X.
    - apply us_block.
    - apply us_if, X.
    - apply us_with, X.
    - apply us_range, X.
  Qed.

  Lemma list_finishes : forall acts, Forall act_finishes acts -> calls_finish acts -> forall e, finishes (fun fuel => action_eval fuel e acts).
  Proof.
    intros acts H. induction H as [|a acts HA H IH]; intros C e; apply finishes_S.
    - fixed_run. discriminate.
    - destruct (leaves a) eqn:LV.
      + destruct a; try discriminate LV; fixed_run; discriminate.
      + apply (finishes_ext (fun fuel => goes_on (one_action fuel e a) (action_eval fuel e acts))).
        * intros fuel. symmetry. apply action_step. exact LV.
        * apply finishes_goes_on.
          -- apply HA. intros n b e' U. apply C. apply uses_cons. exact U.
          -- apply IH. intros n b e' U. apply C. apply us_later. exact U.
  Qed.

  Lemma iterate_finishes : forall kx vx yes, (forall e, finishes (fun fuel => action_eval fuel e yes)) ->
    forall l e, finishes (fun fuel => iterate fuel e kx vx yes l).
  Proof.
    intros kx vx yes H. induction l as [|[k v] l IH]; intros e; apply finishes_S.
    - fixed_run. discriminate.
    - apply (finishes_value _ (fun _ => set_element N kx vx k v e) (fun fuel e =>
        match action_eval fuel e yes with Ran o true => Ran o false | Ran o false => after o (iterate fuel e kx vx yes l) | r => r end)).
      + fixed_value. unfold set_element. assert (S : forall x w e0, set_opt N x w e0 <> Deep).
        { intros [x|] w e0; cbn [set_opt]; [|discriminate]. unfold set_var. destruct (JsonModel.json_object_set _ _ _); discriminate. }
        destruct kx, vx; try discriminate; apply andthen_ends; auto.
      + intros e'. destruct (H e') as (n1 & r1 & D1 & E1). destruct (IH e') as (n2 & r2 & D2 & E2).
        exists (n1 + n2), (match r1 with Ran o true => Ran o false | Ran o false => after o r2 | r => r end). split.
        * destruct r1 as [o [|]| | |]; try discriminate; [apply after_deep; exact D2|congruence].
        * intros fuel L. rewrite (E1 fuel ltac:(lia)), (E2 fuel ltac:(lia)). destruct r1 as [o [|]| | |]; reflexivity.
  Qed.

  Lemma act_all : forall a, act_finishes a.
  Proof.
    induction a as [s| |p|p no yes IH1 IH2|x p no yes IH1 IH2|k v p no yes IH1 IH2| | |n p] using act_nest; intros C e.
    - fixed_run. discriminate.
    - fixed_run. discriminate.
    - apply (finishes_value _ (fun fuel => pipeline_eval fuel e None p) (fun _ v => Ran (print_json N v) false)); [apply pipeline_settles|].
      intros v. fixed_run. discriminate.
    - assert (CN : calls_finish no) by (intros n b e' U; apply C, us_if; left; exact U).
      assert (CY : calls_finish yes) by (intros n b e' U; apply C, us_if; right; exact U).
      apply (finishes_value _ (fun fuel => pipeline_eval fuel e None p) (fun fuel v => with_value (is_empty N A v) (fun m => action_eval fuel e (if m then no else yes))));
        [apply pipeline_settles|]. intros v.
      apply (finishes_value _ (fun _ => is_empty N A v) (fun fuel m => action_eval fuel e (if m then no else yes))); [fixed_value; apply is_empty_ends|].
      intros [|]; apply list_finishes; assumption.
    - assert (CN : calls_finish no) by (intros n b e' U; apply C, us_with; left; exact U).
      assert (CY : calls_finish yes) by (intros n b e' U; apply C, us_with; right; exact U).
      apply (finishes_value _ (fun fuel => pipeline_eval fuel e None p) (fun fuel v => with_value (is_empty N A v) (fun m =>
        if m then action_eval fuel e no else match x with
          | Some x => with_value (set_var N x v e) (fun e => action_eval fuel e yes)
          | None => action_eval fuel (mkEnv N v (vars N e)) yes end))); [apply pipeline_settles|]. intros v.
      apply (finishes_value _ (fun _ => is_empty N A v) (fun fuel m => if m then action_eval fuel e no else match x with
          | Some x => with_value (set_var N x v e) (fun e => action_eval fuel e yes)
          | None => action_eval fuel (mkEnv N v (vars N e)) yes end)); [fixed_value; apply is_empty_ends|].
      intros [|]; [apply list_finishes; assumption|]. destruct x as [x|]; [|apply list_finishes; assumption].
      apply (finishes_value _ (fun _ => set_var N x v e) (fun fuel e => action_eval fuel e yes)).
      + fixed_value. unfold set_var. destruct (JsonModel.json_object_set _ _ _); discriminate.
      + intros e'. apply list_finishes; assumption.
    - assert (CN : calls_finish no) by (intros n b e' U; apply C, us_range; left; exact U).
      assert (CY : calls_finish yes) by (intros n b e' U; apply C, us_range; right; exact U).
      apply (finishes_value _ (fun fuel => pipeline_eval fuel e None p) (fun fuel w => match elements N A w with
        | Some l => iterate fuel e k v yes l | None => action_eval fuel e no end)); [apply pipeline_settles|]. intros w.
      destruct (elements N A w) as [l|]; [|apply list_finishes; assumption]. apply iterate_finishes. apply list_finishes; assumption.
    - fixed_run. discriminate.
    - fixed_run. discriminate.
    - apply (finishes_value _ (fun fuel => pipeline_eval fuel e None p) (fun fuel v => match template_lookup n T with
        | Some body => match action_eval fuel (mkEnv N v (vars N e)) body with Ran o _ => Ran o false | r => r end
        | None => RUndef end)); [apply pipeline_settles|]. intros v.
      destruct (template_lookup n T) as [b|] eqn:EL; [|fixed_run; discriminate].
      destruct (C n b (mkEnv N v (vars N e)) (us_block n p []) EL) as (m & r & D & E).
      exists m, (match r with Ran o _ => Ran o false | r => r end). split; [destruct r; try discriminate; congruence|].
      intros fuel L. rewrite (E fuel L). destruct r; reflexivity.
  Qed.

  Lemma lookup_in : forall n b, template_lookup n T = Some b -> In (n, b) T.
  Proof.
    intros n b. unfold template_lookup. destruct (find _ T) as [[m c]|] eqn:F; [|discriminate]. intros E. injection E as <-.
    apply find_some in F as [I B]. cbn [fst] in B. apply bytes_eqb_eq in B. subst m. exact I.
  Qed.

  Lemma run_finishes : forall rank : bytes -> nat, (forall n b m, In (n, b) T -> uses b m -> rank m < rank n) ->
    forall acts e, finishes (fun fuel => action_eval fuel e acts).
  Proof.
    intros rank R acts e. apply list_finishes; [apply Forall_forall; intros a _; apply act_all|].
    assert (X : forall k n b e, rank n < k -> template_lookup n T = Some b -> finishes (fun fuel => action_eval fuel e b)).
    { induction k as [|k IH]; intros n b e' L EL; [lia|]. apply list_finishes; [apply Forall_forall; intros a _; apply act_all|].
      intros m c e2 U EM. apply (IH m c e2); [|exact EM]. pose proof (R n b m (lookup_in n b EL) U). lia. }
    intros n b e' U EL. apply (X (S (rank n)) n b e'); [lia|exact EL].
  Qed.
End Proofs.
