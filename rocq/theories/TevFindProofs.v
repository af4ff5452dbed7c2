(** Running a template: where the program does not do what the manual says. *)
From Coq Require Import Ascii String List ZArith QArith Bool Lia Sorted.
From Verif Require Import Bytes TplModel TevModel TevSpec TevProofs TevRunProofs.
From Verif Require JsonModel.
Import ListNotations.
Local Open Scope nat_scope.
Local Open Scope string_scope.
Local Open Scope list_scope.

Lemma rationals_sane : sane rational_arith.
Proof.
  split; [|split; [|split; [|split; reflexivity]]].
  - intros z [L1 L2]. cbn [to_long of_long rational_arith inject_Z Qnum Qden]. rewrite Z.quot_1_r.
    assert (B : (Z.abs z <? 2 ^ 63)%Z = true) by (apply Z.ltb_lt; lia). rewrite B. reflexivity.
  - intros x y _ _. cbn [ltb of_long rational_arith]. unfold Qle_bool. cbn [inject_Z Qnum Qden]. rewrite !Z.mul_1_r.
    rewrite Z.leb_antisym, negb_involutive. reflexivity.
  - intros x y H. cbn [ltb rational_arith] in *. apply negb_true_iff in H. apply negb_false_iff.
    unfold Qle_bool in *. apply Z.leb_gt in H. apply Z.leb_le. lia.
Qed.

Section Finds.
  Variable N : JsonModel.numbers.
  Variable A : arith N.
  Hypothesis sn : sane A.
  Variable printf : list (JsonModel.jv N) -> ev bytes.

  Lemma continue_runs_on : forall T fuel v a b c, full N A v ->
    template_run N A printf T (9 + fuel) (JsonModel.JArray N [v])
      [ARange None None [CDot] [] [ACond [CDot] [] [AText a; AContinue; AText b]; AText c]] = Ran (a ++ c) false.
  Proof.
    intros T fuel v a b c F.
    assert (I : forall f e, dot N e = v ->
      action_eval N A printf T (S (S (S (S f)))) e [ACond [CDot] [] [AText a; AContinue; AText b]; AText c] = Ran (a ++ c) false).
    { intros f e D. rewrite action_step by reflexivity. cbn [one_action].
      change (pipeline_eval N A printf (S (S (S f))) e None [CDot]) with (Val (dot N e)). rewrite D. cbn [with_value].
      rewrite (full_false N A sn v F). cbn [with_value].
      change (action_eval N A printf T (S (S (S f))) e [AText a; AContinue; AText b]) with (Ran (a ++ []) false).
      change (action_eval N A printf T (S (S (S f))) e [AText c]) with (Ran (c ++ []) false).
      cbn [goes_on after]. rewrite !app_nil_r. reflexivity. }
    unfold template_run. set (e := mkEnv N _ _). change (9 + fuel) with (S (8 + fuel)). rewrite action_step by reflexivity.
    cbn [one_action]. change (pipeline_eval N A printf (8 + fuel) e None [CDot]) with (Val (JsonModel.JArray N [v])).
    cbn [with_value elements number_from].
    set (y := [ACond [CDot] [] [AText a; AContinue; AText b]; AText c]) in *.
    assert (IT : forall f, iterate N A printf T (S f) e None None y [(JsonModel.JInteger N (of_long A 0), v)] =
      match action_eval N A printf T f (mkEnv N v (vars N e)) y with Ran o true => Ran o false
       | Ran o false => after o (iterate N A printf T f (mkEnv N v (vars N e)) None None y []) | r => r end) by reflexivity.
    change (8 + fuel) with (S (7 + fuel)). rewrite IT. change (7 + fuel) with (S (S (S (S (3 + fuel))))).
    rewrite (I (3 + fuel)) by reflexivity.
    cbn [iterate action_eval goes_on after]. rewrite !app_nil_r. reflexivity.
  Qed.
  Lemma continue_means : forall T v a b c, full N A v ->
    runs N A printf T (JsonModel.JArray N [v]) (unset N)
      [ARange None None [CDot] [] [ACond [CDot] [] [AText a; AContinue; AText b]; AText c]] a Through.
  Proof.
    intros T v a b c F. assert (O : a = (a ++ []) ++ []) by (rewrite !app_nil_r; reflexivity). rewrite O at 2.
    apply ru_next; [|apply ru_nil].
    apply do_range with (v := JsonModel.JArray N [v]) (l := numbered N A 0 [v]); [|apply me_array|discriminate|].
    - eapply va_first; [apply on_dot|apply pi_end].
    - cbn [numbered]. apply lo_next with (e := Continued); [|right; reflexivity|apply lo_end].
      cbn [range_dot range_vars set_if]. apply ru_leave; [|discriminate].
      apply do_if with (v := v); [eapply va_first; [apply on_dot|apply pi_end]|exact F|].
      rewrite <- (app_nil_r a) at 2. apply ru_next; [apply do_text|apply ru_continue].
  Qed.

  Lemma else_break : forall T fuel a yes acts,
    template_run N A printf T (9 + fuel) (JsonModel.JArray N []) (ARange None None [CDot] [AText a; ABreak] yes :: acts) = Ran a true.
  Proof. intros T fuel a yes acts. cbn. rewrite app_nil_r. reflexivity. Qed.

  Lemma index_beyond : forall l z, exact z -> (Z.of_nat (length l) <= z)%Z ->
    call N A printf (lit "index") [JsonModel.JArray N l; JsonModel.JInteger N (of_long A z)] = Val (JsonModel.JArray N l).
  Proof.
    intros l z E L. change (index_by N A (JsonModel.JArray N l) [JsonModel.JInteger N (of_long A z)] = Val (JsonModel.JArray N l)).
    cbn [index_by]. rewrite (cast_whole N A sn (JsonModel.JInteger N (of_long A z)) z (conj E (or_intror eq_refl))). cbn [andthen].
    rewrite (long_exact N A sn z E). cbn [andthen].
    assert (B1 : (z <? 0)%Z = false) by (apply Z.ltb_ge; lia). assert (B2 : (z <? Z.of_nat (length l))%Z = false) by (apply Z.ltb_ge; lia).
    rewrite B1, B2. reflexivity.
  Qed.

  Lemma circle : forall fuel e n, action_eval N A printf [(n, [ABlock n [CDot]])] fuel e [ABlock n [CDot]] = RDeep.
  Proof.
    intros fuel. induction fuel as [|fuel IH]; intros e n; [reflexivity|].
    cbn [action_eval]. destruct fuel as [|[|fuel]]; [reflexivity|reflexivity|].
    change (pipeline_eval N A printf (S (S fuel)) e None [CDot]) with (Val (dot N e)). cbn [with_value].
    unfold template_lookup. cbn [find fst]. rewrite bytes_eqb_refl. cbn [option_map snd]. rewrite (IH _ n). reflexivity.
  Qed.
End Finds.
