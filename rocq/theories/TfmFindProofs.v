(** printf of templates: a precision that the buffer has no room for. *)
From Coq Require Import Ascii String List ZArith Bool Lia.
From Verif Require Import Bytes TevModel TevSpec TfmModel TfmSpec TfmProofs TfmRunProofs.
From Verif Require JsonModel ClenSpec.
Import ListNotations.
Local Open Scope string_scope.
Local Open Scope list_scope.
Local Open Scope Z_scope.

Lemma zeros_beyond : forall slots alphabet p, 1 <= slots -> In alphabet alphabets -> 63 <= p -> with_zeros slots p 64 (in_base alphabet 1) = Undef.
Proof.
  intros slots alphabet p S I P. assert (E : size (in_base alphabet 1) = 1) by (repeat (destruct I as [<-|I]; [reflexivity|]); destruct I).
  unfold with_zeros. rewrite E. destruct (Z.ltb_spec 0 p); [|lia]. destruct (Z.ltb_spec 1 p); [|lia]. cbn [andb].
  destruct (Z.leb_spec (slots + p + 1) 64); [lia|reflexivity].
Qed.

Section Finds.
  Variable N : JsonModel.numbers.
  Variable A : arith N.
  Variable F : float_format N.

  Lemma precision_beyond : forall d t p c, to_long A d = Some 1 -> decimal_number t p -> 63 <= p < 2 ^ 31 -> In c (lit "dixXo") ->
    func_printf N A F [JsonModel.JString N (lit "%." ++ t ++ [c]); JsonModel.JInteger N d] = Undef.
  Proof.
    intros d t p c L DN P IC. apply gives_printf. set (all := [JsonModel.JInteger N d]).
    assert (CL : In c letters) by (cbn in IC; cbn; tauto).
    destruct (conv_reached N A F [] [] ("."%char :: t) c [] all 0 all (Some p) all (init (lit "%." ++ t ++ [c])) ltac:(constructor)
      (tw_none N A all) (gp_number t p DN ltac:(lia)) CL eq_refl eq_refl ltac:(split; [cbn; lia|split; [cbn; lia|reflexivity]]))
      as (s' & S1 & S2 & S3 & S4 & S5 & S6 & S7 & S8 & S9 & S10 & B & G).
    apply G. exists 1%nat. intros [|fuel] LF; [lia|]. cbn [loop]. rewrite S2. unfold step. rewrite S1.
    destruct (from_next N all (next s') _ _ S8) as [EV _].
    assert (AI : arg_integer N A all (next s') = Val 1) by (unfold arg_integer; rewrite EV; cbn [andthen]; unfold long; rewrite L; reflexivity).
    unfold convert. rewrite S7. cbv zeta.
    change (fl (set_next (next s' + 1) s')) with (fl s'). change (width (set_next (next s' + 1) s')) with (width s').
    change (prec (set_next (next s' + 1) s')) with (prec s'). change (room (set_next (next s' + 1) s')) with (room s').
    rewrite S5, S9. change (given (Some p)) with p. change (room_small (room (init (lit "%." ++ t ++ [c])))) with 64. rewrite AI.
    cbn in IC. destruct IC as [<-|[<-|[<-|[<-|[<-|[]]]]]];
      repeat match goal with |- context [beq ?a ?b || beq ?a' ?b'] => change (beq a b || beq a' b') with true || change (beq a b || beq a' b') with false end;
      repeat match goal with |- context [beq ?a ?b] => change (beq a b) with true || change (beq a b) with false end; cbv iota; cbn [andthen].
    - unfold conv_d. cbv zeta. change (1 =? - 2 ^ 63) with false. cbv iota. change (Z.abs 1) with 1.
      rewrite (zeros_beyond 1 (lit "0123456789") p); [reflexivity|lia|cbn; tauto|lia].
    - unfold conv_d. cbv zeta. change (1 =? - 2 ^ 63) with false. cbv iota. change (Z.abs 1) with 1.
      rewrite (zeros_beyond 1 (lit "0123456789") p); [reflexivity|lia|cbn; tauto|lia].
    - unfold conv_x. cbv zeta. change (beq "x" "x") with true. cbv iota. change (uint 1) with 1.
      rewrite (zeros_beyond 2 (lit "0123456789abcdef") p); [reflexivity|lia|cbn; tauto|lia].
    - unfold conv_x. cbv zeta. change (beq "X" "x") with false. cbv iota. change (uint 1) with 1.
      rewrite (zeros_beyond 2 (lit "0123456789ABCDEF") p); [reflexivity|lia|cbn; tauto|lia].
    - unfold conv_o. cbv zeta. change (ulong 1) with 1.
      rewrite (zeros_beyond 1 (lit "01234567") p); [reflexivity|lia|cbn; tauto|lia].
  Qed.
End Finds.
