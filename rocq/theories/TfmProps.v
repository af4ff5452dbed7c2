(** C65: what the function printf of templates outputs. *)
From Coq Require Import Ascii String List ZArith QArith Bool Lia.
From Verif Require Import Bytes TplModel TevModel TevSpec TevEndProofs TfmModel TfmSpec TfmProofs TfmRunProofs TfmFindProofs.
From Verif Require JsonModel ClenSpec.
Import ListNotations.
Local Open Scope string_scope.
Local Open Scope list_scope.
Local Open Scope Z_scope.

(** printf outputs what printf(3) says: the characters of the format and, for every conversion, the next argument, in
    its field, with its flags, width and precision; and %v outputs JSON.  For every format, of any length, all
    arguments, and whatever the C library makes of %e, %f and %g.  Partial: the conversions of TfmSpec.v; the
    refuted theorems below say where the others differ. *)
Theorem C65_outputs_partial : forall N (A : arith N) F f args o, formats N A F f args o ->
  func_printf N A F (JsonModel.JString N f :: args) = Val o.
Proof. exact printf_outputs. Qed.
Print Assumptions C65_outputs_partial.

(** A format with conversions for which there are no more arguments, or one that is not a number, ends the program with the
    message for that; so does a format that is not a string, or none.  Partial: there is at least one
    argument (see C65_missing_refuted). *)
Theorem C65_errors_partial : forall N (A : arith N) F,
  func_printf N A F [] = Stop Few
  /\ (forall v args, (forall s, v <> JsonModel.JString N s) -> func_printf N A F (v :: args) = Stop Bad_format)
  /\ (forall f args x, args <> [] -> errs N A F f args x -> func_printf N A F (JsonModel.JString N f :: args) = Stop x).
Proof.
  intros N A F. split; [reflexivity|]. split.
  - intros v args H. destruct v as [|b|d|d|s|l|l]; try reflexivity. exfalso. apply (H s). reflexivity.
  - intros f args x NE H. exact (printf_errs N A F f args x H NE).
Qed.
Print Assumptions C65_errors_partial.

(** What a format outputs is not ambiguous. *)
Theorem C65_unambiguous : forall N (A : arith N) F f args o, formats N A F f args o ->
  (forall o', formats N A F f args o' -> o' = o) /\ (args <> [] -> forall x, ~ errs N A F f args x).
Proof.
  intros N A F f args o H. apply printf_outputs in H. split.
  - intros o' H'. apply printf_outputs in H'. congruence.
  - intros NE x H'. apply printf_errs in H'; [congruence|exact NE].
Qed.
Print Assumptions C65_unambiguous.

(** printf always ends; and so does every template, with this printf, if no template uses itself. *)
Theorem C65_ends : forall N (A : arith N) F,
  (forall args, func_printf N A F args <> Deep)
  /\ forall T (rank : bytes -> nat), (forall n b m, In (n, b) T -> uses b m -> (rank m < rank n)%nat) ->
     forall d acts, exists n r, r <> RDeep /\ forall fuel, (n <= fuel)%nat -> template_run N A (func_printf N A F) T fuel d acts = r.
Proof.
  intros N A F. split; [exact (printf_ends N A F)|]. intros T rank R d acts.
  exact (run_finishes N A (func_printf N A F) (printf_ends N A F) T rank R acts (mkEnv N d JsonModel.json_new_object)).
Qed.
Print Assumptions C65_ends.

(** The number of an argument, as in %1$s, is off by one: 1 fails an assertion, and 2 is the first argument. *)
Theorem C65_position_refuted : forall N (A : arith N) F args,
  func_printf N A F (JsonModel.JString N (lit "%1$s") :: args) = Stop Assertion
  /\ forall s, func_printf N A F (JsonModel.JString N (lit "%2$s") :: JsonModel.JString N s :: args) = Val s.
Proof.
  intros N A F args. split; [reflexivity|]. intros s.
  assert (E : va_arg_n N (JsonModel.JString N s :: args) 1 = Val (JsonModel.JString N s)).
  { unfold va_arg_n. destruct (Z.leb_spec 1 (Z.of_nat (length (JsonModel.JString N s :: args)))) as [L|L]; [reflexivity|cbn [length] in L; lia]. }
  apply gives_printf. set (all := JsonModel.JString N s :: args) in *. do 5 (eapply gives_step; [reflexivity|reflexivity|]). eapply gives_step; [reflexivity| |].
  - unfold step. cbn [state go]. unfold convert. cbn [altpos go set_pos]. cbv zeta. change (beq "s" "s") with true. cbv iota.
    unfold arg_string. change (argnum _) with 1. rewrite E. cbn [andthen json_cast_to_string].
    unfold conv_s. cbn [Z.ltb Z.compare andb prec width set_pos go begin_conv init]. cbv zeta. rewrite size_all. reflexivity.
  - exact (gives_end N A F all (mkSt Copy [] (lit "%2$s") 1 1 true no_flags 0 0 false s 0) eq_refl).
Qed.
Print Assumptions C65_position_refuted.

(** A conversion without any arguments follows a null pointer. *)
Theorem C65_missing_refuted : forall N (A : arith N) F c, In c letters -> func_printf N A F [JsonModel.JString N ["%"%char; c]] = Undef.
Proof. intros N A F c H. cbn in H. repeat (destruct H as [<-|H]; [reflexivity|]). destruct H. Qed.
Print Assumptions C65_missing_refuted.

(** A negative width from an argument does not move the text to the left edge, but puts a blank before the number. *)
Theorem C65_left_refuted : forall F,
  func_printf rationals rational_arith F [JsonModel.JString rationals (lit "%*d"); JsonModel.JInteger rationals (-5 # 1); JsonModel.JInteger rationals (42 # 1)]
  = Val (lit "   42").
Proof. reflexivity. Qed.
Print Assumptions C65_left_refuted.

(** The argument that gives a precision is not skipped: it is also the value that is output. *)
Theorem C65_star_refuted : forall F s,
  func_printf rationals rational_arith F [JsonModel.JString rationals (lit "%.*s"); JsonModel.JInteger rationals (2 # 1); JsonModel.JString rationals s]
  = Val (lit "2").
Proof. reflexivity. Qed.
Print Assumptions C65_star_refuted.

(** With a precision of 0 the whole string is output, not nothing. *)
Theorem C65_zero_precision_refuted : forall N (A : arith N) F s,
  func_printf N A F [JsonModel.JString N (lit "%.0s"); JsonModel.JString N s] = Val s.
Proof. intros N A F s. cbn - [size]. rewrite size_all. reflexivity. Qed.
Print Assumptions C65_zero_precision_refuted.

(** The digits of an octal number with a precision are cut off, to as many as it had before zeros were added. *)
Theorem C65_octal_refuted : forall F,
  func_printf rationals rational_arith F [JsonModel.JString rationals (lit "%.5o"); JsonModel.JInteger rationals (8 # 1)] = Val (lit "00").
Proof. reflexivity. Qed.
Print Assumptions C65_octal_refuted.

(** %x takes 32 bits of the number, though others take 64, and with the flag # a zero has a prefix. *)
Theorem C65_hex_refuted : forall F,
  let printf f z := func_printf rationals rational_arith F [JsonModel.JString rationals (lit f); JsonModel.JInteger rationals (inject_Z z)] in
  printf "%x" (2 ^ 32) = Val (lit "0") /\ printf "%x" (-1) = Val (lit "ffffffff") /\ printf "%u" (-1) = Val (lit "18446744073709551615")
  /\ printf "%#x" 0 = Val (lit "0x0").
Proof. repeat split; reflexivity. Qed.
Print Assumptions C65_hex_refuted.

(** The width of %f, %e and %g is ignored without a precision: the C library is told the width 0. *)
Theorem C65_float_width_refuted : forall N (A : arith N) F d,
  func_printf N A F [JsonModel.JString N (lit "%8f"); JsonModel.JNumber N d] = Val (F no_flags 0 None "f"%char d).
Proof. reflexivity. Qed.
Print Assumptions C65_float_width_refuted.

(** The flag 0 of %f is ignored with a precision, though printf(3) says that for integers only. *)
Theorem C65_float_zero_refuted : forall N (A : arith N) F d,
  func_printf N A F [JsonModel.JString N (lit "%08.2f"); JsonModel.JNumber N d] = Val (F no_flags 8 (Some 2) "f"%char d).
Proof. reflexivity. Qed.
Print Assumptions C65_float_zero_refuted.

(** A number with a precision of 63 or more is written beyond the end of the buffer. *)
Theorem C65_overflow_refuted : forall N (A : arith N) F d t p c, to_long A d = Some 1 -> decimal_number t p -> 63 <= p < 2 ^ 31 ->
  In c (lit "dixXo") -> func_printf N A F [JsonModel.JString N (lit "%." ++ t ++ [c]); JsonModel.JInteger N d] = Undef.
Proof. exact precision_beyond. Qed.
Print Assumptions C65_overflow_refuted.

(** The largest width makes the size of the buffer for the string wrap around to 0, and it is written all the same. *)
Theorem C65_wide_refuted : forall N (A : arith N) F s, fits s ->
  func_printf N A F [JsonModel.JString N (lit "%4294967295s"); JsonModel.JString N s] = Undef.
Proof.
  intros N A F s H. assert (E : conv_s no_flags 4294967295 0 s = Undef).
  { unfold conv_s. cbn [Z.ltb Z.compare andb]. cbv zeta. rewrite size_all. change (4294967295 =? 0) with false. cbv iota.
    destruct (Z.ltb_spec 4294967295 (size s)) as [L|L]; [unfold fits, size in *; lia|]. reflexivity. }
  apply gives_printf. do 5 (eapply gives_step; [reflexivity|reflexivity|]). exists 1%nat. intros [|fuel] LF; [lia|].
  change (andthen (andthen (conv_s no_flags 4294967295 0 s) (fun o => Val (go Copy [] (set_room 0 (emit o
    (set_next 2 (mkSt Conv (lit "s") (lit "%4294967295s") 1 0 false no_flags 4294967295 0 false [] 0)))))))
    (fun s' => loop N A F fuel [JsonModel.JString N s] s') = Undef).
  rewrite E. reflexivity.
Qed.
Print Assumptions C65_wide_refuted.

(** Conversions of printf(3) such as %ld and %c are not converted, but output as they are. *)
Theorem C65_conversion_refuted : forall N (A : arith N) F v,
  func_printf N A F [JsonModel.JString N (lit "%ld"); v] = Val (lit "%ld")
  /\ func_printf N A F [JsonModel.JString N (lit "%c"); v] = Val (lit "%c").
Proof. split; reflexivity. Qed.
Print Assumptions C65_conversion_refuted.

(** %s of an array reads a value that is not there. *)
Theorem C65_array_refuted : forall N (A : arith N) F l, func_printf N A F [JsonModel.JString N (lit "%s"); JsonModel.JArray N l] = Undef.
Proof. reflexivity. Qed.
Print Assumptions C65_array_refuted.

(** A format that meets the hypotheses: flags, widths, one from an argument, precisions and several conversions. *)
Example C65_sample : forall F,
  formats rationals rational_arith F (lit "<%-6.2s|%+05d|%*X|%v>%%")
    [JsonModel.JString rationals (lit "abc"); JsonModel.JInteger rationals (42 # 1); JsonModel.JInteger rationals (4 # 1);
     JsonModel.JInteger rationals (255 # 1); JsonModel.JBool rationals true] (lit "<ab    |+0042|  FF|true>%").
Proof.
  intros F.
  assert (D1 : forall c d, ClenSpec.digit_of decimal c d -> decimal_number [c] d) by (intros c d H; apply ClenSpec.num_one, H).
  assert (FL : forall c, In c (lit "#0- +") -> is_flags [c]) by (intros c H; constructor; [exact H|constructor]).
  apply (fo_char _ _ _ "<"); [discriminate|].
  eapply (fo_conversion _ _ _ (lit "-") (lit "6") (lit ".2") "s" (lit "|%+05d|%*X|%v>%%") _ 6 _ _ (Some 2) (lit "ab    ") (lit "|+0042|  FF|true>%")).
  - apply FL. cbn. tauto.
  - apply tw_number; [apply D1; split; [lia|reflexivity]|discriminate|lia].
  - apply gp_number; [apply D1; split; [lia|reflexivity]|lia].
  - apply cv_s_prec with (t := lit "abc") (t1 := lit "ab") (t2 := lit "c"); [left; reflexivity|reflexivity|reflexivity|lia|left; reflexivity|].
    exists 4%nat. split; [reflexivity|]. left. split; [cbn; tauto|reflexivity].
  - apply (fo_char _ _ _ "|"); [discriminate|].
    eapply (fo_conversion _ _ _ (lit "+0") (lit "5") [] "d" (lit "|%*X|%v>%%") _ 5 _ _ None (lit "+0042") (lit "|  FF|true>%")).
    + constructor; [cbn; tauto|]. constructor; [cbn; tauto|constructor].
    + apply tw_number; [apply D1; split; [lia|reflexivity]|discriminate|lia].
    + apply gp_none.
    + apply cv_d with (z := 42) (prefix := lit "+") (ds := lit "42").
      * cbn. tauto.
      * exists (42 # 1). split; [left; reflexivity|]. split; [reflexivity|lia].
      * intros x X. discriminate X.
      * right. left. split; [lia|]. split; [cbn; tauto|reflexivity].
      * split; [|discriminate]. change (lit "42") with (["4"%char] ++ ["2"%char]). change (Z.abs 42) with (10 * 4 + 2).
        apply ClenSpec.num_snoc; [apply ClenSpec.num_one|]; (split; [lia|reflexivity]).
      * left. split; [cbn; tauto|]. split; [cbn; intros [X|[X|[]]]; discriminate X|]. exists 2%nat. split; reflexivity.
    + apply (fo_char _ _ _ "|"); [discriminate|].
      eapply (fo_conversion _ _ _ [] (lit "*") [] "X" (lit "|%v>%%") _ 4 _ _ None (lit "  FF") (lit "|true>%")).
      * constructor.
      * apply tw_star; [|lia]. exists (4 # 1). split; [left; reflexivity|]. split; [reflexivity|lia].
      * apply gp_none.
      * apply cv_x with (z := 255) (prefix := []) (ds := lit "FF").
        -- cbn. tauto.
        -- exists (255 # 1). split; [left; reflexivity|]. split; [reflexivity|lia].
        -- lia.
        -- intros x X. discriminate X.
        -- right. split; [intros []|reflexivity].
        -- split; [|discriminate]. change (lit "FF") with (["F"%char] ++ ["F"%char]). change 255 with (16 * 15 + 15).
           apply ClenSpec.num_snoc; [apply ClenSpec.num_one|]; (split; [lia|reflexivity]).
        -- right. split; [left; intros []|]. exists 2%nat. split; [reflexivity|]. right. split; [intros []|reflexivity].
      * apply (fo_char _ _ _ "|"); [discriminate|].
        eapply (fo_conversion _ _ _ [] [] [] "v" (lit ">%%") _ 0 _ _ None (lit "true") (lit ">%")); [constructor|apply tw_none|apply gp_none|apply cv_v; apply js_true|].
        apply (fo_char _ _ _ ">"); [discriminate|]. apply (fo_percent _ _ _ [] _ []). apply fo_end.
Qed.

(** ... and one with an error after a conversion that is in order. *)
Example C65_error : forall F,
  errs rationals rational_arith F (lit "%v%d") [JsonModel.JBool rationals true; JsonModel.JString rationals (lit "x")] Mismatch.
Proof.
  intros F. change (lit "%v%d") with ("%"%char :: [] ++ [] ++ [] ++ "v"%char :: ("%"%char :: [] ++ [] ++ [] ++ "d"%char :: [])).
  eapply er_later; [constructor|apply tw_none|apply gp_none|apply cv_v; apply js_true|].
  eapply er_type; [constructor|apply tw_none|apply gp_none|unfold takes_number; cbn; tauto|]. intros n [X|X]; discriminate X.
Qed.
