(** C46: numbers and booleans of the configuration file. *)
From Coq Require Import Ascii String List ZArith Lia.
From Verif Require Import Bytes ClenSpec NumModel NumSpec NumProofs.
Import ListNotations.
Open Scope Z_scope.

(** C46.  A time-out or other unsigned value is accepted exactly when it fits 32 bits, and
    then the stored value is the number written. *)
Theorem C46_unsigned : forall s n, number_token s ->
  (cfg_assign_unsigned s = Some n <-> numeral decimal 10 s n /\ n <= 4294967295).
Proof. exact unsigned_iff. Qed.
Print Assumptions C46_unsigned.

Theorem C46_int : forall s n, number_token s ->
  (cfg_assign_int s = Some n <-> numeral decimal 10 s n /\ n <= 2147483647).
Proof. exact int_iff. Qed.
Print Assumptions C46_int.

(** A value with a documented range; a negative bound is no bound. *)
Theorem C46_range : forall s n min max, number_token s ->
  (cfg_assign_int_range s min max = Some n <->
   numeral decimal 10 s n /\ n <= 2147483647 /\ (0 <= min -> min <= n) /\ (0 < max -> n <= max)).
Proof. exact range_iff. Qed.
Print Assumptions C46_range.

(** Text that goes on after the number is refused. *)
Theorem C46_trailing : forall s c t, number_token s -> ~ (exists d, decimal c d) ->
  cfg_assign_unsigned (s ++ c :: t) = None /\ cfg_assign_int (s ++ c :: t) = None.
Proof. exact trailing_text. Qed.
Print Assumptions C46_trailing.

(** A file mode is the octal number written, up to 777, provided the number is below 2^63. *)
Theorem C46_mode_partial : forall s n v, number_token s ->
  numeral octal 8 s v -> v < 9223372036854775808 ->
  (cfg_assign_mode s = Some n <-> v <= 511 /\ n = v).
Proof.
  intros s n v H N L. rewrite (mode_iff s n H). split.
  - intros (w & W & K). assert (w = v); [|lia].
    apply (numeral_value octal 8 s w num_digit_octal) in W. apply (numeral_value octal 8 s v num_digit_octal) in N. intuition congruence.
  - intros [L' ->]. exists v. split; auto.
Qed.
Print Assumptions C46_mode_partial.

(** Text that is not octal is refused. *)
Theorem C46_mode_digits : forall s n, number_token s ->
  cfg_assign_mode s = Some n -> exists v, numeral octal 8 s v.
Proof. intros s n H E. apply mode_iff in E as (v & V & _); eauto. Qed.
Print Assumptions C46_mode_digits.

(** C46 is false for file modes: numbers of 2^63 and more pass the range check. *)
Theorem C46_mode_refuted : exists s n v, number_token s /\ numeral octal 8 s v /\ 511 < v /\
  cfg_assign_mode s = Some n /\ 511 < n.
Proof.
  exists (lit "1777777777777777777777"), 4294967295, 18446744073709551615.
  split; [apply number_token_digits; split; [discriminate|vm_compute; auto]|].
  split; [apply (numeral_value octal 8 _ _ num_digit_octal); split; [discriminate|vm_compute; auto]|].
  split; [lia|]. split; [vm_compute; auto|lia].
Qed.
Print Assumptions C46_mode_refuted.

(** A boolean is one of eight words. *)
Theorem C46_bool : forall s b, cfg_assign_bool s = Some b <->
  (b = true /\ In s [lit "1"; lit "yes"; lit "true"; lit "on"]) \/
  (b = false /\ In s [lit "0"; lit "no"; lit "false"; lit "off"]).
Proof. exact bool_iff. Qed.
Print Assumptions C46_bool.

Example C46_ex_token : number_token (lit "4294967295") /\ cfg_assign_unsigned (lit "4294967295") = Some 4294967295
  /\ cfg_assign_unsigned (lit "4294967296") = None /\ cfg_assign_unsigned (lit "18446744073709551617") = None.
Proof. split; [apply number_token_digits; split; [discriminate|vm_compute; auto]|vm_compute; auto]. Qed.
Example C46_ex_range : cfg_assign_int_range (lit "3") 0 3 = Some 3 /\ cfg_assign_int_range (lit "4") 0 3 = None
  /\ cfg_assign_int_range (lit "0") 1 (-1) = None /\ cfg_assign_int_range (lit "70000") 1 (-1) = Some 70000.
Proof. vm_compute. auto. Qed.
Example C46_ex_mode : cfg_assign_mode (lit "640") = Some 416 /\ cfg_assign_mode (lit "1000") = None /\
  cfg_assign_mode (lit "689") = None.
Proof. vm_compute. auto. Qed.
