(** Specification of length fields, independent of the model. *)
From Coq Require Import Ascii String List ZArith.
From Verif Require Import Bytes.
Import ListNotations.
Open Scope Z_scope.

(** Largest value of the signed 64-bit length type. *)
Definition max_length : Z := 9223372036854775807.

Definition blank (c : byte) : Prop := c = " "%char \/ c = "009"%char.

(** [digit_of alphabet c d]: [c] is the [d]-th character of the alphabet. *)
Definition digit_of (alphabet : bytes) (c : byte) (d : Z) : Prop :=
  0 <= d /\ nth_error alphabet (Z.to_nat d) = Some c.

Definition decimal (c : byte) (d : Z) : Prop := digit_of (lit "0123456789") c d.
Definition hexadecimal (c : byte) (d : Z) : Prop :=
  digit_of (lit "0123456789abcdef") c d \/ digit_of (lit "0123456789ABCDEF") c d.

(** [numeral digit base s v]: [s] is a non-empty numeral denoting [v]. *)
Inductive numeral (digit : byte -> Z -> Prop) (base : Z) : bytes -> Z -> Prop :=
| num_one : forall c d, digit c d -> numeral digit base [c] d
| num_snoc : forall s v c d,
    numeral digit base s v -> digit c d ->
    numeral digit base (s ++ [c]) (base * v + d).

(** A Content-Length field value. *)
Definition content_length_value (s : bytes) (n : Z) : Prop :=
  exists l ds r,
    s = l ++ ds ++ r /\ Forall blank l /\ Forall blank r /\
    numeral decimal 10 ds n /\ n <= max_length.

(** A chunk-size line: digits, blanks, then nothing or an extension. *)
Definition chunk_size_line (s : bytes) (n : Z) : Prop :=
  exists ds b e,
    s = ds ++ b ++ e /\ Forall blank b /\
    (e = [] \/ exists e', e = ";"%char :: e') /\
    numeral hexadecimal 16 ds n /\ n <= max_length.

(** A number in the configuration file. *)
Definition config_length (s : bytes) (n : Z) : Prop :=
  numeral decimal 10 s n /\ n <= max_length.
