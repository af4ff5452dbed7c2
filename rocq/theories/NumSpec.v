(** Numbers written in digits, independently of the model. *)
From Coq Require Import Ascii String List ZArith.
From Verif Require Import Bytes ClenSpec.
Import ListNotations.
Open Scope Z_scope.

Definition octal (c : byte) (d : Z) : Prop := digit_of (lit "01234567") c d.

(** A number token of the configuration file consists of decimal digits. *)
Definition number_token (s : bytes) : Prop :=
  s <> [] /\ Forall (fun c => exists d, decimal c d) s.
