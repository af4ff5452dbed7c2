(** What the function printf of templates outputs: printf(3), for the conversions
    s, d, i, u, x, X, o, e, E, f, F, g, G, and v of poundctl.tmpl(5).  Independent
    of the model, but for the types of values. *)
From Coq Require Import Ascii String List ZArith Bool.
From Verif Require Import Bytes TevModel TevSpec TfmModel.
From Verif Require JsonModel ClenSpec.
Import ListNotations.
Local Open Scope string_scope.
Local Open Scope list_scope.
Local Open Scope Z_scope.

(** ** Numbers *)

Definition octal : bytes := lit "01234567".
Definition decimal : bytes := lit "0123456789".
Definition lower_hex : bytes := lit "0123456789abcdef".
Definition upper_hex : bytes := lit "0123456789ABCDEF".

(** The digits of a number: no zero in front, but of zero itself *)
Definition shortest (alphabet : bytes) (n : Z) (ds : bytes) : Prop :=
  ClenSpec.numeral (ClenSpec.digit_of alphabet) (Z.of_nat (length alphabet)) ds n
  /\ (hd_error ds = Some "0"%char -> ds = lit "0").

(** ** Padding *)

(** [k] is what [n] lacks of [m]; none if it is larger *)
Definition lacks (n : bytes) (m : Z) (k : nat) : Prop := Z.of_nat k = Z.max 0 (m - Z.of_nat (length n)).

(** A text in a field of at least this width, at its left or right edge *)
Definition in_field (fs : bytes) (w : Z) (t o : bytes) : Prop :=
  exists k, lacks t w k /\ ((In "-"%char fs /\ o = t ++ repeat " "%char k) \/ (~ In "-"%char fs /\ o = repeat " "%char k ++ t)).

(** A number in a field: with a precision, there are at least so many digits; else,
    with the flag 0 and without -, zeros fill the field, after the sign or prefix *)
Definition number_in_field (fs : bytes) (w : Z) (p : option Z) (prefix ds o : bytes) : Prop :=
  match p with
  | Some p => exists k, lacks ds p k /\ in_field fs w (prefix ++ repeat "0"%char k ++ ds) o
  | None =>
      (In "0"%char fs /\ ~ In "-"%char fs /\ exists k, lacks (prefix ++ ds) w k /\ o = prefix ++ repeat "0"%char k ++ ds)
      \/ ((~ In "0"%char fs \/ In "-"%char fs) /\ in_field fs w (prefix ++ ds) o)
  end.

(** ** Conversions *)

Definition signed (fs : bytes) (z : Z) (prefix : bytes) : Prop :=
  (z < 0 /\ prefix = lit "-")
  \/ (0 <= z /\ In "+"%char fs /\ prefix = lit "+")
  \/ (0 <= z /\ ~ In "+"%char fs /\ In " "%char fs /\ prefix = lit " ")
  \/ (0 <= z /\ ~ In "+"%char fs /\ ~ In " "%char fs /\ prefix = []).
Definition prefixed (fs : bytes) (prefix o : bytes) : Prop :=
  (In "#"%char fs /\ o = prefix) \/ (~ In "#"%char fs /\ o = []).

(** Precisions that the buffer has room for; see C65_overflow_refuted and
    C65_zero_precision_refuted *)
Definition moderate (p : option Z) : Prop := forall x, p = Some x -> 0 < x <= 60.

(** The flags that count: - overrides 0 and + overrides a space *)
Definition effective (fs : bytes) (f : flags) : Prop :=
  (alt f = true <-> In "#"%char fs) /\ (zero f = true <-> In "0"%char fs /\ ~ In "-"%char fs)
  /\ (left f = true <-> In "-"%char fs) /\ (space f = true <-> In " "%char fs /\ ~ In "+"%char fs)
  /\ (sign f = true <-> In "+"%char fs).

Section Meaning.
  Variable N : JsonModel.numbers.
  Variable A : arith N.
  Variable F : float_format N.
  Notation jv := (JsonModel.jv N).

  Definition has_number (v : jv) (d : JsonModel.dbl N) : Prop := v = JsonModel.JInteger N d \/ v = JsonModel.JNumber N d.
  Definition has_integer (v : jv) (z : Z) : Prop := exists d, has_number v d /\ to_long A d = Some z /\ - 2 ^ 63 < z < 2 ^ 63.

  (** The text of a value for %s *)
  Definition text_of (v : jv) (t : bytes) : Prop :=
    v = JsonModel.JString N t \/ (v = JsonModel.JNull N /\ t = [])
    \/ (exists d, v = JsonModel.JNumber N d /\ t = print_g A d)
    \/ (exists d z s, v = JsonModel.JInteger N d /\ to_long A d = Some z /\ 0 <= z /\ shortest decimal z s /\ t = s)
    \/ (exists d z s, v = JsonModel.JInteger N d /\ to_long A d = Some z /\ z < 0 /\ shortest decimal (- z) s /\ t = lit "-" ++ s).

  (** Not of 4GB or more *)
  Definition fits (t : bytes) : Prop := Z.of_nat (length t) < 2 ^ 32 - 1.

  (** [converts fs w p c v o]: a conversion with flags [fs], width [w] (0: none), precision [p]
      and the letter [c] makes [o] of the value [v] *)
  Inductive converts : bytes -> Z -> option Z -> byte -> jv -> bytes -> Prop :=
  | cv_s : forall fs w v t o, text_of v t -> fits t -> in_field fs w t o -> converts fs w None "s" v o
  | cv_s_prec : forall fs w p v t t1 t2 o, text_of v t -> fits t -> t = t1 ++ t2 -> 0 < p ->
      (Z.of_nat (length t1) = p \/ (Z.of_nat (length t1) < p /\ t2 = [])) ->
      in_field fs w t1 o -> converts fs w (Some p) "s" v o
  | cv_d : forall fs w p c v z prefix ds o, In c (lit "di") -> has_integer v z -> moderate p -> signed fs z prefix ->
      shortest decimal (Z.abs z) ds -> number_in_field fs w p prefix ds o -> converts fs w p c v o
  | cv_u : forall fs w p v z ds o, has_integer v z -> moderate p ->
      shortest decimal (if z <? 0 then 2 ^ 64 + z else z) ds -> number_in_field fs w p [] ds o -> converts fs w p "u" v o
  (** see C65_hex_refuted *)
  | cv_x : forall fs w p c v z prefix ds o, In c (lit "xX") -> has_integer v z -> 0 < z < 2 ^ 32 -> moderate p ->
      prefixed fs ["0"%char; c] prefix ->
      shortest (if beq c "x" then lower_hex else upper_hex) z ds -> number_in_field fs w p prefix ds o -> converts fs w p c v o
  (** without a precision, see C65_octal_refuted; a zero has no other in front *)
  | cv_o : forall fs w v z prefix ds o, has_integer v z -> 0 < z -> prefixed fs (lit "0") prefix ->
      shortest octal z ds -> number_in_field fs w None [] (prefix ++ ds) o -> converts fs w None "o" v o
  | cv_o_zero : forall fs w v o, has_integer v 0 -> number_in_field fs w None [] (lit "0") o -> converts fs w None "o" v o
  (** with a width there is a precision, and then no flag 0: see C65_float_width_refuted
      and C65_float_zero_refuted *)
  | cv_f : forall fs w p c v d f, In c (lit "eEfFgG") -> has_number v d -> effective fs f ->
      (p = None -> w = 0) -> (zero f = true -> p = None \/ p = Some 0) -> converts fs w p c v (F f w p c d)
  | cv_v : forall fs w p v o, json N v o -> converts fs w p "v" v o.

  (** ** Formats *)

  Definition is_flags (fs : bytes) : Prop := Forall (fun c => In c (lit "#0- +")) fs.
  Definition decimal_number (t : bytes) (n : Z) : Prop := ClenSpec.numeral (ClenSpec.digit_of decimal) 10 t n.

  (** The width: not given, a number, or the next argument, not negative (see
      C65_left_refuted) *)
  Inductive takes_width : bytes -> list jv -> Z -> list jv -> Prop :=
  | tw_none : forall args, takes_width [] args 0 args
  | tw_number : forall t w args, decimal_number t w -> hd_error t <> Some "0"%char -> w < 2 ^ 32 - 1 -> takes_width t args w args
  | tw_star : forall v w args, has_integer v w -> 0 <= w < 2 ^ 32 - 1 -> takes_width (lit "*") (v :: args) w args.
  (** The precision: not given or a number *)
  Inductive gives_precision : bytes -> option Z -> Prop :=
  | gp_none : gives_precision [] None
  | gp_number : forall t p, decimal_number t p -> p < 2 ^ 31 -> gives_precision ("."%char :: t) (Some p).

  (** [formats f args o]: what is output; each conversion takes the next argument *)
  Inductive formats : bytes -> list jv -> bytes -> Prop :=
  | fo_end : forall args, formats [] args []
  | fo_char : forall c f args o, c <> "%"%char -> formats f args o -> formats (c :: f) args (c :: o)
  | fo_percent : forall f args o, formats f args o -> formats (lit "%%" ++ f) args (lit "%" ++ o)
  | fo_conversion : forall fs wt pt c f args w v args' p o o', is_flags fs ->
      takes_width wt args w (v :: args') -> gives_precision pt p -> converts fs w p c v o -> formats f args' o' ->
      formats ("%"%char :: fs ++ wt ++ pt ++ c :: f) args (o ++ o').

  (** [errs f args x]: what is wrong: an argument is missing, or is not a number *)
  Definition takes_integer (c : byte) : Prop := In c (lit "diuxXo").
  Definition takes_number (c : byte) : Prop := In c (lit "diuxXoeEfFgG").
  Inductive errs : bytes -> list jv -> complaint -> Prop :=
  | er_char : forall c f args x, c <> "%"%char -> errs f args x -> errs (c :: f) args x
  | er_percent : forall f args x, errs f args x -> errs (lit "%%" ++ f) args x
  | er_later : forall fs wt pt c f args w v args' p o x, is_flags fs ->
      takes_width wt args w (v :: args') -> gives_precision pt p -> converts fs w p c v o -> errs f args' x ->
      errs ("%"%char :: fs ++ wt ++ pt ++ c :: f) args x
  | er_width_missing : forall fs c f, is_flags fs -> ~ In c decimal -> errs ("%"%char :: fs ++ "*"%char :: c :: f) [] Requested
  | er_width : forall fs c f v args, is_flags fs -> ~ In c decimal -> no_number N v ->
      errs ("%"%char :: fs ++ "*"%char :: c :: f) (v :: args) Mismatch
  | er_missing : forall fs wt pt c f args w p, is_flags fs -> takes_width wt args w [] -> gives_precision pt p ->
      c = "s"%char \/ c = "v"%char \/ takes_number c -> errs ("%"%char :: fs ++ wt ++ pt ++ c :: f) args Requested
  | er_type : forall fs wt pt c f args w v args' p, is_flags fs -> takes_width wt args w (v :: args') -> gives_precision pt p ->
      takes_number c -> no_number N v -> errs ("%"%char :: fs ++ wt ++ pt ++ c :: f) args Mismatch.
End Meaning.
