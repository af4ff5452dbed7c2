(** Common vocabulary: bytes, C strings, character classes.

    A byte is an [ascii] (exactly 256 values).  A C string is a [list ascii]
    in which the terminating NUL is not represented; [cstring] states that it
    contains no NUL.  Nothing in this file models a particular function of
    pound except where a comment says so. *)
From Coq Require Import Ascii String List ZArith NArith Lia Bool.
From Coq Require Import ZifyBool ZifyNat ZifyN.
Import ListNotations.

Notation byte := ascii (only parsing).
Notation bytes := (list ascii) (only parsing).

(** String literals for examples. *)
Definition lit (s : string) : bytes := list_ascii_of_string s.

Definition NUL : byte := "000"%char.
Definition TAB : byte := "009"%char.
Definition LF : byte := "010"%char.
Definition CR : byte := "013"%char.
Definition SP : byte := " "%char.
Definition CRLF : bytes := [CR; LF].

(** Unsigned code of a byte. *)
Definition code (c : byte) : Z := Z.of_N (N_of_ascii c).

(** Value of the byte read through a (signed) [char], as on the usual
    ABI: 128..255 become negative. *)
Definition scode (c : byte) : Z := if Z.ltb (code c) 128 then code c else (code c - 256)%Z.

Definition beq (a b : byte) : bool := Ascii.eqb a b.

Fixpoint bytes_eqb (a b : bytes) : bool :=
  match a, b with
  | [], [] => true
  | x :: a', y :: b' => beq x y && bytes_eqb a' b'
  | _, _ => false
  end.

Definition is_digit (c : byte) : bool := Z.leb 48 (code c) && Z.leb (code c) 57.
Definition is_upper (c : byte) : bool := Z.leb 65 (code c) && Z.leb (code c) 90.
Definition is_lower (c : byte) : bool := Z.leb 97 (code c) && Z.leb (code c) 122.
Definition is_alpha (c : byte) : bool := is_upper c || is_lower c.
Definition is_alnum (c : byte) : bool := is_alpha c || is_digit c.
Definition is_xdigit (c : byte) : bool :=
  is_digit c || (Z.leb 65 (code c) && Z.leb (code c) 70)
             || (Z.leb 97 (code c) && Z.leb (code c) 102).

(** C locale [isspace]: space, \t \n \v \f \r. *)
Definition is_space (c : byte) : bool :=
  Z.eqb (code c) 32 || (Z.leb 9 (code c) && Z.leb (code c) 13).

(** C locale [iscntrl]: 0..31 and 127. *)
Definition is_cntrl (c : byte) : bool := Z.ltb (code c) 32 || Z.eqb (code c) 127.

(** C locale [tolower]. *)
Definition to_lower (c : byte) : byte :=
  if is_upper c then ascii_of_N (N_of_ascii c + 32) else c.

Definition lower (s : bytes) : bytes := map to_lower s.

(** Equality ignoring case, as strcasecmp/strncasecmp decide it. *)
Definition ci_eqb (a b : bytes) : bool := bytes_eqb (lower a) (lower b).

Definition cstring (s : bytes) : Prop := ~ In NUL s.

(** ** Basic facts *)

Lemma beq_eq : forall a b, beq a b = true <-> a = b.
Proof. intros a b. apply Ascii.eqb_eq. Qed.

Lemma beq_refl : forall a, beq a a = true.
Proof. intros a. apply Ascii.eqb_refl. Qed.

Lemma beq_neq : forall a b, beq a b = false <-> a <> b.
Proof. intros a b. apply Ascii.eqb_neq. Qed.

Lemma bytes_eqb_eq : forall a b, bytes_eqb a b = true <-> a = b.
Proof.
  induction a as [|x a IH]; destruct b as [|y b]; simpl; split; intro H;
    try discriminate; try reflexivity.
  - apply andb_true_iff in H. destruct H as [H1 H2].
    apply beq_eq in H1. apply IH in H2. congruence.
  - injection H as -> ->. rewrite beq_refl. simpl. apply IH. reflexivity.
Qed.

Lemma bytes_eqb_refl : forall a, bytes_eqb a a = true.
Proof. intros a. apply bytes_eqb_eq. reflexivity. Qed.

Lemma bytes_eqb_neq : forall a b, bytes_eqb a b = false <-> a <> b.
Proof.
  intros a b. rewrite <- bytes_eqb_eq.
  destruct (bytes_eqb a b); split; intro H; try discriminate; try reflexivity.
  exfalso. apply H. reflexivity.
Qed.

Lemma bytes_eq_dec : forall a b : bytes, {a = b} + {a <> b}.
Proof. apply list_eq_dec. apply ascii_dec. Qed.

Lemma code_range : forall c, (0 <= code c < 256)%Z.
Proof.
  intros c. unfold code. pose proof (N_ascii_bounded c). lia.
Qed.

Lemma code_inj : forall a b, code a = code b -> a = b.
Proof.
  intros a b H. unfold code in H. apply N2Z.inj in H.
  rewrite <- (ascii_N_embedding a), <- (ascii_N_embedding b). congruence.
Qed.

Lemma ci_eqb_refl : forall a, ci_eqb a a = true.
Proof. intros a. apply bytes_eqb_refl. Qed.

Lemma ci_eqb_sym : forall a b, ci_eqb a b = ci_eqb b a.
Proof.
  intros a b. unfold ci_eqb.
  destruct (bytes_eqb (lower a) (lower b)) eqn:E; symmetry.
  - apply bytes_eqb_eq in E. apply bytes_eqb_eq. congruence.
  - apply bytes_eqb_neq in E. apply bytes_eqb_neq. congruence.
Qed.

Lemma ci_eqb_eq : forall a b, ci_eqb a b = true <-> lower a = lower b.
Proof. intros a b. apply bytes_eqb_eq. Qed.

Lemma ci_eqb_length : forall a b, ci_eqb a b = true -> length a = length b.
Proof.
  intros a b H. apply ci_eqb_eq in H.
  rewrite <- (map_length to_lower a), <- (map_length to_lower b).
  unfold lower in H. congruence.
Qed.

Lemma lower_app : forall a b, lower (a ++ b) = lower a ++ lower b.
Proof. intros a b. apply map_app. Qed.

Lemma to_lower_idem : forall c, to_lower (to_lower c) = to_lower c.
Proof. intros [[] [] [] [] [] [] [] []]; reflexivity. Qed.

Lemma lower_idem : forall s, lower (lower s) = lower s.
Proof.
  induction s as [|c s IH]; simpl; [reflexivity|].
  rewrite to_lower_idem, IH. reflexivity.
Qed.

Lemma cstring_nil : cstring [].
Proof. intros []. Qed.

Lemma cstring_cons : forall c s, cstring (c :: s) <-> c <> NUL /\ cstring s.
Proof.
  intros c s. unfold cstring. simpl. split.
  - intros H. split; intro; apply H; auto.
  - intros [H1 H2] [H|H]; auto.
Qed.

Lemma cstring_app : forall a b, cstring (a ++ b) <-> cstring a /\ cstring b.
Proof.
  intros a b. unfold cstring. rewrite in_app_iff. tauto.
Qed.

Definition cstringb (s : bytes) : bool := forallb (fun c => negb (beq c NUL)) s.

Lemma cstringb_ok : forall s, cstringb s = true <-> cstring s.
Proof.
  intros s. unfold cstringb, cstring. rewrite forallb_forall. split.
  - intros H Hin. specialize (H _ Hin). rewrite beq_refl in H. discriminate.
  - intros H c Hin. apply negb_true_iff. apply beq_neq. intro E. subst. auto.
Qed.

(** Longest prefix satisfying a predicate, and the rest. *)
Fixpoint span (p : byte -> bool) (s : bytes) : bytes * bytes :=
  match s with
  | [] => ([], [])
  | c :: s' => if p c then let (a, b) := span p s' in (c :: a, b) else ([], s)
  end.

Lemma span_app : forall p s, fst (span p s) ++ snd (span p s) = s.
Proof.
  intros p s. induction s as [|c s IH]; simpl; [reflexivity|].
  destruct (p c); [|reflexivity].
  destruct (span p s) as [a b]; simpl in *. congruence.
Qed.

Lemma span_fst_all : forall p s, forallb p (fst (span p s)) = true.
Proof.
  intros p s. induction s as [|c s IH]; simpl; [reflexivity|].
  destruct (p c) eqn:E; [|reflexivity].
  destruct (span p s) as [a b]; simpl in *. rewrite E. exact IH.
Qed.

Lemma span_snd_head : forall p s c r, snd (span p s) = c :: r -> p c = false.
Proof.
  intros p s. induction s as [|x s IH]; simpl; intros c r H; [discriminate|].
  destruct (p x) eqn:E.
  - destruct (span p s) as [a b]; simpl in *. eapply IH. exact H.
  - simpl in H. congruence.
Qed.

Lemma span_unique : forall p a b,
  forallb p a = true ->
  (match b with [] => True | c :: _ => p c = false end) ->
  span p (a ++ b) = (a, b).
Proof.
  intros p a b. induction a as [|x a IH]; simpl; intros Ha Hb.
  - destruct b as [|c b]; simpl; [reflexivity|]. rewrite Hb. reflexivity.
  - apply andb_true_iff in Ha. destruct Ha as [Hx Ha]. rewrite Hx.
    rewrite (IH Ha Hb). reflexivity.
Qed.
