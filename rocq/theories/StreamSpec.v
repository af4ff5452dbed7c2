(** Specification of lines and chunked bodies on plain byte strings. *)
From Coq Require Import Ascii List ZArith.
From Verif Require Import Bytes ClenSpec.
Import ListNotations.
Open Scope Z_scope.

(** A text byte: anything but the control characters, TAB allowed. *)
Definition text_byte (c : byte) : Prop :=
  c = "009"%char \/ (32 <= code c /\ code c <> 127).

Definition text (l : bytes) : Prop := Forall text_byte l.

(** Line terminators. *)
Definition eol (e : bytes) : Prop := e = ["010"%char] \/ e = ["013"%char; "010"%char].

(** What is left of the input behind its first LF (nothing if there is none). *)
Fixpoint after_first_LF (s : bytes) : bytes :=
  match s with
  | [] => []
  | c :: s' => if Ascii.eqb c "010"%char then s' else after_first_LF s'
  end.

(** [line_ok size s l rest]: reading a line from [s] into a buffer of [size]
    bytes must deliver [l] and leave [rest].  Either a terminated line, whose
    content and terminator together are shorter than the buffer, or an
    unterminated last line (possibly with a lone CR) at end of file. *)
Inductive line_ok (size : Z) : bytes -> bytes -> bytes -> Prop :=
| line_terminated : forall l e rest,
    text l -> eol e -> Z.of_nat (length l + length e) < size ->
    line_ok size (l ++ e ++ rest) l rest
| line_at_eof : forall l,
    text l -> l <> [] -> Z.of_nat (length l) + 1 < size -> line_ok size l l []
| line_at_eof_cr : forall l,
    text l -> Z.of_nat (length l) + 2 < size -> line_ok size (l ++ ["013"%char]) l [].

(** The line does not fit: [size - 1] bytes read, all text but for a final CR. *)
Definition line_too_long (size : Z) (s : bytes) : Prop :=
  exists pre rest, s = pre ++ rest /\ Z.of_nat (length pre) = size - 1 /\
    (text pre \/ exists l, pre = l ++ ["013"%char] /\ text l).

(** The line is malformed: within the buffer, text followed by a control
    character, or by a CR that is not followed by LF. *)
Inductive line_bad (size : Z) : bytes -> Prop :=
| bad_control : forall l c rest,
    text l -> ~ text_byte c -> c <> "013"%char -> c <> "010"%char ->
    Z.of_nat (length l) + 1 < size -> line_bad size (l ++ c :: rest)
| bad_cr : forall l c rest,
    text l -> c <> "010"%char ->
    Z.of_nat (length l) + 2 < size -> line_bad size (l ++ "013"%char :: c :: rest).

(** Trailer section: lines up to and including an empty one.
    [trailer input output rest]: [output] is the input with terminators
    normalised to CR LF.  The empty line may be a lone CR at end of file.
    [lim] bounds the length of a line with its terminator. *)
Inductive trailer (lim : Z) : bytes -> bytes -> bytes -> Prop :=
| tr_end : forall e rest, eol e -> trailer lim (e ++ rest) CRLF rest
| tr_end_eof : trailer lim ["013"%char] CRLF []
| tr_line : forall l e t o rest,
    text l -> l <> [] -> eol e -> Z.of_nat (length l + length e) < lim ->
    trailer lim t o rest ->
    trailer lim (l ++ e ++ t) (l ++ CRLF ++ o) rest.

(** [chunked lim junk input output payload sizes rest]: [input] starts with a
    chunked body carrying [payload] in chunks of the given [sizes]; [output] is
    the same body with terminators normalised; [rest] follows it.  [junk l] says
    which text may stand between the data of a chunk and the end of its line:
    the standard allows only [l = []]. *)
Inductive chunked (lim : Z) (junk : bytes -> Prop) : bytes -> bytes -> bytes -> list Z -> bytes -> Prop :=
| ck_last : forall l e t o rest,
    text l -> chunk_size_line l 0 -> eol e -> Z.of_nat (length l + length e) < lim ->
    trailer lim t o rest ->
    chunked lim junk (l ++ e ++ t) (l ++ CRLF ++ o) [] [] rest
| ck_chunk : forall l e n data j e' s o pay sizes rest,
    text l -> chunk_size_line l n -> 0 < n -> eol e ->
    Z.of_nat (length l + length e) < lim ->
    Z.of_nat (length data) = n ->
    text j -> junk j -> eol e' -> Z.of_nat (length j + length e') < lim ->
    chunked lim junk s o pay sizes rest ->
    chunked lim junk (l ++ e ++ data ++ j ++ e' ++ s)
                 (l ++ CRLF ++ data ++ j ++ CRLF ++ o)
                 (data ++ pay) (n :: sizes) rest.

Definition strict (j : bytes) : Prop := j = [].
Definition lenient (j : bytes) : Prop := True.

Definition sum (l : list Z) : Z := fold_right Z.add 0 l.
