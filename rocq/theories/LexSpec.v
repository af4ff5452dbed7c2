(** The lexical structure of the configuration file, independently of the scanner,
    and what a user of the scanner sees of it. *)
From Coq Require Import Ascii String List ZArith.
From Verif Require Import Bytes LexModel.
Import ListNotations.
Open Scope Z_scope.

(** Tokens *)
Inductive lexeme := Newline | Ident (w : bytes) | Number (w : bytes) | Quoted (v : bytes) | Literal (w : bytes) | Malformed.

(** Character classes, by their codes *)
Definition blank (c : byte) : Prop := In (code c) [9; 11; 12; 13; 32].       (* not a newline *)
Definition spacing (c : byte) : Prop := blank c \/ c = "010"%char.
Definition letter (c : byte) : Prop := 65 <= code c <= 90 \/ 97 <= code c <= 122 \/ code c = 95.
Definition digit (c : byte) : Prop := 48 <= code c <= 57.
Definition quote : byte := "034"%char.
Definition backslash : byte := "092"%char.
Definition newline : byte := "010"%char.

(** The text of a quoted string, between the quotes, and the characters it denotes *)
Inductive denotes : bytes -> bytes -> Prop :=
| den_nil : denotes [] []
| den_char : forall c s v, c <> quote -> c <> backslash -> c <> newline -> denotes s v -> denotes (c :: s) (c :: v)
| den_escape : forall c s v, c <> newline -> denotes s v -> denotes (backslash :: c :: s) (c :: v).

(** A word and its kind *)
Definition word (w : bytes) : Prop :=
  Forall (fun c => ~ spacing c) w /\ exists c r, w = c :: r /\ c <> quote /\ c <> "#"%char.
Inductive kind : bytes -> lexeme -> Prop :=
| kind_ident : forall c r, letter c -> Forall (fun c => letter c \/ digit c) r -> kind (c :: r) (Ident (c :: r))
| kind_number : forall w, w <> [] -> Forall digit w -> kind w (Number w)
| kind_literal : forall w, ~ Forall digit w -> ~ (exists c r, w = c :: r /\ letter c /\ Forall (fun c => letter c \/ digit c) r) ->
    kind w (Literal w).

(** [lexes n s ts]: from line [n] on, the text [s] consists of the tokens [ts], each
    with the number of its line. *)
Inductive lexes : Z -> bytes -> list (lexeme * Z) -> Prop :=
| lex_end : forall n, lexes n [] []
| lex_blank : forall n c s ts, blank c -> lexes n s ts -> lexes n (c :: s) ts
| lex_newline : forall n s ts, lexes (n + 1) s ts -> lexes n (newline :: s) ((Newline, n) :: ts)
| lex_comment : forall n b s ts, ~ In newline b -> lexes (n + 1) s ts -> lexes n ("#"%char :: b ++ newline :: s) ((Newline, n) :: ts)
| lex_comment_end : forall n b, ~ In newline b -> lexes n ("#"%char :: b) []
| lex_quoted : forall n b v s ts, denotes b v -> lexes n s ts -> lexes n (quote :: b ++ quote :: s) ((Quoted v, n) :: ts)
| lex_malformed : forall n s, ~ (exists b v r, s = b ++ quote :: r /\ denotes b v) -> lexes n (quote :: s) [(Malformed, n)]
| lex_word : forall n w s t ts, word w -> kind w t -> (s = [] \/ exists c r, s = c :: r /\ spacing c) -> lexes n s ts -> lexes n (w ++ s) ((t, n) :: ts).

(** How a value is written in quotes *)
Fixpoint escape (v : bytes) : bytes :=
  match v with
  | [] => []
  | c :: v => if Ascii.eqb c quote then backslash :: c :: escape v else if Ascii.eqb c backslash then backslash :: c :: escape v else c :: escape v
  end.

(** Lines *)
Definition unlines (ls : list bytes) : bytes := concat (map (fun l => l ++ [newline]) ls).
(** A line consisting of "End" in any case, with spacing around it *)
Definition end_line (l : bytes) : Prop :=
  exists a w b, l = a ++ w ++ b /\ Forall blank a /\ Forall blank b /\ lower w = lit "end".

(** ** What a user of the scanner sees *)

(** The kind and text of a token, and its line *)
Definition lex_of (t : token) : lexeme :=
  match type t with
  | T_NL => Newline | T_IDENT => Ident (str t) | T_NUMBER => Number (str t) | T_STRING => Quoted (str t) | T_LITERAL => Literal (str t)
  | T_ERROR | T_EOF => Malformed
  end.
Definition view (t : token) : lexeme * Z := (lex_of t, beg_line t).

(** What reading one token after the other gives, to the end of the file or an error *)
Inductive reads : input -> list token -> Prop :=
| reads_eof : forall i t i', input_gettkn i = (t, i') -> type t = T_EOF -> reads i []
| reads_error : forall i t i', input_gettkn i = (t, i') -> type t = T_ERROR -> reads i [t]
| reads_next : forall i t i' ts, input_gettkn i = (t, i') -> type t <> T_EOF -> type t <> T_ERROR -> reads i' ts -> reads i (t :: ts).

(** Putting back the tokens [ts], the last one first; reading [n] tokens *)
Fixpoint put_all (i : input) (ts : list token) : option input :=
  match ts with [] => Some i | t :: ts => match put_all i ts with Some i => input_putback i t | None => None end end.
Fixpoint get_n (n : nat) (i : input) : list token * input :=
  match n with O => ([], i) | S n => let (t, i) := input_gettkn i in let (ts, i) := get_n n i in (t :: ts, i) end.

(** Opening files and reading tokens, in any order; a refused file changes nothing *)
Inductive stack_op := Push (id : Z) (text : bytes) | Get.
Definition stack_step (st : stack) (o : stack_op) : stack :=
  match o with
  | Push id text => match push_input id text st with Some st' => st' | None => st end
  | Get => snd (gettkn st)
  end.
(** Reading all tokens of all files open *)
Inductive stack_reads : stack -> list token -> Prop :=
| sr_eof : forall st st', gettkn st = (None, st') -> stack_reads st []
| sr_error : forall st t st', gettkn st = (Some t, st') -> type t = T_ERROR -> stack_reads st [t]
| sr_next : forall st t st' ts, gettkn st = (Some t, st') -> type t <> T_ERROR -> stack_reads st' ts -> stack_reads st (t :: ts).
