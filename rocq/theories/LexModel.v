(** Model of the scanner of the configuration file, src/cfgparser.c 487-806, 855-933.
    Characters are classified as in the C locale.  A file is the list of its bytes; errors
    of reading and the messages printed are not modelled.  The string buffer is a list of
    bytes (see C39). *)
From Coq Require Import Ascii String List ZArith Bool.
From Verif Require Import Bytes.
Import ListNotations.
Open Scope Z_scope.

Definition DQ : byte := "034"%char.
Definition BSL : byte := "092"%char.
Definition HASH : byte := "#"%char.

(** cfgparser.h 66-76, with '\n' and EOF *)
Inductive ttype := T_EOF | T_NL | T_IDENT | T_NUMBER | T_STRING | T_LITERAL | T_ERROR.

(** cfgparser.c 501-502: the current location; the file name is left out *)
Record locus := mkLoc { line : Z; col : Z; prev_col : Z }.
(** cfgparser.h 95-100.  The text is there for the four types that have one; for others
    the C member str may hold an old pointer, which nobody looks at. *)
Record token := mkTok { type : ttype; str : bytes; beg_line : Z; beg_col : Z; end_line : Z; end_col : Z }.

(** cfgparser.c 549-564 *)
Definition got (c : byte) (l : locus) : locus :=
  if beq c LF then mkLoc (line l + 1) 0 (col l)
  else if beq c TAB then mkLoc (line l) (col l + 8) (prev_col l)
  else mkLoc (line l) (col l + 1) (prev_col l).
(** cfgparser.c 566-580 *)
Definition ungot (c : byte) (l : locus) : locus :=
  if beq c LF then mkLoc (line l - 1) (prev_col l) (prev_col l)
  else mkLoc (line l) (col l - 1) (prev_col l).

(** cfgparser.c 582-583 *)
Definition is_ident_start (c : byte) : bool := is_alpha c || beq c "_"%char.
Definition is_ident_cont (c : byte) : bool := is_ident_start c || is_digit c.

(** The buffer as a C string *)
Definition cstr (b : bytes) : bytes := fst (span (fun c => negb (beq c NUL)) b).

(** cfgparser.c 617-623: to the end of the line; false at the end of the file *)
Fixpoint skip_comment (s : bytes) (l : locus) : bool * bytes * locus :=
  match s with
  | [] => (false, [], l)
  | c :: s => if beq c LF then (true, s, got c l) else skip_comment s (got c l)
  end.

(** cfgparser.c 641-667: None for an unterminated string *)
Fixpoint read_string (s : bytes) (l : locus) (buf : bytes) : option bytes * bytes * locus :=
  match s with
  | [] => (None, [], l)
  | c :: s =>
      let l := got c l in
      if beq c DQ then (Some buf, s, l)
      else if beq c BSL
      then
        match s with
        | [] => (None, [], l)
        | d :: s => let l := got d l in if beq d LF then (None, s, l) else read_string s l (buf ++ [d])
        end
      else if beq c LF then (None, s, l)
      else read_string s l (buf ++ [c])
  end.

(** cfgparser.c 675-679: from the first character, c; the character after the identifier *)
Fixpoint read_ident (s : bytes) (l : locus) (buf : bytes) : bytes * option byte * bytes * locus :=
  match s with
  | [] => (buf, None, [], l)
  | c :: s => if is_ident_cont c then read_ident s (got c l) (buf ++ [c]) else (buf, Some c, s, got c l)
  end.

(** cfgparser.c 695-703: after the character c *)
Fixpoint read_word (s : bytes) (l : locus) (buf : bytes) (num : bool) : bytes * bool * bytes * locus :=
  match s with
  | [] => (buf, num, [], l)
  | c :: s' => if is_space c then (buf, num, s, ungot c (got c l)) else read_word s' (got c l) (buf ++ [c]) (num && is_digit c)
  end.

(** cfgparser.c 605-710.  [b]: token.locus.beg of the previous token *)
Fixpoint scan (s : bytes) (l : locus) (b : Z * Z) : token * bytes * locus :=
  let finish (t : ttype) (str : bytes) (b : Z * Z) (s : bytes) (l : locus) := (mkTok t (cstr str) (fst b) (snd b) (line l) (col l), s, l) in
  let newline (s : bytes) (l : locus) := finish T_NL [] (line l - 1, prev_col l) s l in
  match s with
  | [] => finish T_EOF [] b [] l
  | c :: s =>
      let l := got c l in
      if beq c HASH
      then match skip_comment s l with (true, s, l) => newline s l | (false, s, l) => finish T_EOF [] b s l end
      else if beq c LF then newline s l
      else if is_space c then scan s l b
      else
        let b := (line l, col l) in
        if beq c DQ
        then match read_string s l [] with (Some v, s, l) => finish T_STRING v b s l | (None, s, l) => finish T_ERROR [] b s l end
        else
          let word (c : byte) (s : bytes) (l : locus) (buf : bytes) :=
            let '(buf, num, s, l) := read_word s l (buf ++ [c]) (is_digit c) in
            finish (if num then T_NUMBER else T_LITERAL) buf b s l in
          if is_ident_start c
          then
            match read_ident s l [c] with
            | (buf, None, s, l) => finish T_IDENT buf b s l
            | (buf, Some d, s, l) =>
                if is_space d then finish T_IDENT buf b (d :: s) (ungot d l) else word d s l buf
            end
          else word c s l []
  end.

(** ** Putting back *)

(** cfgparser.c 490-509 *)
Definition MAX_PUTBACK : nat := 3.
Record input := mkIn { rest : bytes; loc : locus; tok : token; putback : list token }.
(** cfgparser.c 525-547 *)
Definition input_open (text : bytes) : input := mkIn text (mkLoc 1 0 0) (mkTok T_EOF [] 0 0 0 0) [].

(** cfgparser.c 585-711 *)
Definition input_gettkn (i : input) : token * input :=
  match putback i with
  | t :: p => (t, mkIn (rest i) (loc i) t p)
  | [] => let '(t, s, l) := scan (rest i) (loc i) (beg_line (tok i), beg_col (tok i)) in (t, mkIn s l t [])
  end.
(** cfgparser.c 713-723; None: the assertion fails *)
Definition input_putback (i : input) (t : token) : option input :=
  if Nat.ltb (length (putback i)) MAX_PUTBACK then Some (mkIn (rest i) (loc i) (tok i) (t :: putback i)) else None.

(** ** Included files *)

(** The stack of inputs, cur_input first, each with its device and inode number *)
Definition stack := list (Z * input).
(** cfgparser.c 742-790; None: refused *)
Definition push_input (id : Z) (text : bytes) (st : stack) : option stack :=
  if existsb (fun e => Z.eqb (fst e) id) st then None else Some ((id, input_open text) :: st).
(** cfgparser.c 798-806 *)
Fixpoint gettkn (st : stack) : option token * stack :=
  match st with
  | [] => (None, [])
  | (id, i) :: r => let (t, i) := input_gettkn i in match type t with T_EOF => gettkn r | _ => (Some t, (id, i) :: r) end
  end.

(** ** Text up to End *)

(** cfgparser.c 900-907: where the last line of the buffer begins; [k] is line - start *)
Fixpoint line_start (buf : bytes) (k : nat) : nat :=
  match k with
  | O => O
  | S k' => if beq (nth k buf NUL) LF then S k else line_start buf k'
  end.
(** cfgparser.c 909-922 *)
Definition trim (s : bytes) : bytes := rev (snd (span is_space (rev (snd (span is_space s))))).
Definition is_end (s : bytes) : bool := ci_eqb (trim s) (lit "end").

(** R_UNDER: the byte before the buffer is read. *)
Inductive text_result := R_TEXT (t rest : bytes) | R_EOF | R_UNDER.
(** cfgparser.c 883-932; nothing has been put back *)
Fixpoint cfg_read_to_end (s buf : bytes) : text_result :=
  match s with
  | [] => R_EOF
  | c :: s =>
      if beq c LF
      then
        match buf with
        | [] => R_UNDER
        | _ =>
            let start := line_start buf (length buf - 1) in
            if is_end (skipn start buf) then R_TEXT (firstn start buf) s else cfg_read_to_end s (buf ++ [c])
        end
      else cfg_read_to_end s (buf ++ [c])
  end.
