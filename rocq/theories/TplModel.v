(** Model of src/tmpl.c, first part: how poundctl reads the text of a template.
    Definitions only.  Memory allocation does not fail; characters are those of
    the C locale. *)
From Coq Require Import Ascii String List ZArith Bool.
From Verif Require Import Bytes.
Import ListNotations.
Local Open Scope nat_scope.
Local Open Scope string_scope.
Local Open Scope list_scope.

(** ** What is read *)

(** Constants (src/tmpl.c 2000-2023) *)
Inductive literal := LInt (n : Z) | LStr (s : bytes) | LBool (b : bool).

(** struct tmpl_command (src/tmpl.c 119-170).  A function is its name. *)
Inductive cmd :=
| CArg (v : literal)
| CCall (f : bytes) (args : list (list cmd))
| CDot
| CAttr (name : bytes)
| CVar (name : bytes)
| CPipe (p : list cmd)
| CWith (dot body : list cmd).

(** struct tmpl_action (src/tmpl.c 2110-2175).  [no] and [yes] are branches[0] and
    branches[1].  A block refers to its template by name: templates are never
    removed, and there is one of a name.  ANull: a TMPL_ACT_TEXT whose text is a
    NULL pointer. *)
Inductive act :=
| AText (s : bytes)
| ANull
| APipe (p : list cmd)
| ACond (p : list cmd) (no yes : list act)
| AWith (var : option bytes) (p : list cmd) (no yes : list act)
| ARange (key val : option bytes) (p : list cmd) (no yes : list act)
| ABreak
| AContinue
| ABlock (name : bytes) (arg : list cmd).

(** ** Tokens (src/tmpl.c 1539-1553) *)

(** TGone: a TMPL_TOK_TEXT whose text has been taken over.  TChar: a character that
    stands for itself. *)
Inductive token :=
| TEof | TText (s : bytes) | TGone | TStr (s : bytes) | TNum (n : Z) | TDot | TAttr (s : bytes)
| TVar (s : bytes) | TIdent (s : bytes) | TBeg | TEnd | TErr | TChar (c : byte).

(** src/pound.h 1184-1189 *)
Inductive err := ERR_EOF | ERR_RANGE | ERR_BADTOK | ERR_NOTMPL.

(** What goes wrong other than by an error: an assertion, a long that overflows,
    memory freed twice.  Loop: the program goes on for ever.  Fuel: the
    recursion of the model is cut off. *)
Inductive wrong := Assertion | Overflow | Double_free.
Inductive out (A : Type) := Ret (a : A) | Wrong (w : wrong) | Loop | Fuel.
Arguments Ret {A}.
Arguments Wrong {A}.
Arguments Loop {A}.
Arguments Fuel {A}.
Definition bind {A B : Type} (o : out A) (k : A -> out B) : out B :=
  match o with Ret a => k a | Wrong w => Wrong w | Loop => Loop | Fuel => Fuel end.
Notation "'do' x <- o ; k" := (bind o (fun x => k)) (at level 200, x pattern, o at level 100, k at level 200).

(** struct tmpl_input (src/tmpl.c 1582-1590): the text before the offset,
    reversed, and from the offset; the current token, if it was put back, and the
    error.  To it is joined the list of templates (3057), and if a variable that
    belongs to the tree was freed (2648, 2755, 2769, 2777-2778).  [start] is not
    kept between calls: it matters only within one. *)
Record input := mkIn {
  pre : bytes; post : bytes; tok : token; ready : bool; error : option err;
  tmpls : list (bytes * list act); dangling : bool
}.
Definition set_tok (t : token) (i : input) : input :=
  mkIn (pre i) (post i) t (ready i) (error i) (tmpls i) (dangling i).
Definition set_ready (b : bool) (i : input) : input :=
  mkIn (pre i) (post i) (tok i) b (error i) (tmpls i) (dangling i).
Definition move (a b : bytes) (i : input) : input :=
  mkIn a b (tok i) (ready i) (error i) (tmpls i) (dangling i).
Definition set_error (e : err) (i : input) : input :=
  mkIn (pre i) (post i) (tok i) (ready i) (Some e) (tmpls i) (dangling i).
Definition set_tmpls (l : list (bytes * list act)) (i : input) : input :=
  mkIn (pre i) (post i) (tok i) (ready i) (error i) l (dangling i).
Definition set_dangling (b : bool) (i : input) : input :=
  mkIn (pre i) (post i) (tok i) (ready i) (error i) (tmpls i) b.

(** if (!in->error) in->error = TMPL_ERR_BADTOK *)
Definition bad_token (i : input) : input :=
  match error i with None => set_error ERR_BADTOK i | Some _ => i end.

(** *** White space and comments *)

Inductive skipped := SkAt (a b : bytes) | SkEof (a : bytes) | SkErr (a : bytes) | SkLoop.

(** src/tmpl.c 1775-1786 and 1856-1869, [incomment] between the marks of a comment.
    Where the text ends after an asterisk, tmpl_getchar does not advance but
    tmpl_input_less steps back: the asterisk is read again and again. *)
Fixpoint skip (incomment : bool) (a b : bytes) : skipped :=
  match b with
  | [] => if incomment then SkErr a else SkEof a
  | c :: r =>
      if incomment then
        if beq c "*"%char then
          match r with
          | [] => SkLoop
          | d :: r' => if beq d "/"%char then skip false (d :: c :: a) r' else skip true (c :: a) r
          end
        else skip true (c :: a) r
      else if is_space c then skip false (c :: a) r
      else if beq c "/"%char then
        match r with
        | d :: r' => if beq d "*"%char then skip true (d :: c :: a) r' else SkAt a b
        | [] => SkAt a b
        end
      else SkAt a b
  end.

(** *** One token *)

Inductive lexed := Lex (t : token) (e : option err) (a b : bytes) | LexOverflow | LexLoop.

(** A word of characters [p], made a token by [mk] (src/tmpl.c 1790-1796, 1832-1838,
    1850-1855, 1685-1692).  At the end of the text tmpl_input_less steps back over
    the last character of the word; if nothing is left, the token is TMPL_TOK_EOF
    (1670-1671). *)
Definition run (p : byte -> bool) (mk : bytes -> token) (a b : bytes) : lexed :=
  let (w, r) := span p b in
  match r with
  | [] =>
      let w' := removelast w in
      Lex (match w' with [] => TEof | _ => mk w' end) None (rev w' ++ a) (skipn (length w') w)
  | _ => Lex (mk w) None (rev w ++ a) r
  end.

Definition ident_char (c : byte) : bool := is_alnum c || beq c "_"%char.
Definition attr_char (c : byte) : bool := is_alnum c || beq c "_"%char || beq c "-"%char.

Definition LONG_MAX : Z := 9223372036854775807.

(** src/tmpl.c 1800-1816 and 1841-1847: the digits of a number.  At the end of the
    text the last digit is not consumed. *)
Fixpoint digits (sign : Z) (n : Z) (a b : bytes) : lexed :=
  match b with
  | [] => match a with [] => Lex (TNum (sign * n)) None a b | c :: a => Lex (TNum (sign * n)) None a [c] end
  | c :: r =>
      if is_digit c then
        let d := (code c - 48)%Z in
        if (LONG_MAX - n <? d)%Z then Lex TErr (Some ERR_RANGE) (c :: a) r
        else if (LONG_MAX <? n * 10 + d)%Z then LexOverflow
        else digits sign (n * 10 + d)%Z (c :: a) r
      else Lex (TNum (sign * n)) None a b
  end.

(** src/tmpl.c 1707-1747: what stands after a backslash *)
Definition unescape (c : byte) : bytes :=
  if beq c "\"%char then [c]
  else if beq c "a"%char then ["007"%char]
  else if beq c "b"%char then ["008"%char]
  else if beq c "f"%char then ["012"%char]
  else if beq c "n"%char then ["010"%char]
  else if beq c "r"%char then ["013"%char]
  else if beq c "t"%char then ["009"%char]
  else if beq c "v"%char then ["011"%char]
  else ["\"%char; c].

(** src/tmpl.c 1818-1828 and 1697-1750, in one pass: the characters up to the quote
    that ends the string.  A quote after a backslash ends it as well. *)
Fixpoint quoted (a b : bytes) : option (bytes * bytes * bytes) * bytes :=
  match b with
  | [] => (None, a)
  | c :: r =>
      if beq c """"%char then (Some ([], c :: a, r), a)
      else if beq c "\"%char then
        match r with
        | [] => (None, c :: a)
        | d :: r' =>
            if beq d """"%char then (Some ([d], d :: c :: a, r'), a)
            else
              match quoted (d :: c :: a) r' with
              | (Some (s, a', b'), e) => (Some (unescape d ++ s, a', b'), e)
              | (None, e) => (None, e)
              end
        end
      else
        match quoted (c :: a) r with
        | (Some (s, a', b'), e) => (Some (c :: s, a', b'), e)
        | (None, e) => (None, e)
        end
  end.

(** [s] at the beginning of [b] *)
Fixpoint starts (s b : bytes) : bool :=
  match s, b with
  | [], _ => true
  | c :: s, d :: b => beq c d && starts s b
  | _ :: _, [] => false
  end.
Definition head_is (p : byte -> bool) (b : bytes) : bool := match b with c :: _ => p c | [] => false end.

(** The offset after n more characters *)
Definition forth (n : nat) (a b : bytes) : bytes * bytes := (rev (firstn n b) ++ a, skipn n b).
Definition lex_forth (t : token) (n : nat) (a b : bytes) : lexed :=
  let (a', b') := forth n a b in Lex t None a' b'.

(** A token that begins here (src/tmpl.c 1788-1894) *)
Definition token_at (a b : bytes) : lexed :=
  match b with
  | [] => Lex TEof None a b
  | c :: r =>
      if is_alpha c then run ident_char TIdent a b
      else if is_digit c then digits 1 0 a b
      else if beq c """"%char then
        match quoted (c :: a) r with
        | (Some (s, a', b'), _) => Lex (TStr s) None a' b'
        | (None, e) => Lex TErr (Some ERR_EOF) e []
        end
      else if beq c "."%char then
        if head_is is_alpha r then run attr_char TAttr (c :: a) r else lex_forth TDot 1 a b
      else if beq c "-"%char && head_is is_digit r then digits (-1) 0 (c :: a) r
      else if beq c "$"%char && head_is is_alpha r then run ident_char TVar (c :: a) r
      else if starts (lit "{{") b then
        lex_forth TBeg (if head_is (fun d => beq d "-"%char) (skipn 2 b) && head_is is_space (skipn 3 b) then 4 else 2) a b
      else if starts (lit "}}") b then lex_forth TEnd 2 a b
      else if beq c "-"%char && Nat.ltb 1 (length a) && head_is is_space a && starts (lit "}}") r then
        let n := 3 + length (fst (span is_space (skipn 3 b))) in lex_forth TEnd n a b
      else lex_forth (TChar c) 1 a b
  end.

(** tmpl_gettok without a token put back (src/tmpl.c 1774-1894) *)
Definition lex (a b : bytes) : lexed :=
  match skip false a b with
  | SkAt a b => token_at a b
  | SkEof a => Lex TEof None a []
  | SkErr a => Lex TErr (Some ERR_EOF) a []
  | SkLoop => LexLoop
  end.

(** What a token leaves behind *)
Definition took (l : lexed) (i : input) : out input :=
  match l with
  | Lex t e a b =>
      let i := set_tok t (move a b i) in
      Ret (match e with Some e => set_error e i | None => i end)
  | LexOverflow => Wrong Overflow
  | LexLoop => Loop
  end.

(** src/tmpl.c 1764-1895 *)
Definition gettok (i : input) : out input :=
  if ready i then Ret (match tok i with TErr => i | _ => set_ready false i end)
  else took (lex (pre i) (post i)) i.

(** src/tmpl.c 1635-1640 *)
Definition putback (i : input) : out input := if ready i then Wrong Assertion else Ret (set_ready true i).

(** The text up to the first two opening braces (src/tmpl.c 1905-1924) *)
Fixpoint upto (b : bytes) : bytes * bytes :=
  match b with
  | [] => ([], [])
  | c :: r => if starts (lit "{{") b then ([], b) else let (t, r) := upto r in (c :: t, r)
  end.

Definition rtrim (s : bytes) : bytes := rev (snd (span is_space (rev s))).

(** src/tmpl.c 1897-1955 *)
Definition gettext (i : input) : out input :=
  let (t, r) := upto (post i) in
  let trim := starts (lit "{{-") r && head_is is_space (skipn 3 r) in
  match t, r with
  | [], _ :: _ =>
      let (a, b) := forth (if trim then 4 else 2) (pre i) r in
      Ret (set_tok TBeg (move a b i))
  | _, _ =>
      let i := move (rev t ++ pre i) r i in
      match (if trim then rtrim t else t) with
      | [] => gettok i
      | t' => Ret (set_tok (TText t') i)
      end
  end.

(** ** Pipelines *)

(** src/tmpl.c 1502-1521 *)
Definition funtab : list bytes :=
  map lit ["and"; "or"; "index"; "len"; "not"; "eq"; "ne"; "lt"; "le"; "gt"; "ge"; "even"; "printf";
           "typeof"; "exists"; "add"; "sub"; "mul"; "div"].
Definition find_func (name : bytes) : bool := existsb (bytes_eqb name) funtab.

(** src/tmpl.c 2060-2093: while an attribute follows at once, the last command is
    what it is an attribute of *)
Fixpoint attrs (fuel : nat) (c : cmd) (i : input) : out (cmd * input) :=
  match fuel with
  | O => Fuel
  | S fuel =>
      if head_is is_space (post i) then Ret (c, i)
      else
        do i <- gettok i;
        match tok i with
        | TAttr a => attrs fuel (CWith [c] [CAttr a]) i
        | _ => do i <- putback i; Ret (c, i)
        end
  end.

(** src/tmpl.c 1975-2095.  The first component is false if 1 is returned; [head] are
    the commands so far.  (Commands that belong to a call that fails are freed or
    leaked; they are not kept.) *)
Fixpoint scan_arg (fuel : nat) (head : list cmd) (i : input) : out (bool * list cmd * input) :=
  match fuel with
  | O => Fuel
  | S fuel =>
      let chain c i := do r <- attrs fuel c i; Ret (true, head ++ [fst r], snd r) in
      let plain c i := Ret (true, head ++ [c], i) in
      do i <- gettok i;
      match tok i with
      | TDot => plain CDot i
      | TAttr a => chain (CAttr a) i
      | TVar v => chain (CVar v) i
      | TNum n => plain (CArg (LInt n)) i
      | TStr s => plain (CArg (LStr s)) i
      | TIdent w =>
          if bytes_eqb w (lit "true") then plain (CArg (LBool true)) i
          else if bytes_eqb w (lit "false") then plain (CArg (LBool false)) i
          else if find_func w then
            do r <- scan_args fuel i;
            plain (CCall w (fst r)) (snd r)
          (* 2029-2031: TMPL_ERR_NOFUNC is given as the type of a token, and since
             nothing lies between start and off that type becomes TMPL_TOK_EOF *)
          else Ret (false, head, set_tok TEof i)
      | TChar c =>
          if beq c "("%char then
            do r <- scan_pipeline fuel [] i;
            match tok (snd r) with
            | TChar d => if beq d ")"%char then chain (CPipe (fst r)) (snd r) else Ret (false, head, snd r)
            | _ => Ret (false, head, snd r)
            end
          else do i <- putback i; Ret (false, head, i)
      | _ => do i <- putback i; Ret (false, head, i)
      end
  end
(** src/tmpl.c 2033-2046 *)
with scan_args (fuel : nat) (i : input) : out (list (list cmd) * input) :=
  match fuel with
  | O => Fuel
  | S fuel =>
      do r <- scan_arg fuel [] i;
      let '(ok, p, i) := r in
      if (ok : bool) then do s <- scan_args fuel i; Ret (p :: fst s, snd s) else Ret ([], i)
  end
(** src/tmpl.c 2097-2108; what is returned there is the token that is left in the
    input *)
with scan_pipeline (fuel : nat) (head : list cmd) (i : input) : out (list cmd * input) :=
  match fuel with
  | O => Fuel
  | S fuel =>
      do r <- scan_arg fuel head i;
      let '(ok, head, i) := r in
      if (ok : bool) then
        do i <- gettok i;
        match tok i with
        | TChar c => if beq c "|"%char then scan_pipeline fuel head i else Ret (head, i)
        | _ => Ret (head, i)
        end
      else Ret (head, i)
  end.

(** ** Actions *)

(** The local tables of parsers: conddef (src/tmpl.c 2527-2532), withdef and
    rangedef (2589-2594, 2722-2726), enddef and endwith. *)
Inductive table := NoLocal | CondTab | WithTab | EndTab.
Inductive parser :=
| P_if | P_with | P_range | P_block | P_define | P_template
| P_elseif | P_elsewith | P_end | P_break | P_continue.

(** src/tmpl.c 2952-2983, the inherited tables being that of range (2728-2732) or
    none *)
Definition local_table (t : table) : list (bytes * parser) :=
  match t with
  | NoLocal => []
  | CondTab => [(lit "else", P_elseif); (lit "end", P_end)]
  | WithTab => [(lit "else", P_elsewith); (lit "end", P_end)]
  | EndTab => [(lit "end", P_end)]
  end.
Definition top_parser_tab : list (bytes * parser) :=
  [(lit "if", P_if); (lit "with", P_with); (lit "range", P_range); (lit "block", P_block);
   (lit "define", P_define); (lit "template", P_template)].
Definition range_inherit : list (bytes * parser) := [(lit "break", P_break); (lit "continue", P_continue)].
Definition find_action_parser (t : table) (inh : bool) (name : bytes) : option parser :=
  option_map snd (find (fun p => bytes_eqb (fst p) name)
                       (top_parser_tab ++ local_table t ++ (if inh then range_inherit else []))).

(** src/tmpl.c 3059-3069 *)
Definition template_lookup (name : bytes) (l : list (bytes * list act)) : option (list act) :=
  option_map snd (find (fun p => bytes_eqb (fst p) name) l).
(** src/tmpl.c 3071-3089 *)
Fixpoint template_define (name : bytes) (body : list act) (l : list (bytes * list act)) : list (bytes * list act) :=
  match l with
  | [] => [(name, body)]
  | (n, b) :: l => if bytes_eqb n name then (n, body) :: l else (n, b) :: template_define name body l
  end.

Inductive status := St_ok | St_end | St_err.

(** return in->error ? TMPL_ACTION_ERR : TMPL_ACTION_OK *)
Definition by_error (i : input) : status := match error i with Some _ => St_err | None => St_ok end.
Definition is_end (i : input) : bool := match tok i with TEnd => true | _ => false end.
Definition is_char (c : byte) (i : input) : bool := match tok i with TChar d => beq d c | _ => false end.

(** The variable, or the underscore, that a token is *)
Definition var_of (i : input) : option (option bytes) :=
  match tok i with
  | TVar v => Some (Some v)
  | TChar c => if beq c "_"%char then Some None else None
  | _ => None
  end.

(** A variable freed but still in the tree *)
Definition freed (v : option bytes) (i : input) : input :=
  match v with Some _ => set_dangling true i | None => i end.

(** src/tmpl.c 2616-2653; None: -1 is returned.  (The offset is then put back, but
    nothing is read any more.) *)
Definition parse_with_var (i : input) : out (option (option bytes) * input) :=
  do j <- gettok i;
  match var_of j with
  | Some v =>
      do k <- gettok j;
      if is_char "="%char k then Ret (Some v, k) else Ret (None, freed v (move (pre i) (post i) k))
  | None => do j <- putback j; Ret (Some None, j)
  end.

(** src/tmpl.c 2735-2785 *)
Definition parse_range_vars (i : input) : out (option (option bytes * option bytes) * input) :=
  do i <- gettok i;
  match var_of i with
  | Some v0 =>
      do i <- gettok i;
      if is_char ","%char i then
        do i <- gettok i;
        match var_of i with
        | Some v1 =>
            do i <- gettok i;
            if is_char "="%char i then Ret (Some (v0, v1), i)
            else Ret (None, set_error ERR_BADTOK (freed v0 (freed v1 i)))
        | None => Ret (None, set_error ERR_BADTOK (freed v0 i))
        end
      else Ret (None, set_error ERR_BADTOK (freed v0 i))
  | None => do i <- putback i; Ret (Some (None, None), i)
  end.

(** The tree a parser adds, the actions it puts into the else branch of the action
    around, what it returns *)
Definition parsed : Type := (list act * list act * status * input)%type.

(** src/tmpl.c 2985-3045: the actions read, and those of the else branch.  [scan]
    runs on until the end of what it is in: the status says nothing more than the
    error and is not kept. *)
Fixpoint scan_action (fuel : nat) (t : table) (inh : bool) (i : input) : out (list act * list act * input) :=
  match fuel with
  | O => Fuel
  | S fuel =>
      do i <- gettext i;
      match tok i with
      | TEof => Ret ([], [], i)
      | TText s =>
          do r <- scan_action fuel t inh (set_tok TGone i);
          let '(acts, els, i) := r in Ret (AText s :: acts, els, i)
      | TGone =>
          do r <- scan_action fuel t inh i;
          let '(acts, els, i) := r in Ret (ANull :: acts, els, i)
      | TBeg =>
          do i <- gettok i;
          match tok i, (match tok i with TIdent w => find_action_parser t inh w | _ => None end) with
          | TEnd, _ => scan_action fuel t inh i
          | _, Some p =>
              do r <- run_parser fuel p inh i;
              let '(a, els, st, i) := r in
              match st with
              | St_err => Ret (a, els, bad_token i)
              | _ =>
                  if negb (is_end i) && (match error i with None => true | Some _ => false end)
                  then Ret (a, els, bad_token i)
                  else
                    match st with
                    | St_end => Ret (a, els, i)
                    | _ =>
                        do r <- scan_action fuel t inh i;
                        let '(acts, els, i) := r in Ret (a ++ acts, els, i)
                    end
              end
          | _, None =>
              do i <- putback i;
              do r <- scan_pipeline fuel [] i;
              let '(p, i) := r in
              if is_end i then
                do r <- scan_action fuel t inh i;
                let '(acts, els, i) := r in Ret (APipe p :: acts, els, i)
              else Ret ([APipe p], [], bad_token i)
          end
      | _ => Ret ([], [], set_error ERR_BADTOK i)
      end
  end
(** The parsers (src/tmpl.c 2535-2950) *)
with run_parser (fuel : nat) (p : parser) (inh : bool) (i : input) : out parsed :=
  match fuel with
  | O => Fuel
  | S fuel =>
      match p with
      | P_if => (* 2569-2590 *)
          do r <- scan_pipeline fuel [] i;
          let '(c, i) := r in
          if is_end i then
            do r <- scan_action fuel CondTab inh i;
            let '(yes, no, i) := r in Ret ([ACond c no yes], [], by_error i, i)
          else Ret ([], [], St_err, bad_token i)
      | P_elseif => (* 2534-2558 *)
          do i <- gettok i;
          match tok i with
          | TIdent w =>
              if bytes_eqb w (lit "if") then
                do r <- run_parser fuel P_if inh i;
                let '(a, _, _, i) := r in Ret ([], a, St_end, i)
              else Ret ([], [], St_err, i)
          | TEnd =>
              do r <- scan_action fuel EndTab inh i;
              let '(a, _, i) := r in Ret ([], a, St_end, i)
          | _ => Ret ([], [], St_err, i)
          end
      | P_end => (* 2560-2567 *)
          do i <- gettok i;
          if is_end i then Ret ([], [], St_end, i) else Ret ([], [], St_err, i)
      | P_elsewith => (* 2596-2614 *)
          do i <- gettok i;
          if is_end i then
            do r <- scan_action fuel EndTab inh i;
            let '(a, _, i) := r in Ret ([], a, St_end, i)
          else Ret ([], [], St_err, i)
      | P_with => (* 2655-2680 *)
          do r <- parse_with_var i;
          match r with
          | (None, i) => Ret ([], [], St_err, i)
          | (Some v, i) =>
              do r <- scan_pipeline fuel [] i;
              let '(c, i) := r in
              if is_end i then
                do r <- scan_action fuel WithTab inh i;
                let '(yes, no, i) := r in Ret ([AWith v c no yes], [], by_error i, i)
              else Ret ([], [], St_err, bad_token i)
          end
      | P_break => (* 2682-2694 *)
          do i <- gettok i;
          if is_end i then Ret ([ABreak], [], St_ok, i) else Ret ([], [], St_err, i)
      | P_continue => (* 2696-2708 *)
          do i <- gettok i;
          if is_end i then Ret ([AContinue], [], St_ok, i) else Ret ([], [], St_err, i)
      | P_range => (* 2787-2812 *)
          do r <- parse_range_vars i;
          match r with
          | (None, i) => Ret ([], [], St_err, i)
          | (Some (k, v), i) =>
              do r <- scan_pipeline fuel [] i;
              let '(c, i) := r in
              if is_end i then
                do r <- scan_action fuel WithTab true i;
                let '(yes, no, i) := r in Ret ([ARange k v c no yes], [], by_error i, i)
              else Ret ([], [], St_err, bad_token i)
          end
      | P_block => (* 2816-2866.  On an error the actions of the block are not freed. *)
          do i <- gettok i;
          match tok i with
          | TStr name =>
              do r <- scan_pipeline fuel [] i;
              let '(arg, i) := r in
              if is_end i then
                match template_lookup name (tmpls i) with
                | Some _ => Ret ([ABlock name arg], [], St_ok, i)
                | None =>
                    do r <- scan_action fuel EndTab false i;
                    let '(body, _, i) := r in
                    match error i with
                    | Some _ => Ret ([], [], St_err, set_dangling false i)
                    | None =>
                        Ret ([ABlock name arg], [], St_ok, set_tmpls (template_define name body (tmpls i)) i)
                    end
                end
              else Ret ([], [], St_err, bad_token i)
          | _ => Ret ([], [], St_err, bad_token i)
          end
      | P_define => (* 2868-2910 *)
          do i <- gettok i;
          match tok i with
          | TStr name =>
              do i <- gettok i;
              if is_end i then
                do r <- scan_action fuel EndTab false i;
                let '(body, _, i) := r in
                match error i with
                | Some _ => Ret ([], [], St_err, set_dangling false i)
                | None => Ret ([], [], St_ok, set_tmpls (template_define name body (tmpls i)) i)
                end
              else Ret ([], [], St_err, bad_token i)
          | _ => Ret ([], [], St_err, bad_token i)
          end
      | P_template => (* 2912-2950 *)
          do i <- gettok i;
          match tok i with
          | TStr name =>
              do r <- scan_pipeline fuel [] i;
              let '(arg, i) := r in
              if is_end i then
                match template_lookup name (tmpls i) with
                | Some _ => Ret ([ABlock name arg], [], St_ok, i)
                | None => Ret ([], [], St_err, set_error ERR_NOTMPL i)
                end
              else Ret ([], [], St_err, bad_token i)
          | _ => Ret ([], [], St_err, bad_token i)
          end
      end
  end.

(** What template_parse returns: the tree and the templates defined, or an error
    and the offset of it *)
Inductive parse_result := POk (acts : list act) (l : list (bytes * list act)) | PErr (e : err) (off : nat).

(** src/tmpl.c 3098-3122, [l] being the templates defined before.  On an error the
    tree is freed, and with it a variable freed before. *)
Definition template_parse (fuel : nat) (l : list (bytes * list act)) (text : bytes) : out parse_result :=
  do r <- scan_action fuel NoLocal false (mkIn [] text TEof false None l false);
  let '(acts, _, i) := r in
  match error i with
  | Some e => if dangling i then Wrong Double_free else Ret (PErr e (length (pre i)))
  | None => Ret (POk acts (tmpls i))
  end.
