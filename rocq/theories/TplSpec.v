(** How a template is written (doc/poundctl.tmpl.5), independently of how it is
    read: which text stands for which tree. *)
From Coq Require Import Ascii String List ZArith Bool.
From Verif Require Import Bytes TplModel.
Import ListNotations.
Local Open Scope nat_scope.
Local Open Scope string_scope.
Local Open Scope list_scope.

(** [s] occurs nowhere in [t] *)
Definition occurs (s t : bytes) : Prop := exists a b, t = a ++ s ++ b.

(** White space and comments.  In a comment the mark of its end does not occur. *)
Inductive blank : bytes -> Prop :=
| bl_nil : blank []
| bl_space : forall c b, is_space c = true -> blank b -> blank (c :: b)
| bl_comment : forall t b, ~ occurs (lit "*/") t -> blank b -> blank (lit "/*" ++ t ++ lit "*/" ++ b).

(** ... with a space at the beginning, or at the end *)
Definition space_first (b : bytes) : Prop := exists c r, b = c :: r /\ is_space c = true.
Definition space_last (b : bytes) : Prop := exists r c, b = r ++ [c] /\ is_space c = true.

(** ** Words and values *)

(** Names of functions and variables, and of attributes *)
Definition name (s : bytes) : Prop :=
  exists c r, s = c :: r /\ is_alpha c = true /\ (forall d, In d r -> is_alnum d = true \/ d = "_"%char).
Definition attr_name (s : bytes) : Prop :=
  exists c r, s = c :: r /\ is_alpha c = true
    /\ (forall d, In d r -> is_alnum d = true \/ d = "_"%char \/ d = "-"%char).

(** Numbers that a long holds, with their sign *)
Fixpoint value_from (n : Z) (s : bytes) : Z :=
  match s with [] => n | c :: s => value_from (n * 10 + (code c - 48)) s end.
Inductive number : Z -> bytes -> Prop :=
| nm_plus : forall s, s <> [] -> (forall c, In c s -> is_digit c = true) ->
    (value_from 0 s <= LONG_MAX)%Z -> number (value_from 0 s) s
| nm_minus : forall s, s <> [] -> (forall c, In c s -> is_digit c = true) ->
    (value_from 0 s <= LONG_MAX)%Z -> number (- value_from 0 s) ("-"%char :: s).

(** What a string contains and how that is written between quotes.  (A quote cannot
    be: see C63_quote_refuted.) *)
Definition escapes : list (byte * byte) :=
  [("\"%char, "\"%char); ("a"%char, "007"%char); ("b"%char, "008"%char); ("f"%char, "012"%char);
   ("n"%char, "010"%char); ("r"%char, "013"%char); ("t"%char, "009"%char); ("v"%char, "011"%char)].
Inductive in_quotes : bytes -> bytes -> Prop :=
| q_nil : in_quotes [] []
| q_char : forall c s t, c <> """"%char -> c <> "\"%char -> in_quotes s t -> in_quotes (c :: s) (c :: t)
| q_escape : forall e c s t, In (e, c) escapes -> in_quotes s t -> in_quotes (c :: s) ("\"%char :: e :: t)
| q_other : forall e s t, e <> """"%char -> (forall c, ~ In (e, c) escapes) -> in_quotes s t ->
    in_quotes ("\"%char :: e :: s) ("\"%char :: e :: t).

(** The functions *)
Definition functions : list bytes :=
  map lit ["and"; "or"; "index"; "len"; "not"; "eq"; "ne"; "lt"; "le"; "gt"; "ge"; "even"; "printf";
           "typeof"; "exists"; "add"; "sub"; "mul"; "div"].

(** ** Pipelines *)

(** [base]: what may have an attribute.  [term]: an argument.  [command], [pipeline]. *)
Inductive base : cmd -> bytes -> Prop :=
| b_attr : forall a, attr_name a -> base (CAttr a) ("."%char :: a)
| b_var : forall v, name v -> base (CVar v) ("$"%char :: v)
| b_group : forall p b s b', blank b -> pipeline p s -> blank b' ->
    base (CPipe p) ("("%char :: b ++ s ++ b' ++ lit ")")
| b_chain : forall c s a, base c s -> attr_name a -> base (CWith [c] [CAttr a]) (s ++ "."%char :: a)
with term : cmd -> bytes -> Prop :=
| t_dot : term CDot (lit ".")
| t_base : forall c s, base c s -> term c s
| t_number : forall n s, number n s -> term (CArg (LInt n)) s
| t_string : forall s t, in_quotes s t -> term (CArg (LStr s)) (""""%char :: t ++ lit """")
| t_true : term (CArg (LBool true)) (lit "true")
| t_false : term (CArg (LBool false)) (lit "false")
with arguments : list (list cmd) -> bytes -> Prop :=
| a_nil : arguments [] []
| a_cons : forall b c s l t, blank b -> space_first b -> term c s -> arguments l t ->
    arguments ([c] :: l) (b ++ s ++ t)
with command : cmd -> bytes -> Prop :=
| c_term : forall c s, term c s -> command c s
| c_call : forall f l t, In f functions -> arguments l t -> command (CCall f l) (f ++ t)
with pipeline : list cmd -> bytes -> Prop :=
| p_one : forall c s, command c s -> pipeline [c] s
| p_more : forall c s b b' p t, command c s -> blank b -> blank b' -> pipeline p t ->
    pipeline (c :: p) (s ++ b ++ "|"%char :: b' ++ t).

(** ** Text and actions *)

(** The delimiters of an action that trims the text before it ([l]) or not, and
    after it ([r]) or not.  The minus sign has white space next to it: [b] is what
    follows the opening delimiter, [b'] what precedes the closing one. *)
Definition opening (l : bool) (b : bytes) : Prop := l = true -> space_first b.
Definition closing (r : bool) (b' : bytes) : Prop := r = true -> space_last b'.
Definition dash (d : bool) : bytes := if d then lit "-" else [].

(** An action with nothing in it, with a word, and with a word and a pipeline *)
Inductive empty_tag (l : bool) (r : bool) : bytes -> Prop :=
| et : forall b, blank b -> opening l b -> closing r b ->
    empty_tag l r (lit "{{" ++ dash l ++ b ++ dash r ++ lit "}}").
Inductive word_tag (l : bool) (w : bytes) (r : bool) : bytes -> Prop :=
| wt : forall b b', blank b -> blank b' -> opening l b -> closing r b' ->
    word_tag l w r (lit "{{" ++ dash l ++ b ++ w ++ b' ++ dash r ++ lit "}}").
Inductive pipe_tag (l : bool) (w : bytes) (p : list cmd) (r : bool) : bytes -> Prop :=
| pt : forall b s b', blank b -> pipeline p s -> blank b' -> opening l b -> closing r b' ->
    pipe_tag l w p r (lit "{{" ++ dash l ++ b ++ w ++ s ++ b' ++ dash r ++ lit "}}").

(** A word and the white space that must follow it; the name of a template *)
Definition keyword (k : string) (w : bytes) : Prop := exists b, w = lit k ++ b /\ blank b /\ b <> [].
Definition else_if (w : bytes) : Prop :=
  exists b b', w = lit "else" ++ b ++ lit "if" ++ b' /\ blank b /\ b <> [] /\ blank b' /\ b' <> [].
Definition named (k : string) (n : bytes) (w : bytes) : Prop :=
  exists b t, w = lit k ++ b ++ """"%char :: t ++ lit """" /\ blank b /\ in_quotes n t.
(** with, with the variable if there is one; range, with the key and the element *)
Definition variable (v : option bytes) (t : bytes) : Prop :=
  match v with Some n => name n /\ t = "$"%char :: n | None => t = lit "_" end.
Fixpoint begins_with_variable (c : cmd) : bool :=
  match c with CVar _ => true | CWith (c :: _) _ => begins_with_variable c | _ => false end.
(** Without a variable the pipeline must not begin with one: see
    C63_with_variable_refuted *)
Definition no_variable (p : list cmd) : Prop :=
  match p with c :: _ => begins_with_variable c = false | [] => True end.
Definition with_word (v : option bytes) (p : list cmd) (w : bytes) : Prop :=
  (v = None /\ keyword "with" w /\ no_variable p)
  \/ exists b t b' b'', w = lit "with" ++ b ++ t ++ b' ++ lit "=" ++ b'' /\ blank b /\ b <> []
       /\ variable v t /\ blank b' /\ blank b''.
Definition range_word (k v : option bytes) (p : list cmd) (w : bytes) : Prop :=
  (k = None /\ v = None /\ keyword "range" w /\ no_variable p)
  \/ exists b t b1 b2 u b3 b4, w = lit "range" ++ b ++ t ++ b1 ++ lit "," ++ b2 ++ u ++ b3 ++ lit "=" ++ b4
       /\ blank b /\ b <> [] /\ variable k t /\ blank b1 /\ blank b2 /\ variable v u /\ blank b3 /\ blank b4.

(** What follows a text: the end of everything, or an action that trims it or not *)
Inductive next := At_end | Tag (trims : bool).

(** A text in which no action begins *)
Definition plain (n : next) (t : bytes) : Prop :=
  match n with At_end => ~ occurs (lit "{{") t | Tag _ => ~ occurs (lit "{{") (t ++ lit "{") end.

(** What is left of a text: without the white space at its beginning if the action
    before trims it, and at its end if the action after does *)
Definition without_leading (t u : bytes) : Prop :=
  exists w, t = w ++ u /\ (forall c, In c w -> is_space c = true) /\ ~ space_first u.
Definition without_trailing (t u : bytes) : Prop :=
  exists w, t = u ++ w /\ (forall c, In c w -> is_space c = true) /\ ~ space_last u.
Definition trimmed (before : bool) (n : next) (t u : bytes) : Prop :=
  exists v, (if before then without_leading t v else v = t)
    /\ (match n with Tag true => without_trailing v u | _ => u = v end).
Definition text_action (u : bytes) : list act := match u with [] => [] | _ => [AText u] end.

(** The templates that are defined: the last definition of a name counts *)
Definition defined (n : bytes) (T : list (bytes * list act)) : Prop := exists b, In (n, b) T.
Definition defining (n : bytes) (b : list act) (T T' : list (bytes * list act)) : Prop :=
  (exists T1 b0 T2, T = T1 ++ (n, b0) :: T2 /\ ~ defined n T1 /\ T' = T1 ++ (n, b) :: T2)
  \/ (~ defined n T /\ T' = T ++ [(n, b)]).

(** [body loop before T t n acts T']: the text [t], between an action that trims
    ([before]) and what follows ([n]), stands for [acts] and turns the templates
    from [T] into [T'].  [loop]: within a range.
    [tag loop l T t a T' r]: one action with all that belongs to it.
    [rest …]: what belongs to an if (with, range, without [elif]) up to its end. *)
Inductive body : bool -> bool -> list (bytes * list act) -> bytes -> next -> list act -> list (bytes * list act) -> Prop :=
| bo_end : forall loop before T t n u, plain n t -> trimmed before n t u ->
    body loop before T t n (text_action u) T
| bo_tag : forall loop before T t u l s a T1 r t' n acts T2,
    plain (Tag l) t -> trimmed before (Tag l) t u ->
    tag loop l T s a T1 r -> body loop r T1 t' n acts T2 ->
    body loop before T (t ++ s ++ t') n (text_action u ++ a ++ acts) T2
with tag : bool -> bool -> list (bytes * list act) -> bytes -> list act -> list (bytes * list act) -> bool -> Prop :=
| ta_empty : forall loop l T s r, empty_tag l r s -> tag loop l T s [] T r
| ta_pipe : forall loop l T p s r, pipe_tag l [] p r s -> tag loop l T s [APipe p] T r
| ta_break : forall l T s r, word_tag l (lit "break") r s -> tag true l T s [ABreak] T r
| ta_continue : forall l T s r, word_tag l (lit "continue") r s -> tag true l T s [AContinue] T r
| ta_if : forall loop l T w p s r t yes no T' r',
    keyword "if" w -> pipe_tag l w p r s -> rest true loop r T t yes no T' r' ->
    tag loop l T (s ++ t) [ACond p no yes] T' r'
| ta_with : forall loop l T w v p s r t yes no T' r',
    with_word v p w -> pipe_tag l w p r s -> rest false loop r T t yes no T' r' ->
    tag loop l T (s ++ t) [AWith v p no yes] T' r'
| ta_range : forall loop l T w k v p s r t yes no T' r',
    range_word k v p w -> pipe_tag l w p r s -> rest false true r T t yes no T' r' ->
    tag loop l T (s ++ t) [ARange k v p no yes] T' r'
| ta_define : forall loop l T w n s r t e acts T1 T' l' r',
    named "define" n w -> word_tag l w r s ->
    body false r T t (Tag l') acts T1 -> word_tag l' (lit "end") r' e ->
    defining n acts T1 T' ->
    tag loop l T (s ++ t ++ e) [] T' r'
| ta_template : forall loop l T w b n p s r,
    named "template" n w -> blank b -> pipe_tag l (w ++ b) p r s -> defined n T ->
    tag loop l T s [ABlock n p] T r
| ta_block_again : forall loop l T w b n p s r,
    named "block" n w -> blank b -> pipe_tag l (w ++ b) p r s -> defined n T ->
    tag loop l T s [ABlock n p] T r
| ta_block : forall loop l T w b n p s r t e acts T1 T' l' r',
    named "block" n w -> blank b -> pipe_tag l (w ++ b) p r s -> ~ defined n T ->
    body false r T t (Tag l') acts T1 -> word_tag l' (lit "end") r' e ->
    defining n acts T1 T' ->
    tag loop l T (s ++ t ++ e) [ABlock n p] T' r'
with rest : bool -> bool -> bool -> list (bytes * list act) -> bytes -> list act -> list act -> list (bytes * list act) -> bool -> Prop :=
| re_end : forall elif loop r T t yes T1 l e r',
    body loop r T t (Tag l) yes T1 -> word_tag l (lit "end") r' e ->
    rest elif loop r T (t ++ e) yes [] T1 r'
| re_else : forall elif loop r T t yes T1 l s r1 u no T2 l' e r',
    body loop r T t (Tag l) yes T1 -> word_tag l (lit "else") r1 s ->
    body loop r1 T1 u (Tag l') no T2 -> word_tag l' (lit "end") r' e ->
    rest elif loop r T (t ++ s ++ u ++ e) yes no T2 r'
| re_elseif : forall loop r T t yes T1 l w p s r1 u yes' no' T2 r',
    body loop r T t (Tag l) yes T1 -> else_if w -> pipe_tag l w p r1 s ->
    rest true loop r1 T1 u yes' no' T2 r' ->
    rest true loop r T (t ++ s ++ u) yes [ACond p no' yes'] T2 r'.

(** The whole text of a template file *)
Definition template_text (T : list (bytes * list act)) (t : bytes) (acts : list act) (T' : list (bytes * list act)) : Prop :=
  body false false T t At_end acts T'.

(** ** Texts with a fault *)

(** Where an action stands: outside of all others, in the first part of an if, of a
    with or a range, or where only the end may follow (after else, in a definition) *)
Inductive place_in := Outside | In_if | In_with | In_last.

(** Actions that must not stand there: the end or the else of nothing, break and
    continue outside of a range, an unknown word, the use of a template that is not
    defined *)
Definition action_words : list bytes :=
  map lit ["if"; "with"; "range"; "block"; "define"; "template"; "else"; "end"; "break"; "continue"; "true"; "false"].
Inductive bad_tag : place_in -> bool -> bool -> list (bytes * list act) -> bytes -> err -> Prop :=
| bd_end : forall loop l T r s, word_tag l (lit "end") r s -> bad_tag Outside loop l T s ERR_BADTOK
| bd_else : forall c loop l T r s, c = Outside \/ c = In_last -> word_tag l (lit "else") r s -> bad_tag c loop l T s ERR_BADTOK
| bd_break : forall c l T w r s, w = lit "break" \/ w = lit "continue" -> word_tag l w r s -> bad_tag c false l T s ERR_BADTOK
| bd_word : forall c loop l T w r s, name w -> ~ In w functions -> ~ In w action_words ->
    word_tag l w r s -> bad_tag c loop l T s ERR_BADTOK
| bd_template : forall c loop l T w b n p r s, named "template" n w -> blank b -> pipe_tag l (w ++ b) p r s ->
    ~ defined n T -> bad_tag c loop l T s ERR_NOTMPL.

(** [faulty c loop before T t e]: the text [t] to the end of the file, standing at [c], begins as a
    template does but then has a fault, however deep within other actions; [e] is the error *)
Inductive faulty : place_in -> bool -> bool -> list (bytes * list act) -> bytes -> err -> Prop :=
| fa_open : forall c loop before T t acts T1, c <> Outside -> body loop before T t At_end acts T1 ->
    faulty c loop before T t ERR_BADTOK
| fa_tag : forall c loop before T t l acts T1 s R e, body loop before T t (Tag l) acts T1 -> bad_tag c loop l T1 s e ->
    faulty c loop before T (t ++ s ++ R) e
| fa_if : forall c loop before T t l acts T1 w p r s u e, body loop before T t (Tag l) acts T1 ->
    keyword "if" w -> pipe_tag l w p r s -> faulty In_if loop r T1 u e -> faulty c loop before T (t ++ s ++ u) e
| fa_with : forall c loop before T t l acts T1 v w p r s u e, body loop before T t (Tag l) acts T1 ->
    with_word v p w -> pipe_tag l w p r s -> faulty In_with loop r T1 u e -> faulty c loop before T (t ++ s ++ u) e
| fa_range : forall c loop before T t l acts T1 k v w p r s u e, body loop before T t (Tag l) acts T1 ->
    range_word k v p w -> pipe_tag l w p r s -> faulty In_with true r T1 u e -> faulty c loop before T (t ++ s ++ u) e
| fa_define : forall c loop before T t l acts T1 n w r s u e, body loop before T t (Tag l) acts T1 ->
    named "define" n w -> word_tag l w r s -> faulty In_last false r T1 u e -> faulty c loop before T (t ++ s ++ u) e
| fa_block : forall c loop before T t l acts T1 n w b p r s u e, body loop before T t (Tag l) acts T1 ->
    named "block" n w -> blank b -> pipe_tag l (w ++ b) p r s -> ~ defined n T1 -> faulty In_last false r T1 u e ->
    faulty c loop before T (t ++ s ++ u) e
| fa_else : forall c loop before T t l acts T1 r s u e, c = In_if \/ c = In_with -> body loop before T t (Tag l) acts T1 ->
    word_tag l (lit "else") r s -> faulty In_last loop r T1 u e -> faulty c loop before T (t ++ s ++ u) e
| fa_elseif : forall loop before T t l acts T1 w p r s u e, body loop before T t (Tag l) acts T1 ->
    else_if w -> pipe_tag l w p r s -> faulty In_if loop r T1 u e -> faulty In_if loop before T (t ++ s ++ u) e.
