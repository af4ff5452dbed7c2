(** Model of the statement parser of the configuration file (cfgparser.c 735-806,
    936-1181) and of the tables of the Rewrite section that drive it (config.c 1880-2375).

    The scanner is the subject of LexModel; here a file is the list of its tokens.  What a
    statement reads and what it does to the configuration under construction is a
    parameter: a function of the configuration and of the tokens that follow the keyword,
    which refuses or gives the new configuration and the number of tokens it took.
    Simplification: the messages are not modelled, nor are the positions. *)
From Coq Require Import Ascii String List ZArith Bool Arith.
From Verif Require Import Bytes.
From Verif Require LexSpec.
Import ListNotations.
Open Scope nat_scope.

Notation tok := LexSpec.lexeme.
Notation Ident := LexSpec.Ident.
Notation Quoted := LexSpec.Quoted.
Notation Newline := LexSpec.Newline.
Notation Malformed := LexSpec.Malformed.

Section Parser.
  (** The configuration under construction *)
  Variable conf : Type.

  (** cfgparser.h: what the parser function of a keyword does.
      [Read]: reads its arguments.  [Block]: reads arguments, then statements of a table up
      to End (parser_loop, config.c 998-1006; the flag tells whether a locus range was
      given, so that the end of the file is an error), then finishes; which table may depend on
      the tokens that follow (parse_rewrite, config.c 2341-2375).  [One]: reads a single
      statement of a table (parse_not_cond, config.c 1980-1990).  [End]: cfg_parse_end,
      cfgparser.c 1183-1187.  [EndElse]: parse_end_else, config.c 2082-2089.
      [Z]: where the statement stores its result (the members data and off of the table). *)
  Inductive action :=
  | Read (f : Z -> conf -> list tok -> option (conf * nat))
  | Block (opening : Z -> conf -> list tok -> option (conf * nat)) (table : list tok -> nat) (must_end : bool) (closing : Z -> conf -> option conf)
  | One (opening : Z -> conf -> conf) (table : nat) (closing : Z -> conf -> conf)
  | End
  | EndElse.

  (** struct cfgparser_table (cfgparser.h).  A table reference holds the entries of the
      table it refers to (the references of the code are not cyclic); blocks refer to their
      table by number, for those references are cyclic. *)
  Inductive entry :=
  | Reg (name : bytes) (deprecated : bool) (where_ : Z) (act : action)
  | Alias (name : bytes) (deprecated : bool)
  | TabRef (entries : list entry)
  | SoftRef (entries : list entry) (where_ : Z).

  Inductive found := Found (act : action) (where_ : Z) (deprecated : bool) | NotFound | AssertFails.

  (** What is found through a soft reference: its data and offset replace those found *)
  Definition relocate (w : Z) (r : found) : found :=
    match r with Found a _ d => Found a w d | _ => r end.

  (** What an alias that follows the entry [e] stands for: the nearest entry before it that
      is not an alias, if that is a regular one (cfgparser.c 974-976) *)
  Definition target (prev : option (Z * action)) (e : entry) : option (Z * action) :=
    match e with
    | Reg _ _ w a => Some (w, a)
    | Alias _ _ => prev
    | _ => None
    end.

  (** parser_find, cfgparser.c 944-983: one entry of a table *)
  Fixpoint find_entry (prev : option (Z * action)) (e : entry) (name : bytes) {struct e} : found :=
    match e with
    | Reg n d w a => if ci_eqb n name then Found a w d else NotFound
    | Alias n d =>
        if ci_eqb n name then match prev with Some (w, a) => Found a w d | None => AssertFails end else NotFound
    | TabRef sub =>
        (fix go (prev : option (Z * action)) (sub : list entry) {struct sub} : found :=
           match sub with
           | [] => NotFound
           | e :: sub => match find_entry prev e name with NotFound => go (target prev e) sub | r => r end
           end) None sub
    | SoftRef sub w =>
        relocate w
          ((fix go (prev : option (Z * action)) (sub : list entry) {struct sub} : found :=
              match sub with
              | [] => NotFound
              | e :: sub => match find_entry prev e name with NotFound => go (target prev e) sub | r => r end
              end) None sub)
    end.

  (** parser_find, cfgparser.c 944-983: the entries of a table in turn *)
  Fixpoint find_from (prev : option (Z * action)) (tab : list entry) (name : bytes) {struct tab} : found :=
    match tab with
    | [] => NotFound
    | e :: tab => match find_entry prev e name with NotFound => find_from (target prev e) tab name | r => r end
    end.
  Definition parser_find (tab : list entry) (name : bytes) : found := find_from None tab name.

  (** The files being read, the innermost first: each with its identity (device and inode,
      cfgparser.c 760-778) and the tokens that remain *)
  Definition inputs := list (Z * list tok).

  (** gettkn, cfgparser.c 798-806 *)
  Fixpoint gettkn (st : inputs) : option tok * inputs :=
    match st with
    | [] => (None, [])
    | (_, []) :: st => gettkn st
    | (id, t :: ts) :: st => (Some t, (id, ts) :: st)
    end.

  (** The tokens a statement sees *)
  Definition flat (st : inputs) : list tok := concat (map snd st).
  (** A statement that took [n] tokens *)
  Fixpoint skip (n : nat) (st : inputs) : inputs :=
    match n with
    | O => st
    | S n => skip n (snd (gettkn st))
    end.

  (** putback_tkn, cfgparser.c 850-854: to the innermost file *)
  Definition putback (t : tok) (st : inputs) : inputs :=
    match st with
    | [] => []
    | (id, ts) :: st => (id, t :: ts) :: st
    end.

  (** How a sequence of statements ended: with its End, at the end of the input, or after
      the single statement wanted (CFGPARSER_OK_NONL) *)
  Inductive ending := Ended | AtEof | Single.
  (** The outcome.  [Refused] is CFGPARSER_FAIL; [Recursive] is CFGPARSER_FAIL because of a
      file that includes a file being read; [Crashed] is the failed assertion of
      parser_find; [Fuel] means that the model ran out of steps. *)
  Inductive result := Accepted (h : ending) (c : conf) (st : inputs) | Refused | Recursive | Crashed | Fuel.

  (** What the configuration is made of: the tables, by number; the files, by name, each
      with its identity and its tokens (push_input, cfgparser.c 743-790; a file that cannot
      be opened is absent; simplification: IncludeDir is fixed); whether deprecated
      statements are refused (enum deprecation_mode). *)
  Variable tables : nat -> list entry.
  Variable file : bytes -> option (Z * list tok).
  Variable strict : bool.

  Definition open_already (id : Z) (st : inputs) : bool := existsb (fun f => Z.eqb id (fst f)) st.

  (** cfgparser, cfgparser.c 993-1104, with parser_loop of config.c 998-1006 and
      cfg_parse_include of cfgparser.c 1173-1181.  [one]: a single statement is wanted;
      [must_end]: retrange is not NULL. *)
  Fixpoint cfgparser (fuel : nat) (t : nat) (one must_end : bool) (c : conf) (st : inputs) {struct fuel} : result :=
    match fuel with
    | O => Fuel
    | S fuel =>
        (* 1065-1077: the statement was read; the line must end *)
        let ok (c : conf) (st : inputs) : result :=
          match gettkn st with
          | (None, st) | (Some Newline, st) => if one then Accepted Single c st else cfgparser fuel t one must_end c st
          | _ => Refused
          end in
        match gettkn st with
        | (None, st) => if must_end then Refused else Accepted AtEof c st
        | (Some Malformed, _) => Refused
        | (Some (Ident w), st) =>
            match parser_find (tables t) w with
            | AssertFails => Crashed
            | Found a wh d =>
                if strict && d then Refused
                else
                  match a with
                  | Read f =>
                      match f wh c (flat st) with
                      | None => Refused
                      | Some (c, n) => ok c (skip n st)
                      end
                  | Block opening sub me closing =>
                      match opening wh c (flat st) with
                      | None => Refused
                      | Some (c, n) =>
                          match cfgparser fuel (sub (flat st)) false me c (skip n st) with
                          | Accepted _ c st => match closing wh c with None => Refused | Some c => ok c st end
                          | r => r
                          end
                      end
                  | One opening sub closing =>
                      match cfgparser fuel sub true false (opening wh c) st with
                      | Accepted Single c st => cfgparser fuel t one must_end (closing wh c) st    (* 1079: continue *)
                      | Accepted _ c st => ok (closing wh c) st
                      | r => r
                      end
                  | End => Accepted Ended c st
                  | EndElse => Accepted Ended c (putback Newline (putback (Ident w) st))
                  end
            | NotFound =>
                if negb one && ci_eqb (lit "Include") w then
                  match gettkn st with
                  | (Some (Quoted f), st) =>
                      match file f with
                      | None => Refused
                      | Some (id, ts) =>
                          if open_already id st then Recursive
                          else cfgparser fuel t one must_end c ((id, ts) :: st)   (* 1180: CFGPARSER_OK_NONL *)
                      end
                  | _ => Refused
                  end
                else Refused
            end
        | (Some _, st) => cfgparser fuel t one must_end c st    (* 1096-1099: a message at most *)
        end
    end.

  (** cfgparser_parse, cfgparser.c 1136-1153 *)
  Definition cfgparser_parse (fuel : nat) (t : nat) (c : conf) (name : bytes) : result :=
    match file name with
    | None => Refused
    | Some (id, ts) => cfgparser fuel t false false c [(id, ts)]
    end.
End Parser.

Arguments Read {conf} f.
Arguments Block {conf} opening table must_end closing.
Arguments One {conf} opening table closing.
Arguments End {conf}.
Arguments EndElse {conf}.
Arguments Reg {conf} name deprecated where_ act.
Arguments Alias {conf} name deprecated.
Arguments TabRef {conf} entries.
Arguments SoftRef {conf} entries where_.
Arguments Found {conf} act where_ deprecated.
Arguments NotFound {conf}.
Arguments AssertFails {conf}.
Arguments find_entry {conf} prev e name.
Arguments find_from {conf} prev tab name.
Arguments parser_find {conf} tab name.
Arguments target {conf} prev e.
Arguments relocate {conf} w r.
Arguments Accepted {conf} h c st.
Arguments Refused {conf}.
Arguments Recursive {conf}.
Arguments Crashed {conf}.
Arguments Fuel {conf}.
Arguments cfgparser {conf} tables file strict fuel t one must_end c st.
Arguments cfgparser_parse {conf} tables file strict fuel t c name.

(** ** The tables of the Rewrite section

    The configuration is the list of what was read so far, the latest first: the statements
    of a block are between an [Enter] and a [Leave]. *)
Inductive event := Stmt (name : bytes) (args : list bytes) | Enter (name : bytes) | Leave (name : bytes).

(** parse_rewrite_op, config.c 2126-2137 (one string) *)
Definition one_string (name : bytes) : action (list event) :=
  Read (fun _ c ts => match ts with Quoted s :: _ => Some (Stmt name [s] :: c, 1) | _ => None end).
(** parse_set_query_param, config.c 2181-2197 *)
Definition two_strings (name : bytes) : action (list event) :=
  Read (fun _ c ts => match ts with Quoted s :: Quoted v :: _ => Some (Stmt name [s; v] :: c, 2) | _ => None end).
(** parse_not_cond, config.c 1980-1990: what is read until it returns goes to the negated condition *)
Definition not_cond (name : bytes) (sub : nat) : action (list event) :=
  One (fun _ c => Enter name :: c) sub (fun _ c => Leave name :: c).
(** parse_match, config.c 1880-1904: an optional AND or OR, then a block that must end *)
Definition match_block (name : bytes) (sub : nat) : action (list event) :=
  Block (fun _ c ts => match ts with
                       | Ident w :: _ => if ci_eqb w (lit "and") || ci_eqb w (lit "or") then Some (Enter name :: c, 1) else None
                       | _ :: _ => Some (Enter name :: c, 0)
                       | [] => None
                       end) (fun _ => sub) true (fun _ c => Some (Leave name :: c)).
(** parse_else, parse_sub_rewrite, parse_response_else, parse_response_sub_rewrite:
    config.c 2214-2228, 2325-2339: no locus range is given *)
Definition open_block (name : bytes) (sub : nat) : action (list event) :=
  Block (fun _ c _ => Some (Enter name :: c, 0)) (fun _ => sub) false (fun _ c => Some (Leave name :: c)).

(** The numbers of the tables *)
Definition T_RULE := 0.            (* rewrite_rule_parsetab *)
Definition T_ELSE := 1.            (* else_rule_parsetab *)
Definition T_RESPONSE := 2.        (* response_rewrite_rule_parsetab *)
Definition T_RESPONSE_ELSE := 3.   (* response_else_rule_parsetab *)
Definition T_NEGATE := 4.          (* negate_parsetab *)
Definition T_LOGCON := 5.          (* logcon_parsetab *)

(** match_conditions, config.c 1908-1968.  Simplification: the options of the conditions
    are not read, and those that take no string are left out. *)
Definition match_conditions : list (entry (list event)) :=
  [ Reg (lit "URL") false 0%Z (one_string (lit "URL"));
    Reg (lit "Path") false 0%Z (one_string (lit "Path"));
    Reg (lit "Query") false 0%Z (one_string (lit "Query"));
    Reg (lit "QueryParam") false 0%Z (two_strings (lit "QueryParam"));
    Reg (lit "Header") false 0%Z (one_string (lit "Header"));
    Alias (lit "HeadRequire") true;
    Reg (lit "HeadDeny") true 0%Z (one_string (lit "HeadDeny"));
    Reg (lit "Host") false 0%Z (one_string (lit "Host"));
    Reg (lit "StringMatch") false 0%Z (two_strings (lit "StringMatch"));
    Reg (lit "Match") false 0%Z (match_block (lit "Match") T_LOGCON);
    Reg (lit "NOT") false 0%Z (not_cond (lit "NOT") T_NEGATE) ].
(** rewrite_ops, config.c 2026-2051 *)
Definition rewrite_ops : list (entry (list event)) :=
  [ Reg (lit "SetHeader") false 0%Z (one_string (lit "SetHeader"));
    Reg (lit "DeleteHeader") false 0%Z (one_string (lit "DeleteHeader"));
    Reg (lit "SetURL") false 0%Z (one_string (lit "SetURL"));
    Reg (lit "SetPath") false 0%Z (one_string (lit "SetPath"));
    Reg (lit "SetQuery") false 0%Z (one_string (lit "SetQuery"));
    Reg (lit "SetQueryParam") false 0%Z (two_strings (lit "SetQueryParam")) ].
(** match_response_conditions, config.c 2230-2248 *)
Definition match_response_conditions : list (entry (list event)) :=
  [ Reg (lit "Header") false 0%Z (one_string (lit "Header"));
    Reg (lit "StringMatch") false 0%Z (two_strings (lit "StringMatch"));
    Reg (lit "Match") false 0%Z (match_block (lit "Match") T_LOGCON);
    Reg (lit "NOT") false 0%Z (not_cond (lit "NOT") T_NEGATE) ].
(** rewrite_response_ops, config.c 2250-2260 *)
Definition rewrite_response_ops : list (entry (list event)) :=
  [ Reg (lit "SetHeader") false 0%Z (one_string (lit "SetHeader"));
    Reg (lit "DeleteHeader") false 0%Z (one_string (lit "DeleteHeader")) ].

(** Offsets of the members of a rule: ophead, iffalse, cond *)
Definition OPHEAD := 1%Z.
Definition IFFALSE := 2%Z.
Definition COND := 3%Z.

(** config.c 2053-2080, 2091-2118, 2265-2323, 1971-1978, 1992-2003 *)
Definition rewrite_tables (t : nat) : list (entry (list event)) :=
  match t with
  | 0 => [ Reg (lit "End") false 0%Z End;
           Reg (lit "Rewrite") false OPHEAD (open_block (lit "Rewrite") T_RULE);
           Reg (lit "Else") false IFFALSE (open_block (lit "Else") T_ELSE);
           SoftRef match_conditions COND; SoftRef rewrite_ops OPHEAD ]
  | 1 => [ Reg (lit "End") false 0%Z EndElse;
           Reg (lit "Rewrite") false OPHEAD (open_block (lit "Rewrite") T_RULE);
           Reg (lit "Else") false IFFALSE (open_block (lit "Else") T_ELSE);
           SoftRef match_conditions COND; SoftRef rewrite_ops OPHEAD ]
  | 2 => [ Reg (lit "End") false 0%Z End;
           Reg (lit "Rewrite") false OPHEAD (open_block (lit "Rewrite") T_RESPONSE);
           Reg (lit "Else") false IFFALSE (open_block (lit "Else") T_RESPONSE_ELSE);
           SoftRef match_response_conditions COND; SoftRef rewrite_response_ops OPHEAD ]
  | 3 => [ Reg (lit "End") false 0%Z EndElse;
           Reg (lit "Rewrite") false OPHEAD (open_block (lit "Rewrite") T_RESPONSE);
           Reg (lit "Else") false IFFALSE (open_block (lit "Else") T_ELSE);
           SoftRef match_response_conditions COND; SoftRef rewrite_response_ops OPHEAD ]
  | 4 => [ SoftRef match_conditions 0%Z ]
  | 5 => [ Reg (lit "End") false 0%Z End; SoftRef match_conditions 0%Z ]
  | _ => []
  end.
