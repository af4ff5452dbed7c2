(** The structure of a configuration, independently of the parser: which entry of a table a
    keyword stands for, and the grammar of statements with the changes they make. *)
From Coq Require Import Ascii String List ZArith Bool Arith.
From Verif Require Import Bytes CfgModel.
From Verif Require LexSpec.
Import ListNotations.
Open Scope nat_scope.

(** Keywords are compared without regard to case *)
Definition same_word (a b : bytes) : Prop := lower a = lower b.

Section Spec.
  Variable conf : Type.

  (** A table written out: the name of each keyword, what it stands for (with the place its
      result goes to), and whether the name is deprecated *)
  Definition line := (bytes * option (Z * action conf) * bool)%type.
  Definition moved (w : Z) (l : line) : line :=
    match l with (n, Some (_, a), d) => (n, Some (w, a), d) | l => l end.
  (** [written p tab ls]: [p] is what an alias at the head of [tab] stands for *)
  Inductive written : option (Z * action conf) -> list (entry conf) -> list line -> Prop :=
  | wr_nil : forall p, written p [] []
  | wr_reg : forall p n d w a tab ls, written (Some (w, a)) tab ls -> written p (Reg n d w a :: tab) ((n, Some (w, a), d) :: ls)
  | wr_alias : forall p n d tab ls, written p tab ls -> written p (Alias n d :: tab) ((n, p, d) :: ls)
  | wr_table : forall p sub l1 tab l2, written None sub l1 -> written None tab l2 -> written p (TabRef sub :: tab) (l1 ++ l2)
  | wr_soft : forall p sub l1 w tab l2, written None sub l1 -> written None tab l2 ->
      written p (SoftRef sub w :: tab) (map (moved w) l1 ++ l2).

  (** The first line with that name *)
  Definition first (ls : list line) (w : bytes) (l : line) : Prop :=
    exists l1 l2, ls = l1 ++ l :: l2 /\ same_word (fst (fst l)) w /\ Forall (fun k => ~ same_word (fst (fst k)) w) l1.
  (** What the keyword [w] stands for in a table *)
  Definition means (tab : list (entry conf)) (w : bytes) (a : action conf) (wh : Z) (d : bool) : Prop :=
    exists ls n, written None tab ls /\ first ls w (n, Some (wh, a), d).
  Definition unknown (tab : list (entry conf)) (w : bytes) : Prop :=
    exists ls, written None tab ls /\ Forall (fun k => ~ same_word (fst (fst k)) w) ls.

  Variable tables : nat -> list (entry conf).
  Variable file : bytes -> option (Z * list tok).
  Variable strict : bool.

  (** The end of a line or of the input *)
  Definition line_end (ts r : list tok) : Prop := ts = Newline :: r \/ (ts = [] /\ r = []).
  (** A token that begins no statement *)
  Definition misplaced (t : tok) : Prop :=
    match t with LexSpec.Number _ | LexSpec.Quoted _ | LexSpec.Literal _ => True | _ => False end.

  (** [text t one me c ts h c' r]: with the keywords of table [t], the tokens [ts] are a
      sequence of statements that ends in the way [h] and leaves [r]; reading it changes
      the configuration [c] to [c'].  [one]: a single statement is wanted; [me]: the
      sequence may not be ended by the end of the input.
      [statement a wh c ts c' r]: after the keyword, [ts] begins with a statement of the
      kind [a], that leaves [r]. *)
  Inductive text : nat -> bool -> bool -> conf -> list tok -> ending -> conf -> list tok -> Prop :=
  | t_eof : forall t one c, text t one false c [] AtEof c []
  | t_blank : forall t one me c ts h c' r, text t one me c ts h c' r -> text t one me c (Newline :: ts) h c' r
  | t_misplaced : forall t one me c k ts h c' r, misplaced k -> text t one me c ts h c' r -> text t one me c (k :: ts) h c' r
  | t_include : forall t me c w f id ts' ts h c' r,
      unknown (tables t) w -> same_word w (lit "include") -> file f = Some (id, ts') ->
      text t false me c (ts' ++ ts) h c' r ->
      text t false me c (Ident w :: Quoted f :: ts) h c' r
  | t_end : forall t one me c w wh d ts, means (tables t) w End wh d -> strict && d = false ->
      text t one me c (Ident w :: ts) Ended c ts
  | t_end_else : forall t one me c w wh d ts, means (tables t) w EndElse wh d -> strict && d = false ->
      text t one me c (Ident w :: ts) Ended c (Newline :: Ident w :: ts)
  | t_statement : forall t me c w a wh d ts c1 ts1 r1 h c' r,
      means (tables t) w a wh d -> strict && d = false ->
      statement a wh c ts c1 ts1 -> line_end ts1 r1 -> text t false me c1 r1 h c' r ->
      text t false me c (Ident w :: ts) h c' r
  | t_single : forall t me c w a wh d ts c1 ts1 r1,
      means (tables t) w a wh d -> strict && d = false ->
      statement a wh c ts c1 ts1 -> line_end ts1 r1 ->
      text t true me c (Ident w :: ts) Single c1 r1
  | t_one : forall t one me c w opening sub closing wh d ts c1 r1 h c' r,
      means (tables t) w (One opening sub closing) wh d -> strict && d = false ->
      text sub true false (opening wh c) ts Single c1 r1 -> text t one me (closing wh c1) r1 h c' r ->
      text t one me c (Ident w :: ts) h c' r
  with statement : action conf -> Z -> conf -> list tok -> conf -> list tok -> Prop :=
  | s_read : forall f wh c ts c1 n, f wh c ts = Some (c1, n) -> statement (Read f) wh c ts c1 (skipn n ts)
  | s_block : forall opening sub me closing wh c ts c1 n h c2 r c3,
      opening wh c ts = Some (c1, n) -> text (sub ts) false me c1 (skipn n ts) h c2 r -> closing wh c2 = Some c3 ->
      statement (Block opening sub me closing) wh c ts c3 r
  | s_one : forall opening sub closing wh c ts h c1 r,
      text sub true false (opening wh c) ts h c1 r -> h <> Single ->
      statement (One opening sub closing) wh c ts (closing wh c1) r.

  (** ** What the user sees *)
  (** The file is accepted as a configuration / reading it never ends / it is refused
      because some file includes a file being read *)
  Definition accepts (t : nat) (c : conf) (name : bytes) (c' : conf) : Prop :=
    exists n h st, cfgparser_parse tables file strict n t c name = Accepted h c' st.
  Definition recursive (t : nat) (c : conf) (name : bytes) : Prop :=
    exists n, cfgparser_parse tables file strict n t c name = Recursive.
End Spec.
Arguments written {conf} p tab ls.
Arguments first {conf} ls w l.
Arguments means {conf} tab w a wh d.
Arguments unknown {conf} tab w.
Arguments text {conf} tables file strict t one me c ts h c' r.
Arguments statement {conf} tables file strict a wh c ts c' r.
Arguments accepts {conf} tables file strict t c name c'.
Arguments recursive {conf} tables file strict t c name.
Scheme text_ind2 := Minimality for text Sort Prop
  with statement_ind2 := Minimality for statement Sort Prop.
