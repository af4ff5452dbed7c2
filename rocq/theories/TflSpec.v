(** What C69 says, apart from the model: the template search path. *)
From Coq Require Import Ascii String List ZArith Bool.
From Verif Require Import Bytes TflModel.
Import ListNotations.
Local Open Scope string_scope.
Local Open Scope list_scope.
Local Open Scope nat_scope.

(** The elements of a search path: the texts between its colons *)
Inductive elements : bytes -> list bytes -> Prop :=
| last_one : forall el, ~ In ":"%char el -> elements el [el]
| one_more : forall el p els, ~ In ":"%char el -> elements p els -> elements (el ++ ":"%char :: p) (el :: els).

(** The file name an element stands for: a tilde is the home directory *)
Inductive stands_for (home : bytes) : bytes -> bytes -> Prop :=
| plain_name : forall c r, c <> "~"%char -> stands_for home (c :: r) (c :: r)
| home_itself : stands_for home (lit "~") (home ++ lit "/")
| home_slash : forall r, stands_for home ("~"%char :: "/"%char :: r) (home ++ "/"%char :: r)
| home_file : forall c r, c <> "/"%char -> stands_for home ("~"%char :: c :: r) (home ++ "/"%char :: c :: r).

Definition can_open (n : node) : Prop := n <> Missing /\ n <> Denied.

(** An element gives a file: itself if it is a regular file, the file of that name in it if it is a directory and that
    file can be opened.  Empty elements give none. *)
Inductive gives (fs : bytes -> node) (home name : bytes) : bytes -> bytes -> node -> Prop :=
| the_file : forall el f t, stands_for home el f -> fs f = Regular t -> gives fs home name el f (Regular t)
| in_directory : forall el d n, stands_for home el d -> fs d = Directory -> fs (d ++ "/"%char :: name) = n -> can_open n ->
    gives fs home name el (d ++ "/"%char :: name) n.

(** The first element that gives one *)
Definition first_given (fs : bytes -> node) (home name : bytes) (els : list bytes) (f : bytes) (n : node) : Prop :=
  exists before el after, els = before ++ el :: after /\ (forall e g m, In e before -> ~ gives fs home name e g m) /\ gives fs home name el f n.

(** Names that say where the file is *)
Definition rooted (name : bytes) : Prop :=
  exists r, name = lit "/" ++ r \/ name = lit "./" ++ r \/ name = lit "../" ++ r.

(** Where the character after [before] is in a text: line (from 1), and characters of it before (from 0) *)
Definition is_at (before : bytes) (line column : nat) : Prop :=
  exists lines cur, before = concat (map (fun l => l ++ [LF]) lines) ++ cur /\ Forall (fun l => ~ In LF l) lines /\ ~ In LF cur /\
    line = length lines + 1 /\ column = length cur.
