(** Which format is meant by LogLevel (C83). *)
From Coq Require Import Ascii String List ZArith.
From Verif Require Import Bytes ClenSpec NumSpec LogModel LvlModel.
From Verif Require LexSpec.
Import ListNotations.
Local Open Scope string_scope.
Local Open Scope list_scope.
Local Open Scope Z_scope.

(** The built-in formats, in the order of their numbers *)
Definition in_marks (s : string) : string := (QT ++ s ++ QT)%string.
Definition agent : string := (in_marks "%r" ++ " %s %b " ++ in_marks "%{Referer}i" ++ " " ++ in_marks "%{User-Agent}i")%string.
Definition built_in : list (bytes * bytes) :=
  map (fun x => (lit (fst x), lit (snd x)))
    [ ("null", ""); ("regular", "%a %r - %>s"); ("extended", "%a %r - %>s (%{Host}i/%{service}N -> %{backend}N) %{f}T sec");
      ("vhost_combined", ("%{Host}I %a - %u %t " ++ agent)%string); ("combined", ("%a - %u %t " ++ agent)%string);
      ("detailed", ("%{Host}I %a - %u %t " ++ agent ++ " (%{service}N -> %{backend}N) %{f}T sec")%string) ].

(** The formats there are after the directives [ds]: the built-in ones of the manual, then those of LogFormat in their order *)
Definition defined (ds : list directive) : list (bytes * bytes) :=
  built_in ++ flat_map (fun d => match d with LogFormat n f => [(n, f)] | _ => [] end) ds.

(** What the argument of LogLevel stands for: a name in quotation marks, or a number *)
Inductive refers (fs : list (bytes * bytes)) : LexSpec.lexeme -> bytes -> Prop :=
| by_name n f : In (n, f) fs -> refers fs (LexSpec.Quoted n) f
| by_number w i n f : numeral decimal 10 w (Z.of_nat i) -> nth_error fs i = Some (n, f) -> refers fs (LexSpec.Number w) f.

(** The LogLevel that counts for a section [ks] that comes after [ds]: its own last one, else the last global one before it, else 1 *)
Definition counts (ds : list directive) (ks : list LexSpec.lexeme) : LexSpec.lexeme :=
  last (flat_map (fun d => match d with LogLevel k => [k] | _ => [] end) ds ++ ks) (LexSpec.Number (lit "1")).

(** The scanner gives this kind to digits only *)
Definition proper (k : LexSpec.lexeme) : Prop := match k with LexSpec.Number w => number_token w | _ => True end.
Definition proper_all (ds : list directive) : Prop :=
  Forall (fun d => match d with LogFormat _ _ => True | LogLevel k => proper k | Listen ks => Forall proper ks end) ds.

(** The number of sections *)
Definition sections (ds : list directive) : nat := length (filter (fun d => match d with Listen _ => true | _ => false end) ds).

(** The facilities of syslog, RFC 5424, table 1: a facility is passed to syslog multiplied by 8 *)
Definition facilities : list (string * Z) :=
  [ ("kern", 0); ("user", 1); ("mail", 2); ("daemon", 3); ("auth", 4); ("syslog", 5); ("lpr", 6); ("news", 7); ("uucp", 8); ("cron", 9); ("authpriv", 10);
    ("ftp", 11); ("local0", 16); ("local1", 17); ("local2", 18); ("local3", 19); ("local4", 20); ("local5", 21); ("local6", 22); ("local7", 23) ].
