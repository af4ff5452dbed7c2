(** What a Host condition means. *)
From Coq Require Import Ascii String List ZArith Bool.
From Verif Require Import Bytes ReqModel XpdSpec HostModel.
Import ListNotations.

(** Comparison of texts, without regard to case if [ci]. *)
Definition same_text (ci : bool) (a b : bytes) : Prop := if ci then lower a = lower b else a = b.

Definition white_space (c : byte) : Prop := is_space c = true.

(** [line] is a Host field of value [v] (without the white space before it). *)
Definition host_line (ci : bool) (line v : bytes) : Prop :=
  exists n w, line = n ++ w ++ v /\ same_text ci n (lit "Host:") /\ Forall white_space w /\ ~ begins white_space v.

(** The value is of the required kind. *)
Definition fits (t : gp_type) (ci : bool) (text v : bytes) : Prop :=
  match t with
  | GENPAT_EXACT => same_text ci v text
  | GENPAT_PREFIX => exists a b, v = a ++ b /\ same_text ci a text
  | GENPAT_SUFFIX => exists a b, v = a ++ b /\ same_text ci b text
  | GENPAT_CONTAIN => exists a m b, v = a ++ m ++ b /\ same_text ci m text
  | GENPAT_POSIX => False
  end.

(** Texts without the characters that the code forgets to escape, and that do not
    begin with white space. *)
Definition plain_text (text : bytes) : Prop :=
  Forall (fun c => c <> "^"%char /\ c <> "$"%char /\ c <> "|"%char) text /\ ~ begins white_space text.

(** Files of patterns.  Lines that are blank, or begin with a hash sign after blanks, are ignored. *)
Definition blank (c : byte) : Prop := c = SP \/ c = TAB.
Definition blank_end (c : byte) : Prop := c = SP \/ c = TAB \/ c = LF.
Definition ignored_line (l : bytes) : Prop := exists w r, l = w ++ r /\ Forall blank w /\ (Forall blank_end r \/ exists r', r = "#"%char :: r').
(** The pattern of another line, without the blanks around it *)
Definition pattern_line (l text : bytes) : Prop := exists w w', l = w ++ text ++ w' /\ Forall blank w /\ Forall blank_end w' /\
  (exists c r, text = c :: r /\ ~ blank c /\ c <> "#"%char) /\ (exists c r, text = r ++ [c] /\ ~ blank_end c).
