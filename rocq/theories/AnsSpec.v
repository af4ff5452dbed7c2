(** Answers of an HTTP server that carry a JSON value. *)
From Coq Require Import Ascii String List ZArith.
From Verif Require Import Bytes ClenSpec TokSpec ReqSpec FrameSpec RespSpec NumSpec.
Import ListNotations.
Local Open Scope string_scope.
Local Open Scope list_scope.
Local Open Scope Z_scope.

(** A line of a message head, without its end: at most 4093 characters. *)
Definition fit (t : bytes) : Prop :=
  ~ In "013"%char t /\ ~ In "010"%char t /\ ~ In "000"%char t /\ Z.of_nat (length t) <= 4093.

(** [reason line t]: [t] is the text after the status code. *)
Definition reason (line t : bytes) : Prop :=
  exists pre a b c x y z sp, line = pre ++ [a; b; c] ++ sp ++ t /\ (exists dv bl, pre = lit "HTTP/1." ++ [dv] ++ bl /\ Forall blank bl) /\
    decimal a x /\ decimal b y /\ decimal c z /\ Forall (fun s => s = " "%char) sp /\ hd_error t <> Some " "%char.

(** [answer s line v code fs rest]: [s] begins with the head of a response of version 1.[v], with that code
    and those fields, after it comes [rest]. *)
Definition answer (s line : bytes) (v code : Z) (fs : list field) (rest : bytes) : Prop :=
  exists texts, s = head_text line texts ++ rest /\ fit line /\ Forall fit texts /\
    status_line line v code /\ Forall2 (fun t f => field_line t (fst f) (snd f)) texts fs.

(** The fields of an answer with a JSON text as body: its type, and its length, if not delimited by the end of the connection *)
Definition json_fields (v : Z) (fs : list field) (body rest : bytes) : Prop :=
  Forall (fun w => w = lit "application/json") (values "Content-Type" fs) /\
  ((exists w, values "Content-Length" fs = [w] /\ number_token w /\ numeral decimal 10 w (Z.of_nat (length body)))
   \/ values "Content-Length" fs = [] /\ rest = [] /\
      (v = 0 \/ exists us w, values "Connection" fs = us ++ [w] /\ same_letters w (lit "close"))).
