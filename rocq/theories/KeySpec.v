(** Session keys, independently of the model. *)
From Coq Require Import Ascii String List ZArith.
From Verif Require Import Bytes TokSpec ReqSpec.
Import ListNotations.

(** A key is cut to its first 127 bytes. *)
Definition cut (s : bytes) : bytes := firstn 127 s.

(** [pieces s l]: [l] is what is between the semicolons of [s]. *)
Inductive pieces : bytes -> list bytes -> Prop :=
| pc_last : forall s, ~ In ";"%char s -> pieces s [s]
| pc_more : forall s r l, ~ In ";"%char s -> pieces r l -> pieces (s ++ ";"%char :: r) (s :: l).

(** [cookie name p v]: after leading blanks and tabs, the piece [p] is the name,
    in any letter case, an equal sign and [v]. *)
Definition cookie (name p v : bytes) : Prop :=
  exists b n, p = b ++ n ++ "="%char :: v /\ same_letters n name /\
    Forall (fun c => c = " "%char \/ c = "009"%char) b /\
    (forall c u, n ++ "="%char :: v = c :: u -> c <> " "%char /\ c <> "009"%char).

(** [v] is the value of the first cookie of that name in a Cookie field. *)
Definition first_cookie (name s v : bytes) : Prop :=
  exists l a p b, pieces s l /\ l = a ++ p :: b /\ cookie name p v /\
    Forall (fun q => forall w, ~ cookie name q w) a.

(** Basic credentials: the scheme, white space, and [c]. *)
Definition basic_credentials (s c : bytes) : Prop :=
  exists scheme w, s = scheme ++ w ++ c /\ same_letters scheme (lit "Basic") /\
    w <> [] /\ Forall white w /\ (forall x u, c = x :: u -> ~ white x).

(** The first field of that name has the value [v]. *)
Definition field_value (fs : list field) (name v : bytes) : Prop :=
  exists a n b, first_named name fs a (n, v) b.

(** [v] is what follows the last semicolon. *)
Definition last_piece (s v : bytes) : Prop :=
  exists p, s = p ++ ";"%char :: v /\ ~ In ";"%char v.
