(** What the directives of DirModel say, independently of the code. *)
From Coq Require Import Ascii String List ZArith Bool.
From Verif Require Import Bytes ClenSpec NumSpec DirModel.
From Verif Require LexSpec KeyModel.
Import ListNotations.
Open Scope string_scope.
Open Scope list_scope.
Open Scope Z_scope.

(** Words of fixed lists are compared without regard to case *)
Definition same_word (a b : bytes) : Prop := lower a = lower b.

(** A number of the configuration and its value *)
Definition value (w : bytes) (n : Z) : Prop := number_token w /\ numeral decimal 10 w n.

(** ** Redirect *)
Definition redirect_codes : list Z := [301; 302; 303; 307; 308].
(** The text begins with a URL of HTTP: [a] is its scheme and host, [p] its path with all
    that follows *)
Definition begins (u a p : bytes) : Prop :=
  exists s h, (same_word s (lit "http://") \/ same_word s (lit "https://")) /\
    h <> [] /\ ~ In "/"%char h /\ a = s ++ h /\ u = a ++ p /\ (p = [] \/ exists q, p = "/"%char :: q).
(** The first such URL in the text, with what comes before it *)
Definition parts (u a p : bytes) : Prop :=
  exists pre b, a = pre ++ b /\ u = pre ++ b ++ p /\ begins (b ++ p) b p /\
    forall x y, pre = x ++ y -> y <> [] -> ~ exists a' p', begins (y ++ b ++ p) a' p'.

(** ** Error pages *)
(** The file as a string: what comes before the first NUL *)
Definition as_string (c t : bytes) : Prop := ~ In NUL t /\ (c = t \/ exists r, c = t ++ NUL :: r).

(** ** Sessions *)
Definition type_names : list (string * KeyModel.sess_type) :=
  [ ("ip", KeyModel.SESS_IP); ("cookie", KeyModel.SESS_COOKIE); ("url", KeyModel.SESS_URL); ("parm", KeyModel.SESS_PARM);
    ("basic", KeyModel.SESS_BASIC); ("header", KeyModel.SESS_HEADER) ].
(** A statement of a Session section that says something *)
Inductive setting := SType (t : KeyModel.sess_type) | STtl (n : Z) | SId (i : bytes).
Inductive says : skey * LexSpec.lexeme -> setting -> Prop :=
| says_type : forall w name t, In (name, t) type_names -> same_word w (lit name) -> says (K_TYPE, LexSpec.Ident w) (SType t)
| says_ttl : forall w n, value w n -> n < 4294967296 -> says (K_TTL, LexSpec.Number w) (STtl n)
| says_id : forall i, says (K_ID, LexSpec.Quoted i) (SId i).
(** The last setting of each kind counts; without one, what was there before *)
Fixpoint settled (s : sess) (l : list setting) : sess :=
  match l with
  | [] => s
  | SType t :: l => settled (mkSess t (se_ttl s) (se_id s)) l
  | STtl n :: l => settled (mkSess (se_type s) n (se_id s)) l
  | SId i :: l => settled (mkSess (se_type s) (se_ttl s) (Some i)) l
  end.
Definition needs_id (t : KeyModel.sess_type) : Prop := In t [KeyModel.SESS_COOKIE; KeyModel.SESS_URL; KeyModel.SESS_HEADER].
Definition complete (s : sess) : Prop :=
  se_type s <> KeyModel.SESS_NONE /\ se_ttl s <> 0 /\ (needs_id (se_type s) -> se_id s <> None).
Definition sess_number (t : LexSpec.lexeme) : Prop := match t with LexSpec.Number w => number_token w | _ => True end.

(** ** Logging *)
(** A word and the token it is written as *)
Definition unq (t : LexSpec.lexeme) (w : bytes) : Prop := t = LexSpec.Ident w \/ t = LexSpec.Number w \/ t = LexSpec.Literal w.
Definition no_word (t : LexSpec.lexeme) : Prop := t = LexSpec.Newline \/ exists v, t = LexSpec.Quoted v.
(** The classes of status codes a word of LogSuppress stands for *)
Definition classes : list (string * list Z) :=
  [ ("info", [1]); ("1", [1]); ("success", [2]); ("2", [2]); ("redirect", [3]); ("3", [3]); ("clterr", [4]); ("4", [4]);
    ("srverr", [5]); ("5", [5]); ("all", [1; 2; 3; 4; 5]) ].
Definition stands_for (w : bytes) (cs : list Z) : Prop := exists name, In (name, cs) classes /\ same_word w (lit name).
Definition known_class (w : bytes) : Prop := exists cs, stands_for w cs.
Definition covered (ws : list bytes) (status : Z) : Prop :=
  exists w cs, In w ws /\ stands_for w cs /\ In (status / 100) cs.

(** ** Header options *)
Inductive feature := Forwarded | Ssl.
Definition has (o : hdropt) (f : feature) : bool := match f with Forwarded => ho_forwarded o | Ssl => ho_ssl o end.
Definition feature_name (f : feature) : string := match f with Forwarded => "forwarded" | Ssl => "ssl" end.
Definition turns_on (w : bytes) (f : feature) : Prop := same_word w (lit "all") \/ same_word w (lit (feature_name f)).
Definition turns_off (w : bytes) (f : feature) : Prop :=
  same_word w (lit "none") \/ same_word w (lit "no-all") \/ same_word w (lit "no-" ++ lit (feature_name f)).
Definition known_option (w : bytes) : Prop := exists f, turns_on w f \/ turns_off w f.
Definition opt_word (t : LexSpec.lexeme) (w : bytes) : Prop := t = LexSpec.Ident w \/ t = LexSpec.Literal w.
(** After the words [ws], beginning with [b] *)
Definition ends_on (b : bool) (ws : list bytes) (f : feature) : Prop :=
  (b = true /\ Forall (fun w => ~ turns_off w f) ws) \/
  exists l1 w l2, ws = l1 ++ w :: l2 /\ turns_on w f /\ Forall (fun w => ~ turns_off w f) l2.

(** ** Versions of TLS, from the oldest on *)
Definition age (v : proto) : Z :=
  match v with SSLv2 => 0 | SSLv3 => 1 | TLSv1 => 2 | TLSv1_1 => 3 | TLSv1_2 => 4 | TLSv1_3 => 5 end.
Definition proto_names : list (string * proto) :=
  [ ("SSLv2", SSLv2); ("SSLv3", SSLv3); ("TLSv1", TLSv1); ("TLSv1_1", TLSv1_1); ("TLSv1_2", TLSv1_2) ].
(** Disable directives one after the other *)
Fixpoint disables (opts : list proto) (ws : list bytes) : option (list proto) :=
  match ws with
  | [] => Some opts
  | w :: ws => match set_proto_opt opts [LexSpec.Ident w] with Some (o, _) => disables o ws | None => None end
  end.
Fixpoint disables_backend (ctx : option (list proto)) (ws : list bytes) : option (option (list proto)) :=
  match ws with
  | [] => Some ctx
  | w :: ws => match disable_proto ctx [LexSpec.Ident w] with Some (o, _) => disables_backend o ws | None => None end
  end.
