(** Request lines, header fields and message heads, independently of the model. *)
From Coq Require Import Ascii String List ZArith.
From Verif Require Import Bytes ClenSpec StreamSpec TokSpec.
Import ListNotations.
Open Scope Z_scope.

(** ** Request line *)

(** The methods of each of the four groups selected by the xHTTP directive. *)
Definition method_group (g : Z) : list string :=
  if g =? 0 then ["GET"; "POST"; "HEAD"]%string
  else if g =? 1 then ["PUT"; "PATCH"; "DELETE"]%string
  else if g =? 2 then
    ["LOCK"; "UNLOCK"; "PROPFIND"; "PROPPATCH"; "SEARCH"; "MKCOL"; "MOVE"; "COPY";
     "OPTIONS"; "TRACE"; "MKACTIVITY"; "CHECKOUT"; "MERGE"; "REPORT"]%string
  else if g =? 3 then
    ["SUBSCRIBE"; "UNSUBSCRIBE"; "BPROPPATCH"; "POLL"; "BMOVE"; "BCOPY"; "BDELETE";
     "BPROPFIND"; "NOTIFY"; "CONNECT"]%string
  else [].

(** [method m name g]: the text [m] names, in any letter case, the method
    [name] of group [g]. *)
Definition method (m name : bytes) (g : Z) : Prop :=
  exists n, In n (method_group g) /\ name = lit n /\ same_letters m name.

Definition spaces (s : bytes) : Prop := s <> [] /\ Forall (fun c => c = " "%char) s.
Definition word (s : bytes) : Prop := s <> [] /\ ~ In " "%char s.

(** [request_line s m url v]: METHOD SP+ URL SP+ HTTP/1.v *)
Definition request_line (s m url : bytes) (v : Z) : Prop :=
  exists s1 s2 d,
    s = m ++ s1 ++ url ++ s2 ++ lit "HTTP/1." ++ [d] /\
    word m /\ spaces s1 /\ word url /\ spaces s2 /\
    (d = "0"%char /\ v = 0 \/ d = "1"%char /\ v = 1).

(** ** Header fields *)

(** Token characters of RFC 7230. *)
Definition token_char (c : byte) : Prop :=
  In c (lit "!#$%&'*+-.^_`|~0123456789ABCDEFGHIJKLMNOPQRSTUVWXYZabcdefghijklmnopqrstuvwxyz").

(** [field_line s name value]: name, colon, blanks, value up to the end. *)
Definition field_line (s name value : bytes) : Prop :=
  exists b, s = name ++ ":"%char :: b ++ value /\
    name <> [] /\ Forall token_char name /\ Forall blank b /\
    (forall c u, value = c :: u -> ~ blank c).

(** A field is a name and a value; names are compared ignoring case. *)
Definition field := (bytes * bytes)%type.
Definition named (n : bytes) (f : field) : Prop := same_letters (fst f) n.

(** [first_named n l a f b]: [f] is the first field of [l] named [n]. *)
Definition first_named (n : bytes) (l a : list field) (f : field) (b : list field) : Prop :=
  l = a ++ f :: b /\ named n f /\ Forall (fun g => ~ named n g) a.

(** Same test as a boolean, and the fields of other names. *)
Definition is_named (n : bytes) (f : field) : bool := ci_eqb (fst f) n.
Definition others (n : bytes) (l : list field) : list field :=
  filter (fun f => negb (is_named n f)) l.

(** ** Message head *)

(** Lines up to and including the empty one. *)
Inductive head_lines (lim : Z) : bytes -> list bytes -> bytes -> Prop :=
| hl_end : forall e rest, eol e -> head_lines lim (e ++ rest) [] rest
| hl_end_eof : head_lines lim ["013"%char] [] []
| hl_line : forall l e s ls rest,
    text l -> l <> [] -> eol e -> Z.of_nat (length l + length e) < lim ->
    head_lines lim s ls rest -> head_lines lim (l ++ e ++ s) (l :: ls) rest.

(** Optional empty lines, the request (or status) line, the header lines. *)
Inductive message_head (lim : Z) : bytes -> bytes -> list bytes -> bytes -> Prop :=
| mh_blank : forall e s l ls rest,
    eol e -> message_head lim s l ls rest -> message_head lim (e ++ s) l ls rest
| mh_first : forall l e s ls rest,
    text l -> l <> [] -> eol e -> Z.of_nat (length l + length e) < lim ->
    head_lines lim s ls rest -> message_head lim (l ++ e ++ s) l ls rest.

(** The fields a list of header lines denotes: lines that are no field are
    dropped. *)
Inductive fields_of : list bytes -> list field -> Prop :=
| fo_nil : fields_of [] []
| fo_field : forall l n v ls fs,
    field_line l n v -> fields_of ls fs -> fields_of (l :: ls) ((n, v) :: fs)
| fo_drop : forall l ls fs,
    (forall n v, ~ field_line l n v) -> fields_of ls fs -> fields_of (l :: ls) fs.

(** Values joined by comma and space. *)
Fixpoint join (vs : list bytes) : bytes :=
  match vs with
  | [] => []
  | [v] => v
  | v :: vs' => v ++ ","%char :: " "%char :: join vs'
  end.

(** [collect n fs vs others]: [vs] are the values of the fields of [fs] named
    [n], [others] the remaining fields. *)
Inductive collect (n : bytes) : list field -> list bytes -> list field -> Prop :=
| co_nil : collect n [] [] []
| co_hit : forall m v fs vs o,
    same_letters m n -> collect n fs vs o -> collect n ((m, v) :: fs) (v :: vs) o
| co_miss : forall m v fs vs o,
    ~ same_letters m n -> collect n fs vs o -> collect n ((m, v) :: fs) vs ((m, v) :: o).

(** [comb n]: the name is configured as combinable.  [combined comb fs gs]: in
    [gs] each combinable name of [fs] occurs once, at the place and with the
    spelling of its first occurrence, with all its values joined in order; all
    other fields are unchanged and in place. *)
Inductive combined (comb : bytes -> Prop) : list field -> list field -> Prop :=
| cb_nil : combined comb [] []
| cb_plain : forall n v fs gs,
    ~ comb n -> combined comb fs gs -> combined comb ((n, v) :: fs) ((n, v) :: gs)
| cb_comb : forall n v fs vs others gs,
    comb n -> collect n fs vs others -> combined comb others gs ->
    combined comb ((n, v) :: fs) ((n, join (v :: vs)) :: gs).

(** Combinable names given as a list, compared ignoring case. *)
Definition combs (comb : list bytes) (n : bytes) : Prop :=
  exists c, In c comb /\ same_letters c n.
