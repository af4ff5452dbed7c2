(** What the manual says about log formats (doc/pound.8, REQUEST LOGGING). *)
From Coq Require Import Ascii String List ZArith.
From Verif Require Import Bytes LogModel.
Import ListNotations.
Open Scope Z_scope.

(** A format is made of characters and conversions. *)
Inductive item := Char (c : byte) | Conv (arg : option bytes) (c : byte) | First_line.
Inductive parses : bytes -> list item -> Prop :=
| parse_end : parses [] []
| parse_char : forall c s l, c <> "%"%char -> parses s l -> parses (c :: s) (Char c :: l)
| parse_conv : forall c s l, c <> "{"%char -> (c = ">"%char -> hd_error s <> Some "s"%char) -> parses s l -> parses ("%"%char :: c :: s) (Conv None c :: l)
| parse_arg : forall a c s l, ~ In "}"%char a -> parses s l -> parses (lit "%{" ++ a ++ "}"%char :: c :: s) (Conv (Some a) c :: l)
| parse_first : forall s l, parses s l -> parses (lit "%>s" ++ s) (First_line :: l).

(** Decimal notation: digits, without leading zeros, and the number they denote *)
Fixpoint value (ds : bytes) (n : Z) : Z := match ds with [] => n | d :: ds => value ds (10 * n + (code d - 48)) end.
Definition decimal (n : Z) (s : bytes) : Prop :=
  s <> [] /\ Forall (fun c => 48 <= code c <= 57) s /\ value s 0 = n /\ (1 < length s -> hd_error s <> Some "0"%char)%nat.
(** The same with exactly [w] digits *)
Definition decimal_w (w : nat) (n : Z) (s : bytes) : Prop :=
  length s = w /\ Forall (fun c => 48 <= code c <= 57) s /\ value s 0 = n.

(** Nanoseconds *)
Definition nanos (t : timespec) : Z := tv_sec t * 1000000000 + tv_nsec t.
Definition normal (t : timespec) : Prop := 0 <= tv_sec t /\ 0 <= tv_nsec t < 1000000000.

(** The manual: what each conversion is replaced by.  Left out: %D and %{sec}t. *)
Definition standard_time : bytes := lit "[%d/%b/%Y:%H:%M:%S %z]".
Definition keywords : list bytes := map lit ["s"; "sec"; "msec"; "usec"; "msec_frac"; "usec_frac"]%string.
(** The address with its last part replaced by 0 *)
Definition hidden (a v : bytes) : Prop :=
  (exists p r, a = p ++ lit "." ++ r /\ ~ In "."%char r /\ v = p ++ lit ".0") \/
  (~ In "."%char a /\ exists p r, a = p ++ lit ":" ++ r /\ ~ In ":"%char r /\ v = p ++ lit ":0") \/
  (~ In "."%char a /\ ~ In ":"%char a /\ v = a).
Definition remote (anonymise : bool) (q : request) (v : bytes) : Prop :=
  match q_remote q with None => v = lit "socket" | Some a => if anonymise then hidden a v else v = a end.
Inductive means (anonymise : bool) (q : request) : item -> bytes -> Prop :=
| m_char : forall c, means anonymise q (Char c) [c]
| m_percent : means anonymise q (Conv None "%") (lit "%")
| m_originator : forall v, match q_forwarded q with Some ip => v = ip | None => remote anonymise q v end -> means anonymise q (Conv None "a") v
| m_local : means anonymise q (Conv None "A") (q_local q)
| m_size : forall v, decimal (q_res_bytes q) v -> means anonymise q (Conv None "B") v
| m_size_clf : forall v, (if Z.eqb (q_res_bytes q) 0 then v = lit "-" else decimal (q_res_bytes q) v) -> means anonymise q (Conv None "b") v
| m_remote : forall v, remote anonymise q v -> means anonymise q (Conv None "h") v
| m_protocol : means anonymise q (Conv None "H") (if q_ssl q then lit "https" else lit "http")
| m_header : forall n, n <> [] -> means anonymise q (Conv (Some n) "i") (match q_header q n with Some v => v | None => [] end)
| m_header_clf : forall n, n <> [] -> means anonymise q (Conv (Some n) "I") (match q_header q n with Some v => v | None => lit "-" end)
| m_loc_backend : forall v, q_locus q O_backend = Some v -> means anonymise q (Conv (Some (lit "backend")) "L") v
| m_loc_service : forall v, q_locus q O_service = Some v -> means anonymise q (Conv (Some (lit "service")) "L") v
| m_loc_listener : forall v, q_locus q O_listener = Some v -> means anonymise q (Conv (Some (lit "listener")) "L") v
| m_method : forall v, q_method q = Some v -> means anonymise q (Conv None "m") v
| m_name_backend : means anonymise q (Conv (Some (lit "backend")) "N") (q_backend_str q)
| m_name_service : forall v, q_be_type q = BT_REGULAR -> q_be_service q = Some v -> means anonymise q (Conv (Some (lit "service")) "N") v
| m_name_listener : forall v, q_listener q = Some v -> means anonymise q (Conv (Some (lit "listener")) "N") v
| m_thread : means anonymise q (Conv None "P") (q_tid q)
| m_query : means anonymise q (Conv None "q") (match q_query q with Some s => lit "?" ++ s | None => [] end)
| m_request : means anonymise q (Conv None "r") (q_orig_line q)
| m_status : forall v, 100 <= q_code q <= 999 -> decimal (q_code q) v -> means anonymise q (Conv None "s") v
| m_first_line : means anonymise q First_line (q_status_line q)
| m_time : means anonymise q (Conv None "t") (q_strftime q standard_time (tv_sec (q_start q)))
| m_time_format : forall pre f t, (* begin: and end: *)
    (pre = [] /\ (forall r, f <> lit "begin:" ++ r) /\ (forall r, f <> lit "end:" ++ r) \/ pre = lit "begin:") /\ t = q_start q \/ pre = lit "end:" /\ t = q_end q ->
    f <> [] -> ~ In f keywords -> means anonymise q (Conv (Some (pre ++ f)) "t") (q_strftime q f (tv_sec t))
| m_time_unit : forall pre f t v,
    (pre = [] \/ pre = lit "begin:") /\ t = q_start q \/ pre = lit "end:" /\ t = q_end q ->
    f = lit "msec" /\ decimal (nanos t / 1000000) v \/ f = lit "usec" /\ decimal (nanos t / 1000) v \/
    f = lit "msec_frac" /\ decimal_w 3 (tv_nsec t / 1000000) v \/ f = lit "usec_frac" /\ decimal_w 6 (tv_nsec t / 1000) v ->
    means anonymise q (Conv (Some (pre ++ f)) "t") v
| m_taken : forall v, decimal ((nanos (q_end q) - nanos (q_start q)) / 1000000000) v -> means anonymise q (Conv None "T") v
| m_taken_unit : forall u unit v, In (u, unit) [("s", 1000000000); ("ms", 1000000); ("us", 1000)]%string ->
    decimal ((nanos (q_end q) - nanos (q_start q)) / unit) v -> means anonymise q (Conv (Some (lit u)) "T") v
| m_taken_frac : forall a b, decimal ((nanos (q_end q) - nanos (q_start q)) / 1000000000) a ->
    decimal_w 3 ((nanos (q_end q) - nanos (q_start q)) / 1000000 mod 1000) b -> means anonymise q (Conv (Some (lit "f")) "T") (a ++ lit "." ++ b)
| m_user : forall v, v = match q_user q with Some u => u | None => lit "-" end -> means anonymise q (Conv None "u") v
| m_path : forall v, q_path q = Some v -> means anonymise q (Conv None "U") v
| m_listener : forall v, q_listener q = Some v -> means anonymise q (Conv None "v") v.

(** The times of a request: it does not end before it starts. *)
Definition timed (q : request) : Prop := normal (q_start q) /\ normal (q_end q) /\ nanos (q_start q) <= nanos (q_end q) /\ 0 <= q_res_bytes q.

(** Conversion characters in the manual *)
Definition conversion (c : byte) : Prop := In c (lit "%aAbBDhHiILmNPqrstTuUv").
Definition known_item (i : item) : Prop :=
  match i with
  | Conv a c => conversion c /\ (In c ["i"; "I"; "L"; "N"]%char -> a <> None)   (* those that need an argument have one *)
  | _ => True
  end.
