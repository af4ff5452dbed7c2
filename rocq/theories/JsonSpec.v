(** Objects as finite maps, and which values survive being written and read. *)
From Coq Require Import Ascii String List ZArith Bool Sorted.
From Verif Require Import Bytes JsonModel.
Import ListNotations.
Local Open Scope nat_scope.
Local Open Scope string_scope.
Local Open Scope list_scope.

(** The order of keys: the first difference decides, a text precedes its
    continuations. *)
Definition precedes (a b : bytes) : Prop :=
  (exists c r, b = a ++ c :: r) \/
  (exists p x y a' b', a = p ++ x :: a' /\ b = p ++ y :: b' /\ (code x < code y)%Z).

Section Maps.
  Context {V : Type}.

  (** The last value given to a key. *)
  Definition last_set (ops : list (bytes * V)) (k : bytes) (v : V) : Prop :=
    exists pre post, ops = pre ++ (k, v) :: post /\ ~ In k (map fst post).

  (** An object made by setting keys in turn. *)
  Definition set_all (ops : list (bytes * V)) : option (object V) :=
    fold_left (fun o kv => match o with Some o => json_object_set o (fst kv) (snd kv) | None => None end)
      ops (Some json_new_object).
End Maps.

(** ** Values *)

Definition is_hex (c : byte) : Prop := is_xdigit c = true.

(** No backspace or form feed is followed by three hexadecimal digits. *)
Definition plain (s : bytes) : Prop :=
  ~ In NUL s /\
  forall pre c x y z post, s = pre ++ c :: x :: y :: z :: post -> c = "008"%char \/ c = "012"%char ->
    ~ (is_hex x /\ is_hex y /\ is_hex z).

(** What can follow a value in a text. *)
Definition ends_value (rest : bytes) : Prop :=
  match rest with [] => True | c :: _ => In c [SP; LF; ","%char; "]"%char; "}"%char] end.

(** The number [d] is printed so that it can be read back, and distinguished from
    the other tokens by its first character. *)
Definition readable (N : numbers) (t : bytes) (d : dbl N) : Prop :=
  (exists c r, t = c :: r /\ starts_number c = true) /\
  forall rest, ends_value rest -> strtod N (t ++ rest) = (Some d, rest).

(** Values as the program builds them: the keys of an object are in order (C32),
    numbers are readable and strings plain. *)
Inductive good (N : numbers) (prec : Z) : jv N -> Prop :=
| gd_null : good N prec (JNull N)
| gd_bool : forall b, good N prec (JBool N b)
| gd_number : forall d, readable N (print_num N prec d) d -> good N prec (JNumber N d)
| gd_integer : forall d, readable N (print_int N d) d -> good N prec (JInteger N d)
| gd_string : forall s, plain s -> good N prec (JString N s)
| gd_array : forall l, Forall (good N prec) l -> good N prec (JArray N l)
| gd_object : forall l, Forall (fun p => plain (fst p) /\ good N prec (snd p)) l ->
    StronglySorted precedes (map fst l) -> good N prec (JObject N l).

(** The same value, except that the reader does not distinguish integers. *)
Fixpoint as_read (N : numbers) (v : jv N) : jv N :=
  match v with
  | JInteger _ d => JNumber N d
  | JArray _ l => JArray N (map (as_read N) l)
  | JObject _ l => JObject N (map (fun p => (fst p, as_read N (snd p))) l)
  | v => v
  end.

(** ** The grammar of JSON (RFC 8259) *)

Definition ws (w : bytes) : Prop := Forall (fun c => In c [SP; TAB; LF; CR]) w.

Inductive chars : bytes -> Prop :=
| ch_nil : chars []
| ch_char : forall c t, (32 <= code c)%Z -> c <> """"%char -> c <> "\"%char -> chars t -> chars (c :: t)
| ch_escape : forall c t, In c (lit """\/bfnrt") -> chars t -> chars ("\"%char :: c :: t)
| ch_unicode : forall a b c d t, is_hex a -> is_hex b -> is_hex c -> is_hex d -> chars t ->
    chars ("\"%char :: "u"%char :: a :: b :: c :: d :: t).

Inductive string_text : bytes -> Prop :=
| st_intro : forall t, chars t -> string_text (""""%char :: t ++ [""""%char]).

Definition digits (t : bytes) : Prop := Forall (fun c => is_digit c = true) t.
(** [ minus ] int [ frac ] [ exp ] *)
Inductive number_text : bytes -> Prop :=
| nt_intro : forall sign int frac exp, In sign [[]; ["-"%char]] ->
    (int = ["0"%char] \/ exists c r, int = c :: r /\ digits int /\ c <> "0"%char) ->
    (frac = [] \/ exists d, frac = "."%char :: d /\ d <> [] /\ digits d) ->
    (exp = [] \/ exists e s d, exp = e :: s ++ d /\ In e ["e"%char; "E"%char] /\ In s [[]; ["-"%char]; ["+"%char]] /\ d <> [] /\ digits d) ->
    number_text (sign ++ int ++ frac ++ exp).

Inductive json_text : bytes -> Prop :=
| jt_word : forall t, In t [lit "null"; lit "true"; lit "false"] -> json_text t
| jt_number : forall t, number_text t -> json_text t
| jt_string : forall t, string_text t -> json_text t
| jt_array0 : forall w, ws w -> json_text ("["%char :: w ++ ["]"%char])
| jt_array : forall t, elements t -> json_text ("["%char :: t ++ ["]"%char])
| jt_object0 : forall w, ws w -> json_text ("{"%char :: w ++ ["}"%char])
| jt_object : forall t, members_text t -> json_text ("{"%char :: t ++ ["}"%char])
with elements : bytes -> Prop :=
| el_one : forall w t w', ws w -> json_text t -> ws w' -> elements (w ++ t ++ w')
| el_more : forall w t w' ts, ws w -> json_text t -> ws w' -> elements ts -> elements (w ++ t ++ w' ++ ","%char :: ts)
with members_text : bytes -> Prop :=
| mb_one : forall m, member_text m -> members_text m
| mb_more : forall m ms, member_text m -> members_text ms -> members_text (m ++ ","%char :: ms)
with member_text : bytes -> Prop :=
| mb_intro : forall w k w1 w2 t w', ws w -> string_text k -> ws w1 -> ws w2 -> json_text t -> ws w' ->
    member_text (w ++ k ++ w1 ++ ":"%char :: w2 ++ t ++ w').

(** No control character other than backspace, form feed, line feed, carriage return
    and tab. *)
Definition printable (s : bytes) : Prop :=
  Forall (fun c => (32 <= code c)%Z \/ In c ["008"%char; "012"%char; LF; CR; TAB]) s.

(** The strings in a value are printable and its numbers printed as numbers. *)
Inductive writable (N : numbers) (prec : Z) : jv N -> Prop :=
| wr_null : writable N prec (JNull N)
| wr_bool : forall b, writable N prec (JBool N b)
| wr_number : forall d, number_text (print_num N prec d) -> writable N prec (JNumber N d)
| wr_integer : forall d, number_text (print_int N d) -> writable N prec (JInteger N d)
| wr_string : forall s, printable s -> writable N prec (JString N s)
| wr_array : forall l, Forall (writable N prec) l -> writable N prec (JArray N l)
| wr_object : forall l, Forall (fun p => printable (fst p) /\ writable N prec (snd p)) l -> writable N prec (JObject N l).

(** strtod stops within the text it is given. *)
Definition stops_within (N : numbers) : Prop := forall s d rest, strtod N s = (Some d, rest) -> exists p, s = p ++ rest.

(** No backslash is followed by four hexadecimal digits or by fewer at the end. *)
Definition no_hex_escape (t : bytes) : Prop :=
  forall pre r, t = pre ++ "\"%char :: r -> exists a c b, r = a ++ c :: b /\ length a < 4 /\ ~ is_hex c.

(** ** What the texts of strings mean (RFC 8259, section 7; without \uXXXX) *)

Definition escapes : list (byte * byte) :=
  [ (""""%char, """"%char); ("\"%char, "\"%char); ("/"%char, "/"%char); ("b"%char, "008"%char); ("f"%char, "012"%char);
    ("n"%char, "010"%char); ("r"%char, "013"%char); ("t"%char, "009"%char) ].
(** The characters between the quotation marks and the string they stand for *)
Inductive denotes : bytes -> bytes -> Prop :=
| dn_nil : denotes [] []
| dn_char : forall c t s, (32 <= code c)%Z -> c <> """"%char -> c <> "\"%char -> denotes t s -> denotes (c :: t) (c :: s)
| dn_escape : forall e c t s, In (e, c) escapes -> denotes t s -> denotes ("\"%char :: e :: t) (c :: s).

(** UTF-8 (RFC 3629), for code points of up to four hexadecimal digits: the shortest of the forms *)
Definition tail_byte (b : byte) (v : Z) : Prop := (code b = 128 + v /\ 0 <= v < 64)%Z.
Inductive utf8 : Z -> bytes -> Prop :=
| u_one : forall b, (code b < 128)%Z -> utf8 (code b) [b]
| u_two : forall b0 b1 v0 v1, (code b0 = 192 + v0 /\ 0 <= v0 < 32)%Z -> tail_byte b1 v1 -> (128 <= v0 * 64 + v1)%Z ->
    utf8 (v0 * 64 + v1) [b0; b1]
| u_three : forall b0 b1 b2 v0 v1 v2, (code b0 = 224 + v0 /\ 0 <= v0 < 16)%Z -> tail_byte b1 v1 -> tail_byte b2 v2 ->
    (2048 <= (v0 * 64 + v1) * 64 + v2)%Z -> utf8 ((v0 * 64 + v1) * 64 + v2) [b0; b1; b2].

(** The value of a hexadecimal digit *)
Definition digit_value (c : byte) (v : Z) : Prop :=
  nth_error (lit "0123456789abcdef") (Z.to_nat v) = Some c /\ (0 <= v)%Z \/
  nth_error (lit "0123456789ABCDEF") (Z.to_nat v) = Some c /\ (0 <= v)%Z.
