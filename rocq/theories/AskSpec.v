(** What poundctl asks for: its manual, section of commands, and base64 (RFC 4648).
    Independent of the functions of the model. *)
From Coq Require Import Ascii String List ZArith.
From Verif Require Import Bytes ClenSpec NumSpec StreamSpec.
From Verif Require PtlModel ReqSpec CtlSpec AuthModel.
Import ListNotations.
Local Open Scope string_scope.
Local Open Scope list_scope.
Local Open Scope Z_scope.

(** ** base64 *)

Definition six_bits (c : byte) (v : Z) : Prop :=
  0 <= v /\ nth_error (lit "ABCDEFGHIJKLMNOPQRSTUVWXYZabcdefghijklmnopqrstuvwxyz0123456789+/") (Z.to_nat v) = Some c.
Inductive base64 : bytes -> bytes -> Prop :=
| b_nil : base64 [] []
| b_one : forall a p q v w, six_bits p v -> six_bits q w -> code a * 16 = v * 64 + w -> base64 [a] [p; q; "="%char; "="%char]
| b_two : forall a b p q r v w x, six_bits p v -> six_bits q w -> six_bits r x ->
    (code a * 256 + code b) * 4 = v * 4096 + w * 64 + x -> base64 [a; b] [p; q; r; "="%char]
| b_three : forall a b c p q r s v w x y t e, six_bits p v -> six_bits q w -> six_bits r x -> six_bits s y ->
    code a * 65536 + code b * 256 + code c = v * 262144 + w * 4096 + x * 64 + y ->
    base64 t e -> base64 (a :: b :: c :: t) (p :: q :: r :: s :: e).

(** The library decodes what is encoded *)
Definition decodes (l : AuthModel.lib) : Prop := forall s e, base64 s e -> AuthModel.b64 l (e ++ [LF]) = s.

(** ** Commands *)

(** A number that fits an int *)
Definition index (a : bytes) : Prop := number_token a /\ exists n, numeral decimal 10 a n /\ n <= 2147483647.
(** /L/S and /L/S/B in numbers (names: see C67_name_refuted); L may be a dash *)
Definition service_id (comps : list bytes) : Prop := exists a b, comps = [a; b] /\ (a = lit "-" \/ index a) /\ index b.
Definition backend_id (comps : list bytes) : Prop := exists a b k, comps = [a; b; k] /\ (a = lit "-" \/ index a) /\ index b /\ index k.

(** The command line asks for this method and resource *)
Inductive wants : list bytes -> bytes -> bytes -> Prop :=
| w_nothing : wants [] (lit "GET") (lit "/listener/")
| w_all : wants [lit "list"] (lit "GET") (lit "/listener/")
| w_list : forall uri, wants [lit "list"; uri] (lit "GET") (lit "/listener" ++ uri)
| w_off : forall w uri, w = lit "disable" \/ w = lit "off" -> wants [w; uri] (lit "DELETE") (lit "/listener" ++ uri)
| w_on : forall w uri, w = lit "enable" \/ w = lit "on" -> wants [w; uri] (lit "PUT") (lit "/listener" ++ uri)
| w_delete : forall w comps k, w = lit "delete" \/ w = lit "del" -> service_id comps ->
    wants [w; CtlSpec.path comps; k] (lit "DELETE") (lit "/session" ++ CtlSpec.path comps ++ lit "?key=" ++ k)
| w_add : forall comps k, backend_id comps ->
    wants [lit "add"; CtlSpec.path comps; k] (lit "PUT") (lit "/session" ++ CtlSpec.path comps ++ lit "?key=" ++ k).

(** Texts that can be sent: printable, without spaces, and the line fits the buffer of the daemon *)
Definition sendable (s : bytes) : Prop := text s /\ ~ In " "%char s /\ ~ In "009"%char s /\ Z.of_nat (length s) <= 4000.
(** A URL as C66 gives them: there is a user if there is a password, and no colon in the name *)
Definition proper (u : PtlModel.url) : Prop :=
  sendable (PtlModel.host u) /\
  forall p, PtlModel.pass u = Some p -> exists n, PtlModel.user u = Some n /\ ~ In ":"%char n.
(** The credentials fit a line of base64 (see C67_credentials_refuted) *)
Definition short (u : PtlModel.url) : Prop :=
  forall n p, PtlModel.user u = Some n -> PtlModel.pass u = Some p -> Z.of_nat (length n + length p) <= 47.

(** The fields of the request *)
Inductive carried (u : PtlModel.url) : list ReqSpec.field -> Prop :=
| ca_none : PtlModel.pass u = None -> carried u [(lit "Host", PtlModel.host u)]
| ca_basic : forall n p e, PtlModel.user u = Some n -> PtlModel.pass u = Some p -> base64 (n ++ lit ":" ++ p) e ->
    carried u [(lit "Host", PtlModel.host u); (lit "Authorization", lit "Basic " ++ e)].
