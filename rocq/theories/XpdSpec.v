(** What a template means: the syntax of back references and accessors and the
    text each of them stands for, independently of the expansion code. *)
From Coq Require Import Ascii String List ZArith.
From Verif Require Import Bytes ClenSpec ReqModel UrlModel XpdModel.
Import ListNotations.
Open Scope Z_scope.

(** ** The syntax of templates *)

Inductive piece :=
| PByte (c : byte)
| PRef (n : Z) (m : nat)                (* group n of the m-th most recent match *)
| PAcc (a : accessor) (arg : bytes).    (* %[...] *)

Definition hexdigit (c : byte) : Prop := exists d, hexadecimal c d.
Definition begins (P : byte -> Prop) (t : bytes) : Prop := exists c t', t = c :: t' /\ P c.

(** Decimal numbers that an unsigned long can hold. *)
Definition num (ds : bytes) (n : Z) : Prop :=
  numeral decimal 10 ds n /\ n <= 18446744073709551615.

(** The seven accessors; two of them have an argument. *)
Inductive acc_name : string -> accessor -> bool -> Prop :=
| an_url : acc_name "url" ACC_URL false
| an_path : acc_name "path" ACC_PATH false
| an_query : acc_name "query" ACC_QUERY false
| an_param : acc_name "param" ACC_PARAM true
| an_header : acc_name "header" ACC_HEADER true
| an_host : acc_name "host" ACC_HOST false
| an_port : acc_name "port" ACC_PORT false.

Inductive acc_text : bytes -> accessor -> bytes -> Prop :=
| at_plain : forall w1 w2 name a, Forall blank w1 -> Forall blank w2 -> acc_name name a false ->
    acc_text (w1 ++ lit name ++ w2) a []
| at_arg : forall w1 w2 name a arg, Forall blank w1 -> Forall blank w2 -> w2 <> [] ->
    acc_name name a true -> arg <> [] -> is_space (hd NUL arg) = false -> is_space (last arg NUL) = false ->
    acc_text (w1 ++ lit name ++ w2 ++ arg) a arg.

(** A text whose first word is not the name of an accessor *)
Definition no_accessor (text : bytes) : Prop :=
  exists w word rest, text = w ++ word ++ rest /\ Forall blank w /\ Forall (fun c => ~ blank c) word /\
    (rest = [] \/ word <> [] /\ begins blank rest) /\ forall name a b, acc_name name a b -> word <> lit name.

Inductive reads : bytes -> list piece -> Prop :=
| r_nil : reads [] []
| r_plain : forall c t ps, c <> "$"%char -> c <> "%"%char -> reads t ps -> reads (c :: t) (PByte c :: ps)
| r_dollar : forall t ps, reads t ps -> reads ("$" :: "$" :: t)%char (PByte "$" :: ps)
| r_hex : forall h1 h2 t ps, hexdigit h1 -> hexdigit h2 -> reads t ps ->
    reads ("%"%char :: h1 :: h2 :: t) (PByte "%" :: PByte h1 :: PByte h2 :: ps)
| r_ref : forall ds n t ps, num ds n ->
    ~ begins (fun c => (exists d, decimal c d) \/ c = "("%char) t -> reads t ps ->
    reads ("$"%char :: ds ++ t) (PRef n 0 :: ps)
| r_ref_of : forall ds n es m t ps, num ds n -> num es (Z.of_nat m) -> (m < 8)%nat -> reads t ps ->
    reads ("$"%char :: ds ++ "("%char :: es ++ ")"%char :: t) (PRef n m :: ps)
| r_bref : forall ds n t ps, num ds n -> reads t ps ->
    reads ("$"%char :: "{"%char :: ds ++ "}"%char :: t) (PRef n 0 :: ps)
| r_bref_of : forall ds n es m t ps, num ds n -> num es (Z.of_nat m) -> (m < 8)%nat -> reads t ps ->
    reads ("$"%char :: "{"%char :: ds ++ "("%char :: es ++ ")"%char :: "}"%char :: t) (PRef n m :: ps)
| r_old : forall c n t ps, decimal c n -> ~ begins hexdigit t -> reads t ps ->
    reads ("%"%char :: c :: t) (PRef n 1 :: ps)
| r_old_brace : forall ds n t ps, num ds n -> reads t ps ->
    reads ("%"%char :: "{"%char :: ds ++ "}"%char :: t) (PRef n 1 :: ps)
| r_acc : forall text a arg t ps, acc_text text a arg -> ~ In "]"%char text -> reads t ps ->
    reads ("%"%char :: "["%char :: text ++ "]"%char :: t) (PAcc a arg :: ps)
| r_unknown : forall text t ps, no_accessor text -> ~ In "]"%char text -> reads t ps ->
    reads ("%"%char :: "["%char :: text ++ "]"%char :: t) (map PByte ("%"%char :: "["%char :: text ++ ["]"%char]) ++ ps).

(** ** What the pieces stand for *)

(** [text] is group [n] of a match. *)
Definition group_is (m : submatch) (n : Z) (text : bytes) : Prop :=
  exists subj so eo, sm_subject m = Some subj /\ 0 <= n /\
    nth_error (sm_matchv m) (Z.to_nat n) = Some (so, eo) /\
    ((so = eo /\ text = []) \/
     exists a b, subj = a ++ text ++ b /\ so = Z.of_nat (length a) /\ eo = so + Z.of_nat (length text)).

(** There is no such match, or it has no such group. *)
Definition group_missing (m : submatch) (n : Z) : Prop :=
  sm_subject m = None \/ Z.of_nat (length (sm_matchv m)) <= n.

(** Value of the first field of a name. *)
Definition first_field (hs : list header) (name : bytes) (v : bytes) : Prop :=
  exists pre h post, hs = pre ++ h :: post /\ lower (h_name h) = lower name /\ h_val h = v /\
    Forall (fun x => lower (h_name x) <> lower name) pre.
Definition no_field (hs : list header) (name : bytes) : Prop :=
  Forall (fun x => lower (h_name x) <> lower name) hs.

(** The host part of a Host value ends before the first colon; the rest is the
    port part. *)
Definition host_port (v host port : bytes) : Prop :=
  v = host ++ port /\ ~ In ":"%char host /\ (port = [] \/ exists p, port = ":"%char :: p).

(** The value of an accessor; None: the request has no such thing. *)
Inductive acc_is (p : phttp) : accessor -> bytes -> option bytes -> Prop :=
| ai_url : acc_is p ACC_URL [] (Some (http_request_get_url (ph_req p)))
| ai_path : acc_is p ACC_PATH [] (fst (http_request_get_path (ph_req p)))
| ai_query : acc_is p ACC_QUERY [] (fst (http_request_get_query (ph_req p)))
| ai_param : forall n v, fst (http_request_get_query_param_value (ph_req p) n) = Some (Some v) ->
    acc_is p ACC_PARAM n (Some v)
| ai_no_param : forall n v, fst (http_request_get_query_param_value (ph_req p) n) = v ->
    (forall x, v <> Some (Some x)) -> acc_is p ACC_PARAM n None
| ai_header : forall n v, first_field (ph_headers p) n v -> acc_is p ACC_HEADER n (Some v)
| ai_no_header : forall n, no_field (ph_headers p) n -> acc_is p ACC_HEADER n None
| ai_host : forall v h q, first_field (ph_headers p) (lit "host") v -> host_port v h q ->
    acc_is p ACC_HOST [] (Some h)
| ai_no_host : no_field (ph_headers p) (lit "host") -> acc_is p ACC_HOST [] None
| ai_port : forall v h q, first_field (ph_headers p) (lit "host") v -> host_port v h q ->
    acc_is p ACC_PORT [] (Some q)
| ai_no_port : no_field (ph_headers p) (lit "host") -> acc_is p ACC_PORT [] None.

(** The text of a piece and the number of substitutions it counts for. *)
Inductive stands (p : phttp) : piece -> bytes -> Z -> Prop :=
| st_byte : forall c, stands p (PByte c) [c] 0
| st_ref : forall n m text, group_is (submatch_queue_get (ph_smq p) m) n text -> stands p (PRef n m) text 1
| st_acc : forall a arg v, acc_is p a arg (Some v) -> stands p (PAcc a arg) v 1
| st_no_acc : forall a arg, acc_is p a arg None -> stands p (PAcc a arg) [] 0.

Inductive renders (p : phttp) : list piece -> bytes -> Z -> Prop :=
| rn_nil : renders p [] [] 0
| rn_cons : forall x xs b n bs k, stands p x b n -> renders p xs bs k -> renders p (x :: xs) (b ++ bs) (n + k).

(** A reference to a group that does not exist. *)
Definition missing (p : phttp) (x : piece) : Prop :=
  exists n m, x = PRef n m /\ group_missing (submatch_queue_get (ph_smq p) m) n.

(** The pieces on which the C code keeps within its data: no reference to the
    group one past the last, no path or query accessor without a value. *)
Definition tame (p : phttp) (x : piece) : Prop :=
  match x with
  | PByte _ => True
  | PRef n m => sm_subject (submatch_queue_get (ph_smq p) m) <> None ->
      n <> Z.of_nat (length (sm_matchv (submatch_queue_get (ph_smq p) m)))
  | PAcc a arg => (a = ACC_PATH -> ~ acc_is p a arg None) /\ (a = ACC_QUERY -> ~ acc_is p a arg None)
  end.

(** Every group of a match is unset or a part of its subject. *)
Definition sound_match (m : submatch) : Prop :=
  forall subj so eo, sm_subject m = Some subj -> In (so, eo) (sm_matchv m) ->
    so = eo \/ 0 <= so <= eo /\ eo <= Z.of_nat (length subj).
Definition sound_queue (q : smqueue) : Prop := Forall sound_match (smq_sm q).

(** Two states that give the same answers. *)
Definition same_req (r r' : req) : Prop :=
  r_url r' = r_url r /\ r_method r' = r_method r /\ r_version r' = r_version r /\ r_request r' = r_request r /\
  r_orig r' = r_orig r /\
  fst (http_request_get_path r') = fst (http_request_get_path r) /\
  fst (http_request_get_query r') = fst (http_request_get_query r) /\
  (forall n, fst (http_request_get_query_param_value r' n) = fst (http_request_get_query_param_value r n)).
Definition same (p p' : phttp) : Prop :=
  ph_headers p' = ph_headers p /\ ph_smq p' = ph_smq p /\ same_req (ph_req p) (ph_req p').

(** The result of a match is entered in the queue (src/http.c 312-330 on the
    element that submatch_queue_push returns). *)
Definition pushed (q : smqueue) (m : submatch) : smqueue := submatch_queue_put (submatch_queue_push q) m.

(** ** The redirect reply *)

(** A URL that is safe to put in a header line and in HTML: letters, digits, a
    few marks and percent escapes. *)
Definition mark (c : byte) : Prop := In c (lit "_.:/?&;-=").
Definition alnum (c : byte) : Prop := exists d, digit_of (lit "0123456789abcdefghijklmnopqrstuvwxyz") (to_lower c) d.
Inductive safe : bytes -> Prop :=
| sf_nil : safe []
| sf_char : forall c u, alnum c \/ mark c -> safe u -> safe (c :: u)
| sf_esc : forall h1 h2 u, hexdigit h1 -> hexdigit h2 -> safe u -> safe ("%"%char :: h1 :: h2 :: u).

(** Percent decoding. *)
Inductive decodes : bytes -> bytes -> Prop :=
| dc_nil : decodes [] []
| dc_char : forall c u v, c <> "%"%char -> decodes u v -> decodes (c :: u) (c :: v)
| dc_esc : forall h1 h2 d1 d2 c u v,
    hexadecimal h1 d1 -> hexadecimal h2 d2 ->
    code c = 16 * d1 + d2 -> decodes u v -> decodes ("%"%char :: h1 :: h2 :: u) (c :: v).

(** ** Where expansion leaves the defined behaviour of C *)

Definition occurs (part s : bytes) : Prop := exists a b, s = a ++ part ++ b.

(** The only circumstances in which expanding [t] does something undefined. *)
Definition cause (t : bytes) (p : phttp) (u : ub) : Prop :=
  match u with
  | UB_END => (* the template ends in '$' or '%' *)
      exists a c, t = a ++ [c] /\ (c = "$"%char \/ c = "%"%char)
  | UB_GROUP => (* a reference to the group after the last one of a recent match *)
      exists a c body m, t = a ++ c :: body /\ (c = "$"%char \/ c = "%"%char) /\ (m < 8)%nat /\
        sm_subject (submatch_queue_get (ph_smq p) m) <> None /\
        exists k rest, NumModel.strtoul (skipn k body) 10 =
          (false, Z.of_nat (length (sm_matchv (submatch_queue_get (ph_smq p) m))), rest) /\ (k <= 1)%nat
  | UB_UNSET => (* the path or query accessor when there is no path or query *)
      occurs (lit "%[") t /\
      (fst (http_request_get_path (ph_req p)) = None \/ fst (http_request_get_query (ph_req p)) = None)
  | UB_LOOP => (* an accessor whose argument is followed by white space *)
      exists text c, occurs (lit "%[" ++ text ++ [c; "]"%char]) t /\ is_space c = true
  | UB_TEXT | UB_NULL => False
  end.
