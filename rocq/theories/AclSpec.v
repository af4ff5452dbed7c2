(** Network prefixes and forwarding chains, independently of the model. *)
From Coq Require Import Ascii String List ZArith Bool.
From Verif Require Import Bytes ClenSpec NumSpec TokSpec AclModel.
Import ListNotations.
Local Open Scope nat_scope.

(** The bits of an address, most significant first. *)
Definition byte_bits (c : byte) : list bool :=
  match c with Ascii b0 b1 b2 b3 b4 b5 b6 b7 => [b7; b6; b5; b4; b3; b2; b1; b0] end.
Definition bits (a : bytes) : list bool := flat_map byte_bits a.

Definition same_prefix (n : nat) (a b : bytes) : Prop := firstn n (bits a) = firstn n (bits b).

(** A socket address has the number of bytes of its family. *)
Definition sa_ok (sa : sockaddr) : Prop :=
  match sa_family sa with
  | AF_INET => length (sa_addr sa) = 4
  | AF_INET6 => length (sa_addr sa) = 16
  | AF_OTHER => True
  end.

(** What the resolver of numeric addresses returns is well formed. *)
Definition resolver_ok (resolve : bytes -> option (list sockaddr)) : Prop :=
  forall t l sa, resolve t = Some l -> In sa l -> sa_ok sa.

(** [text] is an access list entry: ADDRESS or ADDRESS/N. *)
Definition entry (resolve : bytes -> option (list sockaddr)) (text : bytes)
  (f : family) (addr : bytes) (n : nat) : Prop :=
  exists host l, resolve host = Some (mkSa f addr :: l) /\ ~ In "/"%char host /\ f <> AF_OTHER /\
    ((text = host /\ n = 8 * length addr) \/
     (exists ds, text = host ++ ["/"%char] ++ ds /\ numeral decimal 10 ds (Z.of_nat n))).

(** Its mask is not longer than the address. *)
Definition proper_entry (resolve : bytes -> option (list sockaddr)) (text : bytes) : Prop :=
  exists f addr n, entry resolve text f addr n /\ n <= 8 * length addr.

(** What is taken for an entry: an address the resolver knows, optionally followed by a mask
    that is empty or a number, possibly after white space and a sign. *)
Definition loose_mask (m : bytes) : Prop :=
  m = [] \/ exists sp sg ds, m = sp ++ sg ++ ds /\ Forall white sp /\
    (sg = [] \/ sg = ["+"%char] \/ sg = ["-"%char]) /\ number_token ds.
Definition loose_entry (resolve : bytes -> option (list sockaddr)) (text : bytes) : Prop :=
  exists host sa l, resolve host = Some (sa :: l) /\ sa_family sa <> AF_OTHER /\ ~ In "/"%char host /\
    (text = host \/ exists m, text = host ++ ["/"%char] ++ m /\ loose_mask m).

(** The elements of a comma-separated list. *)
Fixpoint elements (s : bytes) : list bytes :=
  match s with
  | [] => [[]]
  | c :: s =>
      if beq c ","%char then [] :: elements s
      else match elements s with
           | e :: es => (c :: e) :: es
           | [] => [[c]]
           end
  end.

(** [w] is the first word of [e]. *)
Definition first_word (e w : bytes) : Prop :=
  exists l r, e = l ++ w ++ r /\ Forall white l /\ Forall (fun c => ~ white c) w /\
    (w = [] -> r = []) /\ (r = [] \/ exists c r', r = c :: r' /\ white c).

Definition trusted (resolve : bytes -> option (list sockaddr)) (acl : list cidr) (a : bytes) : Prop :=
  exists l sa, resolve a = Some l /\ In sa l /\ acl_match acl sa = 0%Z.
Definition untrusted (resolve : bytes -> option (list sockaddr)) (acl : list cidr) (a : bytes) : Prop :=
  exists l, resolve a = Some l /\ forall sa, In sa l -> acl_match acl sa <> 0%Z.
Definition malformed (resolve : bytes -> option (list sockaddr)) (a : bytes) : Prop :=
  resolve a = None.

(** [ws] are the words of the elements of the header value, left to right. *)
Definition chain (hdr : bytes) (ws : list bytes) : Prop := Forall2 first_word (elements hdr) ws.

(** The addresses of several fields of the same name, in order; an empty field
    that is followed by another one has none. *)
Inductive fields_chain : list bytes -> list bytes -> Prop :=
| fc_last : forall v ws, chain v ws -> fields_chain [v] ws
| fc_empty : forall vs ws, vs <> [] -> fields_chain vs ws -> fields_chain ([] :: vs) ws
| fc_more : forall v vs ws ws', v <> [] -> vs <> [] -> chain v ws -> fields_chain vs ws' ->
    fields_chain (v :: vs) (ws ++ ws').
