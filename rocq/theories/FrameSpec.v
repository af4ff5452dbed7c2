(** Body framing of a request, as a function of its header fields only. *)
From Coq Require Import Ascii String List ZArith.
From Verif Require Import Bytes ClenSpec TokSpec ReqSpec.
Import ListNotations.
Open Scope Z_scope.

(** Values of the fields of a given name, in order. *)
Definition values (n : string) (fs : list field) : list bytes :=
  map snd (filter (is_named (lit n)) fs).

Definition is_chunked (e : bytes) : Prop :=
  exists t, stripped e t /\ same_letters t (lit "chunked").

(** No element of the list is "chunked". *)
Definition no_chunked (v : bytes) : Prop := forall e, element v e -> ~ is_chunked e.

(** "chunked" occurs, and behind its first occurrence nothing but possibly one
    comma. *)
Definition chunked_last (v : bytes) : Prop :=
  exists pre e post, element_at v pre e post /\ is_chunked e /\
    (post = [] \/ post = [","%char]) /\
    (forall q, pre = q ++ [","%char] -> no_chunked q).

Inductive framing := NoBody | Length (n : Z) | Chunked.

(** The unambiguous framings. *)
Inductive framing_of (fs : list field) : framing -> Prop :=
| fr_none : values "Transfer-Encoding" fs = [] -> values "Content-Length" fs = [] ->
    framing_of fs NoBody
| fr_length : forall v n,
    values "Transfer-Encoding" fs = [] -> values "Content-Length" fs = [v] ->
    content_length_value v n -> framing_of fs (Length n)
| fr_chunked : forall us v,
    values "Content-Length" fs = [] -> values "Transfer-Encoding" fs = us ++ [v] ->
    Forall no_chunked us -> chunked_last v -> framing_of fs Chunked.

(** An unknown coding alone. *)
Definition unknown_coding (fs : list field) : Prop :=
  values "Transfer-Encoding" fs <> [] /\ Forall no_chunked (values "Transfer-Encoding" fs) /\
  (values "Content-Length" fs = [] \/
   exists v n, values "Content-Length" fs = [v] /\ content_length_value v n).
