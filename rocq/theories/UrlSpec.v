(** Request targets: path, query, parameters. *)
From Coq Require Import Ascii String List ZArith.
From Verif Require Import Bytes.
Import ListNotations.

(** The reading of a target: the path is what precedes the last '?' that is not
    the first character; the query is what follows it, absent when empty. *)
Inductive target_parts : bytes -> bytes -> option bytes -> Prop :=
| tp_query : forall path q, path <> [] -> q <> [] -> ~ In "?"%char q ->
    target_parts (path ++ "?"%char :: q) path (Some q)
| tp_empty_query : forall path, path <> [] ->
    target_parts (path ++ ["?"%char]) path None
| tp_plain : forall u, ~ In "?"%char (tl u) -> target_parts u u None.

(** Composition of a target. *)
Definition compose (path : bytes) (query : option bytes) : bytes :=
  path ++ match query with Some q => "?"%char :: q | None => [] end.

(** Parameters: [piece s p]: the text [s] is the parameter [p]. *)
Inductive piece : bytes -> bytes * option bytes -> Prop :=
| pc_flag : forall n, ~ In "&"%char n -> ~ In "="%char n -> piece n (n, None)
| pc_value : forall n v, ~ In "&"%char n -> ~ In "="%char n -> ~ In "&"%char v ->
    piece (n ++ "="%char :: v) (n, Some v).

(** A query is a sequence of pieces separated by '&'; a final '&' adds nothing. *)
Inductive query_params : bytes -> list (bytes * option bytes) -> Prop :=
| qp_nil : query_params [] []
| qp_last : forall s p, s <> [] -> piece s p -> query_params s [p]
| qp_cons : forall s p q ps, piece s p -> query_params q ps ->
    query_params (s ++ "&"%char :: q) (p :: ps).

Definition opt_params (q : option bytes) (ps : list (bytes * option bytes)) : Prop :=
  match q with Some q => query_params q ps | None => ps = [] end.

(** Abstract parameter lists.  The value of a name is that of its first
    occurrence. *)
Definition params := list (bytes * option bytes).

Fixpoint value_of (ps : params) (n : bytes) : option (option bytes) :=
  match ps with
  | [] => None
  | (m, v) :: ps' => if bytes_eq_dec m n then Some v else value_of ps' n
  end.

(** Setting: in place if present, else at the end. *)
Fixpoint set_param (ps : params) (n v : bytes) : params :=
  match ps with
  | [] => [(n, Some v)]
  | (m, w) :: ps' => if bytes_eq_dec m n then (m, Some v) :: ps' else (m, w) :: set_param ps' n v
  end.

(** Deleting the first occurrence. *)
Fixpoint del_param (ps : params) (n : bytes) : params :=
  match ps with
  | [] => []
  | (m, w) :: ps' => if bytes_eq_dec m n then ps' else (m, w) :: del_param ps' n
  end.

(** The parameters of other names, in order. *)
Definition others_of (n : bytes) (ps : params) : params :=
  filter (fun p => if bytes_eq_dec (fst p) n then false else true) ps.

(** Parameters other than the empty one (an empty piece between separators). *)
Definition proper (ps : params) : params :=
  filter (fun p => match p with ([], None) => false | _ => true end) ps.

Definition clean_name (n : bytes) : Prop := ~ In "&"%char n /\ ~ In "="%char n.
Definition clean_value (v : bytes) : Prop := ~ In "&"%char v.

(** ** Editing histories *)
From Verif Require Import UrlModel.

(** What a request target stands for at some moment: its path, its query and
    its parameters. *)
Record view := mkV { v_path : bytes; v_query : option bytes; v_params : params }.

Definition starts (u : bytes) (w : view) : Prop :=
  target_parts u (v_path w) (v_query w) /\ opt_params (v_query w) (v_params w).

(** The effect of one edit.  After a parameter edit the query is some text whose
    parameters are the new list (up to empty pieces). *)
Inductive vstep : view -> uop -> view -> Prop :=
| vs_url : forall w u w', starts u w' -> vstep w (OSetUrl u) w'
| vs_path : forall w p, vstep w (OSetPath p) (mkV p (v_query w) (v_params w))
| vs_query : forall w q ps, query_params q ps -> vstep w (OSetQuery q) (mkV (v_path w) (Some q) ps)
| vs_set : forall w n v q ps, query_params q ps ->
    proper ps = proper (set_param (v_params w) n v) ->
    vstep w (OSetParam n v) (mkV (v_path w) (Some q) (set_param (v_params w) n v))
| vs_del : forall w n q ps, value_of (v_params w) n <> None -> query_params q ps ->
    proper ps = proper (del_param (v_params w) n) ->
    vstep w (ODelParam n) (mkV (v_path w) (Some q) (del_param (v_params w) n))
| vs_del_absent : forall w n, value_of (v_params w) n = None -> vstep w (ODelParam n) w
| vs_get_path : forall w, vstep w OGetPath w
| vs_get_query : forall w, vstep w OGetQuery w
| vs_get_param : forall w n, vstep w (OGetParam n) w.

Inductive vruns : view -> list uop -> view -> Prop :=
| vr_nil : forall w, vruns w [] w
| vr_cons : forall w o w1 os w2, vstep w o w1 -> vruns w1 os w2 -> vruns w (o :: os) w2.

(** Parameter edits use texts without separators. *)
Definition clean_op (o : uop) : Prop :=
  match o with
  | OSetParam n v => clean_name n /\ clean_value v
  | ODelParam n | OGetParam n => clean_name n
  | _ => True
  end.
