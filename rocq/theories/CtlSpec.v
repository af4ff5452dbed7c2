(** The addresses of the control interface and its routing, stated independently of the
    functions of the model. *)
From Coq Require Import Ascii String List ZArith.
From Verif Require Import Bytes ClenSpec NumSpec CtlModel.
Import ListNotations.
Open Scope Z_scope.

(** ** Paths *)

(** /a/b/c *)
Fixpoint path (comps : list bytes) : bytes :=
  match comps with [] => [] | a :: r => "/"%char :: a ++ path r end.
(** What may follow the path *)
Definition query (q : bytes) : Prop := q = [] \/ exists t, q = "?"%char :: t.

(** White space, a sign and digits *)
Definition white (c : byte) : Prop := In (code c) [32; 9; 10; 11; 12; 13].
Definition signed_number (s : bytes) : Prop :=
  exists sp sg ds, s = sp ++ sg ++ ds /\ Forall white sp /\ (sg = [] \/ sg = lit "-" \/ sg = lit "+") /\ number_token ds.
(** A component of a path that is a decimal index, or a name that does not look like a number *)
Definition plain (s : bytes) : Prop :=
  s <> [] /\ ~ In "/"%char s /\ ~ In "?"%char s /\ (number_token s \/ ~ signed_number s).

(** ** Selection *)

(** The component [a] selects the object at position [i] in a list of objects with these names *)
Definition picks (names : list (option bytes)) (a : bytes) (i : nat) : Prop :=
  (number_token a /\ numeral decimal 10 a (Z.of_nat i) /\ (i < length names)%nat)
  \/ (~ number_token a /\ nth_error names i = Some (Some a) /\ forall j, (j < i)%nat -> nth_error names j <> Some (Some a)).
(** Backends have no names *)
Definition picks_backend (s : service) (a : bytes) (i : nat) : Prop :=
  number_token a /\ numeral decimal 10 a (Z.of_nat i) /\ (i < length (concat (balancers s)))%nat.

(** The services of a listener; the global services *)
Definition in_scope (c : config) (l : option nat) (ss : list service) : Prop :=
  match l with
  | None => ss = services c
  | Some i => exists x, nth_error (listeners c) i = Some x /\ ss = lstn_services x
  end.
(** The component selects the listener; - stands for the global scope *)
Definition names_scope (c : config) (a : bytes) (l : option nat) : Prop :=
  match l with
  | None => a = lit "-"
  | Some i => a <> lit "-" /\ picks (map lstn_name (listeners c)) a i
  end.

Inductive addressed (c : config) : list bytes -> object -> Prop :=
| addr_listener : forall a l, names_scope c a l -> addressed c [a] (ObjListener l)
| addr_service : forall a b l ss s, names_scope c a l -> in_scope c l ss -> picks (map svc_name ss) b s -> addressed c [a; b] (ObjService l s)
| addr_backend : forall a b k l ss s x n, names_scope c a l -> in_scope c l ss -> picks (map svc_name ss) b s ->
    nth_error ss s = Some x -> picks_backend x k n -> addressed c [a; b; k] (ObjBackend l s n).

(** No list is longer than the indices that fit an int *)
Definition fits (c : config) : Prop :=
  let small n := Z.of_nat n <= 2147483648 in
  small (length (listeners c)) /\
  forall l ss, in_scope c l ss -> small (length ss) /\ Forall (fun x => small (length (concat (balancers x)))) ss.

(** ** What may be disabled *)

Definition the_service (c : config) (l : option nat) (s : nat) (x : service) : Prop :=
  exists ss, in_scope c l ss /\ nth_error ss s = Some x.
Definition the_backend (c : config) (l : option nat) (s b : nat) (y : backend) : Prop :=
  exists x, the_service c l s x /\ nth_error (concat (balancers x)) b = Some y.
Definition has_control (x : service) : Prop := exists y, In y (concat (balancers x)) /\ be_type y = Control.

(** [o] leads to the control interface itself *)
Definition protected (c : config) (o : object) : Prop :=
  match o with
  | ObjListener None => False
  | ObjListener (Some i) => exists x s, nth_error (listeners c) i = Some x /\ In s (lstn_services x) /\ has_control s
  | ObjService l s => exists x, the_service c l s x /\ has_control x
  | ObjBackend l s b => exists y, the_backend c l s b y /\ be_type y = Control
  end.
(** Redirects, error pages and the like cannot be disabled *)
Definition switchable (c : config) (o : object) : Prop :=
  match o with
  | ObjListener None => False
  | ObjBackend l s b => exists y, the_backend c l s b y /\ (be_type y = Regular \/ be_type y = Matrix)
  | _ => True
  end.

(** The state of an object *)
Definition disabled_is (c : config) (o : object) (d : bool) : Prop :=
  match o with
  | ObjListener None => False
  | ObjListener (Some i) => exists x, nth_error (listeners c) i = Some x /\ lstn_disabled x = d
  | ObjService l s => exists x, the_service c l s x /\ svc_disabled x = d
  | ObjBackend l s b => exists y, the_backend c l s b y /\ be_disabled y = d
  end.

(** ** Routing *)

(** The part before the query, without a final slash *)
Definition target (u p : bytes) : Prop :=
  exists q, query q /\ ~ In "?"%char p /\ (u = p ++ lit "/" ++ q \/ (u = p ++ q /\ forall p', p <> p' ++ lit "/")).
(** The URI prefix [e] covers the path [p] *)
Definition covers (e p : bytes) : Prop := p = e \/ exists t, p = e ++ lit "/" ++ t.
(** The request has an empty path *)
Definition empty_path (u : bytes) : Prop := query u.
