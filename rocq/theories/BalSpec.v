(** Vocabulary of the balancing properties, defined from the backends alone. *)
From Coq Require Import List ZArith Bool.
From Verif Require Import BalModel.
Import ListNotations.
Open Scope Z_scope.

(** A backend may be given requests: it is enabled, and it is live.  A matrix
    backend only generates other backends; backends other than regular ones have no
    liveness of their own. *)
Definition usableb (b : backend) : bool :=
  negb (b_disabled b) &&
  match b_kind b with BE_REGULAR => b_alive b | BE_MATRIX => false | BE_OTHER => true end.
Definition usable (b : backend) : Prop := usableb b = true.

Definition n_usable (l : list backend) : Z := Z.of_nat (length (filter usableb l)).
Definition total_pri (l : list backend) : Z :=
  fold_right Z.add 0 (map b_pri (filter usableb l)).
Definition top_pri (l : list backend) : Z :=
  fold_right Z.max 0 (map b_pri (filter usableb l)).

(** The counters of a group agree with its members. *)
Definition agrees (bl : balancer) : Prop :=
  l_act bl = n_usable (l_bes bl) /\
  match l_algo bl with
  | ALGO_RANDOM => l_sum bl = total_pri (l_bes bl)
  | ALGO_IWRR => l_max bl = top_pri (l_bes bl)
  end.

(** How often a backend occurs in a list of choices. *)
Definition times (id : Z) (l : list backend) : nat :=
  length (filter (fun b => b_id b =? id) l).

(** The integers lo, lo+1, ..., lo+n-1 and how many of them satisfy a test. *)
Definition ints (lo : Z) (n : nat) : list Z := map (fun i => lo + Z.of_nat i) (seq 0 n).
Definition how_many (f : Z -> bool) (l : list Z) : nat := length (filter f l).

(** n consecutive selections. *)
Fixpoint select_many (fuel n : nat) (bl : balancer) : option (list backend * balancer) :=
  match n with
  | O => Some ([], bl)
  | S n' =>
      match iwrr_select fuel bl with
      | Picked be bl' =>
          match select_many fuel n' bl' with
          | Some (l, bl'') => Some (be :: l, bl'')
          | None => None
          end
      | _ => None
      end
  end.

(** Weights strictly increasing: ordered, one group per weight. *)
Fixpoint increasing (l : list Z) : Prop :=
  match l with
  | [] => True
  | x :: r => Forall (fun y => x < y) r /\ increasing r
  end.

Definition weights (bls : list balancer) : list Z := map l_weight bls.
Definition members (bls : list balancer) : list backend := flat_map l_bes bls.
Definition ids (l : list backend) : list Z := map b_id l.

(** A position of the round robin that makes sense: a current member, or none. *)
Definition good_pos (bl : balancer) : Prop :=
  0 <= l_round bl /\
  match l_cur bl with None => True | Some c => In c (ids (l_bes bl)) end.

(** Histories in which a probe's two phases are not separated, new backends are
    new, and priorities are in the configured range. *)
Definition op_ok (bls : list balancer) (o : bop) : Prop :=
  match o with
  | OMode _ _ | OTouch _ | ORemove _ => True
  | OTouchMark _ | OTouchCount _ => False
  | OAdd _ be => ~ In (b_id be) (ids (members bls)) /\ 0 <= b_pri be <= 65535
  | OSetPri _ p => 0 <= p <= 65535
  end.

Fixpoint ops_ok (algo : balancer_algo) (bls : list balancer) (os : list bop) : Prop :=
  match os with
  | [] => True
  | o :: r => op_ok bls o /\ ops_ok algo (bstep algo bls o) r
  end.

(** A configuration: distinct backends with priorities of at least 1 (the parser
    refuses less). *)
Definition config_ok (l : list (Z * backend)) : Prop :=
  NoDup (ids (map snd l)) /\ Forall (fun wb => 1 <= b_pri (snd wb)) l.

(** A bound on the number of backends that is never a restriction in practice. *)
Definition few (n : nat) : Prop := Z.of_nat n <= 2 ^ 40.
