(** Words used in the statements about JSON values in memory (C80). *)
From Coq Require Import List Arith ZArith Bool.
From Verif Require Import Bytes JsonModel JmModel.
Import ListNotations.

(** What a JSON value is *)
Inductive json :=
| JNull | JBool (b : bool) | JNumber (z : Z) | JInteger (z : Z)
| JString (s : bytes) | JArray (l : list json) | JObject (l : list (bytes * json)).

Fixpoint each {X Y} (f : X -> option (Y * list nat)) (l : list X) : option (list Y * list nat) :=
  match l with
  | [] => Some ([], [])
  | x :: l => match f x, each f l with
              | Some (y, u), Some (ys, us) => Some (y :: ys, u ++ us)
              | _, _ => None
              end
  end.

(** The names of an object are in order *)
Fixpoint ordered (l : list bytes) : bool :=
  match l with
  | [] => true
  | x :: l => match l with
              | [] => true
              | y :: _ => match strcmp x y with Lt => ordered l | _ => false end
              end
  end.

(** What is found in memory at [a]: the value, and the blocks it is made of; [n] bounds the depth *)
Fixpoint look (n : nat) (h : heap) (a : nat) : option (json * list nat) :=
  match n with
  | 0 => None
  | S n =>
      let follow p := match p with P b => look n h b | _ => None end in
      match nth_error h a with
      | Some (BVal VNull) => Some (JNull, [a])
      | Some (BVal (VBool b)) => Some (JBool b, [a])
      | Some (BVal (VNumber z)) => Some (JNumber z, [a])
      | Some (BVal (VInteger z)) => Some (JInteger z, [a])
      | Some (BVal (VString s)) => match nth_error h s with Some (BText t) => Some (JString t, [a; s]) | _ => None end
      | Some (BVal (VArray r)) =>
          match nth_error h r with
          | Some (BArray oc on None) => if (oc =? 0) && (on =? 0) then Some (JArray [], [a; r]) else None
          | Some (BArray oc on (Some w)) =>
              match nth_error h w with
              | Some (BVec sl) =>
                  if (oc <=? on) && (on =? length sl) then
                    match each follow (firstn oc sl) with
                    | Some (l, us) => Some (JArray l, a :: r :: w :: us)
                    | None => None
                    end
                  else None
              | _ => None
              end
          | _ => None
          end
      | Some (BVal (VObject o)) =>
          match nth_error h o with
          | Some (BObject prs) =>
              match each (fun q => match nth_error h q with
                                   | Some (BPair k v) =>
                                       match nth_error h k, follow v with
                                       | Some (BText t), Some (x, us) => Some ((t, x), q :: k :: us)
                                       | _, _ => None
                                       end
                                   | _ => None
                                   end) prs with
              | Some (l, us) => if ordered (map fst l) then Some (JObject l, a :: o :: us) else None
              | None => None
              end
          | _ => None
          end
      | _ => None
      end
  end.

(** [a] is the value [v]; the blocks are [us], and none is used twice *)
Definition holds (n : nat) (h : heap) (a : nat) (v : json) (us : list nat) : Prop := look n h a = Some (v, us) /\ NoDup us.

Definition disjoint (us vs : list nat) : Prop := forall x, In x us -> ~ In x vs.

(** An array for which memory has not been allocated yet, or for at least one element *)
Definition roomy (h : heap) (a : nat) : Prop :=
  exists r oc on ov, nth_error h a = Some (BVal (VArray r)) /\ nth_error h r = Some (BArray oc on ov) /\ (ov = None \/ 0 < on).

(** The blocks [us] have become the blocks [us']: what is neither has not been touched, what is no longer used has been released *)
Definition becomes (h : heap) (us : list nat) (h' : heap) (us' : list nat) : Prop :=
  length h <= length h' /\
  (forall x, x < length h -> ~ In x us -> nth_error h' x = nth_error h x) /\
  NoDup us' /\
  (forall x, In x us' -> In x us \/ length h <= x < length h') /\
  (forall x, In x us -> ~ In x us' -> nth_error h' x = Some Freed) /\
  (forall x, length h <= x < length h' -> ~ In x us' -> nth_error h' x = Some Freed).

(** What an object says of a name *)
Fixpoint said (l : list (bytes * json)) (k : bytes) : option json :=
  match l with
  | [] => None
  | (x, v) :: l => match strcmp x k with Eq => Some v | _ => said l k end
  end.

(** The values at the addresses are appended one after the other *)
Fixpoint append_all (h : heap) (a : nat) (bs : list nat) : res unit :=
  match bs with
  | [] => Done h tt
  | b :: bs => match json_array_append h a b with Done h _ => append_all h a bs | e => e end
  end.
