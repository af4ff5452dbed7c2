(** Vocabulary of the properties of dynamic backends. *)
From Coq Require Import List Arith ZArith Bool Sorted.
From Verif Require Import Bytes DynModel.
Import ListNotations.

(** The backends of the balancer of weight [w] *)
Definition members (l : balancers) (w : Z) : list nat := flat_map (fun e => if Z.eqb w (fst e) then snd e else []) l.

(** Before the first update nothing has been generated; other backends of the service may be
    there, static ones for instance. *)
Definition initial (s : state) : Prop :=
  tab s = [] /\ rem s = [] /\ StronglySorted Z.lt (map fst (bls s)) /\ (forall w, NoDup (members (bls s) w)) /\
  (forall w i, In i (members (bls s) w) -> i < next s).

(** The states between updates *)
Definition reachable (w pri : Z) (m : mode) (s : state) : Prop := exists s0 answers, initial s0 /\ updates w pri m answers s0 = Ok s.

(** The part of an answer that is used *)
Definition used (m : mode) (resp : list (list Z)) : list (list Z) := match m with First => firstn 1 resp | All => resp end.

(** ** SRV records *)

(** Records with the greatest weight of the run of records of equal priority they are in: [runs]
    says the answer is divided into runs, each of one priority, different from the next one. *)
Definition one_priority (l : list srv) : Prop := l <> [] /\ forall a b, In a l -> In b l -> s_prio a = s_prio b.
Definition greatest_weight (l : list srv) : Z := fold_right (fun r m => Z.max (s_weight r) m) 0%Z l.
Fixpoint runs_differ (l : list (list srv)) : Prop :=
  match l with
  | a :: ((b :: _) as l') => (forall x y, In x a -> In y b -> s_prio x <> s_prio y) /\ runs_differ l'
  | _ => True
  end.
Definition runs (resp : list srv) (l : list (list srv)) : Prop := concat l = resp /\ Forall one_priority l /\ runs_differ l.

(** What identifies a record or a backend generated from it *)
Definition srv_key (r : srv) : bytes * Z := (lower (s_host r), s_port r).
Definition child_key (c : child) : bytes * Z := (lower (host c), port c).

(** The records of the answer, each with the greatest weight among its run *)
Definition weighted (l : list (list srv)) : list (srv * Z) := flat_map (fun run => map (fun r => (r, greatest_weight run)) run) l.
Definition key_dec (a b : bytes * Z) : {a = b} + {a <> b}.
Proof. decide equality; [apply Z.eq_dec|apply (list_eq_dec Ascii.ascii_dec)]. Defined.
Definition is_key (k : bytes * Z) (r : srv) : bool := if key_dec k (srv_key r) then true else false.
(** The first record with a key, and the last one *)
Definition first_with (k : bytes * Z) (resp : list srv) : option srv := find (is_key k) resp.
Definition last_with (k : bytes * Z) (recs : list (srv * Z)) : option (srv * Z) := find (fun rm => is_key k (fst rm)) (rev recs).

(** The states of a dynamic backend that looks up SRV records, after any sequence of answers *)
Fixpoint srv_updates (ignore : bool) (mpri : Z) (answers : list (list srv)) (n : nat) (t : list child) : option (nat * list child) :=
  match answers with
  | [] => Some (n, t)
  | a :: l => match srv_update ignore mpri a n t with Some (n', t', _) => srv_updates ignore mpri l n' t' | None => None end
  end.
Definition valid_srv (resp : list srv) : Prop := forall r, In r resp -> (0 <= s_prio r)%Z.

(** A generated backend kept by an update *)
Definition same_object (c c' : child) : Prop := cid c' = cid c /\ host c' = host c /\ port c' = port c /\ cweight c' = cweight c.
