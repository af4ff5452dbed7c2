(** What a table of sessions should do. *)
From Coq Require Import List ZArith Bool.
From Verif Require Import Bytes JobModel JobSpec SessModel.
Import ListNotations.
Open Scope Z_scope.

Definition sec : Z := 1000000000.

(** The session table after a history. *)
Definition table (ttl : Z) (os : list sop) : stab := srun ttl session_table_new os.
(** The backend that the next request with that key is given. *)
Definition answer (ttl : Z) (os : list sop) (key : bytes) (now : timespec) (choice : option Z) : option Z :=
  snd (sstep ttl (table ttl os) (SReq key now choice)).

(** Only the first KEY_SIZE bytes of a request's key count. *)
Definition same_key (key k : bytes) : Prop := firstn KEY_SIZE key = firstn KEY_SIZE k.
Definition same_keyb (key k : bytes) : bool := bytes_eqb (firstn KEY_SIZE key) (firstn KEY_SIZE k).

(** An abstract table: for each key, its backend and the time (ns) at which it
    expires, or nothing. *)
Definition live := bytes -> option (Z * Z).
Definition put (m : live) (k : bytes) (v : option (Z * Z)) : live :=
  fun k' => if bytes_eqb k' k then v else m k'.

Definition live_step (ttl : Z) (m : live) (o : sop) : live * option Z :=
  match o with
  | SReq key now choice =>
      let k := firstn KEY_SIZE key in
      match m k, choice with
      | Some (b, _), _ => (put m k (Some (b, ns now + ttl * sec)), Some b)
      | None, Some b => (put m k (Some (b, ns now + ttl * sec)), Some b)
      | None, None => (m, None)
      end
  | SResp k be now =>
      match m k with
      | Some (b, _) => (put m k (Some (b, ns now + ttl * sec)), None)
      | None => (put m k (Some (be, ns now + ttl * sec)), None)
      end
  | SAdd k be now => (put m k (Some (be, ns now + ttl * sec)), None)
  | SDel k => (put m k None, None)
  | SKill be => (fun k => match m k with Some (b, e) => if b =? be then None else Some (b, e) | None => None end, None)
  | SExpire T => (fun k => match m k with Some (b, e) => if e <=? ns T then None else Some (b, e) | None => None end, None)
  end.

Definition live_run (ttl : Z) (os : list sop) : live :=
  fold_left (fun m o => fst (live_step ttl m o)) os (fun _ => None).
Definition live_answer (ttl : Z) (os : list sop) (key : bytes) (now : timespec) (choice : option Z) : option Z :=
  snd (live_step ttl (live_run ttl os) (SReq key now choice)).

(** The clock is proper and does not go back, starting from [t0] (ns). *)
Definition op_time (o : sop) : option timespec :=
  match o with
  | SReq _ now _ | SResp _ _ now | SAdd _ _ now => Some now
  | _ => None
  end.
Fixpoint clock_ok (t0 : Z) (os : list sop) : Prop :=
  match os with
  | [] => True
  | o :: os' =>
      match op_time o with
      | Some now => ts_ok now /\ t0 <= ns now /\ clock_ok (ns now) os'
      | None => match o with SExpire T => ts_ok T | _ => True end /\ clock_ok t0 os'
      end
  end.

(** The times are proper (nothing is said about their order). *)
Definition sop_ok (o : sop) : Prop :=
  match o with
  | SReq _ now _ | SResp _ _ now | SAdd _ _ now => ts_ok now
  | SExpire T => ts_ok T
  | _ => True
  end.

(** Nothing in [os] ends the session of [key] with [b], which expires at [e]:
    it is not deleted or replaced, its backend is not killed, and expiry runs are
    for times before its expiry, which each use puts off. *)
Fixpoint kept (ttl : Z) (key : bytes) (b e : Z) (os : list sop) : Prop :=
  match os with
  | [] => True
  | SReq k now _ :: os' => kept ttl key b (if same_keyb key k then ns now + ttl * sec else e) os'
  | SResp k _ now :: os' => kept ttl key b (if bytes_eqb (firstn KEY_SIZE key) k then ns now + ttl * sec else e) os'
  | SAdd k _ _ :: os' => firstn KEY_SIZE key <> k /\ kept ttl key b e os'
  | SDel k :: os' => firstn KEY_SIZE key <> k /\ kept ttl key b e os'
  | SKill b' :: os' => b' <> b /\ kept ttl key b e os'
  | SExpire T :: os' => ns T < e /\ kept ttl key b e os'
  end.

(** Nothing in [os] creates a session for [key]. *)
Definition no_new (key : bytes) (o : sop) : Prop :=
  match o with
  | SReq k _ _ => ~ same_key key k
  | SResp k _ _ | SAdd k _ _ => firstn KEY_SIZE key <> k
  | _ => True
  end.

(** The list of sessions is in order of expiry. *)
Fixpoint by_expiry (l : list sess) : Prop :=
  match l with
  | [] => True
  | s :: l' => (forall s', In s' l' -> ns (s_exp s) <= ns (s_exp s')) /\ by_expiry l'
  end.

(** The hash table and the list hold the same sessions: looking a key up finds a
    session if and only if it is in the list with that key, and no key or object
    occurs twice. *)
Definition consistent (t : stab) : Prop :=
  (forall k i, h_retrieve k (t_hash t) = Some i <-> exists s, In s (t_list t) /\ s_key s = k /\ s_id s = i) /\
  NoDup (map s_key (t_list t)) /\ NoDup (map s_id (t_list t)).
