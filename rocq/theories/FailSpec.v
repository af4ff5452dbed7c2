(** What is expected of the search for a backend. *)
From Coq Require Import List ZArith Bool.
From Verif Require Import Bytes JobModel JobSpec BalModel BalSpec SessModel SessSpec FailModel.
Import ListNotations.
Open Scope Z_scope.

(** The backends that refused a connection, and those that were declared dead, in order. *)
Definition refused (tr : list event) : list Z :=
  flat_map (fun e => match e with Dial id Refused => [id] | _ => [] end) tr.
Definition killed (tr : list event) : list Z :=
  flat_map (fun e => match e with Kill id => [id] | _ => [] end) tr.
(** Connections tried with another result. *)
Definition others (tr : list event) : list (Z * dial) :=
  flat_map (fun e => match e with Dial _ Refused => [] | Dial id d => [(id, d)] | _ => [] end) tr.

(** The backend with its mark of life removed if it is one of those. *)
Definition mark_dead (dead : list Z) (b : backend) : backend :=
  if existsb (Z.eqb (b_id b)) dead
  then mkBe (b_id b) (b_kind b) (b_pri b) (b_disabled b) false else b.

(** The backend of the session with that key. *)
Definition session_of (w : world) (key : bytes) : option Z :=
  option_map s_be (find (fun s => bytes_eqb (s_key s) (firstn KEY_SIZE key)) (t_list (w_sess w))).
Definition sticks (w : world) (key : option bytes) (id : Z) : Prop :=
  exists k, key = Some k /\ session_of w k = Some id.

(** No other thread interferes. *)
Definition quiet (e : env) : Prop :=
  (forall i w, e_pick e i w = w) /\ (forall i w, e_fail e i w = w).
(** Whether a backend takes connections does not change while the request looks for one. *)
Definition steady (e : env) (d : Z -> dial) : Prop := forall i id, e_dial e i id = d id.
Definition clock (e : env) : Prop := forall i, ts_ok (e_now e i).

(** Histories: the operations are proper; sessions are made for backends of the service (but for
    matrix backends); requests do not overlap with anything. *)
Definition target (w : world) (id : Z) : Prop :=
  exists b, In b (members (w_bls w)) /\ b_id b = id /\ b_kind b <> BE_MATRIX.
Definition wop_ok (w : world) (o : wop) : Prop :=
  match o with
  | WBal o => op_ok (w_bls w) o
  | WSess (SResp _ be now) | WSess (SAdd _ be now) => target w be /\ ts_ok now
  | WSess (SDel _) => True
  | WSess (SExpire T) => ts_ok T
  | WSess _ => False
  | WReq _ _ e _ _ => quiet e /\ clock e
  end.
Fixpoint wops_ok (algo : balancer_algo) (fuel : nat) (ttl : Z) (w : world) (os : list wop) : Prop :=
  match os with
  | [] => True
  | o :: r => wop_ok w o /\
      match wstep algo fuel ttl w o with Some w' => wops_ok algo fuel ttl w' r | None => True end
  end.

(** The state of a service after some history. *)
Definition reachable (algo : balancer_algo) (ttl : Z) (w : world) : Prop :=
  exists fuel l os, config_ok l /\ few (length os + length l) /\
    wops_ok algo fuel ttl (wstart algo l) os /\ wrun algo fuel ttl (wstart algo l) os = Some w.

Definition all_pri (bl : balancer) : Z := fold_right Z.add 0 (map b_pri (l_bes bl)).

(** The backend [id] is in the first group that has a usable member. *)
Definition in_first (w : world) (id : Z) : Prop :=
  exists pre bl post b, w_bls w = pre ++ bl :: post /\ In b (l_bes bl) /\ b_id b = id /\ usable b /\
    Forall (fun g => forall c, In c (l_bes g) -> ~ usable c) pre.

(** An open connection leads to the backend of the previous request. *)
Definition conn_ok (k : conn) : Prop := forall x, k_be k = Some x -> k_backend k = Some x.

(** What the search does to the service, for connections that turn out as in [d]: each backend is tried
    once at most; those that refuse are declared dead and lose their sessions; nothing happens to the
    others, nor to their sessions with other keys. *)
Definition tried (d : Z -> dial) (key : option bytes) (w w' : world) (tr : list event) : Prop :=
  NoDup (refused tr) /\ killed tr = refused tr /\ (forall x, In x (refused tr) -> d x = Refused) /\
  members (w_bls w') = map (mark_dead (refused tr)) (members (w_bls w)) /\
  forall kk, (forall k0, key = Some k0 -> ~ same_key k0 kk) ->
    session_of w' kk = match session_of w kk with
                       | Some b => if existsb (Z.eqb b) (refused tr) then None else Some b
                       | None => None
                       end.

(** What has to come of a request without interference. *)
Definition good_result (d : Z -> dial) (key : option bytes) (k : conn) (w : world) (r : result) : Prop :=
  match r with
  | Chosen w' k' tr =>
      tried d key w w' tr /\
      (* the request goes to a member *)
      exists b, In b (members (w_bls w')) /\ k_backend k' = Some (b_id b) /\
        (* that takes connections, if it is a server, or that is connected *)
        match b_kind b with
        | BE_REGULAR => k_be k' = Some (b_id b) /\
            (others tr = [(b_id b, Opened)] /\ d (b_id b) = Opened \/
             others tr = [] /\ refused tr = [] /\ k' = k)
        | BE_OTHER => k_be k' = None /\ others tr = []
        | BE_MATRIX => False
        end /\
        (* the session of the request leads to it, and it is the one the session led to or the
           balancer's choice *)
        (forall kk, key = Some kk -> session_of w' kk = Some (b_id b)) /\
        (sticks w key (b_id b) \/ in_first w' (b_id b))
  | Unavailable w' k' tr =>
      tried d key w w' tr /\
      (* a failure of another kind, or all usable backends have refused *)
      ((exists id x, others tr = [(id, x)] /\ d id = x /\ (x = BadFamily \/ x = NoSocket \/ x = NotOpened)) \/
       others tr = [] /\
       forall b, In b (members (w_bls w)) -> usable b -> b_kind b = BE_REGULAR /\ In (b_id b) (refused tr))
  | _ => False
  end.

(** The course of a search, whatever other threads do meanwhile: backends that refuse and are declared
    dead, one after the other, then [fin]. *)
Definition giving_up (ids : list Z) : list event := flat_map (fun id => [Dial id Refused; Kill id]) ids.
Definition course (e : env) (k : conn) (r : result) : Prop :=
  match r with
  | Chosen w' k' tr =>
      exists ids fin, tr = giving_up ids ++ fin /\
        (forall i x, nth_error ids i = Some x -> e_dial e i x = Refused) /\
        ((exists x, fin = [Dial x Opened] /\ e_dial e (length ids) x = Opened /\ k' = mkK (Some x) (Some x)) \/
         fin = [] /\ (k_be k' = None \/ ids = [] /\ k' = k))
  | Unavailable w' k' tr =>
      exists ids fin, tr = giving_up ids ++ fin /\
        (forall i x, nth_error ids i = Some x -> e_dial e i x = Refused) /\
        (fin = [] \/ exists x y, fin = [Dial x y] /\ e_dial e (length ids) x = y /\
                       (y = BadFamily \/ y = NoSocket \/ y = NotOpened))
  | _ => True
  end.
