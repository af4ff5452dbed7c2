(** Sessions: the table of session keys of a service and its expiry.

    Simplifications.  A SESSION object is identified by [s_id], given out in order
    of creation; the hash table maps a key to such an identity and is an
    association list with at most one entry per key.  The intrusive list is a Coq
    list.  malloc does not fail.  The queue of jobs is reduced to the due times of
    the pending runs of expire_sessions for this service (see JobModel for the
    queue): [SExpire T] is a run of the job scheduled for time T, which the timer
    passes to it as [now].  The model lets a run happen for any T; in the program
    T is one of the pending due times and has been reached.  Every step is one
    critical section on the service mutex. *)
From Coq Require Import List ZArith Bool.
From Verif Require Import Bytes JobModel.
Import ListNotations.
Open Scope Z_scope.

(** pound.h, struct session: key, backend, expire *)
Record sess := mkS { s_id : Z; s_key : bytes; s_be : Z; s_exp : timespec }.

(** pound.h, SESSION_TABLE (hash and list), the pending expiry runs, and the
    identity for the next object *)
Record stab := mkT {
  t_hash : list (bytes * Z);
  t_list : list sess;
  t_runs : list timespec;
  t_fresh : Z
}.

(** svc.c:271-280, session_table_new *)
Definition session_table_new : stab := mkT [] [] [] 0.

(** ht.h: retrieve, insert (returning the replaced entry) and delete (returning
    the deleted entry) *)
Fixpoint h_retrieve (k : bytes) (h : list (bytes * Z)) : option Z :=
  match h with
  | [] => None
  | (k', i) :: h' => if bytes_eqb k' k then Some i else h_retrieve k h'
  end.
Definition h_remove (k : bytes) (h : list (bytes * Z)) : list (bytes * Z) :=
  filter (fun e => negb (bytes_eqb (fst e) k)) h.
Definition h_insert (k : bytes) (i : Z) (h : list (bytes * Z)) : list (bytes * Z) * option Z :=
  ((k, i) :: h_remove k h, h_retrieve k h).
Definition h_delete (k : bytes) (h : list (bytes * Z)) : list (bytes * Z) * option Z :=
  (h_remove k h, h_retrieve k h).

(** svc.c:288-292, session_unlink *)
Definition session_unlink (i : Z) (l : list sess) : list sess :=
  filter (fun s => negb (s_id s =? i)) l.
(** The object a pointer refers to. *)
Definition deref (i : Z) (l : list sess) : option sess := find (fun s => s_id s =? i) l.

(** svc.c:346-347 and 373-374: the clock plus sess_ttl *)
Definition expiry (now : timespec) (ttl : Z) : timespec := mkTs (tv_sec now + ttl) (tv_nsec now).

(** svc.c:322-328, the loop of expire_sessions *)
Fixpoint expire_loop (now : timespec) (h : list (bytes * Z)) (l : list sess) : list (bytes * Z) * list sess :=
  match l with
  | [] => (h, [])
  | s :: l' =>
      if timespec_cmp (s_exp s) now <=? 0 then expire_loop now (fst (h_delete (s_key s) h)) l'
      else (h, l)
  end.

(** Take one pending run with due time T off the queue. *)
Fixpoint take_run (T : timespec) (rs : list timespec) : list timespec :=
  match rs with
  | [] => []
  | r :: rs' => if timespec_cmp r T =? 0 then rs' else r :: take_run T rs'
  end.

(** svc.c:309-333, expire_sessions with job_ctl_run *)
Definition expire_sessions (T : timespec) (t : stab) : stab :=
  let (h, l) := expire_loop T (t_hash t) (t_list t) in
  let rs := take_run T (t_runs t) in
  mkT h l (match l with [] => rs | s :: _ => rs ++ [s_exp s] end) (t_fresh t).

(** svc.c:341-349, service_session_promote *)
Definition service_session_promote (ttl : Z) (now : timespec) (s : sess) (t : stab) : stab :=
  mkT (t_hash t)
      (session_unlink (s_id s) (t_list t) ++ [mkS (s_id s) (s_key s) (s_be s) (expiry now ttl)])
      (t_runs t) (t_fresh t).

(** svc.c:358-384, service_session_add *)
Definition service_session_add (ttl : Z) (key : bytes) (be : Z) (now : timespec) (t : stab) : stab :=
  let n := mkS (t_fresh t) key be (expiry now ttl) in
  let (h, old) := h_insert key (s_id n) (t_hash t) in
  let l0 := match old with Some i => session_unlink i (t_list t) | None => t_list t end in
  let l := l0 ++ [n] in
  mkT h l (match l with [_] => t_runs t ++ [s_exp n] | _ => t_runs t end) (t_fresh t + 1).

(** svc.c:392-405, service_session_find.  A key whose entry points to no object
    of the list would be a dangling pointer; the result is then [None] as well. *)
Definition service_session_find (ttl : Z) (key : bytes) (now : timespec) (t : stab) : stab * option Z :=
  match h_retrieve key (t_hash t) with
  | Some i =>
      match deref i (t_list t) with
      | Some s => (service_session_promote ttl now s t, Some (s_be s))
      | None => (t, None)
      end
  | None => (t, None)
  end.

(** svc.c:413-426, service_session_remove_by_key *)
Definition service_session_remove_by_key (key : bytes) (t : stab) : stab :=
  let (h, res) := h_delete key (t_hash t) in
  match res with
  | Some i => mkT h (session_unlink i (t_list t)) (t_runs t) (t_fresh t)
  | None => mkT h (t_list t) (t_runs t) (t_fresh t)
  end.

(** svc.c:433-448, service_session_remove_by_backend *)
Definition service_session_remove_by_backend (be : Z) (t : stab) : stab :=
  let dead := filter (fun s => s_be s =? be) (t_list t) in
  mkT (fold_left (fun h s => fst (h_delete (s_key s) h)) dead (t_hash t))
      (filter (fun s => negb (s_be s =? be)) (t_list t)) (t_runs t) (t_fresh t).

(** pound.h, KEY_SIZE *)
Definition KEY_SIZE : nat := 127.

(** svc.c:837-857, find_backend_by_key; [choice] is what
    service_lb_select_backend returns if it is called (see BalModel). *)
Definition find_backend_by_key (ttl : Z) (key : bytes) (now : timespec) (choice : option Z) (t : stab)
  : stab * option Z :=
  let keybuf := firstn KEY_SIZE key in
  match service_session_find ttl keybuf now t with
  | (t1, Some b) => (t1, Some b)
  | (t1, None) =>
      match choice with
      | Some b => (service_session_add ttl keybuf b now t1, Some b)
      | None => (t1, None)
      end
  end.

(** svc.c:1082-1088, the critical section of upd_session; [key] is what the key
    extractor returned. *)
Definition upd_session (ttl : Z) (key : bytes) (be : Z) (now : timespec) (t : stab) : stab :=
  match service_session_find ttl key now t with
  | (t1, Some _) => t1
  | (t1, None) => service_session_add ttl key be now t1
  end.

(** What happens to a session table: a request with a session key; a response
    with one; a session added or deleted through the control socket
    (svc.c:2849-2933); a backend killed (svc.c:1211) or removed (dynbe.c:347);
    an expiry run. *)
Inductive sop :=
| SReq (key : bytes) (now : timespec) (choice : option Z)
| SResp (key : bytes) (be : Z) (now : timespec)
| SAdd (key : bytes) (be : Z) (now : timespec)
| SDel (key : bytes)
| SKill (be : Z)
| SExpire (T : timespec).

(** One step, with the backend a request is given. *)
Definition sstep (ttl : Z) (t : stab) (o : sop) : stab * option Z :=
  match o with
  | SReq key now choice => find_backend_by_key ttl key now choice t
  | SResp key be now => (upd_session ttl key be now t, None)
  | SAdd key be now => (service_session_add ttl key be now t, None)
  | SDel key => (service_session_remove_by_key key t, None)
  | SKill be => (service_session_remove_by_backend be t, None)
  | SExpire T => (expire_sessions T t, None)
  end.

Definition srun (ttl : Z) (t : stab) (os : list sop) : stab :=
  fold_left (fun t o => fst (sstep ttl t o)) os t.
