(** Model of the life of dynamically generated backends: backend_ref, backend_unref,
    backend_sweep, the remover thread (src/dynbe.c 328-390, 726-816), and of those who hold
    references: get_backend, upd_session, kill_be, touch_be (src/svc.c 985-1089, 1189-1244,
    1652-1683), select_backend (src/http.c 4390-4505), pound_http_destroy (src/pound.c 392),
    job_resolver (src/dynbe.c 79-84, 191-198).

    A step is what a thread does while it holds the mutex of the service (it is not possible
    while the remover thread holds it, [scan]), or, for backend_unref, the mutex of the
    backend.  One service, all of whose backends can be removed.  kill_be reads be->balancer
    before it locks the service; here both happen in one step.  Not modelled: the balancers
    themselves (see BalModel), memory being given out again after free, the threads of
    backend_matrix_disable, which sweeps without the mutex. *)
From Coq Require Import List Arith ZArith Bool.
Import ListNotations.

Local Open Scope Z_scope.

(** Who holds a counted reference: a request being served (a thread in do_http) or a job
    waiting or running (touch_be, job_resolver). *)
Inductive holder := Req (n : nat) | Job (n : nat).

Definition holder_eqb (a b : holder) : bool :=
  match a, b with Req m, Req n => Nat.eqb m n | Job m, Job n => Nat.eqb m n | _, _ => false end.

(** Backends and session keys are numbers. *)
Record state := mkSt {
  next : nat;                    (* backends created so far: 0 .. next - 1 *)
  refcount : nat -> Z;
  listed : nat -> bool;          (* in its balancer and its hash table, be->balancer != NULL, !be->disabled *)
  freed : nat -> bool;
  rem : list nat;                (* svc->be_rem_head *)
  sessions : list (nat * nat);   (* svc->sessions: key and backend *)
  holds : list (holder * nat);   (* the pointers phttp->backend, backend (in select_backend), job->data *)
  scan : option (list nat);      (* a remover thread holds svc->mut and has these still to look at *)
  ready : nat;                   (* remover threads about to lock svc->mut *)
  waiting : nat                  (* remover threads in pthread_cond_wait *)
}.

Definition init : state := mkSt 0 (fun _ => 0) (fun _ => false) (fun _ => false) [] [] [] None 0 0.

(** What is reported of a step *)
Inductive event :=
| Listed (b : nat)                 (** created, put into its balancer *)
| Delisted (b : nat)               (** removed from its balancer *)
| Ref (h : holder) (b : nat)       (** [h] got a reference *)
| Unref (h : holder) (b : nat)     (** [h] dropped it *)
| Lost (h : holder) (b : nat)      (** [h] has forgotten it without dropping it *)
| Destroyed (b : nat).

Inductive crash := Use_after_free | Assertion.

Inductive result :=
| Blocked                          (** not possible now *)
| Crash (c : crash)
| Ok (s : state) (e : list event).

Inductive op :=
| Create                           (** service_matrix_addr_update_backends creates a backend *)
| Select (r : nat) (b : nat)       (** get_backend: the balancer chose b *)
| Stick (r : nat) (k : nat)        (** get_backend: from the session of k *)
| Learn (r : nat) (k : nat) (b : nat) (** get_backend: no session of k; the balancer chose b, session added *)
| Remember (r : nat) (k : nat)     (** upd_session *)
| Expire (k : nat)                 (** the session expires or is deleted *)
| Kill (r : nat) (j : nat)         (** kill_be (BE_KILL) by a request; j is the new job *)
| Probe (j : nat) (up : bool)      (** touch_be runs *)
| Again (j : nat) (j' : nat)       (** job_resolver enqueues itself again *)
| Drop (h : holder)                (** backend_unref *)
| Lose (r : nat)                   (** select_backend returns when open_backend has failed *)
| Peek (b : nat)                   (** select_backend reads the backend after backend_unref *)
| Sweep (b : nat)                  (** backend_sweep of a marked backend *)
| Start                            (** start_backend_removal *)
| Lock                             (** remover: the mutex is locked, first time or after the wait *)
| Check                            (** remover: one turn of DLIST_FOREACH_SAFE *)
| Wait.                            (** remover: end of the list: leave or wait *)

Fixpoint find {A} (eqb : A -> A -> bool) (k : A) (l : list (A * nat)) : option nat :=
  match l with
  | [] => None
  | (k', v) :: l' => if eqb k k' then Some v else find eqb k l'
  end.
Definition holding (h : holder) (s : state) : option nat := find holder_eqb h (holds s).
Definition session (k : nat) (s : state) : option nat := find Nat.eqb k (sessions s).
(** the first one only: a holder is there at most once, see [gain] *)
Fixpoint drop (h : holder) (l : list (holder * nat)) : list (holder * nat) :=
  match l with
  | [] => []
  | (h', v) :: l' => if holder_eqb h h' then l' else (h', v) :: drop h l'
  end.

Definition upd {A} (f : nat -> A) (b : nat) (v : A) : nat -> A := fun x => if Nat.eqb x b then v else f x.

Definition set_refcount s f := mkSt (next s) f (listed s) (freed s) (rem s) (sessions s) (holds s) (scan s) (ready s) (waiting s).
Definition set_sessions s l := mkSt (next s) (refcount s) (listed s) (freed s) (rem s) l (holds s) (scan s) (ready s) (waiting s).
Definition set_holds s l := mkSt (next s) (refcount s) (listed s) (freed s) (rem s) (sessions s) l (scan s) (ready s) (waiting s).
Definition set_scan s x := mkSt (next s) (refcount s) (listed s) (freed s) (rem s) (sessions s) (holds s) x (ready s) (waiting s).
Definition set_threads s r w := mkSt (next s) (refcount s) (listed s) (freed s) (rem s) (sessions s) (holds s) (scan s) r w.

(** backend_ref, dynbe.c 793-802, on behalf of [h].  A holder has one pointer (a request
    that has two of them counts as two). *)
Definition gain (h : holder) (b : nat) (s : state) : result :=
  if freed s b then Crash Use_after_free
  else match holding h s with
       | Some _ => Blocked
       | None => Ok (set_holds (set_refcount s (upd (refcount s) b (refcount s b + 1))) ((h, b) :: holds s)) [Ref h b]
       end.

(** backend_unref, dynbe.c 804-816: pthread_cond_signal wakes up one waiting thread *)
Definition unref (h : holder) (s : state) : result :=
  match holding h s with
  | None => Blocked
  | Some b =>
      if freed s b then Crash Use_after_free
      else if refcount s b <=? 0 then Crash Assertion
      else
        let c := refcount s b - 1 in
        let s1 := set_holds (set_refcount s (upd (refcount s) b c)) (drop h (holds s)) in
        let s2 := if c =? 0 then match waiting s1 with O => s1 | S w => set_threads s1 (S (ready s1)) w end else s1 in
        Ok s2 [Unref h b]
  end.

(** service_session_remove_by_backend, svc.c 433-448 *)
Definition forget (b : nat) (l : list (nat * nat)) : list (nat * nat) := filter (fun e => negb (Nat.eqb (snd e) b)) l.

(** backend_sweep, dynbe.c 337-385 *)
Definition sweep (b : nat) (s : state) : result :=
  if negb (listed s b) then Blocked
  else if refcount s b <=? 0 then Crash Assertion
  else Ok (mkSt (next s) (upd (refcount s) b (refcount s b - 1)) (upd (listed s) b false) (freed s) (rem s ++ [b])
                (forget b (sessions s)) (holds s) (scan s) (ready s) (waiting s)) [Delisted b].

(** thr_backend_remover, dynbe.c 764-775 *)
Definition check (s : state) : result :=
  match scan s with
  | Some (b :: l) =>
      if freed s b then Crash Use_after_free
      else if refcount s b =? 0
      then Ok (mkSt (next s) (refcount s) (listed s) (upd (freed s) b true) (filter (fun x => negb (Nat.eqb x b)) (rem s))
                    (sessions s) (holds s) (Some l) (ready s) (waiting s)) [Destroyed b]
      else Ok (set_scan s (Some l)) []
  | _ => Blocked
  end.

(** The mutex of the service is free. *)
Definition locked (s : state) : bool := match scan s with Some _ => true | None => false end.

Definition step (o : op) (s : state) : result :=
  match o with
  | Create => (* dynbe.c 453-470 *)
      if locked s then Blocked
      else let b := next s in
           Ok (mkSt (S b) (upd (refcount s) b 1) (upd (listed s) b true) (freed s) (rem s) (sessions s) (holds s) (scan s)
                    (ready s) (waiting s)) [Listed b]
  | Select r b => (* svc.c 1041-1043 *)
      if locked s then Blocked else if listed s b then gain (Req r) b s else Blocked
  | Stick r k => (* svc.c 1003-1043 *)
      if locked s then Blocked
      else match session k s with Some b => gain (Req r) b s | None => Blocked end
  | Learn r k b => (* svc.c 1003-1043, find_backend_by_key *)
      if locked s then Blocked
      else match session k s with
           | Some _ => Blocked
           | None => if listed s b then gain (Req r) b (set_sessions s ((k, b) :: sessions s)) else Blocked
           end
  | Remember r k => (* svc.c 1082-1088 *)
      if locked s then Blocked
      else match holding (Req r) s with
           | None => Blocked
           | Some b => match session k s with
                       | Some _ => Ok s []
                       | None => Ok (set_sessions s ((k, b) :: sessions s)) []
                       end
           end
  | Expire k =>
      if locked s then Blocked else Ok (set_sessions s (filter (fun e => negb (Nat.eqb (fst e) k)) (sessions s))) []
  | Kill r j => (* http.c 4484; svc.c 1234-1244, 1206-1214 *)
      if locked s then Blocked
      else match holding (Req r) s with
           | None => Blocked
           | Some b => if freed s b then Crash Use_after_free
                       else if negb (listed s b) then Crash Assertion
                       else gain (Job j) b (set_sessions s (forget b (sessions s)))
           end
  | Probe j up => (* svc.c 1658-1682 *)
      match holding (Job j) s with
      | None => Blocked
      | Some b => if freed s b then Crash Use_after_free
                  else if (1 <? refcount s b) && negb up then Ok s [] else unref (Job j) s
      end
  | Again j j' => (* dynbe.c 79-84, 112, 484 *)
      match holding (Job j) s with None => Blocked | Some b => gain (Job j') b s end
  | Drop h => unref h s
  | Lose r => (* http.c 4461-4465 *)
      match holding (Req r) s with
      | None => Blocked
      | Some b => Ok (set_holds s (drop (Req r) (holds s))) [Lost (Req r) b]
      end
  | Peek b => (* http.c 4436-4438, 4445-4447 *)
      if Nat.ltb b (next s) then if freed s b then Crash Use_after_free else Ok s [] else Blocked
  | Sweep b => if locked s then Blocked else sweep b s
  | Start => (* dynbe.c 478-479, 786-791 *)
      if locked s then Blocked else Ok (set_threads s (S (ready s)) (waiting s)) []
  | Lock => (* dynbe.c 758, 764, 780 *)
      if locked s then Blocked
      else match ready s with O => Blocked | S n => Ok (set_scan (set_threads s n (waiting s)) (Some (rem s))) [] end
  | Check => check s
  | Wait => (* dynbe.c 777-782 *)
      match scan s with
      | Some [] => match rem s with
                   | [] => Ok (set_scan s None) []
                   | _ => Ok (set_scan (set_threads s (ready s) (S (waiting s))) None) []
                   end
      | _ => Blocked
      end
  end.

(** A history: what happened, and how it ended *)
Inductive ending := Now (s : state) | Not_possible | Crashed (c : crash).
Fixpoint run (s : state) (ops : list op) : list event * ending :=
  match ops with
  | [] => ([], Now s)
  | o :: ops' =>
      match step o s with
      | Blocked => ([], Not_possible)
      | Crash c => ([], Crashed c)
      | Ok s' e => let (es, x) := run s' ops' in (e ++ es, x)
      end
  end.
