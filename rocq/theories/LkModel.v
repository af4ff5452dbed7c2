(** Model of the locks of pound: which mutexes each thread takes, in which order, and what it does while it has them.  Covers every use of
    pthread_mutex_lock, pthread_cond_wait and pthread_cond_timedwait in src/svc.c, src/dynbe.c, src/http.c, src/pound.c and src/bauth.c, except the
    array of locks for old versions of OpenSSL (pound.c 165-196).  Definitions only.
    A function is modelled by its locks, its uses of the lists of a service (sessions, balancers and their backends, backends to be removed), its
    waits for the network and the jobs that it queues and cancels; tests are choices, loops repeat any number of times.  Allocations succeed.
    All the mutexes taken twice by a thread (service, backend, job) are recursive (config.c 78, 2648, svc.c 61). *)
From Coq Require Import List Arith Bool.
Import ListNotations.

(** job_mutex (svc.c 56), mut of a service and of a backend (pound.h), log_mutex (pound.c 70), arg_mut (pound.c 210), crypt_mutex (bauth.c 24),
    RSA_mut (svc.c 1687) *)
Inductive lock := Job | Svc (s : nat) | Be (b : nat) | Log | Arg | Crypt | Rsa.

Inductive action :=
| Acq (l : lock)                 (** pthread_mutex_lock *)
| Rel (l : lock)                 (** pthread_mutex_unlock *)
| Sleep (l : lock)               (** pthread_cond_wait and timedwait with the mutex [l] *)
| Use (s : nat) (w : bool)       (** the lists of service [s] are read, or, with [w], changed *)
| Net                            (** a wait for a peer or a name server *)
| Enq (b : nat)                  (** a job for the dynamic backend [b] joins the queue *)
| Fire (b : nat)                 (** such a job leaves it, to be run *)
| Post (b : nat)                 (** its cancellation is asked for *)
| Take (b : nat).                (** the timer cancels it *)

Inductive prog :=
| Nop
| Do (a : action)
| Sync (l : lock) (p : prog)     (** lock, body, unlock *)
| Seq (p q : prog)
| Either (p q : prog)
| Many (p : prog).

Fixpoint seqs (l : list prog) : prog := match l with [] => Nop | p :: l => Seq p (seqs l) end.
Fixpoint some (l : list prog) : prog := match l with [] => Nop | p :: l => Either p (some l) end.
Definition opt (p : prog) : prog := Either p Nop.

(** The sequences of actions of a program *)
Inductive runs : prog -> list action -> Prop :=
| r_nop : runs Nop []
| r_do a : runs (Do a) [a]
| r_sync l p t : runs p t -> runs (Sync l p) (Acq l :: t ++ [Rel l])
| r_seq p q t u : runs p t -> runs q u -> runs (Seq p q) (t ++ u)
| r_left p q t : runs p t -> runs (Either p q) t
| r_right p q t : runs q t -> runs (Either p q) t
| r_none p : runs (Many p) []
| r_more p t u : runs p t -> runs (Many p) u -> runs (Many p) (t ++ u).

(** vlogmsg, pound.c 76-103: the mutex only when messages go to the standard streams *)
Definition logmsg : prog := opt (Sync Log Nop).

(** Jobs, svc.c 114-191.  [job_enqueue] stands for job_enqueue and job_enqueue_after with jobs that are never cancelled. *)
Definition job_enqueue : prog := Sync Job Nop.
Definition job_get_timestamp : prog := Sync Job Nop.
Definition job_cancel (b : nat) : prog := Sync Job (Do (Post b)).

(** backend_ref, backend_unref, dynbe.c 793-817 *)
Definition backend_ref (b : nat) : prog := Sync (Be b) Nop.
Definition backend_unref (b : nat) : prog := Sync (Be b) Nop.

(** job_enqueue_resolver, dynbe.c 79-84 *)
Definition job_enqueue_resolver (b : nat) : prog := Seq (backend_ref b) (Sync Job (Do (Enq b))).

(** * Sessions and requests *)

(** expire_sessions, svc.c 308-333 *)
Definition expire_sessions (s : nat) : prog := Sync (Svc s) (Seq (Do (Use s true)) (opt job_enqueue)).

(** service_session_add, svc.c 357-384 *)
Definition service_session_add (s : nat) : prog := seqs [Do (Use s true); opt logmsg; opt job_enqueue].

(** get_backend, svc.c 988-1049, that returns [b].  A session found is promoted. *)
Definition get_backend (s b : nat) : prog := Sync (Svc s) (seqs [Do (Use s false); opt (Seq (Do (Use s true)) (backend_ref b))]).

(** upd_session, svc.c 1054-1089 *)
Definition upd_session (s : nat) : prog := opt (Sync (Svc s) (opt (Seq (Do (Use s true)) (opt (service_session_add s))))).

(** kill_be, svc.c 1233-1244, with service_recompute_pri, 1147-1162, and cb_backend_disable, 1188-1225 *)
Definition cb_backend_disable (s b : nat) : prog := Either logmsg (seqs [logmsg; Do (Use s true); backend_ref b; job_enqueue]).
Definition kill_be (s b : nat) : prog := Sync (Svc s) (Seq (Many (opt (cb_backend_disable s b))) (Do (Use s true))).

(** touch_be, svc.c 1651-1683 *)
Definition touch_be (s b : nat) : prog :=
  Either (seqs [Do Net; logmsg; opt (Sync (Svc s) (Do (Use s true))); backend_unref b])
 (Either (seqs [Do Net; job_enqueue])
         (backend_unref b)).

(** auth_crypt, bauth.c 32-44, RSA_tmp_callback, svc.c 1693-1707, do_RSAgen, svc.c 1734-1765 *)
Definition auth_crypt : prog := Sync Crypt Nop.
Definition RSA_tmp_callback : prog := Sync Rsa Nop.
Definition do_RSAgen : prog := seqs [job_enqueue; Sync Rsa Nop].

(** backend_update_stats, http.c 4507-4521 *)
Definition backend_update_stats (b : nat) : prog := Sync (Be b) Nop.

(** One request of a worker to the service [s] and the backend [b], http.c 4388-4505, 4530-4935: authentication, the choice of the backend, other
    attempts after a failure (which may lead to another backend, [b']), relay, statistics *)
Definition request (s b b' : nat) : prog :=
  seqs [Do Net; logmsg; opt auth_crypt; opt RSA_tmp_callback; get_backend s b;
        Many (seqs [Do Net; logmsg; opt (kill_be s b); backend_unref b; get_backend s b']);
        Do Net; opt (upd_session s); opt (backend_update_stats b'); logmsg; opt (backend_unref b')].

(** pound_http_dequeue, pound.c 310-375, pound_http_enqueue, 295-302, active_threads_decr, 433-441, active_threads_wait, 443-460,
    get_thr_qlen and workers_serialize *)
Definition pound_http_dequeue : prog := Sync Arg (Many (Either (Do (Sleep Arg)) logmsg)).
Definition pound_http_enqueue : prog := Sync Arg (opt logmsg).
Definition active_threads_decr : prog := Sync Arg Nop.
Definition active_threads_wait : prog := Sync Arg (opt (Seq logmsg (Many (Do (Sleep Arg))))).

(** thr_http: the requests given by [l] *)
Definition worker (l : list (nat * nat * nat)) : prog :=
  seqs (map (fun x => match x with (s, b, b') => seqs [pound_http_dequeue; opt (request s b b'); active_threads_decr] end) l ++ [pound_http_dequeue]).
Definition dispatcher : prog := Many (seqs [Do Net; logmsg; pound_http_enqueue]).

(** * Dynamic backends *)

(** A backend with those it has made.  Regular backends make none. *)
Inductive tree := Reg (b : nat) | Mtx (b : nat) (kids : list tree).
Definition root (t : tree) : nat := match t with Reg b => b | Mtx b _ => b end.
Definition kids (t : tree) : list tree := match t with Reg _ => [] | Mtx _ l => l end.

(** backend_mark, dynbe.c 320-326, backend_set_prio, 491-498 *)
Definition backend_mark (t : tree) : prog := Sync (Be (root t)) Nop.
Definition backend_set_prio (t : tree) : prog := Sync (Be (root t)) Nop.

(** backend_sweep, dynbe.c 328-390 *)
Fixpoint backend_sweep (s : nat) (t : tree) : prog :=
  match t with
  | Reg b => Sync (Be b) (opt (Do (Use s true)))
  | Mtx b l => Sync (Be b) (opt (seqs [job_cancel b; seqs (map backend_mark l); seqs (map (backend_sweep s) l); Do (Use s true)]))
  end.

(** service_matrix_addr_update_backends, dynbe.c 392-489, for the backend [t].  Its new backends are known to no other thread yet. *)
Definition service_matrix_addr_update_backends (s : nat) (t : tree) : prog :=
  Sync (Svc s) (Sync (Be (root t)) (Seq (Do (Use s true)) (opt (seqs
    [seqs (map backend_mark (kids t)); Many (some (Do (Use s true) :: map backend_mark (kids t))); seqs (map (backend_sweep s) (kids t));
     Do (Use s true); job_enqueue_resolver (root t)])))).

(** service_matrix_srv_update_backends, dynbe.c 557-690; [fresh] are the dynamic backends it makes *)
Definition service_matrix_srv_update_backends (s : nat) (t : tree) (fresh : list nat) : prog :=
  Sync (Svc s) (Sync (Be (root t)) (opt (seqs
    [opt (seqs [seqs (map backend_mark (kids t));
                Many (Either (some (map (fun k => seqs (map backend_set_prio (kids k))) (kids t))) (some (map job_enqueue_resolver fresh)));
                seqs (map (backend_sweep s) (kids t)); Do (Use s true)]);
     job_enqueue_resolver (root t)]))).

(** backend_matrix_update, dynbe.c 158-178, with backend_matrix_addr_update, 86-120, and backend_matrix_srv_update, 122-156 *)
Definition backend_matrix_update (s : nat) (t : tree) (fresh : list nat) : prog :=
  Seq (seqs [Do Net; Many logmsg])
      (Either (Either (service_matrix_addr_update_backends s t) (service_matrix_srv_update_backends s t fresh)) (opt (job_enqueue_resolver (root t)))).

(** job_resolver, dynbe.c 191-198: when it is run, in a thread of its own (svc.c 199-206), and when it is cancelled, by the timer *)
Definition job_resolver_run (s : nat) (t : tree) (fresh : list nat) : prog := seqs [Do (Fire (root t)); backend_matrix_update s t fresh; backend_unref (root t)].
Definition job_resolver_cancel (b : nat) : prog := backend_unref b.

(** thr_timer, svc.c 211-267, with job_remove, 143-159; [bs] are the backends whose jobs it may meet in the list of cancellations *)
Definition thr_timer (bs : list nat) : prog :=
  Sync Job (Many (Either (some (map (fun b => Seq (Do (Take b)) (job_resolver_cancel b)) bs)) (Either (Do (Sleep Job)) logmsg))).

(** backend_matrix_disable, dynbe.c 699-724: enable and disable *)
Definition backend_matrix_enable (s : nat) (t : tree) (fresh : list nat) : prog := opt (backend_matrix_update s t fresh).
Definition backend_matrix_disable (s : nat) (t : tree) : prog :=
  seqs [seqs (map backend_mark (kids t)); seqs (map (backend_sweep s) (kids t)); job_cancel (root t); Do (Use s true)].

(** thr_backend_remover, dynbe.c 754-784; [bs] are the backends that may be in the list *)
Definition thr_backend_remover (s : nat) (bs : list nat) : prog :=
  Sync (Svc s) (Many (seqs [Do (Use s false); Many (Seq (some (map (fun b => Sync (Be b) Nop) bs)) (Do (Use s true))); opt (Do (Sleep (Svc s)))])).

(** * Control requests *)

(** backend_serialize, svc.c 2118-2205, with backend_stats_serialize, 2019-2039, and backend_serialize_dyninfo, 2074-2113 *)
Definition backend_serialize (s b : nat) : prog := seqs [Do (Use s false); Sync (Be b) Nop; opt job_get_timestamp].
(** service_serialize, svc.c 2235-2261 *)
Definition service_serialize (s : nat) (bs : list nat) : prog := Sync (Svc s) (seqs (Do (Use s false) :: map (backend_serialize s) bs)).
(** listener_serialize, pound_serialize and pound_core_serialize, svc.c 2263-2430 *)
Definition pound_serialize (l : list (nat * list nat)) : prog :=
  seqs [opt (Sync Arg Nop); opt (Sync Arg Nop); seqs (map (fun x => service_serialize (fst x) (snd x)) l)].

(** locate_backend, svc.c 2595-2615 *)
Definition locate_backend (s : nat) : prog := Do (Use s false).
(** list_handler for a backend, svc.c 2695-2706 *)
Definition list_backend (s b : nat) : prog := seqs [locate_backend s; Sync (Svc s) (backend_serialize s b); Do Net].
(** session_add_handler and session_remove_handler, svc.c 2851-2936 *)
Definition session_add (s : nat) (bs : list nat) : prog := seqs [locate_backend s; Sync (Svc s) (service_session_add s); service_serialize s bs; Do Net].
Definition session_remove (s : nat) (bs : list nat) : prog := seqs [Sync (Svc s) (Do (Use s true)); service_serialize s bs; Do Net].
(** disable_handler for a backend, svc.c 2771-2810: static, and dynamic *)
Definition disable_static (s b : nat) : prog := seqs [locate_backend s; kill_be s b; Do Net].
(** service_has_control and disable_handler for a service, svc.c 2742-2756, 2789-2793 *)
Definition disable_service (s : nat) (bs : list nat) : prog := seqs [Do (Use s false); service_serialize s bs; Do Net].
Definition disable_dynamic (s : nat) (t : tree) : prog := seqs [locate_backend s; backend_matrix_disable s t; Do Net].
Definition enable_dynamic (s : nat) (t : tree) (fresh : list nat) : prog := seqs [locate_backend s; backend_matrix_enable s t fresh; Do Net].

(** * Threads *)
Inductive thread :=
| Worker (l : list (nat * nat * nat))
| Dispatcher
| Main
| Timer (bs : list nat)
| Expire (s : nat) | Probe (s b : nat) | RsaGen                     (** jobs *)
| Resolve (s : nat) (t : tree) (fresh : list nat)
| Remover (s : nat) (bs : list nat)
| ListAll (l : list (nat * list nat)) | SessionRemove (s : nat) (bs : list nat)
| ListBackend (s b : nat) | SessionAdd (s : nat) (bs : list nat) | SetStatic (s b : nat) | SetService (s : nat) (bs : list nat)
| EnableDynamic (s : nat) (t : tree) (fresh : list nat) | DisableDynamic (s : nat) (t : tree).

Definition code (k : thread) : prog :=
  match k with
  | Worker l => worker l
  | Dispatcher => dispatcher
  | Main => active_threads_wait
  | Timer bs => thr_timer bs
  | Expire s => expire_sessions s
  | Probe s b => touch_be s b
  | RsaGen => do_RSAgen
  | Resolve s t fresh => job_resolver_run s t fresh
  | Remover s bs => thr_backend_remover s bs
  | ListAll l => Seq (pound_serialize l) (Do Net)
  | SessionRemove s bs => session_remove s bs
  | ListBackend s b => list_backend s b
  | SessionAdd s bs => session_add s bs
  | SetStatic s b => disable_static s b
  | SetService s bs => disable_service s bs
  | EnableDynamic s t fresh => enable_dynamic s t fresh
  | DisableDynamic s t => disable_dynamic s t
  end.

(** * Execution *)

Definition lock_eqb (a b : lock) : bool :=
  match a, b with
  | Job, Job | Log, Log | Arg, Arg | Crypt, Crypt | Rsa, Rsa => true
  | Svc x, Svc y | Be x, Be y => x =? y
  | _, _ => false
  end.

(** A thread that runs: the locks it has, the last first, and what it will do *)
Record running := mkR { has : list lock; todo : list action }.
Record state := mkS { threads : list running; queue : list nat; cancelled : list nat }.

Fixpoint drop {A} (eqb : A -> A -> bool) (x : A) (l : list A) : list A :=
  match l with [] => [] | y :: l => if eqb x y then l else y :: drop eqb x l end.
Definition mem {A} (eqb : A -> A -> bool) (x : A) (l : list A) : bool := existsb (eqb x) l.
Fixpoint put {A} (l : list A) (i : nat) (x : A) : list A :=
  match l, i with [], _ => [] | _ :: t, 0 => x :: t | y :: t, S j => y :: put t j x end.
Fixpoint others {A} (l : list A) (i : nat) : list A :=
  match l, i with [], _ => [] | _ :: t, 0 => t | y :: t, S j => y :: others t j end.

(** Is the lock with a thread other than [i]? *)
Definition taken (st : state) (i : nat) (l : lock) : bool := existsb (fun r => mem lock_eqb l (has r)) (others (threads st) i).

(** One action of thread [i], if it can go on *)
Definition step (st : state) (i : nat) : option state :=
  match nth_error (threads st) i with
  | Some (mkR h (a :: t)) =>
      let same := fun r => mkS (put (threads st) i r) (queue st) (cancelled st) in
      match a with
      | Acq l => if taken st i l then None else Some (same (mkR (l :: h) t))
      | Rel l => if mem lock_eqb l h then Some (same (mkR (drop lock_eqb l h) t)) else None
      | Sleep l => if mem lock_eqb l h then Some (same (mkR (drop lock_eqb l h) (Acq l :: t))) else None
      | Use _ _ | Net => Some (same (mkR h t))
      | Enq b => Some (mkS (put (threads st) i (mkR h t)) (queue st ++ [b]) (cancelled st))
      | Fire b => if mem Nat.eqb b (queue st) then Some (mkS (put (threads st) i (mkR h t)) (drop Nat.eqb b (queue st)) (cancelled st)) else None
      | Post b => Some (mkS (put (threads st) i (mkR h t)) (queue st) (b :: cancelled st))
      | Take b => if mem Nat.eqb b (cancelled st) && mem Nat.eqb b (queue st)
                  then Some (mkS (put (threads st) i (mkR h t)) (drop Nat.eqb b (queue st)) (drop Nat.eqb b (cancelled st))) else None
      end
  | _ => None
  end.

(** The state after a schedule *)
Fixpoint after (st : state) (sched : list nat) : option state :=
  match sched with [] => Some st | i :: sched => match step st i with Some st => after st sched | None => None end end.

(** At the start no thread has a lock and the jobs [q] are queued (backend_matrix_init, dynbe.c 692-697) *)
Definition start (ts : list (list action)) (q : list nat) : state := mkS (map (mkR []) ts) q [].
