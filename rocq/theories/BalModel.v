(** Backends, balancer groups and the two balancing algorithms.

    Simplifications.  A backend pointer is represented by the backend's identity
    [b_id]; identities of the members of one service are distinct.  An intrusive
    doubly-linked list is a Coq list.  Fields that play no role in balancing
    (addresses, statistics, mutexes) are omitted.  Every operation below is the
    body of one critical section on the service mutex, except that [touch_be] is
    also given as its two phases, because it sets [alive] before taking the mutex. *)
From Coq Require Import List ZArith Bool.
Import ListNotations.
Open Scope Z_scope.

(** pound.h:459-470 (BACKEND_TYPE); BE_OTHER stands for the redirect, ACME,
    control, error and metrics types, which behave alike here. *)
Inductive be_kind := BE_REGULAR | BE_MATRIX | BE_OTHER.

(** pound.h:543-577 (struct _backend); the fields used by balancing. *)
Record backend := mkBe {
  b_id : Z;
  b_kind : be_kind;
  b_pri : Z;         (* int priority *)
  b_disabled : bool;
  b_alive : bool     (* v.reg.alive *)
}.

(** pound.h:586-593, backend_is_alive *)
Definition backend_is_alive (b : backend) : bool :=
  match b_kind b with
  | BE_MATRIX => false
  | BE_REGULAR => b_alive b
  | BE_OTHER => true
  end.

(** pound.h:595-598, backend_is_active *)
Definition backend_is_active (b : backend) : bool :=
  negb (b_disabled b) && backend_is_alive b.

(** pound.h:758-762 (BALANCER_ALGO) *)
Inductive balancer_algo := ALGO_RANDOM | ALGO_IWRR.

(** pound.h:772-796 (struct balancer).  The union of the two per-algorithm states
    is flattened: only the fields of the group's own algorithm are used.  [l_cur]
    is the backend pointer [iwrr.cur], NULL being [None]. *)
Record balancer := mkBal {
  l_weight : Z;
  l_algo : balancer_algo;
  l_act : Z;               (* act_num *)
  l_bes : list backend;
  l_sum : Z;               (* rand.sum_pri *)
  l_round : Z;             (* iwrr.round *)
  l_max : Z;               (* iwrr.max_pri *)
  l_cur : option Z         (* iwrr.cur *)
}.

Definition LONG_MAX : Z := 2 ^ 63 - 1.
Definition INT_MAX : Z := 2 ^ 31 - 1.
Definition ULONG_MOD : Z := 2 ^ 64.
(** glibc random(): 0 .. RAND_MAX = 2^31 - 1. *)
Definition RANDOM_MOD : Z := 2 ^ 31.

(** svc.c:616-629, random_in_range.  The successive results of random() are the
    list argument; [None] means that all of them were rejected, i.e. the loop is
    still running.  [- max % max] is computed in unsigned long. *)
Fixpoint random_loop (max min : Z) (rs : list Z) : option (Z * list Z) :=
  match rs with
  | [] => None
  | r :: rs' => if r <? min then random_loop max min rs' else Some (r mod max, rs')
  end.

Definition random_in_range (max : Z) (rs : list Z) : option (Z * list Z) :=
  if max <? 2 then Some (0, rs)
  else random_loop max ((ULONG_MOD - max) mod max) rs.

(** svc.c:631-635, rand_pri_init; svc.c:713-717, iwrr_pri_init;
    svc.c:785-790, balancer_pri_init *)
Definition balancer_pri_init (bl : balancer) : balancer :=
  match l_algo bl with
  | ALGO_RANDOM =>
      mkBal (l_weight bl) (l_algo bl) (l_act bl) (l_bes bl) 0 (l_round bl) (l_max bl) (l_cur bl)
  | ALGO_IWRR =>
      mkBal (l_weight bl) (l_algo bl) (l_act bl) (l_bes bl) (l_sum bl) (l_round bl) 0 (l_cur bl)
  end.

(** svc.c:637-648, rand_pri_update; svc.c:719-730, iwrr_pri_update;
    svc.c:792-798, balancer_pri_update.  The boolean is the C result (true =
    refused).  The comparison with LONG_MAX is made in unsigned long, so that a
    negative priority is always refused. *)
Definition balancer_pri_update (bl : balancer) (be : backend) : balancer * bool :=
  match l_algo bl with
  | ALGO_RANDOM =>
      if (LONG_MAX - l_sum bl) mod ULONG_MOD <? b_pri be mod ULONG_MOD then (bl, true)
      else (mkBal (l_weight bl) (l_algo bl) (l_act bl) (l_bes bl)
                  (l_sum bl + b_pri be) (l_round bl) (l_max bl) (l_cur bl), false)
  | ALGO_IWRR =>
      if b_pri be =? INT_MAX then (bl, true)
      else (mkBal (l_weight bl) (l_algo bl) (l_act bl) (l_bes bl) (l_sum bl) (l_round bl)
                  (if l_max bl <? b_pri be then b_pri be else l_max bl) (l_cur bl), false)
  end.

(** svc.c:660-664, the loop of rand_select: walk the list, subtracting the
    priority of each active backend from the draw until it becomes negative. *)
Fixpoint rand_walk (pri : Z) (bes : list backend) : option backend :=
  match bes with
  | [] => None
  | be :: r =>
      if backend_is_active be then
        if pri - b_pri be <? 0 then Some be else rand_walk (pri - b_pri be) r
      else rand_walk pri r
  end.

(** Results of a selection: a backend or NULL; [Looping] = the code has not
    finished within the fuel (or the random numbers) given; [Crash] = a NULL
    pointer is dereferenced. *)
Inductive sel (A : Type) := Picked (be : backend) (a : A) | NoBackend (a : A) | Looping | Crash.
Arguments Picked {A}. Arguments NoBackend {A}. Arguments Looping {A}. Arguments Crash {A}.

(** svc.c:650-666, rand_select.  The assignment of the draw to an [int] is exact,
    random() being less than 2^31. *)
Definition rand_select (bl : balancer) (rs : list Z) : sel (list Z) :=
  match l_bes bl with
  | [] => NoBackend rs
  | _ =>
      match random_in_range (l_sum bl) rs with
      | None => Looping
      | Some (pri, rs') =>
          match rand_walk pri (l_bes bl) with
          | Some be => Picked be rs'
          | None => NoBackend rs'
          end
      end
  end.

(** list.h:234-235, DLIST_FIRST / list.h:239 DLIST_NEXT on a list of backends. *)
Definition first_id (bes : list backend) : option Z :=
  match bes with [] => None | b :: _ => Some (b_id b) end.

Fixpoint next_id (id : Z) (bes : list backend) : option Z :=
  match bes with
  | [] => None
  | b :: r => if b_id b =? id then first_id r else next_id id r
  end.

Fixpoint find_be (id : Z) (bes : list backend) : option backend :=
  match bes with
  | [] => None
  | b :: r => if b_id b =? id then Some b else find_be id r
  end.

Definition with_pos (bl : balancer) (round : Z) (cur : option Z) : balancer :=
  mkBal (l_weight bl) (l_algo bl) (l_act bl) (l_bes bl) (l_sum bl) round (l_max bl) cur.

(** svc.c:668-673, iwrr_init *)
Definition iwrr_init (bl : balancer) : balancer := with_pos bl 0 (first_id (l_bes bl)).

(** svc.c:675-682, iwrr_reset *)
Definition iwrr_reset (bl : balancer) (id : Z) : balancer :=
  match l_cur bl with
  | Some c => if c =? id then iwrr_init bl else bl
  | None => bl
  end.

(** svc.c:698-707, one iteration of the loop of iwrr_select: the backend found, if
    any, and the advanced state.  [None] as a result: iwrr.cur points to no member
    (a dangling pointer). *)
Definition iwrr_step (bl : balancer) (id : Z) : option (option backend * balancer) :=
  match find_be id (l_bes bl) with
  | None => None
  | Some cur =>
      let be := if backend_is_active cur && (l_round bl <? b_pri cur) then Some cur else None in
      match next_id id (l_bes bl) with
      | Some n => Some (be, with_pos bl (l_round bl) (Some n))
      | None =>
          Some (be, with_pos bl ((l_round bl + 1) mod (l_max bl + 1)) (first_id (l_bes bl)))
      end
  end.

(** svc.c:696-710, the do-while loop of iwrr_select *)
Fixpoint iwrr_loop (fuel : nat) (bl : balancer) : sel balancer :=
  match fuel with
  | O => Looping
  | S fuel' =>
      match l_cur bl with
      | None => Crash
      | Some id =>
          match iwrr_step bl id with
          | None => Crash
          | Some (Some be, bl') => Picked be bl'
          | Some (None, bl') => iwrr_loop fuel' bl'
          end
      end
  end.

(** svc.c:684-711, iwrr_select *)
Definition iwrr_select (fuel : nat) (bl : balancer) : sel balancer :=
  match l_cur bl with
  | Some _ => iwrr_loop fuel bl
  | None =>
      match l_cur (iwrr_init bl) with
      | None => NoBackend (iwrr_init bl)
      | Some _ => iwrr_loop fuel (iwrr_init bl)
      end
  end.

(** svc.c:756-769, balancer_select_backend.  On an empty group
    [DLIST_NEXT (DLIST_FIRST (...))] dereferences NULL. *)
Definition balancer_select_backend (fuel : nat) (bl : balancer) (rs : list Z)
  : sel (balancer * list Z) :=
  match l_bes bl with
  | [] => Crash
  | [be] => if backend_is_active be then Picked be (bl, rs) else NoBackend (bl, rs)
  | _ =>
      match l_algo bl with
      | ALGO_RANDOM =>
          match rand_select bl rs with
          | Picked be rs' => Picked be (bl, rs')
          | NoBackend rs' => NoBackend (bl, rs')
          | Looping => Looping
          | Crash => Crash
          end
      | ALGO_IWRR =>
          match iwrr_select fuel bl with
          | Picked be bl' => Picked be (bl', rs)
          | NoBackend bl' => NoBackend (bl', rs)
          | Looping => Looping
          | Crash => Crash
          end
      end
  end.

(** svc.c:800-811, service_lb_select_backend *)
Fixpoint service_lb_select_backend (fuel : nat) (bls : list balancer) (rs : list Z)
  : sel (list balancer * list Z) :=
  match bls with
  | [] => NoBackend ([], rs)
  | bl :: r =>
      match balancer_select_backend fuel bl rs with
      | Picked be (bl', rs') => Picked be (bl' :: r, rs')
      | NoBackend (bl', rs') =>
          match service_lb_select_backend fuel r rs' with
          | Picked be (r', rs'') => Picked be (bl' :: r', rs'')
          | NoBackend (r', rs'') => NoBackend (bl' :: r', rs'')
          | Looping => Looping
          | Crash => Crash
          end
      | Looping => Looping
      | Crash => Crash
      end
  end.

(** svc.c:973-983, service_has_backends *)
Definition service_has_backends (bls : list balancer) : bool :=
  existsb (fun bl => 0 <? l_act bl) bls.

(** svc.c:996-1046, the part of get_backend that concerns a service without
    session tracking (SESS_NONE). *)
Definition get_backend_nosess (fuel : nat) (bls : list balancer) (rs : list Z)
  : sel (list balancer * list Z) :=
  if service_has_backends bls then service_lb_select_backend fuel bls rs
  else NoBackend (bls, rs).

Definition set_act (bl : balancer) (n : Z) : balancer :=
  mkBal (l_weight bl) (l_algo bl) n (l_bes bl) (l_sum bl) (l_round bl) (l_max bl) (l_cur bl).
Definition set_bes (bl : balancer) (l : list backend) : balancer :=
  mkBal (l_weight bl) (l_algo bl) (l_act bl) l (l_sum bl) (l_round bl) (l_max bl) (l_cur bl).

Definition set_disabled (b : backend) (d : bool) : backend :=
  mkBe (b_id b) (b_kind b) (b_pri b) d (b_alive b).
Definition set_alive (b : backend) (a : bool) : backend :=
  mkBe (b_id b) (b_kind b) (b_pri b) (b_disabled b) a.
Definition set_pri (b : backend) (p : Z) : backend :=
  mkBe (b_id b) (b_kind b) p (b_disabled b) (b_alive b).

(** svc.c:1110-1121, the loop of balancer_recompute_pri_unlocked; [cb] is the
    effect of the call-back on a backend.  The first argument accumulates the
    group's counters, the result is the list of updated backends. *)
Fixpoint recompute_loop (cb : backend -> backend) (bl : balancer) (bes : list backend)
  : balancer * list backend :=
  match bes with
  | [] => (bl, [])
  | b0 :: r =>
      let b := cb b0 in
      if backend_is_active b then
        let (bl', refused) := balancer_pri_update bl b in
        if refused then
          let (bl'', r') := recompute_loop cb bl' r in (bl'', set_disabled b true :: r')
        else
          let (bl'', r') := recompute_loop cb (set_act bl' (l_act bl' + 1)) r in (bl'', b :: r')
      else
        let (bl'', r') := recompute_loop cb bl r in (bl'', b :: r')
  end.

(** svc.c:1101-1122, balancer_recompute_pri_unlocked *)
Definition balancer_recompute_pri (cb : backend -> backend) (bl : balancer) : balancer :=
  let (bl', bes') := recompute_loop cb (balancer_pri_init (set_act bl 0)) (l_bes bl) in
  set_bes bl' bes'.

(** pound.h:1060-1062 (BE_DISABLE, BE_KILL, BE_ENABLE) *)
Inductive be_mode := BE_DISABLE | BE_KILL | BE_ENABLE.

(** svc.c:1188-1225, cb_backend_disable (the session removal and the scheduling of
    touch_be are modelled with sessions and jobs). *)
Definition cb_backend_disable (id : Z) (m : be_mode) (b : backend) : backend :=
  if b_id b =? id then
    match m with
    | BE_DISABLE => set_disabled b true
    | BE_KILL => set_alive b false
    | BE_ENABLE => set_disabled b false
    end
  else b.

Definition has_id (id : Z) (bl : balancer) : bool :=
  match find_be id (l_bes bl) with Some _ => true | None => false end.

(** Apply [f] to the group [be->balancer] of the backend [id]. *)
Definition on_group (id : Z) (f : balancer -> balancer) (bls : list balancer) : list balancer :=
  map (fun bl => if has_id id bl then f bl else bl) bls.

Fixpoint find_in_groups (id : Z) (bls : list balancer) : option backend :=
  match bls with
  | [] => None
  | bl :: r => match find_be id (l_bes bl) with Some b => Some b | None => find_in_groups id r end
  end.

(** svc.c:1233-1244, kill_be *)
Definition kill_be (id : Z) (m : be_mode) (bls : list balancer) : list balancer :=
  match find_in_groups id bls with
  | Some b =>
      match b_kind b with
      | BE_REGULAR => on_group id (balancer_recompute_pri (cb_backend_disable id m)) bls
      | _ => bls
      end
  | None => bls
  end.

Definition map_be (id : Z) (f : backend -> backend) (bl : balancer) : balancer :=
  set_bes bl (map (fun b => if b_id b =? id then f b else b) (l_bes bl)).

(** svc.c:1658-1667, the first phase of touch_be for a backend that answers the
    probe: [alive] is set without the service mutex.  The boolean tells whether
    the second phase follows.  A backend that was removed from the service has
    reference count 1 and is left alone. *)
Definition touch_mark (id : Z) (bls : list balancer) : list balancer * bool :=
  match find_in_groups id bls with
  | Some b =>
      match b_kind b with
      | BE_REGULAR =>
          if b_alive b then (bls, false)
          else (on_group id (map_be id (fun b => set_alive b true)) bls, negb (b_disabled b))
      | _ => (bls, false)
      end
  | None => (bls, false)
  end.

(** svc.c:1669-1672, the second phase, under the mutex: the result of
    balancer_pri_update is ignored. *)
Definition touch_count (id : Z) (bls : list balancer) : list balancer :=
  match find_in_groups id bls with
  | Some b =>
      on_group id (fun bl => let bl' := fst (balancer_pri_update bl b) in
                             set_act bl' (l_act bl' + 1)) bls
  | None => bls
  end.

(** svc.c:1652-1683, touch_be with nothing happening between its two phases *)
Definition touch_be (id : Z) (bls : list balancer) : list balancer :=
  let (bls', go) := touch_mark id bls in if go then touch_count id bls' else bls'.

(** svc.c:3146-3150: a group fresh from calloc *)
Definition new_balancer (weight : Z) (algo : balancer_algo) : balancer :=
  mkBal weight algo 0 [] 0 0 0 None.

(** svc.c:3134-3158, balancer_list_get: the list after the call.  The group
    returned is the one of that weight. *)
Fixpoint balancer_list_get (bls : list balancer) (weight : Z) (algo : balancer_algo)
  : list balancer :=
  match bls with
  | [] => [new_balancer weight algo]
  | bl :: r =>
      if weight =? l_weight bl then bls
      else if weight <? l_weight bl then new_balancer weight algo :: bls
      else bl :: balancer_list_get r weight algo
  end.

Definition on_weight (weight : Z) (f : balancer -> balancer) (bls : list balancer)
  : list balancer :=
  map (fun bl => if l_weight bl =? weight then f bl else bl) bls.

(** pound.h:1082-1086, balancer_add_backend, on the group obtained from
    balancer_list_get (as config.c:1063 and dynbe.c:406, 469 do) *)
Definition add_backend (weight : Z) (algo : balancer_algo) (be : backend) (bls : list balancer)
  : list balancer :=
  on_weight weight (fun bl => set_bes bl (l_bes bl ++ [be])) (balancer_list_get bls weight algo).

(** dynbe.c:392-476 reduced to one new address: the group is found or created, the
    backend appended and the group's counters recomputed *)
Definition dyn_add (weight : Z) (algo : balancer_algo) (be : backend) (bls : list balancer)
  : list balancer :=
  on_weight weight (balancer_recompute_pri (fun b => b)) (add_backend weight algo be bls).

(** svc.c:823-831 service_lb_reset, svc.c:778-783 balancer_reset *)
Definition service_lb_reset (id : Z) (bls : list balancer) : list balancer :=
  map (fun bl => match l_algo bl with ALGO_RANDOM => bl | ALGO_IWRR => iwrr_reset bl id end) bls.

(** pound.h:1088-1092, balancer_remove_backend *)
Definition remove_be (id : Z) (bl : balancer) : balancer :=
  set_bes bl (filter (fun b => negb (b_id b =? id)) (l_bes bl)).

(** dynbe.c:338-376, backend_sweep of one regular backend: it leaves its group, an
    empty group leaves the service, and a current pointer to it is reset;
    dynbe.c:722: all groups are then recomputed *)
Definition dyn_remove (id : Z) (bls : list balancer) : list balancer :=
  let bls1 := on_group id (remove_be id) bls in
  let bls2 := filter (fun bl => match l_bes bl with [] => false | _ => true end) bls1 in
  map (balancer_recompute_pri (fun b => b)) (service_lb_reset id bls2).

(** dynbe.c:599-609, 680: a new priority for a generated backend, then a
    recomputation of the service *)
Definition dyn_set_pri (id p : Z) (bls : list balancer) : list balancer :=
  map (balancer_recompute_pri (fun b => b)) (on_group id (map_be id (fun b => set_pri b p)) bls).

(** svc.c:813-821, service_lb_init, svc.c:771-776 balancer_init *)
Definition service_lb_init (bls : list balancer) : list balancer :=
  map (fun bl => match l_algo bl with ALGO_RANDOM => bl | ALGO_IWRR => iwrr_init bl end) bls.

(** config.c:4970-5019, service_finalize: every group takes the algorithm of the
    service, priorities above PRI_MAX = 65535 are reset to it (config.c:4953-4960),
    the counters are computed and the algorithms initialised.  [backend_finalize]
    is taken to succeed. *)
Definition clamp_pri (b : backend) : backend :=
  if 65535 <? b_pri b then set_pri b 65535 else b.

Definition service_finalize (algo : balancer_algo) (bls : list balancer) : list balancer :=
  service_lb_init
    (map (fun bl => balancer_recompute_pri clamp_pri
            (mkBal (l_weight bl) algo (l_act bl) (l_bes bl) (l_sum bl) (l_round bl)
                   (l_max bl) (l_cur bl))) bls).

(** Operations on a service while it is running. *)
Inductive bop :=
| OMode (id : Z) (m : be_mode)     (* control request, or a connection failure *)
| OTouch (id : Z)                  (* the backend answered its probe *)
| OTouchMark (id : Z)              (* the two phases of it, taken separately *)
| OTouchCount (id : Z)
| OAdd (weight : Z) (be : backend) (* dynamic backend appears *)
| ORemove (id : Z)                 (* dynamic backend disappears *)
| OSetPri (id p : Z).              (* priority of a dynamic backend changes *)

Definition bstep (algo : balancer_algo) (bls : list balancer) (o : bop) : list balancer :=
  match o with
  | OMode id m => kill_be id m bls
  | OTouch id => touch_be id bls
  | OTouchMark id => fst (touch_mark id bls)
  | OTouchCount id => touch_count id bls
  | OAdd w be => dyn_add w algo be bls
  | ORemove id => dyn_remove id bls
  | OSetPri id p => dyn_set_pri id p bls
  end.

Definition brun (algo : balancer_algo) (bls : list balancer) (os : list bop) : list balancer :=
  fold_left (bstep algo) os bls.

(** A configured service: backends are added to groups one by one as the
    configuration is parsed (config.c:1063, 1102), then finalised. *)
Definition configured (algo : balancer_algo) (l : list (Z * backend)) : list balancer :=
  service_finalize algo
    (fold_left (fun bls wb => add_backend (fst wb) ALGO_RANDOM (snd wb) bls) l []).
