(** Model of the update of dynamic backends, src/dynbe.c 320-326, 328-390 (as far as the lists
    are concerned; the reference counts are in RefModel), 392-555, 557-690, and of
    balancer_list_get, src/svc.c 3134-3158.

    Everything happens while the mutex of the service is locked.  The hash table of generated
    backends is a list in which no two entries have the same key (HashProps); the order in
    which it is walked is the order of the list.  Not modelled: running out of memory; the
    parameters copied from the dynamic backend; disabling it while its update is running;
    the time of the next update. *)
From Coq Require Import List Arith ZArith Bool.
From Verif Require Import Bytes HashModel.
Import ListNotations.

Local Open Scope Z_scope.

(** ** Regular backends generated from addresses *)

(** A generated backend: an object (told apart by a number) with an address *)
Record gen := mkGen { gid : nat; addr : list Z; gprio : Z; mark : bool }.

(** A balancer: its weight and the numbers of its backends.  [bls]: svc->balancers *)
Definition balancers := list (Z * list nat).

Record state := mkSt {
  next : nat;          (* the number of the next object *)
  tab : list gen;      (* mtx->v.mtx.betab *)
  bls : balancers;
  rem : list nat       (* svc->be_rem_head *)
}.

Inductive mode := First | All.   (** bres_first, bres_all *)

Inductive result := Use_after_free | Ok (s : state).

(** balancer_list_get, svc.c 3134-3158: the list with the balancer in it *)
Fixpoint balancer_list_get (l : balancers) (w : Z) : balancers :=
  match l with
  | [] => [(w, [])]
  | (w', b) :: l' => if w =? w' then l else if w <? w' then (w, []) :: l else (w', b) :: balancer_list_get l' w
  end.

(** balancer_add_backend, pound.h 1080-1086 *)
Definition balancer_add (l : balancers) (w : Z) (i : nat) : balancers :=
  map (fun e => if w =? fst e then (fst e, snd e ++ [i]) else e) l.

(** balancer_remove_backend and, if the balancer is now empty, its end: dynbe.c 349-355 *)
Definition balancer_drop (l : balancers) (w : Z) (i : nat) : balancers :=
  flat_map (fun e => if w =? fst e then
                       match filter (fun j => negb (Nat.eqb j i)) (snd e) with [] => [] | b => [(fst e, b)] end
                     else [e]) l.

(** backend_mark, 320-326 *)
Definition set_mark (m : bool) (g : gen) : gen := mkGen (gid g) (addr g) (gprio g) m.

(** backend_table_addr_lookup, 282-289 *)
Definition same_addr (a : list Z) (g : gen) : bool := backend_cmp0 (Regular (addr g)) (Regular a).
Definition addr_lookup (t : list gen) (a : list Z) : option gen := find (same_addr a) t.

(** The loop over the answer, 429-472.  [w], [pri]: weight and priority of the dynamic backend *)
Fixpoint update_loop (w pri : Z) (resp : list (list Z)) (s : state) : state :=
  match resp with
  | [] => s
  | a :: resp' =>
      match addr_lookup (tab s) a with
      | Some _ => update_loop w pri resp' (mkSt (next s) (map (fun g => if same_addr a g then set_mark false g else g) (tab s)) (bls s) (rem s))
      | None =>
          let g := mkGen (next s) a pri false in
          update_loop w pri resp' (mkSt (S (next s)) (tab s ++ [g]) (balancer_add (bls s) w (gid g)) (rem s))
      end
  end.

(** backend_sweep, 328-390, of every entry *)
Definition sweep_one (w : Z) (s : state) (g : gen) : state :=
  if mark g then mkSt (next s) (filter (fun g' => negb (Nat.eqb (gid g') (gid g))) (tab s)) (balancer_drop (bls s) w (gid g)) (rem s ++ [gid g]) else s.
Definition sweep (w : Z) (s : state) : state := fold_left (sweep_one w) (tab s) s.

Definition has_balancer (l : balancers) (w : Z) : bool := existsb (fun e => w =? fst e) l.

(** service_matrix_addr_update_backends, 403-489.  The balancer found at the beginning is used
    after the sweep (476). *)
Definition addr_update (w pri : Z) (disabled : bool) (m : mode) (resp : list (list Z)) (s : state) : result :=
  let s0 := mkSt (next s) (tab s) (balancer_list_get (bls s) w) (rem s) in
  if disabled then Ok s0
  else
    let s1 := mkSt (next s0) (map (set_mark true) (tab s0)) (bls s0) (rem s0) in
    let n := match m with First => match resp with [] => 0%nat | _ => 1%nat end | All => length resp end in
    let s2 := sweep w (update_loop w pri (firstn n resp) s1) in
    if has_balancer (bls s2) w then Ok s2 else Use_after_free.

(** The updates of a dynamic backend, one after the other *)
Fixpoint updates (w pri : Z) (m : mode) (answers : list (list (list Z))) (s : state) : result :=
  match answers with
  | [] => Ok s
  | a :: l => match addr_update w pri false m a s with Ok s' => updates w pri m l s' | Use_after_free => Use_after_free end
  end.

(** ** Dynamic backends generated from SRV records *)

Record srv := mkSrv { s_prio : Z; s_weight : Z; s_port : Z; s_host : bytes }.

(** struct srv_stat, 500-506 *)
Record stat := mkStat { st_prio : Z; st_start : nat; st_count : nat; st_max : Z }.

(** analyze_srv_response, the number of groups: 524-530 *)
Fixpoint count_groups (prio : Z) (resp : list srv) : nat :=
  match resp with
  | [] => 0
  | r :: resp' => if prio =? s_prio r then count_groups prio resp' else S (count_groups (s_prio r) resp')
  end.
(** 539-551; [cur] is grp[j], [i] the index of the next record *)
Fixpoint fill_groups (cur : stat) (i : nat) (resp : list srv) : list stat :=
  match resp with
  | [] => [cur]
  | r :: resp' =>
      if st_prio cur =? s_prio r
      then fill_groups (mkStat (st_prio cur) (st_start cur) (S (st_count cur)) (Z.max (st_max cur) (s_weight r))) (S i) resp'
      else cur :: fill_groups (mkStat (s_prio r) i 1 (Z.max 0 (s_weight r))) (S i) resp'
  end.
(** analyze_srv_response, 510-555.  None: writes past the array of [count_groups] elements *)
Definition analyze (resp : list srv) : option (list stat) :=
  match resp with
  | [] => Some []
  | r :: _ =>
      let g := fill_groups (mkStat (s_prio r) 0 0 0) 0 resp in
      if (length g <=? count_groups (-1) resp)%nat then Some g else None
  end.

(** A dynamic backend generated from an SRV record *)
Record child := mkChild { cid : nat; host : bytes; port : Z; cprio : Z; cweight : Z; cmark : bool }.

Definition same_key (h : bytes) (p : Z) (c : child) : bool := backend_cmp0 (Matrix (host c) (port c)) (Matrix h p).

(** One record, 590-669.  [ignore], [mpri]: ignore_srv_weight and priority of the parent *)
Definition srv_prio (ignore : bool) (mpri maxw : Z) (r : srv) : Z := if ignore then mpri else if maxw =? 0 then 1 else s_weight r.
Definition srv_one (ignore : bool) (mpri : Z) (st : nat * list child) (rm : srv * Z) : nat * list child :=
  let (n, t) := st in
  let (r, maxw) := rm in
  let p := srv_prio ignore mpri maxw r in
  match find (same_key (s_host r) (s_port r)) t with
  | Some _ => (n, map (fun c => if same_key (s_host r) (s_port r) c then mkChild (cid c) (host c) (port c) p (cweight c) false else c) t)
  | None => (S n, t ++ [mkChild n (s_host r) (s_port r) p (s_prio r) false])
  end.

(** The records in the order of the loops 584-591, each with the maximum weight of its group;
    an index past the end of the answer is skipped here (it does not happen, see C35_srv_groups) *)
Definition group_records (resp : list srv) (g : stat) : list (srv * Z) :=
  flat_map (fun j => match nth_error resp (st_start g + j) with Some r => [(r, st_max g)] | None => [] end) (seq 0 (st_count g)).

(** service_matrix_srv_update_backends, 563-676: the generated backends, and those removed.
    None: memory is corrupted *)
Definition srv_update (ignore : bool) (mpri : Z) (resp : list srv) (n : nat) (t : list child) : option (nat * list child * list nat) :=
  match analyze resp with
  | None => None
  | Some gs =>
      let t0 := map (fun c => mkChild (cid c) (host c) (port c) (cprio c) (cweight c) true) t in
      let (n1, t1) := fold_left (srv_one ignore mpri) (flat_map (group_records resp) gs) (n, t0) in
      Some (n1, filter (fun c => negb (cmark c)) t1, map cid (filter cmark t1))
  end.
