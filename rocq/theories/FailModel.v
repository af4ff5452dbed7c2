(** Model of the search for a backend that takes a request: get_backend (src/svc.c 837-857,
    988-1046) with balancers and sessions together, kill_be (1189-1244), and select_backend
    (src/http.c 4319-4505).  Definitions only.
    Backends are named by their identities, as in BalModel and SessModel.  What other threads do to the
    service between two of its critical sections is a function of the environment.  Reference
    counts are left to RefModel, log messages are left out. *)
From Coq Require Import List ZArith Bool.
From Verif Require Import Bytes JobModel BalModel SessModel.
Import ListNotations.
Open Scope Z_scope.

(** A service: its groups of backends and its sessions. *)
Record world := mkW { w_bls : list balancer; w_sess : stab }.

(** The result of a selection; [rs] are the numbers random() will return. *)
Inductive got :=
| Got (id : Z) (w : world) (rs : list Z)
| GotNone (w : world) (rs : list Z)
| GotLoop
| GotCrash.

(** svc.c:800-811, service_lb_select_backend, see BalModel *)
Definition lb_select (fuel : nat) (w : world) (rs : list Z) : got :=
  match service_lb_select_backend fuel (w_bls w) rs with
  | Picked be (bls, rs') => Got (b_id be) (mkW bls (w_sess w)) rs'
  | NoBackend (bls, rs') => GotNone (mkW bls (w_sess w)) rs'
  | Looping => GotLoop
  | Crash => GotCrash
  end.

(** svc.c:837-857, find_backend_by_key *)
Definition by_key (fuel : nat) (ttl : Z) (key : bytes) (now : timespec) (w : world) (rs : list Z)
  : got :=
  let keybuf := firstn KEY_SIZE key in
  match service_session_find ttl keybuf now (w_sess w) with
  | (t1, Some b) => Got b (mkW (w_bls w) t1) rs
  | (t1, None) =>
      match lb_select fuel (mkW (w_bls w) t1) rs with
      | Got b w' rs' => Got b (mkW (w_bls w') (service_session_add ttl keybuf b now (w_sess w'))) rs'
      | r => r
      end
  end.

(** svc.c:988-1046, get_backend.  [key] is the session key of the request, if the service has
    sessions and the request has a key (see KeyModel). *)
Definition get_backend (fuel : nat) (ttl : Z) (key : option bytes) (now : timespec) (w : world)
  (rs : list Z) : got :=
  if service_has_backends (w_bls w) then
    match key with
    | Some k =>
        match by_key fuel ttl k now w rs with
        | GotNone w' rs' => lb_select fuel w' rs'
        | r => r
        end
    | None => lb_select fuel w rs
    end
  else GotNone w rs.

(** svc.c:1233-1244 and 1207-1215, kill_be with BE_KILL.  None: the backend is in no group, the
    assertion on be->balancer fails. *)
Definition kill (id : Z) (w : world) : option world :=
  match find_in_groups id (w_bls w) with
  | Some b =>
      Some match b_kind b with
           | BE_REGULAR => mkW (kill_be id BE_KILL (w_bls w)) (service_session_remove_by_backend id (w_sess w))
           | _ => w
           end
  | None => None
  end.

(** What happens when a connection to a backend is made: its address family is not known
    (http.c 4434-4440); socket fails (4442-4449); connect_nb fails (4451-4452); open_backend
    succeeds; it fails (4460-4464). *)
Inductive dial := BadFamily | NoSocket | Refused | Opened | NotOpened.

(** What surrounds a request: the result of the i-th attempt to connect, should it be to that
    backend; the time of the i-th selection; what other threads do to the service after the
    i-th selection, and after the i-th failure. *)
Record env := mkEnv {
  e_dial : nat -> Z -> dial;
  e_now : nat -> timespec;
  e_pick : nat -> world -> world;
  e_fail : nat -> world -> world
}.

(** POUND_HTTP: the backend that the open connection [be] leads to, if there is one, and the member
    [backend]. *)
Record conn := mkK { k_be : option Z; k_backend : option Z }.

(** What was done: connections tried, and backends killed. *)
Inductive event := Dial (id : Z) (d : dial) | Kill (id : Z).

Inductive result :=
| Chosen (w : world) (k : conn) (tr : list event)        (* 0 *)
| Unavailable (w : world) (k : conn) (tr : list event)   (* 503 *)
| Hangs                                                  (* a selection does not end *)
| Crashes                                                (* in a selection, or by an assertion *)
| Unfinished.                                            (* more than n attempts *)

Definition add_events (l : list event) (r : result) : result :=
  match r with
  | Chosen w k tr => Chosen w k (l ++ tr)
  | Unavailable w k tr => Unavailable w k (l ++ tr)
  | r => r
  end.

(** http.c 4411-4497, the loop, for the backend [id]; [n] bounds the number of iterations.  A backend
    whose object is gone crashes it. *)
Fixpoint attempts (n fuel : nat) (ttl : Z) (key : option bytes) (e : env) (i : nat) (k : conn)
  (id : Z) (w : world) (rs : list Z) : result :=
  match n with
  | O => Unfinished
  | S n' =>
      match find_in_groups id (w_bls w) with
      | None => Crashes
      | Some b =>
          match b_kind b with
          | BE_REGULAR =>
              match e_dial e i id with
              | (BadFamily | NoSocket) as d => Unavailable w k [Dial id d]
              | NotOpened => Unavailable w (mkK None (k_backend k)) [Dial id NotOpened]
              | Opened => Chosen w (mkK (Some id) (Some id)) [Dial id Opened]
              | Refused =>
                  match kill id (e_pick e i w) with
                  | None => Crashes
                  | Some w1 =>
                      add_events [Dial id Refused; Kill id]
                        (match get_backend fuel ttl key (e_now e (S i)) (e_fail e i w1) rs with
                         | Got id' w2 rs' => attempts n' fuel ttl key e (S i) k id' w2 rs'
                         | GotNone w2 _ => Unavailable w2 k []
                         | GotLoop => Hangs
                         | GotCrash => Crashes
                         end)
                  end
              end
          | _ => Chosen w (mkK (k_be k) (Some id)) []
          end
      end
  end.

Definition same (a : option Z) (id : Z) : bool :=
  match a with Some x => x =? id | None => false end.

(** http.c 4390-4505, select_backend *)
Definition select_backend (n fuel : nat) (ttl : Z) (key : option bytes) (e : env) (k : conn)
  (w : world) (rs : list Z) : result :=
  match get_backend fuel ttl key (e_now e 0) w rs with
  | Got id w' rs' =>
      match k_be k with
      | Some _ =>
          if same (k_backend k) id then Chosen w' k []
          else attempts n fuel ttl key e 0 (mkK None (k_backend k)) id w' rs'
      | None => attempts n fuel ttl key e 0 k id w' rs'
      end
  | GotNone w' _ => Unavailable w' k []
  | GotLoop => Hangs
  | GotCrash => Crashes
  end.

(** http.c 4863-4919 of do_http, as far as the backend is concerned: an open connection is closed if
    the backend is not a regular one; a matrix backend makes the program abort. *)
Definition proceed (r : result) : result :=
  match r with
  | Chosen w k tr =>
      match k_backend k with
      | Some id =>
          match find_in_groups id (w_bls w) with
          | Some b =>
              match b_kind b with
              | BE_REGULAR => Chosen w k tr
              | BE_OTHER => Chosen w (mkK None (Some id)) tr
              | BE_MATRIX => Crashes
              end
          | None => Crashes
          end
      | None => Crashes
      end
  | _ => r
  end.
Definition give_request (n fuel : nat) (ttl : Z) (key : option bytes) (e : env) (k : conn)
  (w : world) (rs : list Z) : result :=
  proceed (select_backend n fuel ttl key e k w rs).

(** A service in operation.  Killing a backend, and removing a dynamic one (dynbe.c 328-348), ends its
    sessions. *)
Inductive wop :=
| WBal (o : bop)
| WSess (o : sop)
| WReq (n : nat) (key : option bytes) (e : env) (k : conn) (rs : list Z).

Definition wstep (algo : balancer_algo) (fuel : nat) (ttl : Z) (w : world) (o : wop) : option world :=
  match o with
  | WBal (OMode id BE_KILL) => Some match kill id w with Some w' => w' | None => w end
  | WBal (ORemove id) =>
      Some (mkW (dyn_remove id (w_bls w)) (service_session_remove_by_backend id (w_sess w)))
  | WBal o => Some (mkW (bstep algo (w_bls w) o) (w_sess w))
  | WSess o => Some (mkW (w_bls w) (fst (sstep ttl (w_sess w) o)))
  | WReq n key e k rs =>
      match give_request n fuel ttl key e k w rs with
      | Chosen w' _ _ | Unavailable w' _ _ => Some w'
      | Hangs | Crashes | Unfinished => None
      end
  end.

Fixpoint wrun (algo : balancer_algo) (fuel : nat) (ttl : Z) (w : world) (os : list wop) : option world :=
  match os with
  | [] => Some w
  | o :: r => match wstep algo fuel ttl w o with Some w' => wrun algo fuel ttl w' r | None => None end
  end.

Definition wstart (algo : balancer_algo) (l : list (Z * backend)) : world :=
  mkW (configured algo l) session_table_new.
