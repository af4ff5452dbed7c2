(** What a listing means (C56). *)
From Coq Require Import Ascii String List ZArith Bool.
From Verif Require Import Bytes JsonModel ShowModel.
Import ListNotations.
Local Open Scope Z_scope.
Local Open Scope string_scope.
Local Open Scope list_scope.

(** Looking into a listing *)
Definition member (v : json) (name : string) (w : json) : Prop := exists l, v = JObject ints l /\ In (lit name, w) l /\ NoDup (map fst l).
Definition no_member (v : json) (name : string) : Prop := exists l, v = JObject ints l /\ ~ In (lit name) (map fst l).
Definition elements (v : json) (l : list json) : Prop := v = JArray ints l.

(** The backends of a service, numbered as in requests to the control interface (C30). *)
Definition all_backends (s : service) : list backend := concat (map bal_backends (svc_balancers s)).
Definition numbered (s : service) (i : nat) (b : backend) : Prop := nth_error (all_backends s) i = Some b.
(** Different backends are different. *)
Definition distinct (s : service) : Prop := NoDup (map be_id (all_backends s)).
Definition of_service (s : service) (bl : balancer) (b : backend) : Prop := In bl (svc_balancers s) /\ In b (bal_backends bl).

(** What is shown of a backend: its kind and the state that decides whether it gets requests *)
Definition kind_name (k : be_kind) : string :=
  match k with
  | Regular _ _ _ _ _ _ _ => "backend" | Matrix _ _ _ _ _ => "matrix" | Redirect _ _ _ => "redirect" | Acme => "acme" | Control => "control"
  | Metrics => "metrics" | Error _ _ => "error"
  end.
Definition usable (k : be_kind) (up : bool) : Prop :=
  match k with Regular _ alive _ _ _ _ _ => up = alive | Matrix _ _ _ _ _ => up = false | _ => up = true end.
Definition shows (v : json) (bl : balancer) (b : backend) : Prop :=
  member v "type" (jstr (lit (kind_name (be_type b)))) /\ member v "enabled" (jbool (negb (be_disabled b))) /\
  (exists up, usable (be_type b) up /\ member v "alive" (jbool up)) /\ member v "priority" (jint (be_priority b)) /\ member v "weight" (jint (bal_weight bl)) /\
  match be_type b with
  | Regular address _ https io conn ws name =>
      member v "address" (jstr address) /\ member v "protocol" (jstr (lit (if https then "https" else "http"))) /\
      member v "io_to" (jint io) /\ member v "conn_to" (jint conn) /\ member v "ws_to" (jint ws) /\ member v "servername" (jopt name)
  | Matrix host mode family name _ => member v "hostname" (jstr host) /\ member v "resolve_mode" (jstr mode) /\ member v "family" (jint family) /\ member v "servername" (jopt name)
  | Redirect url code has_uri => member v "url" (jstr url) /\ member v "code" (jint code) /\ member v "has_uri" (jbool has_uri)
  | Error code text => member v "status" (jint code) /\ member v "text" (jopt text)
  | _ => True
  end.

(** The statistics are shown of all backends that handle requests. *)
Definition shows_stats (v : json) (b : backend) : Prop :=
  match be_type b, be_stats b with
  | Matrix _ _ _ _ _, _ | _, None => no_member v "stats"
  | _, Some w => member v "stats" w
  end.
