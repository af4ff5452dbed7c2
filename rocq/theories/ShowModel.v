(** Model of what the control interface lists: src/svc.c 1869-1887, 1901-1949, 1951-1983, 2046-2070,
    2073-2111, 2113-2309, 2336-2388.  Memory allocation does not fail.  The texts of addresses
    (svc.c 1984-1991), points in time (1888-1899) and statistics (C55) are part of the state instead of
    being computed.  Numbers of JSON are integers. *)
From Coq Require Import Ascii String List ZArith Bool.
From Verif Require Import Bytes JsonModel.
Import ListNotations.
Local Open Scope Z_scope.
Local Open Scope string_scope.
Local Open Scope list_scope.

(** JSON values.  The texts of numbers do not matter here. *)
Definition ints : numbers := mkNumbers Z (fun _ => []) (fun _ _ => []) (fun s => (None, s)).
Notation json := (jv ints).
Definition jstr (s : bytes) : json := JString ints s.
Definition jint (n : Z) : json := JInteger ints n.
Definition jbool (b : bool) : json := JBool ints b.
Definition jnull : json := JNull ints.
Definition jopt (o : option bytes) : json := match o with Some s => jstr s | None => jnull end.

(** src/pound.h 433-580.  BE_BACKEND_REF does not occur after the configuration was read. *)
Inductive be_kind :=
| Regular (address : bytes) (alive https : bool) (io_to conn_to ws_to : Z) (servername : option bytes)
| Matrix (hostname mode : bytes) (family : Z) (servername : option bytes) (expire : option bytes)
| Redirect (url : bytes) (status : Z) (has_uri : bool)
| Acme | Control | Metrics
| Error (status : Z) (text : option bytes).
(** [be_id] stands for the address of the structure; [be_up] are the backends it was
    generated by, the nearest first (v.mtx.parent, v.reg.parent). *)
Record backend := mkBe { be_id : nat; be_type : be_kind; be_priority : Z; be_disabled : bool; be_up : list nat; be_stats : option json }.
Record balancer := mkBal { bal_weight : Z; bal_backends : list backend }.
Record session := mkSess { sess_key : bytes; sess_backend : nat; sess_expire : bytes }.
(** sess_type None: SESS_NONE; sessions None: no table *)
Record service := mkSvc { svc_name : option bytes; svc_disabled : bool; svc_sess_type : option bytes; svc_sessions : option (list session); svc_balancers : list balancer }.
Record listener := mkLstn { lstn_name : option bytes; lstn_address : bytes; lstn_https : option Z; lstn_disabled : bool; lstn_services : list service }.

(** A sequence of calls of json_object_set *)
Definition object_of (l : list (bytes * json)) : option json :=
  match fold_left (fun o kv => match o with Some o => json_object_set o (fst kv) (snd kv) | None => None end) l (Some json_new_object) with
  | Some o => Some (JObject ints (pairs o))
  | None => None
  end.
(** json_array_append for each element of a list; NULL (a failure) for one is a failure *)
Fixpoint array_of (l : list (option json)) : option (list json) :=
  match l with
  | [] => Some []
  | None :: _ => None
  | Some v :: l => match array_of l with Some vs => Some (v :: vs) | None => None end
  end.

(** svc.c 1875-1884, the inner loop: the break ends only this one *)
Fixpoint count_until (id : nat) (l : list backend) (n : Z) : Z :=
  match l with
  | [] => n
  | b :: l => if Nat.eqb (be_id b) id then n else count_until id l (n + 1)
  end.
(** svc.c 1869-1887 *)
Definition session_backend_index (s : service) (id : nat) : Z :=
  fold_left (fun n bl => count_until id (bal_backends bl) n) (svc_balancers s) 0.

(** svc.c 2046-2063 *)
Fixpoint find_in (id : nat) (l : list backend) (i : Z) : Z + Z :=
  match l with
  | [] => inr i
  | b :: l => if Nat.eqb (be_id b) id then inl i else find_in id l (i + 1)
  end.
Fixpoint find_backend_index_from (id : nat) (bls : list balancer) (i : Z) : Z :=
  match bls with
  | [] => -1
  | bl :: bls => match find_in id (bal_backends bl) i with inl i => i | inr i => find_backend_index_from id bls i end
  end.
Definition find_backend_index (s : service) (id : nat) : Z := find_backend_index_from id (svc_balancers s) 0.

(** svc.c 1901-1949 *)
Definition service_session_serialize (s : service) : option json :=
  match svc_sess_type s with
  | None => Some jnull
  | Some _ =>
      match svc_sessions s with
      | None => Some (JArray ints [])
      | Some l =>
          match array_of (map (fun x => object_of [ (lit "key", jstr (sess_key x)); (lit "backend", jint (session_backend_index s (sess_backend x))); (lit "expire", jstr (sess_expire x)) ]) l) with
          | Some vs => Some (JArray ints vs)
          | None => None
          end
      end
  end.

(** svc.c 1951-1983 *)
Definition backend_type_str (k : be_kind) : bytes :=
  match k with
  | Matrix _ _ _ _ _ => lit "matrix"
  | Regular _ _ _ _ _ _ _ => lit "backend"
  | Redirect _ _ _ => lit "redirect"
  | Acme => lit "acme"
  | Control => lit "control"
  | Error _ _ => lit "error"
  | Metrics => lit "metrics"
  end.

(** pound.h 586-593 *)
Definition backend_is_alive (k : be_kind) : bool :=
  match k with Matrix _ _ _ _ _ => false | Regular _ alive _ _ _ _ _ => alive | _ => true end.

(** svc.c 2073-2111, for backends of the two kinds that are generated *)
Definition backend_serialize_dyninfo (s : service) (b : backend) : list (bytes * json) :=
  match rev (be_up b) with
  | root :: _ => [ (lit "parent", jint (find_backend_index s root)) ]
  | [] => match be_type b with
          | Matrix _ _ _ _ (Some t) => [ (lit "expire", jstr t) ]
          | _ => []
          end
  end.

(** svc.c 2113-2205 *)
Definition backend_serialize (s : service) (bl : balancer) (b : backend) : option json :=
  object_of
    ([ (lit "type", jstr (backend_type_str (be_type b))); (lit "priority", jint (be_priority b));
       (lit "alive", jbool (backend_is_alive (be_type b))); (lit "enabled", jbool (negb (be_disabled b)));
       (lit "weight", jint (bal_weight bl)) ] ++
     match be_type b with
     | Matrix hostname mode family servername _ =>
         [ (lit "hostname", jstr hostname); (lit "resolve_mode", jstr mode); (lit "family", jint family); (lit "servername", jopt servername) ] ++
         backend_serialize_dyninfo s b
     | Regular address _ https io_to conn_to ws_to servername =>
         [ (lit "address", jstr address); (lit "io_to", jint io_to); (lit "conn_to", jint conn_to); (lit "ws_to", jint ws_to);
           (lit "protocol", jstr (if https then lit "https" else lit "http")); (lit "servername", jopt servername) ] ++
         backend_serialize_dyninfo s b
     | Redirect url status has_uri => [ (lit "url", jstr url); (lit "code", jint status); (lit "has_uri", jbool has_uri) ]
     | Acme | Control | Metrics => []
     | Error status text => [ (lit "status", jint status); (lit "text", jopt text) ]
     end ++
     match be_type b, be_stats b with
     | Matrix _ _ _ _ _, _ => []
     | _, Some v => [ (lit "stats", v) ]
     | _, None => []
     end).

(** svc.c 2207-2234 *)
Definition backends_serialize (s : service) : option json :=
  match svc_balancers s with
  | [] => Some jnull
  | bls =>
      match array_of (concat (map (fun bl => map (backend_serialize s bl) (bal_backends bl)) bls)) with
      | Some vs => Some (JArray ints vs)
      | None => None
      end
  end.

(** svc.c 2236-2261 *)
Definition service_serialize (s : service) : option json :=
  match service_session_serialize s, backends_serialize s with
  | Some sess, Some bes =>
      object_of [ (lit "name", jopt (svc_name s)); (lit "enabled", jbool (negb (svc_disabled s)));
                  (lit "session_type", jstr (match svc_sess_type s with Some t => t | None => lit "NONE" end));
                  (lit "sessions", sess); (lit "backends", bes) ]
  | _, _ => None
  end.

(** svc.c 2263-2309 *)
Definition listener_serialize (l : listener) : option json :=
  match array_of (map service_serialize (lstn_services l)) with
  | None => None
  | Some svcs =>
      object_of
        ([ (lit "name", jopt (lstn_name l)); (lit "address", jstr (lstn_address l));
           (lit "protocol", jstr (match lstn_https l with Some _ => lit "https" | None => lit "http" end)) ] ++
         match lstn_https l with Some n => [ (lit "nohttps11", jint n) ] | None => [] end ++
         [ (lit "enabled", jbool (negb (lstn_disabled l))); (lit "services", JArray ints svcs) ])
  end.

(** svc.c 2336-2388; [core] are the members set by pound_core_serialize (2311-2334) *)
Definition pound_serialize (core : list (bytes * json)) (ls : list listener) (ss : list service) : option json :=
  match array_of (map listener_serialize ls), array_of (map service_serialize ss) with
  | Some jl, Some js => object_of (core ++ [ (lit "listeners", JArray ints jl); (lit "services", JArray ints js) ])
  | _, _ => None
  end.
