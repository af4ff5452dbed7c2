(** Model of the metrics, src/metrics.c, computed from the listing of the control interface
    (ShowModel).  Memory allocation does not fail.  Numbers are integers: what "%.0f" makes of
    the fractions of average times is not modelled.  The functions that collect samples return
    the list of what they append; the two arguments [exp] and [metric] by which they get at the
    place where to append are the subject of the last section. *)
From Coq Require Import Ascii String List ZArith Bool.
From Verif Require Import Bytes JsonModel LogModel ShowModel.
Import ListNotations.
Local Open Scope Z_scope.
Local Open Scope string_scope.
Local Open Scope list_scope.

(** ** Labels and samples *)

(** 25-32: name and value *)
Definition labels := list (bytes * bytes).
(** 37-57 *)
Definition metric_labels_add (head : labels) (name value : bytes) : labels := head ++ [(name, value)].
(** 60-66 *)
Definition metric_labels_pop (head : labels) : labels := removelast head.
(** 68-82 *)
Definition metric_labels_copy (dst src : labels) : labels := fold_left (fun d l => metric_labels_add d (fst l) (snd l)) src dst.
(** 99-104 *)
Record sample := mkSample { s_labels : labels; s_number : Z }.
(** 155-175: a new sample that has the labels of the prefix, one more label perhaps, and a number *)
Definition sample_with (pfx more : labels) (n : Z) : sample :=
  mkSample (fold_left (fun d l => metric_labels_add d (fst l) (snd l)) more (metric_labels_copy [] pfx)) n.

(** 228-323, the families.  Each is found by its address. *)
Inductive family :=
| F_WORKERS | F_LISTENER_ENABLED | F_LISTENER_INFO | F_SERVICE_INFO | F_SERVICE_ENABLED | F_BACKENDS
| F_BACKEND_STATE | F_BACKEND_REQUESTS | F_TIME_AVG | F_STDDEV.
Definition family_eqb (a b : family) : bool :=
  match a, b with
  | F_WORKERS, F_WORKERS | F_LISTENER_ENABLED, F_LISTENER_ENABLED | F_LISTENER_INFO, F_LISTENER_INFO | F_SERVICE_INFO, F_SERVICE_INFO
  | F_SERVICE_ENABLED, F_SERVICE_ENABLED | F_BACKENDS, F_BACKENDS | F_BACKEND_STATE, F_BACKEND_STATE
  | F_BACKEND_REQUESTS, F_BACKEND_REQUESTS | F_TIME_AVG, F_TIME_AVG | F_STDDEV, F_STDDEV => true
  | _, _ => false
  end.
Record descr := mkDescr { d_name : string; d_type : string; d_unit : option string; d_help : string }.
Definition describe (f : family) : descr :=
  match f with
  | F_LISTENER_ENABLED => mkDescr "pound_listener_enabled" "stateset" None "State of a listener: enabled/disabled."
  | F_LISTENER_INFO => mkDescr "pound_listener_info" "info" None "Description of a listener."
  | F_SERVICE_INFO => mkDescr "pound_service_info" "info" None "Description of a service."
  | F_SERVICE_ENABLED => mkDescr "pound_service_enabled" "stateset" None "State of a particular service."
  | F_BACKENDS => mkDescr "pound_backends" "gauge" None "Number of backends per service: total, alive, enabled, and active (both alive and enabled)."
  | F_BACKEND_STATE => mkDescr "pound_backend_state" "stateset" None "Backend states: alive and enabled."
  | F_BACKEND_REQUESTS => mkDescr "pound_backend_requests" "gauge" None "Number of requests processed by backend."
  | F_TIME_AVG => mkDescr "pound_backend_request_time_avg_nanoseconds" "gauge" (Some "nanoseconds") "Average time per request spent in backend."
  | F_STDDEV => mkDescr "pound_backend_request_stddev_nanoseconds" "gauge" (Some "nanoseconds") "Standard deviation of the average time per request."
  | F_WORKERS => mkDescr "pound_workers" "gauge" None "Number of pound workers."
  end.
Definition listener_metric_families : list family := [F_LISTENER_ENABLED; F_LISTENER_INFO].
Definition service_metric_families : list family := [F_SERVICE_INFO; F_SERVICE_ENABLED; F_BACKENDS].
Definition backend_metric_families : list family := [F_BACKEND_STATE; F_BACKEND_REQUESTS; F_TIME_AVG; F_STDDEV].
Definition workers_metric_families : list family := [F_WORKERS].

(** ** Looking into the listing *)

(** A function fails (returns -1), or dereferences a NULL pointer. *)
Inductive res (A : Type) := Ok (a : A) | Fail | Crash.
Arguments Ok {A}. Arguments Fail {A}. Arguments Crash {A}.
Definition bind {A B : Type} (r : res A) (f : A -> res B) : res B := match r with Ok a => f a | Fail => Fail | Crash => Crash end.
Notation "'do' x <- r ; e" := (bind r (fun x => e)) (at level 60, x name, right associativity).

(** json_object_get, json.c 726-744: None: ENOENT; another type of value: EINVAL *)
Definition get (v : json) (name : bytes) : res (option json) :=
  match v with
  | JObject _ ps => match json_object_get (mkObj ps (length ps)) name with Some r => Ok r | None => Crash end
  | _ => Fail
  end.
(** 378-415 json_object_get_type, for the types used *)
Definition get_member (v : json) (name : string) : res json := do r <- get v (lit name); match r with Some w => Ok w | None => Fail end.
Definition get_bool (v : json) (name : string) : res bool := do w <- get_member v name; match w with JBool _ b => Ok b | _ => Fail end.
Definition get_string (v : json) (name : string) : res bytes := do w <- get_member v name; match w with JString _ s => Ok s | _ => Fail end.
Definition get_number (v : json) (name : string) : res Z := do w <- get_member v name; match w with JNumber _ n | JInteger _ n => Ok n | _ => Fail end.
Definition get_array (v : json) (name : string) : res (list json) := do w <- get_member v name; match w with JArray _ l => Ok l | _ => Fail end.
Definition get_object (v : json) (name : string) : res json := do w <- get_member v name; match w with JObject _ l => Ok w | _ => Fail end.
(** 417-446 json_object_get_name and its uses at 567, 653: the empty string for null *)
Definition get_name (v : json) : res bytes := do w <- get_member v "name"; match w with JString _ s => Ok s | JNull _ => Ok [] | _ => Fail end.

Definition num (b : bool) : Z := if b then 1 else 0.

(** ** The samples of an object, 538-790 *)

(** 601-612: a lookup that fails does not count and is not an error *)
Definition flag (v : json) (name : string) : res bool := match get_bool v name with Fail => Ok false | r => r end.
(** 595-615: the numbers enabled, alive and active of a list of backends *)
Fixpoint count_backends (l : list json) (n_enabled n_alive n_active : Z) : res (Z * Z * Z) :=
  match l with
  | [] => Ok (n_enabled, n_alive, n_active)
  | v :: l =>
      do enabled <- flag v "enabled"; do alive <- flag v "alive";
      count_backends l (n_enabled + num enabled) (n_alive + num alive) (n_active + num (alive && enabled))
  end.

(** 700-746: nothing is appended if there is no such statistic *)
Definition gen_backend_stats (pfx : labels) (obj : json) (attr : string) : res (list sample) :=
  do stats <- get obj (lit "stats");
  match stats with
  | None => Ok []
  | Some (JObject _ ps) =>
      do v <- get (JObject ints ps) (lit attr);
      match v with
      | None => Ok []
      | Some (JNumber _ n) => Ok [sample_with pfx [] n]
      | Some _ => Fail
      end
  | Some _ => Fail
  end.

(** The function of a family *)
Definition setfn (f : family) (pfx : labels) (obj : json) : res (list sample) :=
  match f with
  | F_LISTENER_ENABLED | F_SERVICE_ENABLED =>                           (* 538-552, 659-672 *)
      do b <- get_bool obj "enabled"; Ok [sample_with pfx [] (num b)]
  | F_LISTENER_INFO =>                                                  (* 554-579 *)
      do name <- get_name obj; do address <- get_string obj "address"; do protocol <- get_string obj "protocol";
      Ok [sample_with pfx [(lit "name", name); (lit "address", address); (lit "protocol", protocol)] 1]
  | F_SERVICE_INFO =>                                                   (* 641-657 *)
      do name <- get_name obj; Ok [sample_with pfx [(lit "name", name)] 1]
  | F_BACKENDS =>                                                       (* 581-639 *)
      do arr <- get_array obj "backends"; do c <- count_backends arr 0 0 0;
      let '(n_enabled, n_alive, n_active) := c in
      Ok [sample_with pfx [(lit "state", lit "total")] (Z.of_nat (length arr)); sample_with pfx [(lit "state", lit "enabled")] n_enabled;
          sample_with pfx [(lit "state", lit "alive")] n_alive; sample_with pfx [(lit "state", lit "active")] n_active]
  | F_BACKEND_STATE =>                                                  (* 674-698 *)
      do alive <- get_bool obj "alive"; do enabled <- get_bool obj "enabled";
      Ok [sample_with pfx [(lit "state", lit "alive")] (num alive); sample_with pfx [(lit "state", lit "enabled")] (num enabled)]
  | F_BACKEND_REQUESTS => gen_backend_stats pfx obj "request_count"     (* 748-753 *)
  | F_TIME_AVG => gen_backend_stats pfx obj "request_time_avg"          (* 755-760 *)
  | F_STDDEV => gen_backend_stats pfx obj "request_time_stddev"         (* 762-767 *)
  | F_WORKERS =>                                                        (* 769-790 *)
      do a <- get_number obj "active"; do c <- get_number obj "count"; do x <- get_number obj "max"; do n <- get_number obj "min";
      Ok [sample_with pfx [(lit "type", lit "active")] a; sample_with pfx [(lit "type", lit "count")] c;
          sample_with pfx [(lit "type", lit "max")] x; sample_with pfx [(lit "type", lit "min")] n]
  end.

(** ** All samples, in the order in which they are appended *)

Definition calls := list (family * list sample).

(** 449-477 *)
Fixpoint exposition_apply_family (pfx : labels) (fs : list family) (val : json) : res calls :=
  match fs with
  | [] => Ok []
  | f :: fs => do s <- setfn f pfx val; do c <- exposition_apply_family pfx fs val; Ok ((f, s) :: c)
  end.

(** 479-536: the loop; [descend] is the recursive call, if any *)
Section Iterate.
  Variables (attr index_label : string) (fs : list family) (descend : labels -> json -> res calls).
  Fixpoint iterate_loop (pfxcopy : labels) (i : nat) (arr : list json) : res calls :=
    match arr with
    | [] => Ok []
    | jv :: arr =>
        let pfxcopy := metric_labels_add pfxcopy (lit index_label) (fmt_ld (Z.of_nat i)) in
        do c <- exposition_apply_family pfxcopy fs jv;
        do d <- descend pfxcopy jv;
        do e <- iterate_loop (metric_labels_pop pfxcopy) (S i) arr;
        Ok (c ++ d ++ e)
    end.
  Definition iterate (pfx : labels) (obj : json) : res calls :=
    do arr <- get obj (lit attr);
    match arr with
    | None => Ok []
    | Some (JArray _ l) => iterate_loop (metric_labels_copy [] pfx) 0 l
    | Some _ => Fail
    end.
End Iterate.
(** 332-364: the definitions by which the function calls itself *)
Definition iterate_backends : labels -> json -> res calls := iterate "backends" "backend" backend_metric_families (fun _ _ => Ok []).
Definition iterate_services : labels -> json -> res calls := iterate "services" "service" service_metric_families iterate_backends.
Definition iterate_listeners : labels -> json -> res calls := iterate "listeners" "listener" listener_metric_families iterate_services.

(** 792-812 *)
Definition exposition_fill (obj : json) : res calls :=
  do val <- get_object obj "workers";
  do w <- exposition_apply_family [] workers_metric_families val;
  do l <- iterate_listeners [] obj;
  do s <- iterate_services [] obj;
  Ok (w ++ l ++ s).

(** ** The exposition *)

(** 145-153 *)
Definition exposition := list (family * list sample).
(** 184-210 and the appending to the metric that was found *)
Fixpoint append_to (f : family) (s : list sample) (exp : exposition) : exposition :=
  match exp with
  | [] => [(f, s)]
  | (g, t) :: exp => if family_eqb g f then (g, t ++ s) :: exp else (g, t) :: append_to f s exp
  end.
Definition expose (c : calls) : exposition := fold_left (fun e x => append_to (fst x) (snd x) e) c [].

(** 814-864 *)
Definition QUOTE : byte := ascii_of_N 34.
Fixpoint format_labels (l : labels) : bytes :=
  match l with
  | [] => []
  | (n, v) :: l => n ++ lit "=" ++ [QUOTE] ++ v ++ [QUOTE] ++ match l with [] => [] | _ => lit "," end ++ format_labels l
  end.
Definition format_sample (name : string) (s : sample) : bytes :=
  lit name ++ match s_labels s with [] => [] | l => lit "{" ++ format_labels l ++ lit "}" end ++ lit " " ++ fmt_ld (s_number s) ++ [LF].
Definition format_metric (m : family * list sample) : bytes :=
  let d := describe (fst m) in
  match snd m with
  | [] => []
  | samples =>
      lit "# TYPE " ++ lit (d_name d) ++ lit " " ++ lit (d_type d) ++ [LF] ++
      match d_unit d with Some u => lit "# UNIT " ++ lit (d_name d) ++ lit " " ++ lit u ++ [LF] | None => [] end ++
      lit "# HELP " ++ lit (d_name d) ++ lit " " ++ lit (d_help d) ++ [LF] ++
      concat (map (format_sample (d_name d)) samples)
  end.
Definition exposition_format (exp : exposition) : bytes := concat (map format_metric exp) ++ lit "# EOF" ++ [LF].

(** ** The reply *)

(** 866-879 *)
Definition send_reply (version : bool) (content : bytes) : bytes :=
  lit "HTTP/1." ++ (if version then lit "1" else lit "0") ++ lit " 200 OK" ++ CRLF ++
  lit "Content-Type: application/openmetrics-text; version=1.0.0; charset=utf-8" ++ CRLF ++
  lit "Content-Length: " ++ fmt_ld (Z.of_nat (length content)) ++ CRLF ++ CRLF ++ content.
(** 881-908.  The error 500 is sent by the caller (http.c 4931). *)
Inductive outcome := Sent (reply : bytes) | InternalServerError | NoReply | Null.
Definition metrics_response (version : bool) (listing : option json) : outcome :=
  match listing with
  | None => NoReply
  | Some obj =>
      match exposition_fill obj with
      | Ok c => Sent (send_reply version (exposition_format (expose c)))
      | Fail => InternalServerError
      | Crash => Null
      end
  end.

(** ** What is listed *)

(** pound.c 221-247 *)
Definition workers_serialize (active count max min timeout : Z) : option json :=
  object_of [ (lit "min", JNumber ints min); (lit "max", JNumber ints max); (lit "timeout", JNumber ints timeout);
              (lit "count", JNumber ints count); (lit "active", JNumber ints active) ].
(** svc.c 2019-2041: the number of requests; average and deviation if there were any (StatModel) *)
Definition backend_stats_json (n : Z) (times : option (Z * Z)) : option json :=
  object_of ((lit "request_count", JNumber ints n) ::
             match times with
             | Some (avg, dev) => [ (lit "request_time_avg", JNumber ints avg); (lit "request_time_stddev", JNumber ints dev) ]
             | None => []
             end).

(** ** Several threads *)

(** 464: the variable [metric] is static, so that all threads use the same one.  A thread
    carries out its calls one after the other; each takes two steps: finding the metric in
    its own exposition and storing its address in the variable (466), and calling the function
    with the address that is in the variable (473).  A metric is known by the thread whose
    exposition it belongs to and its family. *)
Record race := mkRace { r_static : option (nat * family); r_todo : nat -> calls; r_found : nat -> bool; r_exp : nat -> exposition }.
Definition set {A : Type} (g : nat -> A) (t : nat) (a : A) : nat -> A := fun u => if Nat.eqb u t then a else g u.
(** One step of thread [t]; None: it has finished. *)
Definition race_step (t : nat) (r : race) : option race :=
  match r_todo r t with
  | [] => None
  | (f, s) :: todo =>
      if r_found r t
      then
        match r_static r with
        | None => None
        | Some (u, g) => Some (mkRace (r_static r) (set (r_todo r) t todo) (set (r_found r) t false) (set (r_exp r) u (append_to g s (r_exp r u))))
        end
      else Some (mkRace (Some (t, f)) (r_todo r) (set (r_found r) t true) (set (r_exp r) t (append_to f [] (r_exp r t))))
  end.
Fixpoint race_run (sched : list nat) (r : race) : option race :=
  match sched with
  | [] => Some r
  | t :: sched => match race_step t r with Some r => race_run sched r | None => None end
  end.
Definition race_init (todo : nat -> calls) : race := mkRace None todo (fun _ => false) (fun _ => []).
