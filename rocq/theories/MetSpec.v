(** What the metrics say (C59): the samples as a function of the configuration and its state,
    and the grammar of the text. *)
From Coq Require Import Ascii String List ZArith Bool.
From Verif Require LogModel LogSpec.
From Verif Require Import Bytes ShowModel ShowSpec MetModel.
Import ListNotations.
Local Open Scope Z_scope.
Local Open Scope string_scope.
Local Open Scope list_scope.

(** A number in decimal, without superfluous zeroes *)
Definition decimal_text (t : bytes) (n : Z) : Prop :=
  0 <= n /\ LogSpec.decimal n t \/ n < 0 /\ exists d, t = "-"%char :: d /\ LogSpec.decimal (- n) d.

(** ** The samples *)

(** The statistics of a backend: number of requests; average time and deviation *)
Record state := mkState {
  st_active : Z; st_count : Z; st_max : Z; st_min : Z; st_timeout : Z;
  st_listeners : list listener; st_services : list service;
  st_stats : backend -> option (Z * option (Z * Z)) }.

(** The elements of a list with their numbers *)
Fixpoint number_from {A : Type} (i : nat) (l : list A) : list (nat * A) := match l with [] => [] | x :: l => (i, x) :: number_from (S i) l end.
Definition number {A : Type} (l : list A) : list (nat * A) := number_from 0 l.
Definition index (what : string) (i : nat) : bytes * bytes := (lit what, LogModel.fmt_ld (Z.of_nat i)).

(** Listeners, services and backends, each with the labels that say which one it is: the numbers by which they
    are addressed in requests to the control interface *)
Definition listeners_of (s : state) : list (labels * listener) := map (fun x => ([index "listener" (fst x)], snd x)) (number (st_listeners s)).
Definition services_in (pfx : labels) (l : list service) : list (labels * service) := map (fun x => (pfx ++ [index "service" (fst x)], snd x)) (number l).
Definition services_of (s : state) : list (labels * service) :=
  concat (map (fun x => services_in (fst x) (lstn_services (snd x))) (listeners_of s)) ++ services_in [] (st_services s).
Definition backends_of (s : state) : list (labels * backend) :=
  concat (map (fun x => map (fun y => (fst x ++ [index "backend" (fst y)], snd y)) (number (all_backends (snd x)))) (services_of s)).

Definition is_alive (k : be_kind) : bool := match k with Regular _ alive _ _ _ _ _ => alive | Matrix _ _ _ _ _ => false | _ => true end.
Definition is_matrix (k : be_kind) : bool := match k with Matrix _ _ _ _ _ => true | _ => false end.
Definition how_many (p : backend -> bool) (s : service) : Z := Z.of_nat (length (filter p (all_backends s))).
Definition text_of (o : option bytes) : bytes := match o with Some s => s | None => [] end.
Definition one (b : bool) : Z := if b then 1 else 0.
Definition opt {A : Type} (o : option A) : list A := match o with Some a => [a] | None => [] end.

(** The samples of each family *)
Definition samples_of (s : state) (f : family) : list sample :=
  match f with
  | F_WORKERS => map (fun x => mkSample [(lit "type", lit (fst x))] (snd x))
      [("active", st_active s); ("count", st_count s); ("max", st_max s); ("min", st_min s)]
  | F_LISTENER_ENABLED => map (fun x => mkSample (fst x) (one (negb (lstn_disabled (snd x))))) (listeners_of s)
  | F_LISTENER_INFO => map (fun x => mkSample (fst x ++ [(lit "name", text_of (lstn_name (snd x))); (lit "address", lstn_address (snd x));
      (lit "protocol", match lstn_https (snd x) with Some _ => lit "https" | None => lit "http" end)]) 1) (listeners_of s)
  | F_SERVICE_INFO => map (fun x => mkSample (fst x ++ [(lit "name", text_of (svc_name (snd x)))]) 1) (services_of s)
  | F_SERVICE_ENABLED => map (fun x => mkSample (fst x) (one (negb (svc_disabled (snd x))))) (services_of s)
  | F_BACKENDS => concat (map (fun x => map (fun y => mkSample (fst x ++ [(lit "state", lit (fst y))]) (how_many (snd y) (snd x)))
      [("total", fun _ => true); ("enabled", fun b => negb (be_disabled b)); ("alive", fun b => is_alive (be_type b));
       ("active", fun b => negb (be_disabled b) && is_alive (be_type b))]) (services_of s))
  | F_BACKEND_STATE => concat (map (fun x => map (fun y => mkSample (fst x ++ [(lit "state", lit (fst y))]) (one (snd y)))
      [("alive", is_alive (be_type (snd x))); ("enabled", negb (be_disabled (snd x)))]) (backends_of s))
  | F_BACKEND_REQUESTS => concat (map (fun x => opt (if is_matrix (be_type (snd x)) then None else
      option_map (fun t => mkSample (fst x) (fst t)) (st_stats s (snd x)))) (backends_of s))
  | F_TIME_AVG => concat (map (fun x => opt (if is_matrix (be_type (snd x)) then None else
      match st_stats s (snd x) with Some (_, Some (avg, _)) => Some (mkSample (fst x) avg) | _ => None end)) (backends_of s))
  | F_STDDEV => concat (map (fun x => opt (if is_matrix (be_type (snd x)) then None else
      match st_stats s (snd x) with Some (_, Some (_, dev)) => Some (mkSample (fst x) dev) | _ => None end)) (backends_of s))
  end.
Definition families : list family :=
  [F_WORKERS; F_LISTENER_ENABLED; F_LISTENER_INFO; F_SERVICE_INFO; F_SERVICE_ENABLED; F_BACKENDS; F_BACKEND_STATE; F_BACKEND_REQUESTS; F_TIME_AVG; F_STDDEV].
Definition non_empty (m : family * list sample) : bool := match snd m with [] => false | _ => true end.
Definition table (s : state) : list (family * list sample) := filter non_empty (map (fun f => (f, samples_of s f)) families).

(** The listing from which the metrics are computed, if the statistics of the backends are those of the state *)
Definition with_stats (s : state) (b : backend) : Prop :=
  be_stats b = match st_stats s b with Some (n, t) => backend_stats_json n t | None => None end.
Definition services_all (s : state) : list service := concat (map lstn_services (st_listeners s)) ++ st_services s.
Definition consistent (s : state) : Prop := forall v b, In v (services_all s) -> In b (all_backends v) -> with_stats s b.
Definition listing (s : state) (core : list (bytes * json)) : option json :=
  match workers_serialize (st_active s) (st_count s) (st_max s) (st_min s) (st_timeout s) with
  | Some w => pound_serialize (core ++ [(lit "workers", w)]) (st_listeners s) (st_services s)
  | None => None
  end.
(** The other members of the listing have other names, svc.c 2319-2323 *)
Definition core_names : list bytes := map lit ["version"; "pid"; "timestamp"; "queue_len"].
(** Every service has a backend. *)
Definition served (s : state) : Prop := forall v, In v (services_all s) -> svc_balancers v <> [].

(** ** The text (OpenMetrics 1.0): the lines of each metric family are together, and the last line is "# EOF" *)

(** The text of a label value stands for a value. *)
Inductive value_text : bytes -> bytes -> Prop :=
| vt_nil : value_text [] []
| vt_char : forall c t v, c <> QUOTE -> c <> "\"%char -> c <> LF -> value_text t v -> value_text (c :: t) (c :: v)
| vt_slash : forall t v, value_text t v -> value_text ("\"%char :: "\"%char :: t) ("\"%char :: v)
| vt_quote : forall t v, value_text t v -> value_text ("\"%char :: QUOTE :: t) (QUOTE :: v)
| vt_line : forall t v, value_text t v -> value_text ("\"%char :: "n"%char :: t) (LF :: v).
Definition name_char (c : byte) : Prop := In c (lit "abcdefghijklmnopqrstuvwxyzABCDEFGHIJKLMNOPQRSTUVWXYZ0123456789_").
Definition label_name (n : bytes) : Prop := n <> [] /\ Forall name_char n.
Inductive labels_text : bytes -> labels -> Prop :=
| lt_one : forall n t v, label_name n -> value_text t v -> labels_text (n ++ "="%char :: QUOTE :: t ++ [QUOTE]) [(n, v)]
| lt_more : forall n t v u l, label_name n -> value_text t v -> labels_text u l -> labels_text (n ++ "="%char :: QUOTE :: t ++ QUOTE :: ","%char :: u) ((n, v) :: l).
Inductive sample_line (name : bytes) : bytes -> sample -> Prop :=
| sl_bare : forall d n, decimal_text d n -> sample_line name (name ++ " "%char :: d ++ [LF]) (mkSample [] n)
| sl_labels : forall t l d n, labels_text t l -> decimal_text d n -> sample_line name (name ++ "{"%char :: t ++ "}"%char :: " "%char :: d ++ [LF]) (mkSample l n).
Inductive sample_lines (name : bytes) : bytes -> list sample -> Prop :=
| sls_nil : sample_lines name [] []
| sls_cons : forall t s ts ss, sample_line name t s -> sample_lines name ts ss -> sample_lines name (t ++ ts) (s :: ss).
(** The lines about a family: its type, perhaps its unit, its description *)
Definition header (f : family) : bytes :=
  let line (w x : string) := lit "# " ++ lit w ++ lit " " ++ lit (d_name (describe f)) ++ lit " " ++ lit x ++ [LF] in
  line "TYPE" (d_type (describe f)) ++ match d_unit (describe f) with Some u => line "UNIT" u | None => [] end ++ line "HELP" (d_help (describe f)).
Inductive metrics_text : bytes -> list (family * list sample) -> Prop :=
| mt_eof : metrics_text (lit "# EOF" ++ [LF]) []
| mt_cons : forall f t ss u ms, ss <> [] -> sample_lines (lit (d_name (describe f))) t ss -> metrics_text u ms -> metrics_text (header f ++ t ++ u) ((f, ss) :: ms).

(** No quotation mark, backslash or line feed occurs in the names (and addresses) that are shown. *)
Definition simple (v : bytes) : Prop := ~ In QUOTE v /\ ~ In "\"%char v /\ ~ In LF v.
Definition simple_names (s : state) : Prop :=
  (forall l, In l (st_listeners s) -> simple (text_of (lstn_name l)) /\ simple (lstn_address l)) /\ (forall v, In v (services_all s) -> simple (text_of (svc_name v))).

(** The reply: the text after a head that tells its length *)
Definition is_reply (version : bool) (reply text : bytes) : Prop := exists d, LogSpec.decimal (Z.of_nat (length text)) d /\
  reply = lit "HTTP/1." ++ lit (if version then "1" else "0") ++ lit " 200 OK" ++ CRLF ++
          lit "Content-Type: application/openmetrics-text; version=1.0.0; charset=utf-8" ++ CRLF ++ lit "Content-Length: " ++ d ++ CRLF ++ CRLF ++ text.

(** ** Several threads *)

(** What an exposition says about a family *)
Definition under (e : exposition) (f : family) : list sample := concat (map snd (filter (fun m => family_eqb (fst m) f) e)).
(** The steps of a thread are not interrupted between finding a metric and using it: [sched] is made of pairs. *)
Inductive paired : list nat -> Prop :=
| pr_nil : paired []
| pr_two : forall t s, paired s -> paired (t :: t :: s).
Definition finished (r : race) (t : nat) : Prop := r_todo r t = [].
