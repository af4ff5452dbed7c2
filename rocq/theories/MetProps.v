(** C59: the metrics. *)
From Coq Require Import Ascii String List ZArith Bool Lia.
From Verif Require LogModel LogSpec.
From Verif Require Import Bytes JsonModel ShowModel ShowSpec ShowProofs MetModel MetSpec MetProofs.
Import ListNotations.
Local Open Scope Z_scope.
Local Open Scope string_scope.
Local Open Scope list_scope.

(** The reply to a request for the metrics is a text in the OpenMetrics format that shows, family by family,
    exactly the samples of the table: for every listener, service and backend, whatever their number, the
    values of their state, with labels that say which one it is.  Missing for the full property: every
    service must have a backend, and no name may contain a quotation mark, a backslash or a line feed. *)
Theorem C59_metrics_partial : forall s core version, consistent s -> map fst core = core_names -> served s -> simple_names s ->
  exists r text, metrics_response version (listing s core) = Sent r /\ is_reply version r text /\ metrics_text text (table s).
Proof. exact reply_ok. Qed.
Print Assumptions C59_metrics_partial.

(** The text can be understood in one way only. *)
Theorem C59_unambiguous : forall t ms ms', metrics_text t ms -> metrics_text t ms' -> ms = ms'.
Proof. intros t ms ms' H H'. exact (metrics_unique t ms H ms' H'). Qed.
Print Assumptions C59_unambiguous.

(** No two samples of a family have the same labels. *)
Theorem C59_distinct : forall s f, NoDup (map s_labels (samples_of s f)).
Proof. exact labels_distinct. Qed.
Print Assumptions C59_distinct.

(** The number in a label is the position of the object in the listing, in decimal. *)
Theorem C59_index : forall w i, LogSpec.decimal (Z.of_nat i) (snd (index w i)).
Proof. exact index_decimal. Qed.
Print Assumptions C59_index.

(** A single service without backends, for which a configuration file earns no more than a warning, makes
    all metrics unavailable: its backends are listed as null instead of an empty array, and any request for
    the metrics is answered with an internal server error. *)
Theorem C59_empty_refuted : forall s core version, consistent s -> map fst core = core_names -> ~ served s ->
  metrics_response version (listing s core) = InternalServerError.
Proof. exact reply_empty. Qed.
Print Assumptions C59_empty_refuted.

(** Names are not escaped: if the name of a service contains a quotation mark, then the line about the service
    can have labels that are not there. *)
Theorem C59_escape_refuted : forall s p v a x b n, In (p, v) (services_of s) -> svc_name v = Some (a ++ QUOTE :: ","%char :: x ++ "="%char :: QUOTE :: b) ->
  simple a -> label_name x -> simple b ->
  In (mkSample (p ++ [(lit "name", text_of (svc_name v))]) 1) (samples_of s F_SERVICE_INFO) /\
  sample_line (lit n) (format_sample n (mkSample (p ++ [(lit "name", text_of (svc_name v))]) 1)) (mkSample (p ++ [(lit "name", a); (x, b)]) 1).
Proof. exact forged. Qed.
Print Assumptions C59_escape_refuted.

(** In a family of type stateset, OpenMetrics wants every sample to have a label whose name is that of the
    family.  No sample has one. *)
Theorem C59_stateset_refuted : forall s f x, d_type (describe f) = "stateset" -> In x (samples_of s f) -> ~ In (lit (d_name (describe f))) (map fst (s_labels x)).
Proof. exact stateset_label. Qed.
Print Assumptions C59_stateset_refuted.

(** If several threads compute the metrics at the same time, each gets the samples it has found, provided
    that no thread is interrupted by another between finding a metric and appending to it. *)
Theorem C59_threads_partial : forall s core v c sched todo r t, consistent s -> map fst core = core_names -> served s ->
  listing s core = Some v -> exposition_fill v = Ok c -> todo t = c -> paired sched -> race_run sched (race_init todo) = Some r -> finished r t ->
  filter non_empty (r_exp r t) = table s.
Proof.
  intros s core v c sched todo r t C N V L F T P R D. destruct (fill_served s core C N V) as (v' & L' & F'). rewrite L in L'. injection L' as <-. rewrite F in F'. injection F' as ->.
  rewrite (race_paired sched todo r t P R D), T. apply table_ok.
Qed.
Print Assumptions C59_threads_partial.

(** Otherwise not: the address of the metric is in a static variable.  Whatever the state, two threads can get
    into each other's way such that the samples about workers are missing from the first text and are twice
    in the second. *)
Theorem C59_threads_refuted : forall s0 s1 core v0 v1 c0 c1, consistent s0 -> consistent s1 -> map fst core = core_names -> served s0 -> served s1 ->
  listing s0 core = Some v0 -> listing s1 core = Some v1 -> exposition_fill v0 = Ok c0 -> exposition_fill v1 = Ok c1 ->
  exists sched r, race_run sched (race_init (fun t => match t with O => c0 | S O => c1 | _ => [] end)) = Some r /\ finished r 0 /\ finished r 1 /\
  under (r_exp r 0%nat) F_WORKERS = [] /\ under (r_exp r 1%nat) F_WORKERS = samples_of s0 F_WORKERS ++ samples_of s1 F_WORKERS /\
  forall f, f <> F_WORKERS -> under (r_exp r 0%nat) f = samples_of s0 f /\ under (r_exp r 1%nat) f = samples_of s1 f.
Proof.
  intros s0 s1 core v0 v1 c0 c1 C0 C1 N V0 V1 L0 L1 F0 F1.
  destruct (fill_served s0 core C0 N V0) as (v' & L' & F'). rewrite L0 in L'. injection L' as <-. rewrite F0 in F'. injection F' as ->.
  destruct (fill_served s1 core C1 N V1) as (v' & L' & F'). rewrite L1 in L'. injection L' as <-. rewrite F1 in F'. injection F' as ->.
  exact (race_mixed s0 s1).
Qed.
Print Assumptions C59_threads_refuted.

(** Examples *)
Definition ex_core : list (bytes * json) := map (fun n => (n, JNull ints)) core_names.
Definition reg (id : nat) (alive disabled : bool) (stats : option json) : backend := mkBe id (Regular (lit "10.0.0.1:80") alive false 15 15 600 None) 1 disabled [] stats.
Definition ex_stats (b : backend) : option (Z * option (Z * Z)) := match be_id b with 1%nat => Some (3, Some (1500, 20)) | 2%nat => Some (0, None) | _ => None end.
Definition ex_state : state := mkState 1 5 128 5 10
  [mkLstn (Some (lit "main")) (lit "0.0.0.0:80") None false [mkSvc (Some (lit "web")) false None None [mkBal 0 [reg 1 true false (backend_stats_json 3 (Some (1500, 20))); reg 2 false false (backend_stats_json 0 None)]]]]
  [mkSvc None true None None [mkBal 0 [reg 3 true true None]]] ex_stats.
Example C59_ex : consistent ex_state /\ map fst ex_core = core_names /\ served ex_state /\ simple_names ex_state /\
  exists r, metrics_response true (listing ex_state ex_core) = Sent r /\
  exists before after, r = before ++
    lit "pound_backends{listener=""0"",service=""0"",state=""alive""} 1" ++ [LF] ++
    lit "pound_backends{listener=""0"",service=""0"",state=""active""} 1" ++ [LF] ++
    lit "pound_backends{service=""0"",state=""total""} 1" ++ [LF] ++ after.
Proof.
  split; [intros v b [<-|[<-|[]]] H; repeat (destruct H as [<-|H]; [reflexivity|]); destruct H|]. split; [reflexivity|]. split; [intros v [<-|[<-|[]]]; discriminate|]. split.
  { split; [intros l [<-|[]]; split; apply lit_simple; vm_compute; reflexivity|]. intros v [<-|[<-|[]]]; [apply lit_simple; vm_compute; reflexivity|repeat split; intros []]. }
  eexists. split; [vm_compute; reflexivity|]. exists (firstn 1251 (match metrics_response true (listing ex_state ex_core) with Sent r => r | _ => [] end)). eexists. vm_compute. reflexivity.
Qed.
Example C59_ex_empty : consistent (mkState 1 5 128 5 10 [] [mkSvc None false None None []] (fun _ => None)) /\ ~ served (mkState 1 5 128 5 10 [] [mkSvc None false None None []] (fun _ => None)).
Proof. split; [intros v b [<-|[]] []|]. intros H. apply (H (mkSvc None false None None [])); [left; reflexivity|reflexivity]. Qed.
Example C59_ex_escape : exists s p v a x b, In (p, v) (services_of s) /\ svc_name v = Some (a ++ QUOTE :: ","%char :: x ++ "="%char :: QUOTE :: b) /\ simple a /\ label_name x /\ simple b.
Proof.
  exists (mkState 1 5 128 5 10 [] [mkSvc (Some (lit "a"",listener=""0")) false None None []] (fun _ => None)). do 2 eexists. exists (lit "a"), (lit "listener"), (lit "0").
  split; [left; reflexivity|]. split; [reflexivity|]. split; [apply lit_simple; vm_compute; reflexivity|]. split; [apply name_ok; [vm_compute; reflexivity|discriminate]|apply lit_simple; vm_compute; reflexivity].
Qed.
Example C59_ex_threads : exists v c, listing ex_state ex_core = Some v /\ exposition_fill v = Ok c /\ paired [7; 7; 3; 3]%nat.
Proof. do 2 eexists. split; [vm_compute; reflexivity|]. split; [vm_compute; reflexivity|repeat constructor]. Qed.
