(** Proofs about the metrics. *)
From Coq Require Import Ascii String List ZArith Bool Lia.
From Verif Require LogModel LogSpec LogProofs ReplyProofs ClenSpec.
From Verif Require Import Bytes JsonModel JsonSpec JsonProofs ShowModel ShowSpec ShowProofs MetModel MetSpec.
Import ListNotations.
Local Open Scope Z_scope.
Local Open Scope string_scope.
Local Open Scope list_scope.

(** ** Members of an object *)

Definition assoc (l : list (bytes * json)) (n : bytes) : option json := option_map snd (find (fun p => bytes_eqb (fst p) n) l).
Lemma assoc_in : forall l n w, NoDup (map fst l) -> (assoc l n = Some w <-> In (n, w) l).
Proof.
  induction l as [|[k v] l IH]; intros n w N; [split; [discriminate|intros []]|]. cbn [map fst] in N. inversion N as [|? ? N1 N2]; subst.
  unfold assoc. cbn [find fst]. destruct (bytes_eqb k n) eqn:E.
  - apply bytes_eqb_eq in E. subst k. cbn [option_map snd]. split; [intros [= ->]; left; reflexivity|].
    intros [H|H]; [congruence|]. apply (in_map fst) in H. contradiction.
  - fold (assoc l n). rewrite (IH _ _ N2). split; [intros H; right; exact H|]. intros [H|H]; [|exact H]. injection H as -> ->.
    rewrite (proj2 (bytes_eqb_eq n n) eq_refl) in E. discriminate.
Qed.

Lemma get_object_of : forall l, NoDup (map fst l) -> exists v, object_of l = Some v /\ (exists ps, v = JObject ints ps) /\ forall n, MetModel.get v n = Ok (assoc l n).
Proof.
  intros l N. unfold object_of. change (fold_left _ l _) with (set_all l). destruct (set_all_spec l) as (o & E & IO & H). rewrite E.
  exists (JObject ints (pairs o)). split; [reflexivity|]. split; [eauto|]. intros n. unfold MetModel.get.
  assert (X : mkObj (pairs o) (length (pairs o)) = o) by (destruct o, IO as [C _]; cbn in *; congruence). rewrite X.
  destruct (get_spec o n IO) as (r & -> & R). f_equal. destruct r as [v|].
  - symmetry. apply assoc_in; [exact N|]. apply last_set_in; [exact N|]. apply H. apply R. reflexivity.
  - destruct (assoc l n) as [w|] eqn:A; [|reflexivity]. apply assoc_in in A; [|exact N]. apply last_set_in in A; [|exact N]. apply H, R in A. discriminate.
Qed.

Ltac member := cbn [assoc find fst snd]; vm_compute; reflexivity.

(** ** Backends *)

Lemma sample_with_eq : forall pfx more n, sample_with pfx more n = mkSample (pfx ++ more) n.
Proof.
  intros pfx more n. unfold sample_with, metric_labels_copy.
  assert (X : forall more d, fold_left (fun d l => metric_labels_add d (fst l) (snd l)) more d = d ++ more).
  { induction more0 as [|[a b] more0 IH]; intros d; [symmetry; apply app_nil_r|]. cbn [fold_left fst snd]. rewrite IH. unfold metric_labels_add. rewrite <- app_assoc. reflexivity. }
  rewrite !X. reflexivity.
Qed.

Definition state_of (v : json) (b : backend) : Prop :=
  get_bool v "alive" = Ok (is_alive (be_type b)) /\ get_bool v "enabled" = Ok (negb (be_disabled b)).
Definition stats_calls (s : state) (pfx : labels) (b : backend) : calls :=
  let t := if is_matrix (be_type b) then None else st_stats s b in
  [(F_BACKEND_STATE, [mkSample (pfx ++ [(lit "state", lit "alive")]) (one (is_alive (be_type b))); mkSample (pfx ++ [(lit "state", lit "enabled")]) (one (negb (be_disabled b)))]);
   (F_BACKEND_REQUESTS, opt (option_map (fun t => mkSample pfx (fst t)) t));
   (F_TIME_AVG, opt (match t with Some (_, Some (avg, _)) => Some (mkSample pfx avg) | _ => None end));
   (F_STDDEV, opt (match t with Some (_, Some (_, dev)) => Some (mkSample pfx dev) | _ => None end))].

Lemma stats_object : forall n t, exists v ps, backend_stats_json n t = Some v /\ v = JObject ints ps /\
  MetModel.get v (lit "request_count") = Ok (Some (JNumber ints n)) /\
  MetModel.get v (lit "request_time_avg") = Ok (match t with Some (a, _) => Some (JNumber ints a) | None => None end) /\
  MetModel.get v (lit "request_time_stddev") = Ok (match t with Some (_, d) => Some (JNumber ints d) | None => None end).
Proof.
  intros n t. unfold backend_stats_json. match goal with |- context [object_of ?l] => destruct (get_object_of l) as (v & E & (ps & ->) & G) end.
  { destruct t as [[a d]|]; apply nodupb_ok; vm_compute; reflexivity. }
  exists (JObject ints ps), ps. rewrite E. split; [reflexivity|]. split; [reflexivity|]. rewrite !G. destruct t as [[a d]|]; repeat split; member.
Qed.

Lemma backend_json : forall st s bl b, with_stats st b -> exists v, backend_serialize s bl b = Some v /\ state_of v b /\
  forall pfx, exposition_apply_family pfx backend_metric_families v = Ok (stats_calls st pfx b).
Proof.
  intros st s bl b W. destruct (get_object_of (backend_fields s bl b) (fields_nodup s bl b)) as (v & E & O & G). exists v. split; [exact E|].
  assert (SO : state_of v b).
  { unfold state_of, get_bool, get_member. rewrite !G. unfold backend_fields. split; [destruct (be_type b); reflexivity|reflexivity]. }
  split; [exact SO|]. intros pfx. destruct SO as [S1 S2].
  unfold exposition_apply_family, backend_metric_families, setfn. rewrite S1, S2. cbn [bind].
  assert (ST : MetModel.get v (lit "stats") = Ok (if is_matrix (be_type b) then None else be_stats b)).
  { rewrite G. destruct b as [id k pr dis up stt]. unfold backend_fields, backend_serialize_dyninfo. cbn [be_type be_stats be_up be_priority be_disabled is_matrix].
    destruct k as [a al h i c w n|h m f n [e|]| | | | |]; destruct stt; destruct (rev up); reflexivity. }
  unfold gen_backend_stats. rewrite ST. cbn [bind]. unfold stats_calls. rewrite !sample_with_eq. unfold with_stats in W. rewrite W.
  destruct (is_matrix (be_type b)); [reflexivity|]. destruct (st_stats st b) as [[n t]|]; [|reflexivity].
  destruct (stats_object n t) as (w & ps & -> & -> & G1 & G2 & G3). cbn [bind]. rewrite G1, G2, G3. cbn [bind]. destruct t as [[a d]|]; rewrite !sample_with_eq, !app_nil_r; reflexivity.
Qed.

Lemma triple : forall a b c a' b' c' : Z, a = a' -> b = b' -> c = c' -> Ok (a, b, c) = Ok (a', b', c').
Proof. congruence. Qed.
Lemma count_ok : forall l vs e a c, Forall2 (fun b v => state_of v b) l vs -> count_backends vs e a c =
  Ok (e + Z.of_nat (length (filter (fun b => negb (be_disabled b)) l)), a + Z.of_nat (length (filter (fun b => is_alive (be_type b)) l)),
      c + Z.of_nat (length (filter (fun b => negb (be_disabled b) && is_alive (be_type b)) l))).
Proof.
  intros l vs e a c H. revert e a c. induction H as [|b v l vs [H1 H2] H IH]; intros e a c; cbn [count_backends filter length]; [apply triple; lia|].
  unfold flag. rewrite H1, H2. cbn [bind]. rewrite IH. unfold num.
  destruct (be_disabled b), (is_alive (be_type b)); cbn [negb andb length]; apply triple; lia.
Qed.

(** ** Going through the arrays *)

Lemma copy_nil : forall pfx, metric_labels_copy [] pfx = pfx.
Proof.
  intros pfx. unfold metric_labels_copy.
  assert (X : forall more d, fold_left (fun d l => metric_labels_add d (fst l) (snd l)) more d = d ++ more).
  { induction more as [|[a b] more IH]; intros d; [symmetry; apply app_nil_r|]. cbn [fold_left fst snd]. rewrite IH. unfold metric_labels_add. rewrite <- app_assoc. reflexivity. }
  apply X.
Qed.
Lemma pop_add : forall pfx n v, metric_labels_pop (metric_labels_add pfx n v) = pfx.
Proof. intros. apply removelast_last. Qed.

Section Loop.
  Context {X : Type}.
  Variables (attr label : string) (fs : list family) (descend : labels -> json -> res calls) (ok : X -> bool) (block : labels -> X -> calls).
  Definition yields (x : X) (v : json) : Prop := forall pfx,
    (do c <- exposition_apply_family pfx fs v; do d <- descend pfx v; Ok (c ++ d)) = if ok x then Ok (block pfx x) else Fail.
  Definition blocks (pfx : labels) (i : nat) (xs : list X) : calls := concat (map (fun p => block (pfx ++ [index label (fst p)]) (snd p)) (number_from i xs)).
  Lemma loop_ok : forall xs vs, Forall2 yields xs vs -> forall pfx i,
    iterate_loop label fs descend pfx i vs = if forallb ok xs then Ok (blocks pfx i xs) else Fail.
  Proof.
    induction 1 as [|x v xs vs Y F IH]; intros pfx i; [reflexivity|]. cbn [iterate_loop forallb]. rewrite pop_add.
    specialize (Y (metric_labels_add pfx (lit label) (LogModel.fmt_ld (Z.of_nat i)))).
    destruct (exposition_apply_family _ fs v) as [c| |]; cbn [bind] in *.
    - destruct (descend _ v) as [d| |]; cbn [bind] in *.
      + rewrite (IH pfx (S i)). destruct (ok x); [|discriminate]. injection Y as Y. cbn [andb]. destruct (forallb ok xs); [|reflexivity]. cbn [bind].
        unfold blocks. cbn [number_from map concat fst snd]. rewrite app_assoc, Y. reflexivity.
      + destruct (ok x); [discriminate|reflexivity].
      + destruct (ok x); discriminate.
    - destruct (ok x); [discriminate|reflexivity].
    - destruct (ok x); discriminate.
  Qed.
  Lemma iterate_ok : forall xs vs obj pfx, Forall2 yields xs vs -> MetModel.get obj (lit attr) = Ok (Some (JArray ints vs)) ->
    iterate attr label fs descend pfx obj = if forallb ok xs then Ok (blocks pfx 0 xs) else Fail.
  Proof. intros xs vs obj pfx F G. unfold iterate. rewrite G. cbn [bind]. rewrite copy_nil. apply loop_ok, F. Qed.
End Loop.

Lemma Forall2_map_l : forall (A B C : Type) (f : A -> B) (R : B -> C -> Prop) l m, Forall2 (fun x y => R (f x) y) l m -> Forall2 R (map f l) m.
Proof. induction 1; cbn [map]; constructor; assumption. Qed.
Lemma forallb_true : forall (A : Type) (l : list A), forallb (fun _ => true) l = true.
Proof. induction l; cbn; auto. Qed.

(** ** Services *)

Definition service_ok (s : service) : bool := match svc_balancers s with [] => false | _ => true end.
Definition service_calls (st : state) (pfx : labels) (s : service) : calls :=
  [(F_SERVICE_INFO, [mkSample (pfx ++ [(lit "name", text_of (svc_name s))]) 1]);
   (F_SERVICE_ENABLED, [mkSample pfx (one (negb (svc_disabled s)))]);
   (F_BACKENDS, map (fun y => mkSample (pfx ++ [(lit "state", lit (fst y))]) (how_many (snd y) s))
      [("total", fun _ => true); ("enabled", fun b => negb (be_disabled b)); ("alive", fun b => is_alive (be_type b));
       ("active", fun b => negb (be_disabled b) && is_alive (be_type b))])] ++
  blocks "backend" (stats_calls st) pfx 0 (all_backends s).

Lemma filter_all : forall (A : Type) (l : list A), filter (fun _ => true) l = l.
Proof. induction l; cbn; congruence. Qed.

Lemma service_json : forall st s, (forall b, In b (all_backends s) -> with_stats st b) -> exists v, service_serialize s = Some v /\
  yields service_metric_families iterate_backends service_ok (service_calls st) s v.
Proof.
  intros st s W. unfold service_serialize. destruct (sessions_listed s) as (ss & -> & _).
  assert (B : exists w, backends_serialize s = Some w /\
    (svc_balancers s = [] /\ w = jnull \/
     svc_balancers s <> [] /\ exists vs, w = JArray ints vs /\ Forall2 (fun b v => state_of v b /\ forall pfx, exposition_apply_family pfx backend_metric_families v = Ok (stats_calls st pfx b)) (all_backends s) vs)).
  { destruct (svc_balancers s) as [|bl0 bls0] eqn:B0; [unfold backends_serialize; rewrite B0; eauto|].
    unfold backends_serialize.
    assert (E : concat (map (fun bl => map (backend_serialize s bl) (bal_backends bl)) (svc_balancers s)) = map (fun p => backend_serialize s (fst p) (snd p)) (tagged s)).
    { unfold tagged. induction (svc_balancers s) as [|bl l IH] in |- *; [reflexivity|]. cbn [map concat]. rewrite map_app, IH, map_map. reflexivity. }
    destruct (array_of_ok _ (fun p => backend_serialize s (fst p) (snd p)) (fun p v => state_of v (snd p) /\ forall pfx, exposition_apply_family pfx backend_metric_families v = Ok (stats_calls st pfx (snd p))) (tagged s)) as (vs & A & F).
    { intros (bl & b) I. destruct (backend_json st s bl b) as (v & V & P); [apply W; rewrite <- tagged_snd; apply (in_map snd) in I; exact I|]. exists v. auto. }
    exists (JArray ints vs). rewrite B0 in *. rewrite E, A. split; [reflexivity|]. right. split; [discriminate|]. exists vs. split; [reflexivity|]. rewrite <- tagged_snd.
    apply Forall2_map_l. exact F. }
  destruct B as (w & -> & B).
  match goal with |- exists v, object_of ?fl = _ /\ _ => destruct (get_object_of fl) as (v & -> & (ps & ->) & G); [apply nodupb_ok; vm_compute; reflexivity|] end.
  exists (JObject ints ps). split; [reflexivity|]. intros pfx.
  assert (G1 : MetModel.get (JObject ints ps) (lit "name") = Ok (Some (jopt (svc_name s)))) by (rewrite G; reflexivity).
  assert (G2 : MetModel.get (JObject ints ps) (lit "enabled") = Ok (Some (jbool (negb (svc_disabled s))))) by (rewrite G; reflexivity).
  assert (G3 : MetModel.get (JObject ints ps) (lit "backends") = Ok (Some w)) by (rewrite G; reflexivity).
  unfold exposition_apply_family, service_metric_families, setfn, get_name, get_bool, get_array, get_member.
  rewrite G1, G2, G3. cbn [bind].
  replace (match jopt (svc_name s) with JString _ s0 => Ok s0 | JNull _ => Ok [] | _ => Fail end) with (Ok (text_of (svc_name s))) by (destruct (svc_name s); reflexivity).
  cbn [bind jbool]. unfold service_ok.
  destruct B as [(B & ->)|(B & vs & -> & F)]; [rewrite B; reflexivity|]. destruct (svc_balancers s) as [|bl0 bls0] eqn:B0; [contradiction|]. cbn [bind].
  rewrite (count_ok (all_backends s)) by (clear -F; induction F as [|? ? ? ? [H _]]; constructor; assumption). cbn [bind].
  rewrite <- (Forall2_len _ _ _ _ _ F).
  unfold iterate_backends. rewrite (iterate_ok _ _ _ _ (fun _ => true) (stats_calls st) (all_backends s) vs); [|clear -F; induction F as [|x v l m [_ H]]; constructor; [|assumption]; intros pfx; rewrite H; cbn [bind]; rewrite app_nil_r; reflexivity|exact G3].
  rewrite forallb_true. cbn [bind]. rewrite !sample_with_eq, !app_nil_r. unfold service_calls, how_many. cbn [map fst snd app]. rewrite filter_all, !Z.add_0_l. reflexivity.
Qed.

(** ** Listeners *)

Definition listener_ok (l : listener) : bool := forallb service_ok (lstn_services l).
Definition listener_calls (st : state) (pfx : labels) (l : listener) : calls :=
  [(F_LISTENER_ENABLED, [mkSample pfx (one (negb (lstn_disabled l)))]);
   (F_LISTENER_INFO, [mkSample (pfx ++ [(lit "name", text_of (lstn_name l)); (lit "address", lstn_address l);
      (lit "protocol", match lstn_https l with Some _ => lit "https" | None => lit "http" end)]) 1])] ++
  blocks "service" (service_calls st) pfx 0 (lstn_services l).

Lemma listener_json : forall st l, (forall s b, In s (lstn_services l) -> In b (all_backends s) -> with_stats st b) -> exists v, listener_serialize l = Some v /\
  yields listener_metric_families iterate_services listener_ok (listener_calls st) l v.
Proof.
  intros st l W. unfold listener_serialize.
  destruct (array_of_ok _ service_serialize (yields service_metric_families iterate_backends service_ok (service_calls st)) (lstn_services l)) as (vs & -> & F).
  { intros s I. apply service_json. intros b. apply W, I. }
  match goal with |- exists v, object_of ?fl = _ /\ _ => destruct (get_object_of fl) as (v & -> & (ps & ->) & G); [destruct (lstn_https l); apply nodupb_ok; vm_compute; reflexivity|] end.
  exists (JObject ints ps). split; [reflexivity|]. intros pfx.
  assert (G1 : MetModel.get (JObject ints ps) (lit "name") = Ok (Some (jopt (lstn_name l)))) by (rewrite G; reflexivity).
  assert (G2 : MetModel.get (JObject ints ps) (lit "enabled") = Ok (Some (jbool (negb (lstn_disabled l))))) by (rewrite G; destruct (lstn_https l); reflexivity).
  assert (G3 : MetModel.get (JObject ints ps) (lit "services") = Ok (Some (JArray ints vs))) by (rewrite G; destruct (lstn_https l); reflexivity).
  assert (G4 : MetModel.get (JObject ints ps) (lit "address") = Ok (Some (jstr (lstn_address l)))) by (rewrite G; reflexivity).
  assert (G5 : MetModel.get (JObject ints ps) (lit "protocol") = Ok (Some (jstr (match lstn_https l with Some _ => lit "https" | None => lit "http" end)))) by (rewrite G; reflexivity).
  unfold exposition_apply_family, listener_metric_families, setfn, get_name, get_bool, get_string, get_member.
  rewrite G1, G2, G4, G5. cbn [bind].
  replace (match jopt (lstn_name l) with JString _ s0 => Ok s0 | JNull _ => Ok [] | _ => Fail end) with (Ok (text_of (lstn_name l))) by (destruct (lstn_name l); reflexivity).
  cbn [bind jbool jstr]. rewrite !sample_with_eq, app_nil_r.
  unfold iterate_services. rewrite (iterate_ok _ _ _ _ service_ok (service_calls st) (lstn_services l) vs _ _ F G3).
  unfold listener_ok. destruct (forallb service_ok (lstn_services l)); reflexivity.
Qed.

(** ** Everything *)

Definition all_ok (s : state) : bool := forallb listener_ok (st_listeners s) && forallb service_ok (st_services s).
Definition worker_samples (s : state) : list sample :=
  map (fun x => mkSample [(lit "type", lit (fst x))] (snd x)) [("active", st_active s); ("count", st_count s); ("max", st_max s); ("min", st_min s)].
Definition all_calls (s : state) : calls :=
  [(F_WORKERS, worker_samples s)] ++ blocks "listener" (listener_calls s) [] 0 (st_listeners s) ++ blocks "service" (service_calls s) [] 0 (st_services s).

Lemma fill_ok : forall s core, consistent s -> map fst core = core_names -> exists v, listing s core = Some v /\
  exposition_fill v = if all_ok s then Ok (all_calls s) else Fail.
Proof.
  intros s core C N. unfold listing, workers_serialize.
  match goal with |- context [object_of ?fl] => destruct (get_object_of fl) as (w & -> & (ps & ->) & GW); [apply nodupb_ok; vm_compute; reflexivity|] end.
  unfold pound_serialize.
  destruct (array_of_ok _ listener_serialize (yields listener_metric_families iterate_services listener_ok (listener_calls s)) (st_listeners s)) as (vl & -> & FL).
  { intros l I. apply listener_json. intros v b I1 I2. apply (C v); [|exact I2]. unfold services_all. apply in_or_app. left. apply in_concat. exists (lstn_services l). split; [apply in_map, I|exact I1]. }
  destruct (array_of_ok _ service_serialize (yields service_metric_families iterate_backends service_ok (service_calls s)) (st_services s)) as (vs & -> & FS).
  { intros v I. apply service_json. intros b. apply C. unfold services_all. apply in_or_app. right. exact I. }
  match goal with |- context [object_of ?fl] => assert (ND : NoDup (map fst fl)) end.
  { rewrite !map_app, N. apply nodupb_ok. vm_compute. reflexivity. }
  destruct (get_object_of _ ND) as (v & -> & (qs & ->) & G). exists (JObject ints qs). split; [reflexivity|].
  assert (A : forall n l, assoc (core ++ l) (lit n) = if existsb (bytes_eqb (lit n)) core_names then assoc core (lit n) else assoc l (lit n)).
  { intros n l. rewrite <- N. clear. induction core as [|[k x] core IH]; [reflexivity|]. cbn [map fst existsb app]. unfold assoc in *. cbn [find fst].
    replace (bytes_eqb (lit n) k) with (bytes_eqb k (lit n)); [destruct (bytes_eqb k (lit n)); [reflexivity|exact IH]|].
    destruct (bytes_eqb k (lit n)) eqn:E; symmetry; [apply bytes_eqb_eq in E; subst; apply bytes_eqb_eq; reflexivity|].
    destruct (bytes_eqb (lit n) k) eqn:E'; [|reflexivity]. apply bytes_eqb_eq in E'. subst k. rewrite (proj2 (bytes_eqb_eq _ _) eq_refl) in E. discriminate. }
  assert (G1 : MetModel.get (JObject ints qs) (lit "workers") = Ok (Some (JObject ints ps))) by (rewrite G, <- app_assoc, A; reflexivity).
  assert (G2 : MetModel.get (JObject ints qs) (lit "listeners") = Ok (Some (JArray ints vl))) by (rewrite G, <- app_assoc, A; reflexivity).
  assert (G3 : MetModel.get (JObject ints qs) (lit "services") = Ok (Some (JArray ints vs))) by (rewrite G, <- app_assoc, A; reflexivity).
  unfold exposition_fill, get_object, get_member. rewrite G1. cbn [bind].
  unfold exposition_apply_family at 1, workers_metric_families, setfn, get_number, get_member.
  rewrite !GW. cbn [bind assoc].
  match goal with |- context [bind (match assoc ?l ?n with _ => _ end)] => idtac | _ => idtac end.
  repeat match goal with |- context [assoc ?l ?n] => let r := eval vm_compute in (assoc l n) in change (assoc l n) with r end. cbn [bind].
  rewrite !sample_with_eq. unfold iterate_listeners. rewrite (iterate_ok _ _ _ _ listener_ok (listener_calls s) (st_listeners s) vl _ _ FL G2).
  unfold iterate_services. rewrite (iterate_ok _ _ _ _ service_ok (service_calls s) (st_services s) vs _ _ FS G3). unfold all_ok.
  destruct (forallb listener_ok (st_listeners s)); [|reflexivity]. destruct (forallb service_ok (st_services s)); reflexivity.
Qed.

(** ** Families in the order in which they first occur *)

Lemma NoDup_app_one : forall (A : Type) (l : list A) x, NoDup l -> ~ In x l -> NoDup (l ++ [x]).
Proof. intros A l x N I. apply (NoDup_Add (a := x) (l := l)); [|split; assumption]. rewrite <- (app_nil_r l) at 1. apply Add_app. Qed.

Lemma family_eqb_eq : forall a b, family_eqb a b = true <-> a = b.
Proof. intros a b; destruct a, b; split; intros H; try reflexivity; discriminate. Qed.
Lemma family_eqb_refl : forall a, family_eqb a a = true.
Proof. destruct a; reflexivity. Qed.

Definition samples (c : calls) (f : family) : list sample := concat (map snd (filter (fun x => family_eqb (fst x) f) c)).
Definition seen (f : family) (l : list family) : bool := existsb (fun g => family_eqb g f) l.
Definition add (l : list family) (f : family) : list family := if seen f l then l else l ++ [f].
Definition adds (l fs : list family) : list family := fold_left add fs l.

Lemma seen_in : forall f l, seen f l = true <-> In f l.
Proof.
  intros f l. unfold seen. rewrite existsb_exists. split.
  - intros (g & I & E). apply family_eqb_eq in E. subst. exact I.
  - intros I. exists f. split; [exact I|apply family_eqb_refl].
Qed.
Lemma samples_app : forall a b f, samples (a ++ b) f = samples a f ++ samples b f.
Proof. intros. unfold samples. rewrite filter_app, map_app, concat_app. reflexivity. Qed.
Lemma samples_concat : forall l f, samples (concat l) f = concat (map (fun c => samples c f) l).
Proof. induction l as [|c l IH]; intros f; [reflexivity|]. cbn [concat map]. rewrite samples_app, IH. reflexivity. Qed.

Lemma append_map : forall f s (G : family -> list sample) l, NoDup l ->
  append_to f s (map (fun g => (g, G g)) l) = map (fun g => (g, G g ++ if family_eqb f g then s else [])) l ++ (if seen f l then [] else [(f, s)]).
Proof.
  intros f s G l. induction l as [|g l IH]; intros N; [reflexivity|]. inversion N as [|? ? N1 N2]; subst. cbn [map append_to].
  unfold seen. cbn [existsb]. destruct (family_eqb g f) eqn:E.
  - apply family_eqb_eq in E. subst g. rewrite family_eqb_refl. cbn [orb]. rewrite app_nil_r. f_equal. apply map_ext_in. intros h I.
    destruct (family_eqb f h) eqn:E; [apply family_eqb_eq in E; subst; contradiction|]. rewrite app_nil_r. reflexivity.
  - destruct (family_eqb f g) eqn:E'; [apply family_eqb_eq in E'; subst; rewrite family_eqb_refl in E; discriminate|].
    rewrite app_nil_r. cbn [orb app]. f_equal. apply IH, N2.
Qed.

Lemma adds_nodup : forall c, NoDup (adds [] c) /\ forall f, In f (adds [] c) <-> In f c.
Proof.
  induction c as [|f c [IH1 IH2]] using rev_ind; [split; [constructor|tauto]|]. unfold adds in *. rewrite fold_left_app. cbn [fold_left]. unfold add at 1 3.
  destruct (seen f (fold_left add c [])) eqn:E.
  - split; [exact IH1|]. intros g. rewrite in_app_iff, IH2. cbn. apply seen_in, IH2 in E. intuition congruence.
  - split.
    + apply NoDup_app_one; [exact IH1|]. intros I. apply seen_in in I. congruence.
    + intros g. rewrite !in_app_iff, IH2. tauto.
Qed.

Lemma expose_spec : forall c, expose c = map (fun f => (f, samples c f)) (adds [] (map fst c)).
Proof.
  induction c as [|[f s] c IH] using rev_ind; [reflexivity|]. unfold expose, adds in *. rewrite map_app, !fold_left_app. cbn [fold_left map fst snd]. rewrite IH.
  destruct (adds_nodup (map fst c)) as [N M]. unfold adds in *. rewrite append_map by exact N.
  change (add (fold_left add (map fst c) []) f) with (if seen f (fold_left add (map fst c) []) then fold_left add (map fst c) [] else fold_left add (map fst c) [] ++ [f]).
  assert (X : forall g, samples (c ++ [(f, s)]) g = samples c g ++ if family_eqb f g then s else []).
  { intros g. rewrite samples_app. f_equal. unfold samples. cbn [filter fst]. destruct (family_eqb f g); cbn [map concat snd]; [apply app_nil_r|reflexivity]. }
  destruct (seen f (fold_left add (map fst c) [])) eqn:E.
  - rewrite app_nil_r. apply map_ext. intros g. rewrite X. reflexivity.
  - rewrite map_app. f_equal; [apply map_ext; intros g; rewrite X; reflexivity|]. cbn [map]. rewrite X, family_eqb_refl. do 2 f_equal.
    assert (Y : samples c f = []); [|rewrite Y; reflexivity].
    unfold samples. replace (filter _ c) with (@nil (family * list sample)); [reflexivity|]. symmetry. clear -E M.
    assert (NI : ~ In f (map fst c)) by (intros I; apply M, seen_in in I; congruence). clear -NI.
    induction c as [|[g t] c IH]; [reflexivity|]. cbn [filter fst]. cbn in NI. destruct (family_eqb g f) eqn:E; [apply family_eqb_eq in E; tauto|]. apply IH. tauto.
Qed.

(** ** The order *)

Definition shape (l s b : bool) : list family :=
  F_WORKERS :: (if l then listener_metric_families else []) ++ (if s then service_metric_families else []) ++ (if b then backend_metric_families else []).

Lemma adds_app : forall l a b, adds l (a ++ b) = adds (adds l a) b.
Proof. intros. apply fold_left_app. Qed.

Lemma back_shape : forall st pfx xs l b i, exists b', adds (shape l true b) (map fst (blocks "backend" (stats_calls st) pfx i xs)) = shape l true b'.
Proof.
  intros st pfx. induction xs as [|x xs IH]; intros l b i; [exists b; reflexivity|]. unfold blocks. cbn [number_from map concat]. rewrite map_app, adds_app.
  change (map fst (stats_calls st _ _)) with backend_metric_families.
  replace (adds (shape l true b) backend_metric_families) with (shape l true true) by (destruct l, b; reflexivity). apply IH.
Qed.
Lemma serv_shape : forall st pfx sv l s b, (b = true -> s = true) -> exists b', adds (shape l s b) (map fst (service_calls st pfx sv)) = shape l true b'.
Proof.
  intros st pfx sv l s b H. unfold service_calls. rewrite map_app, adds_app. cbn [map fst].
  replace (adds (shape l s b) [F_SERVICE_INFO; F_SERVICE_ENABLED; F_BACKENDS]) with (shape l true b) by (destruct l, s, b; try reflexivity; discriminate (H eq_refl)).
  apply back_shape.
Qed.
Lemma servs_shape : forall st pfx xs l s b i, (b = true -> s = true) -> exists s' b', (b' = true -> s' = true) /\ adds (shape l s b) (map fst (blocks "service" (service_calls st) pfx i xs)) = shape l s' b'.
Proof.
  intros st pfx. induction xs as [|x xs IH]; intros l s b i H; [exists s, b; split; [exact H|reflexivity]|]. unfold blocks. cbn [number_from map concat fst snd]. rewrite map_app, adds_app.
  destruct (serv_shape st (pfx ++ [index "service" i]) x l s b H) as (b' & ->). apply IH. reflexivity.
Qed.
Lemma lstn_shape : forall st pfx x l s b, (l = false -> s = false /\ b = false) -> (b = true -> s = true) -> exists s' b', (b' = true -> s' = true) /\ adds (shape l s b) (map fst (listener_calls st pfx x)) = shape true s' b'.
Proof.
  intros st pfx x l s b H H'. unfold listener_calls. rewrite map_app, adds_app. cbn [map fst].
  replace (adds (shape l s b) [F_LISTENER_ENABLED; F_LISTENER_INFO]) with (shape true s b); [apply servs_shape, H'|].
  destruct l; [destruct s, b; reflexivity|]. destruct (H eq_refl) as [-> ->]. reflexivity.
Qed.
Lemma lstns_shape : forall st pfx xs l s b i, (l = false -> s = false /\ b = false) -> (b = true -> s = true) -> exists l' s' b', (b' = true -> s' = true) /\ adds (shape l s b) (map fst (blocks "listener" (listener_calls st) pfx i xs)) = shape l' s' b'.
Proof.
  intros st pfx. induction xs as [|x xs IH]; intros l s b i H H'; [exists l, s, b; split; [exact H'|reflexivity]|]. unfold blocks. cbn [number_from map concat fst snd]. rewrite map_app, adds_app.
  destruct (lstn_shape st (pfx ++ [index "listener" i]) x l s b H H') as (s' & b' & H2 & ->). apply IH; [discriminate|exact H2].
Qed.
Lemma all_shape : forall s, exists l sv b, adds [] (map fst (all_calls s)) = shape l sv b.
Proof.
  intros s. unfold all_calls. rewrite !map_app, !adds_app. cbn [map fst]. change (adds [] [F_WORKERS]) with (shape false false false).
  destruct (lstns_shape s [] (st_listeners s) false false false 0) as (l & sv & b & H & ->); [auto|discriminate|].
  destruct (servs_shape s [] (st_services s) l sv b 0 H) as (s' & b' & _ & ->). eauto.
Qed.

Lemma filter_map_absent : forall (c : calls) (keep : family -> bool) l, (forall f, In f l -> keep f = false -> samples c f = []) ->
  filter non_empty (map (fun f => (f, samples c f)) l) = filter non_empty (map (fun f => (f, samples c f)) (filter keep l)).
Proof.
  intros c keep. induction l as [|f l IH]; intros H; [reflexivity|]. cbn [map filter].
  assert (H' : forall g, In g l -> keep g = false -> samples c g = []) by (intros; apply H; [right|]; assumption).
  destruct (keep f) eqn:K; cbn [map filter].
  - rewrite (IH H'). reflexivity.
  - replace (non_empty (f, samples c f)) with false by (rewrite (H f (or_introl eq_refl) K); reflexivity). apply IH, H'.
Qed.

Lemma expose_table : forall s, (forall f, samples (all_calls s) f = samples_of s f) -> filter non_empty (expose (all_calls s)) = table s.
Proof.
  intros s H. rewrite expose_spec. unfold table.
  transitivity (filter non_empty (map (fun f => (f, samples (all_calls s) f)) families)); [|f_equal; apply map_ext; intros f; rewrite H; reflexivity].
  destruct (adds_nodup (map fst (all_calls s))) as [_ M]. destruct (all_shape s) as (l & sv & b & E). rewrite E in *.
  rewrite (filter_map_absent _ (fun f => seen f (shape l sv b)) families).
  - do 2 f_equal. destruct l, sv, b; reflexivity.
  - intros f _ N. unfold samples. replace (filter _ (all_calls s)) with (@nil (family * list sample)); [reflexivity|]. symmetry.
    assert (NI : ~ In f (map fst (all_calls s))) by (intros I; apply M, seen_in in I; congruence). clear -NI.
    induction (all_calls s) as [|[g t] c IH]; [reflexivity|]. cbn [filter fst]. cbn in NI. destruct (family_eqb g f) eqn:E; [apply family_eqb_eq in E; tauto|]. apply IH. tauto.
Qed.

(** ** The samples *)

Lemma samples_blocks : forall (X : Type) label (block : labels -> X -> calls) pfx xs f,
  samples (blocks label block pfx 0 xs) f = concat (map (fun x => samples (block (pfx ++ [index label (fst x)]) (snd x)) f) (number xs)).
Proof. intros. unfold blocks. rewrite samples_concat, map_map. reflexivity. Qed.
Lemma concat_one : forall (A B : Type) (h : A -> B) l, concat (map (fun x => [h x]) l) = map h l.
Proof. induction l as [|x l IH]; [reflexivity|]. cbn [map concat app]. rewrite IH. reflexivity. Qed.
Lemma concat_map_concat : forall (A B C : Type) (g : B -> list C) (h : A -> list B) l, concat (map g (concat (map h l))) = concat (map (fun x => concat (map g (h x))) l).
Proof. induction l as [|x l IH]; [reflexivity|]. cbn [map concat]. rewrite map_app, concat_app, IH. reflexivity. Qed.
Lemma concat_nil : forall (A B : Type) (l : list A), concat (map (fun _ => @nil B) l) = [].
Proof. induction l; cbn; auto. Qed.

Section Samples.
  Variables (s : state) (f : family).
  Variables (gl : labels -> listener -> list sample) (gs : labels -> service -> list sample) (gb : labels -> backend -> list sample) (w : list sample).
  Hypothesis HB : forall p b, samples (stats_calls s p b) f = gb p b.
  Hypothesis HS : forall p v, samples (firstn 3 (service_calls s p v)) f = gs p v.
  Hypothesis HL : forall p l, samples (firstn 2 (listener_calls s p l)) f = gl p l.
  Hypothesis HW : samples [(F_WORKERS, worker_samples s)] f = w.
  Definition on_backends (x : labels * service) : list (labels * backend) := map (fun y => (fst x ++ [index "backend" (fst y)], snd y)) (number (all_backends (snd x))).
  Definition of_service (x : labels * service) : list sample := gs (fst x) (snd x) ++ concat (map (fun y => gb (fst y) (snd y)) (on_backends x)).
  Definition of_listener (x : labels * listener) : list sample := gl (fst x) (snd x) ++ concat (map of_service (services_in (fst x) (lstn_services (snd x)))).
  Lemma service_samples : forall p v, samples (service_calls s p v) f = of_service (p, v).
  Proof.
    intros p v. unfold service_calls. rewrite samples_app, samples_blocks. unfold of_service. f_equal; [apply (HS p v)|].
    unfold on_backends. rewrite map_map. f_equal. apply map_ext. intros [i b]. apply HB.
  Qed.
  Lemma services_samples : forall p l, samples (blocks "service" (service_calls s) p 0 l) f = concat (map of_service (services_in p l)).
  Proof. intros p l. rewrite samples_blocks. unfold services_in. rewrite map_map. f_equal. apply map_ext. intros [i v]. apply service_samples. Qed.
  Lemma listeners_samples : forall l, samples (blocks "listener" (listener_calls s) [] 0 l) f = concat (map of_listener (map (fun x => ([index "listener" (fst x)], snd x)) (number l))).
  Proof.
    intros l. rewrite samples_blocks, map_map. f_equal. apply map_ext. intros [i x]. cbn [fst snd app]. unfold listener_calls. rewrite samples_app, services_samples. unfold of_listener. f_equal. apply (HL _ x).
  Qed.
  Lemma all_samples : samples (all_calls s) f = w ++ concat (map of_listener (listeners_of s)) ++ concat (map of_service (services_in [] (st_services s))).
  Proof. unfold all_calls. rewrite !samples_app, HW, listeners_samples, services_samples. reflexivity. Qed.
End Samples.

Lemma only_listeners : forall s f gl, (forall p b, samples (stats_calls s p b) f = []) -> (forall p v, samples (firstn 3 (service_calls s p v)) f = []) ->
  (forall p l, samples (firstn 2 (listener_calls s p l)) f = gl p l) -> samples [(F_WORKERS, worker_samples s)] f = [] ->
  samples (all_calls s) f = concat (map (fun x => gl (fst x) (snd x)) (listeners_of s)).
Proof.
  intros s f gl HB HS HL HW. rewrite (all_samples s f gl (fun _ _ => []) (fun _ _ => []) [] HB HS HL HW).
  assert (X : forall x, of_service (fun _ _ => []) (fun _ _ => []) x = []) by (intros x; unfold of_service; rewrite concat_nil; reflexivity).
  rewrite (map_ext _ (fun _ => []) X (services_in [] _)), concat_nil, app_nil_r. cbn [app]. f_equal. apply map_ext. intros x. unfold of_listener.
  rewrite (map_ext _ (fun _ => []) X), concat_nil, app_nil_r. reflexivity.
Qed.
Lemma only_services : forall s f gs, (forall p b, samples (stats_calls s p b) f = []) -> (forall p v, samples (firstn 3 (service_calls s p v)) f = gs p v) ->
  (forall p l, samples (firstn 2 (listener_calls s p l)) f = []) -> samples [(F_WORKERS, worker_samples s)] f = [] ->
  samples (all_calls s) f = concat (map (fun x => gs (fst x) (snd x)) (services_of s)).
Proof.
  intros s f gs HB HS HL HW. rewrite (all_samples s f (fun _ _ => []) gs (fun _ _ => []) [] HB HS HL HW).
  assert (X : forall x, of_service gs (fun _ _ => []) x = gs (fst x) (snd x)) by (intros x; unfold of_service; rewrite concat_nil, app_nil_r; reflexivity).
  unfold services_of. rewrite map_app, concat_app, concat_map_concat. cbn [app]. f_equal; f_equal.
  - apply map_ext. intros x. unfold of_listener. cbn [app]. f_equal. apply map_ext, X.
  - apply map_ext, X.
Qed.
Lemma only_backends : forall s f gb, (forall p b, samples (stats_calls s p b) f = gb p b) -> (forall p v, samples (firstn 3 (service_calls s p v)) f = []) ->
  (forall p l, samples (firstn 2 (listener_calls s p l)) f = []) -> samples [(F_WORKERS, worker_samples s)] f = [] ->
  samples (all_calls s) f = concat (map (fun x => gb (fst x) (snd x)) (backends_of s)).
Proof.
  intros s f gb HB HS HL HW. rewrite (all_samples s f (fun _ _ => []) (fun _ _ => []) gb [] HB HS HL HW).
  unfold backends_of, services_of. rewrite concat_map_concat, map_app, concat_app, concat_map_concat. cbn [app]. f_equal. 
Qed.

Ltac samp := intros; cbn [firstn service_calls listener_calls stats_calls app]; unfold samples; cbn [filter family_eqb fst snd map concat]; rewrite ?app_nil_r; reflexivity.
Lemma samples_ok : forall s f, samples (all_calls s) f = samples_of s f.
Proof.
  intros s f. destruct f; cbn [samples_of].
  - rewrite (all_samples s F_WORKERS (fun _ _ => []) (fun _ _ => []) (fun _ _ => []) (worker_samples s)) by samp.
    assert (X : forall x, of_service (fun _ _ => []) (fun _ _ => []) x = []) by (intros x; unfold of_service; rewrite concat_nil; reflexivity).
    assert (Y : forall x, of_listener (fun _ _ => []) (fun _ _ => []) (fun _ _ => []) x = []) by (intros x; unfold of_listener; rewrite (map_ext _ (fun _ => []) X), concat_nil; reflexivity).
    rewrite (map_ext _ (fun _ => []) X), (map_ext _ (fun _ => []) Y), !concat_nil, !app_nil_r. reflexivity.
  - rewrite (only_listeners s _ (fun p l => [mkSample p (one (negb (lstn_disabled l)))])) by samp. apply (concat_one _ _ (fun x => mkSample (fst x) (one (negb (lstn_disabled (snd x)))))).
  - erewrite only_listeners; [|samp|samp|intros p l; cbn [firstn listener_calls app]; unfold samples; cbn [filter family_eqb fst snd map concat]; rewrite app_nil_r; reflexivity|samp]. apply concat_one.
  - erewrite only_services; [|samp|intros p l; cbn [firstn service_calls app]; unfold samples; cbn [filter family_eqb fst snd map concat]; rewrite app_nil_r; reflexivity|samp|samp]. apply concat_one.
  - erewrite only_services; [|samp|intros p l; cbn [firstn service_calls app]; unfold samples; cbn [filter family_eqb fst snd map concat]; rewrite app_nil_r; reflexivity|samp|samp]. apply concat_one.
  - erewrite only_services; [|samp|intros p l; cbn [firstn service_calls app]; unfold samples; cbn [filter family_eqb fst snd concat]; rewrite app_nil_r; reflexivity|samp|samp]. reflexivity.
  - erewrite only_backends; [|intros p l; unfold stats_calls, samples; cbn [filter family_eqb fst snd map concat]; rewrite app_nil_r; reflexivity|samp|samp|samp]. reflexivity.
  - erewrite only_backends; [|intros p l; unfold stats_calls, samples; cbn [filter family_eqb fst snd map concat]; rewrite app_nil_r; reflexivity|samp|samp|samp].
    f_equal. apply map_ext. intros [p b]. cbn [fst snd]. destruct (is_matrix (be_type b)); reflexivity.
  - erewrite only_backends; [|intros p l; unfold stats_calls, samples; cbn [filter family_eqb fst snd map concat]; rewrite app_nil_r; reflexivity|samp|samp|samp].
    f_equal. apply map_ext. intros [p b]. cbn [fst snd]. destruct (is_matrix (be_type b)); reflexivity.
  - erewrite only_backends; [|intros p l; unfold stats_calls, samples; cbn [filter family_eqb fst snd map concat]; rewrite app_nil_r; reflexivity|samp|samp|samp].
    f_equal. apply map_ext. intros [p b]. cbn [fst snd]. destruct (is_matrix (be_type b)); reflexivity.
Qed.
Lemma table_ok : forall s, filter non_empty (expose (all_calls s)) = table s.
Proof. intros s. apply expose_table, samples_ok. Qed.

(** ** Numbers *)

Lemma value_app : forall a b n, LogSpec.value (a ++ b) n = LogSpec.value b (LogSpec.value a n).
Proof. induction a as [|c a IH]; intros b n; [reflexivity|]. cbn [app LogSpec.value]. apply IH. Qed.
Lemma decimal_code : forall c d, ClenSpec.decimal c d -> code c = 48 + d /\ 0 <= d <= 9.
Proof. 
  intros c d (P & E). replace d with (Z.of_nat (Z.to_nat d)) by lia. generalize dependent (Z.to_nat d). intros i E.
  do 10 (destruct i as [|i]; [injection E as <-; split; [reflexivity|lia]|]). destruct i; discriminate.
Qed.
Lemma numeral_value : forall s n, ClenSpec.numeral ClenSpec.decimal 10 s n -> s <> [] /\ Forall (fun c => 48 <= code c <= 57) s /\ LogSpec.value s 0 = n.
Proof.
  intros s n N. induction N as [c d D|s v c d N (H1 & H2 & H3) D]; apply decimal_code in D; destruct D as [D1 D2].
  - split; [discriminate|]. split; [constructor; [lia|constructor]|]. cbn [LogSpec.value]. lia.
  - split; [destruct s; discriminate|]. split; [apply Forall_app; split; [exact H2|constructor; [lia|constructor]]|]. rewrite value_app, H3. cbn [LogSpec.value]. lia.
Qed.
Lemma fmt_decimal : forall n, 0 <= n -> LogSpec.decimal n (LogModel.fmt_ld n).
Proof.
  intros n H. destruct (numeral_value _ _ (ReplyProofs.fmt_numeral n H)) as (N & F & V). destruct (LogProofs.decimal_w_strip _ n N F V) as (k & s' & E & D).
  rewrite (LogProofs.decimal_fmt n s' H D). exact D.
Qed.
Lemma fmt_text : forall n, decimal_text (LogModel.fmt_ld n) n.
Proof.
  intros n. unfold decimal_text. destruct (Z.ltb_spec n 0) as [H|H]; [right|left; split; [exact H|apply fmt_decimal, H]]. split; [exact H|].
  assert (P : 0 <= - n) by lia. pose proof (fmt_decimal (- n) P) as D. unfold LogModel.fmt_ld in *. destruct (Z.ltb_spec (- n) 0); [lia|]. destruct (Z.ltb_spec n 0); [|lia].
  eexists. split; [reflexivity|exact D].
Qed.
Lemma index_decimal : forall w i, LogSpec.decimal (Z.of_nat i) (snd (index w i)).
Proof. intros w i. apply fmt_decimal. lia. Qed.

(** ** The text *)

Definition plain (l : labels) : Prop := Forall (fun p => label_name (fst p) /\ simple (snd p)) l.

Lemma simple_value : forall v, simple v -> value_text v v.
Proof.
  induction v as [|c v IH]; intros (Q & B & L); [constructor|]. cbn in Q, B, L. constructor; try (intros ->; tauto). apply IH. unfold simple. tauto.
Qed.
Lemma labels_ok : forall l, l <> [] -> plain l -> labels_text (format_labels l) l.
Proof.
  induction l as [|[n v] l IH]; intros N P; [contradiction|]. inversion P as [|? ? (P1 & P2) P3]; subst. cbn [fst snd] in *. destruct l as [|y l].
  - cbn [format_labels app]. apply (lt_one n v v P1 (simple_value v P2)).
  - remember (y :: l) as m eqn:M. replace (format_labels ((n, v) :: m)) with (n ++ "="%char :: QUOTE :: v ++ QUOTE :: ","%char :: format_labels m) by (subst m; reflexivity).
    apply lt_more; [exact P1|apply simple_value, P2|]. apply IH; [subst; discriminate|exact P3].
Qed.
Lemma sample_ok : forall name s, plain (s_labels s) -> sample_line (lit name) (format_sample name s) s.
Proof.
  intros name [l n] P. cbn [s_labels] in P. unfold format_sample. cbn [s_labels s_number]. destruct l as [|y l].
  - apply (sl_bare (lit name) _ n (fmt_text n)).
  - replace (lit name ++ _) with (lit name ++ "{"%char :: format_labels (y :: l) ++ "}"%char :: " "%char :: LogModel.fmt_ld n ++ [LF]); [|rewrite <- !app_assoc; reflexivity].
    apply sl_labels; [apply labels_ok; [discriminate|exact P]|apply fmt_text].
Qed.
Lemma samples_text : forall name l, Forall (fun s => plain (s_labels s)) l -> sample_lines (lit name) (concat (map (format_sample name) l)) l.
Proof. induction 1; cbn [map concat]; constructor; [apply sample_ok; assumption|assumption]. Qed.

Lemma format_header : forall f l, l <> [] -> format_metric (f, l) = header f ++ concat (map (format_sample (d_name (describe f))) l).
Proof.
  intros f l N. unfold format_metric, header. cbn [fst snd]. destruct l as [|x l]; [contradiction|]. remember (concat (map _ (x :: l))) as r eqn:R. clear R.
  destruct (describe f) as [n t u h]. cbn [d_name d_type d_unit d_help]. destruct u as [u|]; rewrite <- !app_assoc; reflexivity.
Qed.
Lemma format_filter : forall e, exposition_format e = exposition_format (filter non_empty e).
Proof.
  intros e. unfold exposition_format. f_equal. induction e as [|[f l] e IH]; [reflexivity|]. cbn [map concat filter non_empty snd]. destruct l as [|x l]; [exact IH|].
  cbn [map concat]. rewrite IH. reflexivity.
Qed.
Lemma format_ok : forall e, Forall (fun m => non_empty m = true /\ Forall (fun s => plain (s_labels s)) (snd m)) e -> metrics_text (exposition_format e) e.
Proof.
  induction 1 as [|[f l] e [H1 H2] _ IH]; [constructor|]. cbn [snd] in H2. assert (N : l <> []) by (intros ->; discriminate).
  unfold exposition_format in *. cbn [map concat]. rewrite format_header by exact N. rewrite <- !app_assoc. apply mt_cons; [exact N|apply samples_text, H2|exact IH].
Qed.

(** *** The labels *)

Lemma name_ok : forall n, forallb (fun c => existsb (Ascii.eqb c) (lit "abcdefghijklmnopqrstuvwxyzABCDEFGHIJKLMNOPQRSTUVWXYZ0123456789_")) (lit n) = true -> lit n <> [] -> label_name (lit n).
Proof.
  intros n H N. split; [exact N|]. apply Forall_forall. intros c I. rewrite forallb_forall in H. specialize (H c I). apply existsb_exists in H. destruct H as (d & D & E).
  apply Ascii.eqb_eq in E. subst d. exact D.
Qed.
Lemma digits_simple : forall n, simple (LogModel.fmt_ld (Z.of_nat n)).
Proof.
  intros n. destruct (fmt_decimal (Z.of_nat n)) as (_ & F & _); [lia|]. rewrite Forall_forall in F.
  unfold simple, QUOTE. repeat split; intros I; apply F in I; vm_compute in I; destruct I as [X Y]; first [apply X; reflexivity|apply Y; reflexivity].
Qed.
Lemma lit_simple : forall v, forallb (fun c => negb (Ascii.eqb c QUOTE) && negb (Ascii.eqb c "\"%char) && negb (Ascii.eqb c LF)) (lit v) = true -> simple (lit v).
Proof.
  intros v H. rewrite forallb_forall in H. repeat split; intros I; apply H in I; vm_compute in I; discriminate.
Qed.
Ltac lname := apply name_ok; [vm_compute; reflexivity|discriminate].
Ltac lsimple := apply lit_simple; vm_compute; reflexivity.
Lemma index_plain : forall w i, w = "listener" \/ w = "service" \/ w = "backend" -> label_name (fst (index w i)) /\ simple (snd (index w i)).
Proof. intros w i H. split; [|apply digits_simple]. destruct H as [->|[->| ->]]; lname. Qed.
Lemma plain_app : forall a b, plain a -> plain b -> plain (a ++ b).
Proof. intros a b A B. apply Forall_app. split; assumption. Qed.
Lemma plain_index : forall p w i, plain p -> w = "listener" \/ w = "service" \/ w = "backend" -> plain (p ++ [index w i]).
Proof. intros p w i P H. apply plain_app; [exact P|]. constructor; [apply index_plain, H|constructor]. Qed.

Lemma in_number : forall (A : Type) (l : list A) i x, In x (number_from i l) -> In (snd x) l.
Proof. induction l as [|a l IH]; intros i x I; [destruct I|]. destruct I as [<-|I]; [left; reflexivity|right; apply (IH _ _ I)]. Qed.
Lemma listeners_in : forall s p l, In (p, l) (listeners_of s) -> plain p /\ In l (st_listeners s).
Proof.
  intros s p l I. unfold listeners_of in I. apply in_map_iff in I. destruct I as ((i & x) & [= <- <-] & I). cbn [snd fst]. split; [apply (plain_index []); [constructor|auto]|].
  apply (in_number _ _ _ _ I).
Qed.
Lemma services_in_in : forall q l p v, In (p, v) (services_in q l) -> plain q -> plain p /\ In v l.
Proof.
  intros q l p v I Q. unfold services_in in I. apply in_map_iff in I. destruct I as ((i & x) & [= <- <-] & I). cbn [snd fst]. split; [apply plain_index; [exact Q|auto]|]. apply (in_number _ _ _ _ I).
Qed.
Lemma services_all_in : forall s p v, In (p, v) (services_of s) -> plain p /\ In v (services_all s).
Proof.
  intros s p v I. unfold services_of in I. unfold services_all. apply in_app_or in I. destruct I as [I|I].
  - apply in_concat in I. destruct I as (l & L & I). apply in_map_iff in L. destruct L as ((q & x) & <- & L). apply listeners_in in L. destruct L as [Q L].
    destruct (services_in_in _ _ _ _ I Q) as [P V]. split; [exact P|]. apply in_or_app. left. apply in_concat. exists (lstn_services x). split; [apply in_map, L|exact V].
  - destruct (services_in_in _ _ _ _ I) as [P V]; [constructor|]. split; [exact P|]. apply in_or_app. right. exact V.
Qed.
Lemma backends_in : forall s p b, In (p, b) (backends_of s) -> plain p.
Proof.
  intros s p b I. unfold backends_of in I. apply in_concat in I. destruct I as (l & L & I). apply in_map_iff in L. destruct L as ((q & v) & <- & L). apply services_all_in in L.
  apply in_map_iff in I. destruct I as ((i & x) & [= <- <-] & I). apply plain_index; [apply L|auto].
Qed.

Lemma Forall_concat : forall (A : Type) (P : A -> Prop) l, Forall (Forall P) l -> Forall P (concat l).
Proof. induction 1; cbn [concat]; [constructor|apply Forall_app; split; assumption]. Qed.
Lemma samples_plain : forall s f, simple_names s -> Forall (fun x => plain (s_labels x)) (samples_of s f).
Proof.
  intros s f [SL SV].
  destruct f; cbn [samples_of].
  - cbn [map fst snd]. repeat (apply Forall_cons; [cbn [s_labels]; apply Forall_cons; [cbn [fst snd]; split; [lname|lsimple]|constructor]|]). constructor.
  - apply Forall_forall. intros x I. apply in_map_iff in I. destruct I as ((p & l) & <- & I). apply listeners_in in I. apply I.
  - apply Forall_forall. intros x I. apply in_map_iff in I. destruct I as ((p & l) & <- & I). apply listeners_in in I. destruct I as [P I]. cbn [s_labels fst snd].
    apply plain_app; [exact P|]. destruct (SL l I) as [S1 S2]. repeat (constructor; [cbn [fst snd]; split; [lname|]|]); [exact S1|exact S2| |constructor]. destruct (lstn_https l); lsimple.
  - apply Forall_forall. intros x I. apply in_map_iff in I. destruct I as ((p & v) & <- & I). apply services_all_in in I. destruct I as [P I]. cbn [s_labels fst snd].
    apply plain_app; [exact P|]. constructor; [cbn [fst snd]; split; [lname|apply SV, I]|constructor].
  - apply Forall_forall. intros x I. apply in_map_iff in I. destruct I as ((p & v) & <- & I). apply services_all_in in I. apply I.
  - apply Forall_concat, Forall_forall. intros x I. apply in_map_iff in I. destruct I as ((p & v) & <- & I). apply services_all_in in I. destruct I as [P I]. cbn [map fst snd].
    repeat (apply Forall_cons; [cbn [s_labels]; apply plain_app; [exact P|]; constructor; [cbn [fst snd]; split; [lname|lsimple]|constructor]|]). constructor.
  - apply Forall_concat, Forall_forall. intros x I. apply in_map_iff in I. destruct I as ((p & v) & <- & I). apply backends_in in I. cbn [map fst snd].
    repeat (apply Forall_cons; [cbn [s_labels]; apply plain_app; [exact I|]; constructor; [cbn [fst snd]; split; [lname|lsimple]|constructor]|]). constructor.
  - apply Forall_concat, Forall_forall. intros x I. apply in_map_iff in I. destruct I as ((p & v) & <- & I). apply backends_in in I. cbn [fst snd].
    destruct (is_matrix (be_type v)), (st_stats s v) as [[n [[a d]|]]|]; cbn [option_map opt]; repeat constructor; exact I.
  - apply Forall_concat, Forall_forall. intros x I. apply in_map_iff in I. destruct I as ((p & v) & <- & I). apply backends_in in I. cbn [fst snd].
    destruct (is_matrix (be_type v)), (st_stats s v) as [[n [[a d]|]]|]; cbn [option_map opt]; repeat constructor; exact I.
  - apply Forall_concat, Forall_forall. intros x I. apply in_map_iff in I. destruct I as ((p & v) & <- & I). apply backends_in in I. cbn [fst snd].
    destruct (is_matrix (be_type v)), (st_stats s v) as [[n [[a d]|]]|]; cbn [option_map opt]; repeat constructor; exact I.
Qed.

Lemma table_text : forall s, simple_names s -> metrics_text (exposition_format (expose (all_calls s))) (table s).
Proof.
  intros s N. rewrite format_filter, table_ok. apply format_ok. apply Forall_forall. intros (f & l) I. unfold table in I. apply filter_In in I. destruct I as [I E]. split; [exact E|].
  apply in_map_iff in I. destruct I as (g & [= <- <-] & _). apply samples_plain, N.
Qed.

(** ** The text can be read in one way only *)

Lemma value_split : forall t v, value_text t v -> forall t' v' r r', value_text t' v' -> t ++ QUOTE :: r = t' ++ QUOTE :: r' -> v = v' /\ r = r'.
Proof.
  assert (QB : QUOTE <> "\"%char) by discriminate. assert (QN : QUOTE <> "n"%char) by discriminate. assert (BN : "\"%char <> "n"%char) by discriminate.
  induction 1 as [|c t v C1 C2 C3 _ IH|t v _ IH|t v _ IH|t v _ IH]; intros t' v' r r' H' E; destruct H' as [|c' t' v' D1 D2 D3 H'|t' v' H'|t' v' H'|t' v' H']; cbn [app] in E; try (injection E; intros; congruence).
  - injection E as <-. auto.
  - injection E as <- E. destruct (IH _ _ _ _ H' E) as [-> ->]. auto.
  - injection E as E. destruct (IH _ _ _ _ H' E) as [-> ->]. auto.
  - injection E as E. destruct (IH _ _ _ _ H' E) as [-> ->]. auto.
  - injection E as E. destruct (IH _ _ _ _ H' E) as [-> ->]. auto.
Qed.
Lemma name_split : forall n n' r r', Forall name_char n -> Forall name_char n' -> n ++ "="%char :: r = n' ++ "="%char :: r' -> n = n' /\ r = r'.
Proof.
  assert (X : ~ name_char "="%char) by (intros H; apply (Forall_forall (fun c => c <> "="%char) (lit "abcdefghijklmnopqrstuvwxyzABCDEFGHIJKLMNOPQRSTUVWXYZ0123456789_")) in H; [congruence|repeat constructor; discriminate]).
  induction n as [|c n IH]; intros n' r r' N N' E; destruct n' as [|c' n']; cbn [app] in E.
  - injection E as ->. auto.
  - injection E as <- _. inversion N'; subst. contradiction.
  - injection E as -> _. inversion N; subst. contradiction.
  - injection E as -> E. inversion N; inversion N'; subst. destruct (IH n' r r') as [-> ->]; auto.
Qed.
Lemma labels_split : forall t l, labels_text t l -> forall t' l' r r', labels_text t' l' -> t ++ "}"%char :: r = t' ++ "}"%char :: r' -> l = l' /\ r = r'.
Proof.
  induction 1 as [n t v N V|n t v u l N V _ IH]; intros t' l' r r' H' E; destruct H' as [n' t' v' N' V'|n' t' v' u' l' N' V' U']; rewrite <- !app_assoc in E; cbn [app] in E;
    apply name_split in E; try apply N; try apply N'; destruct E as [-> E]; injection E as E; rewrite <- !app_assoc in E; cbn [app] in E; apply (value_split _ _ V _ _ _ _ V') in E; destruct E as [-> E]; try discriminate.
  - injection E as ->. auto.
  - injection E as E. destruct (IH _ _ _ _ U' E) as [-> ->]. auto.
Qed.
Lemma labels_start : forall t l, labels_text t l -> l <> [].
Proof. destruct 1; discriminate. Qed.

Lemma decimal_split : forall d n d' n' r r', decimal_text d n -> decimal_text d' n' -> d ++ LF :: r = d' ++ LF :: r' -> n = n' /\ r = r'.
Proof.
  assert (X : forall a b r r', ~ In LF a -> ~ In LF b -> a ++ LF :: r = b ++ LF :: r' -> a = b /\ r = r').
  { induction a as [|c a IH]; intros b r r' A B E; destruct b as [|c' b]; cbn [app] in E; cbn in A, B.
    - injection E as ->. auto.
    - injection E as <- _. tauto.
    - injection E as -> _. tauto.
    - injection E as -> E. destruct (IH b r r') as [-> ->]; auto. }
  assert (D : forall n d, LogSpec.decimal n d -> Forall (fun c => 48 <= code c <= 57) d) by (intros n d (_ & F & _); exact F).
  assert (Y : forall d, Forall (fun c => 48 <= code c <= 57) d -> ~ In LF d /\ ~ In "-"%char d).
  { intros d F. rewrite Forall_forall in F. split; intros I; apply F in I; vm_compute in I; destruct I as [P Q]; first [apply P; reflexivity|apply Q; reflexivity]. }
  assert (V : forall n n' d, LogSpec.decimal n d -> LogSpec.decimal n' d -> n = n') by (intros n n' d (_ & _ & <- & _) (_ & _ & <- & _); reflexivity).
  intros d n d' n' r r' [(P & H)|(P & e & -> & H)] [(P' & H')|(P' & e' & -> & H')] E.
  - apply X in E; [|apply Y; eapply D; eassumption..]. destruct E as [<- ->]. split; [eapply V; eassumption|reflexivity].
  - apply X in E; [|apply Y; eapply D; eassumption|intros [K|K]; [discriminate|revert K; apply Y; eapply D; eassumption]]. destruct E as [-> _]. exfalso.
    apply D in H. apply Y in H. destruct H as [_ H]. apply H. left. reflexivity.
  - apply X in E; [|intros [K|K]; [discriminate|revert K; apply Y; eapply D; eassumption]|apply Y; eapply D; eassumption]. destruct E as [<- _]. exfalso.
    apply D in H'. apply Y in H'. destruct H' as [_ H']. apply H'. left. reflexivity.
  - cbn [app] in E. injection E as E. apply X in E; [|apply Y; eapply D; eassumption..]. destruct E as [<- ->]. split; [pose proof (V _ _ _ H H'); lia|reflexivity].
Qed.
Lemma line_split : forall name t s t' s' r r', sample_line name t s -> sample_line name t' s' -> t ++ r = t' ++ r' -> s = s' /\ r = r'.
Proof.
  intros name t s t' s' r r' H H' E. destruct H as [d n D|t l d n T D], H' as [d' n' D'|t' l' d' n' T' D']; rewrite <- !app_assoc in E; apply app_inv_head in E; cbn [app] in E; try discriminate; injection E as E.
  - rewrite <- !app_assoc in E. destruct (decimal_split _ _ _ _ _ _ D D' E) as [-> ->]. auto.
  - rewrite <- !app_assoc in E. cbn [app] in E. destruct (labels_split _ _ T _ _ _ _ T' E) as [-> E']. injection E' as E'. rewrite <- !app_assoc in E'.
    destruct (decimal_split _ _ _ _ _ _ D D' E') as [-> ->]. auto.
Qed.

Definition starts_hash (r : bytes) : Prop := exists r', r = "#"%char :: r'.
Definition family_name (f : family) : bytes := lit (d_name (describe f)).
Lemma family_first : forall f, exists r, family_name f = "p"%char :: r.
Proof. destruct f; eexists; reflexivity. Qed.
Lemma line_first : forall f t s r, sample_line (family_name f) t s -> exists r', t ++ r = "p"%char :: r'.
Proof. intros f t s r H. destruct (family_first f) as (q & Q). destruct H; rewrite Q; eexists; reflexivity. Qed.
Lemma lines_split : forall f t ss, sample_lines (family_name f) t ss -> forall t' ss' r r', sample_lines (family_name f) t' ss' -> starts_hash r -> starts_hash r' -> t ++ r = t' ++ r' -> ss = ss' /\ r = r'.
Proof.
  intros f. induction 1 as [|t s ts ss H _ IH]; intros t' ss' r r' H' (q & R) (q' & R') E; destruct H' as [|t' s' ts' ss' H' HS]; cbn [app] in E.
  - auto.
  - rewrite <- app_assoc in E. destruct (line_first f _ _ (ts' ++ r') H') as (z & Z). rewrite Z in E. subst. discriminate.
  - rewrite <- app_assoc in E. destruct (line_first f _ _ (ts ++ r) H) as (z & Z). rewrite Z in E. subst. discriminate.
  - rewrite <- !app_assoc in E. destruct (line_split _ _ _ _ _ _ _ H H' E) as [-> E']. destruct (IH _ _ r r' HS) as [-> ->]; [eexists; eassumption|eexists; eassumption|exact E'|]. auto.
Qed.

Definition tag (f : family) : bytes := firstn 40 (header f).
Lemma header_tag : forall f r, firstn 40 (header f ++ r) = tag f.
Proof. intros f r. rewrite firstn_app. replace (40 - length (header f))%nat with 0%nat by (destruct f; vm_compute; reflexivity). cbn [firstn]. rewrite app_nil_r. reflexivity. Qed.
Lemma tag_inj : forall f g, tag f = tag g -> f = g.
Proof. intros f g H. destruct f, g; try reflexivity; vm_compute in H; discriminate. Qed.
Lemma header_split : forall f g r r', header f ++ r = header g ++ r' -> f = g /\ r = r'.
Proof.
  intros f g r r' E. assert (f = g) by (apply tag_inj; rewrite <- (header_tag f r), E; apply header_tag). subst g. split; [reflexivity|]. apply app_inv_head in E. exact E.
Qed.
Lemma header_first : forall f r, exists q, header f ++ r = "#"%char :: q.
Proof. intros f r. unfold header. rewrite <- !app_assoc. eexists. reflexivity. Qed.
Lemma metrics_first : forall t ms, metrics_text t ms -> starts_hash t.
Proof. destruct 1; [eexists; reflexivity|]. apply header_first. Qed.
Lemma metrics_inv : forall t ms, metrics_text t ms -> (ms = [] /\ t = lit "# EOF" ++ [LF]) \/
  exists f t' ss u ms', ms = (f, ss) :: ms' /\ t = header f ++ t' ++ u /\ sample_lines (family_name f) t' ss /\ metrics_text u ms'.
Proof. destruct 1; [left; auto|right; repeat eexists; eassumption]. Qed.
Lemma not_eof : forall f r, header f ++ r <> lit "# EOF" ++ [LF].
Proof. intros f r E. assert (K : tag f = firstn 40 (lit "# EOF" ++ [LF])) by (rewrite <- E; symmetry; apply header_tag). destruct f; vm_compute in K; discriminate. Qed.
Lemma metrics_unique : forall t ms, metrics_text t ms -> forall ms', metrics_text t ms' -> ms = ms'.
Proof.
  induction 1 as [|f t ss u ms N S M IH]; intros ms' H'; apply metrics_inv in H'; destruct H' as [(-> & E)|(g & t' & ss' & u' & ms'' & -> & E & S' & M')].
  - reflexivity.
  - symmetry in E. apply not_eof in E. destruct E.
  - apply not_eof in E. destruct E.
  - apply header_split in E. destruct E as [-> E]. destruct (lines_split g _ _ S _ _ _ _ S' (metrics_first _ _ M) (metrics_first _ _ M') E) as [-> ->]. f_equal. apply IH, M'.
Qed.

(** ** Samples are told apart by their labels *)

Lemma NoDup_app2 : forall (A : Type) (a b : list A), NoDup a -> NoDup b -> (forall x, In x a -> ~ In x b) -> NoDup (a ++ b).
Proof. induction a as [|x a IH]; intros b A1 B D; [exact B|]. inversion A1 as [|? ? N1 N2]; subst. cbn [app]. constructor; [rewrite in_app_iff; intros [I|I]; [contradiction|apply (D x); [left; reflexivity|exact I]]|]. apply IH; [exact N2|exact B|]. intros y I. apply D. right. exact I. Qed.

Lemma nodup_concat : forall (A B H K : Type) (h : A -> H) (k : B -> K) (g : A -> list B) l, NoDup (map h l) -> (forall x, In x l -> NoDup (map k (g x))) ->
  (forall x y a b, In x l -> In y l -> In a (g x) -> In b (g y) -> k a = k b -> h x = h y) -> NoDup (map k (concat (map g l))).
Proof.
  intros A B H K h k g. induction l as [|x l IH]; intros N G D; [constructor|]. cbn [map concat] in *. inversion N as [|? ? N1 N2]; subst. rewrite map_app. apply NoDup_app2.
  - apply G. left. reflexivity.
  - apply IH; [exact N2|intros y I; apply G; right; exact I|intros y z a b Y Z; apply D; right; assumption].
  - intros z I J. apply in_map_iff in I. destruct I as (a & <- & I). apply in_map_iff in J. destruct J as (b & E & J). apply in_concat in J. destruct J as (m & M & J).
    apply in_map_iff in M. destruct M as (y & <- & Y). apply N1. rewrite (D x y a b); [apply in_map, Y|left; reflexivity|right; exact Y|exact I|exact J|symmetry; exact E].
Qed.
Lemma snoc_inj : forall (A : Type) (a b : list A) x y, a ++ [x] = b ++ [y] -> a = b /\ x = y.
Proof. intros A a b x y H. apply app_inj_tail, H. Qed.
Lemma suffix_inj : forall (A : Type) (a b x y : list A), length x = length y -> a ++ x = b ++ y -> a = b /\ x = y.
Proof.
  intros A a b x. revert a b. induction x as [|u x IH] using rev_ind; intros a b y L E.
  - destruct y; [|discriminate]. rewrite !app_nil_r in E. auto.
  - destruct y as [|v y _] using rev_ind; [rewrite app_length in L; cbn in L; lia|]. rewrite !app_assoc in E. apply snoc_inj in E. destruct E as [E ->].
    destruct (IH a b y) as [-> ->]; [rewrite !app_length in L; cbn in L; lia|exact E|]. auto.
Qed.
Lemma index_inj : forall w i j, index w i = index w j -> i = j.
Proof.
  intros w i j E. assert (D : snd (index w i) = snd (index w j)) by (rewrite E; reflexivity). pose proof (index_decimal w i) as (_ & _ & H & _). pose proof (index_decimal w j) as (_ & _ & H' & _).
  rewrite D in H. lia.
Qed.
Lemma number_nodup : forall (A K : Type) (k : nat -> K) (l : list A) i, (forall a b, k a = k b -> a = b) -> NoDup (map (fun x => k (fst x)) (number_from i l)) /\ forall z, In z (map (fun x => k (fst x)) (number_from i l)) -> exists j, (i <= j)%nat /\ z = k j.
Proof.
  intros A K k l i Inj. revert i. induction l as [|x l IH]; intros i; [split; [constructor|intros z []]|]. cbn [number_from map fst]. destruct (IH (S i)) as [N M]. split.
  - constructor; [|exact N]. intros I. apply M in I. destruct I as (j & L & E). apply Inj in E. lia.
  - intros z [<-|I]; [exists i; auto|]. apply M in I. destruct I as (j & L & E). exists j. split; [lia|exact E].
Qed.
Lemma numbered_nodup : forall (A : Type) (p : labels) w (l : list A), NoDup (map fst (map (fun x => (p ++ [index w (fst x)], snd x)) (number l))).
Proof.
  intros A p w l. rewrite map_map. cbn [fst]. apply (number_nodup A labels (fun i => p ++ [index w i]) l 0). intros a b E. apply snoc_inj in E. apply (index_inj w), E.
Qed.
Lemma listeners_nodup : forall s, NoDup (map fst (listeners_of s)).
Proof. intros s. apply (numbered_nodup _ [] "listener"). Qed.
Lemma services_nodup : forall s, NoDup (map fst (services_of s)).
Proof.
  intros s. unfold services_of. rewrite map_app. apply NoDup_app2.
  - apply nodup_concat with (h := fst); [apply listeners_nodup|intros x _; apply numbered_nodup|].
    intros (p & l) (q & m) a b _ _ I J E. unfold services_in in I, J. cbn [fst snd] in *. apply in_map_iff in I. destruct I as ((i & v) & <- & _). apply in_map_iff in J. destruct J as ((j & v') & <- & _).
    cbn [fst] in E. apply snoc_inj in E. apply E.
  - apply numbered_nodup.
  - intros z I J. apply in_map_iff in I. destruct I as ((p & v) & <- & I). apply in_concat in I. destruct I as (m & M & I). apply in_map_iff in M. destruct M as ((q & l) & <- & L).
    unfold listeners_of in L. apply in_map_iff in L. destruct L as ((k & l') & [= <- <-] & _).
    apply in_map_iff in I. destruct I as ((i & v') & [= <- <-] & _). apply in_map_iff in J. destruct J as ((q & w) & E & J). apply in_map_iff in J. destruct J as ((j & w') & [= <- <-] & _). discriminate.
Qed.
Lemma backends_nodup : forall s, NoDup (map fst (backends_of s)).
Proof.
  intros s. unfold backends_of. apply nodup_concat with (h := fst); [apply services_nodup|intros x _; apply numbered_nodup|].
  intros (p & l) (q & m) a b _ _ I J E. cbn [fst snd] in *. apply in_map_iff in I. destruct I as ((i & v) & <- & _). apply in_map_iff in J. destruct J as ((j & v') & <- & _).
  cbn [fst] in E. apply snoc_inj in E. apply E.
Qed.

Lemma suffix_nodup : forall (X : Type) (l : list (labels * X)) k (g : labels * X -> list sample), NoDup (map fst l) ->
  (forall x a, In a (g x) -> exists suf, s_labels a = fst x ++ suf /\ length suf = k) -> (forall x, NoDup (map s_labels (g x))) -> NoDup (map s_labels (concat (map g l))).
Proof.
  intros X l k g N S G. apply nodup_concat with (h := fst); [exact N|intros x _; apply G|]. intros x y a b _ _ A B E. apply S in A. apply S in B.
  destruct A as (u & A & U), B as (v & B & V). rewrite A, B in E. apply suffix_inj in E; [apply E|lia].
Qed.
Lemma one_nodup : forall (X : Type) (l : list (labels * X)) k (suf : X -> labels) (n : X -> Z), NoDup (map fst l) -> (forall x, length (suf x) = k) ->
  NoDup (map s_labels (map (fun x => mkSample (fst x ++ suf (snd x)) (n (snd x))) l)).
Proof.
  intros X l k suf n N K. rewrite <- (concat_one _ _ (fun x => mkSample (fst x ++ suf (snd x)) (n (snd x)))). apply suffix_nodup with (k := k); [exact N| |intros x; constructor; [intros []|constructor]].
  intros x a [<-|[]]. exists (suf (snd x)). split; [reflexivity|apply K].
Qed.
Lemma states_nodup : forall p (l : list (string * Z)), NoDup (map fst l) -> NoDup (map s_labels (map (fun y => mkSample (p ++ [(lit "state", lit (fst y))]) (snd y)) l)).
Proof.
  intros p l N. rewrite map_map. cbn [s_labels]. induction l as [|[u n] l IH]; [constructor|]. cbn [map fst] in *. inversion N as [|? ? N1 N2]; subst. constructor; [|apply IH, N2].
  intros I. apply in_map_iff in I. destruct I as ((v & m) & E & I). cbn [fst] in E. apply snoc_inj in E. destruct E as [_ E]. injection E as E. apply N1.
  assert (LI : forall a b, lit a = lit b -> a = b) by (intros a b H; rewrite <- (string_of_list_ascii_of_string a), <- (string_of_list_ascii_of_string b); unfold lit in H; rewrite H; reflexivity).
  apply LI in E. subst v. apply (in_map fst) in I. exact I.
Qed.

Lemma labels_distinct : forall s f, NoDup (map s_labels (samples_of s f)).
Proof.
  intros s f.
  assert (O : forall (h : backend -> option Z), NoDup (map s_labels (concat (map (fun x => opt (option_map (mkSample (fst x)) (h (snd x)))) (backends_of s))))).
  { intros h. apply suffix_nodup with (k := 0%nat); [apply backends_nodup| |].
    - intros x a I. destruct (h (snd x)) as [z|]; [|destruct I]. destruct I as [<-|[]]. exists []. rewrite app_nil_r. auto.
    - intros x. destruct (h (snd x)) as [z|]; cbn [opt option_map map]; [|constructor]. constructor; [intros []|constructor]. }
  destruct f; cbn [samples_of].
  - cbn [map fst snd s_labels]. apply (NoDup_map_inv (fun l : labels => hd [] (map snd l))). apply nodupb_ok. vm_compute. reflexivity.
  - pose proof (one_nodup _ (listeners_of s) 0 (fun _ => []) (fun l => one (negb (lstn_disabled l))) (listeners_nodup s) ltac:(reflexivity)) as H. rewrite map_map in *. cbn [s_labels] in *. 
    erewrite map_ext in H; [exact H|]. intros x. apply app_nil_r.
  - apply (one_nodup _ (listeners_of s) 3 (fun l => [(lit "name", text_of (lstn_name l)); (lit "address", lstn_address l); (lit "protocol", match lstn_https l with Some _ => lit "https" | None => lit "http" end)]) (fun _ => 1) (listeners_nodup s)). reflexivity.
  - apply (one_nodup _ (services_of s) 1 (fun l => [(lit "name", text_of (svc_name l))]) (fun _ => 1) (services_nodup s)). reflexivity.
  - pose proof (one_nodup _ (services_of s) 0 (fun _ => []) (fun l => one (negb (svc_disabled l))) (services_nodup s) ltac:(reflexivity)) as H. rewrite map_map in *. cbn [s_labels] in *. 
    erewrite map_ext in H; [exact H|]. intros x. apply app_nil_r.
  - apply suffix_nodup with (k := 1%nat); [apply services_nodup| |].
    + intros x a I. apply in_map_iff in I. destruct I as (y & <- & _). eexists. split; [reflexivity|reflexivity].
    + intros x. cbn [map fst snd]. apply (states_nodup (fst x) [("total", how_many (fun _ => true) (snd x)); ("enabled", how_many (fun b => negb (be_disabled b)) (snd x)); ("alive", how_many (fun b => is_alive (be_type b)) (snd x)); ("active", how_many (fun b => negb (be_disabled b) && is_alive (be_type b)) (snd x))]).
      repeat constructor; cbn; intuition discriminate.
  - apply suffix_nodup with (k := 1%nat); [apply backends_nodup| |].
    + intros x a I. apply in_map_iff in I. destruct I as (y & <- & _). eexists. split; [reflexivity|reflexivity].
    + intros x. cbn [map fst snd]. apply (states_nodup (fst x) [("alive", one (is_alive (be_type (snd x)))); ("enabled", one (negb (be_disabled (snd x))))]).
      repeat constructor; cbn; intuition discriminate.
  - specialize (O (fun b => if is_matrix (be_type b) then None else option_map fst (st_stats s b))). match goal with |- NoDup (map s_labels (concat ?m)) => match type of O with NoDup (map s_labels (concat ?m')) => replace m with m'; [exact O|apply map_ext; intros x] end end. destruct (is_matrix _), (st_stats s (snd x)); reflexivity.
  - specialize (O (fun b => if is_matrix (be_type b) then None else match st_stats s b with Some (_, Some (a, _)) => Some a | _ => None end)). match goal with |- NoDup (map s_labels (concat ?m)) => match type of O with NoDup (map s_labels (concat ?m')) => replace m with m'; [exact O|apply map_ext; intros x] end end. destruct (is_matrix _), (st_stats s (snd x)) as [[n [[a d]|]]|]; reflexivity.
  - specialize (O (fun b => if is_matrix (be_type b) then None else match st_stats s b with Some (_, Some (_, d)) => Some d | _ => None end)). match goal with |- NoDup (map s_labels (concat ?m)) => match type of O with NoDup (map s_labels (concat ?m')) => replace m with m'; [exact O|apply map_ext; intros x] end end. destruct (is_matrix _), (st_stats s (snd x)) as [[n [[a d]|]]|]; reflexivity.
Qed.

(** ** The reply *)

Lemma all_ok_served : forall s, all_ok s = true <-> served s.
Proof.
  intros s. unfold all_ok, served, services_all, listener_ok. rewrite andb_true_iff, !forallb_forall.
  assert (K : forall v, service_ok v = true <-> svc_balancers v <> []) by (intros v; unfold service_ok; destruct (svc_balancers v); split; congruence). split.
  - intros [A B] v I. apply K. apply in_app_or in I. destruct I as [I|I]; [|apply B, I]. apply in_concat in I. destruct I as (l & L & I). apply in_map_iff in L. destruct L as (x & <- & L).
    specialize (A x L). rewrite forallb_forall in A. apply A, I.
  - intros H. split.
    + intros l L. apply forallb_forall. intros v I. apply K, H. apply in_or_app. left. apply in_concat. exists (lstn_services l). split; [apply in_map, L|exact I].
    + intros v I. apply K, H. apply in_or_app. right. exact I.
Qed.

Lemma fill_served : forall s core, consistent s -> map fst core = core_names -> served s -> exists v, listing s core = Some v /\ exposition_fill v = Ok (all_calls s).
Proof.
  intros s core C N V. destruct (fill_ok s core C N) as (v & L & F). apply all_ok_served in V. rewrite V in F. eauto.
Qed.
Lemma reply_ok : forall s core version, consistent s -> map fst core = core_names -> served s -> simple_names s ->
  exists r text, metrics_response version (listing s core) = Sent r /\ is_reply version r text /\ metrics_text text (table s).
Proof.
  intros s core version C N V P. destruct (fill_served s core C N V) as (v & L & F). unfold metrics_response. rewrite L, F.
  do 2 eexists. split; [reflexivity|]. split; [|apply table_text, P]. eexists. split; [apply fmt_decimal; lia|]. unfold send_reply. destruct version; reflexivity.
Qed.
Lemma reply_empty : forall s core version, consistent s -> map fst core = core_names -> ~ served s -> metrics_response version (listing s core) = InternalServerError.
Proof.
  intros s core version C N V. destruct (fill_ok s core C N) as (v & L & F). unfold metrics_response. rewrite L, F. destruct (all_ok s) eqn:K; [|reflexivity].
  apply all_ok_served in K. contradiction.
Qed.

(** ** Statesets *)

Lemma stateset_label : forall s f x, d_type (describe f) = "stateset" -> In x (samples_of s f) -> ~ In (lit (d_name (describe f))) (map fst (s_labels x)).
Proof.
  intros s f x T I.
  assert (L : forall n, In n (map fst (s_labels x)) -> In n (map lit ["listener"; "service"; "backend"; "state"])).
  { assert (PL : forall p l, In (p, l) (listeners_of s) -> forall n, In n (map fst p) -> In n (map lit ["listener"; "service"; "backend"; "state"])).
    { intros p l J n K. unfold listeners_of in J. apply in_map_iff in J. destruct J as (y & [= <- <-] & _). cbn [map fst index] in K. destruct K as [<-|[]]. cbn; tauto. }
    assert (PI : forall q l p v, In (p, v) (services_in q l) -> (forall n, In n (map fst q) -> In n (map lit ["listener"; "service"; "backend"; "state"])) -> forall n, In n (map fst p) -> In n (map lit ["listener"; "service"; "backend"; "state"])).
    { intros q l p v J Q n K. apply in_map_iff in J. destruct J as (y & [= <- <-] & _). rewrite map_app in K. apply in_app_or in K. destruct K as [K|[<-|[]]]; [apply Q, K|cbn; tauto]. }
    assert (PS : forall p v, In (p, v) (services_of s) -> forall n, In n (map fst p) -> In n (map lit ["listener"; "service"; "backend"; "state"])).
    { intros p v J. unfold services_of in J. apply in_app_or in J. destruct J as [J|J].
      - apply in_concat in J. destruct J as (m & M & J). apply in_map_iff in M. destruct M as ((q & l) & <- & M). eapply PI; [exact J|]. eapply PL, M.
      - eapply PI; [exact J|]. intros n []. }
    assert (PB : forall p v, In (p, v) (backends_of s) -> forall n, In n (map fst p) -> In n (map lit ["listener"; "service"; "backend"; "state"])).
    { intros p v J n K. unfold backends_of in J. apply in_concat in J. destruct J as (m & M & J). apply in_map_iff in M. destruct M as ((q & l) & <- & M). apply in_map_iff in J. destruct J as (y & [= <- <-] & _).
      cbn [fst] in K. rewrite map_app in K. apply in_app_or in K. destruct K as [K|[<-|[]]]; [eapply PS; eassumption|cbn; tauto]. }
    destruct f; try discriminate T; cbn [samples_of] in I.
    - apply in_map_iff in I. destruct I as ((p & l) & <- & I). apply (PL p l I).
    - apply in_map_iff in I. destruct I as ((p & l) & <- & I). apply (PS p l I).
    - apply in_concat in I. destruct I as (m & M & I). apply in_map_iff in M. destruct M as ((p & b) & <- & M). apply in_map_iff in I. destruct I as (y & <- & _). cbn [s_labels fst].
      intros n K. rewrite map_app in K. apply in_app_or in K. destruct K as [K|[<-|[]]]; [eapply PB; eassumption|cbn; tauto]. }
  intros J. apply L in J. clear -J T. destruct f; try discriminate T; cbn [map describe d_name] in J; repeat (destruct J as [J|J]; [vm_compute in J; discriminate|]); destruct J.
Qed.

(** ** Quotation marks *)

Lemma forged_label : forall p a x b, plain p -> simple a -> label_name x -> simple b ->
  labels_text (format_labels (p ++ [(lit "name", a ++ QUOTE :: ","%char :: x ++ "="%char :: QUOTE :: b)])) (p ++ [(lit "name", a); (x, b)]).
Proof.
  induction p as [|[n v] p IH]; intros a x b P A X B.
  - cbn [app format_labels].
    match goal with |- labels_text ?t _ => replace t with (lit "name" ++ "="%char :: QUOTE :: a ++ QUOTE :: ","%char :: (x ++ "="%char :: QUOTE :: b ++ [QUOTE])) end.
    + apply lt_more; [lname|apply simple_value, A|]. apply lt_one; [exact X|apply simple_value, B].
    + rewrite <- !app_assoc. cbn [app]. rewrite <- !app_assoc. reflexivity.
  - inversion P as [|? ? (P1 & P2) P3]; subst. cbn [fst snd] in *. specialize (IH a x b P3 A X B). cbn [app].
    remember (p ++ [(lit "name", a ++ QUOTE :: ","%char :: x ++ "="%char :: QUOTE :: b)]) as m eqn:M.
    replace (format_labels ((n, v) :: m)) with (n ++ "="%char :: QUOTE :: v ++ QUOTE :: ","%char :: format_labels m) by (destruct m; [destruct p; discriminate|reflexivity]).
    apply lt_more; [exact P1|apply simple_value, P2|exact IH].
Qed.
Lemma forged : forall s p v a x b n, In (p, v) (services_of s) -> svc_name v = Some (a ++ QUOTE :: ","%char :: x ++ "="%char :: QUOTE :: b) -> simple a -> label_name x -> simple b ->
  In (mkSample (p ++ [(lit "name", text_of (svc_name v))]) 1) (samples_of s F_SERVICE_INFO) /\
  sample_line (lit n) (format_sample n (mkSample (p ++ [(lit "name", text_of (svc_name v))]) 1)) (mkSample (p ++ [(lit "name", a); (x, b)]) 1).
Proof.
  intros s p v a x b n I E A X B. split; [cbn [samples_of]; apply (in_map (fun x => mkSample (fst x ++ [(lit "name", text_of (svc_name (snd x)))]) 1) _ _ I)|].
  apply services_all_in in I. destruct I as [P _]. rewrite E. cbn [text_of]. unfold format_sample. cbn [s_labels s_number].
  pose proof (forged_label p a x b P A X B) as F. remember (p ++ [(lit "name", a ++ QUOTE :: ","%char :: x ++ "="%char :: QUOTE :: b)]) as m eqn:M.
  destruct m as [|y m]; [destruct p; discriminate|].
  replace (lit n ++ _) with (lit n ++ "{"%char :: format_labels (y :: m) ++ "}"%char :: " "%char :: LogModel.fmt_ld 1 ++ [LF]) by (rewrite <- !app_assoc; reflexivity).
  apply sl_labels; [exact F|apply fmt_text].
Qed.

(** ** Several threads *)

Lemma append_empty : forall f s e, append_to f s (append_to f [] e) = append_to f s e.
Proof.
  intros f s e. induction e as [|[g t] e IH]; cbn [append_to]; [rewrite family_eqb_refl; reflexivity|]. destruct (family_eqb g f) eqn:E; cbn [append_to]; rewrite E; [rewrite app_nil_r; reflexivity|rewrite IH; reflexivity].
Qed.
Lemma set_same : forall (A : Type) (g : nat -> A) t a, set g t a t = a.
Proof. intros. unfold set. rewrite Nat.eqb_refl. reflexivity. Qed.
Lemma set_other : forall (A : Type) (g : nat -> A) t a u, u <> t -> set g t a u = g u.
Proof. intros A g t a u H. unfold set. destruct (Nat.eqb_spec u t); [contradiction|reflexivity]. Qed.

Definition calm (todo : nat -> calls) (r : race) : Prop := forall t, r_found r t = false /\ exists d, todo t = d ++ r_todo r t /\ r_exp r t = expose d.
Lemma two_steps : forall r t f s todo, r_found r t = false -> r_todo r t = (f, s) :: todo -> exists r1 r2, race_step t r = Some r1 /\ race_step t r1 = Some r2 /\
  (forall u, r_found r2 u = if Nat.eqb u t then false else r_found r u) /\ r_todo r2 t = todo /\ (forall u, u <> t -> r_todo r2 u = r_todo r u) /\
  r_exp r2 t = append_to f s (r_exp r t) /\ (forall u, u <> t -> r_exp r2 u = r_exp r u).
Proof.
  intros r t f s todo F T. do 2 eexists. unfold race_step. rewrite T, F. split; [reflexivity|]. cbn [r_todo r_found r_exp r_static]. rewrite T, set_same. split; [reflexivity|]. cbn [r_todo r_found r_exp r_static].
  repeat split.
  - intros u. unfold set. destruct (Nat.eqb u t); reflexivity.
  - apply set_same.
  - intros u U. apply set_other, U.
  - rewrite !set_same. apply append_empty.
  - intros u U. rewrite !set_other by exact U. reflexivity.
Qed.
Lemma expose_snoc : forall d f s, expose (d ++ [(f, s)]) = append_to f s (expose d).
Proof. intros. unfold expose. rewrite fold_left_app. reflexivity. Qed.
Lemma paired_calm : forall sched, paired sched -> forall todo r r', calm todo r -> race_run sched r = Some r' -> calm todo r'.
Proof.
  induction 1 as [|t s _ IH]; intros todo r r' C R; [injection R as <-; exact C|].
  destruct (C t) as (F & d & D & E). cbn [race_run] in R. destruct (r_todo r t) as [|[f sm] todo'] eqn:T; [unfold race_step in R; rewrite T in R; discriminate|].
  destruct (two_steps r t f sm todo' F T) as (r1 & r2 & S1 & S2 & P1 & P2 & P3 & P4 & P5). rewrite S1, S2 in R. apply (IH todo r2 r'); [|exact R].
  intros u. rewrite P1. destruct (Nat.eqb_spec u t) as [->|U].
  - split; [reflexivity|]. exists (d ++ [(f, sm)]). rewrite P2, P4, E, expose_snoc. split; [rewrite D, <- app_assoc; reflexivity|reflexivity].
  - destruct (C u) as (F' & d' & D' & E'). split; [exact F'|]. exists d'. rewrite P3, P5 by exact U. auto.
Qed.
Lemma race_paired : forall sched todo r t, paired sched -> race_run sched (race_init todo) = Some r -> finished r t -> r_exp r t = expose (todo t).
Proof.
  intros sched todo r t P R F. assert (C : calm todo (race_init todo)) by (intros u; split; [reflexivity|exists []; auto]).
  destruct (paired_calm _ P _ _ _ C R t) as (_ & d & D & E). rewrite F, app_nil_r in D. subst d. exact E.
Qed.

Fixpoint alone (t n : nat) : list nat := match n with O => [] | S n => t :: t :: alone t n end.
Lemma run_app : forall a b r, race_run (a ++ b) r = match race_run a r with Some r' => race_run b r' | None => None end.
Proof. induction a as [|t a IH]; intros b r; [reflexivity|]. cbn [app race_run]. destruct (race_step t r); [apply IH|reflexivity]. Qed.
Lemma run_alone : forall t c r, r_found r t = false -> r_todo r t = c -> exists r', race_run (alone t (length c)) r = Some r' /\
  (forall u, r_found r' u = r_found r u) /\ r_todo r' t = [] /\ (forall u, u <> t -> r_todo r' u = r_todo r u) /\
  r_exp r' t = fold_left (fun e x => append_to (fst x) (snd x) e) c (r_exp r t) /\ (forall u, u <> t -> r_exp r' u = r_exp r u).
Proof.
  intros t c. induction c as [|[f s] c IH]; intros r F T; [exists r; repeat split; auto|].
  destruct (two_steps r t f s c F T) as (r1 & r2 & S1 & S2 & P1 & P2 & P3 & P4 & P5). cbn [length alone race_run]. rewrite S1, S2.
  destruct (IH r2) as (r' & R & Q1 & Q2 & Q3 & Q4 & Q5); [rewrite P1, Nat.eqb_refl; reflexivity|exact P2|]. exists r'. repeat split.
  - exact R.
  - intros u. rewrite Q1, P1. destruct (Nat.eqb_spec u t) as [->|]; [symmetry; exact F|reflexivity].
  - exact Q2.
  - intros u U. rewrite Q3, P3 by exact U. reflexivity.
  - rewrite Q4, P4. reflexivity.
  - intros u U. rewrite Q5, P5 by exact U. reflexivity.
Qed.

Lemma under_expose : forall c f, under (expose c) f = samples c f.
Proof.
  intros c f. rewrite expose_spec. unfold under. destruct (adds_nodup (map fst c)) as [N M].
  assert (A : forall l, NoDup l -> concat (map snd (filter (fun m => family_eqb (fst m) f) (map (fun g => (g, samples c g)) l))) = if seen f l then samples c f else []).
  { induction l as [|g l IH]; intros K; [reflexivity|]. inversion K as [|? ? K1 K2]; subst. cbn [map filter fst]. unfold seen. cbn [existsb]. destruct (family_eqb g f) eqn:E; cbn [orb].
    - apply family_eqb_eq in E. subst g. cbn [map snd concat]. rewrite (IH K2). destruct (seen f l) eqn:Q; [apply seen_in in Q; contradiction|apply app_nil_r].
    - apply IH, K2. }
  rewrite (A _ N). destruct (seen f (adds [] (map fst c))) eqn:Q; [reflexivity|]. symmetry. unfold samples.
  replace (filter _ c) with (@nil (family * list sample)); [reflexivity|]. symmetry.
  assert (NI : ~ In f (map fst c)) by (intros I; apply M, seen_in in I; congruence). clear -NI.
  induction c as [|[g t] c IH]; [reflexivity|]. cbn [filter fst]. cbn in NI. destruct (family_eqb g f) eqn:E; [apply family_eqb_eq in E; tauto|]. apply IH. tauto.
Qed.

Definition two (a b : calls) : nat -> calls := fun t => match t with O => a | S O => b | _ => [] end.
Lemma race_mixed : forall s0 s1, exists sched r, race_run sched (race_init (two (all_calls s0) (all_calls s1))) = Some r /\ finished r 0 /\ finished r 1 /\
  under (r_exp r 0%nat) F_WORKERS = [] /\ under (r_exp r 1%nat) F_WORKERS = samples_of s0 F_WORKERS ++ samples_of s1 F_WORKERS /\
  forall f, f <> F_WORKERS -> under (r_exp r 0%nat) f = samples_of s0 f /\ under (r_exp r 1%nat) f = samples_of s1 f.
Proof.
  intros s0 s1. pose (rest := fun s => blocks "listener" (listener_calls s) [] 0 (st_listeners s) ++ blocks "service" (service_calls s) [] 0 (st_services s)).
  assert (AC : forall s, all_calls s = (F_WORKERS, worker_samples s) :: rest s) by reflexivity.
  assert (RW : forall s, samples (rest s) F_WORKERS = []).
  { intros s. pose proof (samples_ok s F_WORKERS) as H. rewrite AC in H. change ((F_WORKERS, worker_samples s) :: rest s) with ([(F_WORKERS, worker_samples s)] ++ rest s) in H.
    rewrite samples_app in H. change (samples_of s F_WORKERS) with (worker_samples s) in H. change (samples [(F_WORKERS, worker_samples s)] F_WORKERS) with (worker_samples s ++ []) in H.
    rewrite app_nil_r in H. rewrite <- app_nil_r in H. apply app_inv_head in H. exact H. }
  pose (r4 := mkRace (Some (1%nat, F_WORKERS)) (set (set (two (all_calls s0) (all_calls s1)) 0 (rest s0)) 1 (rest s1)) (set (set (set (set (fun _ => false) 0%nat true) 1%nat true) 0%nat false) 1%nat false)
    (set (set (set (set (fun _ => []) 0%nat [(F_WORKERS, [])]) 1%nat [(F_WORKERS, [])]) 1%nat [(F_WORKERS, worker_samples s0)]) 1%nat [(F_WORKERS, worker_samples s0 ++ worker_samples s1)])).
  destruct (run_alone 0 (rest s0) r4) as (r5 & R5 & A1 & A2 & A3 & A4 & A5); [reflexivity|reflexivity|].
  destruct (run_alone 1 (rest s1) r5) as (r6 & R6 & B1 & B2 & B3 & B4 & B5); [rewrite A1; reflexivity|rewrite A3 by discriminate; reflexivity|].
  exists ([0; 1; 0; 1]%nat ++ alone 0 (length (rest s0)) ++ alone 1 (length (rest s1))), r6. split.
  - rewrite run_app. replace (race_run [0; 1; 0; 1]%nat _) with (Some r4) by reflexivity. cbv beta iota. rewrite run_app, R5. exact R6.
  - unfold finished. rewrite B2, B3, A2 by discriminate. split; [reflexivity|]. split; [reflexivity|].
    rewrite B4, A5, B5, A4 by discriminate.
    change (fold_left _ (rest s0) _) with (expose ((F_WORKERS, []) :: rest s0)).
    change (fold_left _ (rest s1) _) with (expose ((F_WORKERS, worker_samples s0 ++ worker_samples s1) :: rest s1)). 
    assert (U : forall w s f, samples ((F_WORKERS, w) :: rest s) f = (if family_eqb F_WORKERS f then w else []) ++ samples (rest s) f) by (intros w s f; unfold samples; cbn [filter fst]; destruct (family_eqb F_WORKERS f); reflexivity).
    split; [rewrite under_expose, U, RW; reflexivity|]. split; [rewrite under_expose, U, RW, app_nil_r; reflexivity|].
    intros f NF. rewrite !under_expose, !U, <- !samples_ok, !AC, !U. replace (family_eqb F_WORKERS f) with false; [auto|]. destruct f; try reflexivity. contradiction.
Qed.
