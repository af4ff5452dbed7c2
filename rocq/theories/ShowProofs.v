(** Proofs about listings. *)
From Coq Require Import Ascii String List ZArith Bool Lia.
From Verif Require Import Bytes JsonModel JsonSpec JsonProofs ShowModel ShowSpec.
From Verif Require CtlModel.
Import ListNotations.
Local Open Scope Z_scope.
Local Open Scope string_scope.
Local Open Scope list_scope.

(** ** Objects and arrays *)
Lemma last_set_in : forall (l : list (bytes * json)) k v, NoDup (map fst l) -> (last_set l k v <-> In (k, v) l).
Proof.
  intros l k v N. split.
  - intros (pre & post & -> & _). apply in_or_app. right. left. reflexivity.
  - intros I. apply in_split in I as (pre & post & ->). exists pre, post. split; [reflexivity|].
    rewrite map_app in N. cbn [map fst] in N. apply NoDup_remove_2 in N. intros H. apply N. apply in_or_app. right. exact H.
Qed.

Lemma object_of_ok : forall l, exists ps, object_of l = Some (JObject ints ps) /\ NoDup (map fst ps) /\ forall k v, In (k, v) ps <-> last_set l k v.
Proof.
  intros l. unfold object_of. change (fold_left _ l _) with (set_all l). destruct (set_all_spec l) as (o & E & [C S] & H). rewrite E.
  exists (pairs o). split; [reflexivity|]. split; [apply sorted_nodup; exact S|exact H].
Qed.

Lemma object_members : forall l, NoDup (map fst l) -> exists v, object_of l = Some v /\ (forall n w, In (lit n, w) l -> member v n w) /\ (forall n, ~ In (lit n) (map fst l) -> no_member v n).
Proof.
  intros l N. destruct (object_of_ok l) as (ps & E & NP & H). exists (JObject ints ps). split; [exact E|]. split.
  - intros n w I. exists ps. split; [reflexivity|]. split; [|exact NP]. apply H. apply last_set_in; assumption.
  - intros n I. exists ps. split; [reflexivity|]. intros J. apply I. apply in_map_iff in J as ((k & w) & K & J). cbn in K. subst k.
    apply H in J. apply last_set_in in J; [|exact N]. apply (in_map fst) in J. exact J.
Qed.

Lemma array_of_ok : forall (A : Type) (f : A -> option json) (P : A -> json -> Prop) l, (forall x, In x l -> exists v, f x = Some v /\ P x v) ->
  exists vs, array_of (map f l) = Some vs /\ Forall2 P l vs.
Proof.
  induction l as [|x l IH]; intros H; cbn [map array_of]; [exists []; split; [reflexivity|constructor]|].
  destruct (H x (or_introl eq_refl)) as (v & -> & Q). destruct (IH (fun y I => H y (or_intror I))) as (vs & -> & F). exists (v :: vs). split; [reflexivity|]. constructor; assumption.
Qed.

(** The keys of an object literal are distinct: decided by computation. *)
Fixpoint nodupb (l : list bytes) : bool := match l with [] => true | k :: l => negb (existsb (bytes_eqb k) l) && nodupb l end.
Lemma nodupb_ok : forall l, nodupb l = true -> NoDup l.
Proof.
  induction l as [|k l IH]; intros H; [constructor|]. cbn [nodupb] in H. apply andb_true_iff in H as (H1 & H2). constructor; [|auto].
  intros I. apply negb_true_iff in H1. assert (existsb (bytes_eqb k) l = true); [|congruence]. apply existsb_exists. exists k. split; [exact I|]. apply bytes_eqb_eq. reflexivity.
Qed.

(** ** A backend *)
Definition backend_fields (s : service) (bl : balancer) (b : backend) : list (bytes * json) :=
  ([ (lit "type", jstr (backend_type_str (be_type b))); (lit "priority", jint (be_priority b));
       (lit "alive", jbool (backend_is_alive (be_type b))); (lit "enabled", jbool (negb (be_disabled b)));
       (lit "weight", jint (bal_weight bl)) ] ++
     match be_type b with
     | Matrix hostname mode family servername _ =>
         [ (lit "hostname", jstr hostname); (lit "resolve_mode", jstr mode); (lit "family", jint family); (lit "servername", jopt servername) ] ++
         backend_serialize_dyninfo s b
     | Regular address _ https io_to conn_to ws_to servername =>
         [ (lit "address", jstr address); (lit "io_to", jint io_to); (lit "conn_to", jint conn_to); (lit "ws_to", jint ws_to);
           (lit "protocol", jstr (if https then lit "https" else lit "http")); (lit "servername", jopt servername) ] ++
         backend_serialize_dyninfo s b
     | Redirect url status has_uri => [ (lit "url", jstr url); (lit "code", jint status); (lit "has_uri", jbool has_uri) ]
     | Acme | Control | Metrics => []
     | Error status text => [ (lit "status", jint status); (lit "text", jopt text) ]
     end ++
     match be_type b, be_stats b with
     | Matrix _ _ _ _ _, _ => []
     | _, Some v => [ (lit "stats", v) ]
     | _, None => []
     end).

Lemma fields_nodup : forall s bl b, NoDup (map fst (backend_fields s bl b)).
Proof.
  intros s bl [id k pr dis up st]. unfold backend_fields, backend_serialize_dyninfo. cbn [be_type be_stats be_up be_priority be_disabled].
  destruct (rev up) as [|u us]; destruct k as [a al h i c w n|h m f n [e|]| | | | |]; destruct st; cbn [app map fst]; apply nodupb_ok; vm_compute; reflexivity.
Qed.

Lemma in_dec_b : forall (n : bytes) l, existsb (bytes_eqb n) l = false -> ~ In n l.
Proof. intros n l H I. assert (existsb (bytes_eqb n) l = true); [|congruence]. apply existsb_exists. exists n. split; [exact I|]. apply bytes_eqb_eq. reflexivity. Qed.

Ltac find_in := solve [repeat first [left; reflexivity | right]].

Lemma backend_shown : forall s bl b, exists v, backend_serialize s bl b = Some v /\ shows v bl b /\ shows_stats v b /\
  (forall root, hd_error (rev (be_up b)) = Some root -> match be_type b with Regular _ _ _ _ _ _ _ | Matrix _ _ _ _ _ => True | _ => False end -> member v "parent" (jint (find_backend_index s root))) /\
  (be_up b = [] -> no_member v "parent").
Proof.
  intros s bl b. destruct (object_members (backend_fields s bl b) (fields_nodup s bl b)) as (v & E & M & NM). exists v. split; [exact E|].
  destruct b as [id k pr dis up st]. unfold backend_fields, backend_serialize_dyninfo in M, NM. cbn [be_type be_stats be_up be_priority be_disabled] in M, NM.
  split; [|split; [|split]].
  - unfold shows. cbn [be_type be_stats be_up be_priority be_disabled]. split; [apply M; destruct k; left; reflexivity|]. split; [apply M; find_in|].
    split; [exists (backend_is_alive k); split; [destruct k; reflexivity|apply M; find_in]|]. split; [apply M; find_in|]. split; [apply M; find_in|].
    destruct k as [a al h i c w n|h m f n e| | | | |]; cbn [app] in M; try exact I; repeat split; apply M; try find_in. destruct h; find_in.
  - unfold shows_stats. cbn [be_type be_stats]. destruct k as [a al h i c w n|h m f n [e|]| | | | |]; destruct st as [x|]; destruct (rev up) as [|u us]; first
      [ apply M; cbn [app]; find_in
      | apply NM; apply in_dec_b; vm_compute; reflexivity ].
  - cbn [be_up be_type]. intros root H K. destruct (rev up) as [|x r]; [discriminate|]. cbn in H. injection H as ->.
    destruct k as [a al h i c w n|h m f n e| | | | |]; try easy; apply M; cbn [app]; find_in.
  - cbn [be_up]. intros ->. apply NM. apply in_dec_b. cbn [rev]. destruct k as [a al h i c w n|h m f n [e|]| | | | |]; destruct st; vm_compute; reflexivity.
Qed.

(** ** The list of backends *)

Definition tagged (s : service) : list (balancer * backend) := concat (map (fun bl => map (pair bl) (bal_backends bl)) (svc_balancers s)).

Lemma tagged_snd : forall s, map snd (tagged s) = all_backends s.
Proof.
  intros s. unfold tagged, all_backends. induction (svc_balancers s) as [|bl l IH]; [reflexivity|]. cbn [map concat]. rewrite map_app, IH, map_map. cbn. rewrite map_id. reflexivity.
Qed.
Lemma tagged_in : forall s bl b, In (bl, b) (tagged s) <-> of_service s bl b.
Proof.
  intros s bl b. unfold tagged, of_service. rewrite in_concat. split.
  - intros (l & H & I). apply in_map_iff in H as (bl' & <- & H). apply in_map_iff in I as (b' & E & I). injection E as -> ->. split; assumption.
  - intros (H & I). exists (map (pair bl) (bal_backends bl)). split; [apply in_map_iff; exists bl; auto|]. apply in_map_iff. exists b. auto.
Qed.

Lemma Forall2_nth : forall (A B : Type) (P : A -> B -> Prop) l m, Forall2 P l m -> forall i x, nth_error l i = Some x -> exists y, nth_error m i = Some y /\ P x y.
Proof. induction 1 as [|x y l m Q F IH]; intros i z H; [destruct i; discriminate|]. destruct i as [|i]; [injection H as <-; exists y; auto|]. apply IH. exact H. Qed.

Lemma Forall2_len : forall (A B : Type) (P : A -> B -> Prop) l m, Forall2 P l m -> length l = length m.
Proof. induction 1; cbn [length]; congruence. Qed.

Lemma backends_listed : forall s, svc_balancers s <> [] -> exists vs, backends_serialize s = Some (JArray ints vs) /\ length vs = length (all_backends s) /\
  forall i b, numbered s i b -> exists bl v, of_service s bl b /\ nth_error vs i = Some v /\ backend_serialize s bl b = Some v.
Proof.
  intros s NE. unfold backends_serialize.
  assert (E : concat (map (fun bl => map (backend_serialize s bl) (bal_backends bl)) (svc_balancers s)) = map (fun p => backend_serialize s (fst p) (snd p)) (tagged s)).
  { unfold tagged. induction (svc_balancers s) as [|bl l IH] in |- *; [reflexivity|]. cbn [map concat]. rewrite map_app, IH, map_map. reflexivity. }
  destruct (array_of_ok _ (fun p => backend_serialize s (fst p) (snd p)) (fun p v => backend_serialize s (fst p) (snd p) = Some v) (tagged s)) as (vs & A & F).
  { intros (bl & b) _. destruct (backend_shown s bl b) as (v & V & _). exists v. auto. }
  exists vs. destruct (svc_balancers s) as [|bl0 bls] eqn:B; [contradiction|]. rewrite E, A. split; [reflexivity|].
  split; [rewrite <- (Forall2_len _ _ _ _ _ F), <- tagged_snd, map_length; reflexivity|].
  intros i b N. unfold numbered in N. rewrite <- tagged_snd in N. rewrite nth_error_map in N. destruct (nth_error (tagged s) i) as [[bl b']|] eqn:T; [|discriminate].
  cbn in N. injection N as ->. destruct (Forall2_nth _ _ _ _ _ F i _ T) as (v & V1 & V2). exists bl, v. split; [apply tagged_in, (nth_error_In _ _ T)|]. split; assumption.
Qed.

(** ** Numbers *)
Lemma find_in_spec : forall id l i, match find_in id l i with
  | inl j => exists n b, nth_error l n = Some b /\ be_id b = id /\ (forall m c, (m < n)%nat -> nth_error l m = Some c -> be_id c <> id) /\ j = i + Z.of_nat n
  | inr j => (forall b, In b l -> be_id b <> id) /\ j = i + Z.of_nat (length l) end.
Proof.
  induction l as [|x l IH]; intros i; cbn [find_in].
  - split; [intros b []|cbn; lia].
  - destruct (Nat.eqb_spec (be_id x) id) as [E|E].
    + exists 0%nat, x. repeat split; auto; [|lia]. intros m c H. lia.
    + specialize (IH (i + 1)). destruct (find_in id l (i + 1)) as [j|j].
      * destruct IH as (n & b & N & B & F & ->). exists (S n), b. repeat split; auto; [|lia]. intros [|m] c L Q; [injection Q as <-; exact E|]. apply (F m); [lia|exact Q].
      * destruct IH as (F & ->). split; [intros b [<-|I]; [exact E|apply F; exact I]|]. cbn [length]. lia.
Qed.

Lemma numbered_split : forall s i b, numbered s i b -> exists pre bl post n, svc_balancers s = pre ++ bl :: post /\ nth_error (bal_backends bl) n = Some b /\
  i = (length (concat (map bal_backends pre)) + n)%nat.
Proof.
  intros s i b. unfold numbered, all_backends. revert i. induction (svc_balancers s) as [|bl l IH]; intros i H; [destruct i; discriminate|]. cbn [map concat] in H.
  destruct (Nat.lt_ge_cases i (length (bal_backends bl))) as [L|L].
  - rewrite nth_error_app1 in H by exact L. exists [], bl, l, i. cbn. auto.
  - rewrite nth_error_app2 in H by exact L. destruct (IH _ H) as (pre & bl' & post & n & E & N & I). exists (bl :: pre), bl', post, n. split; [rewrite E; reflexivity|]. split; [exact N|].
    cbn [map concat]. rewrite app_length. lia.
Qed.

Lemma distinct_place : forall s i j b c, distinct s -> numbered s i b -> numbered s j c -> be_id b = be_id c -> i = j.
Proof.
  intros s i j b c D B C E. unfold numbered, distinct in *. assert (L : (i < length (map be_id (all_backends s)))%nat) by (rewrite map_length; apply nth_error_Some; congruence).
  apply (NoDup_nth_error (map be_id (all_backends s))); [exact D|exact L|]. rewrite !nth_error_map, B, C. cbn. congruence.
Qed.

Lemma find_from_spec : forall id bls i, (find_backend_index_from id bls i = -1 /\ forall b, In b (concat (map bal_backends bls)) -> be_id b <> id) \/
  (exists n b, nth_error (concat (map bal_backends bls)) n = Some b /\ be_id b = id /\ find_backend_index_from id bls i = i + Z.of_nat n).
Proof.
  induction bls as [|bl bls IH]; intros i; cbn [find_backend_index_from map concat]; [left; split; [reflexivity|intros b []]|].
  pose proof (find_in_spec id (bal_backends bl) i) as F. destruct (find_in id (bal_backends bl) i) as [j|j].
  - destruct F as (n & b & N & B & _ & ->). right. exists n, b. split; [rewrite nth_error_app1; [exact N|apply nth_error_Some; congruence]|]. auto.
  - destruct F as (F & ->). destruct (IH (i + Z.of_nat (length (bal_backends bl)))) as [(E & G)|(n & b & N & B & E)].
    + left. split; [exact E|]. intros b I. apply in_app_or in I as [I|I]; auto.
    + right. exists (length (bal_backends bl) + n)%nat, b. split; [rewrite nth_error_app2 by lia; replace (_ + n - _)%nat with n by lia; exact N|]. split; [exact B|]. rewrite E. lia.
Qed.

Lemma find_index : forall s i b, distinct s -> numbered s i b -> find_backend_index s (be_id b) = Z.of_nat i.
Proof.
  intros s i b D N. unfold find_backend_index. destruct (find_from_spec (be_id b) (svc_balancers s) 0) as [(_ & F)|(n & c & C & E & ->)].
  - destruct (F b (nth_error_In _ _ N) eq_refl).
  - rewrite (distinct_place s i n b c D N C); [lia|congruence].
Qed.
Lemma find_index_none : forall s id, (forall b, In b (all_backends s) -> be_id b <> id) -> find_backend_index s id = -1.
Proof.
  intros s id H. unfold find_backend_index. destruct (find_from_spec id (svc_balancers s) 0) as [(E & _)|(n & c & C & E & _)]; [exact E|]. destruct (H c (nth_error_In _ _ C) E).
Qed.

Lemma count_until_find : forall id l n, count_until id l n = match find_in id l n with inl j => j | inr j => j end.
Proof. induction l as [|x l IH]; intros n; cbn [count_until find_in]; [reflexivity|]. destruct (Nat.eqb (be_id x) id); [reflexivity|]. apply IH. Qed.
Lemma count_absent : forall id bls n, (forall b, In b (concat (map bal_backends bls)) -> be_id b <> id) ->
  fold_left (fun n bl => count_until id (bal_backends bl) n) bls n = n + Z.of_nat (length (concat (map bal_backends bls))).
Proof.
  induction bls as [|bl bls IH]; intros n H; cbn [fold_left map concat]; [cbn; lia|]. rewrite IH; [|intros b I; apply H; cbn [map concat]; apply in_or_app; auto].
  rewrite count_until_find. pose proof (find_in_spec id (bal_backends bl) n) as F. destruct (find_in id (bal_backends bl) n) as [j|j].
  - destruct F as (m & b & M & E & _). destruct (H b); [cbn [map concat]; apply in_or_app; left; apply (nth_error_In _ _ M)|exact E].
  - destruct F as (_ & ->). rewrite app_length. lia.
Qed.

(** The number given for a session exceeds the right one by the number of backends in later balancers. *)
Lemma session_index : forall s pre bl post n b, distinct s -> svc_balancers s = pre ++ bl :: post -> nth_error (bal_backends bl) n = Some b ->
  session_backend_index s (be_id b) = Z.of_nat (length (concat (map bal_backends pre)) + n) + Z.of_nat (length (concat (map bal_backends post))).
Proof.
  intros s pre bl post n b D E N. unfold session_backend_index. rewrite E, fold_left_app. cbn [fold_left].
  assert (NB : numbered s (length (concat (map bal_backends pre)) + n) b).
  { unfold numbered, all_backends. rewrite E, map_app, concat_app. cbn [map concat]. rewrite nth_error_app2 by lia. replace (_ + n - _)%nat with n by lia.
    rewrite nth_error_app1; [exact N|apply nth_error_Some; congruence]. }
  assert (OTH : forall m c, nth_error (all_backends s) m = Some c -> be_id c = be_id b -> m = (length (concat (map bal_backends pre)) + n)%nat).
  { intros m c C Q. apply (distinct_place s m _ c b D C NB Q). }
  unfold all_backends in OTH. rewrite E, map_app, concat_app in OTH. cbn [map concat] in OTH.
  assert (LN : (n < length (bal_backends bl))%nat) by (apply nth_error_Some; congruence).
  rewrite count_absent.
  - rewrite count_absent.
    + rewrite count_until_find. pose proof (find_in_spec (be_id b) (bal_backends bl) (0 + Z.of_nat (length (concat (map bal_backends pre))))) as F.
      destruct (find_in _ _ _) as [j|j].
      * destruct F as (m & c & M & Q & _ & ->). assert (LM : (m < length (bal_backends bl))%nat) by (apply nth_error_Some; congruence).
        assert (K : (length (concat (map bal_backends pre)) + m = length (concat (map bal_backends pre)) + n)%nat).
        { apply (OTH _ c); [|exact Q]. rewrite nth_error_app2 by lia. replace (_ + m - _)%nat with m by lia. rewrite nth_error_app1 by exact LM. exact M. }
        lia.
      * destruct F as (F & _). destruct (F b (nth_error_In _ _ N) eq_refl).
    + intros c I Q. apply In_nth_error in I as (m & M). assert (LM : (m < length (concat (map bal_backends pre)))%nat) by (apply nth_error_Some; congruence).
      specialize (OTH m c). rewrite nth_error_app1 in OTH by exact LM. specialize (OTH M Q). lia.
  - intros c I Q. apply In_nth_error in I as (m & M).
    specialize (OTH (length (concat (map bal_backends pre)) + (length (bal_backends bl) + m))%nat c).
    rewrite nth_error_app2 in OTH by lia. replace (_ + (_ + m) - _)%nat with (length (bal_backends bl) + m)%nat in OTH by lia.
    rewrite nth_error_app2 in OTH by lia. replace (length (bal_backends bl) + m - length (bal_backends bl))%nat with m in OTH by lia. specialize (OTH M Q). lia.
Qed.

(** ** Services and listeners *)
Lemma sessions_listed : forall s, exists v, service_session_serialize s = Some v /\
  match svc_sess_type s, svc_sessions s with
  | None, _ => v = jnull
  | Some _, None => elements v []
  | Some _, Some l => exists vs, elements v vs /\ Forall2 (fun x w => member w "key" (jstr (sess_key x)) /\ member w "expire" (jstr (sess_expire x)) /\
      member w "backend" (jint (session_backend_index s (sess_backend x)))) l vs
  end.
Proof.
  intros s. unfold service_session_serialize. destruct (svc_sess_type s) as [ty|]; [|exists jnull; auto]. destruct (svc_sessions s) as [l|]; [|eexists; split; reflexivity].
  destruct (array_of_ok _ (fun x => object_of [ (lit "key", jstr (sess_key x)); (lit "backend", jint (session_backend_index s (sess_backend x))); (lit "expire", jstr (sess_expire x)) ])
    (fun x w => member w "key" (jstr (sess_key x)) /\ member w "expire" (jstr (sess_expire x)) /\ member w "backend" (jint (session_backend_index s (sess_backend x)))) l) as (vs & E & F).
  - intros x _. match goal with |- exists v, object_of ?fl = _ /\ _ => destruct (object_members fl) as (v & -> & M & _); [apply nodupb_ok; vm_compute; reflexivity|] end.
    exists v. split; [reflexivity|]. repeat split; apply M; find_in.
  - rewrite E. exists (JArray ints vs). split; [reflexivity|]. exists vs. split; [reflexivity|exact F].
Qed.

Lemma service_listed : forall s, exists v, service_serialize s = Some v /\
  member v "name" (jopt (svc_name s)) /\ member v "enabled" (jbool (negb (svc_disabled s))) /\
  (exists w, service_session_serialize s = Some w /\ member v "sessions" w) /\ (exists w, backends_serialize s = Some w /\ member v "backends" w).
Proof.
  intros s. unfold service_serialize. destruct (sessions_listed s) as (vs & -> & _).
  assert (B : exists w, backends_serialize s = Some w).
  { destruct (svc_balancers s) as [|b l] eqn:E; [unfold backends_serialize; rewrite E; eauto|]. destruct (backends_listed s) as (ws & W & _); [rewrite E; discriminate|eauto]. }
  destruct B as (w & ->).
  match goal with |- exists v, object_of ?fl = _ /\ _ => destruct (object_members fl) as (v & -> & M & _); [apply nodupb_ok; vm_compute; reflexivity|] end.
  exists v. split; [reflexivity|]. split; [apply M; find_in|]. split; [apply M; find_in|]. split; eexists; (split; [reflexivity|apply M; find_in]).
Qed.

Lemma listener_listed : forall l, exists v, listener_serialize l = Some v /\
  member v "name" (jopt (lstn_name l)) /\ member v "enabled" (jbool (negb (lstn_disabled l))) /\ member v "address" (jstr (lstn_address l)) /\
  (exists vs w, member v "services" w /\ elements w vs /\ Forall2 (fun s x => service_serialize s = Some x) (lstn_services l) vs).
Proof.
  intros l. unfold listener_serialize. destruct (array_of_ok _ service_serialize (fun s x => service_serialize s = Some x) (lstn_services l)) as (vs & -> & F).
  { intros s _. destruct (service_listed s) as (v & E & _). eauto. }
  match goal with |- exists v, object_of ?fl = _ /\ _ => destruct (object_members fl) as (v & -> & M & _); [destruct (lstn_https l); apply nodupb_ok; vm_compute; reflexivity|] end.
  exists v. split; [reflexivity|]. split; [apply M; find_in|]. 
  assert (T : forall k w, In (k, w) [ (lit "enabled", jbool (negb (lstn_disabled l))); (lit "services", JArray ints vs) ] -> In (k, w) ([(lit "name", jopt (lstn_name l)); (lit "address", jstr (lstn_address l));
           (lit "protocol", jstr (match lstn_https l with Some _ => lit "https" | None => lit "http" end)) ] ++
         match lstn_https l with Some n => [ (lit "nohttps11", jint n) ] | None => [] end ++
         [ (lit "enabled", jbool (negb (lstn_disabled l))); (lit "services", JArray ints vs) ])).
  { intros k w I. apply in_or_app. right. apply in_or_app. right. exact I. }
  split; [apply M; apply T; find_in|]. split; [apply M; find_in|]. exists vs, (JArray ints vs). split; [apply M; apply T; find_in|]. split; [reflexivity|exact F].
Qed.

Lemma all_listed : forall core ls ss, NoDup (map fst core) -> ~ In (lit "listeners") (map fst core) -> ~ In (lit "services") (map fst core) ->
  exists v, pound_serialize core ls ss = Some v /\ (forall n w, In (lit n, w) core -> member v n w) /\
  (exists vs w, member v "listeners" w /\ elements w vs /\ Forall2 (fun l x => listener_serialize l = Some x) ls vs) /\
  (exists vs w, member v "services" w /\ elements w vs /\ Forall2 (fun s x => service_serialize s = Some x) ss vs).
Proof.
  intros core ls ss N N1 N2. unfold pound_serialize.
  destruct (array_of_ok _ listener_serialize (fun s x => listener_serialize s = Some x) ls) as (vl & -> & FL). { intros l _. destruct (listener_listed l) as (v & E & _). eauto. }
  destruct (array_of_ok _ service_serialize (fun s x => service_serialize s = Some x) ss) as (vs & -> & FS). { intros s _. destruct (service_listed s) as (v & E & _). eauto. }
  destruct (object_members (core ++ [(lit "listeners", JArray ints vl); (lit "services", JArray ints vs)])) as (v & -> & M & _).
  { rewrite map_app. cbn [map fst]. apply NoDup_Add with (a := lit "listeners") (l := map fst core ++ [lit "services"]); [apply Add_app|].
    split; [|intros I; apply in_app_or in I as [I|[I|[]]]; [contradiction|discriminate I]].
    apply NoDup_Add with (a := lit "services") (l := map fst core); [replace (map fst core) with (map fst core ++ []) at 1 by apply app_nil_r; apply Add_app|]. split; [exact N|exact N2]. }
  exists v. split; [reflexivity|]. split; [intros n w I; apply M, in_or_app; auto|].
  split; eexists; eexists; (split; [apply M, in_or_app; right; find_in|]); (split; [reflexivity|assumption]).
Qed.

(** ** Numbers in requests *)
Lemma locate_none : forall names k n, n <= k -> CtlModel.locate names (CtlModel.IdNum k) n = if Nat.ltb (Z.to_nat (k - n)) (length names) then Some k else None.
Proof.
  induction names as [|x l IH]; intros k n L; cbn [CtlModel.locate length]; [reflexivity|]. destruct (Z.eqb_spec n k) as [->|E].
  - rewrite Z.sub_diag. reflexivity.
  - rewrite IH by lia. replace (Z.to_nat (k - n)) with (S (Z.to_nat (k - (n + 1)))) by lia. reflexivity.
Qed.
Lemma ctl_numbers : forall s name dis (f : backend -> CtlModel.backend) i,
  CtlModel.locate_backend (CtlModel.mkSvc name dis (map (fun bl => map f (bal_backends bl)) (svc_balancers s))) (CtlModel.IdNum (Z.of_nat i)) =
  if Nat.ltb i (length (all_backends s)) then Some i else None.
Proof.
  intros s name dis f i. unfold CtlModel.locate_backend, CtlModel.backends. cbn [CtlModel.balancers]. rewrite locate_none by lia. rewrite Z.sub_0_r, Nat2Z.id, map_length.
  assert (L : length (concat (map (fun bl => map f (bal_backends bl)) (svc_balancers s))) = length (all_backends s)).
  { unfold all_backends. induction (svc_balancers s) as [|bl l IH]; [reflexivity|]. cbn [map concat]. rewrite !app_length, map_length, IH. reflexivity. }
  rewrite L. destruct (Nat.ltb i _); [cbn; rewrite Nat2Z.id; reflexivity|reflexivity].
Qed.

Fixpoint nodup_nat (l : list nat) : bool := match l with [] => true | k :: l => negb (existsb (Nat.eqb k) l) && nodup_nat l end.
Lemma NoDup_nodup_nat : forall l, nodup_nat l = true -> NoDup l.
Proof.
  induction l as [|k l IH]; intros H; [constructor|]. cbn [nodup_nat] in H. apply andb_true_iff in H as (H1 & H2). constructor; [|auto].
  intros I. apply negb_true_iff in H1. assert (existsb (Nat.eqb k) l = true); [|congruence]. apply existsb_exists. exists k. split; [exact I|]. apply Nat.eqb_refl.
Qed.
Lemma Forall2_impl : forall (A B : Type) (P Q : A -> B -> Prop) l m, Forall2 P l m -> (forall x y, P x y -> Q x y) -> Forall2 Q l m.
Proof. intros A B P Q l m H F. induction H; constructor; auto. Qed.
