From Coq Require Import List ZArith Lia Bool Sorted ZifyBool.
From Verif Require Import Bytes JobModel JobSpec JobProofs SessModel SessSpec.
Import ListNotations.
Open Scope Z_scope.
Local Arguments firstn : simpl never.

Definition fk (k : bytes) (l : list sess) : option sess := find (fun s => bytes_eqb (s_key s) k) l.

Lemma bytes_eqb_sym : forall a b, bytes_eqb a b = bytes_eqb b a.
Proof.
  intros a b. destruct (bytes_eqb a b) eqn:E; symmetry.
  - apply bytes_eqb_eq in E. apply bytes_eqb_eq. auto.
  - destruct (bytes_eqb b a) eqn:E2; [|auto]. apply bytes_eqb_eq in E2. subst.
    rewrite (proj2 (bytes_eqb_eq a a) eq_refl) in E. discriminate.
Qed.
Lemma beqb_refl : forall a, bytes_eqb a a = true.
Proof. intros. apply bytes_eqb_eq. auto. Qed.
Lemma beqb_neq : forall a b, bytes_eqb a b = false <-> a <> b.
Proof.
  intros. destruct (bytes_eqb a b) eqn:E.
  - apply bytes_eqb_eq in E. split; congruence.
  - split; auto. intros _ ->. rewrite beqb_refl in E. discriminate.
Qed.
Lemma beqb_case : forall a b, (bytes_eqb a b = true /\ a = b) \/ (bytes_eqb a b = false /\ a <> b).
Proof. intros. destruct (bytes_eqb a b) eqn:E; [left|right]; split; auto; [apply bytes_eqb_eq; auto|apply beqb_neq; auto]. Qed.

Lemma fk_app : forall k a b, fk k (a ++ b) = match fk k a with Some s => Some s | None => fk k b end.
Proof. induction a as [|s a IH]; intros b; cbn; [auto|]. destruct (bytes_eqb (s_key s) k); auto. apply IH. Qed.
Lemma fk_some : forall k l s, fk k l = Some s -> In s l /\ s_key s = k.
Proof. unfold fk. intros k l s H. apply find_some in H. destruct H as [H E]. apply bytes_eqb_eq in E. auto. Qed.
Lemma fk_none : forall k l, fk k l = None <-> ~ In k (map s_key l).
Proof.
  induction l as [|s l IH]; cbn; [tauto|]. destruct (beqb_case (s_key s) k) as [[-> E]|[-> E]]; split.
  - discriminate.
  - intros H. exfalso. apply H. auto.
  - intros H [X|X]; [auto|]. apply IH in H. auto.
  - intros H. apply IH. tauto.
Qed.
Lemma fk_in : forall l s, NoDup (map s_key l) -> In s l -> fk (s_key s) l = Some s.
Proof.
  induction l as [|a l IH]; intros s N H; [destruct H|]. cbn. inversion N; subst.
  destruct H as [->|H]; [rewrite beqb_refl; auto|].
  destruct (beqb_case (s_key a) (s_key s)) as [[E1 E]|[-> E]]; [|apply IH; auto].
  exfalso. apply H2. rewrite E. apply in_map. auto.
Qed.
Lemma deref_in : forall l s, NoDup (map s_id l) -> In s l -> deref (s_id s) l = Some s.
Proof.
  induction l as [|a l IH]; intros s N H; [destruct H|]. cbn. inversion N; subst.
  destruct H as [->|H]; [rewrite Z.eqb_refl; auto|].
  destruct (Z.eqb_spec (s_id a) (s_id s)) as [E|E]; [|apply IH; auto].
  exfalso. apply H2. rewrite E. apply in_map. auto.
Qed.

Lemma filter_map_nodup : forall (A B : Type) (f : A -> B) p l, NoDup (map f l) -> NoDup (map f (filter p l)).
Proof.
  induction l as [|a l IH]; intros N; cbn in *; [constructor|]. inversion N; subst.
  destruct (p a); cbn; [constructor|]; auto. intro X. apply H1. apply in_map_iff in X.
  destruct X as (x & E & X). apply filter_In in X. rewrite <- E. apply in_map. tauto.
Qed.

Lemma fk_filter : forall p l k, NoDup (map s_key l) ->
  fk k (filter p l) = match fk k l with Some s => if p s then Some s else None | None => None end.
Proof.
  induction l as [|a l IH]; intros k N; cbn; [auto|]. cbn in N. inversion N; subst. destruct (beqb_case (s_key a) k) as [[E1 E]|[E1 E]]; rewrite E1.
  - destruct (p a) eqn:P; cbn.
    + rewrite E1. auto.
    + change (fk k (filter p l) = None). rewrite IH by auto. assert (X : fk k l = None) by (apply fk_none; rewrite <- E; auto). rewrite X. auto.
  - destruct (p a) eqn:P; cbn; [rewrite E1|]; apply IH; auto.
Qed.

Lemma fk_unlink : forall l s k, NoDup (map s_key l) -> NoDup (map s_id l) -> In s l ->
  fk k (session_unlink (s_id s) l) = if bytes_eqb (s_key s) k then None else fk k l.
Proof.
  intros l s k NK NI I. unfold session_unlink. rewrite fk_filter by auto.
  destruct (beqb_case (s_key s) k) as [[-> <-]|[-> E]].
  - rewrite (fk_in _ _ NK I). rewrite Z.eqb_refl. auto.
  - destruct (fk k l) as [x|] eqn:F; [|auto]. apply fk_some in F. destruct F as [F F2].
    destruct (Z.eqb_spec (s_id x) (s_id s)) as [E2|E2]; [|auto]. exfalso. apply E.
    assert (X := deref_in _ _ NI F). rewrite E2 in X. rewrite (deref_in _ _ NI I) in X. congruence.
Qed.

Lemma ret_remove : forall k k' h, h_retrieve k' (h_remove k h) = if bytes_eqb k k' then None else h_retrieve k' h.
Proof.
  induction h as [|[a i] h IH]; [cbn; destruct (bytes_eqb k k'); auto|].
  change (h_remove k ((a, i) :: h)) with (if negb (bytes_eqb a k) then (a, i) :: h_remove k h else h_remove k h).
  destruct (beqb_case a k) as [[E ->]|[E N]]; rewrite E; cbn [negb h_retrieve].
  - rewrite IH. destruct (beqb_case k k') as [[E2 E3]|[E2 E3]]; rewrite E2; auto.
  - destruct (beqb_case a k') as [[E2 E3]|[E2 E3]]; rewrite E2; [|apply IH].
    subst. destruct (beqb_case k k') as [[E4 E5]|[E4 E5]]; rewrite E4; auto. subst. congruence.
Qed.

Record sinv (t : stab) : Prop := mkSinv {
  v_keys : NoDup (map s_key (t_list t));
  v_ids : NoDup (map s_id (t_list t));
  v_hash : forall k, h_retrieve k (t_hash t) = option_map s_id (fk k (t_list t));
  v_fresh : forall s, In s (t_list t) -> s_id s < t_fresh t;
  v_ok : forall s, In s (t_list t) -> ts_ok (s_exp s)
}.
Lemma sinv_new : sinv session_table_new.
Proof. constructor; cbn; try (intros; tauto); try constructor. Qed.

Definition view (t : stab) (k : bytes) : option (Z * Z) :=
  option_map (fun s => (s_be s, ns (s_exp s))) (fk k (t_list t)).

Lemma expiry_ok : forall now ttl, ts_ok now -> ts_ok (expiry now ttl) /\ ns (expiry now ttl) = ns now + ttl * sec.
Proof. unfold ts_ok, expiry, ns, sec. cbn. intros. lia. Qed.

Lemma nodup_snoc : forall (A : Type) (l : list A) a, NoDup l -> ~ In a l -> NoDup (l ++ [a]).
Proof.
  intros A l a N I. apply (NoDup_Add (a := a) (l := l)); [|auto].
  replace l with (l ++ []) at 1 by apply app_nil_r. apply Add_app.
Qed.
Lemma in_unlink : forall i l x, In x (session_unlink i l) <-> In x l /\ s_id x <> i.
Proof. intros. unfold session_unlink. rewrite filter_In. split; intros [A B]; split; auto; lia. Qed.

(* the sorted part: sessions ordered by expiry, all before the bound *)
Definition le_exp (a b : sess) : Prop := ns (s_exp a) <= ns (s_exp b).
Definition ordered (l : list sess) (bound : Z) : Prop :=
  StronglySorted le_exp l /\ Forall (fun s => ns (s_exp s) <= bound) l.

Lemma ss_filter : forall (A : Type) (R : A -> A -> Prop) p l, StronglySorted R l -> StronglySorted R (filter p l).
Proof.
  induction l as [|a l IH]; intros S; cbn; [constructor|]. inversion S as [|? ? S' F]; subst.
  destruct (p a); auto. constructor; auto. apply Forall_forall. intros x X. apply filter_In in X.
  rewrite Forall_forall in F. apply F. tauto.
Qed.
Lemma f_filter : forall (A : Type) (P : A -> Prop) p l, Forall P l -> Forall P (filter p l).
Proof. intros. apply Forall_forall. intros x X. apply filter_In in X. rewrite Forall_forall in H. apply H. tauto. Qed.
Lemma ss_snoc : forall (A : Type) (R : A -> A -> Prop) l a, StronglySorted R l -> Forall (fun x => R x a) l -> StronglySorted R (l ++ [a]).
Proof.
  induction l as [|x l IH]; intros a S F; cbn; [constructor; constructor|].
  inversion S as [|? ? S' Fx]; subst. inversion F; subst. constructor; [auto|]. apply Forall_app. auto.
Qed.

(* pending run is preserved when the head's expiry does not decrease; needs order *)
Lemma filter_head : forall p l s l', StronglySorted le_exp l -> filter p l = s :: l' ->
  exists h r, l = h :: r /\ ns (s_exp h) <= ns (s_exp s).
Proof.
  intros p [|h r] s l' S E; [discriminate|]. exists h, r. split; auto.
  assert (I : In s (h :: r)) by (apply (proj1 (filter_In p s (h :: r))); rewrite E; left; auto).
  inversion S as [|? ? _ F]; subst. destruct I as [->|I]; [lia|]. rewrite Forall_forall in F. apply F. auto.
Qed.

Definition scheduled (l : list sess) (rs : list timespec) : Prop :=
  forall s l', l = s :: l' -> exists T, In T rs /\ ts_ok T /\ ns T <= ns (s_exp s).
Record full (t : stab) (bound : Z) : Prop := mkFull {
  f_inv : sinv t; f_ord : ordered (t_list t) bound; f_sched : scheduled (t_list t) (t_runs t) }.

(* find *)
Lemma find_found : forall ttl k now t s, sinv t -> fk k (t_list t) = Some s ->
  service_session_find ttl k now t = (service_session_promote ttl now s t, Some (s_be s)).
Proof.
  intros ttl k now t s V F. unfold service_session_find. rewrite (v_hash t V), F. cbn.
  destruct (fk_some _ _ _ F) as [I _]. rewrite (deref_in _ _ (v_ids t V) I). auto.
Qed.
Lemma find_absent : forall ttl k now t, sinv t -> fk k (t_list t) = None ->
  service_session_find ttl k now t = (t, None).
Proof. intros ttl k now t V F. unfold service_session_find. rewrite (v_hash t V), F. auto. Qed.


(* promote *)
Lemma promote_inv : forall ttl now s t, sinv t -> In s (t_list t) -> ts_ok now ->
  sinv (service_session_promote ttl now s t).
Proof.
  intros ttl now s t V I O. destruct V as [K D H F X]. unfold service_session_promote.
  set (s' := mkS (s_id s) (s_key s) (s_be s) (expiry now ttl)).
  constructor; cbn [t_list t_hash t_fresh].
  - rewrite map_app. cbn. apply nodup_snoc; [apply filter_map_nodup; auto|].
    apply fk_none. rewrite fk_unlink, beqb_refl by auto. auto.
  - rewrite map_app. cbn. apply nodup_snoc; [apply filter_map_nodup; auto|].
    intro Y. apply in_map_iff in Y. destruct Y as (y & E & Y). apply in_unlink in Y. tauto.
  - intros k. rewrite H, fk_app, fk_unlink by auto. cbn.
    destruct (beqb_case (s_key s) k) as [[E1 E]|[E1 E]]; rewrite E1.
    + subst k. rewrite (fk_in _ _ K I). auto.
    + destruct (fk k (t_list t)); auto.
  - intros x Y. apply in_app_or in Y. destruct Y as [Y|[<-|[]]]; cbn; auto. apply in_unlink in Y. apply F. tauto.
  - intros x Y. apply in_app_or in Y. destruct Y as [Y|[<-|[]]]; cbn; [|apply expiry_ok; auto]. apply in_unlink in Y. apply X. tauto.
Qed.
Lemma promote_view : forall ttl now s t k, sinv t -> In s (t_list t) -> ts_ok now ->
  view (service_session_promote ttl now s t) k =
  if bytes_eqb (s_key s) k then Some (s_be s, ns now + ttl * sec) else view t k.
Proof.
  intros ttl now s t k V I O. destruct V as [K D H F X]. unfold view, service_session_promote. cbn [t_list].
  rewrite fk_app, fk_unlink by auto. destruct (expiry_ok now ttl O) as [_ E0].
  cbn. destruct (beqb_case (s_key s) k) as [[E1 E]|[E1 E]]; rewrite E1; cbn; [rewrite E0; auto|].
  destruct (fk k (t_list t)); auto.
Qed.
Lemma ordered_snoc : forall l b n b', ordered l b -> b <= b' -> ns (s_exp n) = b' -> ordered (l ++ [n]) b'.
Proof.
  intros l b n b' [S F] B E. split.
  - apply ss_snoc; auto. eapply Forall_impl; [|exact F]. unfold le_exp. cbn. intros. lia.
  - apply Forall_app. split; [eapply Forall_impl; [|exact F]; cbn; intros; lia|]. constructor; [lia|constructor].
Qed.
Lemma ordered_filter : forall p l b, ordered l b -> ordered (filter p l) b.
Proof. intros p l b [S F]. split; [apply ss_filter|apply f_filter]; auto. Qed.
Lemma sched_filter : forall p l b rs, ordered l b -> scheduled l rs -> scheduled (filter p l) rs.
Proof.
  intros p l b rs [S _] H s l' E. destruct (filter_head _ _ _ _ S E) as (h & r & -> & L).
  destruct (H h r eq_refl) as (T & A & B & C). exists T. repeat split; auto; try apply B. lia.
Qed.
Lemma sched_filter_snoc : forall p l b rs n, ordered l b -> scheduled l rs -> l <> [] ->
  b <= ns (s_exp n) -> scheduled (filter p l ++ [n]) rs.
Proof.
  intros p l b rs n O H NE B s l' E. destruct l as [|h r]; [congruence|].
  destruct (H h r eq_refl) as (T & A1 & A2 & A3). exists T. split; auto. split; auto.
  destruct (filter p (h :: r)) as [|x y] eqn:EF.
  - cbn in E. injection E as <- _. destruct O as [_ F]. inversion F; subst. lia.
  - cbn in E. injection E as <- _. destruct O as [S _]. destruct (filter_head _ _ _ _ S EF) as (h' & r' & E' & L).
    injection E' as <- <-. lia.
Qed.
Lemma promote_full : forall ttl now s t b, full t b -> In s (t_list t) -> ts_ok now ->
  b <= ns now + ttl * sec ->
  full (service_session_promote ttl now s t) (ns now + ttl * sec).
Proof.
  intros ttl now s t b [V O H] I K B. destruct (expiry_ok now ttl K) as [_ E0].
  constructor; [apply promote_inv; auto| |]; unfold service_session_promote; cbn [t_list t_runs].
  - apply (ordered_snoc _ b); auto. apply ordered_filter. auto.
  - apply (sched_filter_snoc _ _ b); auto; [|cbn [s_exp]; lia]. intro X. rewrite X in I. destruct I.
Qed.

(* add *)
Lemma add_list : forall ttl k be now t, sinv t ->
  let n := mkS (t_fresh t) k be (expiry now ttl) in
  service_session_add ttl k be now t =
  mkT ((k, t_fresh t) :: h_remove k (t_hash t))
      (filter (fun s => negb (bytes_eqb (s_key s) k)) (t_list t) ++ [n])
      (match filter (fun s => negb (bytes_eqb (s_key s) k)) (t_list t) ++ [n] with [_] => t_runs t ++ [s_exp n] | _ => t_runs t end)
      (t_fresh t + 1).
Proof.
  intros ttl k be now t V n. unfold service_session_add, h_insert. fold n.
  assert (E : match h_retrieve k (t_hash t) with Some i => session_unlink i (t_list t) | None => t_list t end
    = filter (fun s => negb (bytes_eqb (s_key s) k)) (t_list t)).
  { rewrite (v_hash t V). destruct (fk k (t_list t)) as [s|] eqn:F; cbn.
    - destruct (fk_some _ _ _ F) as [I E]. unfold session_unlink. apply filter_ext_in. intros x X. f_equal.
      destruct (Z.eqb_spec (s_id x) (s_id s)) as [E1|E1]; symmetry.
      + assert (Y := deref_in _ _ (v_ids t V) X). rewrite E1, (deref_in _ _ (v_ids t V) I) in Y. injection Y as ->.
        rewrite E. apply beqb_refl.
      + apply beqb_neq. intros E2. apply E1. rewrite <- E in E2.
        assert (Y := fk_in _ _ (v_keys t V) X). rewrite E2, (fk_in _ _ (v_keys t V) I) in Y. congruence.
    - apply fk_none in F. revert F. generalize (t_list t). induction l as [|x l IH]; intros F; cbn; [auto|].
      cbn in F. assert (E : bytes_eqb (s_key x) k = false) by (apply beqb_neq; tauto). rewrite E. cbn.
      f_equal. apply IH. tauto. }
  rewrite E. reflexivity.
Qed.
Lemma add_inv : forall ttl k be now t, sinv t -> ts_ok now -> sinv (service_session_add ttl k be now t).
Proof.
  intros ttl k be now t V O. rewrite add_list by auto. destruct V as [K D H F X].
  constructor; cbn [t_list t_hash t_fresh].
  - rewrite map_app. cbn. apply nodup_snoc; [apply filter_map_nodup; auto|].
    intro Y. apply in_map_iff in Y. destruct Y as (y & E & Y). apply filter_In in Y. destruct Y as [_ Y].
    rewrite E, beqb_refl in Y. discriminate.
  - rewrite map_app. cbn. apply nodup_snoc; [apply filter_map_nodup; auto|].
    intro Y. apply in_map_iff in Y. destruct Y as (y & E & Y). apply filter_In in Y. destruct Y as [Y _].
    apply F in Y. lia.
  - intros k'. cbn [h_retrieve]. rewrite ret_remove, fk_app, fk_filter, H by auto.
    destruct (beqb_case k k') as [[E1 E]|[E1 E]]; rewrite E1.
    + subst k'. destruct (fk k (t_list t)) as [s|] eqn:Fk; cbn.
      * destruct (fk_some _ _ _ Fk) as [_ E]. rewrite E, beqb_refl. cbn. auto.
      * rewrite beqb_refl. auto.
    + destruct (fk k' (t_list t)) as [s|] eqn:Fk; cbn.
      * destruct (fk_some _ _ _ Fk) as [_ E2]. replace (bytes_eqb (s_key s) k) with false by (symmetry; apply beqb_neq; congruence). auto.
      * rewrite E1. auto.
  - intros x Y. apply in_app_or in Y. destruct Y as [Y|[<-|[]]]; cbn; [|lia]. apply filter_In in Y.
    destruct Y as [Y _]. apply F in Y. lia.
  - intros x Y. apply in_app_or in Y. destruct Y as [Y|[<-|[]]]; cbn; [|apply expiry_ok; auto]. apply filter_In in Y. apply X. tauto.
Qed.
Lemma add_view : forall ttl k be now t k', sinv t -> ts_ok now ->
  view (service_session_add ttl k be now t) k' = if bytes_eqb k k' then Some (be, ns now + ttl * sec) else view t k'.
Proof.
  intros ttl k be now t k' V O. rewrite add_list by auto. destruct V as [K D H F X]. unfold view. cbn [t_list].
  destruct (expiry_ok now ttl O) as [_ E0].
  rewrite fk_app, fk_filter by auto. destruct (beqb_case k k') as [[E1 E]|[E1 E]]; rewrite E1.
  - subst k'. destruct (fk k (t_list t)) as [s|] eqn:Fk; cbn.
    + destruct (fk_some _ _ _ Fk) as [_ E]. rewrite E, beqb_refl. cbn. rewrite E0. auto.
    + rewrite beqb_refl. cbn. rewrite E0. auto.
  - destruct (fk k' (t_list t)) as [s|] eqn:Fk; cbn.
    + destruct (fk_some _ _ _ Fk) as [_ E2]. replace (bytes_eqb (s_key s) k) with false by (symmetry; apply beqb_neq; congruence). auto.
    + rewrite E1. auto.
Qed.
Lemma add_full : forall ttl k be now t b, full t b -> ts_ok now -> b <= ns now + ttl * sec ->
  full (service_session_add ttl k be now t) (ns now + ttl * sec).
Proof.
  intros ttl k be now t b [V O H] K B. destruct (expiry_ok now ttl K) as [E1 E0].
  constructor; [apply add_inv; auto| |]; rewrite add_list by auto; cbn [t_list t_runs].
  - apply (ordered_snoc _ b); auto. apply ordered_filter. auto.
  - set (p := fun s => negb (bytes_eqb (s_key s) k)). set (n := mkS (t_fresh t) k be (expiry now ttl)).
    destruct (filter p (t_list t)) as [|x y] eqn:EF; cbn [app].
    + intros s l' E. injection E as <- <-. exists (s_exp n). split; [apply in_or_app; right; left; auto|]. split; auto. lia.
    + replace (match y ++ [n] with [] => t_runs t ++ [s_exp n] | _ :: _ => t_runs t end) with (t_runs t) by (destruct y; auto).
      change (x :: y ++ [n]) with ((x :: y) ++ [n]). rewrite <- EF.
      apply (sched_filter_snoc _ _ b); auto; [|subst n; cbn [s_exp]; lia]. intro Z. rewrite Z in EF. discriminate.
Qed.

(* delete by key *)
Lemma del_list : forall k t, sinv t -> service_session_remove_by_key k t =
  mkT (h_remove k (t_hash t)) (filter (fun s => negb (bytes_eqb (s_key s) k)) (t_list t)) (t_runs t) (t_fresh t).
Proof.
  intros k t V. assert (A := add_list 0 k 0 (mkTs 0 0) t V). cbn in A. unfold service_session_add, h_insert in A.
  unfold service_session_remove_by_key, h_delete. injection A as A _.
  apply app_inj_tail in A. destruct A as [A _]. rewrite <- A. destruct (h_retrieve k (t_hash t)); auto.
Qed.

(* removal of a set of sessions, with their hash entries *)
Lemma filter_inv : forall p h t, sinv t ->
  (forall k, h_retrieve k h = option_map s_id (fk k (filter p (t_list t)))) ->
  sinv (mkT h (filter p (t_list t)) (t_runs t) (t_fresh t)).
Proof.
  intros p h t [K D H F X] E. constructor; cbn [t_list t_hash t_fresh]; auto.
  - apply filter_map_nodup; auto.
  - apply filter_map_nodup; auto.
  - intros s Y. apply filter_In in Y. apply F. tauto.
  - intros s Y. apply filter_In in Y. apply X. tauto.
Qed.
Lemma del_inv : forall k t, sinv t -> sinv (service_session_remove_by_key k t).
Proof.
  intros k t V. rewrite del_list by auto. apply filter_inv; auto. intros k'.
  rewrite ret_remove, fk_filter, (v_hash t V) by apply (v_keys t V).
  destruct (fk k' (t_list t)) as [s|] eqn:F; cbn; [|destruct (bytes_eqb k k'); auto].
  destruct (fk_some _ _ _ F) as [_ <-]. rewrite (bytes_eqb_sym k). destruct (bytes_eqb (s_key s) k); auto.
Qed.
Lemma del_view : forall k t k', sinv t -> view (service_session_remove_by_key k t) k' = if bytes_eqb k k' then None else view t k'.
Proof.
  intros k t k' V. rewrite del_list by auto. unfold view. cbn [t_list]. rewrite fk_filter by apply (v_keys t V).
  destruct (fk k' (t_list t)) as [s|] eqn:F; cbn; [|destruct (bytes_eqb k k'); auto].
  destruct (fk_some _ _ _ F) as [_ <-]. rewrite (bytes_eqb_sym k). destruct (bytes_eqb (s_key s) k); auto.
Qed.
Lemma filter_full : forall p h t b, full t b ->
  sinv (mkT h (filter p (t_list t)) (t_runs t) (t_fresh t)) ->
  full (mkT h (filter p (t_list t)) (t_runs t) (t_fresh t)) b.
Proof.
  intros p h t b [V O H] I. constructor; auto; cbn; [apply ordered_filter; auto|apply (sched_filter _ _ b); auto].
Qed.

(* kill *)
Lemma fold_remove : forall ss h k, h_retrieve k (fold_left (fun h s => fst (h_delete (s_key s) h)) ss h) =
  if existsb (fun s => bytes_eqb (s_key s) k) ss then None else h_retrieve k h.
Proof.
  induction ss as [|s ss IH]; intros h k; cbn; [auto|]. rewrite IH, ret_remove.
  destruct (bytes_eqb (s_key s) k); cbn; [|auto]. destruct (existsb _ ss); auto.
Qed.
Lemma existsb_fk : forall k l, existsb (fun s => bytes_eqb (s_key s) k) l = match fk k l with Some _ => true | None => false end.
Proof. induction l as [|s l IH]; cbn; auto. destruct (bytes_eqb (s_key s) k); cbn; auto. Qed.
Lemma kill_inv : forall be t, sinv t -> sinv (service_session_remove_by_backend be t).
Proof.
  intros be t V. apply filter_inv; auto. intros k. rewrite fold_remove, existsb_fk, !fk_filter, (v_hash t V) by apply (v_keys t V).
  destruct (fk k (t_list t)) as [s|]; cbn; [|auto]. destruct (s_be s =? be); auto.
Qed.
Lemma kill_view : forall be t k, sinv t -> view (service_session_remove_by_backend be t) k =
  match view t k with Some (b, e) => if b =? be then None else Some (b, e) | None => None end.
Proof.
  intros be t k V. unfold view, service_session_remove_by_backend. cbn [t_list]. rewrite fk_filter by apply (v_keys t V).
  destruct (fk k (t_list t)) as [s|]; cbn; [|auto]. destruct (s_be s =? be); auto.
Qed.

(* expiry *)
Lemma expire_split : forall T l h, exists d r, l = d ++ r /\
  expire_loop T h l = (fold_left (fun h s => fst (h_delete (s_key s) h)) d h, r) /\
  Forall (fun s => timespec_cmp (s_exp s) T <=? 0 = true) d /\
  match r with s :: _ => timespec_cmp (s_exp s) T <=? 0 = false | [] => True end.
Proof.
  induction l as [|s l IH]; intros h; cbn [expire_loop].
  - exists [], []. cbn. auto.
  - destruct (timespec_cmp (s_exp s) T <=? 0) eqn:E.
    + destruct (IH (fst (h_delete (s_key s) h))) as (d & r & -> & A & B & C). exists (s :: d), r. cbn. auto.
    + exists [], (s :: l). cbn. auto.
Qed.
Lemma nodup_app : forall (A : Type) (a b : list A), NoDup (a ++ b) -> NoDup b /\ forall x, In x a -> ~ In x b.
Proof.
  induction a as [|x a IH]; intros b N; cbn in *; [split; auto|]. inversion N; subst. destruct (IH b H2) as [P Q].
  split; auto. intros y [->|Y]; auto. intro Z. apply H1. apply in_or_app. auto.
Qed.
Lemma expire_inv : forall T t, sinv t -> sinv (expire_sessions T t).
Proof.
  intros T t V. unfold expire_sessions. destruct (expire_split T (t_list t) (t_hash t)) as (d & r & EL & -> & _ & _).
  destruct V as [K D H F X]. constructor; cbn [t_list t_hash t_fresh].
  - rewrite EL, map_app in K. apply nodup_app in K. tauto.
  - rewrite EL, map_app in D. apply nodup_app in D. tauto.
  - intros k. rewrite fold_remove, existsb_fk, H, EL, fk_app. destruct (fk k d) as [s|] eqn:Fd; [|auto].
    destruct (fk_some _ _ _ Fd) as [I <-]. assert (N : fk (s_key s) r = None); [|rewrite N; auto].
    apply fk_none. rewrite EL, map_app in K. apply nodup_app in K. apply K. apply in_map. auto.
  - intros s I. apply F. rewrite EL. apply in_or_app. auto.
  - intros s I. apply X. rewrite EL. apply in_or_app. auto.
Qed.
(* without order: what is still unexpired stays *)
Lemma expire_keeps : forall T t k b e, sinv t -> ts_ok T -> view t k = Some (b, e) -> ns T < e ->
  view (expire_sessions T t) k = Some (b, e).
Proof.
  intros T t k b e V O W L. unfold view, expire_sessions in *.
  destruct (expire_split T (t_list t) (t_hash t)) as (d & r & EL & -> & C & _). cbn [t_list].
  rewrite EL, fk_app in W. destruct (fk k d) as [s|] eqn:Fd; [|exact W].
  exfalso. cbn in W. injection W as <- <-. destruct (fk_some _ _ _ Fd) as [I _].
  rewrite Forall_forall in C. apply C in I as J. apply cmp_le in J; auto; [lia|].
  apply (v_ok t V). rewrite EL. apply in_or_app. auto.
Qed.
Lemma expire_absent : forall T t k, sinv t -> view t k = None -> view (expire_sessions T t) k = None.
Proof.
  intros T t k V W. unfold view, expire_sessions in *.
  destruct (expire_split T (t_list t) (t_hash t)) as (d & r & EL & -> & C & _). cbn [t_list].
  rewrite EL, fk_app in W. destruct (fk k d) as [s|] eqn:Fd; [discriminate|exact W].
Qed.
Lemma expire_filter : forall T t b, full t b -> ts_ok T ->
  t_list (expire_sessions T t) = filter (fun s => ns T <? ns (s_exp s)) (t_list t).
Proof.
  intros T t b [V [S _] _] O. unfold expire_sessions.
  destruct (expire_split T (t_list t) (t_hash t)) as (d & r & EL & -> & C & D). cbn [t_list].
  assert (OK : forall s, In s (t_list t) -> ts_ok (s_exp s)) by apply (v_ok t V).
  rewrite EL in *. rewrite filter_app.
  replace (filter (fun s => ns T <? ns (s_exp s)) d) with (@nil sess).
  - cbn. destruct r as [|x r]; [auto|].
    assert (P : forall s, In s (x :: r) -> (ns T <? ns (s_exp s)) = true).
    { assert (OX : ts_ok (s_exp x)) by (apply OK; apply in_or_app; right; left; auto).
      assert (LX : ns T < ns (s_exp x)) by (assert (Q := cmp_le _ _ OX O); lia).
      assert (SR : StronglySorted le_exp (x :: r)) by (clear - S; induction d; cbn in *; [auto|inversion S; auto]).
      inversion SR as [|? ? _ Fx]; subst. rewrite Forall_forall in Fx.
      intros s [->|I]; [lia|]. apply Fx in I. unfold le_exp in I. lia. }
    clear - P. induction (x :: r) as [|y l IH]; cbn; [auto|]. rewrite P by (left; auto). f_equal. apply IH.
    intros s I. apply P. right. auto.
  - symmetry. clear - C OK O. induction d as [|y d IH]; cbn; [auto|]. inversion C; subst.
    assert (OY : ts_ok (s_exp y)) by (apply OK; left; auto).
    assert (Q := cmp_le _ _ OY O). destruct (Z.ltb_spec (ns T) (ns (s_exp y))); [lia|]. apply IH; auto.
    intros s I. apply OK. right. auto.
Qed.
Lemma expire_view : forall T t b k, full t b -> ts_ok T -> view (expire_sessions T t) k =
  match view t k with Some (b, e) => if e <=? ns T then None else Some (b, e) | None => None end.
Proof.
  intros T t b k F O. unfold view. rewrite (expire_filter T t b) by auto.
  rewrite fk_filter by apply (v_keys t (f_inv t b F)).
  destruct (fk k (t_list t)) as [s|]; cbn; [|auto].
  destruct (Z.ltb_spec (ns T) (ns (s_exp s))), (Z.leb_spec (ns (s_exp s)) (ns T)); auto; lia.
Qed.
Lemma expire_full : forall T t b, full t b -> ts_ok T -> full (expire_sessions T t) b.
Proof.
  intros T t b F O. assert (E := expire_filter T t b F O). assert (I := expire_inv T t (f_inv t b F)).
  constructor; auto.
  - rewrite E. apply ordered_filter. apply (f_ord t b F).
  - intros s l' EL. exists (s_exp s). assert (IN : In s (t_list (expire_sessions T t))) by (rewrite EL; left; auto).
    split; [|split; [apply (v_ok _ I); auto|lia]].
    unfold expire_sessions in *. destruct (expire_loop T (t_hash t) (t_list t)) as [h l]. clear E. cbn in *. rewrite EL. apply in_or_app. right. left. auto.
Qed.

(* one step, as seen through the view *)
Lemma step_inv : forall ttl t o, sinv t -> sop_ok o -> sinv (fst (sstep ttl t o)).
Proof.
  intros ttl t o V O. destruct o as [k now ch|k be now|k be now|k|be|T]; cbn [sstep fst].
  - cbn in O. unfold find_backend_by_key. destruct (fk (firstn KEY_SIZE k) (t_list t)) as [s|] eqn:F.
    + rewrite (find_found _ _ _ _ _ V F). destruct (fk_some _ _ _ F). apply promote_inv; auto.
    + rewrite (find_absent _ _ _ _ V F). destruct ch; cbn; auto. apply add_inv; auto.
  - cbn in O. unfold upd_session. destruct (fk k (t_list t)) as [s|] eqn:F.
    + rewrite (find_found _ _ _ _ _ V F). destruct (fk_some _ _ _ F). apply promote_inv; auto.
    + rewrite (find_absent _ _ _ _ V F). apply add_inv; auto.
  - apply add_inv; auto.
  - apply del_inv; auto.
  - apply kill_inv; auto.
  - apply expire_inv; auto.
Qed.
Lemma view_fk : forall t k, view t k = None <-> fk k (t_list t) = None.
Proof. intros. unfold view. destruct (fk k (t_list t)); cbn; split; congruence. Qed.

Definition view_step (ttl : Z) (t : stab) (o : sop) (m : live) : Prop :=
  (forall k, view t k = m k) ->
  (forall k, view (fst (sstep ttl t o)) k = fst (live_step ttl m o) k) /\
  snd (sstep ttl t o) = snd (live_step ttl m o).

Lemma step_view : forall ttl t o m, sinv t -> sop_ok o -> (forall T, o <> SExpire T) -> view_step ttl t o m.
Proof.
  intros ttl t o m V O NE E. destruct o as [k now ch|k be now|k be now|k|be|T]; cbn [sstep fst live_step snd].
  - cbn in O. unfold find_backend_by_key. rewrite <- E.
    destruct (fk (firstn KEY_SIZE k) (t_list t)) as [s|] eqn:F.
    + rewrite (find_found _ _ _ _ _ V F). destruct (fk_some _ _ _ F) as [I K].
      unfold view at 2 3. rewrite F. cbn [option_map fst snd]. split; auto. intros k'.
      rewrite promote_view by auto. unfold put. rewrite K, (bytes_eqb_sym k'), E. auto.
    + rewrite (find_absent _ _ _ _ V F). unfold view at 2 3. rewrite F. cbn [option_map].
      destruct ch as [b|]; cbn [fst snd]; split; auto. intros k'.
      rewrite add_view by auto. unfold put. rewrite (bytes_eqb_sym k'), E. auto.
  - cbn in O. unfold upd_session. rewrite <- E. destruct (fk k (t_list t)) as [s|] eqn:F.
    + rewrite (find_found _ _ _ _ _ V F). destruct (fk_some _ _ _ F) as [I K].
      unfold view at 2 3. rewrite F. cbn [option_map fst snd]. split; auto. intros k'.
      rewrite promote_view by auto. unfold put. rewrite K, (bytes_eqb_sym k'), E. auto.
    + rewrite (find_absent _ _ _ _ V F). unfold view at 2 3. rewrite F. cbn [option_map fst snd]. split; auto. intros k'.
      rewrite add_view by auto. unfold put. rewrite (bytes_eqb_sym k'), E. auto.
  - split; auto. intros k'. rewrite add_view by auto. unfold put. rewrite (bytes_eqb_sym k'), E. auto.
  - split; auto. intros k'. rewrite del_view by auto. unfold put. rewrite (bytes_eqb_sym k'), E. auto.
  - split; auto. intros k'. rewrite kill_view, E by auto. auto.
  - exfalso. apply (NE T). auto.
Qed.

Lemma step_full : forall ttl t o b m, full t (b + ttl * sec) -> 0 <= ttl ->
  match op_time o with Some now => ts_ok now /\ b <= ns now | None => match o with SExpire T => ts_ok T | _ => True end end ->
  full (fst (sstep ttl t o)) ((match op_time o with Some now => ns now | None => b end) + ttl * sec) /\ view_step ttl t o m.
Proof.
  intros ttl t o b m F P O. assert (V := f_inv _ _ F).
  assert (SO : sop_ok o) by (destruct o; cbn in *; tauto).
  destruct o as [k now ch|k be now|k be now|k|be|T]; cbn [op_time] in O.
  - split; [|apply step_view; auto; discriminate]. cbn [sstep op_time]. unfold find_backend_by_key. destruct O as [O1 O2].
    destruct (fk (firstn KEY_SIZE k) (t_list t)) as [s|] eqn:Fk.
    + rewrite (find_found _ _ _ _ _ V Fk). destruct (fk_some _ _ _ Fk). cbn. apply (promote_full _ _ _ _ (b + ttl * sec)); auto. lia.
    + rewrite (find_absent _ _ _ _ V Fk). destruct ch; cbn [fst].
      * apply (add_full _ _ _ _ _ (b + ttl * sec)); auto. lia.
      * destruct F as [F1 [F2 F3] F4]. constructor; auto. split; auto. eapply Forall_impl; [|exact F3]. cbn; intros; lia.
  - split; [|apply step_view; auto; discriminate]. cbn [sstep op_time]. unfold upd_session. destruct O as [O1 O2].
    destruct (fk k (t_list t)) as [s|] eqn:Fk.
    + rewrite (find_found _ _ _ _ _ V Fk). destruct (fk_some _ _ _ Fk). cbn. apply (promote_full _ _ _ _ (b + ttl * sec)); auto. lia.
    + rewrite (find_absent _ _ _ _ V Fk). cbn [fst]. apply (add_full _ _ _ _ _ (b + ttl * sec)); auto. lia.
  - split; [|apply step_view; auto; discriminate]. destruct O. cbn. apply (add_full _ _ _ _ _ (b + ttl * sec)); auto. lia.
  - split; [|apply step_view; auto; discriminate]. cbn [sstep fst op_time]. assert (X := del_inv k t V). rewrite del_list in * by auto. apply filter_full; auto.
  - split; [|apply step_view; auto; discriminate]. cbn. apply filter_full; auto. apply (kill_inv be t V).
  - split; [cbn; apply expire_full; auto|]. intros E. cbn. split; auto. intros k. rewrite (expire_view T t _ k F), E by auto. auto.
Qed.

Lemma run_full_gen : forall ttl os t b m, 0 <= ttl -> clock_ok b os -> full t (b + ttl * sec) -> (forall k, view t k = m k) ->
  (exists b', full (srun ttl t os) b') /\
  forall k, view (srun ttl t os) k = fold_left (fun m o => fst (live_step ttl m o)) os m k.
Proof.
  induction os as [|o os IH]; intros t b m P C F E; cbn [srun fold_left]; [split; [eauto|exact E]|].
  cbn [clock_ok] in C. change (fold_left (fun t0 o0 => fst (sstep ttl t0 o0)) os (fst (sstep ttl t o))) with (srun ttl (fst (sstep ttl t o)) os).
  destruct (step_full ttl t o b m F P) as [F' VS].
  { destruct (op_time o); tauto. }
  apply (IH _ (match op_time o with Some now => ns now | None => b end)); auto.
  - destruct (op_time o); tauto.
  - apply VS. auto.
Qed.
Lemma full_new : forall b, full session_table_new b.
Proof.
  intros b. constructor; [apply sinv_new|split; constructor|]. intros s l' H. discriminate.
Qed.
Lemma run_full : forall ttl os b, 0 <= ttl -> clock_ok b os ->
  (exists b', full (table ttl os) b') /\ forall k, view (table ttl os) k = live_run ttl os k.
Proof. intros ttl os b P C. apply (run_full_gen ttl os _ b); auto. apply full_new. Qed.
Lemma clock_sop : forall os b, clock_ok b os -> Forall sop_ok os.
Proof.
  induction os as [|o os IH]; intros b C; [constructor|]. cbn in C. constructor.
  - destruct o; cbn in *; tauto.
  - destruct (op_time o) as [now|]; [apply (IH (ns now))|apply (IH b)]; tauto.
Qed.
Lemma run_inv_gen : forall ttl os t, Forall sop_ok os -> sinv t -> sinv (srun ttl t os).
Proof.
  induction os as [|o os IH]; intros t F V; cbn; [auto|]. inversion F; subst. apply IH; auto. apply step_inv; auto.
Qed.
Lemma run_inv : forall ttl os, Forall sop_ok os -> sinv (table ttl os).
Proof. intros. apply run_inv_gen; auto. apply sinv_new. Qed.

Lemma answer_view : forall ttl os key now choice, Forall sop_ok os -> ts_ok now ->
  answer ttl os key now choice = match view (table ttl os) (firstn KEY_SIZE key) with Some (b, _) => Some b | None => choice end.
Proof.
  intros ttl os key now choice F O. assert (V := run_inv ttl os F). unfold answer.
  destruct (step_view ttl _ (SReq key now choice) (view (table ttl os)) V O ltac:(discriminate) (fun _ => eq_refl)) as [_ E].
  rewrite E. cbn. destruct (view (table ttl os) (firstn KEY_SIZE key)) as [[b e]|]; auto. destruct choice; auto.
Qed.

Lemma map_refines : forall ttl os b key now choice, 0 <= ttl -> clock_ok b os -> ts_ok now ->
  answer ttl os key now choice = live_answer ttl os key now choice.
Proof.
  intros ttl os b key now choice P C O. rewrite answer_view by (auto; eapply clock_sop; eauto).
  destruct (run_full ttl os b P C) as [_ E]. rewrite E. unfold live_answer. cbn.
  destruct (live_run ttl os (firstn KEY_SIZE key)) as [[x y]|]; auto. destruct choice; auto.
Qed.

(* stickiness *)
Lemma srun_app : forall ttl a b t, srun ttl t (a ++ b) = srun ttl (srun ttl t a) b.
Proof. intros. unfold srun. apply fold_left_app. Qed.
Lemma table_app : forall ttl a b, table ttl (a ++ b) = srun ttl (table ttl a) b.
Proof. intros. apply srun_app. Qed.

Lemma kept_view : forall ttl key b os t e, Forall sop_ok os -> sinv t -> kept ttl key b e os ->
  view t (firstn KEY_SIZE key) = Some (b, e) ->
  exists e', view (srun ttl t os) (firstn KEY_SIZE key) = Some (b, e').
Proof.
  induction os as [|o os IH]; intros t e F V K W; [cbn; eauto|]. inversion F as [|? ? O F']; subst. cbn [srun fold_left].
  change (fold_left (fun t0 o0 => fst (sstep ttl t0 o0)) os (fst (sstep ttl t o))) with (srun ttl (fst (sstep ttl t o)) os).
  assert (V' := step_inv ttl t o V O).
  assert (SV : (forall T, o <> SExpire T) -> view (fst (sstep ttl t o)) (firstn KEY_SIZE key) = fst (live_step ttl (view t) o) (firstn KEY_SIZE key)).
  { intros NE. destruct (step_view ttl t o (view t) V O NE) as [X _]; auto. }
  destruct o as [k now ch|k be now|k be now|k|be|T]; cbn [kept] in K.
  - refine (IH _ _ F' V' K _). rewrite SV by discriminate. cbn [live_step]. unfold same_keyb.
    destruct (beqb_case (firstn KEY_SIZE key) (firstn KEY_SIZE k)) as [[E1 E]|[E1 E]]; rewrite E1.
    + rewrite <- E, W. cbn. unfold put. rewrite beqb_refl. auto.
    + destruct (view t (firstn KEY_SIZE k)) as [[b1 e1]|]; [|destruct ch]; cbn; unfold put; rewrite ?E1; auto.
  - refine (IH _ _ F' V' K _). rewrite SV by discriminate. cbn [live_step].
    destruct (beqb_case (firstn KEY_SIZE key) k) as [[E1 E]|[E1 E]]; rewrite E1.
    + rewrite <- E, W. cbn. unfold put. rewrite beqb_refl. auto.
    + destruct (view t k) as [[b1 e1]|]; cbn; unfold put; rewrite ?E1; auto.
  - destruct K as [K1 K]. refine (IH _ _ F' V' K _). rewrite SV by discriminate. cbn. unfold put.
    rewrite (proj2 (beqb_neq _ _) K1). auto.
  - destruct K as [K1 K]. refine (IH _ _ F' V' K _). rewrite SV by discriminate. cbn. unfold put.
    rewrite (proj2 (beqb_neq _ _) K1). auto.
  - destruct K as [K1 K]. refine (IH _ _ F' V' K _). rewrite SV by discriminate. cbn. rewrite W.
    destruct (Z.eqb_spec b be); [congruence|auto].
  - destruct K as [K1 K]. refine (IH _ _ F' V' K _). cbn [sstep fst]. apply expire_keeps; auto.
Qed.

Lemma sticky : forall ttl os1 key t1 c1 b os2 t2 c2,
  Forall sop_ok (os1 ++ SReq key t1 c1 :: os2) -> ts_ok t2 ->
  answer ttl os1 key t1 c1 = Some b ->
  kept ttl key b (ns t1 + ttl * sec) os2 ->
  answer ttl (os1 ++ SReq key t1 c1 :: os2) key t2 c2 = Some b.
Proof.
  intros ttl os1 key t1 c1 b os2 t2 c2 F O A K.
  apply Forall_app in F as F1. destruct F1 as [F1 F2]. inversion F2 as [|? ? O1 F3]; subst.
  rewrite answer_view by auto. assert (V := run_inv ttl os1 F1).
  change (os1 ++ SReq key t1 c1 :: os2) with (os1 ++ [SReq key t1 c1] ++ os2). rewrite table_app, srun_app.
  set (t := table ttl os1) in *. cbn [srun fold_left].
  assert (V' := step_inv ttl t (SReq key t1 c1) V O1).
  destruct (step_view ttl t (SReq key t1 c1) (view t) V O1 ltac:(discriminate) (fun _ => eq_refl)) as [SV SR].
  change (snd (sstep ttl t (SReq key t1 c1))) with (answer ttl os1 key t1 c1) in SR. rewrite A in SR.
  destruct (kept_view ttl key b os2 (fst (sstep ttl t (SReq key t1 c1))) (ns t1 + ttl * sec) F3 V' K) as (e' & E).
  - rewrite SV. cbn [live_step] in *. destruct (view t (firstn KEY_SIZE key)) as [[b1 e1]|].
    + cbn in *. unfold put. rewrite beqb_refl. congruence.
    + destruct c1; cbn in *; [|discriminate]. unfold put. rewrite beqb_refl. congruence.
  - rewrite E. auto.
Qed.

Lemma no_new_view : forall ttl key os t, Forall sop_ok os -> sinv t -> Forall (no_new key) os ->
  view t (firstn KEY_SIZE key) = None -> view (srun ttl t os) (firstn KEY_SIZE key) = None.
Proof.
  induction os as [|o os IH]; intros t F V N W; [cbn; auto|].
  inversion F as [|? ? O F']; subst. inversion N as [|? ? N1 N']; subst. cbn [srun fold_left].
  apply IH; auto; [apply step_inv; auto|].
  destruct (match o with SExpire _ => true | _ => false end) eqn:EX.
  - destruct o; try discriminate. cbn. apply expire_absent; auto.
  - assert (NE : forall T, o <> SExpire T) by (intros T ->; discriminate).
    destruct (step_view ttl t o (view t) V O NE (fun _ => eq_refl)) as [X _]. rewrite X.
    destruct o as [k now ch|k be now|k be now|k|be|T]; cbn [live_step no_new] in *.
    + unfold same_key in N1. apply beqb_neq in N1.
      destruct (view t (firstn KEY_SIZE k)) as [[b1 e1]|]; [|destruct ch]; cbn; unfold put; rewrite ?N1; auto.
    + apply beqb_neq in N1. destruct (view t k) as [[b1 e1]|]; cbn; unfold put; rewrite ?N1; auto.
    + apply beqb_neq in N1. cbn. unfold put. rewrite N1. auto.
    + cbn. unfold put. destruct (bytes_eqb (firstn KEY_SIZE key) k); auto.
    + cbn. rewrite W. auto.
    + discriminate.
Qed.

Lemma gone : forall ttl os1 o os2 key now choice, Forall sop_ok (os1 ++ o :: os2) -> ts_ok now ->
  view (table ttl (os1 ++ [o])) (firstn KEY_SIZE key) = None -> Forall (no_new key) os2 ->
  answer ttl (os1 ++ o :: os2) key now choice = choice.
Proof.
  intros ttl os1 o os2 key now choice F O W N. rewrite answer_view by auto.
  replace (os1 ++ o :: os2) with ((os1 ++ [o]) ++ os2) in * by (rewrite <- app_assoc; reflexivity).
  apply Forall_app in F as [F1 F2]. rewrite table_app. rewrite no_new_view; auto. apply run_inv; auto.
Qed.
Lemma gone_deleted : forall ttl os1 k os2 key now choice, Forall sop_ok (os1 ++ SDel k :: os2) -> ts_ok now ->
  firstn KEY_SIZE key = k -> Forall (no_new key) os2 ->
  answer ttl (os1 ++ SDel k :: os2) key now choice = choice.
Proof.
  intros ttl os1 k os2 key now choice F O E N. apply gone; auto. rewrite table_app. cbn [srun fold_left sstep fst].
  apply Forall_app in F as [F1 _]. rewrite del_view by (apply run_inv; auto). rewrite E, beqb_refl. auto.
Qed.
Lemma gone_killed : forall ttl os1 b os2 key now now' choice, Forall sop_ok (os1 ++ SKill b :: os2) -> ts_ok now -> ts_ok now' ->
  answer ttl os1 key now' None = Some b -> Forall (no_new key) os2 ->
  answer ttl (os1 ++ SKill b :: os2) key now choice = choice.
Proof.
  intros ttl os1 b os2 key now now' choice F O O' A N. apply gone; auto. rewrite table_app. cbn [srun fold_left sstep fst].
  apply Forall_app in F as [F1 _]. rewrite answer_view in A by auto. rewrite kill_view by (apply run_inv; auto).
  destruct (view (table ttl os1) (firstn KEY_SIZE key)) as [[x e]|]; [|discriminate]. injection A as ->. rewrite Z.eqb_refl. auto.
Qed.
Lemma gone_expired : forall ttl os1 key t1 c1 T os2 b0 now choice, 0 <= ttl -> 
  clock_ok b0 (os1 ++ SReq key t1 c1 :: os2 ++ [SExpire T]) -> ts_ok now ->
  Forall (no_new key) os2 -> ns t1 + ttl * sec <= ns T ->
  answer ttl (os1 ++ SReq key t1 c1 :: os2 ++ [SExpire T]) key now choice = choice.
Proof.
  intros ttl os1 key t1 c1 T os2 b0 now choice P C O N L. rewrite (map_refines ttl _ b0) by auto.
  unfold live_answer. cbn [live_step]. replace (os1 ++ SReq key t1 c1 :: os2 ++ [SExpire T]) with ((os1 ++ [SReq key t1 c1] ++ os2) ++ [SExpire T])
    by (rewrite <- !app_assoc; reflexivity).
  unfold live_run. rewrite fold_left_app. cbn [fold_left].
  set (m := fold_left _ (os1 ++ _) _). cbn [live_step fst].
  assert (M : match m (firstn KEY_SIZE key) with Some (_, e) => e <= ns T | None => True end).
  { subst m. rewrite fold_left_app. cbn [app fold_left]. set (m0 := fold_left _ os1 _).
    assert (M1 : match fst (live_step ttl m0 (SReq key t1 c1)) (firstn KEY_SIZE key) with Some (_, e) => e <= ns T | None => True end).
    { cbn. destruct (m0 (firstn KEY_SIZE key)) as [[b1 e1]|] eqn:E0; [|destruct c1]; cbn; unfold put; rewrite ?beqb_refl; auto.
      rewrite E0. auto. }
    revert M1. generalize (fst (live_step ttl m0 (SReq key t1 c1))). clear - N.
    induction os2 as [|o os IH]; intros m M; cbn; [auto|]. inversion N as [|? ? N1 N2]; subst. apply IH; auto.
    destruct o as [k now ch|k be now|k be now|k|be|T']; cbn [live_step no_new] in *.
    + apply beqb_neq in N1. destruct (m (firstn KEY_SIZE k)) as [[b1 e1]|]; [|destruct ch]; cbn; unfold put; rewrite ?N1; auto.
    + apply beqb_neq in N1. destruct (m k) as [[b1 e1]|]; cbn; unfold put; rewrite ?N1; auto.
    + apply beqb_neq in N1. cbn. unfold put. rewrite N1. auto.
    + cbn. unfold put. destruct (bytes_eqb (firstn KEY_SIZE key) k); auto.
    + cbn. destruct (m (firstn KEY_SIZE key)) as [[b1 e1]|]; auto. destruct (b1 =? be); auto.
    + cbn. destruct (m (firstn KEY_SIZE key)) as [[b1 e1]|]; auto. destruct (e1 <=? ns T'); auto. }
  destruct (m (firstn KEY_SIZE key)) as [[b1 e1]|].
  - destruct (Z.leb_spec e1 (ns T)); [|lia]. destruct choice; auto.
  - destruct choice; auto.
Qed.
