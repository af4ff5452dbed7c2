(** C38: linked lists. *)
From Coq Require Import List Arith Bool Lia.
From Verif Require Import ListModel ListSpec ListProofs.
Import ListNotations.

(** Every sequence of operations on doubly linked lists, in which elements are
    inserted when they are in no list, next to elements of the list, and removed
    when they are in the list, is carried out without using a NULL pointer, and
    afterwards the heads and the traversals in both directions show the sequences. *)
Theorem C38_dlist : forall n p ops s, dspecs empty ops s ->
  exists m, drun ops (start n p) = Some m /\ dshows m s.
Proof.
  intros n p ops s S. destruct (drun_ok empty ops s S (start n p) (start_dwf n p)) as (m & E & W). exists m. split; [auto|]. apply dwf_shows; auto.
Qed.
Print Assumptions C38_dlist.

(** After that a loop over a list, which removes some of its elements, meets every
    element once and leaves exactly the others in the list. *)
Theorem C38_loop : forall n p ops s doomed h fuel, dspecs empty ops s -> length (s h) < fuel ->
  exists m m', drun ops (start n p) = Some m /\
    DLIST_FOREACH_SAFE (removing doomed h) fuel h m = Some (s h, m') /\
    dshows m' (put s h (filter (fun e => negb (doomed e)) (s h))).
Proof.
  intros n p ops s doomed h fuel S L. destruct (drun_ok empty ops s S (start n p) (start_dwf n p)) as (m & E & W).
  destruct (foreach_removing doomed h m s fuel W L) as (m' & E' & W'). exists m, m'. split; [auto|]. split; [auto|]. apply dwf_shows; auto.
Qed.
Print Assumptions C38_loop.

(** No element is in two lists or twice in one. *)
Theorem C38_distinct : forall ops s, dspecs empty ops s ->
  (forall h, NoDup (s h)) /\ forall h h' e, In e (s h) -> In e (s h') -> h = h'.
Proof.
  intros ops s S. destruct (drun_ok empty ops s S (start (fun _ => 0) (fun _ => 0)) (start_dwf _ _)) as (m & _ & [[D1 D2] _]).
  split; [intros h; apply D1|auto].
Qed.
Print Assumptions C38_distinct.

(** The same for singly linked lists. *)
Theorem C38_slist : forall n p ops s, sspecs empty ops s ->
  exists m, srun ops (start n p) = Some m /\ sshows m s.
Proof.
  intros n p ops s S. destruct (srun_ok empty ops s S (start n p) (start_swf n p)) as (m & E & W). exists m. split; [auto|]. apply swf_shows; auto.
Qed.
Print Assumptions C38_slist.

(** A queue: what is taken from the head is what was appended, in order. *)
Theorem C38_queue : forall n p h es, NoDup es -> ~ In NULL es ->
  exists m, srun (map (STail h) es) (start n p) = Some m /\ sshows m (put empty h es) /\
  forall k, exists m', srun (repeat (SShift h) k) m = Some m' /\ sshows m' (put empty h (skipn k es)).
Proof.
  intros n p h es D N.
  assert (A : forall es1 es2 m, NoDup (es1 ++ es2) -> ~ In NULL (es1 ++ es2) -> swf m (put empty h es1) -> exists m', srun (map (STail h) es2) m = Some m' /\ swf m' (put empty h (es1 ++ es2))).
  { intros es1 es2. revert es1. induction es2 as [|e es2 IH]; intros es1 m D' N' W.
    - rewrite app_nil_r. exists m. auto.
    - assert (F : free (put empty h es1) e).
      { split; [intros ->; apply N'; apply in_or_app; right; left; auto|]. intros h' K. unfold put, empty in K. destruct (Nat.eqb h' h); [|destruct K].
        apply NoDup_remove_2 in D'. apply D'. apply in_or_app. auto. }
      destruct (stail_ok m _ h e W F) as (m1 & E1 & W1). rewrite put_same in W1.
      assert (W1' : swf m1 (put empty h (es1 ++ [e]))).
      { destruct W1 as [X Y]. assert (Q : forall h', put (put empty h es1) h (es1 ++ [e]) h' = put empty h (es1 ++ [e]) h') by (intros; apply put_put). split; [split|].
        - intros h'. rewrite <- Q. apply X.
        - intros h1 h2 z. rewrite <- !Q. apply X.
        - intros h'. rewrite <- Q. apply Y. }
      replace (es1 ++ e :: es2) with ((es1 ++ [e]) ++ es2) in * by (rewrite <- app_assoc; auto).
      destruct (IH (es1 ++ [e]) m1) as (m2 & E2 & W2); auto. exists m2. cbn [map srun sexec]. rewrite E1. auto. }
  destruct (A [] es (start n p)) as (m & E & W); auto.
  { destruct (start_swf n p) as [[X1 X2] Y]. assert (Q : forall h', put empty h [] h' = empty h') by (intros h'; unfold put, empty; destruct (Nat.eqb h' h); auto). split; [split|].
    - intros h'. rewrite Q. apply X1.
    - intros h1 h2 z. rewrite !Q. apply X2.
    - intros h'. rewrite Q. apply Y. }
  exists m. split; [exact E|]. split; [apply swf_shows; exact W|]. clear E. cbn [app] in W.
  intros k. assert (B : forall k es m, swf m (put empty h es) -> exists m', srun (repeat (SShift h) k) m = Some m' /\ swf m' (put empty h (skipn k es))).
  { clear. induction k as [|k IH]; intros es m W; [exists m; auto|]. destruct (sshift_ok m _ h W) as (m1 & E1 & W1). rewrite put_same in W1.
    assert (W1' : swf m1 (put empty h (tl es))).
    { destruct W1 as [X Y]. assert (Q : forall h', put (put empty h es) h (tl es) h' = put empty h (tl es) h') by (intros; apply put_put). split; [split|].
      - intros h'. rewrite <- Q. apply X.
      - intros h1 h2 z. rewrite <- !Q. apply X.
      - intros h'. rewrite <- Q. apply Y. }
    destruct (IH (tl es) m1 W1') as (m2 & E2 & W2). exists m2. cbn [repeat srun sexec]. rewrite E1. cbn [bind]. split; [auto|].
    destruct es; [destruct k; exact W2|exact W2]. }
  destruct (B k es m W) as (m' & E' & W'). exists m'. split; [auto|apply swf_shows; auto].
Qed.
Print Assumptions C38_queue.

(** SLIST_CONCAT (not used by the program) with an empty second list forgets the end
    of the first: what is appended next replaces its elements. *)
Theorem C38_concat_refuted :
  let ops := [STail 0 1; STail 0 2; SConcat 0 1; STail 0 3] in
  exists m, srun ops (start (fun _ => 0) (fun _ => 0)) = Some m /\ SLIST_FOREACH 9 0 m = Some [3].
Proof. eexists. split; reflexivity. Qed.
Print Assumptions C38_concat_refuted.

(** Taking the head of an empty doubly linked list uses a NULL pointer. *)
Theorem C38_shift_empty : forall n p h, drun [DShift h] (start n p) = None.
Proof. reflexivity. Qed.
Print Assumptions C38_shift_empty.

Definition ex_ops : list dop := [DTail 0 5; DHead 0 7; DBefore 0 5 9; DAfter 0 NULL 3; DTail 1 4; DRemove 0 7; DAfter 0 9 7; DShift 1; DHead 0 4].
Example C38_ex : exists s, dspecs empty ex_ops s /\ s 0 = [4; 9; 7; 5; 3] /\ s 1 = [].
Proof.
  assert (F : forall s e, e <> NULL -> (forall h, In e (s h) -> h <= 1) -> ~ In e (s 0) -> ~ In e (s 1) -> free s e).
  { intros s e N A B C. split; auto. intros h K. specialize (A h K). destruct h as [|[|h]]; auto. lia. }
  eexists. split.
  - unfold ex_ops.
    eapply dss_cons; [apply ds_tail; split; [discriminate|intros h []]|].
    eapply dss_cons; [apply ds_head; apply F; [discriminate|intros [|[|h]]; cbn; intuition lia|cbn; intuition discriminate..]|].
    eapply dss_cons; [apply (ds_before _ 0 5 9 [7] []); [apply F; [discriminate|intros [|[|h]]; cbn; intuition lia|cbn; intuition discriminate..]|reflexivity]|].
    eapply dss_cons; [apply ds_after_null; apply F; [discriminate|intros [|[|h]]; cbn; intuition lia|cbn; intuition discriminate..]|].
    eapply dss_cons; [apply ds_tail; apply F; [discriminate|intros [|[|h]]; cbn; intuition lia|cbn; intuition discriminate..]|].
    eapply dss_cons; [apply (ds_remove _ 0 7 [] [9; 5; 3]); reflexivity|].
    eapply dss_cons; [apply (ds_after _ 0 9 7 [] [5; 3]); [apply F; [discriminate|intros [|[|h]]; cbn; intuition lia|cbn; intuition discriminate..]|reflexivity]|].
    eapply dss_cons; [apply (ds_shift _ 1 4 []); reflexivity|].
    eapply dss_cons; [apply ds_head; apply F; [discriminate|intros [|[|h]]; cbn; intuition lia|cbn; intuition discriminate..]|].
    apply dss_nil.
  - split; reflexivity.
Qed.
Example C38_ex_run :
  option_map (fun m => (DLIST_FOREACH 9 0 m, DLIST_FOREACH_REVERSE 9 0 m, DLIST_EMPTY 1 m)) (drun ex_ops (start (fun _ => 77) (fun _ => 88)))
  = Some (Some [4; 9; 7; 5; 3], Some [3; 5; 7; 9; 4], true).
Proof. vm_compute. reflexivity. Qed.
Example C38_ex_slist : exists s, sspecs empty [STail 0 1; STail 1 3; STail 1 4; SConcat 0 1; SInit 1; SShift 0; SHead 1 1] s /\ s 0 = [3; 4] /\ s 1 = [1].
Proof.
  eexists. split.
  - eapply sss_cons; [discriminate|apply ss_tail; split; [discriminate|intros h []]|].
    eapply sss_cons; [discriminate|apply ss_tail; split; [discriminate|intros [|[|h]]; cbn; intuition discriminate]|].
    eapply sss_cons; [discriminate|apply ss_tail; split; [discriminate|intros [|[|h]]; cbn; intuition discriminate]|].
    eapply sss_concat; [apply ss_concat; discriminate|].
    eapply sss_cons; [discriminate|apply ss_shift|].
    eapply sss_cons; [discriminate|apply ss_head; split; [discriminate|intros [|[|h]]; cbn; intuition discriminate]|].
    apply sss_nil.
  - split; reflexivity.
Qed.
