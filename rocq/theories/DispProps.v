(** The dispatcher (C29). *)
From Coq Require Import List Arith Bool Lia.
From Verif Require Import DispModel DispSpec DispProofs.
Import ListNotations.

(** C29: a pass accepts a connection on exactly the listeners that are ready and gives it to
    a worker, provided no listener that is ready has been disabled.
    Missing from the full statement: listeners disabled at run time (C29_refuted). *)
Theorem C29_ready_partial : forall accept enqueue ls ready, length ready = length ls ->
  (forall l r, In (l, r) (combine ls ready) -> r = true -> disabled l = false) ->
  dispatch accept enqueue ls ready = expected accept enqueue ls ready.
Proof.
  intros accept enqueue ls ready L H. pose proof (pass_app accept enqueue ls [] [] ready [] L eq_refl) as P. cbn [app length pass] in P. rewrite !app_nil_r in P.
  apply P. intros l r I E. unfold skips. rewrite (H l r I E). reflexivity.
Qed.
Print Assumptions C29_ready_partial.

(** With disabled listeners, it is right for all listeners up to the first one that is
    disabled and ready. *)
Theorem C29_prefix_partial : forall accept enqueue a l b ra rb, length ra = length a -> length rb = length b ->
  (forall x r, In (x, r) (combine a ra) -> r = true -> disabled x = false) ->
  exists rest, dispatch accept enqueue (a ++ l :: b) (ra ++ true :: rb) = expected accept enqueue (a ++ [l]) (ra ++ [true]) ++ rest.
Proof.
  intros accept enqueue a l b ra rb L1 L2 H.
  pose proof (pass_app accept enqueue a (l :: b) [] ra (true :: rb) L1 ltac:(cbn; lia)) as P. cbn [app length] in P.
  unfold dispatch. rewrite P by (intros x r I E; unfold skips; rewrite (H x r I E); reflexivity).
  unfold expected. assert (CA : forall (x : list listener) y (u : list bool) v, length x = length u -> combine (x ++ y) (u ++ v) = combine x u ++ combine y v).
  { induction x as [|p x IH]; intros y [|q u] v E; try discriminate; [auto|]. cbn. f_equal. apply IH. auto. }
  rewrite CA by lia. rewrite flat_map_app. cbn [combine flat_map fst snd]. rewrite app_nil_r.
  assert (N : nth_error (ra ++ true :: rb) (0 + length a) = Some true) by (rewrite nth_error_app2 by lia; replace (0 + length a - length ra) with 0 by lia; auto).
  cbn [pass]. rewrite N. unfold serve. destruct (accept (sock l)) as [c|].
  - destruct (disabled l); cbn [negb andb]; eexists; rewrite <- app_assoc; cbn [app]; reflexivity.
  - eexists. rewrite <- app_assoc. cbn [app]. reflexivity.
Qed.
Print Assumptions C29_prefix_partial.

(** In every pass, each listener is served at most once, in order; a connection accepted on
    a disabled listener is closed, on an enabled one it is given to a worker or closed; the
    poll array is not left. *)
Theorem C29_once : forall accept enqueue ls ready, length ready = length ls ->
  exists chosen, length chosen = length ls /\ dispatch accept enqueue ls ready = expected accept enqueue ls chosen.
Proof. intros accept enqueue ls ready L. apply (pass_blocks accept enqueue ls ready 0). lia. Qed.
Print Assumptions C29_once.

(** After a disabled listener the elements of the poll array are out of step: accept is
    called on a listener that is not ready, and one that is ready is left out. *)
Theorem C29_refuted : exists accept enqueue ls ready, length ready = length ls /\
  dispatch accept enqueue ls ready = [Accept 3; Close 30; Accept 4; Enqueue 4 40] /\
  expected accept enqueue ls ready = [Accept 3; Close 30; Accept 5; Enqueue 5 50].
Proof.
  exists (fun s => Some (s * 10)), (fun _ => true), [mkLst 3 true; mkLst 4 false; mkLst 5 false], [true; false; true]. vm_compute. auto.
Qed.
Print Assumptions C29_refuted.

Example C29_ready_ex : dispatch (fun s => if s =? 5 then None else Some (s * 10)) (fun _ => true) [mkLst 3 false; mkLst 4 true; mkLst 5 false; mkLst 6 false] [true; false; true; true]
  = [Accept 3; Enqueue 3 30; Accept 5; Accept 6; Enqueue 6 60].
Proof. reflexivity. Qed.
