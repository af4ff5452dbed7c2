(** Proofs about the dispatcher. *)
From Coq Require Import List Arith Bool Lia.
From Verif Require Import DispModel DispSpec.
Import ListNotations.

Section Proofs.
  Variable accept : nat -> option nat.
  Variable enqueue : nat -> bool.
  Notation pass := (pass accept enqueue).
  Notation expected := (expected accept enqueue).

  (** [continue] is taken *)
  Definition skips (l : listener) : bool := disabled l && match accept (sock l) with Some _ => true | None => false end.

  Lemma pass_app : forall a b done ra rb, length ra = length a -> length rb = length b ->
    (forall l r, In (l, r) (combine a ra) -> r = true -> skips l = false) ->
    pass (a ++ b) (done ++ ra ++ rb) (length done) = expected a ra ++ pass b (done ++ ra ++ rb) (length done + length a).
  Proof.
    induction a as [|l a IH]; intros b done ra rb L1 L2 H.
    - cbn. rewrite Nat.add_0_r. auto.
    - destruct ra as [|r ra]; [discriminate|]. injection L1 as L1. cbn [app DispModel.pass].
      assert (N : nth_error (done ++ (r :: ra ++ rb)) (length done) = Some r) by (rewrite nth_error_app2, Nat.sub_diag by lia; auto). rewrite N.
      assert (I : pass (a ++ b) (done ++ r :: ra ++ rb) (S (length done)) = expected a ra ++ pass b (done ++ r :: ra ++ rb) (length done + length (l :: a))).
      { specialize (IH b (done ++ [r]) ra rb L1 L2). rewrite app_length in IH. cbn [length] in *. rewrite <- app_assoc in IH. cbn [app] in IH.
        replace (length done + 1) with (S (length done)) in IH by lia. rewrite IH; [f_equal; f_equal; lia|]. intros l0 r0 J E. apply (H l0 r0); auto. right. auto. }
      unfold DispSpec.expected. cbn [combine flat_map fst snd]. fold (expected a ra). destruct r; [|exact I].
      unfold serve. specialize (H l true (or_introl eq_refl) eq_refl). unfold skips in H. cbn [app]. f_equal. destruct (accept (sock l)) as [c|]; [|exact I].
      destruct (disabled l); [discriminate|]. cbn [negb andb app]. f_equal. exact I.
  Qed.

  Lemma pass_bounds : forall ls polls i, i + length ls <= length polls -> ~ In Out (pass ls polls i).
  Proof.
    induction ls as [|l ls IH]; intros polls i L; cbn [DispModel.pass]; [auto|]. cbn [length] in L.
    destruct (nth_error polls i) as [[]|] eqn:N.
    - intros [E|J]; [discriminate|]. destruct (accept (sock l)) as [c|]; [|apply (IH polls (S i)); auto; lia].
      destruct (disabled l).
      + destruct J as [E|J]; [discriminate|]. apply (IH polls i); auto. lia.
      + destruct J as [E|J]; [destruct (enqueue c); discriminate|]. apply (IH polls (S i)); auto. lia.
    - apply IH. lia.
    - apply nth_error_None in N. lia.
  Qed.

  (** in every pass, every listener is either left alone or served once *)
  Lemma pass_blocks : forall ls polls i, i + length ls <= length polls -> exists chosen, length chosen = length ls /\ pass ls polls i = expected ls chosen.
  Proof.
    induction ls as [|l ls IH]; intros polls i L; cbn [DispModel.pass]; [exists []; auto|]. cbn [length] in L.
    destruct (nth_error polls i) as [[]|] eqn:N.
    - unfold DispSpec.expected. destruct (accept (sock l)) as [c|] eqn:A.
      + destruct (disabled l) eqn:D.
        * destruct (IH polls i ltac:(lia)) as (ch & C1 & C2). exists (true :: ch). split; [cbn; auto|]. cbn [combine flat_map fst snd]. unfold serve at 1. rewrite A, D. cbn [negb andb app]. rewrite C2. auto.
        * destruct (IH polls (S i) ltac:(lia)) as (ch & C1 & C2). exists (true :: ch). split; [cbn; auto|]. cbn [combine flat_map fst snd]. unfold serve at 1. rewrite A, D. cbn [negb andb app]. rewrite C2. auto.
      + destruct (IH polls (S i) ltac:(lia)) as (ch & C1 & C2). exists (true :: ch). split; [cbn; auto|]. cbn [combine flat_map fst snd]. unfold serve at 1. rewrite A. cbn [app]. rewrite C2. auto.
    - destruct (IH polls (S i) ltac:(lia)) as (ch & C1 & C2). exists (false :: ch). split; [cbn; auto|]. rewrite C2. auto.
    - apply nth_error_None in N. lia.
  Qed.
End Proofs.
