(** JSON values in memory (C80). *)
From Coq Require Import Ascii String List Arith ZArith Bool Lia.
From Verif Require Import Bytes JsonModel JmModel JmSpec JmProofs.
Import ListNotations.
Local Open Scope string_scope.
Local Open Scope list_scope.
Local Open Scope nat_scope.

(** C80: the copy of a value is the same value in other memory: all its blocks are new, each new block belongs to it, and nothing that was there
    before is changed; whatever the value, its depth, and the rest of the memory. *)
Theorem C80_copy : forall n h a v us, look n h a = Some (v, us) ->
  exists h' b us', json_value_copy n h (P a) = Done h' b /\ look n h' b = Some (v, us') /\ becomes h [] h' us' /\ look n h' a = Some (v, us).
Proof.
  intros n h a v us H. destruct (copy_ok n h a v us H) as (h' & b & us' & C & L & M & K). exists h', b, us'.
  split; [exact C|]. split; [exact L|]. split; [apply made_becomes; assumption|].
  eapply look_frame; [exact H|]. intros x I. apply K. apply (alive_lt h x). exact (look_alive _ _ _ _ _ H x I).
Qed.
Print Assumptions C80_copy.

(** The release of a value releases each of its blocks, once, and touches no other. *)
Theorem C80_free : forall n h a v us, holds n h a v us -> exists h', json_value_free n h (P a) = Done h' tt /\ becomes h us h' [].
Proof.
  intros n h a v us [L N]. destruct (free_ok n h a v us L N) as (h' & F & G). exists h'. split; [exact F|].
  apply freed_becomes; [|exact G]. intros x I. apply (alive_lt h x). exact (look_alive _ _ _ _ _ L x I).
Qed.
Print Assumptions C80_free.

(** An array with a place that holds no value (a caller may append NULL) cannot be copied: the caller is told, what has been made is released, and
    nothing else is touched.  Shown for the first place. *)
Theorem C80_copy_null_partial : forall n h a r oc on w sl, nth_error h a = Some (BVal (VArray r)) -> nth_error h r = Some (BArray oc on (Some w)) ->
  nth_error h w = Some (BVec (PNull :: sl)) -> 0 < oc <= S (length sl) ->
  exists h', json_value_copy (S (S n)) h (P a) = Fails h' /\ becomes h [] h' [].
Proof. exact copy_null. Qed.
Print Assumptions C80_copy_null_partial.

(** So a copy outlives its source: after the release of the source the copy is still the value, and can be released in its turn. *)
Theorem C80_outlives : forall n h a v us, holds n h a v us ->
  exists h1 b us' h2 h3, json_value_copy n h (P a) = Done h1 b /\ json_value_free n h1 (P a) = Done h2 tt /\ holds n h2 b v us' /\
    json_value_free n h2 (P b) = Done h3 tt.
Proof.
  intros n h a v us [L N]. destruct (copy_ok n h a v us L) as (h1 & b & us' & C & L1 & (M1 & M2 & M3) & K).
  assert (UL : forall x, In x us -> x < length h) by (intros x I; apply (alive_lt h x); exact (look_alive _ _ _ _ _ L x I)).
  assert (LA : look n h1 a = Some (v, us)) by (eapply look_frame; [exact L|]; intros x I; apply K; apply UL; exact I).
  destruct (free_ok n h1 a v us LA N) as (h2 & F & (_ & _ & FK)).
  assert (LB : look n h2 b = Some (v, us')).
  { eapply look_frame; [exact L1|]. intros x I. apply FK. intros J. apply UL in J. apply M3 in I. lia. }
  destruct (free_ok n h2 b v us' LB M2) as (h3 & F3 & _). exists h1, b, us', h2, h3. repeat split; assumption.
Qed.
Print Assumptions C80_outlives.

(** A new array is empty.  Values appended to an array come after those it has, in their order, however many; the memory is that of the array and the
    values, and what the array no longer needs when it grows is released. *)
Theorem C80_new : forall n h, let (h', a) := json_new_array h in exists us, holds (S n) h' a (JArray []) us /\ becomes h [] h' us /\ roomy h' a.
Proof. exact new_array_ok. Qed.
Print Assumptions C80_new.

Theorem C80_append_partial : forall n bs h a l us vs ws, holds (S n) h a (JArray l) us -> roomy h a ->
  each (look n h) bs = Some (vs, ws) -> NoDup (us ++ ws) ->
  exists h' us', append_all h a bs = Done h' tt /\ look (S n) h' a = Some (JArray (l ++ vs), us') /\ becomes h (us ++ ws) h' us'.
Proof. exact append_all_ok. Qed.
Print Assumptions C80_append_partial.

(** An element is read at its place, *)
Theorem C80_get : forall n h a l us i v, holds (S n) h a (JArray l) us -> nth_error l i = Some v ->
  exists b vs, json_array_get h a i = Done h (P b) /\ look n h b = Some (v, vs) /\ (forall x, In x vs -> In x us).
Proof. exact get_ok. Qed.
Print Assumptions C80_get.

(** past the end nothing is read or written and the caller is told, *)
Theorem C80_past_end : forall n h a l us i b, look (S n) h a = Some (JArray l, us) -> length l <= i ->
  json_array_get h a i = Fails h /\ json_array_set h a i b = Fails h.
Proof. exact past_end. Qed.
Print Assumptions C80_past_end.

(** and the name of an object gets the value it is given, the other names keep theirs, and the value it had is released. *)
Theorem C80_set : forall n h a l us k b v vs, holds (S n) h a (JObject l) us -> holds n h b v vs -> disjoint us vs ->
  exists h' l' us', json_object_set n h a k b = Done h' tt /\ look (S n) h' a = Some (JObject l', us') /\ becomes h (us ++ vs) h' us' /\
    (forall k', said l' k' = match strcmp k k' with Eq => Some v | _ => said l k' end).
Proof. exact set_ok. Qed.
Print Assumptions C80_set.

(** Nothing can be appended to the copy of an empty array: the memory it has no use for is released and kept, and its release, which is what
    the caller does next, releases it again. *)
Theorem C80_empty_copy_refuted : forall n h a us h1 b v, look (S n) h a = Some (JArray [], us) -> json_value_copy (S n) h (P a) = Done h1 b ->
  exists h2, json_array_append h1 b v = Fails h2 /\ json_value_free (S n) h2 (P b) = Undef.
Proof. exact empty_copy_append. Qed.
Print Assumptions C80_empty_copy_refuted.

(** A value put at a place beyond the end leaves places before it that hold no value and were never written, and reading or releasing the array
    follows them: the loop that should clear them runs from the new size to the old one. *)
Theorem C80_gap_refuted : forall n h idx v, 0 < idx -> let (h1, a) := json_new_array h in
  exists h2, json_array_insert h1 a idx v = Done h2 tt /\ json_array_get h2 a 0 = Done h2 PWild /\ json_value_free (S (S n)) h2 (P a) = Undef.
Proof. exact gap. Qed.
Print Assumptions C80_gap_refuted.

(** A value that replaces an element of an array does not release it, unlike that of an object: its memory stays, and belongs to nothing. *)
Theorem C80_replace_refuted : forall n h a l us i x b v vs, holds (S n) h a (JArray l) us -> nth_error l i = Some x -> holds n h b v vs -> disjoint us vs ->
  exists h' us' old ws, json_array_set h a i b = Done h' tt /\ look (S n) h' a = Some (JArray (put l i v), us') /\ NoDup us' /\
    json_array_get h a i = Done h (P old) /\ look n h' old = Some (x, ws) /\ ws <> [] /\ disjoint ws us'.
Proof. exact set_leaks. Qed.
Print Assumptions C80_replace_refuted.

(** An object with an array of two values; beside it an unrelated one *)
Definition sample : heap :=
  [BVal (VInteger 5); BVal (VObject 2); BObject [3; 7]; BPair 4 (P 5); BText (lit "a"); BVal VNull; Freed; BPair 8 (P 9); BText (lit "b");
   BVal (VArray 10); BArray 2 8 (Some 11); BVec ([P 12; P 13] ++ repeat PWild 6); BVal (VBool true); BVal (VString 14); BText (lit "x")].
Definition sample_value : json := JObject [(lit "a", JNull); (lit "b", JArray [JBool true; JString (lit "x")])].

Example C80_meets : holds 3 sample 1 sample_value [1; 2; 3; 4; 5; 7; 8; 9; 10; 11; 12; 13; 14] /\ holds 1 sample 0 (JInteger 5) [0] /\
  roomy sample 9 /\ disjoint [9; 10; 11; 12; 13; 14] [0].
Proof.
  repeat split; try (vm_compute; reflexivity); try (repeat constructor; cbn; lia).
  - exists 10, 2, 8, (Some 11). repeat split. right. lia.
  - intros x H. cbn in *. lia.
Qed.

(** Nine values into a new array: it grows twice *)
Example C80_meets_append : exists h bs ws, each (look 1 h) bs = Some (map JInteger [1; 2; 3; 4; 5; 6; 7; 8; 9]%Z, ws) /\ length bs = 9 /\
  (let (h1, a) := json_new_array h in exists h2 us, append_all h1 a bs = Done h2 tt /\
     look 2 h2 a = Some (JArray (map JInteger [1; 2; 3; 4; 5; 6; 7; 8; 9]%Z), us)).
Proof.
  exists (map (fun z => BVal (VInteger z)) [1; 2; 3; 4; 5; 6; 7; 8; 9]%Z), (seq 0 9), (seq 0 9).
  split; [vm_compute; reflexivity|]. split; [reflexivity|].
  pose proof (C80_new 1 (map (fun z => BVal (VInteger z)) [1; 2; 3; 4; 5; 6; 7; 8; 9]%Z)) as _.
  vm_compute. eexists. eexists. split; reflexivity.
Qed.

Example C80_meets_empty : exists h1 b, json_value_copy 1 [BVal (VArray 1); BArray 0 0 None] (P 0) = Done h1 b /\
  look 1 [BVal (VArray 1); BArray 0 0 None] 0 = Some (JArray [], [0; 1]).
Proof. eexists. eexists. split; vm_compute; reflexivity. Qed.
