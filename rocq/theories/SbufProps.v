(** String buffers and growing arrays (C39). *)
From Coq Require Import Ascii String List ZArith Bool Lia.
From Verif Require Import Bytes SbufModel SbufSpec SbufProofs.
Import ListNotations.
Open Scope Z_scope.

(** C39: whatever the memory allocator does, after any sequence of operations the buffer
    contains the text that the successful operations produced, in order.  An operation
    that failed left it unchanged.  Memory outside the buffer is not touched, every call
    returns, and the program ends only if it is to end when memory is exhausted. *)
Theorem C39_contents : forall alloc nomem ops, proper alloc -> allowed alloc nomem stringbuf_init ops [] ->
  match run alloc nomem ops stringbuf_init with
  | Ran sb rs => length rs = length ops /\ contents sb = effects ops rs []
  | RanExit => nomem = XNOMEM
  | RanOut | RanFuel => False
  end.
Proof.
  intros alloc nomem ops P A. pose proof (run_spec alloc nomem P ops stringbuf_init init_wf A) as H.
  destruct (run alloc nomem ops stringbuf_init); auto. tauto.
Qed.
Print Assumptions C39_contents.

(** The buffer never reports more than was allocated: the used part lies within the block. *)
Theorem C39_bounds : forall alloc nomem ops sb rs, proper alloc -> allowed alloc nomem stringbuf_init ops [] -> run alloc nomem ops stringbuf_init = Ran sb rs ->
  0 <= len sb <= size sb /\ size sb = match base sb with None => 0 | Some b => zlen b end /\ size sb <= PTRDIFF_MAX.
Proof.
  intros alloc nomem ops sb rs P A R. pose proof (run_spec alloc nomem P ops stringbuf_init init_wf A) as H. rewrite R in H. destruct H as (W & _).
  unfold wf, PTRDIFF_MAX in *. destruct (base sb); lia.
Qed.
Print Assumptions C39_bounds.

(** Finishing the text adds a null character; it is refused if the last operation failed. *)
Theorem C39_finish : forall alloc nomem ops sb rs, proper alloc -> allowed alloc nomem stringbuf_init ops [] -> run alloc nomem ops stringbuf_init = Ran sb rs ->
  match stringbuf_finish alloc nomem sb with
  | Done sb' true => contents sb' = effects ops rs [] ++ [NUL]
  | Done _ false => True
  | Exit => nomem = XNOMEM
  | _ => False
  end.
Proof.
  intros alloc nomem ops sb rs P A R. pose proof (run_spec alloc nomem P ops stringbuf_init init_wf A) as H. rewrite R in H. destruct H as (W & _ & C).
  pose proof (finish_spec alloc nomem P sb W) as F. destruct (stringbuf_finish alloc nomem sb) as [sb' []| | |]; auto.
  destruct F as (_ & _ & F). rewrite F, C. reflexivity.
Qed.
Print Assumptions C39_finish.

Theorem C39_finish_failed : forall alloc nomem ops o sb rs, proper alloc -> allowed alloc nomem stringbuf_init (ops ++ [o]) [] ->
  run alloc nomem (ops ++ [o]) stringbuf_init = Ran sb (rs ++ [false]) -> stringbuf_finish alloc nomem sb = Done sb false.
Proof. intros alloc nomem ops o sb rs P A R. exact (run_last_failed alloc nomem P ops o sb rs A R). Qed.
Print Assumptions C39_finish_failed.

(** If memory suffices, every operation succeeds (the amounts are below 2^61 bytes). *)
Theorem C39_success : forall alloc nomem ops, proper alloc -> generous alloc -> allowed alloc nomem stringbuf_init ops [] -> Forall moderate ops -> total ops <= 2 ^ 61 ->
  exists sb, run alloc nomem ops stringbuf_init = Ran sb (repeat true (length ops)) /\ contents sb = fold_left (fun t o => effect o t) ops [].
Proof. intros alloc nomem ops P G A M L. exact (run_true alloc nomem P G ops stringbuf_init init_wf A M L). Qed.
Print Assumptions C39_success.

(** A C string is added up to its first null character. *)
Theorem C39_string : forall s n t, first_null s n -> effect (OpString s) t = t ++ firstn n s.
Proof.
  intros s n t [H K]. cbn [effect]. f_equal. revert n H K. induction s as [|c s IH]; intros n H K; [rewrite firstn_nil; reflexivity|].
  cbn [c_str]. destruct n as [|n].
  - destruct K as [K|K]; [discriminate|]. injection K as ->. reflexivity.
  - cbn [firstn] in *. destruct (beq c NUL) eqn:E; [apply beq_eq in E; destruct H; left; auto|]. f_equal. apply IH.
    + intros J. apply H. right. auto.
    + destruct K as [K|K]; [left; cbn in K; congruence|right; exact K].
Qed.
Print Assumptions C39_string.
Example C39_string_ex : first_null (lit "ab" ++ [NUL] ++ lit "c") 2.
Proof. split; [vm_compute; intuition discriminate|right; reflexivity]. Qed.

(** The growth of an array: the new number of elements is larger than the old one, and
    the size in bytes does not overflow. *)
Theorem C39_size : forall null n s n', 1 <= s < 2 ^ 64 -> 0 <= n < 2 ^ 64 -> (null = false -> 1 <= n) -> (null = true -> n * s < 2 ^ 64) ->
  mem2n null n s = Some n' -> 0 < n' /\ n' * s < 2 ^ 64 /\ n <= n' /\ (null = false -> n < n').
Proof.
  intros null n s n' S N Z1 Z2 H. destruct (mem2n_spec null n s n' S N Z1 Z2 H) as (H1 & H2 & H3 & H4).
  split; [exact H1|]. split; [exact H2|]. split; [exact H3|]. intros E. exact (proj1 (H4 E)).
Qed.
Print Assumptions C39_size.

(** ** What does not hold *)

(** The error mark is lost when a later operation succeeds: a buffer can be finished
    although a piece of the text is missing. *)
Definition long : bytes := repeat (ascii_of_nat 120) 70.
Theorem C39_error_refuted : exists alloc ops sb rs sb', proper alloc /\ allowed alloc LOGNOMEM stringbuf_init ops [] /\
  run alloc LOGNOMEM ops stringbuf_init = Ran sb rs /\ In false rs /\ stringbuf_finish alloc LOGNOMEM sb = Done sb' true.
Proof.
  set (ops := [OpAdd (lit "abc"); OpAdd long; OpAdd (lit "d")]).
  set (sb := mkSb (Some (lit "abcd" ++ repeat NUL 60)) 64 4 false 2).
  exists (flaky 1), ops, sb, [true; false; true]. eexists.
  split; [apply flaky_proper|]. split; [apply check_allowed; vm_compute; repeat split; discriminate|].
  split; [vm_compute; reflexivity|]. split; [cbn; auto|]. vm_compute. reflexivity.
Qed.
Print Assumptions C39_error_refuted.

(** An empty formatted time is always an error; the buffer is grown until memory is exhausted. *)
Theorem C39_time_empty : forall alloc nomem ops sb rs, proper alloc -> allowed alloc nomem stringbuf_init ops [] -> run alloc nomem ops stringbuf_init = Ran sb rs ->
  (exists sb', stringbuf_strftime alloc nomem sb [] = Done sb' false) \/ (stringbuf_strftime alloc nomem sb [] = Exit /\ nomem = XNOMEM).
Proof.
  intros alloc nomem ops sb rs P A R. pose proof (run_spec alloc nomem P ops stringbuf_init init_wf A) as H. rewrite R in H. destruct H as (W & _).
  pose proof (ftime_spec alloc nomem P turns sb [] W (enough_turns sb W) ltac:(unfold zlen, PTRDIFF_MAX; cbn; lia)) as F.
  unfold stringbuf_strftime. destruct (ftime alloc nomem turns sb []) as [sb' []| | |]; try contradiction; eauto.
  destruct F as (_ & _ & F). congruence.
Qed.
Print Assumptions C39_time_empty.

(** Truncating to more than the size succeeds without setting the length. *)
Theorem C39_truncate_refuted : exists alloc sb n sb', proper alloc /\ run alloc XNOMEM [OpAdd (lit "abc")] stringbuf_init = Ran sb [true] /\
  stringbuf_truncate alloc XNOMEM sb n = Done sb' true /\ len sb' <> n.
Proof.
  exists (flaky 9), (mkSb (Some (lit "abc" ++ repeat NUL 61)) 64 3 false 1), 100, (mkSb (Some (lit "abc" ++ repeat NUL 61)) 64 3 false 1).
  split; [apply flaky_proper|]. split; [vm_compute; reflexivity|]. split; [vm_compute; reflexivity|]. cbn. lia.
Qed.
Print Assumptions C39_truncate_refuted.

(** Filling with a number of characters close to 2^64 passes the size check: it would
    write out of bounds. *)
Theorem C39_wrap_refuted : exists alloc sb, proper alloc /\ run alloc XNOMEM [OpAdd (lit "abc")] stringbuf_init = Ran sb [true] /\
  stringbuf_set_wraps alloc XNOMEM sb (2 ^ 64 - 1).
Proof.
  exists (flaky 9), (mkSb (Some (lit "abc" ++ repeat NUL 61)) 64 3 false 1).
  split; [apply flaky_proper|]. split; [vm_compute; reflexivity|]. eexists. split; [vm_compute; reflexivity|]. cbn. lia.
Qed.
Print Assumptions C39_wrap_refuted.

(** ** Examples *)

Example C39_contents_ex : 
  let ops := [OpAdd (lit "abc"); OpPrintf (Some (lit "12")); OpConsume 2; OpAdd long; OpTruncate 2; OpString (lit "xy" ++ [NUL] ++ lit "z"); OpSet (ascii_of_nat 45) 3] in
  allowed (flaky 1) LOGNOMEM stringbuf_init ops [] /\ option_map (fun r => effects ops r []) (match run (flaky 1) LOGNOMEM ops stringbuf_init with Ran _ rs => Some rs | _ => None end) = Some (lit "c1xy---")
  /\ match run (flaky 1) LOGNOMEM ops stringbuf_init with Ran sb rs => contents sb = lit "c1xy---" /\ rs = [true; true; true; false; true; true; true] | _ => False end.
Proof.
  cbv zeta. split; [|split; [vm_compute; reflexivity|vm_compute; split; reflexivity]].
  apply check_allowed. vm_compute. repeat split; discriminate.
Qed.
Example C39_success_ex : exists alloc, proper alloc /\ generous alloc /\ let ops := [OpAdd (lit "abc"); OpTime (lit "2026"); OpReset; OpChar NUL] in
  allowed alloc XNOMEM stringbuf_init ops [] /\ Forall moderate ops /\ total ops <= 2 ^ 61.
Proof.
  exists plenty. split; [apply plenty_proper|]. split; [apply plenty_generous|]. cbv zeta. split; [|split].
  { apply check_allowed. vm_compute. repeat split; discriminate. }
  { repeat (apply Forall_cons; [cbn; first [exact I|discriminate]|]); apply Forall_nil. }
  vm_compute. discriminate.
Qed.
Example C39_size_ex : mem2n false 64 1 = Some 96 /\ mem2n true 0 24 = Some 2 /\ mem2n false (2 ^ 62) 4 = None.
Proof. vm_compute. auto. Qed.
