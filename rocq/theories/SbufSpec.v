(** Specification of string buffers: a buffer is a text. *)
From Coq Require Import Ascii String List ZArith Bool.
From Verif Require Import Bytes SbufModel.
Import ListNotations.
Open Scope Z_scope.

(** No object is larger than this (the difference of two pointers). *)
Definition PTRDIFF_MAX : Z := 2 ^ 63 - 1.

(** realloc gives a block of the size asked for. *)
Definition proper (alloc : allocator) : Prop :=
  forall k n block, alloc k n = Some block -> zlen block = n /\ n <= PTRDIFF_MAX.

(** The characters before position [n] of a null character, or all *)
Definition first_null (s : bytes) (n : nat) : Prop :=
  ~ In NUL (firstn n s) /\ (n = length s \/ nth_error s n = Some NUL).

(** What a successful operation does to the text. *)
Definition effect (o : op) (t : bytes) : bytes :=
  match o with
  | OpAdd s => t ++ s
  | OpChar c => t ++ [c]
  | OpString s => t ++ c_str s
  | OpSet c n => t ++ repeat c n
  | OpPrintf (Some s) => t ++ s
  | OpPrintf None => t
  | OpTime s => t ++ s
  | OpTruncate n => firstn (Z.to_nat n) t
  | OpReset => []
  | OpConsume n => skipn (Z.to_nat n) t
  end.
(** The effect of the operations that returned success. *)
Fixpoint effects (ops : list op) (rs : list bool) (t : bytes) : bytes :=
  match ops, rs with
  | o :: ops, r :: rs => effects ops rs (if r then effect o t else t)
  | _, _ => t
  end.

(** The arguments are objects in memory, and a text is only made shorter by
    truncation. *)
Definition fits (o : op) (t : bytes) : Prop :=
  match o with
  | OpAdd s | OpString s | OpTime s | OpPrintf (Some s) => zlen s < PTRDIFF_MAX
  | OpSet c n => Z.of_nat n < PTRDIFF_MAX
  | OpTruncate n => 0 <= n <= zlen t
  | OpConsume n => 0 <= n
  | _ => True
  end.
(** ... when each operation is carried out, on the buffer [sb] at first. *)
Definition allowed (alloc : allocator) (nomem : nomem_handler) (sb : stringbuf) (ops : list op) (t : bytes) : Prop :=
  forall ops1 o ops2 sb' rs, ops = ops1 ++ o :: ops2 -> run alloc nomem ops1 sb = Ran sb' rs -> fits o (effects ops1 rs t).

(** Memory is exhausted only by requests that are too large. *)
Definition generous (alloc : allocator) : Prop := forall k n, 0 <= n <= PTRDIFF_MAX -> alloc k n <> None.
(** How much an operation may write; formatting succeeds and gives some text. *)
Definition moderate (o : op) : Prop :=
  match o with
  | OpPrintf None => False
  | OpTime s => s <> []
  | _ => True
  end.
Definition amount (o : op) : Z :=
  match o with
  | OpAdd s | OpString s | OpTime s | OpPrintf (Some s) => zlen s + 1
  | OpSet c n => Z.of_nat n + 1
  | _ => 1
  end.
Definition total (ops : list op) : Z := fold_right (fun o z => amount o + z) 0 ops.
