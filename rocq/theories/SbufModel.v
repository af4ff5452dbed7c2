(** Model of memory growth and string buffers, src/mem.c and src/mem.h.  Sizes are
    64-bit unsigned numbers. *)
From Coq Require Import Ascii String List ZArith Bool.
From Verif Require Import Bytes.
Import ListNotations.
Open Scope Z_scope.

Definition SIZE_MAX : Z := 2 ^ 64 - 1.
Definition size_t (z : Z) : Z := z mod 2 ^ 64.
Definition zlen (b : bytes) : Z := Z.of_nat (length b).

(** src/mem.c 21-52: the new number of elements, None: ENOMEM.  [null]: the pointer
    is NULL.  The request is for [size_t (n * s)] bytes. *)
Definition mem2n (null : bool) (n s : Z) : option Z :=
  if null
  then if Z.eqb n 0 then let n := 64 / s in Some (if Z.eqb n 0 then n + 1 else n) else Some n
  else if Z.leb (SIZE_MAX / 3 * 2 / s) n then None else Some (size_t (n + size_t (n + 1) / 2)).

(** realloc is a parameter: the [k]-th call, with a size, fails or gives a block,
    described by what it would contain if nothing were copied to it. *)
Definition allocator := nat -> Z -> option bytes.

(** What is done when memory is exhausted: xnomem exits, lognomem writes a message. *)
Inductive nomem_handler := XNOMEM | LOGNOMEM.

(** struct stringbuf, mem.h 30-37; [calls] counts calls to realloc *)
Record stringbuf := mkSb { base : option bytes; size : Z; len : Z; err : bool; calls : nat }.

(** Done: the function returned a value (true: 0 or a pointer, false: -1 or NULL).
    Exit: the program ended.  Out: memory was accessed out of bounds. *)
Inductive outcome := Done (sb : stringbuf) (ok : bool) | Exit | Out | Fuel.

Section Sbuf.
  Variable alloc : allocator.
  Variable nomem : nomem_handler.

  (** src/mem.c 113-118 *)
  Definition stringbuf_init : stringbuf := mkSb None 0 0 false 0.
  (** src/mem.c 120-124 *)
  Definition stringbuf_reset (sb : stringbuf) : stringbuf := mkSb (base sb) (size sb) 0 (err sb) (calls sb).

  (** src/mem.c 54-58 for s = 1: the block after realloc *)
  Definition realloc (p : option bytes) (block : bytes) : bytes :=
    match p with None => block | Some b => firstn (length block) b ++ skipn (length b) block end.

  (** src/mem.c 137-145, 223-231, 270-278: grow the buffer.  None: the handler ended the program; false: error. *)
  Definition grow (sb : stringbuf) : option (stringbuf * bool) :=
    let fail (k : nat) := match nomem with XNOMEM => None | LOGNOMEM => Some (mkSb (base sb) (size sb) (len sb) true k, false) end in
    match mem2n (match base sb with None => true | Some _ => false end) (size sb) 1 with
    | None => fail (calls sb)
    | Some n =>
        match alloc (calls sb) (size_t (n * 1)) with
        | None => fail (S (calls sb))
        | Some block => Some (mkSb (Some (realloc (base sb) block)) n (len sb) (err sb) (S (calls sb)), true)
        end
    end.

  (** src/mem.c 132-149 *)
  Fixpoint expand (fuel : nat) (sb : stringbuf) (n : Z) : outcome :=
    if Z.gtb (size_t (len sb + n)) (size sb)
    then match fuel with
         | O => Fuel
         | S fuel =>
             match grow sb with
             | None => Exit
             | Some (sb, true) => expand fuel sb n
             | Some (sb, false) => Done sb false
             end
         end
    else Done (mkSb (base sb) (size sb) (len sb) false (calls sb)) true.
  (** The buffer grows by half every turn (C39_total). *)
  Definition turns : nat := 200.
  Definition stringbuf_expand (sb : stringbuf) (n : Z) : outcome := expand turns sb n.

  (** Copying to the end of the used part; None: out of bounds. *)
  Definition store (b : bytes) (off : nat) (s : bytes) : bytes := firstn off b ++ s ++ skipn (off + length s) b.
  Definition put_end (sb : stringbuf) (s : bytes) : option (option bytes) :=
    match base sb, s with
    | b, [] => Some b
    | None, _ => None
    | Some b, s => if Z.leb (len sb + zlen s) (zlen b) then Some (Some (store b (Z.to_nat (len sb)) s)) else None
    end.

  (** src/mem.c 151-158 *)
  Definition stringbuf_truncate (sb : stringbuf) (n : Z) : outcome :=
    if Z.gtb n (size sb) then stringbuf_expand sb (n - size sb)
    else Done (mkSb (base sb) (size sb) n (err sb) (calls sb)) true.

  (** src/mem.c 169-177 *)
  Definition stringbuf_add (sb : stringbuf) (s : bytes) : outcome :=
    match stringbuf_expand sb (zlen s) with
    | Done sb true =>
        match put_end sb s with
        | Some b => Done (mkSb b (size sb) (size_t (len sb + zlen s)) (err sb) (calls sb)) true
        | None => Out
        end
    | r => r
    end.
  (** src/mem.c 160-167 *)
  Definition stringbuf_add_char (sb : stringbuf) (c : byte) : outcome := stringbuf_add sb [c].
  (** src/mem.c 179-183; strlen: up to the first null character *)
  Fixpoint c_str (s : bytes) : bytes := match s with [] => [] | c :: s => if beq c NUL then [] else c :: c_str s end.
  Definition stringbuf_add_string (sb : stringbuf) (s : bytes) : outcome := stringbuf_add sb (c_str s).
  (** src/mem.c 185-195 for n below 2^63; see stringbuf_set_wraps for larger ones *)
  Definition stringbuf_set (sb : stringbuf) (c : byte) (n : nat) : outcome := stringbuf_add sb (repeat c n).
  (** src/mem.c 185-195: the check before memset writes [n] bytes *)
  Definition stringbuf_set_wraps (sb : stringbuf) (n : Z) : Prop :=
    exists sb', stringbuf_expand sb n = Done sb' true /\ size sb' < len sb' + n.
  (** src/mem.c 197-203 *)
  Definition stringbuf_finish (sb : stringbuf) : outcome :=
    if err sb then Done sb false else stringbuf_add_char sb NUL.

  (** src/mem.c 205-240.  [t]: the formatted text, None: vsnprintf returns -1.  What a
      call with too small a buffer leaves behind the used part is not modelled. *)
  Fixpoint vprintf (fuel : nat) (sb : stringbuf) (t : option bytes) : outcome :=
    let bufsize := size_t (size sb - len sb) in
    match (match t with Some t => if Z.leb bufsize (zlen t) then None else Some t | None => None end) with
    | Some t =>
        match put_end sb (t ++ [NUL]) with
        | Some b => Done (mkSb b (size sb) (size_t (len sb + zlen t)) (err sb) (calls sb)) true
        | None => Out
        end
    | None =>
        match fuel with
        | O => Fuel
        | S fuel =>
            match grow sb with
            | None => Exit
            | Some (sb, true) => vprintf fuel sb t
            | Some (sb, false) => Done sb false
            end
        end
    end.
  Definition stringbuf_vprintf (sb : stringbuf) (t : option bytes) : outcome := vprintf turns sb t.

  (** src/mem.c 254-282.  [t]: the formatted time.  strftime returns 0 if it does not
      fit together with the null character, and if it is empty. *)
  Fixpoint ftime (fuel : nat) (sb : stringbuf) (t : bytes) : outcome :=
    let bufsize := size_t (size sb - len sb) in
    if Z.ltb 0 (zlen t) && Z.ltb (zlen t) bufsize
    then match put_end sb (t ++ [NUL]) with
         | Some b => Done (mkSb b (size sb) (size_t (len sb + zlen t)) (err sb) (calls sb)) true
         | None => Out
         end
    else
      match fuel with
      | O => Fuel
      | S fuel =>
          match grow sb with
          | None => Exit
          | Some (sb, true) => ftime fuel sb t
          | Some (sb, false) => Done sb false
          end
      end.
  Definition stringbuf_strftime (sb : stringbuf) (t : bytes) : outcome := ftime turns sb t.

  (** src/mem.h 71-80 *)
  Definition stringbuf_consume (sb : stringbuf) (n : Z) : outcome :=
    if Z.ltb n (len sb)
    then match base sb with
         | None => Out
         | Some b =>
             let rest := firstn (Z.to_nat (len sb - n)) (skipn (Z.to_nat n) b) in
             Done (mkSb (Some (store b 0 rest)) (size sb) (len sb - n) (err sb) (calls sb)) true
         end
    else Done (mkSb (base sb) (size sb) 0 (err sb) (calls sb)) true.

  (** What the used part contains, stringbuf_value and stringbuf_len *)
  Definition contents (sb : stringbuf) : bytes := match base sb with None => [] | Some b => firstn (Z.to_nat (len sb)) b end.

  (** Programs *)
  Inductive op :=
  | OpAdd (s : bytes) | OpChar (c : byte) | OpString (s : bytes) | OpSet (c : byte) (n : nat)
  | OpPrintf (t : option bytes) | OpTime (t : bytes) | OpTruncate (n : Z) | OpReset | OpConsume (n : Z).
  Definition exec (sb : stringbuf) (o : op) : outcome :=
    match o with
    | OpAdd s => stringbuf_add sb s
    | OpChar c => stringbuf_add_char sb c
    | OpString s => stringbuf_add_string sb s
    | OpSet c n => stringbuf_set sb c n
    | OpPrintf t => stringbuf_vprintf sb t
    | OpTime t => stringbuf_strftime sb t
    | OpTruncate n => stringbuf_truncate sb n
    | OpReset => Done (stringbuf_reset sb) true
    | OpConsume n => stringbuf_consume sb n
    end.
  (** The final buffer and what the operations returned *)
  Inductive trace := Ran (sb : stringbuf) (rs : list bool) | RanExit | RanOut | RanFuel.
  Fixpoint run (ops : list op) (sb : stringbuf) : trace :=
    match ops with
    | [] => Ran sb []
    | o :: ops =>
        match exec sb o with
        | Done sb ok => match run ops sb with Ran sb rs => Ran sb (ok :: rs) | r => r end
        | Exit => RanExit
        | Out => RanOut
        | Fuel => RanFuel
        end
    end.
End Sbuf.
