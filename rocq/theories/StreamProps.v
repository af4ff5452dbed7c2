(** C03, C04, C05: line reader and chunked relay. *)
From Coq Require Import Ascii String List ZArith Lia.
From Verif Require Import Bytes ClenModel ClenSpec StreamModel StreamSpec StreamProofs.
Import ListNotations.
Open Scope Z_scope.

(** C03.  For every byte stream and buffer size the reader leaves the stream
    right behind its first LF, and its verdict is one of the specified ones. *)
Theorem C03_line_reader : forall (size : Z) (bs : bytes), 1 <= size ->
  exists st line rest,
    get_line size (map RByte bs) = (st, line, map RByte rest) /\
    rest = after_first_LF bs /\
    match st with
    | COPY_OK => line_ok size bs line rest
    | COPY_EOF => bs = []
    | COPY_TOO_LONG => line_too_long size bs
    | COPY_BAD_DATA => line_bad size bs
    | COPY_READ_ERR => False
    | COPY_WRITE_ERR => False
    end.
Proof. exact get_line_status. Qed.
Print Assumptions C03_line_reader.

(** A line is delivered exactly when the specification says so. *)
Theorem C03_line_accepted_iff : forall (size : Z) (bs l rest : bytes), 1 <= size ->
  (get_line size (map RByte bs) = (COPY_OK, l, map RByte rest) <-> line_ok size bs l rest).
Proof. exact get_line_ok_iff. Qed.
Print Assumptions C03_line_accepted_iff.

(** A delivered line has no NUL, CR, LF or control byte but TAB, and fits. *)
Theorem C03_line_safe : forall (size : Z) (s l rest : bytes), line_ok size s l rest ->
  Forall (fun c => c <> NUL /\ c <> CR /\ c <> LF /\ (is_cntrl c = true -> c = TAB)) l /\
  Z.of_nat (length l) + 1 < size.
Proof. exact line_ok_safe. Qed.
Print Assumptions C03_line_safe.

Example C03_ex_ok : get_line 8 (map RByte (lit "ab" ++ CRLF ++ lit "rest"))
  = (COPY_OK, lit "ab", map RByte (lit "rest")).
Proof. vm_compute. reflexivity. Qed.
Example C03_ex_spec : line_ok 8 (lit "ab" ++ CRLF ++ lit "rest") (lit "ab") (lit "rest").
Proof.
  apply C03_line_accepted_iff; [lia|]. exact C03_ex_ok.
Qed.
Example C03_ex_bare_cr : get_line 8 (map RByte (lit "a" ++ [CR] ++ lit "b" ++ [LF] ++ lit "next"))
  = (COPY_BAD_DATA, lit "a", map RByte (lit "next")).
Proof. vm_compute. reflexivity. Qed.
Example C03_ex_long : get_line 4 (map RByte (lit "abcd" ++ [LF] ++ lit "next"))
  = (COPY_TOO_LONG, lit "abc", map RByte (lit "next")).
Proof. vm_compute. reflexivity. Qed.

(** The guarantee does not extend to transports whose read returns 0 with the
    retry flag set in the middle of a line: the line handed on is cut there
    although the whole line was consumed. *)
Theorem C03_retry_truncates_refuted :
  exists src, get_line MAXBUF src = (COPY_OK, lit "DELETE /", []) /\
    filter (fun r => match r with RRetry => false | _ => true end) src
    = map RByte (lit "DELETE /x HTTP/1.1" ++ CRLF).
Proof.
  exists (map RByte (lit "DELETE /") ++ [RRetry] ++ map RByte (lit "x HTTP/1.1" ++ CRLF)).
  split; vm_compute; reflexivity.
Qed.
Print Assumptions C03_retry_truncates_refuted.

(** C04.  Relaying succeeds exactly on chunked bodies within the limits, for
    every way the transport splits the reads; what is written is the body with
    normalised line ends, and the count is the payload length. *)
Theorem C04_relay_sound : forall (nw : bool) (max : Z) (st : cstate) (bs : bytes) (st' : cstate),
  c_src st = map RByte bs ->
  copy_chunks false nw max st = (CR_OK, st') ->
  exists o pay sizes rest,
    chunked 4096 lenient bs o pay sizes rest /\
    c_src st' = map RByte rest /\
    c_out st' = (if nw then c_out st else c_out st ++ o) /\
    c_cnt st' = c_cnt st + Z.of_nat (length pay) /\
    sum sizes <= max_length /\ (0 < max -> sum sizes <= max).
Proof. exact copy_chunks_sound. Qed.
Print Assumptions C04_relay_sound.

Theorem C04_relay_complete : forall wraps nw max bs o pay sizes rest plan w out cnt,
  chunked 4096 lenient bs o pay sizes rest -> Forall (fun b => b = true) w ->
  sum sizes <= max_length -> (0 < max -> sum sizes <= max) ->
  exists plan' w', Forall (fun b => b = true) w' /\
    copy_chunks wraps nw max (mkC (map RByte bs) plan w out cnt) =
    (CR_OK, mkC (map RByte rest) plan' w' (if nw then out else out ++ o)
                (cnt + Z.of_nat (length pay))).
Proof. exact copy_chunks_complete. Qed.
Print Assumptions C04_relay_complete.

(** The relay always stops. *)
Theorem C04_relay_terminates : forall wraps nw max st bs,
  c_src st = map RByte bs -> fst (copy_chunks wraps nw max st) <> CR_FUEL.
Proof. exact copy_chunks_fuel. Qed.
Print Assumptions C04_relay_terminates.

Definition ex_body : bytes :=
  lit "4;x=y" ++ CRLF ++ lit "wiki" ++ CRLF ++ lit "3" ++ [LF] ++ lit "abc" ++ CRLF
  ++ lit "0" ++ CRLF ++ lit "T: 1" ++ CRLF ++ CRLF.
Example C04_ex : exists st',
  copy_chunks false false 7 (mkC (map RByte (ex_body ++ lit "GET")) [Deliver 1; TryAgain; Deliver 2] [] [] 0)
  = (CR_OK, st') /\ c_src st' = map RByte (lit "GET") /\ c_cnt st' = 7 /\
  c_out st' = lit "4;x=y" ++ CRLF ++ lit "wiki" ++ CRLF ++ lit "3" ++ CRLF ++ lit "abc" ++ CRLF
  ++ lit "0" ++ CRLF ++ lit "T: 1" ++ CRLF ++ CRLF.
Proof. eexists. vm_compute. repeat split; reflexivity. Qed.

(** The stricter reading of C04 (nothing may follow the announced bytes of a
    chunk on its line) does not hold: extra text is relayed as it stands. *)
Theorem C04_strict_chunks_refuted : exists bs st',
  copy_chunks false false 0 (mkC (map RByte bs) [] [] [] 0) = (CR_OK, st') /\
  c_out st' = bs /\
  bs = lit "3" ++ CRLF ++ lit "abcXYZ" ++ CRLF ++ lit "0" ++ CRLF ++ CRLF.
Proof. eexists. eexists. split; [|split; [|reflexivity]]; vm_compute; reflexivity. Qed.
Print Assumptions C04_strict_chunks_refuted.

(** C05.  As long as the running total does not overflow, no more than the
    limit is ever forwarded, whatever the outcome; larger bodies never succeed
    (C04_relay_sound). *)
Theorem C05_max_request_partial : forall nw max st bs,
  c_src st = map RByte bs -> 0 < max ->
  c_cnt st <= c_cnt (snd (copy_chunks false nw max st)) <= c_cnt st + max.
Proof. exact copy_chunks_count. Qed.
Print Assumptions C05_max_request_partial.

Example C05_ex :
  fst (copy_chunks false false 6 (mkC (map RByte ex_body) [] [] [] 0)) = CR_TOO_LARGE /\
  c_cnt (snd (copy_chunks false false 6 (mkC (map RByte ex_body) [] [] [] 0))) = 4.
Proof. vm_compute. split; reflexivity. Qed.

(** The full claim fails: the total is a signed 64-bit sum without overflow
    check.  The sum overflows (undefined in C) ... *)
Definition overflow_body : bytes :=
  lit "1" ++ CRLF ++ lit "a" ++ CRLF ++ lit "7fffffffffffffff" ++ CRLF ++ lit "0123456789012345678901234567890123456789".
Theorem C05_total_overflow_refuted :
  fst (copy_chunks false false 10 (mkC (map RByte overflow_body) [] [] [] 0)) = CR_OVERFLOW.
Proof. vm_compute. reflexivity. Qed.
Print Assumptions C05_total_overflow_refuted.

(** ... and where it wraps, the limit of 10 does not stop 41 body bytes (the
    client can go on for ever). *)
Theorem C05_max_request_refuted : exists st',
  snd (copy_chunks true false 10 (mkC (map RByte overflow_body) [] [] [] 0)) = st' /\
  c_cnt st' = 41.
Proof. eexists. split; vm_compute; reflexivity. Qed.
Print Assumptions C05_max_request_refuted.
