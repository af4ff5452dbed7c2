(** Model of the byte-stream layer of src/http.c: drain_eol, get_line
    (lines 1143-1237), copy_bin (937-975) and copy_chunks (1347-1482).
    Definitions only. *)
From Coq Require Import Ascii List ZArith Bool.
From Verif Require Import Bytes ClenModel.
Import ListNotations.
Open Scope Z_scope.

(** What the next one-byte read of the source BIO meets:
    a byte; a read returning 0 with BIO_should_retry true; a read error
    (-1 or -2).  The end of the list is end of file (0, no retry), for ever. *)
Inductive rd := RByte (c : byte) | RRetry | RErr.

(** src/http.c 900-934: enum of copy results *)
Inductive copy_status :=
  COPY_OK | COPY_EOF | COPY_READ_ERR | COPY_WRITE_ERR | COPY_BAD_DATA | COPY_TOO_LONG.

(** src/http.c 1143-1157.  On a retry the C code jumps to the loop test, which
    on the first iteration reads an uninitialised variable; the model takes it
    as different from LF. *)
Fixpoint drain_eol (src : list rd) : list rd :=
  match src with
  | [] => []
  | RErr :: src' => src'
  | RRetry :: src' => drain_eol src'
  | RByte c :: src' => if beq c LF then src' else drain_eol src'
  end.

(** src/http.c 1165-1237.  [acc] holds buf[0..i-1] in reverse; cells that the
    loop skips keep the NUL written by memset.  The result carries the buffer
    cells written so far; the C string the caller sees is [cstr_of] them. *)
Fixpoint get_line_loop (bufsize i : Z) (seen_cr : bool) (acc : bytes) (src : list rd)
  : copy_status * bytes * list rd :=
  if i <? bufsize - 1 then
    match src with
    | [] => (if i =? 0 then COPY_EOF else COPY_OK, rev acc, [])
    | RErr :: src' => (COPY_READ_ERR, rev acc, src')
    | RRetry :: src' => get_line_loop bufsize (i + 1) seen_cr (NUL :: acc) src'
    | RByte tmp :: src' =>
        if seen_cr then
          if negb (beq tmp LF) then (COPY_BAD_DATA, rev acc, drain_eol src')
          else (COPY_OK, rev acc, src')
        else if negb (is_cntrl tmp) || beq tmp TAB then
          get_line_loop bufsize (i + 1) false (tmp :: acc) src'
        else if beq tmp CR then
          get_line_loop bufsize (i + 1) true (NUL :: acc) src'
        else if beq tmp LF then (COPY_OK, rev acc, src')
        else (COPY_BAD_DATA, rev acc, drain_eol src')
    end
  else (COPY_TOO_LONG, rev acc, drain_eol src).

(** The C string at the start of a zero-filled buffer. *)
Fixpoint cstr_of (cells : bytes) : bytes :=
  match cells with
  | [] => []
  | c :: cells' => if beq c NUL then [] else c :: cstr_of cells'
  end.

Definition get_line (bufsize : Z) (src : list rd) : copy_status * bytes * list rd :=
  let '(st, cells, src') := get_line_loop bufsize 0 false [] src in
  (st, cstr_of cells, src').

(** src/pound.h: MAXBUF *)
Definition MAXBUF : Z := 4096.

(** How the transport answers successive BIO_read calls for a block: deliver at
    most that many bytes (at least one), or fail with BIO_should_retry set.
    When the list is used up every read delivers as much as was asked. *)
Inductive rdplan := Deliver (k : nat) | TryAgain.

(** Leading bytes of the source, at most [n]. *)
Fixpoint take_bytes (n : nat) (src : list rd) : bytes * list rd :=
  match n, src with
  | S n', RByte c :: src' => let (b, r) := take_bytes n' src' in (c :: b, r)
  | _, _ => ([], src)
  end.

(** State threaded through the copy routines: source, read plan, write plan
    (false = the write fails), bytes written to the peer, body byte counter. *)
Record cstate := mkC {
  c_src : list rd;
  c_plan : list rdplan;
  c_wr : list bool;
  c_out : bytes;
  c_cnt : Z
}.

(** BIO_write / BIO_printf / BIO_flush of [data]: takes the next entry of the
    write plan; an exhausted plan means success.  Short writes are not
    modelled: a write is complete or fails. *)
Definition bio_write (data : bytes) (st : cstate) : bool * cstate :=
  match c_wr st with
  | false :: w => (false, mkC (c_src st) (c_plan st) w (c_out st) (c_cnt st))
  | true :: w => (true, mkC (c_src st) (c_plan st) w (c_out st ++ data) (c_cnt st))
  | [] => (true, mkC (c_src st) (c_plan st) [] (c_out st ++ data) (c_cnt st))
  end.

(** src/http.c 940-975.  One iteration per unit of fuel; [None] is out of fuel.
    A retry event in the source itself counts like [TryAgain]. *)
Fixpoint copy_bin_loop (fuel : nat) (cont : Z) (no_write : bool) (st : cstate)
  : option (copy_status * cstate) :=
  match fuel with
  | O => None
  | S fuel' =>
      if 0 <? cont then
        let req := if MAXBUF <? cont then MAXBUF else cont in
        match c_plan st with
        | TryAgain :: p =>
            copy_bin_loop fuel' cont no_write (mkC (c_src st) p (c_wr st) (c_out st) (c_cnt st))
        | _ =>
            let '(lim, p) := match c_plan st with
                             | Deliver k :: p => (Z.min req (Z.max 1 (Z.of_nat k)), p)
                             | _ => (req, [])
                             end in
            match c_src st with
            | [] => Some (COPY_EOF, mkC [] p (c_wr st) (c_out st) (c_cnt st))
            | RErr :: s => Some (COPY_READ_ERR, mkC s p (c_wr st) (c_out st) (c_cnt st))
            | RRetry :: s => copy_bin_loop fuel' cont no_write (mkC s p (c_wr st) (c_out st) (c_cnt st))
            | RByte _ :: _ =>
                let '(buf, s) := take_bytes (Z.to_nat lim) (c_src st) in
                let res := Z.of_nat (length buf) in
                let st1 := mkC s p (c_wr st) (c_out st) (c_cnt st) in
                let '(ok, st2) := if no_write then (true, st1) else bio_write buf st1 in
                if ok then
                  copy_bin_loop fuel' (cont - res) no_write
                    (mkC (c_src st2) (c_plan st2) (c_wr st2) (c_out st2) (c_cnt st2 + res))
                else Some (COPY_WRITE_ERR, st2)
            end
        end
      else
        let '(ok, st') := if no_write then (true, st) else bio_write [] st in
        Some (if ok then COPY_OK else COPY_WRITE_ERR, st')
  end.

(** Enough fuel: every iteration uses up a plan entry or a source event. *)
Definition copy_bin (cont : Z) (no_write : bool) (st : cstate) : option (copy_status * cstate) :=
  copy_bin_loop (S (length (c_plan st) + length (c_src st))) cont no_write st.

(** Results of copy_chunks: HTTP_STATUS values used there, plus the two model
    outcomes: fuel exhausted and signed overflow of [tot_size]. *)
Inductive chunk_result :=
  CR_OK | CR_BAD_REQUEST | CR_INTERNAL | CR_TOO_LARGE | CR_OVERFLOW | CR_FUEL.

Definition read_error (res : copy_status) : chunk_result :=
  match res with COPY_READ_ERR => CR_INTERNAL | _ => CR_BAD_REQUEST end.

(** Two's complement wrap to signed 64 bits. *)
Definition wrap64 (z : Z) : Z := (z + 2 ^ 63) mod 2 ^ 64 - 2 ^ 63.

(** [tot_size += cont] (src/http.c 1387): signed overflow is undefined in C.
    With [wraps = false] it is the separate outcome; with [wraps = true] it
    wraps, which is what the usual compilers produce. *)
Definition add_size (wraps : bool) (a b : Z) : option Z :=
  if a + b <=? CONTENT_LENGTH_MAX then Some (a + b)
  else if wraps then Some (wrap64 (a + b)) else None.

Definition put_line (no_write : bool) (line : bytes) (st : cstate) : bool * cstate :=
  if no_write then (true, st) else bio_write (line ++ CRLF) st.

Definition set_src (st : cstate) (s : list rd) : cstate :=
  mkC s (c_plan st) (c_wr st) (c_out st) (c_cnt st).

(** src/http.c 1449-1481: trailer lines up to the empty one, then flush. *)
Fixpoint copy_trailers (fuel : nat) (no_write : bool) (st : cstate) : chunk_result * cstate :=
  match fuel with
  | O => (CR_FUEL, st)
  | S fuel' =>
      let '(res, buf, s) := get_line MAXBUF (c_src st) in
      let st := set_src st s in
      match res with
      | COPY_OK =>
          let '(ok, st) := put_line no_write buf st in
          if negb ok then (CR_INTERNAL, st)
          else match buf with
               | [] =>
                   let '(ok, st) := if no_write then (true, st) else bio_write [] st in
                   (if ok then CR_OK else CR_INTERNAL, st)
               | _ => copy_trailers fuel' no_write st
               end
      | _ => (read_error res, st)
      end
  end.

(** src/http.c 1358-1448: the chunk loop, then the trailers. *)
Fixpoint copy_chunks_loop (fuel : nat) (wraps : bool) (tot_size : Z) (no_write : bool)
    (max_size : Z) (st : cstate) : chunk_result * cstate :=
  match fuel with
  | O => (CR_FUEL, st)
  | S fuel' =>
      let '(res, buf, s) := get_line MAXBUF (c_src st) in
      let st := set_src st s in
      match res with
      | COPY_OK =>
          let cont := get_content_length buf CL_CHUNK in
          if cont =? NO_CONTENT_LENGTH then (CR_BAD_REQUEST, st)
          else
            let '(ok, st) := put_line no_write buf st in
            if negb ok then (CR_INTERNAL, st)
            else
              match add_size wraps tot_size cont with
              | None => (CR_OVERFLOW, st)
              | Some tot_size =>
                  if (0 <? max_size) && (max_size <? tot_size) then (CR_TOO_LARGE, st)
                  else if 0 <? cont then
                    match copy_bin cont no_write st with
                    | None => (CR_FUEL, st)
                    | Some (COPY_OK, st) =>
                        let '(res, buf, s) := get_line MAXBUF (c_src st) in
                        let st := set_src st s in
                        match res with
                        | COPY_OK =>
                            (* buf[0] != 0 is only logged, src/http.c 1438-1440 *)
                            let '(ok, st) := put_line no_write buf st in
                            if negb ok then (CR_INTERNAL, st)
                            else copy_chunks_loop fuel' wraps tot_size no_write max_size st
                        | _ => (read_error res, st)
                        end
                    | Some (COPY_READ_ERR, st) | Some (COPY_WRITE_ERR, st) => (CR_INTERNAL, st)
                    | Some (_, st) => (CR_BAD_REQUEST, st)
                    end
                  else copy_trailers fuel' no_write st
              end
      | _ => (read_error res, st)
      end
  end.

(** src/http.c 1350-1482.  Every iteration reads at least one source event or
    stops, so the fuel suffices (proved). *)
Definition copy_chunks (wraps no_write : bool) (max_size : Z) (st : cstate)
  : chunk_result * cstate :=
  copy_chunks_loop (S (S (length (c_src st)))) wraps 0 no_write max_size st.
