(** Model of the tunnel between client and backend after a websocket upgrade, src/http.c
    4007-4146 (the branch [ws_state == WSS_COMPLETE] of backend_response), one step of the
    thread at a time, in between the doings of the peers.

    Simplifications: a write either takes all its bytes or fails, and it does not block;
    poll is not interrupted; BIO_find_type finds the BIO. *)
From Coq Require Import List ZArith Bool Arith.
From Verif Require Import Bytes.
Import ListNotations.
Local Open Scope nat_scope.

Inductive peer := Client | Backend.

(** What belongs to a peer: bytes sent by it that nobody has read yet; whether it closed its
    sending direction; bytes read from the connection that are still in the buffering BIO
    or in the TLS layer below it (BIO_pending); bytes for it in the output buffer of its BIO;
    bytes it was sent. *)
Record side := mkSide { net : bytes; closed : bool; pend : bytes; obuf : bytes; got : bytes }.

(** How the tunnel ended: poll timed out; end of file from a peer; error reading from a
    peer; error writing to a peer *)
Inductive ending := Idle | Eof (p : peer) | ReadError (p : peer) | WriteError (p : peer).

(** Where the thread is: the condition of the loop (4027); in poll since some time (4028);
    the loops over pending bytes (4034-4051, 4054-4072); the two reads of 4102-4144 *)
Inductive place := Test | Polling (since : Z) | DrainCl | DrainBe | RecvCl | RecvBe | Ended (e : ending).

(** [r_cl], [r_be]: p[0].revents, p[1].revents; [count]: res_bytes; [now]: seconds *)
Record st := mkSt { now : Z; pc : place; cl : side; be : side; r_cl : bool; r_be : bool; count : Z }.

(** 4009-4026: the bytes that are in the input buffers already, and the bytes counted *)
Definition start (clbuf bebuf : bytes) (n : Z) : st :=
  mkSt 0 Test (mkSide [] false clbuf [] []) (mkSide [] false bebuf [] []) false false n.

(** What happens: a peer sends bytes, or closes; time passes; the thread makes a step, with
    the number of bytes (less one) that a read of the connection takes, the success of the
    write and of the flush; the thread meets an error while reading. *)
Inductive label := Send (p : peer) (b : bytes) | Close (p : peer) | Tick (d : Z) | Go (k : nat) (wr fl : bool) | Fault.

Definition send (b : bytes) (s : side) : side := mkSide (net s ++ b) (closed s) (pend s) (obuf s) (got s).
Definition close (s : side) : side := mkSide (net s) true (pend s) (obuf s) (got s).
Definition set_pend (b : bytes) (s : side) : side := mkSide (net s) (closed s) b (obuf s) (got s).
(** BIO_write *)
Definition write (b : bytes) (s : side) : side := mkSide (net s) (closed s) (pend s) (obuf s ++ b) (got s).
(** BIO_flush; the result is not looked at (4052, 4073, 4119, 4141): what could not be
    written stays in the buffer *)
Definition flush (ok : bool) (s : side) : side :=
  if ok then mkSide (net s) (closed s) (pend s) [] (got s ++ obuf s) else s.
(** pound.h 195 *)
Definition MAXBUF : nat := 1024 + 1024 + 1024 + 1024.
(** A read of up to MAXBUF bytes below the buffering BIO, when the TLS layer (or the socket)
    took [n] bytes of the stream: those that do not fit stay with the TLS layer *)
Definition taken (n : nat) (s : side) : bytes := firstn MAXBUF (firstn n (net s)).
Definition take (n : nat) (s : side) : side :=
  mkSide (skipn n (net s)) (closed s) (pend s ++ skipn MAXBUF (firstn n (net s))) (obuf s) (got s).
(** poll reports data or the end of the stream *)
Definition ready (s : side) : bool := match net s with [] => closed s | _ => true end.
Definition none_left (b : bytes) : bool := match b with [] => true | _ => false end.

Definition at_ (p : place) (s : st) : st := mkSt (now s) p (cl s) (be s) (r_cl s) (r_be s) (count s).

(** One step of the thread; None: it waits. *)
Definition go (ws_to : Z) (k : nat) (wr fl : bool) (s : st) : option st :=
  match pc s with
  | Test =>                                                             (* 4027 *)
      Some (at_ (if none_left (pend (cl s)) && none_left (pend (be s)) then Polling (now s) else DrainCl) s)
  | Polling since =>                                                    (* 4028 *)
      if ready (cl s) || ready (be s)
      then Some (mkSt (now s) DrainCl (cl s) (be s) (ready (cl s)) (ready (be s)) (count s))
      else if (since + ws_to <=? now s)%Z then Some (at_ (Ended Idle) s) else None
  | DrainCl =>                                                          (* 4034-4052 *)
      match pend (cl s) with
      | c :: l =>
          if wr then Some (mkSt (now s) DrainCl (set_pend l (cl s)) (write [c] (be s)) (r_cl s) (r_be s) (count s))
          else Some (mkSt (now s) (Ended (WriteError Backend)) (set_pend l (cl s)) (be s) (r_cl s) (r_be s) (count s))
      | [] => Some (mkSt (now s) DrainBe (cl s) (flush fl (be s)) (r_cl s) (r_be s) (count s))
      end
  | DrainBe =>                                                          (* 4054-4073 *)
      match pend (be s) with
      | c :: l =>
          if wr then Some (mkSt (now s) DrainBe (write [c] (cl s)) (set_pend l (be s)) (r_cl s) (r_be s) (count s + 1))
          else Some (mkSt (now s) (Ended (WriteError Client)) (cl s) (set_pend l (be s)) (r_cl s) (r_be s) (count s))
      | [] => Some (mkSt (now s) RecvCl (flush fl (cl s)) (be s) (r_cl s) (r_be s) (count s))
      end
  | RecvCl =>                                                           (* 4102-4122 *)
      if r_cl s
      then
        match net (cl s) with
        | [] => if closed (cl s) then Some (at_ (Ended (Eof Client)) s) else None
        | _ =>
            if wr then Some (mkSt (now s) RecvBe (take (S k) (cl s)) (flush fl (write (taken (S k) (cl s)) (be s))) false (r_be s) (count s))
            else Some (mkSt (now s) (Ended (WriteError Backend)) (take (S k) (cl s)) (be s) (r_cl s) (r_be s) (count s))
        end
      else Some (at_ RecvBe s)
  | RecvBe =>                                                           (* 4123-4144 *)
      if r_be s
      then
        match net (be s) with
        | [] => if closed (be s) then Some (at_ (Ended (Eof Backend)) s) else None
        | _ =>
            if wr
            then Some (mkSt (now s) Test (flush fl (write (taken (S k) (be s)) (cl s))) (take (S k) (be s)) (r_cl s) false
                         (count s + Z.of_nat (length (taken (S k) (be s)))))
            else Some (mkSt (now s) (Ended (WriteError Client)) (cl s) (take (S k) (be s)) (r_cl s) (r_be s) (count s))
        end
      else Some (at_ Test s)
  | Ended _ => None
  end.

(** 4104-4108, 4125-4129: a read that fails is treated like the end of the stream.  (The
    reads of 4036 and 4056 take bytes that are in memory.) *)
Definition fault (s : st) : option st :=
  match pc s with
  | RecvCl => if r_cl s then Some (at_ (Ended (ReadError Client)) s) else None
  | RecvBe => if r_be s then Some (at_ (Ended (ReadError Backend)) s) else None
  | _ => None
  end.

(** None: this cannot happen now. *)
Definition step (ws_to : Z) (a : label) (s : st) : option st :=
  match a with
  | Send Client b => if closed (cl s) then None else Some (mkSt (now s) (pc s) (send b (cl s)) (be s) (r_cl s) (r_be s) (count s))
  | Send Backend b => if closed (be s) then None else Some (mkSt (now s) (pc s) (cl s) (send b (be s)) (r_cl s) (r_be s) (count s))
  | Close Client => Some (mkSt (now s) (pc s) (close (cl s)) (be s) (r_cl s) (r_be s) (count s))
  | Close Backend => Some (mkSt (now s) (pc s) (cl s) (close (be s)) (r_cl s) (r_be s) (count s))
  | Tick d => if (0 <=? d)%Z then Some (mkSt (now s + d) (pc s) (cl s) (be s) (r_cl s) (r_be s) (count s)) else None
  | Go k wr fl => go ws_to k wr fl s
  | Fault => fault s
  end.

Fixpoint run (ws_to : Z) (tr : list label) (s : st) : option st :=
  match tr with
  | [] => Some s
  | a :: tr => match step ws_to a s with Some s => run ws_to tr s | None => None end
  end.
