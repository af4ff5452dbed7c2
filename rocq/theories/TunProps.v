(** C58: the tunnel between client and backend after a websocket upgrade. *)
From Coq Require Import Ascii String List ZArith Bool.
From Verif Require Import Bytes TunModel TunSpec TunProofs.
Import ListNotations.

(** Whatever the peers send and whenever, however the reads are cut and whatever fails: what
    the backend received is the beginning of what the client sent (starting with what was in
    the buffer when the tunnel was opened), and vice versa. *)
Theorem C58_order : forall ws c b n tr s, run ws tr (start c b n) = Some s ->
  prefix (got (be s)) (c ++ sent Client tr) /\ prefix (got (cl s)) (b ++ sent Backend tr).
Proof. exact relay. Qed.
Print Assumptions C58_order.

(** The size of the response counts each byte the client received in the tunnel, except while
    bytes are being put into the buffer. *)
Theorem C58_count : forall ws c b n tr s, run ws tr (start c b n) = Some s -> flushed tr ->
  pc s <> DrainBe -> pc s <> Ended (WriteError Client) ->
  count s = (n + Z.of_nat (length (got (cl s))))%Z.
Proof. exact counted. Qed.
Print Assumptions C58_count.

(** The tunnel is ended for want of traffic only if neither peer sent anything or closed for
    the configured time, and then all that was sent arrived. *)
Theorem C58_idle : forall ws c b n tr s, ends ws c b n tr Idle s -> flushed tr ->
  all_arrived c b tr s /\ exists tr1 tr2, tr = tr1 ++ tr2 /\ quiet tr2 /\ (ws <= elapsed tr2)%Z.
Proof. exact idle. Qed.
Print Assumptions C58_idle.

(** When a peer closed and the tunnel ended for that, all that this peer sent arrived.  (Partial:
    that does not hold of what the other one sent, see below.) *)
Theorem C58_eof_partial : forall ws c b n tr p s, ends ws c b n tr (Eof p) s -> flushed tr ->
  match p with
  | Client => got (be s) = c ++ sent Client tr
  | Backend => got (cl s) = b ++ sent Backend tr
  end.
Proof. exact eof. Qed.
Print Assumptions C58_eof_partial.

(** While neither peer closes, the thread, in a bounded number of steps, delivers all that was
    sent, however its reads are cut, and the tunnel stays open. *)
Theorem C58_progress : forall ws c b n tr s, run ws tr (start c b n) = Some s -> flushed tr -> running s ->
  (forall p, ~ In (Close p) tr) ->
  exists m, forall ks, m <= length ks -> exists i s',
    run ws (alone (firstn i ks)) s = Some s' /\ all_arrived c b tr s' /\ running s'.
Proof. exact progress. Qed.
Print Assumptions C58_progress.

(** A client that closes its sending direction loses the answers: in whatever history, if the
    thread waits in poll and the client has closed, all its bytes having arrived, the next steps
    of the thread end the tunnel, and nothing the backend sent and the client has not yet
    received is ever delivered, not even what had arrived before the client closed. *)
Theorem C58_half_close_refuted : forall ws c b n tr s t, run ws tr (start c b n) = Some s -> flushed tr ->
  pc s = Polling t -> closed (cl s) = true -> got (be s) = c ++ sent Client tr ->
  exists s', run ws (alone [0; 0; 0; 0]) s = Some s' /\ pc s' = Ended (Eof Client) /\
    forall tr2 s2, run ws tr2 s' = Some s2 -> got (cl s2) = got (cl s).
Proof. exact half_closed. Qed.
Print Assumptions C58_half_close_refuted.

(** A flush that fails is not noticed: the tunnel goes on, and may end for want of traffic
    with bytes that never arrived. *)
Theorem C58_flush_refuted : exists tr s, ends 10 [] [] 0 tr Idle s /\ ~ all_arrived [] [] tr s.
Proof.
  exists ([Go 0 true true; Send Client (lit "x"); Go 0 true true; Go 0 true true; Go 0 true true; Go 0 true false; Go 0 true true;
           Go 0 true true; Tick 10] ++ [Go 0 true true]).
  eexists. split.
  - eexists _, _, _. split; [reflexivity|]. split; [vm_compute; reflexivity|]. split; [exact I|]. split; [vm_compute; reflexivity|reflexivity].
  - intros [A _]. vm_compute in A. discriminate A.
Qed.
Print Assumptions C58_flush_refuted.

(** A conversation: bytes in the buffers at the beginning, then a message in each direction,
    read in pieces; the client is the one who closes. *)
Example C58_talk :
  exists s, ends 10 (lit "a") (lit "b") 0
    (([Go 0 true true; Go 0 true true; Send Backend (lit "hello"); Go 0 true true; Go 0 true true; Go 0 true true; Go 0 true true; Go 0 true true;
      Go 0 true true; Go 0 true true; Send Client (lit "xyz"); Go 0 true true; Go 0 true true; Go 0 true true; Go 1 true true; Go 9 true true;
      Go 0 true true; Go 0 true true; Go 0 true true; Go 0 true true; Go 8 true true; Go 9 true true;
      Tick 9; Close Client] ++ repeat (Go 0 true true) 15) ++ [Go 0 true true]) (Eof Client) s /\
    got (be s) = lit "axyz" /\ got (cl s) = lit "bhello" /\ count s = 6%Z.
Proof.
  eexists. split.
  - eexists _, _, _. split; [reflexivity|]. split; [vm_compute; reflexivity|]. split; [exact I|]. split; [vm_compute; reflexivity|reflexivity].
  - vm_compute. repeat split.
Qed.
(** The case of [C58_half_close_refuted]: the answer is there, and it is not delivered. *)
Example C58_half : exists s, run 10 [Go 0 true true; Send Client (lit "x"); Go 0 true true; Go 0 true true; Go 0 true true; Go 0 true true; Go 0 true true;
    Go 0 true true; Send Backend (lit "answer"); Close Client] (start [] [] 0) = Some s /\
  pc s = Polling 0 /\ closed (cl s) = true /\ got (be s) = lit "x" /\ net (be s) = lit "answer".
Proof. eexists. split; [vm_compute; reflexivity|]. vm_compute. repeat split. Qed.
(** The case of [C58_idle] *)
Example C58_quiet : exists s, ends 10 (lit "a") [] 0 ([Go 0 true true; Go 0 true true; Go 0 true true; Go 0 true true; Go 0 true true; Go 0 true true; Go 0 true true; Tick 10] ++ [Go 0 true true]) Idle s.
Proof.
  eexists. eexists _, _, _. split; [reflexivity|]. split; [vm_compute; reflexivity|]. split; [exact I|]. split; [vm_compute; reflexivity|reflexivity].
Qed.
