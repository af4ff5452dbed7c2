(** C06: the body framing of an accepted request is unambiguous, and the head
    that is forwarded and the body that is relayed agree with it. *)
From Coq Require Import Ascii String List ZArith Lia.
From Verif Require Import Bytes ClenModel ClenSpec ClenProofs StreamModel StreamSpec TokModel TokSpec
  ReqModel ReqSpec ReqProofs HdrProofs HeadProofs FrameModel FrameSpec FrameProofs.
Import ListNotations.
Open Scope Z_scope.

(** The header checks pass exactly the heads that have a framing ... *)
Theorem C06_accept_iff : forall hs, Forall good hs ->
  ((exists sc, check_framing hs = inr sc) <-> exists f, framing_of (hfields hs) f).
Proof.
  intros hs Hg. split.
  - intros (sc & H). eauto using check_framing_sound.
  - intros (f & H). destruct (check_framing_complete hs f Hg H) as (sc & E & _). eauto.
Qed.
Print Assumptions C06_accept_iff.

(** ... and a head has at most one. *)
Theorem C06_framing_unique : forall fs f f', framing_of fs f -> framing_of fs f' -> f = f'.
Proof. exact framing_unique. Qed.
Print Assumptions C06_framing_unique.

(** The others are answered 400 or 501; 501 exactly for an unknown coding. *)
Theorem C06_refused : forall hs st, Forall good hs -> check_framing hs = inl st ->
  (forall f, ~ framing_of (hfields hs) f) /\ (st = ST_400 \/ st = ST_501).
Proof. exact check_framing_refuse. Qed.
Print Assumptions C06_refused.

Theorem C06_unknown_coding : forall hs, Forall good hs ->
  (check_framing hs = inl ST_501 <-> unknown_coding (hfields hs)).
Proof. exact check_framing_501. Qed.
Print Assumptions C06_unknown_coding.

(** Framing fields are forwarded as they came: the head sent to the backend has
    the same framing as the head received. *)
Theorem C06_forwarded_framing : forall hs sc f, Forall good hs -> check_framing hs = inr sc ->
  (framing_of (hfields hs) f <-> framing_of (hfields (sc_kept sc)) f).
Proof. exact kept_framing. Qed.
Print Assumptions C06_forwarded_framing.

(** An accepted HTTP/1.1 request: the body relayed is the one that the head
    forwarded to the backend announces. *)
Theorem C06_relay_agrees : forall l req hs rl sc, Forall good hs ->
  check_request l req hs = inr (rl, sc) -> rl_version rl = 1 ->
  exists f, framing_of (hfields hs) f /\ framing_of (hfields (sc_kept sc)) f /\
    match f with
    | NoBody | Length 0 => body_relay rl sc = RelayNothing
    | Length n => body_relay rl sc = RelayLength n
    | Chunked => body_relay rl sc = RelayChunks
    end.
Proof.
  intros l req hs rl sc Hg H Hv. destruct (relay_http11 _ _ _ _ _ Hg H Hv) as (f & F & R).
  exists f. repeat split; auto.
  - apply check_request_framing in H; auto. apply (kept_framing hs sc f Hg H). exact F.
  - rewrite R. destruct f as [|[|p|p]|]; try reflexivity.
    inversion F as [|v n T C L|]; subst. apply header_length_iff in L. destruct L as [L1 L2].
    pose proof (header_length_bounds _ _ L1 L2). lia.
Qed.
Print Assumptions C06_relay_agrees.

(** The same for HTTP/1.0 unless the request is chunked; what is missing from
    C06 is the case refuted below. *)
Theorem C06_relay_agrees_http10_partial : forall l req hs rl sc, Forall good hs ->
  check_request l req hs = inr (rl, sc) -> rl_version rl <> 1 ->
  ~ framing_of (hfields hs) Chunked ->
  exists f, framing_of (hfields (sc_kept sc)) f /\
    match f with
    | NoBody | Length 0 => body_relay rl sc = RelayNothing
    | Length n => body_relay rl sc = RelayLength n
    | Chunked => False
    end.
Proof.
  intros l req hs rl sc Hg H Hv Hn. destruct (relay_http10 _ _ _ _ _ Hg H Hv Hn) as (f & F & R).
  exists f. repeat split; auto. rewrite R.
  destruct f as [|[|p|p]|]; try reflexivity.
  - inversion F as [|v n T C L|]; subst. apply header_length_iff in L. destruct L as [L1 L2].
    pose proof (header_length_bounds _ _ L1 L2). lia.
  - apply Hn. apply check_request_framing in H; auto. apply (kept_framing hs sc _ Hg H). exact F.
Qed.
Print Assumptions C06_relay_agrees_http10_partial.

(** HTTP/1.0 with chunked coding: accepted, the forwarded head announces a
    chunked body, and no body is relayed. *)
Theorem C06_http10_chunked_refuted :
  exists l req hs rl sc, Forall good hs /\ check_request l req hs = inr (rl, sc) /\
    framing_of (hfields (sc_kept sc)) Chunked /\ body_relay rl sc = RelayNothing.
Proof.
  exists (mkLsn 0 None 0 0), (lit "POST / HTTP/1.0"),
    (map qualify_header [lit "Host: h"; lit "Transfer-Encoding: chunked"]).
  eexists. eexists.
  assert (G: Forall good (map qualify_header [lit "Host: h"; lit "Transfer-Encoding: chunked"]))
    by (repeat constructor).
  split; [exact G|]. split; [vm_compute; reflexivity|]. split; [|vm_compute; reflexivity].
  apply (fr_chunked _ [] (lit "chunked")); [vm_compute; reflexivity|vm_compute; reflexivity|constructor|].
  apply locate_last. eexists. vm_compute. reflexivity.
Qed.
Print Assumptions C06_http10_chunked_refuted.

(** The verdict depends on the two framing fields only: other headers and their
    order are irrelevant. *)
Theorem C06_other_headers_irrelevant : forall hs hs', Forall good hs -> Forall good hs' ->
  values "Transfer-Encoding" (hfields hs) = values "Transfer-Encoding" (hfields hs') ->
  values "Content-Length" (hfields hs) = values "Content-Length" (hfields hs') ->
  (exists sc, check_framing hs = inr sc) -> (exists sc, check_framing hs' = inr sc).
Proof.
  intros hs hs' G G' E1 E2 (sc & H).
  destruct (same_framing_fields hs hs' sc G G' E1 E2 H) as (sc' & H' & _). eauto.
Qed.
Print Assumptions C06_other_headers_irrelevant.

(** Limits: an accepted request respects MaxURI and its announced length
    respects MaxRequest; 413 is sent only for an announced length above it. *)
Theorem C06_limits : forall l req hs rl sc, Forall good hs -> check_request l req hs = inr (rl, sc) ->
  (0 < l_max_uri l -> Z.of_nat (length (rl_url rl)) <= l_max_uri l) /\
  (0 < l_max_req l -> forall n, framing_of (hfields hs) (Length n) -> n <= l_max_req l).
Proof. exact limits. Qed.
Print Assumptions C06_limits.

Theorem C06_too_large : forall l req hs, Forall good hs -> check_request l req hs = inl ST_413 ->
  0 < l_max_req l /\ exists n, framing_of (hfields hs) (Length n) /\ l_max_req l < n.
Proof. exact limit_413. Qed.
Print Assumptions C06_too_large.

(** The hypothesis [Forall good] holds of every head the reader delivers. *)
Theorem C06_read_heads_good : forall comb bs req hs rest,
  http_request_read comb (map RByte bs) = RR_ok req hs rest -> Forall good hs.
Proof.
  intros comb bs req hs rest H. apply read_request_sound in H.
  destruct H as (ls & fs & gs & r & _ & _ & _ & _ & G & _). exact G.
Qed.
Print Assumptions C06_read_heads_good.

Example C06_ex_verdicts : map (fun hs =>
   match check_framing (map qualify_header hs) with
   | inl st => inl st
   | inr sc => inr (sc_te sc, sc_cl sc) end)
  [ [lit "Host: a"]; [lit "Content-Length: 12 "]; [lit "transfer-encoding: gzip, Chunked"];
    [lit "Content-Length: 1"; lit "Content-Length: 1"]; [lit "Content-Length: 1,1"];
    [lit "Content-Length: 3"; lit "Transfer-Encoding: chunked"];
    [lit "Transfer-Encoding: chunked, gzip"]; [lit "Transfer-Encoding: gzip"];
    [lit "Transfer-Encoding: xchunked"]; [lit "Content-Length: -1"] ]
 = [ inr (TE_NONE, -1); inr (TE_NONE, 12); inr (TE_CHUNKED, -1);
     inl ST_400; inl ST_400; inl ST_400; inl ST_400; inl ST_501; inl ST_501; inl ST_400 ].
Proof. vm_compute. reflexivity. Qed.
