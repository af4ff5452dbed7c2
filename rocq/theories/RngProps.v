(** C74, C75: options of a TLS listener, renegotiation, waits for the peer. *)
From Coq Require Import String List ZArith Bool Lia.
From Verif Require Import Bytes ClenSpec NumSpec RngModel RngSpec RngProofs.
Import ListNotations.
Local Open Scope list_scope.
Local Open Scope Z_scope.

(** What the directives of a listener say last counts, for every context: insecure renegotiation is allowed in mode 2 only, the order of ciphers is the
    server's if that was said, compression is off; no other option of the first 32 is touched. *)
Theorem C74_options : forall op_all ds m h, says ds m h -> exists l, parse ds (start op_all) = Some l /\ l_reneg l = m /\
  forall width o, 32 <= width ->
    Z.testbit (ctx_options width o l) legacy_bit = (m =? 2) /\
    Z.testbit (ctx_options width o l) order_bit = match h with Some b => b | None => Z.testbit o order_bit || Z.testbit op_all order_bit end /\
    Z.testbit (ctx_options width o l) compression_bit = true /\
    Z.testbit (ctx_options width o l) 2 = false /\ Z.testbit (ctx_options width o l) 11 = false /\
    (forall i, 0 <= i < 32 -> ~ In i named_bits -> Z.testbit (ctx_options width o l) i = Z.testbit o i || Z.testbit op_all i).
Proof. exact options_said. Qed.
Print Assumptions C74_options.

(** Nothing else is accepted. *)
Theorem C74_accepted : forall op_all ds l, Forall (fun d => match d with AllowClientRenegotiation w => number_token w | HonorCipherOrder _ => True end) ds ->
  parse ds (start op_all) = Some l -> exists m h, says ds m h.
Proof. exact options_accepted. Qed.
Print Assumptions C74_accepted.

(** It is not so that other options are left alone: where options have 64 bits and SSL_OP_ALL has bit 31 (OpenSSL 3), all the upper ones are set, as the options
    were kept in an int. *)
Theorem C74_wide_refuted : forall op_all ds m h l o i, says ds m h -> parse ds (start op_all) = Some l -> Z.testbit op_all 31 = true -> 32 <= i < 64 ->
  Z.testbit (ctx_options 64 o l) i = true.
Proof. exact options_high. Qed.
Print Assumptions C74_wide_refuted.

(** With releases of OpenSSL before 1.1.0: once a client of a listener in mode 0 begins a second handshake, nothing is read from it nor written to it, whatever
    happens next.  Missing: later releases, see below; timeouts that are too long, see C75. *)
Theorem C74_refused_partial : forall to es1 w s es2 w' s' es3 c ps x, 0 <= to <= longest -> done w -> serving w' -> hello s' -> transfer c ->
  In (Client_op c ps, x) (results es3 (after (es1 ++ Info w s :: es2 ++ [Info w' s']) (accept 0 to))) ->
  x = Some (Minus1 ECONNABORTED, 0) \/ x = Some (Minus1 ETIMEDOUT, 0).
Proof. exact renegotiation_refused. Qed.
Print Assumptions C74_refused_partial.

(** Nor are backends heard any more for that client, if they have a timeout. *)
Theorem C74_backend_partial : forall to es1 w s es2 w' s' t es3 c ps x, done w -> serving w' -> hello s' -> transfer c -> Forall bounded (Backend t :: es3) ->
  In (Backend_op c ps, x) (results (Backend t :: es3) (after (es1 ++ Info w s :: es2 ++ [Info w' s']) (accept 0 to))) ->
  x = Some (Minus1 ECONNABORTED, 0) \/ x = Some (Minus1 ETIMEDOUT, 0).
Proof. exact renegotiation_refused_backend. Qed.
Print Assumptions C74_backend_partial.

(** A client that does not begin a second handshake never notices the defence. *)
Theorem C74_unharmed : forall es to, ~ again es -> results es (accept 0 to) = results es (accept 1 to).
Proof. exact one_handshake. Qed.
Print Assumptions C74_unharmed.

(** In modes 1 and 2 nothing is refused for renegotiation. *)
Theorem C74_allowed : forall es allow to e n, allow <> 0 -> ~ In (e, Some (Minus1 ECONNABORTED, n)) (results es (accept allow to)).
Proof. intros es allow to e n A. apply never_aborted. cbn [accept c_reneg]. apply Z.eqb_neq in A. rewrite A. reflexivity. Qed.
Print Assumptions C74_allowed.

(** It is not so that mode 0 keeps clients from renegotiating: from OpenSSL 1.1.0 on the states are numbered from 0 (the first message of a client is read in state 20), the
    numbers that are waited for never come, and mode 0 does the same as mode 1. *)
Theorem C74_modern_refuted : forall es to, (forall w s, In (Info w s) es -> s < 0x2110) -> results es (accept 0 to) = results es (accept 1 to).
Proof. exact modern_numbers. Qed.
Print Assumptions C74_modern_refuted.

(** A complete handshake, a request, another handshake and another request; with old numbers and with new ones *)
Example C74_ex_old :
  let ok := [(Ready 1, 5)] in
  map snd (results [Info 0x2001 0x2110; Client_op BIO_CB_READ ok; Info 0x20 3; Client_op BIO_CB_READ ok; Info 0x2001 0x2110; Client_op BIO_CB_READ ok] (accept 0 10))
  = [None; Some (Go, 5); None; Some (Go, 5); None; Some (Minus1 ECONNABORTED, 0)] /\
  map snd (results [Info 0x2001 20; Client_op BIO_CB_READ ok; Info 0x20 1; Client_op BIO_CB_READ ok; Info 0x2001 20; Client_op BIO_CB_READ ok] (accept 0 10))
  = [None; Some (Go, 5); None; Some (Go, 5); None; Some (Go, 5)].
Proof. split; reflexivity. Qed.
Example C74_ex_hyp : done 0x20 /\ serving 0x2001 /\ hello 0x2110 /\ ~ again [Info 0x2001 0x2110; Info 0x20 3].
Proof.
  split; [reflexivity|]. split; [left; reflexivity|]. split; [left; reflexivity|]. intros (es1 & w & s & es2 & w' & s' & es3 & E & D & W & H).
  destruct es1 as [|a [|b es1]].
  - injection E as <- <- E. cbn in D. discriminate D.
  - injection E as _ _ _ E. destruct es2; discriminate E.
  - injection E as _ _ E. destruct es1; discriminate E.
Qed.
Example C74_ex_options : exists l, parse [AllowClientRenegotiation (lit "2"); HonorCipherOrder (lit "yes"); AllowClientRenegotiation (lit "1")] (start 0x80000850) = Some l /\ l_reneg l = 1 /\
  ctx_options 64 0 l = 0xffffffff80420050.
Proof. eexists. split; [reflexivity|]. split; reflexivity. Qed.

(** Each wait for the client ends after the time of the directive Client (as far as poll keeps to it and no signal arrives), however many there have been. *)
Theorem C75_bound_partial : forall allow to es c ps x n, 0 <= to <= longest -> timely to ps ->
  In (Client_op c ps, Some (x, n)) (results es (accept allow to)) -> n <= to * 1000.
Proof. exact waits_bounded. Qed.
Print Assumptions C75_bound_partial.

(** Once the client was too slow, nothing is awaited from it any more: every later read and write fails at once. *)
Theorem C75_client : forall es1 c ps n es2 k, snd (step (Client_op c ps) (after es1 k)) = Some (Zero, n) -> forall c' ps' x, transfer c' ->
  In (Client_op c' ps', x) (results es2 (after (es1 ++ [Client_op c ps]) k)) -> x = Some (Minus1 ETIMEDOUT, 0).
Proof. exact client_latch. Qed.
Print Assumptions C75_client.

(** The same for a backend, up to the next connection to one. *)
Theorem C75_backend : forall es1 c ps n es2 k, snd (step (Backend_op c ps) (after es1 k)) = Some (Zero, n) -> Forall no_backend es2 -> forall c' ps' x, transfer c' ->
  In (Backend_op c' ps', x) (results es2 (after (es1 ++ [Backend_op c ps]) k)) -> x = Some (Minus1 ETIMEDOUT, 0).
Proof. exact backend_latch. Qed.
Print Assumptions C75_backend.

(** A client that was never too slow is served when it is ready. *)
Theorem C75_served : forall allow to es c ev ms ps, 0 < to <= longest -> allow <> 0 -> (forall e n, ~ In (e, Some (Zero, n)) (results es (accept allow to))) ->
  match c with BIO_CB_READ => Z.testbit ev 0 = true | BIO_CB_WRITE => Z.testbit ev 2 = true | BIO_CB_OTHER => True end ->
  exists n, snd (step (Client_op c ((Ready ev, ms) :: ps)) (after es (accept allow to))) = Some (Go, n).
Proof. exact served. Qed.
Print Assumptions C75_served.

(** Client 0 is no limit. *)
Theorem C75_unlimited : forall allow es c ps x, allow <> 0 -> In (Client_op c ps, x) (results es (accept allow 0)) -> x = Some (Go, 0).
Proof. exact no_limit. Qed.
Print Assumptions C75_unlimited.

(** The body of a response without length is looked for as long as the backend's TimeOut, if that is not zero *)
Theorem C75_body_partial : forall to a, 0 < to <= longest -> (is_readable false to (Some a) = Yes <-> a <= to * 1000).
Proof. intros to a L. apply body_waits. unfold longest in *. lia. Qed.
Print Assumptions C75_body_partial.

(** It is not so that the time is an upper bound with signals: each begins the wait anew. *)
Theorem C75_signals_refuted : forall to bound, 0 < to <= longest -> exists ps, Forall (fun p => 0 <= snd p <= to * 1000) ps /\
  exists n, bound < n /\ results [Client_op BIO_CB_READ ps] (accept 0 to) = [(Client_op BIO_CB_READ ps, Some (Go, n))].
Proof. exact interrupted. Qed.
Print Assumptions C75_signals_refuted.

(** It is not so that a longer time gives the client more: with more than 2147483 seconds, which the configuration may have (C46), the milliseconds overflow or are negative
    and nothing is ever read. *)
Theorem C75_long_refuted : forall to allow c ps x, longest < to <= 4294967295 -> transfer c -> results [Client_op c ps] (accept allow to) = [(Client_op c ps, x)] ->
  x = Some (Undefined, 0) \/ x = Some (Minus1 ETIMEDOUT, 0).
Proof. exact too_long. Qed.
Print Assumptions C75_long_refuted.

(** It is not so that TimeOut 0 is no limit for backends: the body of a response without length is dropped unless it is there with the header. *)
Theorem C75_body_refuted : forall a, 0 < a -> is_readable false 0 (Some a) = No.
Proof. exact body_not_awaited. Qed.
Print Assumptions C75_body_refuted.

Example C75_ex : map snd (results [Client_op BIO_CB_READ [(Failed true, 100); (Ready 1, 7)]; Client_op BIO_CB_READ [(Timeout, 10000)]; Client_op BIO_CB_WRITE [(Ready 4, 0)]] (accept 0 10))
  = [Some (Go, 107); Some (Zero, 10000); Some (Minus1 ETIMEDOUT, 0)]
  /\ map snd (results [Client_op BIO_CB_READ [(Ready 1, 7)]] (accept 0 4294967295)) = [Some (Minus1 ETIMEDOUT, 0)].
Proof. split; reflexivity. Qed.
