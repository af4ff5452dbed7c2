(** Connections to backends (C85). *)
From Coq Require Import ZArith Bool List Lia.
From Verif Require Import CnbModel CnbSpec CnbProofs.
Local Open Scope Z_scope.

(** C85: a backend in the network that accepts within the connection timeout is connected to; if it rejects within it the reason is given, and in all other
    cases the call ends with a timeout.  Partial: the timeout is at most 2147483 seconds (C85_long_refuted). *)
Theorem C85_connect_partial : forall p nb to, real p -> 0 <= to <= 2147483 ->
  (connect_nb (network p) nb to = Connected nb <-> accepts_within p to) /\
  (forall e, rejects_within p to e -> connect_nb (network p) nb to = Refused e) /\
  (~ accepts_within p to -> (forall e, ~ rejects_within p to e) -> connect_nb (network p) nb to = Refused ETIMEDOUT).
Proof. exact connect_ok. Qed.
Print Assumptions C85_connect_partial.
Example C85_connect_case : connect_nb (network (Accepts 15000)) false 15 = Connected false /\ connect_nb (network (Accepts 15001)) false 15 = Refused ETIMEDOUT /\
  connect_nb (network (Rejects 7 (Other 111))) false 15 = Refused (Other 111) /\ real (Rejects 7 (Other 111)).
Proof. repeat split; cbn; try lia; try discriminate. Qed.

(** Whatever the system calls return: success means that the socket is blocking again if it was before, and that the connection was reported as made, at once
    or later, and without an error. *)
Theorem C85_success : forall s nb to b, connect_nb s nb to = Connected b -> b = nb /\ restore_flags s = Done /\
  (sys_connect s = Done \/ (sys_connect s = Failed EINPROGRESS /\ exists r, sys_poll s (to_int to * 1000) = Event r /\ pollout r = true /\ pollerr r = false /\ pollhup r = false)).
Proof. exact connected_inv. Qed.
Print Assumptions C85_success.
Example C85_success_case : connect_nb (network (Accepts 0)) false 0 = Connected false /\ connect_nb (network (Accepts 3)) true 1 = Connected true.
Proof. split; reflexivity. Qed.

(** A dead backend in the network is found alive exactly if it accepts within the timeout. *)
Theorem C85_probe_partial : forall f p to, f <> Unknown -> real p -> 0 <= to <= 2147483 ->
  (backend_probe f true (network p) to = Some BACKEND_OK <-> accepts_within p to) /\
  (~ accepts_within p to -> backend_probe f true (network p) to = Some BACKEND_DEAD).
Proof. exact probe_ok. Qed.
Print Assumptions C85_probe_partial.
Example C85_probe_case : accepts_within (Accepts 100) 1 /\ ~ accepts_within Silent 1 /\ backend_probe Inet6 false (network (Accepts 100)) 1 = Some BACKEND_ERR.
Proof. split; [exists 100; split; [reflexivity|lia]|]. split; [intros (d & K & _); discriminate|reflexivity]. Qed.

(** Whatever the system calls return: a backend is found alive only if there was a socket and the connection was reported as made, without an error. *)
Theorem C85_alive : forall f socket s to, backend_probe f socket s to = Some BACKEND_OK -> f <> Unknown /\ socket = true /\
  (sys_connect s = Done \/ exists r, sys_poll s (to_int to * 1000) = Event r /\ pollout r = true /\ pollerr r = false /\ pollhup r = false).
Proof.
  intros f sock s to H. destruct (connect_nb s false to) as [b|e|] eqn:C; unfold backend_probe in H; rewrite C in H; [|destruct f, sock; discriminate..].
  apply connected_inv in C. destruct f, sock; try discriminate; (split; [discriminate|]); (split; [reflexivity|]); tauto.
Qed.
Print Assumptions C85_alive.
Example C85_alive_case : backend_probe Unix true (socket_file 0) 5 = Some BACKEND_OK /\ backend_probe Inet true (network (Accepts 4000)) 5 = Some BACKEND_OK.
Proof. split; reflexivity. Qed.

(** Refuted: that the timeout is the one of ConnTO.  From 2147484 seconds on, which the configuration accepts, the number of milliseconds is out of range. *)
Theorem C85_long_refuted : forall p nb to, real p -> 2147484 <= to <= 4292819812 -> (forall e, p <> Accepts 0 /\ p <> Rejects 0 e) -> connect_nb (network p) nb to = Overflow.
Proof. exact long_timeout. Qed.
Print Assumptions C85_long_refuted.
Example C85_long_case : real (Accepts 1) /\ (forall e, Accepts 1 <> Accepts 0 /\ Accepts 1 <> Rejects 0 e).
Proof. split; [cbn; lia|]. intros e. split; discriminate. Qed.

(** Refuted: that a backend behind a socket file is waited for.  If its queue is full the connection fails at once, whatever the timeout is, even if there is room
    again a millisecond later; the backend is then taken for dead. *)
Theorem C85_socket_file_refuted : forall d to, 0 < d ->
  (forall nb, connect_nb (socket_file d) nb to = Refused EAGAIN) /\ backend_probe Unix true (socket_file d) to = Some BACKEND_DEAD.
Proof.
  intros d to D. assert (E : (d =? 0) = false) by (apply Z.eqb_neq; lia). unfold backend_probe, connect_nb, socket_file. cbn [get_flags set_flags sys_connect]. rewrite E.
  split; reflexivity.
Qed.
Print Assumptions C85_socket_file_refuted.
