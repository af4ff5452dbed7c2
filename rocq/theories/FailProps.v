(** C53: the search for a backend that takes the request. *)
From Coq Require Import String List ZArith Bool Lia.
From Verif Require Import Bytes JobModel JobSpec BalModel BalSpec SessModel SessSpec FailModel FailSpec
  BalHistProofs FailProofs FailHistProofs.
Import ListNotations.
Open Scope Z_scope.

(** C53, random algorithm.  In every state a history leads to, with no other thread interfering and
    enough large random numbers, a request is given to a member that takes the connection: each backend
    is tried once at most, those that refuse are declared dead and lose their sessions, and the client
    gets an error only if all usable backends have refused or a connection failed in another way. *)
Theorem C53_random : forall ttl w d key e k rs n fuel, reachable ALGO_RANDOM ttl w ->
  quiet e -> steady e d -> clock e -> conn_ok k ->
  Forall (fun b => 1 <= b_pri b) (members (w_bls w)) -> Forall (fun bl => all_pri bl <= 2 ^ 30) (w_bls w) ->
  (length (members (w_bls w)) <= n)%nat ->
  ((2 * n + 2) * length (w_bls w) <= how_many (fun r => Z.leb (2 ^ 30) r) rs)%nat ->
  good_result d key k w (give_request n fuel ttl key e k w rs).
Proof. exact random_result. Qed.
Print Assumptions C53_random.

(** C53, round robin: the same, if each group of several members has one that stays usable.
    Missing: groups all of whose members refuse, where the claim is false (below). *)
Theorem C53_iwrr_partial : forall ttl w d key e k rs n fuel, reachable ALGO_IWRR ttl w ->
  quiet e -> steady e d -> clock e -> conn_ok k ->
  Forall (fun b => 1 <= b_pri b) (members (w_bls w)) ->
  Forall (fun bl => length (l_bes bl) = 1%nat \/
            exists b, In b (l_bes bl) /\ usable b /\ (b_kind b = BE_REGULAR -> d (b_id b) <> Refused)) (w_bls w) ->
  (length (members (w_bls w)) <= n)%nat ->
  (Z.to_nat 65537 * length (members (w_bls w)) <= fuel)%nat ->
  good_result d key k w (give_request n fuel ttl key e k w rs).
Proof. exact iwrr_result. Qed.
Print Assumptions C53_iwrr_partial.

(** C53: as long as backends either refuse a connection or serve it, and one of the usable ones serves
    it, the request is given to a backend. *)
Theorem C53_finds : forall ttl w d key e k rs n fuel, reachable ALGO_RANDOM ttl w ->
  quiet e -> steady e d -> clock e -> conn_ok k ->
  Forall (fun b => 1 <= b_pri b) (members (w_bls w)) -> Forall (fun bl => all_pri bl <= 2 ^ 30) (w_bls w) ->
  (length (members (w_bls w)) <= n)%nat ->
  ((2 * n + 2) * length (w_bls w) <= how_many (fun r => Z.leb (2 ^ 30) r) rs)%nat ->
  (forall x, d x = Refused \/ d x = Opened) ->
  (exists b, In b (members (w_bls w)) /\ usable b /\ (b_kind b = BE_REGULAR -> d (b_id b) = Opened)) ->
  exists w' k' tr, give_request n fuel ttl key e k w rs = Chosen w' k' tr.
Proof. exact random_finds. Qed.
Print Assumptions C53_finds.

(** C53, whatever other threads do to the service during the search, and whatever the state: the
    backends of the search are tried one after the other, each but the last refused its connection and
    was declared dead, and a new connection is handed over only if it was opened. *)
Theorem C53_course : forall n fuel ttl key e k w rs, course e k (give_request n fuel ttl key e k w rs).
Proof. exact give_course. Qed.
Print Assumptions C53_course.

(** C53 is false for backends that take the connection and fail later, such as in the TLS handshake:
    a client whose session leads there gets an error, the backend is not declared dead, and the session
    stays, with its lifetime renewed, so that the next attempt meets the same end, no matter how many
    other backends would serve it. *)
Theorem C53_handshake_refuted : forall algo ttl w d key e k rs n fuel b x, reachable algo ttl w ->
  quiet e -> steady e d -> clock e -> k_be k = None ->
  session_of w key = Some (b_id b) -> In b (members (w_bls w)) -> b_kind b = BE_REGULAR ->
  service_has_backends (w_bls w) = true -> d (b_id b) = x -> x <> Refused -> x <> Opened ->
  exists w' k', give_request (S n) fuel ttl (Some key) e k w rs = Unavailable w' k' [Dial (b_id b) x] /\
    w_bls w' = w_bls w /\ session_of w' key = Some (b_id b) /\ k_be k' = None.
Proof. exact stuck_session. Qed.
Print Assumptions C53_handshake_refuted.

(** C53 is false for round robin: when both backends of a group refuse, the request that finds out hangs
    for ever, with the service locked, although the emergency backend would serve it. *)
Theorem C53_hang_refuted : forall ttl d e k rs fuel, quiet e -> steady e d -> clock e -> k_be k = None ->
  d 1 = Refused -> d 2 = Refused -> d 3 = Opened ->
  let w := wstart ALGO_IWRR [(0, mkBe 1 BE_REGULAR 5 false true); (0, mkBe 2 BE_REGULAR 5 false true);
                             (65535, mkBe 3 BE_REGULAR 1 false true)] in
  give_request 4 (10 + fuel) ttl None e k w rs = Hangs.
Proof. exact both_refuse. Qed.
Print Assumptions C53_hang_refuted.

(** C53 is false for a session with a dynamic backend's template, which the control interface can
    add: the next request with that key aborts the program. *)
Theorem C53_matrix_refuted : forall ttl algo fuel key now w, ts_ok now -> (length key <= KEY_SIZE)%nat ->
  let w0 := wstart algo [(0, mkBe 1 BE_REGULAR 5 false true); (0, mkBe 2 BE_MATRIX 5 false true)] in
  wstep algo fuel ttl w0 (WSess (SAdd key 2 now)) = Some w ->
  forall n e k rs, clock e -> k_be k = None ->
  give_request (S n) fuel ttl (Some key) e k w rs = Crashes.
Proof. exact matrix_session. Qed.
Print Assumptions C53_matrix_refuted.

(** Two backends of which the second has died before, and an emergency one; the first refuses. *)
Definition C53_w : world :=
  match wrun ALGO_RANDOM 9 300 (wstart ALGO_RANDOM [(0, mkBe 1 BE_REGULAR 5 false true); (0, mkBe 2 BE_REGULAR 5 false true);
                                   (65535, mkBe 3 BE_REGULAR 1 false true)])
    [WSess (SAdd (lit "alice") 1 (mkTs 9 0)); WBal (OMode 2 BE_KILL); WSess (SAdd (lit "bob") 3 (mkTs 9 0))]
  with Some w => w | None => mkW [] session_table_new end.
Definition C53_d (id : Z) : dial := if id =? 1 then Refused else Opened.
Definition C53_e : env := mkEnv (fun _ => C53_d) (fun _ => mkTs 10 0) (fun _ w => w) (fun _ w => w).
Definition C53_rs : list Z := repeat (2 ^ 30 + 77) 16.

Example C53_ex_hyp : reachable ALGO_RANDOM 300 C53_w /\ quiet C53_e /\ steady C53_e C53_d /\ clock C53_e /\
  conn_ok (mkK None None) /\
  Forall (fun b => 1 <= b_pri b) (members (w_bls C53_w)) /\ Forall (fun bl => all_pri bl <= 2 ^ 30) (w_bls C53_w) /\
  ((2 * 3 + 2) * length (w_bls C53_w) <= how_many (fun r => Z.leb (2 ^ 30) r) C53_rs)%nat.
Proof.
  split.
  { exists 9%nat, [(0, mkBe 1 BE_REGULAR 5 false true); (0, mkBe 2 BE_REGULAR 5 false true); (65535, mkBe 3 BE_REGULAR 1 false true)],
      [WSess (SAdd (lit "alice") 1 (mkTs 9 0)); WBal (OMode 2 BE_KILL); WSess (SAdd (lit "bob") 3 (mkTs 9 0))].
    split; [split; [repeat constructor; cbn; intuition lia|repeat constructor; cbn; lia]|].
    split; [unfold few; cbn; lia|]. split; [|vm_compute; reflexivity].
    cbn [wops_ok wstep]. split.
    - split; [|split; cbn; lia]. exists (mkBe 1 BE_REGULAR 5 false true). split; [vm_compute; auto|split; [reflexivity|discriminate]].
    - split; [exact I|]. match goal with |- context [kill ?a ?b] => let r := eval vm_compute in (kill a b) in replace (kill a b) with r by (vm_compute; reflexivity) end.
      cbn [wops_ok]. split; [|exact I]. split; [|split; cbn; lia]. exists (mkBe 3 BE_REGULAR 1 false true).
      split; [vm_compute; auto|split; [reflexivity|discriminate]]. }
  split; [split; reflexivity|]. split; [intros i id; reflexivity|]. split; [intros i; split; cbn; lia|].
  split; [intros x H; discriminate|]. split; [vm_compute; repeat constructor; discriminate|].
  split; [|vm_compute; lia].
  let r := eval vm_compute in (w_bls C53_w) in replace (w_bls C53_w) with r by (vm_compute; reflexivity).
  repeat (constructor; [cbn; lia|]). constructor.
Qed.
Example C53_ex :
  match give_request 3 9 300 (Some (lit "alice")) C53_e (mkK None None) C53_w C53_rs with
  | Chosen w k tr => k = mkK (Some 3) (Some 3) /\ tr = [Dial 1 Refused; Kill 1; Dial 3 Opened] /\
      session_of w (lit "alice") = Some 3 /\ session_of w (lit "bob") = Some 3
  | _ => False
  end.
Proof. vm_compute. repeat split. Qed.
(** the TLS handshake with the first backend fails *)
Example C53_ex_stuck :
  let d := fun id => if id =? 1 then NotOpened else Opened in
  match give_request 3 9 300 (Some (lit "alice")) (mkEnv (fun _ => d) (fun _ => mkTs 10 0) (fun _ w => w) (fun _ w => w))
          (mkK None None) C53_w C53_rs with
  | Unavailable w k tr => tr = [Dial 1 NotOpened] /\ session_of w (lit "alice") = Some 1
  | _ => False
  end.
Proof. vm_compute. repeat split. Qed.
