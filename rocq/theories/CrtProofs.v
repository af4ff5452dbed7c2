(** Proofs about the connection of poundctl (C84). *)
From Coq Require Import List Bool.
From Verif Require Import Bytes PtlModel CrtModel CrtSpec.
Import ListNotations.

Ltac split_if H := match type of H with context [if ?b then _ else _] => let E := fresh "E" in destruct b eqn:E end.

Lemma open_trusted : forall v u w c, open_socket v u w = Some c -> tls u = true -> verify v = true ->
  load_verify_locations w (ca_file v) (ca_path v) = true /\ (trusted w (ca_file v) (ca_path v) \/ anonymous w).
Proof.
  intros v u w c H T V. unfold open_socket in H. rewrite T, V in H. cbn [andb] in H.
  destruct (socket_ok w); [|discriminate]. destruct (connect_ok w); [|discriminate]. cbn [negb] in H.
  destruct (load_verify_locations w (ca_file v) (ca_path v)); [|discriminate]. cbn [negb] in H. split; [reflexivity|].
  destruct (match cert v with Some f => negb (use_certificate w f) | None => false end); [discriminate|].
  destruct (do_handshake w (cert v)); [|discriminate]. cbn [negb] in H. unfold trusted, anonymous.
  destruct (peer w) as [x|]; [|auto]. left. exists x. split; [reflexivity|]. destruct (chain x (ca_file v) (ca_path v)); [reflexivity|discriminate].
Qed.

Lemma open_works : forall v u w, works v w -> tls u = true -> (verify v = true -> trusted w (ca_file v) (ca_path v) \/ anonymous w) ->
  open_socket v u w = Some (mkConn true (cert v)).
Proof.
  intros v u w (S & C & L & U & D) T P. unfold open_socket. rewrite S, C, T, L, D. cbn [negb]. rewrite andb_false_r.
  replace (match cert v with Some f => negb (use_certificate w f) | None => false end) with false.
  2: { destruct (cert v) as [f|]; [|reflexivity]. rewrite (U f eq_refl). reflexivity. }
  destruct (verify v); [|reflexivity]. cbn [andb]. destruct (P eq_refl) as [(x & E & K)|E].
  - rewrite E, K. reflexivity.
  - unfold anonymous in E. rewrite E. reflexivity.
Qed.

Lemma open_shown : forall v u w c, open_socket v u w = Some c ->
  encrypted c = tls u /\ shown c = (if tls u then cert v else None) /\ (tls u = true -> forall f, cert v = Some f -> use_certificate w f = true).
Proof.
  intros v u w c H. unfold open_socket in H. destruct (negb (socket_ok w)); [discriminate|]. destruct (negb (connect_ok w)); [discriminate|].
  destruct (tls u); [|injection H as <-; cbn; split; [reflexivity|split; [reflexivity|discriminate]]].
  destruct (verify v && negb (load_verify_locations w (ca_file v) (ca_path v))); [discriminate|].
  destruct (match cert v with Some f => negb (use_certificate w f) | None => false end) eqn:E; [discriminate|].
  destruct (negb (do_handshake w (cert v))); [discriminate|].
  destruct (verify v && match peer w with Some x => negb (chain x (ca_file v) (ca_path v)) | None => false end); [discriminate|].
  injection H as <-. cbn. split; [reflexivity|]. split; [reflexivity|]. intros _ f K. rewrite K in E. destruct (use_certificate w f); [reflexivity|discriminate].
Qed.

Definition on (s : settings) : Prop := current s = None /\ verify (default s) = true.
Lemma assign_on : forall v x, verify v = true -> x <> Verify false -> verify (assign v x) = true.
Proof. intros v [s|s|s|s|[|]] V N; cbn; auto; congruence. Qed.
Lemma read_on : forall l s s', on s -> ~ In (Common (Verify false)) l -> read_config s l = Some s' -> on s'.
Proof.
  induction l as [|x l IH]; intros s s' O N H; cbn [read_config] in H; [injection H as <-; exact O|].
  destruct (read_stmt s x) as [s1|] eqn:R; [|discriminate]. apply (IH s1); [|intros K; apply N; right; exact K|exact H].
  destruct O as [O1 O2]. destruct x as [y|t|t|t|n b]; cbn [read_stmt] in R; try (injection R as <-; split; [exact O1|exact O2]).
  - injection R as <-. split; [exact O1|]. apply assign_on; [exact O2|]. intros ->. apply N. left. reflexivity.
  - destruct (find_server n (servers s)); [discriminate|]. injection R as <-. split; [exact O1|exact O2].
Qed.
Lemma options_on : forall l s s', on s -> ~ In Optk l -> (forall n, ~ In (OptS n) l) -> options s l = Some s' -> on s'.
Proof.
  induction l as [|x l IH]; intros s s' O N M H; cbn [options] in H; [injection H as <-; exact O|].
  destruct (option_step s x) as [s1|] eqn:R; [|discriminate]. apply (IH s1); [|intros K; apply N; right; exact K|intros n K; apply (M n); right; exact K|exact H].
  destruct O as [O1 O2]. assert (Q : forall y, y <> Verify false -> on (to_server s y)).
  { intros y Y. unfold to_server. rewrite O1. split; [reflexivity|]. apply assign_on; assumption. }
  destruct x as [t d|t|n|u|  |t| |t|t]; cbn [option_step] in R; try (injection R as <-; split; [exact O1|exact O2]).
  - injection R as <-. apply Q. destruct d; discriminate.
  - exfalso. apply (M n). left. reflexivity.
  - injection R as <-. apply Q. discriminate.
  - injection R as <-. apply Q. discriminate.
  - exfalso. apply N. left. reflexivity.
Qed.
Lemma main_on : forall pc dp ep file config opts s v u, verification_wanted config opts -> main pc dp ep file config opts = Connect s v u -> verify v = true.
Proof.
  intros pc dp ep file config opts s v u (A & B & C) H. unfold main in H. destruct (read_config (initial pc) config) as [s1|] eqn:R; [|discriminate].
  apply read_on in R; [|split; reflexivity|exact A]. destruct (options s1 opts) as [s2|] eqn:P; [|discriminate]. apply options_on in P; [|exact R|exact B|exact C].
  destruct P as [P1 P2]. cbn [the_server current] in H. unfold the_server in H. cbn [current] in H. rewrite P1 in H. cbn [default conf_name] in H.
  destruct (match s_url (default s2) with Some u0 => Some u0 | None => match file (conf_name s2) with Some t => get_socket_name t | None => None end end) as [x|]; [|discriminate].
  destruct (url_parse x); try discriminate. injection H as _ <- _. cbn. exact P2.
Qed.

Lemma sent_ok : forall request pc dp ep file config opts s v u w, verification_wanted config opts -> main pc dp ep file config opts = Connect s v u -> tls u = true ->
  sent request (Connect s v u) w <> [] -> trusted w (ca_file v) (ca_path v) \/ anonymous w.
Proof.
  intros request pc dp ep file config opts s v u w W M T S. apply main_on in M; [|exact W]. cbn [sent] in S.
  destruct (open_socket v u w) as [c|] eqn:E; [|congruence]. exact (proj2 (open_trusted _ _ _ _ E T M)).
Qed.
