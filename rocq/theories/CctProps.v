(** C73: client certificates. *)
From Coq Require Import Ascii String List ZArith Bool Lia.
From Verif Require Import Bytes CondModel CondSpec CctModel CctSpec CctProofs.
Import ListNotations.
Local Open Scope string_scope.
Local Open Scope list_scope.
Local Open Scope Z_scope.

(** An HTTPS listener is accepted exactly if it has a certificate, ClientCert, VerifyList and CRLlist come after the first Cert with proper
    arguments, and ClientCert is not used both in the listener and in the condition of one of its services. *)
Theorem C73_accepted : forall ds, (exists l, parse_listen_https ds = Some l) <->
  (forall a d b, ds = a ++ d :: b -> in_place (loaded a) d) /\ loaded ds <> O /\ (last_mode ds <> None -> forall x, ~ wanted ds x).
Proof. exact https_accepted. Qed.
Print Assumptions C73_accepted.

(** In an HTTP listener, and in services outside listeners, the conditions of services must not ask for a certificate, however deep. *)
Theorem C73_plain : forall ss rules,
  ((exists l, parse_listen_http ss rules = Some l) <-> forall s x, In s ss -> ~ wanted_by s x) /\
  ((exists r, top_level_services ss = Some r) <-> forall s x, In s ss -> ~ wanted_by s x).
Proof.
  intros ss rules. unfold parse_listen_http, top_level_services. rewrite <- forbid_none.
  destruct (forbid_ssl_usage ss); (split; split; try discriminate; try (intros (? & X); discriminate); eauto).
Qed.
Print Assumptions C73_plain.

(** With ClientCert in the listener, a client is treated as the manual says of the mode: never asked; asked, and refused if the certificate it shows
    is not verified; refused also if it shows none; asked but never refused.  A certificate is verified with the VerifyLists and CRLlists that
    come after the certificate the client is served with, to the depth given.  Partial: for a certificate before these lists this is all of
    them (C73_order_refuted). *)
Theorem C73_mode_partial : forall chain ds l i shown, parse_listen_https ds = Some l -> (forall x, ~ wanted ds x) ->
  (last_mode ds = None \/ last_mode ds = Some [Some 0] -> accept chain l i shown = policy 0 (fun _ => false) shown) /\
  (forall m d, last_mode ds = Some [Some m; Some d] -> (i < loaded ds)%nat -> accept chain l i shown = policy m (chain (lists i 0 ds) d) shown).
Proof.
  intros chain ds l i shown H W. split.
  - intros M. rewrite (never chain ds l i shown H W M). destruct shown; reflexivity.
  - intros m d M I. apply level; assumption.
Qed.
Print Assumptions C73_mode_partial.

(** With ClientCert in conditions of services, no client is refused, and the condition is true exactly if the client shows this certificate and OpenSSL
    verifies it with all the certificates of such conditions and the VerifyLists.  Partial: showing it is not enough (C73_issuer_refuted). *)
Theorem C73_condition_partial : forall chain ds l i shown, parse_listen_https ds = Some l -> (exists x, wanted ds x) -> (i < loaded ds)%nat ->
  exists cs depth x509, (forall x, In x cs <-> wanted ds x) /\ accept chain l i shown = Some x509 /\
    forall e x p, sees x509 e -> exists r, match_cond e (COND_CLIENT_CERT x) p = CRes r p /\
      (r = 1 <-> shown = Some x /\ chain (mkStore (trust (lists i 0 ds) ++ cs) (revoked (lists i 0 ds))) depth x = true) /\ (r = 0 \/ r = 1).
Proof.
  intros chain ds l i shown H W I. destruct (condition chain ds l i shown H W I) as (cs & d & C & A).
  eexists cs, d, _. split; [exact C|]. split; [exact A|]. intros e x p S. unfold sees in S.
  exists (b2z (e_cert e x)). split; [reflexivity|]. rewrite S. split; [|destruct (presents _ x); auto].
  destruct shown as [c|]; cbn [presents].
  - destruct (bytes_eqb c x) eqn:E; cbn [andb].
    + apply bytes_eqb_eq in E. subst c. split.
      * destruct (chain _ d x) eqn:K; [auto|discriminate].
      * intros [_ ->]. reflexivity.
    + apply bytes_eqb_neq in E. split; [discriminate|]. intros [X _]. congruence.
  - split; [discriminate|]. intros [X _]. discriminate.
Qed.
Print Assumptions C73_condition_partial.

(** A verification that needs a root (a certificate that is its own issuer) among the trusted ones: R1, and certificates a and b it issued *)
Definition ex_chain (s : store) (_ : Z) (c : bytes) : bool :=
  existsb (bytes_eqb (lit "R1")) (trust s) && existsb (bytes_eqb c) [lit "R1"; lit "a"; lit "b"]
  && negb (match revoked s with Some r => existsb (bytes_eqb c) r | None => false end).
Definition run (ds : list directive) (i : nat) (shown : option bytes) : option (option (option (bytes * bool))) :=
  option_map (fun l => accept ex_chain l i shown) (parse_listen_https ds).

Example C73_mode_cases :
  run [Cert (Some 2%nat); VerifyList (Some [lit "R1"]); CRLlist (Some [lit "b"]); ClientCert [Some 2; Some 9]] 1 (Some (lit "a")) = Some (Some (Some (lit "a", true)))
  /\ run [Cert (Some 2%nat); VerifyList (Some [lit "R1"]); CRLlist (Some [lit "b"]); ClientCert [Some 2; Some 9]] 1 (Some (lit "b")) = Some None
  /\ run [Cert (Some 2%nat); VerifyList (Some [lit "R1"]); ClientCert [Some 2; Some 9]] 0 None = Some None
  /\ run [Cert (Some 1%nat); VerifyList (Some [lit "R1"]); ClientCert [Some 1; Some 9]] 0 None = Some (Some None)
  /\ run [Cert (Some 1%nat); ClientCert [Some 3; Some 9]] 0 (Some (lit "x")) = Some (Some (Some (lit "x", false)))
  /\ run [Cert (Some 1%nat)] 0 (Some (lit "a")) = Some (Some None)
  /\ run [ClientCert [Some 1; Some 9]; Cert (Some 1%nat)] 0 (Some (lit "a")) = None.
Proof. vm_compute. repeat split; reflexivity. Qed.

Definition ask_for (x : bytes) : directive := Service (mkService (COND_BOOL BOOL_AND [COND_BOOL BOOL_NOT [COND_CLIENT_CERT x]]) []).
Example C73_condition_cases :
  run [ask_for (lit "R1"); Cert (Some 1%nat)] 0 (Some (lit "R1")) = Some (Some (Some (lit "R1", true)))
  /\ run [ask_for (lit "R1"); Cert (Some 1%nat)] 0 (Some (lit "x")) = Some (Some (Some (lit "x", false)))
  /\ run [ask_for (lit "R1"); Cert (Some 1%nat); ClientCert [Some 0]] 0 (Some (lit "R1")) = None.
Proof. vm_compute. repeat split; reflexivity. Qed.

(** Refuted: that the conditional ClientCert is true if the client presents the certificate of the file.  The certificate must also be verified: if verification
    needs a root among the trusted certificates, and none is named, no certificate satisfies a condition, not even the one named in it. *)
Theorem C73_issuer_refuted : forall chain root ds l i x,
  (forall s d c, chain s d c = true -> exists r, In r (trust s) /\ root r = true) ->
  parse_listen_https ds = Some l -> wanted ds x -> (i < loaded ds)%nat ->
  trust (lists i 0 ds) = [] -> (forall y, wanted ds y -> root y = false) ->
  exists x509, accept chain l i (Some x) = Some x509 /\ forall e p, sees x509 e -> match_cond e (COND_CLIENT_CERT x) p = CRes 0 p.
Proof.
  intros chain root ds l i x R H W I T N. destruct (C73_condition_partial chain ds l i (Some x) H (ex_intro _ x W) I) as (cs & d & x509 & C & A & K).
  exists x509. split; [exact A|]. intros e p S. destruct (K e x p S) as (r & E & [K1 _] & B). rewrite E. f_equal. destruct B as [B|B]; [exact B|].
  destruct (K1 B) as [_ V]. apply R in V as (y & Y & Ry). cbn [trust] in Y. rewrite T in Y. apply C in Y. rewrite (N y Y) in Ry. discriminate.
Qed.
Print Assumptions C73_issuer_refuted.

Example C73_issuer_case : run [ask_for (lit "a"); Cert (Some 1%nat)] 0 (Some (lit "a")) = Some (Some (Some (lit "a", false)))
  /\ (forall s d c, ex_chain s d c = true -> exists r, In r (trust s) /\ bytes_eqb (lit "R1") r = true).
Proof.
  split; [vm_compute; reflexivity|]. intros s d c H. unfold ex_chain in H. apply andb_true_iff in H as [H _]. apply andb_true_iff in H as [H _].
  apply existsb_exists in H as (r & I & E). exists r. auto.
Qed.

(** Refuted: that the conditional works in Rewrite sections.  It is accepted there, in HTTP listeners too, but it does not make the listener ask for
    certificates: it is false for every client. *)
Theorem C73_rewrite_refuted :
  (forall chain ds l i shown e x p x509, parse_listen_https ds = Some l -> In (Rewrite (COND_CLIENT_CERT x)) ds -> (forall y, ~ wanted ds y) -> last_mode ds = None ->
     accept chain l i shown = Some x509 -> sees x509 e -> match_cond e (COND_CLIENT_CERT x) p = CRes 0 p) /\
  (forall ss rules, (forall s x, In s ss -> ~ wanted_by s x) -> exists l, parse_listen_http ss rules = Some l).
Proof.
  split.
  - intros chain ds l i shown e x p x509 H _ W M A S. rewrite (never chain ds l i shown H W (or_introl M)) in A. injection A as <-. cbn. rewrite S. reflexivity.
  - intros ss rules H. apply C73_plain. exact H.
Qed.
Print Assumptions C73_rewrite_refuted.

(** Refuted: that the depth has a default, and that it may be given with every mode.  Modes 1 to 3 need it, and mode 0 must not have it. *)
Theorem C73_depth_refuted : forall a b m, (1 <= m <= 3 -> parse_listen_https (a ++ ClientCert [Some m] :: b) = None) /\
  (forall d, parse_listen_https (a ++ ClientCert [Some 0; d] :: b) = None).
Proof.
  intros a b m. split; [intros R|intros d].
  - destruct (parse_listen_https (a ++ ClientCert [Some m] :: b)) as [l|] eqn:E; [|reflexivity].
    destruct (https_accepted (a ++ ClientCert [Some m] :: b)) as [H _]. destruct (H (ex_intro _ l E)) as (P & _). destruct (P a _ b eq_refl) as [_ W]. inversion W. lia.
  - destruct (parse_listen_https (a ++ ClientCert [Some 0; d] :: b)) as [l|] eqn:E; [|reflexivity].
    destruct (https_accepted (a ++ ClientCert [Some 0; d] :: b)) as [H _]. destruct (H (ex_intro _ l E)) as (P & _). destruct (P a _ b eq_refl) as [_ W]. inversion W. lia.
Qed.
Print Assumptions C73_depth_refuted.

(** Refuted: that Cert must precede the other directives, as the manual says.  A Cert after VerifyList is accepted, and clients that ask for its name
    are refused whatever certificate they show. *)
Theorem C73_order_refuted : forall chain a n b l m d i c, (forall d c, chain (mkStore [] None) d c = false) ->
  parse_listen_https (a ++ Cert (Some n) :: b) = Some l -> (forall x, ~ wanted (a ++ Cert (Some n) :: b) x) ->
  last_mode (a ++ Cert (Some n) :: b) = Some [Some m; Some d] -> m = 1 \/ m = 2 ->
  (forall f, ~ In (VerifyList f) b /\ ~ In (CRLlist f) b) -> (loaded a <= i < loaded a + n)%nat ->
  accept chain l i (Some c) = None.
Proof.
  intros chain a n b l m d i c E0 H W M R N I.
  assert (L : (i < loaded (a ++ Cert (Some n) :: b))%nat). { rewrite loaded_app. change (loaded (Cert (Some n) :: b)) with (n + loaded b)%nat. lia. }
  rewrite (level chain _ l m d i (Some c) H W M L).
  assert (S : lists i 0 (a ++ Cert (Some n) :: b) = mkStore [] None).
  { rewrite lists_app. cbn [plus].
    assert (G : forall ds k, (k + loaded ds <= i)%nat -> lists i k ds = mkStore [] None).
    { clear. induction ds as [|x ds IH]; intros k Q; [reflexivity|]. change (loaded (x :: ds)) with (loads x + loaded ds)%nat in Q. cbn [lists]. rewrite IH by lia.
      destruct (Nat.ltb i k) eqn:X; [apply Nat.ltb_lt in X; lia|reflexivity]. }
    rewrite (G a 0%nat) by lia.
    assert (B : forall ds k, (forall f, ~ In (VerifyList f) ds /\ ~ In (CRLlist f) ds) -> lists i k ds = mkStore [] None).
    { clear. induction ds as [|x ds IH]; intros k Q; [reflexivity|]. cbn [lists]. rewrite IH by (intros f; destruct (Q f) as [Q1 Q2]; split; intros X; [apply Q1|apply Q2]; right; exact X).
      destruct (Nat.ltb i k); [|reflexivity]. destruct x as [?|?|f|f|?|?]; try reflexivity; destruct (Q f) as [Q1 Q2]; exfalso; [apply Q1|apply Q2]; left; reflexivity. }
    rewrite B; [reflexivity|]. intros f. destruct (N f) as [N1 N2]. split; intros [X|X]; try discriminate X; [apply N1|apply N2]; exact X. }
  rewrite S. destruct R as [-> | ->]; cbn [policy]; rewrite E0; reflexivity.
Qed.
Print Assumptions C73_order_refuted.

(** A revoked certificate, too, is accepted under the name of a Cert that comes after CRLlist. *)
Example C73_order_cases :
  run [Cert (Some 1%nat); VerifyList (Some [lit "R1"]); Cert (Some 1%nat); ClientCert [Some 1; Some 9]] 0 (Some (lit "a")) = Some (Some (Some (lit "a", true)))
  /\ run [Cert (Some 1%nat); VerifyList (Some [lit "R1"]); Cert (Some 1%nat); ClientCert [Some 1; Some 9]] 1 (Some (lit "a")) = Some None
  /\ run [Cert (Some 1%nat); CRLlist (Some [lit "b"]); Cert (Some 1%nat); VerifyList (Some [lit "R1"]); ClientCert [Some 1; Some 9]] 0 (Some (lit "b")) = Some None
  /\ run [Cert (Some 1%nat); CRLlist (Some [lit "b"]); Cert (Some 1%nat); VerifyList (Some [lit "R1"]); ClientCert [Some 1; Some 9]] 1 (Some (lit "b")) = Some (Some (Some (lit "b", true))).
Proof. vm_compute. repeat split; reflexivity. Qed.
