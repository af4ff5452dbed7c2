(** Facts about the rewriting of locations. *)
From Coq Require Import Ascii String List ZArith Bool Lia ZifyBool.
From Verif Require AuthProofs.
From Verif Require Import Bytes ClenSpec ClenProofs NumSpec NumModel NumProofs ReqModel LocModel LocSpec.
Import ListNotations.
Open Scope Z_scope.

Lemma scheme_match : forall scheme r, http_scheme scheme -> scheme_at (scheme ++ lit "://" ++ r) = Some (scheme, r).
Proof.
  intros scheme r [H|H]; unfold lower in H.
  - destruct scheme as [|a [|b [|c [|d [|e s]]]]]; try discriminate. cbn in H. injection H as H1 H2 H3 H4. unfold scheme_at, ci_eqb, lower. cbn [app lit list_ascii_of_string firstn skipn map]. rewrite H1, H2, H3, H4. reflexivity.
  - destruct scheme as [|a [|b [|c [|d [|e [|f s]]]]]]; try discriminate. cbn in H. injection H as H1 H2 H3 H4 H5. unfold scheme_at, ci_eqb, lower. cbn [app lit list_ascii_of_string firstn skipn map]. rewrite H1, H2, H3, H4, H5. reflexivity.
Qed.
Lemma no_slash_all : forall h, ~ In "/"%char h -> Forall (fun c => not_slash c = true) h.
Proof. intros h H. apply Forall_forall. intros c I. unfold not_slash. apply negb_true_iff, beq_neq. congruence. Qed.

Lemma url_match : forall scheme hp rest s, url scheme hp rest s -> match_location s = Some (scheme, hp, rest).
Proof.
  intros scheme hp rest s (-> & S & N & H & R).
  assert (M : match_at (scheme ++ lit "://" ++ hp ++ rest) = Some (scheme, hp, rest)).
  { unfold match_at. rewrite (scheme_match _ _ S). rewrite AuthProofs.span_take; [destruct hp; [congruence|reflexivity]|apply no_slash_all; exact H|]. intros c r E. destruct R as [->|(r' & ->)]; [discriminate|]. injection E as <- _. reflexivity. }
  destruct (scheme ++ lit "://" ++ hp ++ rest); cbn [match_location]; rewrite M; reflexivity.
Qed.

Lemma scheme_at_inv : forall s p r, scheme_at s = Some (p, r) -> s = p ++ lit "://" ++ r /\ http_scheme p.
Proof.
  intros s p r. unfold scheme_at. destruct (ci_eqb (firstn 7 s) (lit "http://")) eqn:E.
  - intros H. injection H as <- <-. apply ci_eqb_eq in E. destruct s as [|a [|b [|c [|d [|e [|f [|g s]]]]]]]; try discriminate. cbn in E. injection E as E1 E2 E3 E4 E5 E6 E7. cbn. split; [|left; cbn; congruence].
    assert (F : forall x, to_lower x = ":"%char -> x = ":"%char) by (intros [[] [] [] [] [] [] [] []]; cbn; congruence || discriminate). assert (G : forall x, to_lower x = "/"%char -> x = "/"%char) by (intros [[] [] [] [] [] [] [] []]; cbn; congruence || discriminate).
    rewrite (F e E5), (G f E6), (G g E7). reflexivity.
  - destruct (ci_eqb (firstn 8 s) (lit "https://")) eqn:E8; [|discriminate]. intros H. injection H as <- <-. apply ci_eqb_eq in E8. destruct s as [|a [|b [|c [|d [|e [|f [|g [|h s]]]]]]]]; try discriminate. cbn in E8. injection E8 as E1 E2 E3 E4 E5 E6 E7 E8. cbn. split; [|right; cbn; congruence].
    assert (F : forall x, to_lower x = ":"%char -> x = ":"%char) by (intros [[] [] [] [] [] [] [] []]; cbn; congruence || discriminate). assert (G : forall x, to_lower x = "/"%char -> x = "/"%char) by (intros [[] [] [] [] [] [] [] []]; cbn; congruence || discriminate).
    rewrite (F f E6), (G g E7), (G h E8). reflexivity.
Qed.
Lemma no_url_match : forall s, no_url s -> match_location s = None.
Proof.
  induction s as [|c s IH]; intros N; [reflexivity|].
  assert (M : match_at (c :: s) = None).
  { unfold match_at. destruct (scheme_at (c :: s)) as [(p, r)|] eqn:E; [|reflexivity]. apply scheme_at_inv in E as (E & P). destruct r as [|x r]; [reflexivity|]. rewrite (N [] p x r E P). reflexivity. }
  cbn [match_location]. rewrite M. apply IH. intros pre scheme x post E. apply (N (c :: pre) scheme x post). cbn. rewrite E. reflexivity.
Qed.

Lemma is_proto_eq : forall pat p, is_proto pat p = true <-> lower p = lower pat.
Proof.
  intros pat p. unfold is_proto. rewrite andb_true_iff, ci_eqb_eq. split; [tauto|]. intros H. split; [|exact H]. apply Nat.eqb_eq. apply ci_eqb_length. apply ci_eqb_eq. exact H.
Qed.

Lemma host_port_split : forall scheme hp h p, host_port scheme hp h p -> split_port scheme hp = (h, p) /\ 0 <= p <= 65535.
Proof.
  intros scheme hp h p H. unfold split_port. destruct H as [h N S|h N S|h ds p N T V L].
  - unfold not_colon. rewrite AuthProofs.span_no_colon by exact N. destruct (is_proto (lit "https") scheme) eqn:P; [|split; [reflexivity|lia]]. apply is_proto_eq in P. rewrite S in P. discriminate.
  - unfold not_colon. rewrite AuthProofs.span_no_colon by exact N. rewrite (proj2 (is_proto_eq (lit "https") scheme) S). split; [reflexivity|lia].
  - unfold not_colon. rewrite AuthProofs.span_colon by exact N. apply (token_numeral ds p T) in V. pose proof (token_nonneg ds T) as NN. rewrite <- V in NN.
    split; [|lia]. unfold atoi_port, strtol. rewrite (scan_token ds T), <- V. destruct (Z.ltb_spec LONG_MAX p) as [X|X]; [unfold LONG_MAX in X; lia|]. destruct (Z.ltb_spec p LONG_MIN) as [Y|Y]; [unfold LONG_MIN in Y; lia|]. rewrite Z.mod_small by lia. reflexivity.
Qed.

Lemma fam_eqb_eq : forall a b, fam_eqb a b = true <-> a = b.
Proof. intros [] []; cbn; split; congruence || discriminate. Qed.

Lemma backend_address_iff : forall addrs port be, tcp be -> is_backend_address addrs port be = true <->
  exists a, In a addrs /\ family a = family (b_addr be) /\ sdata a = sdata (b_addr be) /\ port = sport (b_addr be).
Proof.
  intros addrs port be T. unfold is_backend_address. rewrite existsb_exists. split.
  - intros (a & I & H). exists a. apply andb_true_iff in H as (F & H). apply fam_eqb_eq in F. unfold same_bytes in H. apply andb_true_iff in H as (H & D). apply andb_true_iff in H as (_ & P). apply bytes_eqb_eq in D. apply Z.eqb_eq in P.
    unfold set_port in D, P. rewrite F in D, P. unfold tcp in T. destruct (family (b_addr be)); [| |congruence]; cbn in *; auto.
  - intros (a & I & F & D & P). exists a. split; [exact I|]. rewrite (proj2 (fam_eqb_eq _ _) F). cbn [andb]. unfold same_bytes, set_port. rewrite F. unfold tcp in T. destruct (family (b_addr be)); [| |congruence]; cbn; rewrite D, P, Z.eqb_refl, bytes_eqb_refl; reflexivity.
Qed.

Lemma tcp_inet : forall be, tcp be -> inet be = true.
Proof. intros be T. unfold inet, tcp in *. destruct (family (b_addr be)); congruence. Qed.

Lemma listener_never : forall addrs l, is_listener_address addrs l = false.
Proof.
  intros addrs l. unfold is_listener_address. induction addrs as [|a addrs IH]; [reflexivity|]. cbn. rewrite IH, orb_false_r. destruct (fam_eqb (family a) (family (l_addr l))) eqn:F; [reflexivity|]. cbn.
  unfold same_bytes, set_port. destruct (family a) eqn:E1, (family (l_addr l)) eqn:E; cbn in F |- *; try discriminate F; rewrite ?E, ?E1; reflexivity.
Qed.

Definition path_part (rest : bytes) : bytes := match rest with c :: r => if beq c "/"%char then r else rest | [] => [] end.
Lemma path_part_of : forall rest path, (rest = [] \/ exists r, rest = "/"%char :: r) -> (path_of rest path <-> path = path_part rest).
Proof. intros rest path [->|(r & ->)]; unfold path_of; cbn; split; [intros [H|(_ & H)]; [discriminate|exact H]|intros ->; right; auto|intros [H|(H & _)]; [congruence|discriminate]|intros ->; auto]. Qed.

Lemma points_iff : forall resolve be scheme host port, tcp be ->
  (match resolve host with
   | Some addrs => is_backend_address addrs port be
   | None => match b_name be with Some n => ci_eqb host n && is_proto (if b_tls be then lit "https" else lit "http") scheme | None => false end
   end = true <-> points_to_backend resolve be scheme host port).
Proof.
  intros resolve be scheme host port T. unfold points_to_backend. destruct (resolve host) as [addrs|]; [apply backend_address_iff; exact T|]. destruct (b_name be) as [n|].
  - rewrite andb_true_iff, ci_eqb_eq, is_proto_eq. assert (E : lower (if b_tls be then lit "https" else lit "http") = (if b_tls be then lit "https" else lit "http")) by (destruct (b_tls be); reflexivity). rewrite E. split; [intros (A & B); exists n; auto|]. intros (m & M & A & B). injection M as <-. auto.
  - split; [discriminate|]. intros (n & N & _). discriminate.
Qed.

Lemma rewrite_backend : forall resolve scheme hp rest loc h p vhost l be path, url scheme hp rest loc -> host_port scheme hp h p -> tcp be -> l_mode l <> 0 ->
  points_to_backend resolve be scheme h p -> (need_rewrite resolve loc vhost l be = Some path <-> path_of rest path).
Proof.
  intros resolve scheme hp rest loc h p vhost l be path U HP T M P. unfold need_rewrite. destruct (Z.eqb_spec (l_mode l) 0) as [X|_]; [congruence|]. rewrite (tcp_inet be T). cbn [negb]. rewrite (url_match _ _ _ _ U). destruct (host_port_split _ _ _ _ HP) as (E & _). rewrite E. cbv zeta.
  rewrite (proj2 (points_iff resolve be scheme h p T) P). cbn [negb andb]. change (match rest with [] => [] | c :: r => if beq c "/"%char then r else rest end) with (path_part rest).
  destruct U as (_ & _ & _ & _ & R). rewrite (path_part_of rest path R). split; [congruence|intros ->; reflexivity].
Qed.

Lemma rewrite_mode2 : forall resolve scheme hp rest loc h p vhost l be path, url scheme hp rest loc -> host_port scheme hp h p -> tcp be -> l_mode l = 2 ->
  (need_rewrite resolve loc vhost l be = Some path <-> points_to_backend resolve be scheme h p /\ path_of rest path).
Proof.
  intros resolve scheme hp rest loc h p vhost l be path U HP T M. split.
  - intros N. assert (P : points_to_backend resolve be scheme h p).
    { unfold need_rewrite in N. rewrite M in N. cbn [Z.eqb] in N. rewrite (tcp_inet be T) in N. cbn [negb] in N. rewrite (url_match _ _ _ _ U) in N. destruct (host_port_split _ _ _ _ HP) as (E & _). rewrite E in N. cbv zeta in N. change (2 =? 1) with false in N. rewrite andb_false_r in N. apply (points_iff resolve be scheme h p T).
      destruct (match resolve h with Some addrs => _ | None => _ end); [reflexivity|discriminate]. }
    split; [exact P|]. apply (rewrite_backend resolve scheme hp rest loc h p vhost l be path U HP T); auto. lia.
  - intros (P & PA). apply (rewrite_backend resolve scheme hp rest loc h p vhost l be path U HP T); auto. lia.
Qed.

Lemma rewrite_mode1 : forall resolve scheme hp rest loc h p vhost l be, url scheme hp rest loc -> host_port scheme hp h p -> tcp be -> l_mode l = 1 -> l_ptr l mod 16 = 0 -> p <> 0 ->
  exists path, path_of rest path /\ need_rewrite resolve loc vhost l be = Some path.
Proof.
  intros resolve scheme hp rest loc h p vhost l be U HP T M A NZ. exists (path_part rest). split; [apply path_part_of; [apply U|reflexivity]|].
  unfold need_rewrite. rewrite M. cbn [Z.eqb]. rewrite (tcp_inet be T). cbn [negb]. rewrite (url_match _ _ _ _ U). destruct (host_port_split _ _ _ _ HP) as (E & R). rewrite E. cbv zeta.
  assert (LP : listener_port l = 0).
  { unfold listener_port. cbv zeta. assert (Y : (l_ptr l mod 65536) mod 16 = 0) by (rewrite <- Znumtheory.Zmod_div_mod; [exact A|lia|lia|exists 4096; reflexivity]). destruct ((l_ptr l mod 65536 =? 2) || (l_ptr l mod 65536 =? 10)) eqn:X; [|reflexivity]. apply orb_true_iff in X as [X|X]; apply Z.eqb_eq in X; rewrite X in Y; discriminate. }
  assert (HT : htons p <> 0).
  { unfold htons. intros X. assert (0 <= p mod 256 < 256) by (apply Z.mod_pos_bound; lia). assert (0 <= (p / 256) mod 256 < 256) by (apply Z.mod_pos_bound; lia). assert (D : p = 256 * (p / 256) + p mod 256) by (apply Z.div_mod; lia). assert (p / 256 < 256) by (apply Z.div_lt_upper_bound; lia). assert (0 <= p / 256) by (apply Z.div_pos; lia). rewrite (Z.mod_small (p / 256) 256) in X by lia. lia. }
  rewrite LP. destruct (Z.eqb_spec (htons p) 0) as [X|_]; [contradiction|]. cbn [negb orb]. rewrite orb_true_r. change (1 =? 1) with true. rewrite andb_true_r.
  change (match rest with [] => [] | c :: r => if beq c "/"%char then r else rest end) with (path_part rest).
  destruct (match resolve h with Some addrs => _ | None => _ end); reflexivity.
Qed.

Lemma rewrite_relative : forall resolve loc vhost l be, no_url loc -> need_rewrite resolve loc vhost l be = None.
Proof. intros resolve loc vhost l be N. unfold need_rewrite. rewrite (no_url_match loc N). destruct (l_mode l =? 0); [reflexivity|]. destruct (negb (inet be)); reflexivity. Qed.
Lemma rewrite_off : forall resolve loc vhost l be, l_mode l = 0 \/ ~ tcp be -> need_rewrite resolve loc vhost l be = None.
Proof.
  intros resolve loc vhost l be [M|T]; unfold need_rewrite; [rewrite M; reflexivity|]. destruct (l_mode l =? 0); [reflexivity|]. assert (E : inet be = false) by (unfold inet; unfold tcp in T; destruct (family (b_addr be)); try reflexivity; exfalso; apply T; discriminate). rewrite E. reflexivity.
Qed.
