(** C60: proofs. *)
From Coq Require Import Ascii String List Bool Arith Lia.
From Verif Require Import Bytes SniModel SniSpec.
Import ListNotations.

Section Glob.
Variable brackets : bytes -> option ((byte -> bool) * nat).

(** Elements. *)
Inductive eglob : list elem -> bytes -> Prop :=
| eg_nil : eglob [] []
| eg_char : forall c es s, eglob es s -> eglob (EChar c :: es) (c :: s)
| eg_any : forall c es s, eglob es s -> eglob (EAny :: es) (c :: s)
| eg_star : forall es s1 s2, eglob es s2 -> eglob (EStar :: es) (s1 ++ s2)
| eg_set : forall (f : byte -> bool) c es s, f c = true -> eglob es s -> eglob (ESet f :: es) (c :: s).

Definition star (es : list elem) : bytes -> bool :=
  fix star (s : bytes) : bool :=
    ematch es s || match s with [] => false | _ :: s => star s end.
Lemma ematch_star : forall es s, ematch (EStar :: es) s = star es s.
Proof. reflexivity. Qed.
Lemma star_ok : forall es s, star es s = true <-> exists s1 s2, s = s1 ++ s2 /\ ematch es s2 = true.
Proof.
  intros es s; induction s as [|c s IH].
  - cbn [star]; rewrite orb_false_r; split.
    + intro E; exists [], []; auto.
    + intros (s1 & s2 & E & M); symmetry in E; apply app_eq_nil in E; destruct E as [-> ->]; exact M.
  - change (star es (c :: s)) with (ematch es (c :: s) || star es s).
    rewrite orb_true_iff, IH; split.
    + intros [M|(s1 & s2 & -> & M)].
      * exists [], (c :: s); auto.
      * exists (c :: s1), s2; auto.
    + intros ([|d s1] & s2 & E & M).
      * left; cbn in E; subst s2; exact M.
      * right; cbn in E; injection E as -> ->; exists s1, s2; auto.
Qed.

Lemma ematch_ok : forall es s, ematch es s = true <-> eglob es s.
Proof.
  induction es as [|e es IH]; intro s.
  - cbn; destruct s as [|c s]; split; intro H; try constructor; try discriminate; inversion H.
  - destruct e as [c| | |f|].
    + cbn [ematch]; destruct s as [|d s]; split; intro H; try discriminate; try (inversion H; fail).
      * apply andb_true_iff in H; destruct H as [A B]; apply beq_eq in A; subst d.
        constructor; apply IH; exact B.
      * inversion H as [|c' es' s' G| | |]; subst; apply andb_true_iff; split.
        -- apply beq_eq; reflexivity.
        -- apply IH; exact G.
    + cbn [ematch]; destruct s as [|d s]; split; intro H; try discriminate; try (inversion H; fail).
      * constructor; apply IH; exact H.
      * inversion H; subst; apply IH; assumption.
    + rewrite ematch_star, star_ok; split.
      * intros (s1 & s2 & -> & M); constructor; apply IH; exact M.
      * intro H; inversion H as [| | |es' s1 s2 G|]; subst; exists s1, s2; split; [reflexivity|apply IH; exact G].
    + cbn [ematch]; destruct s as [|d s]; split; intro H; try discriminate; try (inversion H; fail).
      * apply andb_true_iff in H; destruct H as [A B]; constructor; [exact A|apply IH; exact B].
      * inversion H; subst; apply andb_true_iff; split; [assumption|apply IH; assumption].
    + cbn [ematch]; split; intro H; [discriminate|inversion H].
Qed.

Lemma elems_glob : forall n p s, length p <= n -> (eglob (elems brackets n p) s <-> glob brackets p s).
Proof.
  induction n as [|n IH]; intros p s L.
  - destruct p as [|c p]; [|cbn in L; lia]; cbn; split; intro H; inversion H; constructor.
  - destruct p as [|c p]; [cbn; split; intro H; inversion H; constructor|].
    cbn in L; cbn [elems].
    destruct (beq c "*") eqn:E1.
    { apply beq_eq in E1; subst c; split; intro H.
      - inversion H as [| | |es s1 s2 G|]; subst; apply g_star; apply IH in G; [exact G|lia].
      - inversion H as [|c p' s' N G| | |p' s1 s2 G| |]; subst; [exfalso; apply N; left; reflexivity|].
        constructor; apply IH; [lia|exact G]. }
    destruct (beq c "?") eqn:E2.
    { apply beq_eq in E2; subst c; split; intro H.
      - inversion H as [| |c es s' G| |]; subst; apply g_any; apply IH in G; [exact G|lia].
      - inversion H as [|c p' s' N G| |c p' s' G| | |]; subst; [exfalso; apply N; right; left; reflexivity|].
        constructor; apply IH; [lia|exact G]. }
    destruct (beq c "\") eqn:E3.
    { apply beq_eq in E3; subst c; destruct p as [|d p]; split; intro H.
      - inversion H.
      - inversion H as [|c p' s' N G| | | | |]; subst; exfalso; apply N; right; right; left; reflexivity.
      - cbn in L; inversion H as [|c es s' G| | |]; subst; apply g_quoted; apply IH in G; [exact G|lia].
      - cbn in L; inversion H as [|c p' s' N G|c p' s' G| | | |]; subst; [exfalso; apply N; right; right; left; reflexivity|].
        constructor; apply IH; [lia|exact G]. }
    destruct (beq c "[") eqn:E4.
    { apply beq_eq in E4; subst c; destruct (brackets p) as [[f k]|] eqn:B; split; intro H.
      - inversion H as [| | | |f' c es s' F G]; subst; eapply g_set; [exact B|exact F|].
        apply IH in G; [exact G|rewrite skipn_length; lia].
      - inversion H as [|c p' s' N G| | | |f' k' c p' s' B' F G|p' s' B' G]; subst;
          [exfalso; apply N; right; right; right; reflexivity| |rewrite B in B'; discriminate].
        rewrite B in B'; injection B' as <- <-; constructor; [exact F|].
        apply IH; [rewrite skipn_length; lia|exact G].
      - inversion H as [|c es s' G| | |]; subst; apply g_bracket; [exact B|]; apply IH in G; [exact G|lia].
      - inversion H as [|c p' s' N G| | | |f' k' c p' s' B' F G|p' s' B' G]; subst;
          [exfalso; apply N; right; right; right; reflexivity|rewrite B in B'; discriminate|].
        constructor; apply IH; [lia|exact G]. }
    assert (NS : ~ special c).
    { apply beq_neq in E1, E2, E3, E4; unfold special; intuition. }
    split; intro H.
    + inversion H as [|c' es s' G| | |]; subst; apply g_plain; [exact NS|]; apply IH in G; [exact G|lia].
    + inversion H; subst; try (exfalso; apply NS; unfold special; auto; fail).
      constructor; apply IH; [lia|assumption].
Qed.

Theorem fnmatch_ok : forall p s, fnmatch brackets p s = true <-> glob brackets p s.
Proof.
  intros p s; unfold fnmatch; rewrite ematch_ok; apply elems_glob; lia.
Qed.

Lemma plain_glob : forall p s, plain p -> (glob brackets p s <-> s = p).
Proof.
  induction p as [|c p IH]; intros s P; split; intro H.
  - inversion H; reflexivity.
  - subst s; constructor.
  - inversion P as [|c' p' N P']; subst.
    inversion H; subst; try (exfalso; apply N; unfold special; auto; fail).
    f_equal; apply IH; assumption.
  - subst s; inversion P as [|c' p' N P']; subst; apply g_plain; [exact N|apply IH; auto].
Qed.

Lemma star_glob : forall p s, plain p -> (glob brackets ("*"%char :: p) s <-> exists x, s = x ++ p).
Proof.
  intros p s P; split.
  - intro H; inversion H as [|c p' s' N G| | |p' s1 s2 G| |]; subst.
    + exfalso; apply N; left; reflexivity.
    + apply (plain_glob _ _ P) in G; subst s2; exists s1; reflexivity.
  - intros [x ->]; constructor; apply plain_glob; auto.
Qed.

(** Names of a loaded certificate. *)
Lemma utf8_in : forall l n, In n (utf8_names l) <-> exists m, c_str m = n /\ In (Some m) l.
Proof.
  induction l as [|[m|] l IH]; intro n; cbn.
  - split; [intros []|intros (m & _ & [])].
  - rewrite IH; split.
    + intros [E|(m' & E & H)]; [exists m; auto|exists m'; auto].
    + intros (m' & E & [H|H]); [left; injection H as ->; exact E|right; exists m'; auto].
  - rewrite IH; split; intros (m & E & H); exists m; split; auto.
    destruct H as [H|H]; [discriminate|exact H].
Qed.
Lemma dns_in : forall l n, In n (dns_names l) <-> exists m, c_str m = n /\ In (Dns m) l.
Proof.
  induction l as [|[m|] l IH]; intro n; cbn.
  - split; [intros []|intros (m & _ & [])].
  - rewrite in_app_iff, IH; cbn; split.
    + intros [(m' & E & H)|[E|[]]]; [exists m'; auto|exists m; auto].
    + intros (m' & E & [H|H]); [right; left; injection H as ->; exact E|left; exists m'; auto].
  - rewrite IH; split; intros (m & E & H); exists m; split; auto.
    destruct H as [H|H]; [discriminate|exact H].
Qed.

Context {setting : Type}.
Implicit Types (pc : pctx setting) (ctxs : list (pctx setting)) (ds : list (directive setting)).

Definition good pc : Prop :=
  forall n, n = server_name pc \/ In n (subjectAltNames pc) <-> names_of (pc_cert pc) n.

Lemma load_cert_some : forall f ctxs ctxs', load_cert f ctxs = Some ctxs' ->
  usable f /\ named f /\ exists pc, ctxs' = ctxs ++ [pc] /\ pc_cert pc = f /\ settings pc = [] /\ good pc.
Proof.
  intros f ctxs ctxs'; unfold load_cert, usable.
  destruct (chain_ok f); [|discriminate]; destruct (key_ok f); [|discriminate].
  destruct (pair_ok f); [|discriminate]; destruct (readable f); [|discriminate]; cbn [negb].
  destruct (utf8_names (common_names f)) as [|cn others] eqn:U; [discriminate|].
  intro E; injection E as <-; split; [auto|]; split.
  - assert (H : In cn (utf8_names (common_names f))) by (rewrite U; left; reflexivity).
    apply utf8_in in H; destruct H as (m & _ & H); exists m; exact H.
  - eexists; split; [reflexivity|]; split; [reflexivity|]; split; [reflexivity|].
    intro n; cbn [server_name subjectAltNames pc_cert]; rewrite in_app_iff, dns_in.
    assert (H := utf8_in (common_names f) n); rewrite U in H; cbn in H.
    unfold names_of; split.
    + intros [->|[K|(m & E & K)]].
      * destruct H as [H _]; destruct H as (m & E & K); [auto|]; exists m; auto.
      * destruct H as [H _]; destruct H as (m & E & K'); [auto|]; exists m; auto.
      * exists m; auto.
    + intros (m & E & [K|K]).
      * destruct H as [_ H]; destruct H as [->|H]; [exists m; auto|auto|auto].
      * right; right; exists m; auto.
Qed.

Lemma load_cert_total : forall f ctxs, usable f -> named f -> load_cert f ctxs <> None.
Proof.
  intros f ctxs (A & B & C & D) [m N]; unfold load_cert; rewrite A, B, C, D; cbn [negb].
  destruct (utf8_names (common_names f)) eqn:U; [|discriminate].
  assert (H : In (c_str m) (utf8_names (common_names f))) by (apply utf8_in; exists m; auto).
  rewrite U in H; destruct H.
Qed.

Definition okfile (f : certfile) := usable f /\ named f.

(** What a list of files adds to the contexts. *)
Definition extends (fs : list certfile) ctxs ctxs' : Prop :=
  Forall okfile fs /\
  exists new, ctxs' = ctxs ++ new /\ map pc_cert new = fs /\ Forall (fun pc => settings pc = [] /\ good pc) new.

Lemma extends_nil : forall ctxs, extends [] ctxs ctxs.
Proof. intro ctxs; split; [constructor|]; exists []; rewrite app_nil_r; auto. Qed.
Lemma extends_trans : forall f1 f2 c1 c2 c3, extends f1 c1 c2 -> extends f2 c2 c3 -> extends (f1 ++ f2) c1 c3.
Proof.
  intros f1 f2 c1 c2 c3 (A1 & n1 & -> & M1 & G1) (A2 & n2 & -> & M2 & G2); split.
  - apply Forall_app; auto.
  - exists (n1 ++ n2); rewrite app_assoc, map_app, M1, M2; repeat split; auto; apply Forall_app; auto.
Qed.
Lemma load_cert_ext : forall f ctxs ctxs', load_cert f ctxs = Some ctxs' -> extends [f] ctxs ctxs'.
Proof.
  intros f ctxs ctxs' E; apply load_cert_some in E; destruct E as (U & N & pc & -> & C & S' & G).
  split; [repeat constructor; auto; apply U|]; exists [pc]; cbn; rewrite C; auto.
Qed.
Lemma load_dir_ext : forall es ctxs ctxs', load_dir es ctxs = Some ctxs' ->
  extends (concat (map entry_files es)) ctxs ctxs'.
Proof.
  induction es as [|e es IH]; intros ctxs ctxs' E; cbn [load_dir] in E.
  - injection E as <-; apply extends_nil.
  - destruct e as [|f|]; cbn [map entry_files concat].
    + apply IH; exact E.
    + destruct (load_cert f ctxs) as [c2|] eqn:L; [|discriminate].
      apply load_cert_ext in L; eapply extends_trans; [exact L|apply IH; exact E].
    + apply IH; exact E.
Qed.
Lemma load_dir_total : forall es ctxs, Forall okfile (concat (map entry_files es)) -> load_dir es ctxs <> None.
Proof.
  induction es as [|e es IH]; intros ctxs H; cbn [load_dir]; [discriminate|].
  destruct e as [|f|]; cbn in H; try (apply IH; exact H).
  inversion H as [|f' l [U N] K]; subst.
  destruct (load_cert f ctxs) as [c|] eqn:L; [apply IH; exact K|].
  exfalso; exact (load_cert_total f ctxs U N L).
Qed.
Lemma parse_cert_ext : forall t ctxs ctxs', https_parse_cert t ctxs = Some ctxs' ->
  sound (@Cert setting t) /\ extends (target_files t) ctxs ctxs'.
Proof.
  intros [|f| |es|] ctxs ctxs' E; cbn in E; try discriminate; split; cbn; auto.
  - apply load_cert_ext; exact E.
  - apply load_dir_ext; exact E.
  - injection E as <-; apply extends_nil.
Qed.
Lemma parse_cert_total : forall t ctxs, sound (@Cert setting t) -> Forall okfile (target_files t) ->
  https_parse_cert t ctxs <> None.
Proof.
  intros [|f| |es|] ctxs S' H; cbn in *; try contradiction; try discriminate.
  - inversion H as [|f' l [U N] K]; subst; apply load_cert_total; auto.
  - apply load_dir_total; exact H.
Qed.

(** What directives do to contexts: earlier ones get the settings, new ones are added. *)
Definition set_in (xs : list setting) pc := Build_pctx (pc_cert pc) (server_name pc) (subjectAltNames pc) (settings pc ++ xs).
Lemma set_in_nil : forall pc, set_in [] pc = pc.
Proof. intros [a b c d]; unfold set_in; cbn; rewrite app_nil_r; reflexivity. Qed.
Lemma set_in_app : forall x y pc, set_in y (set_in x pc) = set_in (x ++ y) pc.
Proof. intros x y [a b c d]; unfold set_in; cbn; rewrite app_assoc; reflexivity. Qed.
Lemma good_set : forall xs pc, good (set_in xs pc) <-> good pc.
Proof. intros xs pc; unfold good, set_in; cbn; reflexivity. Qed.

Lemma files_cons : forall d ds, files (d :: ds) = cert_files d ++ files ds.
Proof. reflexivity. Qed.
Lemma made_cons : forall d ds, made (d :: ds) = match d with Setting x _ => [x] | Cert _ => [] end ++ made ds.
Proof. reflexivity. Qed.
Lemma files_app : forall ds1 ds2, files (ds1 ++ ds2) = files ds1 ++ files ds2.
Proof. intros; unfold files; rewrite map_app, concat_app; reflexivity. Qed.
Lemma parse_app : forall ds1 ds2 ctxs, parse_directives (ds1 ++ ds2) ctxs =
  match parse_directives ds1 ctxs with Some c => parse_directives ds2 c | None => None end.
Proof.
  induction ds1 as [|d ds1 IH]; intros ds2 ctxs; cbn [app parse_directives]; [reflexivity|].
  destruct (parse_directive d ctxs); auto.
Qed.

Lemma parse_inv : forall ds ctxs ctxs', parse_directives ds ctxs = Some ctxs' ->
  Forall sound ds /\ Forall okfile (files ds) /\
  (forall ds1 x v ds2, ds = ds1 ++ Setting x v :: ds2 -> ctxs <> [] \/ files ds1 <> []) /\
  exists new, ctxs' = map (set_in (made ds)) ctxs ++ new /\ map pc_cert new = files ds /\ Forall good new.
Proof.
  induction ds as [|d ds IH]; intros ctxs ctxs' E; cbn [parse_directives] in E.
  - injection E as <-; split; [constructor|]; split; [constructor|]; split.
    + intros [|d ds1] x v ds2 A; discriminate.
    + exists []; rewrite app_nil_r; split; [|auto].
      unfold made; cbn. symmetry; rewrite <- (map_id ctxs) at 2; apply map_ext; exact set_in_nil.
  - destruct (parse_directive d ctxs) as [c2|] eqn:D; [|discriminate].
    apply IH in E; destruct E as (A & B & C & new & -> & M & G).
    rewrite files_cons, made_cons; destruct d as [t|x v]; cbn [parse_directive] in D.
    + apply parse_cert_ext in D; destruct D as (SD & O & new0 & -> & M0 & G0).
      split; [constructor; auto|]; split; [apply Forall_app; auto|]; split.
      * intros [|d1 ds1] x v ds2 Q; [discriminate|]; injection Q as <- Q.
        rewrite files_cons; cbn [cert_files]; destruct (C _ _ _ _ Q) as [K|K].
        -- destruct ctxs as [|pc ctxs]; [right|left; discriminate].
           destruct new0 as [|pc new0]; [contradiction K; reflexivity|].
           cbn in M0; rewrite <- M0; discriminate.
        -- right; intro Z; apply app_eq_nil in Z; destruct Z as [_ Z]; contradiction.
      * exists (map (set_in (made ds)) new0 ++ new); rewrite map_app, app_assoc; split; [reflexivity|].
        split.
        -- rewrite map_app, M, map_map; cbn [pc_cert set_in cert_files].
           rewrite <- M0; reflexivity.
        -- apply Forall_app; split; [|exact G].
           apply Forall_map; eapply Forall_impl; [|exact G0]; intros pc [_ H]; apply good_set; exact H.
    + unfold https_parse_setting in D; destruct ctxs as [|pc0 ctxs]; [discriminate|].
      destruct v; [|discriminate]; injection D as <-.
      split; [constructor; [reflexivity|exact A]|]; split; [exact B|]; split.
      * intros; left; discriminate.
      * exists new; split; [|split; assumption].
        cbn [app]; f_equal.
        change (map (set_in (made ds)) (map (set_in [x]) (pc0 :: ctxs)) = map (set_in (x :: made ds)) (pc0 :: ctxs)).
        rewrite map_map; apply map_ext; intro pc; apply set_in_app.
Qed.

Lemma parse_total : forall ds ctxs, Forall sound ds -> Forall okfile (files ds) ->
  (forall ds1 x v ds2, ds = ds1 ++ Setting x v :: ds2 -> ctxs <> [] \/ files ds1 <> []) ->
  parse_directives ds ctxs <> None.
Proof.
  induction ds as [|d ds IH]; intros ctxs A B C; cbn [parse_directives]; [discriminate|].
  inversion A as [|d' ds' SD A']; subst; rewrite files_cons in B; apply Forall_app in B; destruct B as [B1 B2].
  destruct d as [t|x v]; cbn [parse_directive].
  - destruct (https_parse_cert t ctxs) as [c2|] eqn:E; [|intros _; exact (parse_cert_total t ctxs SD B1 E)].
    apply parse_cert_ext in E; destruct E as (_ & _ & new & -> & M & _).
    apply IH; auto; intros ds1 x v ds2 Q.
    destruct (C (Cert t :: ds1) x v ds2) as [K|K]; [cbn; rewrite Q; reflexivity| |].
    + left; intro Z; apply app_eq_nil in Z; destruct Z; contradiction.
    + rewrite files_cons in K; cbn [cert_files] in K; rewrite <- M in K.
      destruct new as [|pc new]; [right; exact K|left; intro Z; apply app_eq_nil in Z; destruct Z; discriminate].
  - cbn in SD; subst v; unfold https_parse_setting.
    destruct (C [] x true ds eq_refl) as [K|K]; [|contradiction K; reflexivity].
    destruct ctxs as [|pc ctxs]; [contradiction K; reflexivity|].
    apply IH; auto; intros; left; discriminate.
Qed.

Theorem accepted : forall ds, parse_listen_https ds <> None <-> acceptable ds.
Proof.
  intro ds; unfold parse_listen_https, acceptable; split.
  - destruct (parse_directives ds []) as [[|pc ctxs]|] eqn:E; intro H; try (contradiction H; reflexivity).
    apply parse_inv in E; destruct E as (A & B & C & new & E & M & _); cbn in E; subst new.
    split; [exact A|]; split; [rewrite <- M; discriminate|]; split; [exact B|].
    intros ds1 x v ds2 Q; destruct (C _ _ _ _ Q) as [K|K]; [contradiction K; reflexivity|exact K].
  - intros (A & N & B & C).
    destruct (parse_directives ds []) as [[|pc ctxs]|] eqn:E; try discriminate.
    + apply parse_inv in E; destruct E as (_ & _ & _ & new & E & M & _); cbn in E; subst new.
      cbn in M; symmetry in M; contradiction.
    + exfalso; refine (parse_total ds [] A B _ E); intros; right; eapply C; eassumption.
Qed.

Lemma listen_inv : forall ds ctxs, parse_listen_https ds = Some ctxs ->
  parse_directives ds [] = Some ctxs /\ ctxs <> [] /\ map pc_cert ctxs = files ds /\ Forall good ctxs.
Proof.
  intros ds ctxs; unfold parse_listen_https.
  destruct (parse_directives ds []) as [[|pc cs]|] eqn:E; intro H; try discriminate; injection H as <-.
  split; [reflexivity|]; split; [discriminate|].
  apply parse_inv in E; destruct E as (_ & _ & _ & new & E & M & G); cbn in E; subst new; auto.
Qed.

Lemma find_ok : forall ctxs name, Forall good ctxs ->
  match sni_find brackets ctxs name with
  | Some pc => exists k, nth_error ctxs k = Some pc /\ is_for brackets (pc_cert pc) name /\
      forall j g, j < k -> nth_error (map pc_cert ctxs) j = Some g -> ~ is_for brackets g name
  | None => forall g, In g (map pc_cert ctxs) -> ~ is_for brackets g name
  end.
Proof.
  intros ctxs name; induction ctxs as [|pc ctxs IH]; intro G; cbn [sni_find].
  - intros g [].
  - inversion G as [|pc' l G1 G2]; subst; specialize (IH G2).
    destruct (fnmatch brackets (server_name pc) name) eqn:F.
    { exists 0; split; [reflexivity|]; split; [|intros; lia].
      exists (server_name pc); split; [apply G1; auto|apply fnmatch_ok; exact F]. }
    destruct (existsb (fun san => fnmatch brackets san name) (subjectAltNames pc)) eqn:X.
    { exists 0; split; [reflexivity|]; split; [|intros; lia].
      apply existsb_exists in X; destruct X as (san & I' & X).
      exists san; split; [apply G1; auto|apply fnmatch_ok; exact X]. }
    assert (NO : ~ is_for brackets (pc_cert pc) name).
    { intros (p & N & M); apply fnmatch_ok in M; apply G1 in N; destruct N as [->|N]; [congruence|].
      assert (existsb (fun san => fnmatch brackets san name) (subjectAltNames pc) = true);
        [apply existsb_exists; eauto|congruence]. }
    destruct (sni_find brackets ctxs name) as [q|].
    + destruct IH as (k & A & B & C); exists (S k); split; [exact A|]; split; [exact B|].
      intros [|j] g L E; cbn in E; [injection E as <-; exact NO|apply (C j); [lia|exact E]].
    + intros g [<-|H]; [exact NO|apply IH; exact H].
Qed.

Theorem choice : forall ds ctxs name, parse_listen_https ds = Some ctxs ->
  exists k pc, SNI_server_name brackets ctxs name = Some pc /\ nth_error ctxs k = Some pc /\
    nth_error (files ds) k = Some (pc_cert pc) /\
    match name with
    | None => k = 0
    | Some n => right_one brackets (files ds) n k
    end.
Proof.
  intros ds ctxs name E; apply listen_inv in E; destruct E as (_ & N & M & G); rewrite <- M.
  destruct ctxs as [|pc0 ctxs]; [contradiction N; reflexivity|].
  assert (D : hd_error (pc0 :: ctxs) = Some pc0) by reflexivity.
  destruct name as [n|]; cbn [SNI_server_name].
  - assert (F := find_ok (pc0 :: ctxs) n G); destruct (sni_find brackets (pc0 :: ctxs) n) as [pc|].
    + destruct F as (k & A & B & C); exists k, pc; split; [reflexivity|]; split; [exact A|]; split.
      * apply (map_nth_error pc_cert) in A; exact A.
      * left; exists (pc_cert pc); split; [apply (map_nth_error pc_cert) in A; exact A|]; auto.
    + exists 0, pc0; split; [exact D|]; split; [reflexivity|]; split; [reflexivity|]; right; auto.
  - exists 0, pc0; auto.
Qed.

Theorem settings_of : forall ds1 t ds2 ctxs, parse_listen_https (ds1 ++ Cert t :: ds2) = Some ctxs ->
  forall i, i < length (target_files t) ->
  exists pc, nth_error ctxs (length (files ds1) + i) = Some pc /\ settings pc = made ds2.
Proof.
  intros ds1 t ds2 ctxs E i L; apply listen_inv in E; destruct E as (E & _).
  rewrite parse_app in E; destruct (parse_directives ds1 []) as [c1|] eqn:E1; [|discriminate].
  apply parse_inv in E1; destruct E1 as (_ & _ & _ & n1 & E1 & M1 & _); cbn in E1; subst n1.
  cbn [parse_directives parse_directive] in E.
  destruct (https_parse_cert t c1) as [c2|] eqn:E2; [|discriminate].
  apply parse_cert_ext in E2; destruct E2 as (_ & _ & n2 & -> & M2 & S2).
  apply parse_inv in E; destruct E as (_ & _ & _ & n3 & -> & _ & _).
  assert (L2 : i < length n2) by (rewrite <- M2, map_length in L; exact L).
  destruct (nth_error n2 i) as [pc|] eqn:X; [|apply nth_error_None in X; lia].
  exists (set_in (made ds2) pc); split.
  - rewrite <- M1, map_length, nth_error_app1 by (rewrite map_length, app_length; lia).
    apply map_nth_error; rewrite nth_error_app2 by lia.
    replace (length c1 + i - length c1) with i by lia; exact X.
  - apply nth_error_In in X; rewrite Forall_forall in S2; destruct (S2 _ X) as [S3 _].
    cbn; rewrite S3; reflexivity.
Qed.

Lemma nth_files_length : forall ds ctxs, parse_listen_https ds = Some ctxs -> length ctxs = length (files ds).
Proof. intros ds ctxs E; apply listen_inv in E; destruct E as (_ & _ & M & _); rewrite <- M, map_length; reflexivity. Qed.

Theorem late : forall x f1 f2, usable f1 -> named f1 -> usable f2 -> named f2 ->
  exists pc1 pc2 : pctx setting,
    parse_listen_https [Cert (TRegular f1); Setting x true; Cert (TRegular f2)] = Some [pc1; pc2] /\
    settings pc1 = [x] /\ settings pc2 = [].
Proof.
  intros x f1 f2 U1 N1 U2 N2.
  set (ds := [Cert (TRegular f1); Setting x true; Cert (TRegular f2)]).
  assert (A : acceptable ds).
  { split; [repeat (apply Forall_cons; [cbn; auto|]); constructor|]; split; [discriminate|]; split.
    - repeat (apply Forall_cons; [auto|]); constructor.
    - intros [|d1 ds1] y v ds2 Q; [discriminate|].
      injection Q as <- _; rewrite files_cons; discriminate. }
  apply accepted in A; destruct (parse_listen_https ds) as [ctxs|] eqn:E; [|contradiction A; reflexivity].
  assert (L := nth_files_length _ _ E).
  destruct ctxs as [|pc1 [|pc2 [|pc3 ctxs]]]; try discriminate L.
  exists pc1, pc2; split; [reflexivity|]; split.
  - destruct (settings_of [] (TRegular f1) [Setting x true; Cert (TRegular f2)] _ E 0) as (pc & A1 & A2); [cbn; lia|].
    cbn in A1; injection A1 as <-; exact A2.
  - destruct (settings_of [Cert (TRegular f1); Setting x true] (TRegular f2) [] _ E 0) as (pc & A1 & A2); [cbn; lia|].
    cbn in A1; injection A1 as <-; exact A2.
Qed.

(** Names with capital letters. *)
Lemma upper_neq : forall s p, has_upper s -> no_upper p -> s <> p.
Proof.
  intros s p H N ->; apply Exists_exists in H; destruct H as (c & I' & U).
  unfold no_upper in N; rewrite Forall_forall in N; rewrite (N c I') in U; discriminate.
Qed.
Theorem case : forall ds ctxs name, parse_listen_https ds = Some ctxs ->
  (forall f p, In f (files ds) -> names_of f p -> plain p /\ no_upper p) -> has_upper name ->
  SNI_server_name brackets ctxs (Some name) = hd_error ctxs.
Proof.
  intros ds ctxs name E H U.
  destruct (choice ds ctxs (Some name) E) as (k & pc & A & B & C & D).
  assert (NO : forall g, In g (files ds) -> ~ is_for brackets g name).
  { intros g I' (p & N & M); destruct (H g p I' N) as [P Q].
    apply (plain_glob _ _ P) in M; exact (upper_neq _ _ U Q M). }
  destruct D as [(f & F & G & _)|[-> _]].
  - exfalso; exact (NO f (nth_error_In _ _ F) G).
  - rewrite A; destruct ctxs as [|q ctxs]; cbn in B; [discriminate|]; symmetry; exact B.
Qed.
End Glob.
