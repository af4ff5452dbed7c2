From Coq Require Import Ascii String List ZArith Bool Lia ZifyBool ZifyNat.
From Verif Require Import Bytes ClenSpec StreamSpec TokSpec ReqSpec FrameSpec UrlModel
  XpdModel XpdSpec XpdProofs CondModel LogModel StreamModel StreamProofs RespSpec ReplyModel ReplySpec ReplyProofs.
Import ListNotations.
Open Scope Z_scope.

(** ** Paths *)

Lemma bytes_eqb_neq : forall a b, a <> b -> bytes_eqb a b = false.
Proof. intros a b H. apply not_true_iff_false. intros K. apply bytes_eqb_eq in K. auto. Qed.

Lemma components_name : forall c rest, ~ In "/"%char c ->
  components (c ++ "/"%char :: rest) = c :: components rest /\ components c = [c].
Proof.
  induction c as [|x c IH]; intros rest H; [split; reflexivity|]. cbn [app components].
  assert (X : beq x SLASH = false) by (apply beq_neq; intros ->; apply H; left; reflexivity).
  rewrite X. destruct (IH rest) as [E1 E2]; [intros K; apply H; right; auto|]. rewrite E1, E2. auto.
Qed.

Lemma components_path : forall loc, loc <> [] -> Forall (fun c => ~ In "/"%char c) loc -> components (path_of loc) = loc.
Proof.
  induction loc as [|c loc IH]; intros N F; [congruence|]. inversion F; subst. cbn [path_of]. destruct loc as [|d loc].
  - apply (components_name c []). auto.
  - destruct (components_name c (path_of (d :: loc))) as [E _]; auto. rewrite E, IH; auto. discriminate.
Qed.

Lemma components_nonempty : forall path, components path <> [].
Proof.
  destruct path as [|c path]; cbn [components]; [discriminate|]. destruct (beq c SLASH); [discriminate|].
  destruct (components path); discriminate.
Qed.

Lemma components_join : forall path, path_of (components path) = path.
Proof.
  induction path as [|c path IH]; [reflexivity|]. cbn [components]. pose proof (components_nonempty path) as N.
  destruct (beq c SLASH) eqn:B.
  - apply beq_eq in B as ->. destruct (components path) as [|x l]; [congruence|].
    change (path_of ([] :: x :: l)) with ([] ++ "/"%char :: path_of (x :: l)). rewrite IH. reflexivity.
  - destruct (components path) as [|x l]; [congruence|]. destruct l as [|y l].
    + cbn [path_of] in *. rewrite IH. reflexivity.
    + change (path_of ((c :: x) :: y :: l)) with (c :: (x ++ "/"%char :: path_of (y :: l))).
      change (path_of (x :: y :: l)) with (x ++ "/"%char :: path_of (y :: l)) in IH. rewrite IH. reflexivity.
Qed.

Lemma path_of_app : forall l m, l <> [] -> m <> [] -> path_of (l ++ m) = path_of l ++ "/"%char :: path_of m.
Proof.
  induction l as [|x l IH]; intros m N M; [congruence|]. destruct l as [|y l].
  - destruct m as [|z m]; [congruence|]. reflexivity.
  - change ((x :: y :: l) ++ m) with (x :: y :: (l ++ m)).
    change (path_of (x :: y :: l ++ m)) with (x ++ "/"%char :: path_of ((y :: l) ++ m)). rewrite IH; [|discriminate|auto].
    change (path_of (x :: y :: l)) with (x ++ "/"%char :: path_of (y :: l)). rewrite <- app_assoc. reflexivity.
Qed.

Lemma components_up : forall path, In DOTDOT (components path) -> goes_up path.
Proof.
  intros path H. apply in_split in H as (l & m & E). rewrite <- (components_join path), E.
  exists (match l with [] => [] | _ => path_of l ++ ["/"%char] end), (match m with [] => [] | _ => "/"%char :: path_of m end).
  change (lit "..") with DOTDOT. split; [|split].
  - destruct l as [|x l], m as [|y m].
    + reflexivity.
    + reflexivity.
    + rewrite path_of_app by discriminate. rewrite <- app_assoc. reflexivity.
    + rewrite path_of_app by discriminate. rewrite <- app_assoc. reflexivity.
  - destruct l; [left; reflexivity|right; eauto].
  - destruct m; [left; reflexivity|right; eauto].
Qed.

(** ** Walking *)

Lemma entry_spec : forall a b name n, ~ In name (map fst a) -> entry (a ++ (name, n) :: b) name = Some n.
Proof.
  induction a as [|[m x] a IH]; intros b name n H; cbn [app entry].
  - rewrite (proj2 (bytes_eqb_eq name name) eq_refl). reflexivity.
  - rewrite (bytes_eqb_neq m name); [apply IH|]; intros K; apply H; cbn; auto.
Qed.

Lemma entry_split : forall l name n, entry l name = Some n -> exists a b, l = a ++ (name, n) :: b /\ ~ In name (map fst a).
Proof.
  induction l as [|[m x] l IH]; intros name n H; cbn [entry] in H; [discriminate|].
  destruct (bytes_eqb m name) eqn:B.
  - apply bytes_eqb_eq in B as ->. injection H as ->. exists [], l. split; [reflexivity|auto].
  - destruct (IH name n H) as (a & b & -> & N). exists ((m, x) :: a), b. split; [reflexivity|].
    intros [K|K]; [|auto]. cbn in K. subst. rewrite (proj2 (bytes_eqb_eq name name) eq_refl) in B. discriminate.
Qed.

Lemma stored_iff : forall loc n x, stored n loc x <-> node_at n loc = Some x.
Proof.
  intros loc n x. split.
  - intros H. induction H as [n|l a b name n loc x E N _ IH]; [reflexivity|]. subst. cbn [node_at].
    rewrite entry_spec by auto. exact IH.
  - revert n. induction loc as [|c loc IH]; intros n H; cbn [node_at] in H; [injection H as ->; constructor|].
    destruct n as [|l|]; try discriminate. destruct (entry l c) as [n'|] eqn:E; [|discriminate].
    apply entry_split in E as (a & b & E & N). econstructor; eauto.
Qed.

Lemma node_at_app : forall loc n loc' x, node_at n loc = Some x -> node_at n (loc ++ loc') = node_at x loc'.
Proof.
  induction loc as [|c loc IH]; intros n loc' x H; cbn [node_at app] in *; [injection H as ->; reflexivity|].
  destruct n as [|l|]; try discriminate. destruct (entry l c) as [n'|]; [|discriminate]. eauto.
Qed.

Lemma walk_nil : forall links root cur, walk links root cur [] =
  match node_at root cur with Some n => Opened cur n | None => Failed ENOENT end.
Proof. destruct links; reflexivity. Qed.

Lemma walk_cons : forall links root cur c comps, walk links root cur (c :: comps) =
  match node_at root cur with
  | Some (NDir l) =>
      if bytes_eqb c [] || bytes_eqb c DOT then walk links root cur comps
      else if bytes_eqb c DOTDOT then walk links root (removelast cur) comps
      else if Nat.ltb NAME_MAX (length c) then Failed ENAMETOOLONG
      else
        match entry l c with
        | None => Failed ENOENT
        | Some (NLink t) =>
            match links with
            | O => Failed ELOOP
            | S links' => walk links' root (if starts SLASH t then [] else cur) (components t ++ comps)
            end
        | Some _ => walk links root (cur ++ [c]) comps
        end
  | _ => Failed ENOTDIR
  end.
Proof. destruct links; reflexivity. Qed.

(** Going down by names gets to the node stored there. *)
Lemma walk_down : forall loc links root cur d x, node_at root cur = Some d -> stored d loc x ->
  (forall t, x <> NLink t) -> Forall file_name loc -> walk links root cur loc = Opened (cur ++ loc) x.
Proof.
  induction loc as [|c loc IH]; intros links root cur d x Hd Hs Hl Hn.
  - inversion Hs; subst. rewrite walk_nil, Hd, app_nil_r. reflexivity.
  - inversion Hs as [|l a b name n loc' x' El Na St]; subst. inversion Hn as [|c' loc'' (N1 & N2 & N3 & N4 & N5) Hn']; subst.
    rewrite walk_cons, Hd. rewrite (bytes_eqb_neq c []), (bytes_eqb_neq c DOT), (bytes_eqb_neq c DOTDOT) by auto.
    cbn [orb]. destruct (Nat.ltb_spec NAME_MAX (length c)); [unfold NAME_MAX in *; lia|].
    rewrite entry_spec by auto.
    assert (E : walk links root (cur ++ [c]) loc = Opened (cur ++ c :: loc) x).
    { replace (cur ++ c :: loc) with ((cur ++ [c]) ++ loc) by (rewrite <- app_assoc; reflexivity).
      apply (IH links root (cur ++ [c]) n x); auto.
      rewrite (node_at_app cur root [c] _ Hd). cbn [node_at]. rewrite entry_spec by auto. reflexivity. }
    destruct n as [f|l|t]; auto. destruct loc as [|c2 loc]; inversion St; subst. exfalso. eapply Hl. reflexivity.
Qed.

(** A missing name. *)
Lemma walk_missing : forall loc links root cur d l c rest, node_at root cur = Some d -> stored d loc (NDir l) ->
  Forall file_name loc -> file_name c -> ~ In c (map fst l) -> walk links root cur (loc ++ c :: rest) = Failed ENOENT.
Proof.
  induction loc as [|x loc IH]; intros links root cur d l c rest Hd Hs Hn Hc Hi.
  - inversion Hs; subst. destruct Hc as (N1 & N2 & N3 & N4 & N5). cbn [app].
    rewrite walk_cons, Hd. rewrite (bytes_eqb_neq c []), (bytes_eqb_neq c DOT), (bytes_eqb_neq c DOTDOT) by auto.
    cbn [orb]. destruct (Nat.ltb_spec NAME_MAX (length c)); [unfold NAME_MAX in *; lia|].
    destruct (entry l c) as [n|] eqn:E; [|reflexivity].
    apply entry_split in E as (a & b & -> & _). exfalso. apply Hi. rewrite map_app. apply in_or_app. right. left. reflexivity.
  - inversion Hs as [|l' a b name n loc' x' El Na St]; subst. inversion Hn as [|c' loc'' (N1 & N2 & N3 & N4 & N5) Hn']; subst.
    cbn [app]. rewrite walk_cons, Hd. rewrite (bytes_eqb_neq x []), (bytes_eqb_neq x DOT), (bytes_eqb_neq x DOTDOT) by auto.
    cbn [orb]. destruct (Nat.ltb_spec NAME_MAX (length x)); [unfold NAME_MAX in *; lia|].
    rewrite entry_spec by auto.
    assert (E : walk links root (cur ++ [x]) (loc ++ c :: rest) = Failed ENOENT).
    { apply (IH links root (cur ++ [x]) n l c rest); auto.
      rewrite (node_at_app cur root [x] _ Hd). cbn [node_at]. rewrite entry_spec by auto. reflexivity. }
    destruct n as [f|l2|t]; auto. destruct loc as [|c2 loc]; inversion St; subst.
Qed.

(** Without "..", absolute names and links one stays below. *)
Lemma walk_below : forall comps links root wd d rel loc n, node_at root wd = Some d -> link_free d ->
  ~ In DOTDOT comps -> walk links root (wd ++ rel) comps = Opened loc n ->
  exists rel', loc = wd ++ rel' /\ stored d rel' n.
Proof.
  induction comps as [|c comps IH]; intros links root wd d rel loc n Hd Hf Hu H.
  - rewrite walk_nil in H. destruct (node_at root (wd ++ rel)) as [x|] eqn:E; [|discriminate]. injection H as <- <-.
    exists rel. split; auto. apply stored_iff. rewrite <- E. symmetry. apply node_at_app, Hd.
  - rewrite walk_cons in H. destruct (node_at root (wd ++ rel)) as [[f|l|t]|] eqn:E; try discriminate.
    assert (Hu' : ~ In DOTDOT comps) by (intros K; apply Hu; right; auto).
    destruct (bytes_eqb c [] || bytes_eqb c DOT); [eapply IH; eauto|].
    rewrite (bytes_eqb_neq c DOTDOT) in H by (intros ->; apply Hu; left; reflexivity).
    destruct (Nat.ltb NAME_MAX (length c)); [discriminate|].
    destruct (entry l c) as [x|] eqn:En; [|discriminate].
    assert (S1 : stored d (rel ++ [c]) x).
    { apply stored_iff. rewrite (node_at_app wd root rel d Hd) in E. rewrite (node_at_app rel d [c] _ E). cbn [node_at].
      rewrite En. reflexivity. }
    destruct x as [f|l2|t]; [| |exfalso; eapply Hf; eauto].
    + apply (IH links root wd d (rel ++ [c])); auto. rewrite app_assoc. exact H.
    + apply (IH links root wd d (rel ++ [c])); auto. rewrite app_assoc. exact H.
Qed.

(** ** Opening *)

Definition path_fits (p : bytes) : Prop := Z.of_nat (length p) < 4096.

Lemma path_start : forall loc, loc <> [] -> Forall file_name loc ->
  exists c r, path_of loc = c :: r /\ beq c SLASH = false.
Proof.
  intros loc N F. destruct loc as [|x loc]; [congruence|]. inversion F as [|? ? (N1 & _ & _ & N4 & _) _]; subst.
  destruct x as [|c x]; [congruence|].
  assert (B : beq c SLASH = false) by (apply beq_neq; intros ->; apply N4; left; reflexivity).
  destruct loc; cbn [path_of app]; eauto.
Qed.

Lemma names_components : forall loc, loc <> [] -> Forall file_name loc -> components (path_of loc) = loc.
Proof.
  intros loc N F. apply components_path; auto. eapply Forall_impl; [|exact F]. intros c (_ & _ & _ & K & _). exact K.
Qed.

Lemma openat_eq : forall root readable wd name, name <> [] -> path_fits name ->
  openat root readable wd name =
  match walk MAXSYMLINKS root (if starts SLASH name then [] else wd) (components name) with
  | Opened loc n => if readable loc then Opened loc n else Failed EACCES
  | x => x
  end.
Proof.
  intros root readable wd name N F. unfold openat. destruct name as [|c name]; [congruence|].
  unfold PATH_MAX. destruct (Z.leb_spec 4096 (Z.of_nat (length (c :: name)))); [unfold path_fits in F; lia|reflexivity].
Qed.

Lemma openat_found : forall root readable wd d loc x, stored root wd d -> stored d loc x -> (forall t, x <> NLink t) ->
  loc <> [] -> Forall file_name loc -> path_fits (path_of loc) -> readable (wd ++ loc) = true ->
  openat root readable wd (path_of loc) = Opened (wd ++ loc) x.
Proof.
  intros root readable wd d loc x Hd Hs Hl N F P R. destruct (path_start loc N F) as (c & r & E & B).
  rewrite openat_eq; [|rewrite E; discriminate|auto]. rewrite names_components by auto.
  unfold starts. rewrite E, B. apply stored_iff in Hd. rewrite (walk_down loc _ root wd d x); auto. rewrite R. reflexivity.
Qed.

Lemma openat_absolute : forall root readable wd loc x, stored root loc x -> (forall t, x <> NLink t) ->
  loc <> [] -> Forall file_name loc -> path_fits ("/"%char :: path_of loc) -> readable loc = true ->
  openat root readable wd ("/"%char :: path_of loc) = Opened loc x.
Proof.
  intros root readable wd loc x Hs Hl N F P R. rewrite openat_eq; [|discriminate|auto].
  cbn [components starts]. change (beq "/"%char SLASH) with true. cbv iota. rewrite names_components by auto.
  rewrite walk_cons. cbn [node_at].
  destruct loc as [|c loc]; [congruence|]. inversion Hs as [|l a b name n loc' x' El Na St]; subst.
  change (bytes_eqb [] [] || bytes_eqb [] DOT) with true. cbv iota.
  rewrite (walk_down (c :: loc) _ _ [] _ x (eq_refl _) Hs Hl F). cbn [app]. rewrite R. reflexivity.
Qed.

Lemma openat_missing : forall root readable wd d loc l c rest, stored root wd d -> stored d loc (NDir l) ->
  Forall file_name loc -> file_name c -> ~ In c (map fst l) -> Forall file_name rest ->
  path_fits (path_of (loc ++ c :: rest)) ->
  openat root readable wd (path_of (loc ++ c :: rest)) = Failed ENOENT.
Proof.
  intros root readable wd d loc l c rest Hd Hs F Fc Ni Fr P.
  assert (N : loc ++ c :: rest <> []) by (destruct loc; discriminate).
  assert (FF : Forall file_name (loc ++ c :: rest)) by (apply Forall_app; split; auto).
  destruct (path_start _ N FF) as (x & r & E & B).
  rewrite openat_eq; [|rewrite E; discriminate|auto]. rewrite names_components by auto.
  unfold starts. rewrite E, B. apply stored_iff in Hd. rewrite (walk_missing loc _ root wd d l c rest); auto.
Qed.

Lemma openat_below : forall root readable wd d name loc n, stored root wd d -> link_free d ->
  ~ goes_up name -> ~ absolute name -> openat root readable wd name = Opened loc n ->
  exists rel, loc = wd ++ rel /\ stored d rel n /\ readable loc = true.
Proof.
  intros root readable wd d name loc n Hd Hf Hu Ha H. unfold openat in H. destruct name as [|c name]; [discriminate|].
  destruct (PATH_MAX <=? Z.of_nat (length (c :: name))); [discriminate|].
  assert (S : starts SLASH (c :: name) = false).
  { unfold starts. apply beq_neq. intros ->. apply Ha. exists name. reflexivity. }
  rewrite S in H. destruct (walk MAXSYMLINKS root wd (components (c :: name))) as [l x|e] eqn:W; [|discriminate].
  destruct (readable l) eqn:R; [|discriminate]. injection H as <- <-.
  rewrite <- (app_nil_r wd) in W. apply stored_iff in Hd.
  apply (walk_below _ _ _ wd d []) in W as (rel & E & S'); auto; [eauto|].
  intros K. apply Hu. apply components_up, K.
Qed.

(** ** The name *)

Lemma expand_one : forall ph, expand_url (lit "$1") ph true =
  match group_text (submatch_queue_get (ph_smq ph) 0) 1 with
  | G_TEXT b => SOk b ph
  | G_NONE => SNull ph
  | G_UB u => SUndef u
  end.
Proof.
  intros ph. unfold expand_url, expand_string_to_buffer. cbn -[group_text submatch_queue_get].
  destruct (group_text (submatch_queue_get (ph_smq ph) 0) 1) as [|b|u]; cbn; rewrite ?app_nil_r; reflexivity.
Qed.

Lemma acme_match : forall e ph p, match_cond e acme_cond ph = CRes 1 p -> length (smq_sm (ph_smq ph)) = SMQ_SIZE ->
  exists name, r_url (ph_req ph) = acme_prefix ++ name /\ name <> [] /\ p = with_smq ph (ph_smq p) /\
    expand_url (lit "$1") p true = SOk name p.
Proof.
  intros e ph p H L. unfold acme_cond in H. cbn [match_cond match_atom] in H. unfold exec_push, submatch_exec in H.
  unfold http_request_get_url in H. set (url := r_url (ph_req ph)) in *.
  destruct (acme_pattern url) as [g|] eqn:M; [|discriminate]. cbn [b2z Z.eqb Pos.eqb] in H. injection H as <-.
  unfold acme_pattern in M.
  destruct (bytes_eqb (firstn (length acme_prefix) url) acme_prefix && Nat.ltb (length acme_prefix) (length url)) eqn:B; [|discriminate].
  apply andb_true_iff in B as [B1 B2]. apply bytes_eqb_eq in B1. apply Nat.ltb_lt in B2.
  assert (G : g = [(0, Z.of_nat (length url)); (Z.of_nat (length acme_prefix), Z.of_nat (length url))]) by congruence. subst g. clear M.
  set (name := skipn (length acme_prefix) url).
  assert (U : url = acme_prefix ++ name) by (unfold name; rewrite <- B1 at 1; symmetry; apply firstn_skipn).
  exists name. split; [exact U|].
  assert (Nn : name <> []).
  { intros K. rewrite K, app_nil_r in U. rewrite U in B2. lia. }
  split; auto. split; [reflexivity|].
  rewrite expand_one. unfold with_smq. cbn [ph_smq].
  pose proof (pushed_top (ph_smq ph) (mkSm (Some url) [(0, Z.of_nat (length url)); (Z.of_nat (length acme_prefix), Z.of_nat (length url))]) L) as T.
  unfold pushed in T. rewrite T.
  unfold group_text. cbn [sm_subject sm_matchv length]. change (1 <=? Z.of_nat 2) with true. cbv iota.
  change (Z.to_nat 1) with 1%nat. cbn [nth_error].
  destruct (Z.eqb_spec (Z.of_nat (length acme_prefix)) (Z.of_nat (length url))); [lia|].
  replace ((0 <=? Z.of_nat (length acme_prefix)) && (Z.of_nat (length acme_prefix) <=? Z.of_nat (length url))
           && (Z.of_nat (length url) <=? Z.of_nat (length url))) with true by (symmetry; lia).
  rewrite Nat2Z.id. fold name. f_equal. rewrite firstn_all2; [reflexivity|]. unfold name. rewrite skipn_length. lia.
Qed.

(** ** The reply *)

Lemma send_found : forall v loc content st, v = 0 \/ v = 1 -> Z.of_nat (length content) <= max_length -> all_ok (c_wr st) ->
  exists msg fs st', send_file v (Opened loc (NFile content)) st = (HTTP_STATUS_OK, st') /\ c_out st' = c_out st ++ msg /\
    message false msg v 200 fs content.
Proof.
  intros v loc content st Hv L W. unfold send_file. cbn [st_size contents].
  set (start := reply_start v 200 (lit "OK") None (lit "text/html") (Z.of_nat (length content))).
  destruct (put_all_ok start st W) as (w1 & W1 & E1). rewrite E1. cbv zeta. cbn [c_src c_plan c_wr c_out c_cnt].
  destruct (copy_bin_ok false content [] [] w1 (c_out st ++ concat start) (c_cnt st) W1) as (p2 & w2 & W2 & E2).
  rewrite app_nil_r in E2. rewrite E2. cbn [c_wr c_out emit].
  destruct (put_all_ok [[]] (mkC (c_src st) (c_plan st) w2 ((c_out st ++ concat start) ++ content) (c_cnt st)) W2) as (w3 & _ & E3).
  rewrite E3. cbn [concat app c_out c_src c_plan c_cnt]. rewrite app_nil_r.
  pose proof (reply_message v 200 (lit "OK") None (lit "text/html") content [] Hv ltac:(vm_compute; tauto)
    ltac:(apply one_line_b; reflexivity) eq_refl html_fair ltac:(constructor) eq_refl eq_refl L) as M.
  unfold http_reply in M. fold start in M. rewrite concat_app in M. cbn [concat] in M. rewrite !app_nil_r in M.
  eexists _, _, _. split; [reflexivity|]. split; [|exact M]. cbn [c_out]. rewrite <- app_assoc. reflexivity.
Qed.

Lemma send_directory : forall v loc l st, v = 0 \/ v = 1 -> all_ok (c_wr st) ->
  exists head fs st', send_file v (Opened loc (NDir l)) st = (HTTP_STATUS_INTERNAL_SERVER_ERROR, st') /\
    c_out st' = c_out st ++ head /\ message true head v 200 fs [] /\ all_ok (c_wr st').
Proof.
  intros v loc l st Hv W. unfold send_file. cbn [st_size contents].
  set (start := reply_start v 200 (lit "OK") None (lit "text/html") 4096).
  destruct (put_all_ok start st W) as (w1 & W1 & E1). rewrite E1. cbv zeta. cbn [c_src c_plan c_wr c_out c_cnt].
  replace (copy_bin 4096 false (mkC [RErr] [] w1 (c_out st ++ concat start) (c_cnt st)))
    with (Some (COPY_READ_ERR, mkC [] [] w1 (c_out st ++ concat start) (c_cnt st))) by reflexivity.
  cbn [c_wr c_out].
  destruct (put_all_ok [[]] (mkC (c_src st) (c_plan st) w1 (c_out st ++ concat start) (c_cnt st)) W1) as (w3 & W3 & E3).
  rewrite E3. cbn [concat app c_out c_src c_plan c_cnt]. rewrite app_nil_r.
  set (big := repeat "a"%char 4096).
  destruct (reply_head v 200 (lit "OK") None (lit "text/html") big [] Hv ltac:(vm_compute; tauto)
    ltac:(apply one_line_b; reflexivity) eq_refl html_fair ltac:(constructor)) as (head & H1 & H2).
  unfold http_reply in H1. rewrite concat_app in H1. cbn [concat] in H1. rewrite !app_nil_r in H1. apply app_inv_tail in H1.
  replace (Z.of_nat (length big)) with 4096 in H1 by (unfold big; rewrite repeat_length; reflexivity).
  fold start in H1. rewrite H1.
  eexists _, _, _. split; [reflexivity|]. split; [reflexivity|]. split; [exact H2|exact W3].
Qed.

(** ** The whole *)

Section Acme.
  Variables (e : env) (root : node) (readable : list bytes -> bool) (wd : list bytes) (d : node).
  Hypothesis Hwd : stored root wd d.

  Lemma acme_no_rules : forall ph p v st, match_cond e acme_cond ph = CRes 1 p -> length (smq_sm (ph_smq ph)) = SMQ_SIZE ->
    exists name, r_url (ph_req ph) = acme_prefix ++ name /\
      acme_response e [] [] root readable wd v p st =
      let '(s, st) := send_file v (openat root readable wd name) st in LRes s st.
  Proof.
    intros ph p v st H L. destruct (acme_match e ph p H L) as (name & U & N & _ & X). exists name. split; auto.
    unfold acme_response. cbn [rewrite_apply]. cbn [Z.eqb negb]. rewrite X. reflexivity.
  Qed.

  Lemma acme_name : forall ph p v st name, match_cond e acme_cond ph = CRes 1 p -> length (smq_sm (ph_smq ph)) = SMQ_SIZE ->
    r_url (ph_req ph) = acme_prefix ++ name ->
    acme_response e [] [] root readable wd v p st =
      let '(s, st) := send_file v (openat root readable wd name) st in LRes s st.
  Proof.
    intros ph p v st name H L U. destruct (acme_no_rules ph p v st H L) as (name' & U' & E). rewrite E.
    rewrite U in U'. apply app_inv_head in U' as ->. reflexivity.
  Qed.

  Lemma acme_selects : forall ph, (exists p, match_cond e acme_cond ph = CRes 1 p) <->
    exists name, r_url (ph_req ph) = acme_prefix ++ name /\ name <> [].
  Proof.
    intros ph. unfold acme_cond. cbn [match_cond match_atom]. unfold exec_push, submatch_exec, http_request_get_url, acme_pattern.
    set (url := r_url (ph_req ph)). split.
    - intros (p & H). destruct (bytes_eqb (firstn (length acme_prefix) url) acme_prefix && Nat.ltb (length acme_prefix) (length url)) eqn:B; [|discriminate].
      apply andb_true_iff in B as [B1 B2]. apply bytes_eqb_eq in B1. apply Nat.ltb_lt in B2.
      exists (skipn (length acme_prefix) url). split; [rewrite <- B1 at 1; symmetry; apply firstn_skipn|].
      intros K. apply (f_equal (@length _)) in K. rewrite skipn_length in K. cbn [length] in K. lia.
    - intros (name & U & N). rewrite U. rewrite firstn_app, Nat.sub_diag, firstn_all. cbn [firstn]. rewrite app_nil_r.
      rewrite (proj2 (bytes_eqb_eq acme_prefix acme_prefix) eq_refl).
      destruct (Nat.ltb_spec (length acme_prefix) (length (acme_prefix ++ name))) as [K|K];
        [|rewrite app_length in K; destruct name; [congruence|cbn [length] in K; lia]].
      cbn [andb b2z Z.eqb Pos.eqb]. eauto.
  Qed.

  Lemma acme_file : forall ph p v st loc content, v = 0 \/ v = 1 -> all_ok (c_wr st) ->
    match_cond e acme_cond ph = CRes 1 p -> length (smq_sm (ph_smq ph)) = SMQ_SIZE ->
    r_url (ph_req ph) = acme_prefix ++ path_of loc ->
    stored d loc (NFile content) -> loc <> [] -> Forall file_name loc -> path_fits (path_of loc) ->
    readable (wd ++ loc) = true -> Z.of_nat (length content) <= max_length ->
    exists msg fs st', acme_response e [] [] root readable wd v p st = LRes HTTP_STATUS_OK st' /\
      c_out st' = c_out st ++ msg /\ message false msg v 200 fs content.
  Proof.
    intros ph p v st loc content Hv W M L U S N F P R Z. rewrite (acme_name ph p v st _ M L U).
    rewrite (openat_found root readable wd d loc (NFile content)); auto; [|discriminate].
    destruct (send_found v (wd ++ loc) content st Hv Z W) as (msg & fs & st' & E & O & Ms). rewrite E. eauto 8.
  Qed.

  Lemma acme_absolute : forall ph p v st loc content, v = 0 \/ v = 1 -> all_ok (c_wr st) ->
    match_cond e acme_cond ph = CRes 1 p -> length (smq_sm (ph_smq ph)) = SMQ_SIZE ->
    r_url (ph_req ph) = acme_prefix ++ "/"%char :: path_of loc ->
    stored root loc (NFile content) -> loc <> [] -> Forall file_name loc -> path_fits ("/"%char :: path_of loc) ->
    readable loc = true -> Z.of_nat (length content) <= max_length ->
    exists msg fs st', acme_response e [] [] root readable wd v p st = LRes HTTP_STATUS_OK st' /\
      c_out st' = c_out st ++ msg /\ message false msg v 200 fs content.
  Proof.
    intros ph p v st loc content Hv W M L U S N F P R Z. rewrite (acme_name ph p v st _ M L U).
    rewrite (openat_absolute root readable wd loc (NFile content)); auto; [|discriminate].
    destruct (send_found v loc content st Hv Z W) as (msg & fs & st' & E & O & Ms). rewrite E. eauto 8.
  Qed.

  Lemma acme_none : forall ph p v st pages loc l c rest, v = 0 \/ v = 1 -> all_ok (c_wr st) ->
    match_cond e acme_cond ph = CRes 1 p -> length (smq_sm (ph_smq ph)) = SMQ_SIZE ->
    r_url (ph_req ph) = acme_prefix ++ path_of (loc ++ c :: rest) ->
    stored d loc (NDir l) -> ~ In c (map fst l) -> Forall file_name (loc ++ c :: rest) -> path_fits (path_of (loc ++ c :: rest)) ->
    (forall p, pages HTTP_STATUS_NOT_FOUND = Some p -> Z.of_nat (length p) <= max_length) ->
    exists s st' msg fs page, acme_response e [] [] root readable wd v p st = LRes s st' /\
      finish_local v pages (s, st') = (true, http_err_reply v s pages st') /\
      c_out (http_err_reply v s pages st') = c_out st ++ msg /\ message false msg v 404 fs page.
  Proof.
    intros ph p v st pages loc l c rest Hv W M L U S Ni F P Z. rewrite (acme_name ph p v st _ M L U).
    apply Forall_app in F as [F1 F2]. inversion F2; subst.
    rewrite (openat_missing root readable wd d loc l c rest); auto.
    cbn [send_file]. exists HTTP_STATUS_NOT_FOUND, st.
    destruct (error_reply_message v 404 "Not Found" pages st Hv) as (msg & fs & E & Ms & _); auto.
    - unfold phrases. cbn [In]. tauto.
    - change (http_status_to_pound 404) with HTTP_STATUS_NOT_FOUND.
      destruct (pages HTTP_STATUS_NOT_FOUND) as [pg|] eqn:Pg; [auto|vm_compute; discriminate].
    - change (http_status_to_pound 404) with HTTP_STATUS_NOT_FOUND in E, Ms. eexists _, _, _. split; [reflexivity|]. split; [reflexivity|].
      split; [exact E|exact Ms].
  Qed.

  Lemma acme_confined : forall ph p v st name s st', v = 0 \/ v = 1 -> all_ok (c_wr st) -> link_free d ->
    match_cond e acme_cond ph = CRes 1 p -> length (smq_sm (ph_smq ph)) = SMQ_SIZE ->
    r_url (ph_req ph) = acme_prefix ++ name -> ~ goes_up name -> ~ absolute name ->
    (forall loc c, stored d loc (NFile c) -> Z.of_nat (length c) <= max_length) ->
    acme_response e [] [] root readable wd v p st = LRes s st' ->
    (exists loc content msg fs, s = HTTP_STATUS_OK /\ stored d loc (NFile content) /\ readable (wd ++ loc) = true /\
       c_out st' = c_out st ++ msg /\ message false msg v 200 fs content) \/
    (s <> HTTP_STATUS_OK /\ (c_out st' = c_out st \/ exists head fs, c_out st' = c_out st ++ head /\ message true head v 200 fs [])).
  Proof.
    intros ph p v st name s st' Hv W LF M L U Up Ab Z H. rewrite (acme_name ph p v st _ M L U) in H.
    destruct (openat root readable wd name) as [loc n|er] eqn:O.
    - apply (openat_below root readable wd d) in O as (rel & -> & S & R); auto. destruct n as [c|l|t].
      + left. destruct (send_found v (wd ++ rel) c st Hv (Z _ _ S) W) as (msg & fs & st2 & E & O & Ms).
        rewrite E in H. injection H as <- <-. exists rel, c, msg, fs. auto.
      + right. destruct (send_directory v (wd ++ rel) l st Hv W) as (h & fs & st2 & E & O & Ms & _).
        rewrite E in H. injection H as <- <-. split; [discriminate|]. right. eauto.
      + exfalso. eapply LF; eauto.
    - right. destruct er; injection H as <- <-; (split; [discriminate|left; reflexivity]).
  Qed.

  Lemma acme_directory : forall ph p v st pages loc l, v = 0 \/ v = 1 -> all_ok (c_wr st) ->
    match_cond e acme_cond ph = CRes 1 p -> length (smq_sm (ph_smq ph)) = SMQ_SIZE ->
    r_url (ph_req ph) = acme_prefix ++ path_of loc ->
    stored d loc (NDir l) -> loc <> [] -> Forall file_name loc -> path_fits (path_of loc) -> readable (wd ++ loc) = true ->
    (forall p, pages HTTP_STATUS_INTERNAL_SERVER_ERROR = Some p -> Z.of_nat (length p) <= max_length) ->
    exists s st' head fs msg fs' page, acme_response e [] [] root readable wd v p st = LRes s st' /\
      c_out (snd (finish_local v pages (s, st'))) = c_out st ++ head ++ msg /\
      message true head v 200 fs [] /\ message false msg v 500 fs' page.
  Proof.
    intros ph p v st pages loc l Hv W M L U S N F P R Z. rewrite (acme_name ph p v st _ M L U).
    rewrite (openat_found root readable wd d loc (NDir l)); auto; [|discriminate].
    destruct (send_directory v (wd ++ loc) l st Hv W) as (h & fs & st2 & E & O & Ms & W2). rewrite E.
    destruct (error_reply_message v 500 "Internal Server Error" pages st2 Hv) as (msg & fs2 & E2 & Ms2 & _); auto.
    - unfold phrases. cbn [In]. tauto.
    - change (http_status_to_pound 500) with HTTP_STATUS_INTERNAL_SERVER_ERROR.
      destruct (pages HTTP_STATUS_INTERNAL_SERVER_ERROR) as [pg|] eqn:Pg; [auto|vm_compute; discriminate].
    - change (http_status_to_pound 500) with HTTP_STATUS_INTERNAL_SERVER_ERROR in E2, Ms2.
      exists HTTP_STATUS_INTERNAL_SERVER_ERROR, st2, h, fs, msg, fs2. eexists. split; [reflexivity|].
      split; [|split; [exact Ms|exact Ms2]]. cbn [finish_local]. change (HTTP_STATUS_INTERNAL_SERVER_ERROR =? HTTP_STATUS_OK) with false.
      cbv iota. cbn [snd]. rewrite E2, O, <- app_assoc. reflexivity.
  Qed.

  Lemma acme_rule : forall re ops v p st, length (smq_sm (ph_smq p)) = SMQ_SIZE ->
    re (r_url (ph_req p)) = None ->
    acme_response e [RRule (COND_URL re) ops None] [] root readable wd v p st = LRes HTTP_STATUS_INTERNAL_SERVER_ERROR st.
  Proof.
    intros re ops v p st L R. unfold acme_response. cbn [rewrite_apply rewrite_rule_check match_cond match_atom].
    unfold exec_push, submatch_exec, http_request_get_url. rewrite R. cbn [b2z Z.eqb negb]. rewrite expand_one.
    unfold with_smq. cbn [ph_smq]. pose proof (pushed_top (ph_smq p) sm_empty L) as T. unfold pushed in T. rewrite T. reflexivity.
  Qed.
End Acme.
