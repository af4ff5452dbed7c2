From Coq Require Import Ascii String List ZArith Bool Arith Lia ZifyBool ZifyNat.
From Verif Require Import Bytes TokSpec TokProofs ReqModel ReqSpec HdrProofs UrlModel UrlSpec JobModel SessModel KeyModel KeySpec.
Import ListNotations.
Local Open Scope nat_scope.
Local Arguments firstn : simpl never.

Lemma cut_key : forall s, firstn KEY_SIZE s = cut s.
Proof. reflexivity. Qed.

Lemma ci_same : forall a b, ci_eqb a b = true <-> same_letters a b.
Proof. intros. unfold ci_eqb, lower, same_letters. apply bytes_eqb_eq. Qed.

Lemma sptab_spec : forall c, sptab c = true <-> (c = " "%char \/ c = "009"%char).
Proof. intros c. unfold sptab. rewrite orb_true_iff, !beq_eq. reflexivity. Qed.
Lemma sptab_false : forall c, sptab c = false <-> (c <> " "%char /\ c <> "009"%char).
Proof. intros c. unfold sptab. rewrite orb_false_iff, !beq_neq. reflexivity. Qed.

Lemma same_length : forall a b, same_letters a b -> length a = length b.
Proof. unfold same_letters. intros a b H. apply (f_equal (@length _)) in H. rewrite !map_length in H. exact H. Qed.

Lemma cookie_strip : forall name p v b q, Forall (fun c => c = " "%char \/ c = "009"%char) b ->
  (forall c u, q = c :: u -> c <> " "%char /\ c <> "009"%char) -> p = b ++ q ->
  (cookie name p v <-> exists n, q = n ++ "="%char :: v /\ same_letters n name).
Proof.
  intros name p v b q Fb Hq E. split.
  - intros (b' & n & E' & S & Fb' & H'). exists n. split; [|exact S].
    assert (X : span sptab p = (b, q)).
    { rewrite E. apply span_unique.
      - apply forallb_forall. intros c I. apply sptab_spec. rewrite Forall_forall in Fb. auto.
      - destruct q; auto. apply sptab_false. eapply Hq. reflexivity. }
    assert (Y : span sptab p = (b', n ++ "="%char :: v)).
    { rewrite E'. apply span_unique.
      - apply forallb_forall. intros c I. apply sptab_spec. rewrite Forall_forall in Fb'. auto.
      - destruct (n ++ "="%char :: v) eqn:Z; auto. apply sptab_false. eapply H'. reflexivity. }
    congruence.
  - intros (n & Eq & S). exists b, n. subst. auto.
Qed.

Lemma span_blank : forall s, exists b q, s = b ++ q /\ snd (span sptab s) = q /\
  Forall (fun c => c = " "%char \/ c = "009"%char) b /\
  (forall c u, q = c :: u -> c <> " "%char /\ c <> "009"%char).
Proof.
  intros s. exists (fst (span sptab s)), (snd (span sptab s)). split; [symmetry; apply span_app|]. split; auto. split.
  - apply Forall_forall. intros c I. apply sptab_spec.
    assert (H := span_fst_all sptab s). rewrite forallb_forall in H. auto.
  - intros c u E. apply sptab_false. eapply span_snd_head. exact E.
Qed.

Definition semi (c : byte) : bool := negb (beq c SEMI).
Lemma semi_in : forall s, forallb semi s = true <-> ~ In ";"%char s.
Proof.
  intros s. rewrite forallb_forall. unfold semi. split.
  - intros H I. apply H in I. discriminate.
  - intros H c I. apply negb_true_iff, beq_neq. intros ->. auto.
Qed.

Lemma item_test : forall q item rest name, span semi q = (item, rest) ->
  (Nat.ltb (length name) (length item)
   && match nth_error q (length name) with Some c => beq c EQS | None => false end
   && ci_eqb (firstn (length name) q) name = true <->
   exists n v, item = n ++ "="%char :: v /\ same_letters n name) /\
  (forall n v, item = n ++ "="%char :: v -> same_letters n name ->
   firstn (Nat.min (length item - (length name + 1)) KEY_SIZE) (skipn (length name + 1) q) = cut v).
Proof.
  intros q item rest name E.
  assert (A : q = item ++ rest) by (rewrite <- (span_app semi q), E; auto).
  split.
  - rewrite !andb_true_iff, ci_same, Nat.ltb_lt. split.
    + intros [[L N] C]. exists (firstn (length name) item), (skipn (length name + 1) item).
      rewrite A, firstn_app in C. replace (length name - length item) with O in C by lia.
      rewrite firstn_O, app_nil_r in C. split; [|exact C].
      rewrite A, nth_error_app1 in N by lia.
      destruct (nth_error item (length name)) as [c|] eqn:Ec; [|discriminate].
      apply beq_eq in N. subst c. apply nth_error_split in Ec. destruct Ec as (l1 & l2 & -> & <-).
      rewrite firstn_app, Nat.sub_diag, firstn_O, firstn_all, app_nil_r.
      rewrite skipn_app, skipn_all2 by lia. replace (length l1 + 1 - length l1) with 1 by lia. reflexivity.
    + intros (n & v & -> & S). assert (L := same_length _ _ S). rewrite app_length. cbn. rewrite A, <- app_assoc.
      rewrite nth_error_app2 by lia. replace (length name - length n) with O by lia. cbn. split; [split; [lia|reflexivity]|].
      rewrite firstn_app, <- L, firstn_all, Nat.sub_diag, firstn_O, app_nil_r. exact S.
  - intros n v -> SL. assert (L := same_length _ _ SL). rewrite A, app_length, <- app_assoc, <- L. cbn [length app].
    rewrite skipn_app, skipn_all2 by lia. replace (length n + 1 - length n) with 1 by lia. cbn [skipn app].
    replace (length n + S (length v) - (length n + 1)) with (length v) by lia.
    unfold cut. change KEY_SIZE with 127. rewrite firstn_app.
    destruct (Nat.min_dec (length v) 127) as [M|M]; rewrite M.
    + rewrite Nat.sub_diag, firstn_O, app_nil_r, firstn_all. rewrite firstn_all2; auto. lia.
    + replace (127 - length v) with O by lia. rewrite firstn_O, app_nil_r. auto.
Qed.

(* pieces are unique and exist *)
Lemma pieces_head : forall s l, pieces s l -> exists p t, l = p :: t /\ ~ In ";"%char p /\
  ((s = p /\ t = []) \/ exists r, s = p ++ ";"%char :: r /\ pieces r t).
Proof.
  intros s l H. inversion H; subst.
  - exists s, []. auto.
  - exists s0, l0. split; auto. split; auto. right. eauto.
Qed.

Lemma pieces_exist : forall r, exists t, pieces r t.
Proof.
  assert (G : forall n r, length r <= n -> exists t, pieces r t).
  { induction n as [|n IHn]; intros r L.
    - destruct r; [|cbn in L; lia]. exists [[]]. constructor. auto.
    - destruct (span semi r) as [x y] eqn:E.
      assert (A : r = x ++ y) by (rewrite <- (span_app semi r), E; auto).
      assert (N : ~ In ";"%char x) by (apply semi_in; assert (Z := span_fst_all semi r); rewrite E in Z; exact Z).
      destruct y as [|c y].
      + rewrite app_nil_r in A. subst x. exists [r]. constructor; auto.
      + assert (Z := span_snd_head semi r c y). rewrite E in Z. specialize (Z eq_refl). apply negb_false_iff, beq_eq in Z. subst c.
        destruct (IHn y) as (t & P); [rewrite A, app_length in L; cbn in L; lia|].
        exists (x :: t). rewrite A. constructor; auto. }
  intros r. apply (G (length r)). lia.
Qed.

Lemma cookie_loop : forall fuel s name k, length s < fuel ->
  (key_cookie_loop fuel s name = Some k <-> exists v, first_cookie name s v /\ k = cut v).
Proof.
  induction fuel as [|fuel IH]; intros s name k L; [lia|]. cbn [key_cookie_loop].
  destruct (span_blank s) as (b & q & Es & Eq & Fb & Hq). rewrite Eq. clear Eq.
  destruct (span (fun c => negb (beq c SEMI)) q) as [item rest] eqn:Esp. change (span semi q = (item, rest)) in Esp.
  assert (A : q = item ++ rest) by (rewrite <- (span_app semi q), Esp; auto).
  assert (NI : ~ In ";"%char item).
  { apply semi_in. assert (X := span_fst_all semi q). rewrite Esp in X. exact X. }
  assert (Nb : ~ In ";"%char b).
  { intro I. rewrite Forall_forall in Fb. apply Fb in I. destruct I; discriminate. }
  assert (Npi : ~ In ";"%char (b ++ item)) by (intro I; apply in_app_or in I; tauto).
  assert (Hqi : forall c u, item = c :: u -> c <> " "%char /\ c <> "009"%char).
  { intros c u E. apply (Hq c (u ++ rest)). rewrite A, E. reflexivity. }
  destruct (item_test q item rest name Esp) as [T1 T2].
  assert (HC : forall v, cookie name (b ++ item) v <-> exists n, item = n ++ "="%char :: v /\ same_letters n name)
    by (intros v; apply (cookie_strip name _ v b item); auto).
  (* what the pieces of s are *)
  assert (PS : forall l, pieces s l -> exists t, l = (b ++ item) :: t /\
     ((rest = [] /\ t = []) \/ exists r, rest = ";"%char :: r /\ pieces r t)).
  { intros l P. destruct (pieces_head s l P) as (p & t & -> & Np & H).
    assert (Esp' : span semi s = (b ++ item, rest)).
    { rewrite Es, A, app_assoc. apply span_unique; [apply semi_in; auto|].
      destruct rest as [|c r]; auto. eapply span_snd_head. rewrite Esp. reflexivity. }
    exists t. destruct H as [[H ->]|(r & H & H2)].
    - assert (Esp2 : span semi s = (p, [])).
      { rewrite H. replace p with (p ++ []) at 1 by apply app_nil_r. apply span_unique; auto. apply semi_in; auto. }
      rewrite Esp' in Esp2. injection Esp2 as -> ->. auto.
    - assert (Esp2 : span semi s = (p, ";"%char :: r)).
      { rewrite H. apply span_unique; auto. apply semi_in; auto. }
      rewrite Esp' in Esp2. injection Esp2 as -> ->. split; eauto. }
  assert (PE : rest = [] -> pieces s [b ++ item]).
  { intros ->. rewrite app_nil_r in A. subst q. rewrite Es. constructor; auto. }
  assert (PC : forall r t, rest = ";"%char :: r -> pieces r t -> pieces s ((b ++ item) :: t)).
  { intros r t -> P. rewrite Es, A, app_assoc. constructor; auto. }
  assert (RS : rest = [] \/ exists r, rest = ";"%char :: r).
  { destruct rest as [|c r]; auto. right. exists r. f_equal.
    assert (X := span_snd_head semi q c r). rewrite Esp in X. specialize (X eq_refl). unfold semi in X.
    apply negb_false_iff, beq_eq in X. auto. }
  assert (NOC : (forall w, ~ cookie name (b ++ item) w) ->
    ((exists v, first_cookie name s v /\ k = cut v) <-> exists r, rest = ";"%char :: r /\ exists v, first_cookie name r v /\ k = cut v)).
  { intros NC. split.
    - intros (v & (l & a & p & c & P & E & C & F) & ->). destruct (PS l P) as (t & -> & H).
      destruct a as [|x a]; cbn in E; injection E as E1 E2; [subst p; destruct (NC v C)|]. subst x.
      destruct H as [[_ ->]|(r & -> & P2)]; [destruct a; discriminate|].
      exists r. split; auto. exists v. split; auto. exists t, a, p, c. inversion F; subst. auto.
    - intros (r & Er & v & (l & a & p & c & P & E & C & F) & ->). exists v. split; auto.
      exists ((b ++ item) :: l), ((b ++ item) :: a), p, c. split; [eauto|]. split; [cbn; congruence|]. split; auto. }
  destruct s as [|s0 s'] eqn:Es0.
  { split; [discriminate|]. intros H. exfalso. destruct b; [|discriminate]. destruct q; [|discriminate]. destruct item; [|discriminate].
    apply NOC in H.
    - destruct H as (r & -> & _). discriminate.
    - intros w C. apply HC in C. destruct C as (n & E & _). destruct n; discriminate. }
  rewrite <- Es0 in *.
  destruct q as [|q0 q'] eqn:Eq0.
  { split; [discriminate|]. intros H. exfalso. cbn in Esp. injection Esp as <- <-. apply NOC in H.
    - destruct H as (r & H & _). discriminate.
    - intros w C. apply HC in C. destruct C as (n & E & _). destruct n; discriminate. }
  rewrite <- Eq0 in *. change (span (fun c => negb (beq c SEMI)) q) with (span semi q). rewrite Esp. destruct (_ && _) eqn:T.
  - destruct (proj1 T1 eq_refl) as (n & v & E & S). rewrite (T2 n v E S). split.
    + intros H. injection H as <-. exists v. split; auto.
      destruct RS as [R|(r & R)].
      * exists [b ++ item], [], (b ++ item), []. split; auto. split; auto. split; [|constructor]. apply HC. eauto.
      * assert (X : exists t, pieces r t).
        { apply pieces_exist. }
        destruct X as (t & P). exists ((b ++ item) :: t), [], (b ++ item), t. split; [eauto|]. split; auto. split; [|constructor]. apply HC. eauto.
    + intros (v' & (l & a & p & c & P & E' & C & F) & ->). destruct (PS l P) as (t & -> & _).
      destruct a as [|x a]; cbn in E'; injection E' as E1 E2.
      * subst p. apply HC in C. destruct C as (n' & En & S').
        assert (n = n' /\ v = v') as [_ ->]; auto.
        { rewrite E in En. assert (L1 := same_length _ _ S). assert (L2 := same_length _ _ S').
          assert (X := f_equal (firstn (length n)) En). assert (Y := f_equal (skipn (length n + 1)) En).
          rewrite !firstn_app, firstn_all, Nat.sub_diag, firstn_O, app_nil_r in X. rewrite L1, <- L2, firstn_all, Nat.sub_diag, firstn_O, app_nil_r in X.
          split; auto. subst n'. rewrite !skipn_app, !skipn_all2 in Y by lia. replace (length n + 1 - length n) with 1 in Y by lia. exact Y. }
      * subst x. inversion F; subst. exfalso. apply (H1 v). apply HC. eauto.
  - assert (NC : forall w, ~ cookie name (b ++ item) w).
    { intros w C. apply HC in C. destruct C as (n & E & S). assert (false = true); [|discriminate]. apply T1. eauto. }
    rewrite (NOC NC). destruct RS as [->|(r & ->)].
    + split; [discriminate|]. intros (r & H & _). discriminate.
    + rewrite IH.
      * split; [intros H; exists r; auto|]. intros (r' & E & H). injection E as ->. exact H.
      * rewrite Es, A, !app_length in L. cbn in L. lia.
Qed.
Lemma key_cookie_spec : forall s name k, key_cookie s name = Some k <-> exists v, first_cookie name s v /\ k = cut v.
Proof. intros. apply cookie_loop. lia. Qed.

Lemma basic_spec : forall s k, key_authbasic s = Some k <-> exists c, basic_credentials s c /\ k = cut c.
Proof.
  intros s k. unfold key_authbasic. split.
  - destruct (ci_eqb (firstn 5 s) (lit "Basic")) eqn:E; [|discriminate].
    destruct (skipn 5 s) as [|w rest] eqn:Es; [discriminate|]. destruct (is_space w) eqn:W; [|discriminate].
    intros H. injection H as <-. exists (snd (span is_space rest)). split; [|reflexivity].
    exists (firstn 5 s), (w :: fst (span is_space rest)). split; [|split; [|split; [discriminate|split]]].
    + rewrite <- app_comm_cons, span_app, <- Es. symmetry. apply firstn_skipn.
    + apply ci_same. exact E.
    + constructor; [apply is_space_white; auto|]. apply Forall_forall. intros x I. apply is_space_white.
      assert (F := span_fst_all is_space rest). rewrite forallb_forall in F. auto.
    + intros x u X. apply is_space_not_white. eapply span_snd_head. exact X.
  - intros (c & (sc & w & -> & S & NE & F & H) & ->). assert (L := same_length _ _ S). cbn in L.
    rewrite firstn_app, firstn_all2, L, Nat.sub_diag, firstn_O, app_nil_r by lia.
    rewrite (proj2 (ci_same sc (lit "Basic")) S). rewrite skipn_app, skipn_all2, L, Nat.sub_diag by lia. cbn [skipn app].
    destruct w as [|x w]; [congruence|]. cbn [app]. inversion F; subst.
    rewrite (proj2 (is_space_white x) H2). rewrite span_unique; [reflexivity| |].
    + apply forallb_forall. intros y I. apply is_space_white. rewrite Forall_forall in H3. auto.
    + destruct c as [|y c]; auto. apply is_space_not_white. eapply H. reflexivity.
Qed.

Lemma locate_value : forall hs name h, http_header_list_locate_name hs name = Some h ->
  field_value (hfields hs) name (h_val h).
Proof.
  intros hs name h E. destruct (first_exists name (hfields hs)) as [X Y].
  destruct Y as [Y|Y].
  - destruct (X Y) as (a & f & b & F). destruct (first_split hs name a f b F) as (ha & h' & hb & _ & _ & Ef & _ & _ & El).
    assert (h' = h) by congruence. subst h'. exists a, (h_name h), b. unfold hfield in Ef. rewrite Ef. exact F.
  - apply locate_none in Y. congruence.
Qed.
Lemma value_unique : forall fs name v v', field_value fs name v -> field_value fs name v' -> v = v'.
Proof.
  intros fs name v v' (a & n & b & (E & N & F)) (a' & n' & b' & (E' & N' & F')).
  rewrite E in E'. clear E. revert a' E' F'. induction a as [|x a IH]; intros a' E' F'.
  - destruct a' as [|y a']; cbn in E'; injection E' as E1 E2; [congruence|]. subst y. inversion F'; subst. contradiction.
  - destruct a' as [|y a']; cbn in E'; injection E' as E1 E2.
    + subst x. inversion F; subst. contradiction.
    + inversion F; inversion F'; subst. eapply IH; eauto.
Qed.
Lemma locate_some : forall hs name v, field_value (hfields hs) name v ->
  exists h, http_header_list_locate_name hs name = Some h /\ h_val h = v.
Proof.
  intros hs name v V. destruct (http_header_list_locate_name hs name) as [h|] eqn:E.
  - exists h. split; auto. eapply value_unique; [apply locate_value; exact E|exact V].
  - apply locate_none in E. destruct V as (a & n & b & (Ef & N & _)). rewrite Ef in E.
    apply Forall_app in E. destruct E as [_ E]. inversion E; subst. contradiction.
Qed.

Lemma header_key : forall hs name k, find_key_by_header hs name None = Some k <->
  exists v, field_value (hfields hs) name v /\ k = cut v.
Proof.
  intros hs name k. unfold find_key_by_header. split.
  - destruct (http_header_list_locate_name hs name) as [h|] eqn:E; [|discriminate]. intros H. injection H as <-.
    exists (h_val h). split; [apply locate_value; auto|reflexivity].
  - intros (v & V & ->). destruct (locate_some hs name v V) as (h & -> & <-). reflexivity.
Qed.
Lemma header_keyf : forall hs name f k, find_key_by_header hs name (Some f) = Some k <->
  exists v, field_value (hfields hs) name v /\ f v = Some k.
Proof.
  intros hs name f k. unfold find_key_by_header. split.
  - destruct (http_header_list_locate_name hs name) as [h|] eqn:E; [|discriminate]. intros H.
    exists (h_val h). split; [apply locate_value; auto|exact H].
  - intros (v & V & H). destruct (locate_some hs name v V) as (h & -> & <-). exact H.
Qed.
Lemma cookie_key : forall hs sid k, find_key_by_header hs (lit "Cookie") (Some (fun v => key_cookie v sid)) = Some k <->
  exists s v, field_value (hfields hs) (lit "Cookie") s /\ first_cookie sid s v /\ k = cut v.
Proof.
  intros hs sid k. rewrite header_keyf. split.
  - intros (s & V & H). apply key_cookie_spec in H. destruct H as (v & C & ->). eauto.
  - intros (s & v & V & C & ->). exists s. split; auto. apply key_cookie_spec. eauto.
Qed.
Lemma basic_key : forall hs k, find_key_by_header hs (lit "Authorization") (Some key_authbasic) = Some k <->
  exists s v, field_value (hfields hs) (lit "Authorization") s /\ basic_credentials s v /\ k = cut v.
Proof.
  intros hs k. rewrite header_keyf. split.
  - intros (s & V & H). apply basic_spec in H. destruct H as (v & C & ->). eauto.
  - intros (s & v & V & C & ->). exists s. split; auto. apply basic_spec. eauto.
Qed.

Lemma after_last_spec : forall s v, after_last SEMI s = Some v <-> last_piece s v.
Proof.
  intros s v. unfold after_last, last_piece. destruct (span _ (rev s)) as [r l] eqn:E. change (span semi (rev s) = (r, l)) in E.
  assert (A : rev s = r ++ l) by (rewrite <- (span_app semi (rev s)), E; auto).
  assert (N : ~ In ";"%char r) by (apply semi_in; assert (X := span_fst_all semi (rev s)); rewrite E in X; exact X).
  assert (S : s = rev l ++ rev r) by (rewrite <- (rev_involutive s), A, rev_app_distr; auto).
  split.
  - destruct l as [|c l]; [discriminate|]. intros H. injection H as <-.
    assert (Z := span_snd_head semi (rev s) c l). rewrite E in Z. specialize (Z eq_refl). apply negb_false_iff, beq_eq in Z. subst c.
    exists (rev l). split; [rewrite S; cbn; rewrite <- app_assoc; reflexivity|]. intro I. apply in_rev in I. auto.
  - intros (p & Ep & Nv). assert (X : span semi (rev s) = (rev v, ";"%char :: rev p)).
    { rewrite Ep, rev_app_distr. cbn. rewrite <- app_assoc. apply span_unique; auto. apply semi_in. intro I. apply in_rev in I. auto. }
    rewrite X in E. injection E as <- <-. rewrite rev_involutive. reflexivity.
Qed.

(* long keys *)
Lemma cut_length : forall s, length (cut s) <= 127.
Proof. intros. unfold cut. rewrite firstn_length. lia. Qed.
Lemma find_by_key_cut : forall ttl k now c t, find_backend_by_key ttl k now c t = find_backend_by_key ttl (cut k) now c t.
Proof.
  intros. unfold find_backend_by_key. change (firstn KEY_SIZE k) with (cut k).
  replace (firstn KEY_SIZE (cut k)) with (cut k); auto. unfold cut. change KEY_SIZE with 127. rewrite firstn_firstn. reflexivity.
Qed.
