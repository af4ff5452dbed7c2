From Coq Require Import Ascii String List ZArith Bool Lia.
From Verif Require Import Bytes ReqModel UrlModel UrlProofs AclModel NumModel XpdModel XpdSpec XpdProofs CondModel CondSpec.
Import ListNotations.
Open Scope Z_scope.

(** ** Expansion does not depend on how the request is stored *)

Definition trel (p q : phttp) (a b : turn) : Prop :=
  match a, b with
  | T_NEXT o r s p', T_NEXT o' r' s' q' => o = o' /\ r = r' /\ s = s' /\ same p p' /\ same q q'
  | T_UB u, T_UB u' => u = u'
  | _, _ => False
  end.

Lemma acc_rel : forall a arg p q, same p q ->
  fst (accessor_call a arg p) = fst (accessor_call a arg q).
Proof.
  intros a arg p q (H1 & H2 & H3 & H4 & H5 & H6 & H7 & H8 & H9 & H10).
  destruct a; cbn [accessor_call]; unfold http_request_get_url; try rewrite H1; try rewrite H3; auto.
  - destruct (http_request_get_path (ph_req p)), (http_request_get_path (ph_req q)); cbn [fst] in *. subst; reflexivity.
  - destruct (http_request_get_query (ph_req p)), (http_request_get_query (ph_req q)); cbn [fst] in *. subst; reflexivity.
  - specialize (H10 arg).
    destruct (http_request_get_query_param_value (ph_req p) arg), (http_request_get_query_param_value (ph_req q) arg); cbn [fst] in *. subst; reflexivity.
Qed.

Lemma ref_rel : forall c0 str b r p q, same p q -> trel p q (expand_ref c0 str b r p) (expand_ref c0 str b r q).
Proof.
  intros c0 str b r p q S. pose proof (same_refl p) as Rp. pose proof (same_refl q) as Rq.
  unfold expand_ref. destruct (strtoul (skipn (if b then 2 else 1) str) 10) as [[er g] pp]. destruct er; [cbn; auto|].
  cbv zeta.
  set (ap := if beq c0 DOLLAR && starts LPAREN pp then _ else _). clearbody ap.
  destruct ap as [[refno p1]|p1]; [|cbn; repeat split; auto].
  destruct (b && negb (starts RBRACE p1)); [cbn; repeat split; auto|].
  rewrite (same_group p q refno S).
  destruct (group_text _ g); cbn; repeat split; auto.
Qed.

Lemma acc_turn_rel : forall str r p q, same p q -> trel p q (expand_acc str r p) (expand_acc str r q).
Proof.
  intros str r p q S. pose proof (same_refl p) as Rp. pose proof (same_refl q) as Rq.
  unfold expand_acc. destruct (span _ (skipn 2 str)) as [text [|c rest]]; [cbn; repeat split; auto|].
  destruct (find_accessor text) as [|a arg|]; [cbn; repeat split; auto| |reflexivity].
  pose proof (acc_rel a arg p q S) as E.
  destruct (accessor_call a arg p) as [v p'] eqn:Ep. destruct (accessor_call a arg q) as [v' q'] eqn:Eq.
  apply acc_call_same in Ep. apply acc_call_same in Eq. cbn [fst] in E. subst v'.
  destruct v; cbn; repeat split; auto; apply Ep || apply Eq.
Qed.

Lemma turn_rel : forall acc str r p q, same p q -> trel p q (expand_turn acc str r p) (expand_turn acc str r q).
Proof.
  intros acc str r p q S. pose proof (same_refl p) as Rp. pose proof (same_refl q) as Rq.
  unfold expand_turn. destruct str as [|c0 [|c1 s]]; [cbn; auto|reflexivity|].
  destruct (beq c0 DOLLAR && (beq c1 DOLLAR || beq c1 PERCENT)); [cbn; auto|].
  destruct (beq c0 PERCENT && is_xdigit c1 && _); [cbn [trel]; auto|].
  destruct (acc && beq c0 PERCENT && beq c1 LBRACK); [apply acc_turn_rel; auto|].
  destruct (beq c1 LBRACE); [apply ref_rel; auto|].
  destruct (is_digit c1); [apply ref_rel; auto|]. cbn [trel]; auto.
Qed.

Definition xrel (p q : phttp) (a b : xres) : Prop :=
  match a, b with
  | XDone o r p', XDone o' r' q' => o = o' /\ r = r' /\ same p p' /\ same q q'
  | XUndef u, XUndef u' => u = u'
  | XFuel, XFuel => True
  | _, _ => False
  end.

Lemma loop_rel : forall fuel acc str r p q, same p q -> xrel p q (expand_loop fuel acc str r p) (expand_loop fuel acc str r q).
Proof.
  induction fuel as [|fuel IH]; intros acc str r p q S.
  - destruct str; cbn; auto using same_refl.
  - destruct str as [|c str]; [cbn; auto using same_refl|]. cbn [expand_loop].
    destruct (span _ (c :: str)) as [plain [|c' rest]]; [cbn; auto using same_refl|].
    pose proof (turn_rel acc (c' :: rest) r p q S) as T.
    destruct (expand_turn acc (c' :: rest) r p) as [o r' s p'|u], (expand_turn acc (c' :: rest) r q) as [o2 r2 s2 q'|u2];
      cbn [trel] in T; try contradiction; [|cbn; congruence].
    destruct T as (-> & -> & -> & Sp & Sq).
    assert (S' : same p' q') by (eapply same_trans; [apply same_sym; exact Sp|eapply same_trans; [exact S|exact Sq]]).
    specialize (IH acc s2 r2 p' q' S').
    destruct (expand_loop fuel acc s2 r2 p') as [o3 r3 p3|u3|], (expand_loop fuel acc s2 r2 q') as [o4 r4 q4|u4|];
      cbn [xrel] in IH |- *; try contradiction; auto.
    destruct IH as (-> & -> & A & B). repeat split; auto; eapply same_trans; eauto.
Qed.

Definition srel (p q : phttp) (a b : sres) : Prop :=
  match a, b with
  | SOk s p', SOk s' q' => s = s' /\ same p p' /\ same q q'
  | SNull p', SNull q' => same p p' /\ same q q'
  | SUndef u, SUndef u' => u = u'
  | _, _ => False
  end.

Lemma string_rel : forall t p q, same p q -> srel p q (expand_string t p) (expand_string t q).
Proof.
  intros t p q S. unfold expand_string, expand_string_to_buffer.
  pose proof (loop_rel (length t) true t 0 p q S) as X.
  destruct (expand_loop (length t) true t 0 p), (expand_loop (length t) true t 0 q); cbn [xrel] in X; try contradiction.
  - destruct X as (-> & -> & A & B). destruct (_ =? -1); cbn; auto.
  - cbn. auto.
  - cbn. auto using same_refl.
Qed.

Lemma string_same : forall t p s p', expand_string t p = SOk s p' -> same p p'.
Proof. intros t p s p' H. pose proof (string_rel t p p (same_refl p)) as R. rewrite H in R. apply R. Qed.
Lemma null_same : forall t p p', expand_string t p = SNull p' -> same p p'.
Proof. intros t p p' H. pose proof (string_rel t p p (same_refl p)) as R. rewrite H in R. apply R. Qed.

(** ** Elementary conditions *)

Lemma same_alike : forall p q, same p q -> alike p q.
Proof. intros p q (A & _ & B). split; auto. Qed.
Lemma alike_refl : forall p, alike p p.
Proof. intros p. apply same_alike, same_refl. Qed.
Lemma alike_trans : forall p q r, alike p q -> alike q r -> alike p r.
Proof.
  intros p q r [A1 (A3 & A4 & A5 & A6 & A7 & A8 & A9 & A10)] [B1 (B3 & B4 & B5 & B6 & B7 & B8 & B9 & B10)].
  unfold alike, same_req. repeat split; congruence.
Qed.
Lemma alike_same : forall p q, alike p q -> ph_smq q = ph_smq p -> same p q.
Proof. intros p q [A B] C. split; [|split]; auto. Qed.

Lemma exec_asks : forall re s, exists v m, asks re s v m /\ submatch_exec re s = (match v with Yes => true | _ => false end, m).
Proof.
  intros re s. unfold submatch_exec. destruct (re s) as [g|] eqn:E.
  - exists Yes, (mkSm (Some s) g). split; [constructor; exact E|reflexivity].
  - exists No, sm_empty. split; [constructor; exact E|reflexivity].
Qed.
Lemma asks_fun : forall re s v m v' m', asks re s v m -> asks re s v' m' -> v = v' /\ m = m'.
Proof.
  intros re s v m v' m' H H'. destruct H as [g H|H]; destruct H' as [g' H'|H']; unfold matches, fails in *; split; congruence.
Qed.
Lemma asks_exec : forall re s v m, asks re s v m -> submatch_exec re s = (match v with Yes => true | _ => false end, m) /\ v <> Err.
Proof.
  intros re s v m H. unfold submatch_exec. destruct H as [g H|H]; unfold matches, fails in H; rewrite H; split; auto; discriminate.
Qed.
Lemma exec_push_asks : forall re s p v m, asks re s v m ->
  exec_push re s p = (code_of v, with_smq p (pushed (ph_smq p) m)).
Proof.
  intros re s p v m H. apply asks_exec in H as [H Hv]. unfold exec_push. rewrite H. destruct v; auto. congruence.
Qed.

Lemma lines_asks : forall re hs, exists v m, line_asks re hs v m /\ match_headers hs re = (match v with Yes => true | _ => false end, m) /\ v <> Err.
Proof.
  intros re hs. induction hs as [|h hs (v & m & H1 & H2 & H3)].
  - exists No, sm_empty. repeat split; try discriminate. apply la_no. constructor.
  - cbn [match_headers]. unfold submatch_exec. destruct (re (h_text h)) as [g|] eqn:E.
    + exists Yes, (mkSm (Some (h_text h)) g). repeat split; try discriminate. apply (la_yes re [] h hs g); auto.
    + exists v, m. split; [|split; auto].
      * inversion H1 as [pre h' post g F M|hs' F]; subst.
        -- apply (la_yes re (h :: pre) h' post g); auto.
        -- apply la_no. constructor; auto.
      * destruct hs as [|h' hs]; auto.
Qed.
Lemma line_asks_fun : forall re hs v m v' m', line_asks re hs v m -> line_asks re hs v' m' -> v = v' /\ m = m'.
Proof.
  intros re hs v m v' m' H. revert v' m'.
  assert (Y : forall pre h post g, Forall (fun x => fails re (h_text x)) pre -> matches re (h_text h) g ->
    forall l v' m', l = pre ++ h :: post -> line_asks re l v' m' -> v' = Yes /\ m' = mkSm (Some (h_text h)) g).
  { induction pre as [|x pre IH]; intros h post g F M l v' m' E K; cbn [app] in E.
    - destruct K as [pre' h' post' g' F' M'|l F'].
      + destruct pre' as [|y pre']; cbn [app] in E; injection E as E1 E2; subst.
        * unfold matches in *. split; congruence.
        * apply Forall_inv in F'. unfold fails, matches in *. congruence.
      + subst l. apply Forall_inv in F'. unfold fails, matches in *. congruence.
    - destruct K as [pre' h' post' g' F' M'|l F'].
      + destruct pre' as [|y pre']; cbn [app] in E; injection E as E1 E2; subst.
        * apply Forall_inv in F. unfold fails, matches in *. congruence.
        * apply (IH h post g (Forall_inv_tail F) M (pre' ++ h' :: post')); auto.
          apply la_yes; auto. apply (Forall_inv_tail F').
      + subst l. apply (IH h post g (Forall_inv_tail F) M (pre ++ h :: post)); auto.
        apply la_no. apply (Forall_inv_tail F'). }
  destruct H as [pre h post g F M|hs F]; intros v' m' K.
  - destruct (Y pre h post g F M _ _ _ eq_refl K). auto.
  - inversion K as [pre h post g F' M'|hs' F']; subst; auto.
    destruct (Y pre h post g F' M' _ No sm_empty eq_refl (la_no _ _ F)). discriminate.
Qed.

(** The adjustment of Host matches. *)
Lemma gap_is : forall c, (beq c SP || beq c TAB || beq c LF) = true <-> gap c.
Proof. intros c. unfold gap. rewrite !orb_true_iff, !beq_eq. tauto. Qed.

Lemma span_gap : forall a b, Forall gap a -> ~ begins gap b ->
  span (fun c => beq c SP || beq c TAB || beq c LF) (a ++ b) = (a, b).
Proof.
  intros a b Ha Hb. apply span_true.
  - apply forallb_forall. intros x Hx. apply gap_is. rewrite Forall_forall in Ha. auto.
  - intros c r ->. destruct (_ || _ || _) eqn:E; auto. apply gap_is in E. exfalso. apply Hb. exists c, r. auto.
Qed.
Lemma gap_split : forall s, exists a b, s = a ++ b /\ Forall gap a /\ ~ begins gap b /\ length a = strspn_ws s.
Proof.
  intros s. unfold strspn_ws. set (f := fun c : byte => beq c SP || beq c TAB || beq c LF).
  exists (fst (span f s)), (snd (span f s)). repeat split.
  - symmetry. apply span_app.
  - pose proof (span_fst_all f s) as H. apply Forall_forall. rewrite forallb_forall in H. intros x Hx. apply gap_is. apply (H x Hx).
  - intros (c & r & E & G). pose proof (span_snd_head f s c r E) as H. apply gap_is in G. unfold f in H. congruence.
Qed.

Lemma skipn_len_app : forall (a b : bytes), skipn (length a) (a ++ b) = b.
Proof. intros a b. rewrite skipn_app, skipn_all, Nat.sub_diag. reflexivity. Qed.

Lemma host_view_adjust : forall m m', host_view m m' -> host_adjust m = inl m'.
Proof.
  intros m m' H. destruct H as [w name w2 v so eo g Hw Hw2 Hn Hb Hv n].
  unfold host_adjust. cbn [sm_subject sm_matchv].
  assert (Hb' : ~ begins gap (name ++ w2 ++ v)).
  { intros (c & r & E & G). apply Hb. destruct name as [|x name]; [discriminate|]. cbn [app] in E. injection E as -> E.
    exists c, name. auto. }
  assert (E1 : strspn_ws (w ++ name ++ w2 ++ v) = length w).
  { unfold strspn_ws. rewrite span_gap; auto. }
  rewrite E1. replace (length w + 5)%nat with (length (w ++ name)) by (rewrite app_length; lia).
  assert (E2 : skipn (length (w ++ name)) (w ++ name ++ w2 ++ v) = w2 ++ v).
  { rewrite app_assoc. apply skipn_len_app. }
  assert (E3 : skipn (length (w ++ name) + length w2) (w ++ name ++ w2 ++ v) = v).
  { rewrite <- app_length. replace (w ++ name ++ w2 ++ v) with (((w ++ name) ++ w2) ++ v) by (rewrite <- !app_assoc; reflexivity).
    apply skipn_len_app. }
  assert (E4 : strspn_ws (w2 ++ v) = length w2).
  { unfold strspn_ws. rewrite span_gap; auto. }
  replace (Nat.ltb (length (w ++ name ++ w2 ++ v)) (length (w ++ name))) with false
    by (symmetry; apply Nat.ltb_ge; rewrite !app_length; lia).
  cbv zeta. rewrite E2, E4, E3. subst n.
  replace (length (w ++ name) + length w2)%nat with (length (w ++ name ++ w2)) by (rewrite !app_length; lia).
  reflexivity.
Qed.

Lemma adjust_host_view : forall m m', host_adjust m = inl m' -> host_view m m'.
Proof.
  intros [subj mv] m' H. unfold host_adjust in H. cbn [sm_subject sm_matchv] in H.
  destruct subj as [subj|]; [|discriminate]. destruct mv as [|[so eo] mv]; [discriminate|].
  destruct (gap_split subj) as (w & b & E & Hw & Hb & Lw). rewrite <- Lw in H.
  destruct (Nat.ltb_spec (length subj) (length w + 5)) as [L|L]; [discriminate|].
  rewrite E, app_length in L.
  assert (En : exists name r, b = name ++ r /\ length name = 5%nat).
  { exists (firstn 5 b), (skipn 5 b). split; [symmetry; apply firstn_skipn|]. apply firstn_length_le. lia. }
  destruct En as (name & r & -> & Ln).
  destruct (gap_split r) as (w2 & v & E2 & Hw2 & Hv & Lw2). subst r.
  assert (H0 : host_view (mkSm (Some (w ++ name ++ w2 ++ v)) ((so, eo) :: mv))
              (mkSm (Some v) ((so, eo - Z.of_nat (length (w ++ name ++ w2))) ::
                 map (fun x => (fst x - Z.of_nat (length (w ++ name ++ w2)), snd x - Z.of_nat (length (w ++ name ++ w2)))) mv))).
  { apply hv; auto. intros (c & r & -> & G). apply Hb. exists c, (r ++ w2 ++ v). auto. }
  subst subj. pose proof (host_view_adjust _ _ H0) as A. unfold host_adjust in A. cbn [sm_subject sm_matchv] in A.
  rewrite <- Lw in A. destruct (Nat.ltb _ _) in A; [discriminate|]. rewrite A in H. injection H as <-. exact H0.
Qed.

Lemma remembers_none : forall p q, same p q -> remembers p None q.
Proof. intros p q S. split; [apply same_alike; auto|apply S]. Qed.
Lemma remembers_some : forall p q m, same p q -> remembers p (Some m) (with_smq q (pushed (ph_smq q) m)).
Proof. intros p q m S. split; [apply (same_alike _ _ S)|]. cbn. destruct S as (_ & S & _). rewrite S. auto. Qed.

Lemma same_with_req : forall p r, same_req (ph_req p) r -> same p (with_req p r).
Proof. intros p r H. split; [|split]; auto. Qed.

Lemma path_same : forall r, same_req r (snd (http_request_get_path r)).
Proof. intros r. apply same_split. Qed.
Lemma query_same : forall r, same_req r (snd (http_request_get_query r)).
Proof. intros r. apply same_split. Qed.
Lemma param_same : forall r n, same_req r (snd (http_request_get_query_param_value r n)).
Proof. intros r n. rewrite param_load. apply same_load. Qed.

Lemma verdict_code : forall r, (if r =? -1 then -1 else b2z (r =? 0)) = code_of (verdict r).
Proof. intros r. unfold verdict. destruct (Z.eqb_spec r 0) as [->|]; [reflexivity|]. destruct (r =? -1); reflexivity. Qed.

(** The model of an elementary condition gives its answer. *)
Lemma answer_atom : forall e p c v m, answer e p c v m ->
  exists p', match_atom e c p = CRes (code_of v) p' /\ remembers p m p'.
Proof.
  intros e p c v m H. destruct H; cbn [match_atom].
  - rewrite verdict_code. eexists. split; [reflexivity|]. apply remembers_none, same_refl.
  - rewrite (exec_push_asks _ _ _ _ _ H). eexists. split; [reflexivity|]. apply remembers_some, same_refl.
  - pose proof (same_with_req p _ (path_same (ph_req p))) as S. destruct (http_request_get_path (ph_req p)) as [x r].
    cbn [fst snd] in *. subst x. rewrite (exec_push_asks _ _ _ _ _ H0). eexists. split; [reflexivity|].
    apply remembers_some; auto.
  - pose proof (same_with_req p _ (query_same (ph_req p))) as S. destruct (http_request_get_query (ph_req p)) as [x r].
    cbn [fst snd] in *. subst x. rewrite (exec_push_asks _ _ _ _ _ H0). eexists. split; [reflexivity|].
    apply remembers_some; auto.
  - pose proof (same_with_req p _ (param_same (ph_req p) n)) as S. destruct (http_request_get_query_param_value (ph_req p) n) as [x r].
    cbn [fst snd] in *. subst x. rewrite (exec_push_asks _ _ _ _ _ H0). eexists. split; [reflexivity|].
    apply remembers_some; auto.
  - pose proof (same_with_req p _ (param_same (ph_req p) n)) as S. destruct (http_request_get_query_param_value (ph_req p) n) as [x r].
    cbn [fst snd] in *. destruct x as [[x|]|]; [exfalso; apply (H x); auto| |];
      (eexists; split; [reflexivity|]; apply remembers_none; auto).
  - destruct (lines_asks re (ph_headers p)) as (v' & m' & A & B & C). destruct (line_asks_fun _ _ _ _ _ _ H A) as [<- <-].
    rewrite B. eexists. split; [|apply remembers_some, same_refl]. destruct v; try reflexivity. congruence.
  - destruct (lines_asks re (ph_headers p)) as (v' & m1 & A & B & C). destruct (line_asks_fun _ _ _ _ _ _ H A) as [<- <-].
    rewrite B. rewrite (host_view_adjust _ _ H0). eexists. split; [reflexivity|apply remembers_some, same_refl].
  - destruct (lines_asks re (ph_headers p)) as (v' & m1 & A & B & C). destruct (line_asks_fun _ _ _ _ _ _ H A) as [<- <-].
    rewrite B. eexists. split; [reflexivity|apply remembers_some, same_refl].
  - rewrite verdict_code. eexists. split; [reflexivity|]. apply remembers_none, same_refl.
  - rewrite H. rewrite (exec_push_asks _ _ _ _ _ H0). eexists. split; [reflexivity|].
    apply remembers_some. eapply string_same; eauto.
  - rewrite H. eexists. split; [reflexivity|]. apply remembers_none. eapply null_same; eauto.
  - eexists. split; [|apply remembers_none, same_refl]. destruct (e_cert e x); reflexivity.
Qed.

Lemma atom_answer : forall e p c r p', ~ is_group c -> match_atom e c p = CRes r p' ->
  exists v m, answer e p c v m /\ r = code_of v /\ remembers p m p'.
Proof.
  intros e p c r p' G H.
  assert (K : exists v m, answer e p c v m).
  { destruct c; cbn [match_atom] in H; try (exfalso; apply G; exact I).
    - eexists. eexists. constructor.
    - destruct (exec_asks re (http_request_get_url (ph_req p))) as (v & m & A & _). eexists. eexists. constructor. eauto.
    - destruct (http_request_get_path (ph_req p)) as [[s|] q] eqn:E; [|discriminate].
      destruct (exec_asks re s) as (v & m & A & _). exists v, (Some m). apply an_path with s; auto. rewrite E. auto.
    - destruct (http_request_get_query (ph_req p)) as [[s|] q] eqn:E; [|discriminate].
      destruct (exec_asks re s) as (v & m & A & _). exists v, (Some m). apply an_query with s; auto. rewrite E. auto.
    - destruct (http_request_get_query_param_value (ph_req p) name) as [[[s|]|] q] eqn:E.
      + destruct (exec_asks re s) as (v & m & A & _). exists v, (Some m). apply an_param with s; auto. rewrite E. auto.
      + exists No, None. apply an_no_param. intros s. rewrite E. discriminate.
      + exists No, None. apply an_no_param. intros s. rewrite E. discriminate.
    - destruct (lines_asks re (ph_headers p)) as (v & m & A & _). eexists. eexists. constructor. eauto.
    - destruct (lines_asks re (ph_headers p)) as (v & m & A & B & C). rewrite B in H. destruct v.
      + destruct (host_adjust m) eqn:E; [|discriminate]. apply adjust_host_view in E.
        eexists. eexists. eapply an_host; eauto.
      + eexists. eexists. eapply an_no_host; eauto.
      + congruence.
    - eexists. eexists. constructor.
    - destruct (expand_string string p) as [s p1|p1|] eqn:E; [| |discriminate].
      + destruct (exec_asks re s) as (v & m & A & _). eexists. eexists. eapply an_string; eauto.
      + eexists. eexists. eapply an_no_string; eauto.
    - eexists. eexists. constructor. }
  destruct K as (v & m & A). destruct (answer_atom _ _ _ _ _ A) as (p1 & B & C).
  rewrite B in H. injection H as <- <-. eauto.
Qed.

(** Answers do not depend on how the request is stored. *)
Lemma answer_fun : forall e p c v m v' m', answer e p c v m -> answer e p c v' m' -> v = v' /\ m = m'.
Proof.
  intros e p c v m v' m' H K. destruct H; inversion K; subst; auto;
    try (match goal with A : asks _ ?s _ _, B : asks _ ?s _ _ |- _ => destruct (asks_fun _ _ _ _ _ _ A B); subst; solve [auto] end);
    try (match goal with A : asks _ ?s _ _, B : asks _ ?s' _ _ |- _ =>
           assert (ES : s' = s) by congruence; rewrite ES in B; destruct (asks_fun _ _ _ _ _ _ A B); subst; auto end);
    try (match goal with A : line_asks _ _ _ _, B : line_asks _ _ _ _ |- _ =>
           destruct (line_asks_fun _ _ _ _ _ _ A B); subst; auto; try discriminate end);
    try (match goal with A : forall s, _ <> Some (Some s), B : _ = Some (Some _) |- _ => exfalso; apply (A _ B) end);
    try congruence.
  - match goal with A : host_view _ _, B : host_view _ _ |- _ => apply host_view_adjust in A; apply host_view_adjust in B end.
    split; congruence.
Qed.

Lemma answer_alike : forall e p q c v m, alike p q -> (forall t re, c <> COND_STRING_MATCH t re) ->
  answer e p c v m -> answer e q c v m.
Proof.
  intros e p q c v m [A1 (A3 & A4 & A5 & A6 & A7 & A8 & A9 & A10)] N H. destruct H; try (exfalso; eapply N; reflexivity).
  - constructor.
  - constructor. unfold http_request_get_url in *. rewrite A3. auto.
  - apply an_path with s; auto. congruence.
  - apply an_query with s; auto. congruence.
  - apply an_param with s; auto. rewrite A10. auto.
  - apply an_no_param. intros s. rewrite A10. auto.
  - constructor. rewrite A1. auto.
  - eapply an_host; eauto. rewrite A1. eauto.
  - eapply an_no_host. rewrite A1. eauto.
  - rewrite <- A1. constructor.
  - constructor.
Qed.

Lemma answer_same : forall e p q c v m, same p q -> answer e p c v m -> answer e q c v m.
Proof.
  intros e p q c v m S H.
  assert (D : (exists t re, c = COND_STRING_MATCH t re) \/ forall t re, c <> COND_STRING_MATCH t re).
  { destruct c; try (right; intros; discriminate). left. eauto. }
  destruct D as [(t & re & ->)|D]; [|eapply answer_alike; eauto; apply same_alike; auto].
  pose proof (string_rel t p q S) as R. inversion H; subst.
  - match goal with X : expand_string t p = _ |- _ => rewrite X in R end. destruct (expand_string t q) as [s' q'|q'|] eqn:E; cbn [srel] in R; try contradiction.
    destruct R as (<- & _). eapply an_string; eauto.
  - match goal with X : expand_string t p = _ |- _ => rewrite X in R end. destruct (expand_string t q) as [s' q'|q'|] eqn:E; cbn [srel] in R; try contradiction.
    eapply an_no_string; eauto.
Qed.

(** ** Groups *)

Section CondInd.
  Variable P : cond -> Prop.
  Hypothesis Hatom : forall c, ~ is_group c -> P c.
  Hypothesis Hgroup : forall op l, Forall P l -> P (COND_BOOL op l).
  Fixpoint cond_nest (c : cond) : P c :=
    match c with
    | COND_BOOL op l =>
        Hgroup op l ((fix go (l : list cond) : Forall P l :=
                        match l with [] => Forall_nil P | x :: l' => @Forall_cons _ P x l' (cond_nest x) (go l') end) l)
    | COND_ACL a => Hatom (COND_ACL a) (fun x => x)
    | COND_URL re => Hatom (COND_URL re) (fun x => x)
    | COND_PATH re => Hatom (COND_PATH re) (fun x => x)
    | COND_QUERY re => Hatom (COND_QUERY re) (fun x => x)
    | COND_QUERY_PARAM n re => Hatom (COND_QUERY_PARAM n re) (fun x => x)
    | COND_HDR re => Hatom (COND_HDR re) (fun x => x)
    | COND_HOST re => Hatom (COND_HOST re) (fun x => x)
    | COND_BASIC_AUTH f => Hatom (COND_BASIC_AUTH f) (fun x => x)
    | COND_STRING_MATCH t re => Hatom (COND_STRING_MATCH t re) (fun x => x)
    | COND_CLIENT_CERT x => Hatom (COND_CLIENT_CERT x) (fun x => x)
    end.
End CondInd.

Definition stops (op : bool_op) (r : Z) : bool :=
  (r =? -1) || match op with BOOL_AND => r =? 0 | _ => r =? 1 end.

Lemma match_not : forall e c l p, match_cond e (COND_BOOL BOOL_NOT (c :: l)) p =
  match match_cond e c p with
  | CRes r p => CRes (if r =? -1 then -1 else b2z (r =? 0)) p
  | x => x
  end.
Proof. reflexivity. Qed.

Lemma match_group : forall e op c l p, op <> BOOL_NOT -> match_cond e (COND_BOOL op (c :: l)) p =
  match match_cond e c p with
  | CRes r p' =>
      if stops op r then CRes r p'
      else match l with [] => CRes r p' | _ => match_cond e (COND_BOOL op l) p' end
  | x => x
  end.
Proof.
  intros e op c l p Hop. destruct op; try congruence; cbn [match_cond]; destruct (match_cond e c p) as [r p'|u]; auto;
    unfold stops; destruct (r =? -1); cbn [orb]; auto;
    match goal with |- context [if ?b then CRes r p' else _] => destruct b end; auto; destruct l; auto.
Qed.

Lemma match_empty : forall e op p, op <> BOOL_NOT -> match_cond e (COND_BOOL op []) p = CRes 1 p.
Proof. intros e op p H. destruct op; try congruence; reflexivity. Qed.

Lemma match_is_atom : forall e c p, ~ is_group c -> match_cond e c p = match_atom e c p.
Proof. intros e c p H. destruct c; try reflexivity. exfalso. apply H. exact I. Qed.

Lemma stops_decisive : forall op v, op <> BOOL_NOT -> (stops op (code_of v) = true <-> decisive op v).
Proof.
  intros op v Hop. unfold decisive.
  destruct op, v; try congruence; cbn; split; intros H; auto; try discriminate;
    destruct H as [H|[[H H']|[H H']]]; congruence.
Qed.

Lemma negated_code : forall v, (if code_of v =? -1 then -1 else b2z (code_of v =? 0)) = code_of (negated v).
Proof. intros []; reflexivity. Qed.

Lemma match_eval : forall e c p r p', match_cond e c p = CRes r p' ->
  exists tr v, eval e c p tr v p' /\ r = code_of v.
Proof.
  intros e. refine (cond_nest _ _ _).
  - intros c G p r p' H. rewrite match_is_atom in H by auto.
    destruct (atom_answer _ _ _ _ _ G H) as (v & m & A & B & C). exists [(c, v)], v. split; auto. eapply ev_atom; eauto.
  - intros op l F. destruct (match op with BOOL_NOT => true | _ => false end) eqn:Eop.
    + destruct op; try discriminate. intros p r p' H. destruct l as [|c l]; [discriminate|].
      rewrite match_not in H. destruct (match_cond e c p) as [r1 p1|u] eqn:E; [|discriminate].
      injection H as <- <-. destruct (Forall_inv F _ _ _ E) as (tr & v & A & ->).
      exists tr, (negated v). split; [apply ev_not; auto|apply negated_code].
    + assert (Hop : op <> BOOL_NOT) by (destruct op; congruence). clear Eop.
      induction F as [|c l Hc F IH]; intros p r p' H.
      * rewrite match_empty in H by auto. injection H as <- <-. exists [], Yes. split; auto. apply ev_empty; auto.
      * rewrite match_group in H by auto. destruct (match_cond e c p) as [r1 p1|u] eqn:E; [|discriminate].
        destruct (Hc _ _ _ E) as (tr & v & A & ->).
        pose proof (stops_decisive op v Hop) as D. destruct (stops op (code_of v)) eqn:S.
        -- injection H as <- <-. exists tr, v. split; auto. apply ev_stop; auto. apply D; auto.
        -- assert (ND : ~ decisive op v) by (intros X; apply D in X; congruence).
           destruct l as [|c2 l].
           ++ injection H as <- <-. exists tr, v. split; auto. apply ev_last; auto.
           ++ destruct (IH _ _ _ H) as (tr' & v' & A' & ->). exists (tr ++ tr'), v'. split; auto.
              eapply ev_next; eauto. discriminate.
Qed.

Lemma remembers_same : forall p q m p' q', same p q -> remembers p m p' -> remembers q m q' -> same p' q'.
Proof.
  intros p q m p' q' S [A1 A2] [B1 B2]. apply alike_same.
  - assert (SA := same_alike _ _ (same_sym _ _ S)).
    assert (alike p' p). { destruct A1 as [X (Y1 & Y2 & Y3 & Y4 & Y5 & Y6 & Y7 & Y8)]. unfold alike, same_req. repeat split; auto. }
    apply alike_trans with p; auto. apply alike_trans with q; auto. apply same_alike; auto.
  - rewrite A2, B2. destruct S as (_ & S & _). rewrite S. reflexivity.
Qed.

Lemma eval_match : forall e c p tr v p', eval e c p tr v p' -> forall q, same p q ->
  exists q', match_cond e c q = CRes (code_of v) q' /\ same p' q'.
Proof.
  intros e c p tr v p' H. induction H as [c p v m p' G A R|c l p tr v p' H IH|op p Hop|op c l p tr v p' Hop H IH D
    |op c p tr v p' Hop H IH D|op c l p tr v p' tr' v' p'' Hop Hl H IH D H' IH']; intros q S.
  - rewrite match_is_atom by auto.
    destruct (answer_atom e q c v m (answer_same _ _ _ _ _ _ S A)) as (q' & E & Rq).
    exists q'. split; auto. eapply remembers_same; eauto.
  - destruct (IH q S) as (q' & E & S'). rewrite match_not, E. exists q'. split; auto. rewrite negated_code. auto.
  - rewrite match_empty by auto. exists q. auto.
  - destruct (IH q S) as (q' & E & S'). rewrite match_group, E by auto.
    apply stops_decisive in D; auto. rewrite D. eauto.
  - destruct (IH q S) as (q' & E & S'). rewrite match_group, E by auto.
    destruct (stops op (code_of v)); eauto.
  - destruct (IH q S) as (q' & E & S'). rewrite match_group, E by auto.
    destruct (stops op (code_of v)) eqn:X; [apply stops_decisive in X; auto; contradiction|].
    destruct l as [|c2 l]; [congruence|]. apply IH'. auto.
Qed.

Ltac nogroup := match goal with G : ~ is_group ?x |- _ => exfalso; apply G;
  solve [exact I | match goal with E : x = _ |- _ => rewrite E; exact I | E : _ = x |- _ => rewrite <- E; exact I end] end.
Ltac use IH S X := match type of IH with forall q _ _ _, same ?p _ -> eval _ ?c _ _ _ _ -> _ =>
  match type of S with same _ ?q => match goal with K : eval _ c q _ _ _ |- _ =>
    destruct (IH _ _ _ _ S K) as (<- & <- & X) end end end.
Lemma eval_fun : forall e c p tr v p', eval e c p tr v p' -> forall q tr2 v2 q', same p q ->
  eval e c q tr2 v2 q' -> tr = tr2 /\ v = v2 /\ same p' q'.
Proof.
  intros e c p tr v p' H. induction H as [c p v m p' G A R|c l p tr v p' H IH|op p Hop|op c l p tr v p' Hop H IH D
    |op c p tr v p' Hop H IH D|op c l p tr v p' tr' v' p'' Hop Hl H IH D H' IH']; intros q tr2 v2 q' S K.
  - inversion K; subst; try (exfalso; apply G; exact I).
    destruct (answer_fun _ _ _ _ _ _ _ (answer_same _ _ _ _ _ _ S A) ltac:(eassumption)) as [<- <-]. repeat split; auto; eapply (remembers_same p q); eauto.
  - inversion K; subst; try congruence; [nogroup|].
    use IH S X. auto.
  - inversion K; subst; try congruence; [nogroup|]. auto.
  - inversion K; subst; try congruence; [nogroup| | |].
    + apply (IH q); auto.
    + use IH S X. contradiction.
    + use IH S X. contradiction.
  - inversion K; subst; try congruence; [nogroup| |].
    + use IH S X. contradiction.
    + apply (IH q); auto.
  - inversion K; subst; try congruence; [nogroup| |].
    + use IH S X. contradiction.
    + use IH S X. use IH' X Y. auto.
Qed.

Lemma alike_sym : forall p q, alike p q -> alike q p.
Proof. intros p q [A1 (A3 & A4 & A5 & A6 & A7 & A8 & A9 & A10)]. unfold alike, same_req. repeat split; auto. Qed.

(** ** The value of the formula *)

Lemma settles_alike : forall e p q A c, alike p q -> settles e p A c -> settles e q A c.
Proof.
  intros e p q A c S H a Ha. destruct (H a Ha) as (N & m & K). split; auto. exists m. eapply answer_alike; eauto.
Qed.
Lemma settles_sub : forall e p A op l c, settles e p A (COND_BOOL op l) -> In c l -> settles e p A c.
Proof. intros e p A op l c H Hc a Ha. apply H. econstructor; eauto. Qed.

Lemma of_bool_code : forall b, code_of (of_bool b) = b2z b.
Proof. intros []; reflexivity. Qed.

Lemma formula : forall e A c, formed c -> forall p, settles e p A c ->
  exists p', match_cond e c p = CRes (b2z (truth A c)) p' /\ alike p p'.
Proof.
  intros e A. refine (cond_nest _ _ _).
  - intros c G _ p H. destruct (H c (ao_self c G)) as (N & m & K). rewrite match_is_atom by auto.
    destruct (answer_atom _ _ _ _ _ K) as (p' & E & [R _]). exists p'. split; auto. rewrite E, of_bool_code.
    destruct c; auto. exfalso. apply G. exact I.
  - intros op l F Hf.
    inversion Hf as [c G|c l0 Hc _|op' l' Hop Hl]; subst; [nogroup| |].
    + intros p H. rewrite match_not.
      destruct (Forall_inv F Hc p (settles_sub _ _ _ _ _ _ H (or_introl eq_refl))) as (p' & -> & S).
      exists p'. split; auto. cbn [truth]. destruct (truth A c); reflexivity.
    + clear Hf. induction Hl as [|c l Hc Hl IH]; intros p H.
      * rewrite match_empty by auto. exists p. split; [|apply alike_refl]. destruct op; try congruence; reflexivity.
      * rewrite match_group by auto.
        destruct (Forall_inv F Hc p (settles_sub _ _ _ _ _ _ H (or_introl eq_refl))) as (p1 & -> & S1).
        assert (H1 : settles e p1 A (COND_BOOL op l)).
        { intros a Ha. inversion Ha; subst; [nogroup|]. apply (settles_alike e p p1 A _ S1 H).
          apply ao_sub with c0; auto. right; auto. }
        assert (T : truth A (COND_BOOL op (c :: l)) =
          if stops op (b2z (truth A c)) then truth A c else match l with [] => truth A c | _ => truth A (COND_BOOL op l) end).
        { destruct op; try congruence; cbn [truth forallb existsb].
          - destruct (truth A c); cbn; auto. destruct l; auto.
          - destruct (truth A c); cbn; auto. destruct l; auto. }
        rewrite T. destruct (stops op (b2z (truth A c))); [eauto|].
        destruct l as [|c2 l]; [eauto|].
        destruct (IH (Forall_inv_tail F) p1 H1) as (p2 & E & S2). exists p2. split; auto. eapply alike_trans; eauto.
Qed.

(** ** Errors *)

Lemma negated_err : forall v, negated v = Err <-> v = Err.
Proof. intros []; cbn; split; congruence. Qed.

Definition ok_answer (x : cond * outcome) : Prop := snd x <> Err.

Lemma eval_err : forall e c p tr v p', eval e c p tr v p' ->
  (v <> Err /\ Forall ok_answer tr) \/
  (v = Err /\ exists tr0 a, tr = tr0 ++ [(a, Err)] /\ Forall ok_answer tr0).
Proof.
  intros e c p tr v p' H. induction H as [c p v m p' G A R|c l p tr v p' H IH|op p Hop|op c l p tr v p' Hop H IH D
    |op c p tr v p' Hop H IH D|op c l p tr v p' tr' v' p'' Hop Hl H IH D H' IH']; auto.
  - destruct (match v with Err => true | _ => false end) eqn:E.
    + right. destruct v; try discriminate. split; auto. exists [], c. auto.
    + left. assert (v <> Err) by (destruct v; congruence). auto.
  - destruct IH as [[A B]|[A B]]; [left|right]; split; auto; rewrite negated_err; auto.
  - left. split; [discriminate|constructor].
  - assert (Hv : v <> Err) by (intros ->; apply D; left; auto).
    destruct IH as [[A B]|[A B]]; [|congruence].
    destruct IH' as [[A' B']|[A' (tr0 & a & -> & B')]].
    + left. split; auto. apply Forall_app; auto.
    + right. split; auto. exists (tr ++ tr0), a. rewrite app_assoc. split; auto. apply Forall_app; auto.
Qed.

Lemma eval_atoms : forall e c p tr v p', eval e c p tr v p' -> Forall (fun x => atom_of (fst x) c) tr.
Proof.
  intros e c p tr v p' H. induction H as [c p v m p' G A R|c l p tr v p' H IH|op p Hop|op c l p tr v p' Hop H IH D
    |op c p tr v p' Hop H IH D|op c l p tr v p' tr' v' p'' Hop Hl H IH D H' IH']; auto.
  - constructor; auto. apply ao_self; auto.
  - eapply Forall_impl; [|exact IH]. intros x Hx. apply ao_sub with c; auto. left; auto.
  - eapply Forall_impl; [|exact IH]. intros x Hx. apply ao_sub with c; auto. left; auto.
  - eapply Forall_impl; [|exact IH]. intros x Hx. apply ao_sub with c; auto. left; auto.
  - apply Forall_app. split.
    + eapply Forall_impl; [|exact IH]. intros x Hx. apply ao_sub with c; auto. left; auto.
    + eapply Forall_impl; [|exact IH']. intros x Hx. inversion Hx; subst; [nogroup|]. apply ao_sub with c0; auto. right; auto.
Qed.

Lemma eval_alike : forall e c p tr v p', eval e c p tr v p' -> alike p p'.
Proof.
  intros e c p tr v p' H. induction H; auto using alike_refl.
  - apply H1.
  - eapply alike_trans; eauto.
Qed.

Lemma match_alike : forall e c p r p', match_cond e c p = CRes r p' -> alike p p'.
Proof. intros e c p r p' H. destruct (match_eval _ _ _ _ _ H) as (tr & v & E & _). eapply eval_alike; eauto. Qed.

(** ** Undefined behaviour *)

Lemma undef_atom : forall e c, formed c -> forall p u, match_cond e c p = CUndef u ->
  exists a q, atom_of a c /\ alike p q /\ match_atom e a q = CUndef u.
Proof.
  intros e. refine (cond_nest _ _ _).
  - intros c G _ p u H. rewrite match_is_atom in H by auto. exists c, p. split; [apply ao_self; auto|split; [apply alike_refl|exact H]].
  - intros op l F Hf.
    inversion Hf as [c G|c l0 Hc _|op' l' Hop Hl]; subst; [nogroup| |].
    + intros p u H. rewrite match_not in H. destruct (match_cond e c p) as [r p1|u1] eqn:E; [discriminate|].
      injection H as <-. destruct (Forall_inv F Hc _ _ E) as (a & q & A & B & C).
      exists a, q. split; [|auto]. apply ao_sub with c; auto. left; auto.
    + clear Hf. induction Hl as [|c l Hc Hl IH]; intros p u H.
      * rewrite match_empty in H by auto. discriminate.
      * rewrite match_group in H by auto. destruct (match_cond e c p) as [r p1|u1] eqn:E.
        -- destruct (stops op r); [discriminate|]. destruct l as [|c2 l]; [discriminate|].
           destruct (IH (Forall_inv_tail F) _ _ H) as (a & q & A & B & C).
           exists a, q. split; [|split; auto].
           ++ inversion A; subst; [nogroup|]. apply ao_sub with c0; auto. right; auto.
           ++ eapply alike_trans; [eapply match_alike; eauto|auto].
        -- injection H as <-. destruct (Forall_inv F Hc _ _ E) as (a & q & A & B & C).
           exists a, q. split; [|auto]. apply ao_sub with c; auto. left; auto.
Qed.

(** ** Rewrite rules *)

Section RuleInd.
  Variable P : rrule -> Prop.
  Variable Q : rop -> Prop.
  Hypothesis Hrule : forall c ops, Forall Q ops -> forall iff', (forall r, iff' = Some r -> P r) -> P (RRule c ops iff').
  Hypothesis Hnest : forall r, P r -> Q (REWRITE_REWRITE_RULE r).
  Hypothesis Hop : forall o, (forall r, o <> REWRITE_REWRITE_RULE r) -> Q o.
  Fixpoint rule_nest (r : rrule) : P r :=
    match r with
    | RRule c ops iff' =>
        Hrule c ops
          ((fix go (l : list rop) : Forall Q l :=
              match l with
              | [] => Forall_nil Q
              | o :: l' => @Forall_cons _ Q o l'
                  (match o as o return Q o with
                   | REWRITE_REWRITE_RULE r => Hnest r (rule_nest r)
                   | REWRITE_HDR_DEL m => Hop (REWRITE_HDR_DEL m) (fun r E => match E with eq_refl => I end)
                   | REWRITE_HDR_SET m => Hop (REWRITE_HDR_SET m) (fun r E => match E with eq_refl => I end)
                   | REWRITE_URL_SET m => Hop (REWRITE_URL_SET m) (fun r E => match E with eq_refl => I end)
                   | REWRITE_PATH_SET m => Hop (REWRITE_PATH_SET m) (fun r E => match E with eq_refl => I end)
                   | REWRITE_QUERY_SET m => Hop (REWRITE_QUERY_SET m) (fun r E => match E with eq_refl => I end)
                   | REWRITE_QUERY_PARAM_SET n m => Hop (REWRITE_QUERY_PARAM_SET n m) (fun r E => match E with eq_refl => I end)
                   end) (go l')
              end) ops)
          iff'
          (match iff' as i return forall r, i = Some r -> P r with
           | Some r0 => fun r E => match E in _ = x return match x with Some r => P r | None => True end with eq_refl => rule_nest r0 end
           | None => fun r E => match E with eq_refl => I end
           end)
    end.
End RuleInd.

Definition op_run (e : env) (o : rop) (p : phttp) : cres :=
  match o with REWRITE_REWRITE_RULE r => rewrite_rule_check e r p | _ => op_apply o 0 p end.

Fixpoint ops_run (e : env) (l : list rop) (p : phttp) : cres :=
  match l with
  | [] => CRes 0 p
  | o :: l' =>
      match op_run e o p with
      | CRes res p => if res =? 0 then ops_run e l' p else CRes res p
      | x => x
      end
  end.

Section OpLoop.
Variable e : env.
Fixpoint op_loop (l : list rop) (res : Z) (p : phttp) : cres :=
  match l with
  | [] => CRes res p
  | o :: l' =>
      match match o with
            | REWRITE_REWRITE_RULE r => rewrite_rule_check e r p
            | _ => op_apply o res p
            end with
      | CRes res p => if res =? 0 then op_loop l' res p else CRes res p
      | x => x
      end
  end.
End OpLoop.

Lemma op_loop_run : forall e ops p, op_loop e ops 0 p = ops_run e ops p.
Proof.
  intros e ops. induction ops as [|o ops IH]; intros p; [reflexivity|]. cbn [ops_run op_loop].
  replace (match o with REWRITE_REWRITE_RULE r => rewrite_rule_check e r p | _ => op_apply o 0 p end) with (op_run e o p)
    by (destruct o; reflexivity).
  destruct (op_run e o p) as [r p2|u]; auto. destruct (Z.eqb_spec r 0); subst; auto.
Qed.

Lemma rule_eq : forall e c ops iff' p, rewrite_rule_check e (RRule c ops iff') p =
  match match_cond e c p with
  | CUndef u => CUndef u
  | CRes r p => if r =? 1 then ops_run e ops p
                else match iff' with Some r => rewrite_rule_check e r p | None => CRes 0 p end
  end.
Proof.
  intros e c ops iff' p. transitivity (match match_cond e c p with
  | CUndef u => CUndef u
  | CRes r p => if r =? 1 then op_loop e ops 0 p
                else match iff' with Some r => rewrite_rule_check e r p | None => CRes 0 p end
  end); [reflexivity|]. destruct (match_cond e c p) as [r p1|u]; auto. rewrite op_loop_run. auto.
Qed.

Lemma filter_del : forall m hs,
  http_header_list_filter hs (fun t => match m t with Some _ => true | None => false end) =
  filter (fun h => match (m : pattern) (h_text h) with Some _ => false | None => true end) hs.
Proof.
  intros m hs. unfold http_header_list_filter. apply filter_ext. intros h. destruct (m (h_text h)); reflexivity.
Qed.

(** *** Soundness *)

Lemma ops_sound : forall e l, Forall (fun o => forall p v p', op_run e o p = CRes v p' -> performs e o p v p') l ->
  forall p v p', ops_run e l p = CRes v p' -> performs_all e l p v p'.
Proof.
  intros e l F. induction F as [|o l Ho F IH]; intros p v p' H; cbn [ops_run] in H.
  - injection H as <- <-. constructor.
  - destruct (op_run e o p) as [r p1|u] eqn:E; [|discriminate]. destruct (Z.eqb_spec r 0) as [->|N].
    + eapply pa_next; eauto.
    + injection H as <- <-. apply pa_fail; auto.
Qed.

Ltac setter H := cbn [op_run op_apply] in H; unfold set_expanded in H;
  destruct (expand_string _ _) as [s p1|p1|u] eqn:E in H; [ | |discriminate].

Lemma op_sound : forall e o, (forall r, o <> REWRITE_REWRITE_RULE r) ->
  forall p v p', op_run e o p = CRes v p' -> performs e o p v p'.
Proof.
  intros e o N p v p' H. destruct o as [r|m|t|t|t|t|n t].
  - exfalso. eapply N; reflexivity.
  - cbn [op_run op_apply] in H. injection H as <- <-. rewrite filter_del. constructor.
  - setter H.
    + destruct (http_header_list_append (ph_headers p1) s H_REPLACE) as [r hs] eqn:E2. injection H as <- <-. eapply pf_hdr; eauto.
    + injection H as <- <-. eapply pf_fail; [constructor|eauto].
  - setter H; injection H as <- <-; [apply pf_url; auto|eapply pf_fail; [constructor|eauto]].
  - setter H; injection H as <- <-; [apply pf_path; auto|eapply pf_fail; [constructor|eauto]].
  - setter H; injection H as <- <-; [apply pf_query; auto|eapply pf_fail; [constructor|eauto]].
  - setter H; injection H as <- <-; [apply pf_param; auto|eapply pf_fail; [constructor|eauto]].
Qed.

Lemma rule_sound : forall e r p v p', rewrite_rule_check e r p = CRes v p' -> applies e r p v p'.
Proof.
  intros e. refine (rule_nest _ (fun o => forall p v p', op_run e o p = CRes v p' -> performs e o p v p') _ _ _).
  - intros c ops F iff' I p v p' H. rewrite rule_eq in H.
    destruct (match_cond e c p) as [r p1|u] eqn:E; [|discriminate]. destruct (Z.eqb_spec r 1) as [->|N].
    + apply ap_some with ops p1.
      * destruct iff' as [r'|]; cbn [alternatives]; apply pk_this; auto.
      * apply ops_sound; auto.
    + destruct iff' as [r'|].
      * specialize (I r' eq_refl _ _ _ H). inversion I as [r0 q q' A|r0 q ops' q' v0 q'' A B]; subst.
        -- apply ap_none. cbn [alternatives]. eapply pk_next; eauto.
        -- eapply ap_some; [|eauto]. cbn [alternatives]. eapply pk_next; eauto.
      * injection H as <- <-. apply ap_none. cbn [alternatives]. eapply pk_next; eauto. constructor.
  - intros r IH p v p' H. constructor. auto.
  - intros o N. apply op_sound. auto.
Qed.

(** *** Completeness *)

Lemma picks_run : forall e r p o p1, picks e (alternatives r) p o p1 ->
  rewrite_rule_check e r p = match o with Some ops => ops_run e ops p1 | None => CRes 0 p1 end.
Proof.
  intros e.
  assert (G : forall alts p o p1, picks e alts p o p1 -> forall r, alternatives r = alts ->
    rewrite_rule_check e r p = match o with Some ops => ops_run e ops p1 | None => CRes 0 p1 end).
  { intros alts p o p1 H. induction H as [p|c ops alts p p' E|c ops alts p r0 p' o p'' E N H IH]; intros r Hr;
      destruct r as [c' ops' iff']; [destruct iff'; discriminate| |].
    - rewrite rule_eq. destruct iff' as [r'|]; cbn [alternatives] in Hr; injection Hr as -> ->; subst; rewrite E; reflexivity.
    - rewrite rule_eq. destruct iff' as [r'|]; cbn [alternatives] in Hr; injection Hr as -> ->; subst; rewrite E.
      + destruct (Z.eqb_spec r0 1); [congruence|]. apply IH; auto.
      + destruct (Z.eqb_spec r0 1); [congruence|]. inversion H; subst. reflexivity. }
  intros r p o p1 H. eapply G; eauto.
Qed.

Scheme performs_mut := Minimality for performs Sort Prop
  with performs_all_mut := Minimality for performs_all Sort Prop
  with applies_mut := Minimality for applies Sort Prop.

Lemma rule_complete : forall e r p v p', applies e r p v p' -> rewrite_rule_check e r p = CRes v p'.
Proof.
  intros e. apply (applies_mut e (fun o p v p' => op_run e o p = CRes v p') (fun l p v p' => ops_run e l p = CRes v p')
    (fun r p v p' => rewrite_rule_check e r p = CRes v p')).
  - intros r p v p' _ H. exact H.
  - intros m p. cbn [op_run op_apply]. rewrite filter_del. reflexivity.
  - intros t p s p' v hs H K. cbn [op_run op_apply]. unfold set_expanded. rewrite H, K. reflexivity.
  - intros t p s p' H. cbn [op_run op_apply]. unfold set_expanded. rewrite H. reflexivity.
  - intros t p s p' H. cbn [op_run op_apply]. unfold set_expanded. rewrite H. reflexivity.
  - intros t p s p' H. cbn [op_run op_apply]. unfold set_expanded. rewrite H. reflexivity.
  - intros n t p s p' H. cbn [op_run op_apply]. unfold set_expanded. rewrite H. reflexivity.
  - intros o t p p' T H. destruct T; cbn [op_run op_apply]; unfold set_expanded; rewrite H; reflexivity.
  - reflexivity.
  - intros o l p p' v p'' _ H _ K. cbn [ops_run]. rewrite H. exact K.
  - intros o l p v p' _ H N. cbn [ops_run]. rewrite H. destruct (Z.eqb_spec v 0); [congruence|]. reflexivity.
  - intros r p p' H. rewrite (picks_run _ _ _ _ _ H). reflexivity.
  - intros r p ops p' v p'' H _ K. rewrite (picks_run _ _ _ _ _ H). exact K.
Qed.

Lemma rules_iff : forall e l p v p', rewrite_apply e l p = CRes v p' <-> applies_all e l p v p'.
Proof.
  intros e l. induction l as [|r l IH]; intros p v p'; cbn [rewrite_apply].
  - split; [intros H; injection H as <- <-; constructor|intros H; inversion H; subst; reflexivity].
  - split.
    + intros H. destruct (rewrite_rule_check e r p) as [v1 p1|u] eqn:E; [|discriminate].
      apply rule_sound in E. destruct (Z.eqb_spec v1 0) as [->|N].
      * eapply aa_next; eauto. apply IH; auto.
      * injection H as <- <-. apply aa_fail; auto.
    + intros H. inversion H; subst.
      * erewrite rule_complete by eassumption. cbn [Z.eqb]. apply IH; auto.
      * erewrite rule_complete by eassumption. destruct (Z.eqb_spec v 0); [congruence|]. reflexivity.
Qed.

(** ** Services *)

Lemma search_iff : forall e l p o p', selects e l p o p' <->
  search_services e l p = match o with Some s => SvFound s p' | None => SvNone p' end.
Proof.
  intros e l. induction l as [|s l IH]; intros p o p'; cbn [search_services].
  - split; [intros H; inversion H; subst; reflexivity|]. intros H. destruct o; [discriminate|]. injection H as ->. constructor.
  - split.
    + intros H. inversion H; subst.
      * match goal with D : svc_disabled _ = _ |- _ => rewrite D end. apply IH. auto.
      * match goal with D : svc_disabled _ = _, E : match_cond _ _ _ = _ |- _ => rewrite D, E end. reflexivity.
      * match goal with D : svc_disabled _ = _, E : match_cond _ _ _ = _ |- _ => rewrite D, E end. destruct (Z.eqb_spec r 1); [congruence|]. apply IH. auto.
    + intros H. destruct (svc_disabled s) eqn:D.
      * apply sl_skip; auto. apply IH; auto.
      * destruct (match_cond e (svc_cond s) p) as [r p1|u] eqn:E; [|destruct o; discriminate].
        destruct (Z.eqb_spec r 1) as [->|N].
        -- destruct o as [s'|]; [|discriminate]. injection H as <- <-. apply sl_this; auto.
        -- eapply sl_next; eauto. apply IH; auto.
Qed.

Lemma selects_app : forall e l1 l2 p o p', selects e (l1 ++ l2) p o p' <->
  (exists s, o = Some s /\ selects e l1 p o p') \/ (exists p1, selects e l1 p None p1 /\ selects e l2 p1 o p').
Proof.
  intros e l1 l2. induction l1 as [|s l1 IH]; intros p o p'; cbn [app].
  - split.
    + intros H. right. exists p. split; auto. constructor.
    + intros [(s & -> & H)|(p1 & H & K)]; inversion H; subst; auto.
  - split.
    + intros H. inversion H; subst.
      * match goal with X : selects e (l1 ++ l2) _ _ _ |- _ => apply IH in X as [(s' & -> & X)|(p1 & X & K)] end; [left|right].
        -- exists s'. split; auto. apply sl_skip; auto.
        -- exists p1. split; auto. apply sl_skip; auto.
      * left. exists s. split; auto. apply sl_this; auto.
      * match goal with X : selects e (l1 ++ l2) _ _ _ |- _ => apply IH in X as [(s' & -> & X)|(p1 & X & K)] end; [left|right].
        -- exists s'. split; auto. eapply sl_next; eauto.
        -- exists p1. split; auto. eapply sl_next; eauto.
    + intros [(s' & -> & H)|(p1 & H & K)]; inversion H; subst.
      * apply sl_skip; auto. apply IH. left. eauto.
      * apply sl_this; auto.
      * eapply sl_next; eauto. apply IH. left. eauto.
      * apply sl_skip; auto. apply IH. right. eauto.
      * eapply sl_next; eauto. apply IH. right. eauto.
Qed.

Lemma get_service_iff : forall e lstn glob p o p', selects e (lstn ++ glob) p o p' <->
  get_service e lstn glob p = match o with Some s => SvFound s p' | None => SvNone p' end.
Proof.
  intros e lstn glob p o p'. rewrite selects_app. unfold get_service. split.
  - intros [(s & -> & H)|(p1 & H & K)]; apply search_iff in H; rewrite H; auto. apply search_iff in K. auto.
  - intros H. destruct (search_services e lstn p) as [s p1|p1|u] eqn:E.
    + destruct o as [s'|]; [|discriminate]. injection H as <- <-. left. exists s. split; auto. apply search_iff. auto.
    + right. exists p1. split; [apply search_iff; auto|]. apply search_iff. auto.
    + destruct o; discriminate.
Qed.

Lemma selects_found : forall e l p s p', selects e l p (Some s) p' ->
  svc_disabled s = false /\ exists pre post, l = pre ++ s :: post.
Proof.
  intros e l p s p' H. remember (Some s) as o eqn:Eo. induction H; try discriminate.
  - destruct (IHselects Eo) as (D & pre & post & ->). split; auto. exists (s0 :: pre), post. auto.
  - injection Eo as ->. split; auto. exists [], l. auto.
  - destruct (IHselects Eo) as (D & pre & post & ->). split; auto. exists (s0 :: pre), post. auto.
Qed.

(** With the conditions settled, the selection is by their truth. *)
Lemma selects_truth : forall e A l p,
  Forall (fun s => svc_disabled s = false -> formed (svc_cond s) /\ settles e p A (svc_cond s)) l ->
  exists p', selects e l p (find (fun s => negb (svc_disabled s) && truth A (svc_cond s)) l) p' /\ alike p p'.
Proof.
  intros e A l. induction l as [|s l IH]; intros p F.
  - exists p. split; [constructor|apply alike_refl].
  - pose proof (Forall_inv F) as Hs. apply Forall_inv_tail in F. cbn [find]. destruct (svc_disabled s) eqn:D; cbn [negb andb].
    + destruct (IH p F) as (p' & S & K). exists p'. split; auto. apply sl_skip; auto.
    + destruct (Hs D) as [W H]. destruct (formula e A _ W p H) as (p1 & E & K1).
      destruct (truth A (svc_cond s)) eqn:T.
      * exists p1. split; auto. apply sl_this; auto.
      * assert (F1 : Forall (fun s => svc_disabled s = false -> formed (svc_cond s) /\ settles e p1 A (svc_cond s)) l).
        { eapply Forall_impl; [|exact F]. intros s' K D'. destruct (K D'). split; auto. eapply settles_alike; eauto. }
        destruct (IH p1 F1) as (p2 & S & K2). exists p2. split; [|eapply alike_trans; eauto].
        eapply sl_next; eauto. discriminate.
Qed.

Lemma picks_truth : forall e A alts p, Forall (fun a => formed (fst a) /\ settles e p A (fst a)) alts ->
  exists p', picks e alts p (option_map snd (find (fun a => truth A (fst a)) alts)) p' /\ alike p p'.
Proof.
  intros e A alts. induction alts as [|[c ops] alts IH]; intros p F.
  - exists p. split; [constructor|apply alike_refl].
  - destruct (Forall_inv F) as [W H]. apply Forall_inv_tail in F. cbn [find fst] in *.
    destruct (formula e A c W p H) as (p1 & E & K1). destruct (truth A c).
    + exists p1. split; auto. apply pk_this; auto.
    + assert (F1 : Forall (fun a => formed (fst a) /\ settles e p1 A (fst a)) alts).
      { eapply Forall_impl; [|exact F]. intros a [X Y]. split; auto. eapply settles_alike; eauto. }
      destruct (IH p1 F1) as (p2 & S & K2). exists p2. split; [|eapply alike_trans; eauto].
      eapply pk_next; eauto. discriminate.
Qed.

Lemma picks_fun : forall e alts p o p' o2 p2, picks e alts p o p' -> picks e alts p o2 p2 -> o = o2 /\ p' = p2.
Proof.
  intros e alts p o p' o2 p2 H. revert o2 p2.
  induction H as [p|c ops alts p p' E|c ops alts p r p' o p'' E N H IH]; intros o2 p2 K; inversion K; subst; auto.
  - split; congruence.
  - split; congruence.
  - split; congruence.
  - match goal with X : match_cond e c p = CRes _ ?p1, Y : picks e alts ?p1 _ _ |- _ => rewrite E in X; injection X as <- <-; apply (IH _ _ Y) end.
Qed.

Lemma chosen_branch : forall e A r p,
  Forall (fun a => formed (fst a) /\ settles e p A (fst a)) (alternatives r) ->
  exists p1, alike p p1 /\ forall v p',
    rewrite_rule_check e r p = CRes v p' <->
    match find (fun a => truth A (fst a)) (alternatives r) with
    | Some (_, ops) => performs_all e ops p1 v p'
    | None => v = 0 /\ p' = p1
    end.
Proof.
  intros e A r p F. destruct (picks_truth e A _ p F) as (p1 & P & K). exists p1. split; auto. intros v p'.
  split.
  - intros H. apply rule_sound in H. inversion H as [r0 q q' X|r0 q ops q' v0 q'' X Y]; subst.
    + destruct (picks_fun _ _ _ _ _ _ _ X P) as [E ->]. destruct (find _ _) as [[c ops]|]; [discriminate|]. auto.
    + destruct (picks_fun _ _ _ _ _ _ _ X P) as [E ->]. destruct (find _ _) as [[c ops']|]; [|discriminate].
      injection E as ->. auto.
  - intros H. apply rule_complete. destruct (find _ _) as [[c ops]|]; cbn [option_map snd] in P.
    + eapply ap_some; eauto.
    + destruct H as [-> ->]. apply ap_none; auto.
Qed.

Lemma header_ops : forall e o p v p', performs e o p v p' ->
  match o with
  | REWRITE_HDR_DEL _ | REWRITE_HDR_SET _ => same_req (ph_req p) (ph_req p') /\ ph_smq p' = ph_smq p
  | REWRITE_REWRITE_RULE _ => True
  | _ => ph_headers p' = ph_headers p /\ ph_smq p' = ph_smq p
  end.
Proof.
  intros e o p v p' H. destruct H as [r p v p' H|m p|t p s p' v hs H K|t p s p' H|t p s p' H|t p s p' H|n t p s p' H|o t p p' T H]; auto.
  1: split; auto; apply (same_refl p).
  1-5: apply string_same in H; destruct H as (A & B & C); cbn; auto.
  apply null_same in H; destruct H as (A & B & C). destruct T; auto.
Qed.
