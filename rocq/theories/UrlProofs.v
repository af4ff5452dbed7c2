From Coq Require Import Ascii String List ZArith Bool Lia.
From Verif Require Import Bytes UrlModel UrlSpec.
Import ListNotations.

(** ** Splitting *)

Lemma find_qmark_some : forall p url k, (p <= length url)%nat -> find_qmark p url = Some k ->
  (0 < k <= p)%nat /\ nth k url NUL = QMARK /\ (forall j, (k < j <= p)%nat -> nth j url NUL <> QMARK).
Proof.
  induction p as [|p IH]; intros url k Hp H; simpl find_qmark in H; [discriminate|].
  destruct (beq (nth (S p) url NUL) QMARK) eqn:E.
  - injection H as <-. apply beq_eq in E. repeat split; try lia; auto.
  - apply beq_neq in E. destruct (IH url k ltac:(lia) H) as (A & B & C). repeat split; try lia; auto.
    intros j Hj. destruct (Nat.eq_dec j (S p)) as [->|]; auto. apply C. lia.
Qed.

Lemma find_qmark_none : forall p url, find_qmark p url = None ->
  forall j, (0 < j <= p)%nat -> nth j url NUL <> QMARK.
Proof.
  induction p as [|p IH]; intros url H j Hj; [lia|]. simpl find_qmark in H.
  destruct (beq (nth (S p) url NUL) QMARK) eqn:E; [discriminate|].
  apply beq_neq in E. destruct (Nat.eq_dec j (S p)) as [->|]; auto. eapply IH; eauto. lia.
Qed.

Lemma nth_split_at : forall (l : bytes) k, (k < length l)%nat ->
  l = firstn k l ++ nth k l NUL :: skipn (k + 1) l.
Proof.
  induction l as [|x l IH]; intros k Hk; simpl in Hk; [lia|].
  destruct k; simpl; auto. f_equal. apply IH. lia.
Qed.

Definition split_of (url : bytes) : bytes * option bytes :=
  match find_qmark (length url) url with
  | None => (url, None)
  | Some p =>
      let q := skipn (p + 1) url in
      (firstn p url, match q with [] => None | _ => Some q end)
  end.

Lemma split_parts : forall url, target_parts url (fst (split_of url)) (snd (split_of url)).
Proof.
  intros url. unfold split_of. destruct (find_qmark (length url) url) as [k|] eqn:E.
  - apply find_qmark_some in E; [|lia]. destruct E as (Hk & Hn & Hl).
    assert (Hk': (k < length url)%nat).
    { destruct (Nat.eq_dec k (length url)) as [->|]; [|lia].
      rewrite nth_overflow in Hn by lia. discriminate. }
    pose proof (nth_split_at url k Hk') as Eu. rewrite Hn in Eu.
    assert (Hf: firstn k url <> []).
    { intro C. apply (f_equal (@length _)) in C. rewrite firstn_length in C. simpl in C. lia. }
    cbn [fst snd].
    destruct (skipn (k + 1) url) as [|c q] eqn:Eq.
    + rewrite Eu at 1. apply tp_empty_query. exact Hf.
    + rewrite Eu at 1. apply tp_query; auto; [discriminate|].
      intros Hin. apply (In_nth _ _ NUL) in Hin. destruct Hin as (j & Hj & Hv).
      apply (Hl (k + 1 + j)%nat).
      * pose proof (skipn_length (k + 1) url) as L. rewrite Eq in L. lia.
      * change QMARK with "?"%char. rewrite <- Hv. rewrite <- Eq.
        clear. revert j. generalize (k + 1)%nat as m. intros m j.
        rewrite <- (firstn_skipn m url) at 1.
        destruct (le_lt_dec (length url) m).
        -- rewrite firstn_all2, skipn_all2 by lia. rewrite app_nil_r.
           rewrite nth_overflow by lia. symmetry. destruct j; reflexivity.
        -- rewrite app_nth2; rewrite firstn_length; [|lia]. f_equal. lia.
  - cbn [fst snd]. apply tp_plain. intros Hin. destruct url as [|c u]; [exact Hin|].
    simpl in Hin. apply (In_nth _ _ NUL) in Hin. destruct Hin as (j & Hj & Hv).
    apply (find_qmark_none _ _ E (S j)); [simpl; lia|]. exact Hv.
Qed.

Lemma last_qmark_unique : forall p q p' q', ~ In "?"%char q -> ~ In "?"%char q' ->
  p ++ "?"%char :: q = p' ++ "?"%char :: q' -> p = p' /\ q = q'.
Proof.
  intros p q p' q' H H' E.
  assert (L: forall (p q p' q' : bytes), ~ In "?"%char q -> p ++ "?"%char :: q = p' ++ "?"%char :: q' ->
     (length p' <= length p)%nat).
  { clear. induction p as [|x p IH]; intros q [|y p'] q' H E; simpl; try lia.
    - simpl in E. injection E as _ E. exfalso. apply H. rewrite E. apply in_or_app. right. left. auto.
    - simpl in E. injection E as _ E. specialize (IH _ _ _ H E). lia. }
  pose proof (L _ _ _ _ H E). pose proof (L _ _ _ _ H' (eq_sym E)).
  clear L. revert p' E H0 H1. induction p as [|x p IH]; intros [|y p'] E H0 H1; simpl in *; try lia.
  - injection E as ->. auto.
  - injection E as -> E. destruct (IH p' E) as [-> ->]; auto; lia.
Qed.

Lemma parts_unique : forall u p q p' q', target_parts u p q -> target_parts u p' q' -> p = p' /\ q = q'.
Proof.
  assert (P: forall p q u, p <> [] -> p ++ "?"%char :: q = u -> ~ In "?"%char (tl u) -> False).
  { intros p q u Hp E Hn. apply Hn. subst u. destruct p; [congruence|]. simpl.
    apply in_or_app. right. left. auto. }
  intros u p q p' q' H H'.
  inversion H as [p1 q1 A1 B1 C1 E1|p1 A1 E1|u1 A1 E1]; subst;
  inversion H' as [p2 q2 A2 B2 C2 E2|p2 A2 E2|u2 A2 E2]; subst; auto;
  try (apply last_qmark_unique in E2; [destruct E2; subst; auto; try congruence|auto|auto]);
  exfalso; match goal with
    | Hn : ~ In _ (tl (?p ++ _ :: ?q)), Hp : ?p <> [] |- _ => exact (P p q _ Hp eq_refl Hn)
    end.
Qed.

Lemma parts_compose : forall u p q, target_parts u p q ->
  u = compose p q \/ (q = None /\ u = p ++ ["?"%char]).
Proof.
  intros u p q H. unfold compose. inversion H; subst; auto.
  left. rewrite app_nil_r. auto.
Qed.

(** ** Parameters *)

Lemma notb_amp : forall s, forallb (notb AMP) s = true <-> ~ In "&"%char s.
Proof.
  intros s. rewrite forallb_forall. unfold notb. split.
  - intros H C. specialize (H _ C). rewrite negb_true_iff in H. apply beq_neq in H. apply H. auto.
  - intros H x Hx. rewrite negb_true_iff. apply beq_neq. intros ->. auto.
Qed.
Lemma notb_eqs : forall s, forallb (notb EQS) s = true <-> ~ In "="%char s.
Proof.
  intros s. rewrite forallb_forall. unfold notb. split.
  - intros H C. specialize (H _ C). rewrite negb_true_iff in H. apply beq_neq in H. apply H. auto.
  - intros H x Hx. rewrite negb_true_iff. apply beq_neq. intros ->. auto.
Qed.

Definition parse_piece (s : bytes) : qparam :=
  let '(name, v) := span (notb EQS) s in
  (name, match v with [] => None | _ :: v' => Some v' end).

Lemma parse_piece_iff : forall s p, ~ In "&"%char s -> (parse_piece s = p <-> piece s p).
Proof.
  intros s p Hs. unfold parse_piece.
  pose proof (span_app (notb EQS) s) as A. pose proof (span_fst_all (notb EQS) s) as B.
  pose proof (span_snd_head (notb EQS) s) as C.
  destruct (span (notb EQS) s) as [n v]. cbn [fst snd] in *. apply notb_eqs in B.
  split.
  - intros <-. destruct v as [|c v].
    + rewrite app_nil_r in A. subst n. constructor; auto.
    + specialize (C c v eq_refl). unfold notb in C. rewrite negb_false_iff in C. apply beq_eq in C. subst c.
      rewrite <- A. constructor; auto; intro I; apply Hs; rewrite <- A; apply in_or_app; auto.
      right. right. exact I.
  - intros H. destruct H as [n0 Ha Hb|n0 v0 Ha Hb Hc].
    + destruct v as [|c v]; [rewrite app_nil_r in A; subst; auto|].
      exfalso. specialize (C c v eq_refl). unfold notb in C. rewrite negb_false_iff in C. apply beq_eq in C. subst c.
      apply Hb. rewrite <- A. apply in_or_app. right. left. auto.
    + assert (E: span (notb EQS) (n0 ++ "="%char :: v0) = (n0, "="%char :: v0)).
      { apply span_unique; [apply notb_eqs; auto|reflexivity]. }
      assert (E2: span (notb EQS) (n ++ v) = (n, v)).
      { apply span_unique; [apply notb_eqs; auto|]. destruct v; auto. apply (C a v); auto. }
      rewrite A, E in E2. injection E2 as <- <-. reflexivity.
Qed.

Lemma piece_amp : forall s p, piece s p -> ~ In "&"%char s.
Proof.
  intros s p H. inversion H; subst; auto. intros C. apply in_app_or in C. destruct C as [C|[C|C]]; auto.
  discriminate.
Qed.

Lemma parse_loop_params : forall fuel q, (length q <= fuel)%nat ->
  query_params q (parse_query_loop fuel q).
Proof.
  induction fuel as [|fuel IH]; intros q Hf.
  - destruct q; [constructor|simpl in Hf; lia].
  - destruct q as [|c q]; [constructor|].
    cbn [parse_query_loop].
    pose proof (span_app (notb AMP) (c :: q)) as A. pose proof (span_fst_all (notb AMP) (c :: q)) as B.
    pose proof (span_snd_head (notb AMP) (c :: q)) as C.
    destruct (span (notb AMP) (c :: q)) as [s rest]. cbn [fst snd] in *. apply notb_amp in B.
    match goal with |- query_params _ ?t => replace t with
      (parse_piece s :: parse_query_loop fuel match rest with [] => [] | _ :: r => r end) end.
    2: { unfold parse_piece. destruct (span (notb EQS) s). reflexivity. }
    assert (P: piece s (parse_piece s)) by (apply parse_piece_iff; auto).
    destruct rest as [|d r].
    + rewrite app_nil_r in A. subst s. destruct fuel; simpl; (apply qp_last; [discriminate|exact P]).
    + specialize (C d r eq_refl). unfold notb in C. rewrite negb_false_iff in C. apply beq_eq in C. subst d.
      rewrite <- A. apply qp_cons; auto. apply IH.
      apply (f_equal (@length _)) in A. rewrite app_length in A. simpl in A, Hf. lia.
Qed.

Lemma parse_query_params : forall q, query_params q (parse_query q).
Proof. intros q. apply parse_loop_params. lia. Qed.

Lemma amp_split_unique : forall s s' (q q' : bytes), ~ In "&"%char s -> ~ In "&"%char s' ->
  s ++ "&"%char :: q = s' ++ "&"%char :: q' -> s = s' /\ q = q'.
Proof.
  induction s as [|x s IH]; intros [|y s'] q q' H H' E; simpl in *.
  - injection E as ->. auto.
  - injection E as <- _. exfalso. auto.
  - injection E as -> _. exfalso. auto.
  - injection E as -> E. destruct (IH s' q q') as [-> ->]; auto.
Qed.

Lemma piece_unique : forall s p p', piece s p -> piece s p' -> p = p'.
Proof.
  intros s p p' H H'. pose proof (piece_amp _ _ H) as A.
  apply parse_piece_iff in H; auto. apply parse_piece_iff in H'; auto. congruence.
Qed.

Lemma query_params_unique : forall q ps ps', query_params q ps -> query_params q ps' -> ps = ps'.
Proof.
  intros q ps ps' H. revert ps'. induction H as [|s p Hs Hp|s p q ps Hp Hq IH]; intros ps' H'.
  - inversion H'; subst; auto; [congruence|]. destruct s; discriminate.
  - inversion H'; subst; auto; [congruence| |].
    + f_equal. eapply piece_unique; eauto.
    + exfalso. apply (piece_amp _ _ Hp). apply in_or_app. right. left. auto.
  - inversion H'; subst.
    + destruct s; discriminate.
    + exfalso. eapply piece_amp; eauto. apply in_or_app. right. left. auto.
    + match goal with E : _ ++ _ :: _ = _ ++ _ :: _ |- _ => apply amp_split_unique in E;
        eauto using piece_amp; destruct E as [-> ->] end.
      f_equal; eauto using piece_unique.
Qed.

Definition cleanp (p : qparam) : Prop :=
  clean_name (fst p) /\ match snd p with Some v => clean_value v | None => True end.

Lemma cleanp_piece : forall p, cleanp p <-> piece (param_text p) p.
Proof.
  intros [n [v|]]; unfold cleanp, clean_name, clean_value, param_text; cbn [fst snd].
  - split.
    + intros [[A B] C]. constructor; auto.
    + intros H. inversion H; subst. auto.
  - rewrite app_nil_r. split.
    + intros [[A B] _]. constructor; auto.
    + intros H. inversion H; subst. auto.
Qed.

Lemma piece_text : forall s p, piece s p -> param_text p = s.
Proof.
  intros s p H. inversion H; subst; unfold param_text; cbn [fst snd]; auto using app_nil_r.
Qed.

Lemma query_params_clean : forall q ps, query_params q ps -> Forall cleanp ps.
Proof.
  intros q ps H. induction H; auto.
  - constructor; auto. apply cleanp_piece. rewrite (piece_text _ _ H0). auto.
  - constructor; auto. apply cleanp_piece. rewrite (piece_text _ _ H). auto.
Qed.

(** Rendering and reading back loses at most a final empty parameter. *)
Lemma params_text_cons : forall p ps, params_text false (p :: ps) =
  match ps with [] => param_text p | _ => param_text p ++ AMP :: params_text false ps end.
Proof.
  intros p [|p' ps]; simpl; [rewrite app_nil_r|]; auto.
Qed.

Lemma render_params : forall ps, Forall cleanp ps ->
  exists ps', query_params (params_text false ps) ps' /\ proper ps' = proper ps.
Proof.
  induction ps as [|p ps IH]; intros F.
  - exists []. split; auto. constructor.
  - inversion F; subst. rewrite params_text_cons. destruct ps as [|p2 ps].
    + destruct (param_text p) as [|c t] eqn:E.
      * exists []. split; [constructor|].
        destruct p as [[|x n] [v|]]; unfold param_text in E; simpl in E; try discriminate. reflexivity.
      * exists [p]. split; auto. rewrite <- E. apply qp_last; [congruence|]. apply cleanp_piece. auto.
    + destruct (IH H2) as (ps' & Q & P). exists (p :: ps'). split.
      * apply qp_cons; auto. apply cleanp_piece. auto.
      * unfold proper in *. cbn [filter]. rewrite P. reflexivity.
Qed.

(** ** Model operations and abstract ones *)

Lemma name_test : forall (a b : bytes), (Nat.eqb (length a) (length b) && bytes_eqb a b) = true <-> a = b.
Proof.
  intros a b. split.
  - intros H. apply andb_true_iff in H. apply bytes_eqb_eq. tauto.
  - intros ->. rewrite Nat.eqb_refl, bytes_eqb_refl. reflexivity.
Qed.

Lemma name_test_dec : forall (a b : bytes), (Nat.eqb (length a) (length b) && bytes_eqb a b) =
  if bytes_eq_dec a b then true else false.
Proof.
  intros a b. destruct (bytes_eq_dec a b) as [->|N].
  - apply name_test. auto.
  - apply not_true_iff_false. intro C. apply name_test in C. auto.
Qed.

Lemma find_param_value : forall ps n, option_map snd (find_param ps n) = value_of ps n.
Proof.
  induction ps as [|[m v] ps IH]; intros n; auto. cbn [find_param value_of fst].
  rewrite name_test_dec. destruct (bytes_eq_dec m n); auto.
Qed.

Lemma find_param_none : forall ps n, find_param ps n = None <-> value_of ps n = None.
Proof.
  intros ps n. rewrite <- find_param_value. destruct (find_param ps n); simpl; split; intros; congruence.
Qed.

Lemma change_set : forall ps n v, find_param ps n <> None ->
  change_param ps n (fun p => Some (fst p, Some v)) = set_param ps n v.
Proof.
  induction ps as [|[m w] ps IH]; intros n v H; [simpl in H; congruence|].
  cbn [find_param fst] in H. cbn [change_param set_param fst].
  rewrite name_test_dec in *. destruct (bytes_eq_dec m n); auto. f_equal. auto.
Qed.

Lemma append_set : forall ps n v, find_param ps n = None -> ps ++ [(n, Some v)] = set_param ps n v.
Proof.
  induction ps as [|[m w] ps IH]; intros n v H; auto.
  cbn [find_param fst] in H. cbn [set_param app].
  rewrite name_test_dec in *. destruct (bytes_eq_dec m n); [discriminate|]. f_equal. auto.
Qed.

Lemma change_del : forall ps n, change_param ps n (fun _ => None) = del_param ps n.
Proof.
  induction ps as [|[m w] ps IH]; intros n; auto. cbn [change_param del_param fst].
  rewrite name_test_dec. destruct (bytes_eq_dec m n); auto. f_equal. auto.
Qed.

Lemma set_clean : forall ps n v, Forall cleanp ps -> clean_name n -> clean_value v ->
  Forall cleanp (set_param ps n v).
Proof.
  induction ps as [|[m w] ps IH]; intros n v F Hn Hv; simpl.
  - constructor; [|constructor]. split; auto.
  - inversion F; subst. destruct (bytes_eq_dec m n) as [->|].
    + constructor; auto. split; auto.
    + constructor; auto.
Qed.

Lemma del_clean : forall ps n, Forall cleanp ps -> Forall cleanp (del_param ps n).
Proof.
  induction ps as [|[m w] ps IH]; intros n F; simpl; auto.
  inversion F; subst. destruct (bytes_eq_dec m n); auto.
Qed.

Lemma set_nonempty : forall ps n v, set_param ps n v <> [].
Proof. intros [|[m w] ps] n v; simpl; [discriminate|]. destruct (bytes_eq_dec m n); discriminate. Qed.

(** ** The invariant *)

Definition line_of (r : req) : bytes :=
  r_method r ++ [SP] ++ r_url r ++ [SP] ++ lit "HTTP/1."%string
  ++ [if (r_version r =? 0)%Z then "0"%char else "1"%char].

Definition Inv (r : req) (w : view) : Prop :=
  if r_split r then starts (r_url r) w
  else
    r_path r = Some (v_path w) /\ r_query r = v_query w /\
    (r_url r = compose (v_path w) (v_query w) \/
     (v_query w = None /\ r_url r = v_path w ++ ["?"%char])) /\
    Forall cleanp (v_params w) /\
    (exists ps', opt_params (v_query w) ps' /\ proper ps' = proper (v_params w)) /\
    (r_params r = [] -> opt_params (v_query w) (v_params w)) /\
    (r_params r <> [] -> r_params r = v_params w).

Lemma opt_clean : forall q ps, opt_params q ps -> Forall cleanp ps.
Proof. intros [q|] ps H; simpl in H; [eapply query_params_clean; eauto|subst; auto]. Qed.

Lemma split_fields : forall r,
  r_split (http_request_split r) = false /\ r_url (http_request_split r) = r_url r /\
  r_request (http_request_split r) = r_request r /\ r_orig (http_request_split r) = r_orig r /\
  r_method (http_request_split r) = r_method r /\ r_version (http_request_split r) = r_version r.
Proof.
  intros r. unfold http_request_split. destruct (r_split r) eqn:E; [|auto 10].
  destruct (find_qmark (length (r_url r)) (r_url r)); auto 10.
Qed.

Lemma split_true : forall r, r_split r = true -> http_request_split r =
  mkReq (r_request r) (r_method r) (r_version r) (r_url r)
     (Some (fst (split_of (r_url r)))) (snd (split_of (r_url r))) [] (r_orig r) false.
Proof.
  intros r H. unfold http_request_split, split_of. rewrite H.
  destruct (find_qmark (length (r_url r)) (r_url r)); reflexivity.
Qed.

Lemma split_inv : forall r w, Inv r w -> Inv (http_request_split r) w.
Proof.
  intros r w H. destruct (r_split r) eqn:E.
  - rewrite split_true by auto.
    unfold Inv in H. rewrite E in H. destruct H as [H1 H2].
    pose proof (split_parts (r_url r)) as S.
    destruct (parts_unique _ _ _ _ _ S H1) as [-> ->].
    unfold Inv. cbn.
    repeat split; auto; [apply parts_compose; auto|eapply opt_clean; eauto|eexists; split; eauto|congruence].
  - unfold http_request_split. rewrite E. exact H.
Qed.

Lemma split_false : forall r, r_split (http_request_split r) = false.
Proof. intros r. apply split_fields. Qed.

Lemma inv_get : forall r w, Inv r w ->
  fst (http_request_get_path r) = Some (v_path w) /\ fst (http_request_get_query r) = v_query w.
Proof.
  intros r w H. apply split_inv in H. unfold Inv in H. rewrite split_false in H.
  unfold http_request_get_path, http_request_get_query. cbn. tauto.
Qed.

Lemma param_inv : forall r w n, Inv r w ->
  let r' := snd (http_request_get_query_param r n) in
  Inv r' w /\ r_split r' = false /\ r_params r' = v_params w /\
  fst (http_request_get_query_param r n) = find_param (v_params w) n /\
  r_url r' = r_url r /\ r_request r' = r_request r /\ r_orig r' = r_orig r /\
  r_method r' = r_method r /\ r_version r' = r_version r.
Proof.
  intros r w n H. unfold http_request_get_query_param.
  pose proof (split_fields r) as (F1 & F2 & F3 & F4 & F5 & F6).
  apply split_inv in H. set (r1 := http_request_split r) in *. clearbody r1.
  unfold Inv in H. rewrite F1 in H. destruct H as (H1 & H2 & H3 & Hc & H4 & H5 & H6).
  assert (K: let r2 := match r_params r1 with [] => http_request_parse_query r1 | _ :: _ => r1 end in
     Inv r2 w /\ r_split r2 = false /\ r_params r2 = v_params w /\ r_url r2 = r_url r1 /\ r_request r2 = r_request r1
     /\ r_orig r2 = r_orig r1 /\ r_method r2 = r_method r1 /\ r_version r2 = r_version r1).
  { destruct (r_params r1) as [|p ps] eqn:Ep.
    - specialize (H5 eq_refl).
      unfold http_request_parse_query, http_request_get_query, http_request_split. rewrite F1. cbn [fst snd].
      rewrite H2. destruct (v_query w) as [q|] eqn:Eq.
      + cbn. assert (Eps: parse_query q = v_params w).
        { eapply query_params_unique; [apply parse_query_params|exact H5]. }
        rewrite Ep. cbn [app]. rewrite Eps. repeat split; auto.
        unfold Inv. cbn. rewrite F1, Eq. repeat split; auto.
      + cbn in H5. cbv zeta.
        assert (I: Inv r1 w) by (unfold Inv; rewrite F1, Eq, Ep; cbn; repeat split; auto; congruence).
        repeat split; auto; rewrite Ep, H5; reflexivity.
    - cbv zeta.
      assert (I: Inv r1 w) by (unfold Inv; rewrite F1, Ep; repeat split; auto; congruence).
      rewrite Ep. rewrite H6 by discriminate. repeat split; auto. }
  cbv zeta in *. destruct K as (K1 & K2 & K3 & K4 & K5 & K6 & K7 & K8). cbn [fst snd].
  rewrite K3. repeat split; auto; try congruence.
Qed.

Lemma value_inv : forall r w n, Inv r w ->
  fst (http_request_get_query_param_value r n) = value_of (v_params w) n /\
  Inv (snd (http_request_get_query_param_value r n)) w.
Proof.
  intros r w n H. unfold http_request_get_query_param_value.
  destruct (param_inv r w n H) as (A & _ & _ & B & _).
  destruct (http_request_get_query_param r n) as [q r']. cbn [fst snd] in *.
  subst q. split; auto. apply find_param_value.
Qed.

Lemma rebuilt_inv : forall r w, r_split r = false ->
  r_path r = Some (v_path w) -> r_query r = v_query w -> Forall cleanp (v_params w) ->
  (exists ps', opt_params (v_query w) ps' /\ proper ps' = proper (v_params w)) ->
  (r_params r = [] -> opt_params (v_query w) (v_params w)) ->
  (r_params r <> [] -> r_params r = v_params w) ->
  Inv (http_request_rebuild_url r) w.
Proof.
  intros r w H1 H2 H3 H4 H5 H6 H7. unfold Inv, http_request_rebuild_url, http_request_rebuild_line. cbn.
  rewrite H1, H2, H3. repeat split; auto.
Qed.

Lemma step_inv : forall r w o, Inv r w -> clean_op o -> exists w', vstep w o w' /\ Inv (ustep r o) w'.
Proof.
  intros r w o H Hc. destruct o; cbn [ustep clean_op] in *.
  - (* set url *)
    exists (mkV (fst (split_of u)) (snd (split_of u))
              (match snd (split_of u) with Some q => parse_query q | None => [] end)).
    assert (S: starts u (mkV (fst (split_of u)) (snd (split_of u))
              (match snd (split_of u) with Some q => parse_query q | None => [] end))).
    { split; cbn; [apply split_parts|]. destruct (snd (split_of u)); cbn; auto. apply parse_query_params. }
    split; [constructor; exact S|]. exact S.
  - (* set path *)
    exists (mkV p (v_query w) (v_params w)). split; [constructor|].
    unfold http_request_set_path. pose proof (split_false r) as F. apply split_inv in H.
    set (r1 := http_request_split r) in *. clearbody r1. unfold Inv in H. rewrite F in H.
    destruct H as (H1 & H2 & H3 & H4 & H5 & H6 & H7).
    apply rebuilt_inv; cbn; auto.
  - (* set query *)
    exists (mkV (v_path w) (Some q) (parse_query q)). split; [constructor; apply parse_query_params|].
    unfold http_request_set_query. pose proof (split_false r) as F. apply split_inv in H.
    set (r1 := http_request_split r) in *. clearbody r1. unfold Inv in H. rewrite F in H.
    destruct H as (H1 & H2 & H3 & H4 & H5 & H6 & H7).
    pose proof (parse_query_params q) as Q.
    apply rebuilt_inv; cbn; auto; [eapply query_params_clean; eauto|eauto|congruence].
  - (* set param *)
    destruct Hc as [Hn Hv].
    destruct (param_inv r w n H) as (A & B & C & D & _). unfold http_request_set_query_param.
    destruct (http_request_get_query_param r n) as [q r']. cbn [fst snd] in *. subst q.
    pose proof A as A'. unfold Inv in A'. rewrite B in A'. destruct A' as (P1 & P2 & P3 & P4 & P5 & P6 & P7).
    pose proof (set_clean _ _ _ P4 Hn Hv) as Cl.
    destruct (render_params _ Cl) as (ps' & Q & Pr).
    exists (mkV (v_path w) (Some (params_text false (set_param (v_params w) n v))) (set_param (v_params w) n v)).
    split; [econstructor; eauto|].
    destruct (find_param (v_params w) n) eqn:Ef; rewrite C;
      [rewrite change_set by congruence|rewrite append_set by auto];
      (apply rebuilt_inv; cbn; auto; [eauto|intros E; exfalso; eapply set_nonempty; eauto]).
  - (* delete *)
    destruct (param_inv r w n H) as (A & B & C & D & _). unfold http_request_set_query_param.
    destruct (http_request_get_query_param r n) as [q r']. cbn [fst snd] in *. subst q.
    destruct (find_param (v_params w) n) eqn:Ef.
    + pose proof A as A'. unfold Inv in A'. rewrite B in A'. destruct A' as (P1 & P2 & P3 & P4 & P5 & P6 & P7).
      pose proof (del_clean _ n P4) as Cl. destruct (render_params _ Cl) as (ps' & Q & Pr).
      exists (mkV (v_path w) (Some (params_text false (del_param (v_params w) n))) (del_param (v_params w) n)).
      split; [econstructor; eauto; rewrite <- find_param_none; congruence|].
      rewrite C, change_del. apply rebuilt_inv; cbn; auto; [eauto|].
      intros E. rewrite E in *. cbn. constructor.
    + exists w. split; [|exact A]. apply vs_del_absent. apply find_param_none. auto.
  - exists w. split; [constructor|]. apply split_inv. auto.
  - exists w. split; [constructor|]. apply split_inv. auto.
  - exists w. split; [constructor|]. apply value_inv. auto.
Qed.

Lemma run_inv : forall os r w, Inv r w -> Forall clean_op os -> exists w', vruns w os w' /\ Inv (urun r os) w'.
Proof.
  induction os as [|o os IH]; intros r w H F.
  - exists w. split; [constructor|exact H].
  - inversion F; subst. destruct (step_inv r w o H H2) as (w1 & S & I).
    destruct (IH _ _ I H3) as (w2 & R & I2). exists w2. split; [econstructor; eauto|exact I2].
Qed.

Lemma fresh_inv : forall line m v url, exists w, starts url w /\ Inv (fresh_req line m v url) w.
Proof.
  intros line m v url.
  exists (mkV (fst (split_of url)) (snd (split_of url))
              (match snd (split_of url) with Some q => parse_query q | None => [] end)).
  assert (S: starts url (mkV (fst (split_of url)) (snd (split_of url))
              (match snd (split_of url) with Some q => parse_query q | None => [] end))).
  { split; cbn; [apply split_parts|]. destruct (snd (split_of url)); cbn; auto. apply parse_query_params. }
  split; exact S.
Qed.

(** ** Laws of the abstract parameter list *)

Lemma value_set_same : forall ps n v, value_of (set_param ps n v) n = Some (Some v).
Proof.
  induction ps as [|[m w] ps IH]; intros n v; simpl.
  - destruct (bytes_eq_dec n n); congruence.
  - destruct (bytes_eq_dec m n) as [E|E]; simpl; destruct (bytes_eq_dec m n); try congruence; auto.
Qed.

Lemma value_set_other : forall ps n v m, m <> n -> value_of (set_param ps n v) m = value_of ps m.
Proof.
  induction ps as [|[k w] ps IH]; intros n v m H; simpl.
  - destruct (bytes_eq_dec n m); congruence.
  - destruct (bytes_eq_dec k n) as [->|E]; simpl.
    + destruct (bytes_eq_dec n m); congruence.
    + destruct (bytes_eq_dec k m); auto.
Qed.

Lemma value_del_other : forall ps n m, m <> n -> value_of (del_param ps n) m = value_of ps m.
Proof.
  induction ps as [|[k w] ps IH]; intros n m H; simpl; auto.
  destruct (bytes_eq_dec k n) as [->|E]; simpl.
  - destruct (bytes_eq_dec n m); congruence.
  - destruct (bytes_eq_dec k m); auto.
Qed.

Lemma others_set : forall ps n v, others_of n (set_param ps n v) = others_of n ps.
Proof.
  unfold others_of. induction ps as [|[k w] ps IH]; intros n v; simpl.
  - destruct (bytes_eq_dec n n); congruence.
  - destruct (bytes_eq_dec k n) as [->|E]; simpl.
    + destruct (bytes_eq_dec n n); congruence.
    + destruct (bytes_eq_dec k n); [congruence|]. f_equal. auto.
Qed.

Lemma others_del : forall ps n, others_of n (del_param ps n) = others_of n ps.
Proof.
  unfold others_of. induction ps as [|[k w] ps IH]; intros n; simpl; auto.
  destruct (bytes_eq_dec k n) as [->|E]; simpl; auto.
  destruct (bytes_eq_dec k n); [congruence|]. f_equal. auto.
Qed.

Lemma value_none_notin : forall ps n, ~ In n (map fst ps) -> value_of ps n = None.
Proof.
  induction ps as [|[k w] ps IH]; intros n H; simpl in *; auto.
  destruct (bytes_eq_dec k n); [exfalso; auto|]. auto.
Qed.

Lemma value_del_same : forall ps n, NoDup (map fst ps) -> value_of (del_param ps n) n = None.
Proof.
  induction ps as [|[k w] ps IH]; intros n H; simpl; auto. inversion H; subst.
  destruct (bytes_eq_dec k n) as [->|E]; simpl.
  - apply value_none_notin. auto.
  - destruct (bytes_eq_dec k n); [congruence|]. auto.
Qed.

Lemma proper_others : forall n ps, proper (others_of n ps) = others_of n (proper ps).
Proof.
  intros n ps. unfold proper, others_of. induction ps as [|[[|c k] [v|]] ps IH]; auto; simpl;
  repeat match goal with |- context [bytes_eq_dec ?a ?b] => destruct (bytes_eq_dec a b); simpl end;
  try (rewrite IH); auto.
Qed.

Lemma value_proper : forall ps n, n <> [] -> value_of (proper ps) n = value_of ps n.
Proof.
  unfold proper. induction ps as [|[[|c k] [v|]] ps IH]; intros n H; auto; simpl;
  repeat match goal with |- context [bytes_eq_dec ?a ?b] => destruct (bytes_eq_dec a b); simpl end;
  try congruence; auto.
Qed.

(** ** Histories, as seen through the reading functions *)

Lemma history : forall line m v url os, Forall clean_op os ->
  exists w0 w, starts url w0 /\ vruns w0 os w /\
    let r := urun (fresh_req line m v url) os in
    fst (http_request_get_path r) = Some (v_path w) /\
    fst (http_request_get_query r) = v_query w /\
    forall n, fst (http_request_get_query_param_value r n) = value_of (v_params w) n.
Proof.
  intros line m v url os F. destruct (fresh_inv line m v url) as (w0 & S & I).
  destruct (run_inv os _ _ I F) as (w & R & I'). exists w0, w. split; auto. split; auto.
  cbv zeta. destruct (inv_get _ _ I') as [A B]. repeat split; auto.
  intros n. apply value_inv. auto.
Qed.

Lemma urun_snoc : forall os r o, urun r (os ++ [o]) = ustep (urun r os) o.
Proof. intros os r o. unfold urun. rewrite fold_left_app. reflexivity. Qed.

Lemma reach_inv : forall line m v url os, Forall clean_op os ->
  exists w, Inv (urun (fresh_req line m v url) os) w.
Proof.
  intros line m v url os F. destruct (fresh_inv line m v url) as (w0 & S & I).
  destruct (run_inv os _ _ I F) as (w & R & I'). eauto.
Qed.

(** The target text of a state in which something was set. *)
Lemma set_target : forall r w o, Inv r w -> clean_op o ->
  match o with
  | OSetPath p => r_url (ustep r o) = compose p (v_query w)
  | OSetQuery q => r_url (ustep r o) = compose (v_path w) (Some q)
  | OSetUrl u => r_url (ustep r o) = u
  | OSetParam n v => exists q ps, r_url (ustep r o) = compose (v_path w) (Some q) /\ query_params q ps /\
       proper ps = proper (set_param (v_params w) n v)
  | ODelParam n => value_of (v_params w) n <> None ->
       exists q ps, r_url (ustep r o) = compose (v_path w) (Some q) /\ query_params q ps /\
       proper ps = proper (del_param (v_params w) n)
  | _ => r_url (ustep r o) = r_url r
  end.
Proof.
  intros r w o H Hc. destruct o; cbn [ustep clean_op] in *.
  - reflexivity.
  - unfold http_request_set_path. pose proof (split_false r) as F. apply split_inv in H.
    set (r1 := http_request_split r) in *. clearbody r1. unfold Inv in H. rewrite F in H.
    cbn. destruct H as (_ & -> & _). reflexivity.
  - unfold http_request_set_query. pose proof (split_false r) as F. apply split_inv in H.
    set (r1 := http_request_split r) in *. clearbody r1. unfold Inv in H. rewrite F in H.
    cbn. destruct H as (-> & _). reflexivity.
  - destruct Hc as [Hn Hv].
    destruct (param_inv r w n H) as (A & B & C & D & _). unfold http_request_set_query_param.
    destruct (http_request_get_query_param r n) as [q r']. cbn [fst snd] in *. subst q.
    unfold Inv in A. rewrite B in A. destruct A as (P1 & P2 & P3 & P4 & P5 & P6 & P7).
    destruct (render_params _ (set_clean _ _ _ P4 Hn Hv)) as (ps' & Q & Pr).
    exists (params_text false (set_param (v_params w) n v)), ps'.
    split; [|auto].
    destruct (find_param (v_params w) n) eqn:Ef; rewrite C;
      [rewrite change_set by congruence|rewrite append_set by auto];
      cbn; rewrite P1; reflexivity.
  - intros Hv. destruct (param_inv r w n H) as (A & B & C & D & _). unfold http_request_set_query_param.
    destruct (http_request_get_query_param r n) as [q r']. cbn [fst snd] in *. subst q.
    unfold Inv in A. rewrite B in A. destruct A as (P1 & P2 & P3 & P4 & P5 & P6 & P7).
    destruct (find_param (v_params w) n) eqn:Ef; [|apply find_param_none in Ef; congruence].
    destruct (render_params _ (del_clean _ n P4)) as (ps' & Q & Pr).
    exists (params_text false (del_param (v_params w) n)), ps'.
    split; [|auto]. rewrite C, change_del. cbn. rewrite P1. reflexivity.
  - apply split_fields.
  - apply split_fields.
  - unfold http_request_get_query_param_value.
    destruct (param_inv r w n H) as (_ & _ & _ & _ & E & _).
    destruct (http_request_get_query_param r n). exact E.
Qed.

(** The request line follows the target. *)
Definition is_set (o : uop) : bool :=
  match o with OGetPath | OGetQuery | OGetParam _ => false | _ => true end.

Lemma step_line : forall r o w, Inv r w -> 
  (r_method (ustep r o) = r_method r /\ r_version (ustep r o) = r_version r) /\
  (r_request (ustep r o) = line_of (ustep r o) /\ http_request_orig_line (ustep r o) = http_request_orig_line r
   \/ (r_url (ustep r o) = r_url r /\ r_request (ustep r o) = r_request r /\ r_orig (ustep r o) = r_orig r)).
Proof.
  intros r o w H. pose proof (split_fields r) as (F1 & F2 & F3 & F4 & F5 & F6).
  assert (O: forall r1 r2, r_orig r1 = r_orig r2 -> r_request r1 = r_request r2 ->
     match r_orig r1 with Some o => o | None => r_request r1 end =
     match r_orig r2 with Some o => o | None => r_request r2 end) by (intros ? ? -> ->; auto).
  destruct o; cbn [ustep].
  - split; [split; reflexivity|]. left. split; [reflexivity|]. cbn. unfold http_request_orig_line. cbn.
    destruct (r_orig r); reflexivity.
  - split; [split; [exact F5|exact F6]|]. left. split; [reflexivity|].
    cbn. unfold http_request_orig_line. cbn. rewrite F3, F4. destruct (r_orig r); reflexivity.
  - split; [split; [exact F5|exact F6]|]. left. split; [reflexivity|].
    cbn. unfold http_request_orig_line. cbn. rewrite F3, F4. destruct (r_orig r); reflexivity.
  - destruct (param_inv r w n H) as (_ & _ & _ & _ & E1 & E2 & E3 & E4 & E5).
    unfold http_request_set_query_param. destruct (http_request_get_query_param r n) as [q r']. cbn [snd] in *.
    destruct q; (split; [split; [exact E4|exact E5]|]; left; split; [reflexivity|];
    cbn; unfold http_request_orig_line; cbn; rewrite E2, E3; destruct (r_orig r); reflexivity).
  - destruct (param_inv r w n H) as (_ & _ & _ & _ & E1 & E2 & E3 & E4 & E5).
    unfold http_request_set_query_param. destruct (http_request_get_query_param r n) as [q r']. cbn [snd] in *.
    destruct q; (split; [split; [exact E4|exact E5]|]).
    + left; split; [reflexivity|]. cbn; unfold http_request_orig_line; cbn; rewrite E2, E3; destruct (r_orig r); reflexivity.
    + right. auto.
  - split; [split; [exact F5|exact F6]|]. right. auto.
  - split; [split; [exact F5|exact F6]|]. right. auto.
  - destruct (param_inv r w n H) as (_ & _ & _ & _ & E1 & E2 & E3 & E4 & E5).
    unfold http_request_get_query_param_value. destruct (http_request_get_query_param r n) as [q r'].
    cbn [snd] in *. auto.
Qed.

Lemma run_line : forall os line m v url, Forall clean_op os ->
  let r := urun (fresh_req line m v url) os in
  r_method r = m /\ r_version r = v /\ http_request_orig_line r = line /\
  (r_request r = line_of r \/ (r_url r = url /\ r_request r = line /\ r_orig r = None)).
Proof.
  intros os line m v url. induction os as [|o os IH] using rev_ind; intros F; cbv zeta.
  - cbn. auto 10.
  - apply Forall_app in F. destruct F as [F1 F2]. inversion F2; subst.
    specialize (IH F1). cbv zeta in IH. rewrite urun_snoc.
    destruct (reach_inv line m v url os F1) as (w & I).
    destruct (step_line _ o w I) as ((A1 & A2) & B).
    set (r := urun (fresh_req line m v url) os) in *. clearbody r.
    destruct IH as (C1 & C2 & C3 & C4).
    split; [congruence|]. split; [congruence|].
    destruct B as [[B1 B2]|(B1 & B2 & B3)].
    + split; [congruence|]. auto.
    + split; [unfold http_request_orig_line in *; rewrite B2, B3; auto|].
      destruct C4 as [C4|(C4 & C5 & C6)].
      * left. rewrite B2, C4. unfold line_of. rewrite A1, A2, B1. reflexivity.
      * right. rewrite B1, B2, B3. auto.
Qed.

Lemma set_then_get : forall line m v url os n x, Forall clean_op os -> clean_name n -> clean_value x ->
  let r := urun (fresh_req line m v url) os in
  let r' := http_request_set_query_param r n (Some x) in
  fst (http_request_get_query_param_value r' n) = Some (Some x) /\
  (forall k, k <> n -> fst (http_request_get_query_param_value r' k)
                       = fst (http_request_get_query_param_value r k)) /\
  fst (http_request_get_path r') = fst (http_request_get_path r).
Proof.
  intros line m v url os n x F Hn Hx. cbv zeta.
  destruct (reach_inv line m v url os F) as (w & I).
  set (r := urun (fresh_req line m v url) os) in *. clearbody r.
  destruct (step_inv r w (OSetParam n x) I (conj Hn Hx)) as (w' & S & I'). cbn [ustep] in I'.
  inversion S; subst.
  destruct (value_inv _ _ n I') as [V _]. split; [rewrite V; apply value_set_same|]. split.
  - intros k Hk. destruct (value_inv _ _ k I') as [V1 _]. destruct (value_inv _ _ k I) as [V2 _].
    rewrite V1, V2. cbn. apply value_set_other. auto.
  - destruct (inv_get _ _ I') as [P1 _]. destruct (inv_get _ _ I) as [P2 _]. rewrite P1, P2. reflexivity.
Qed.

Lemma del_then_get : forall line m v url os n, Forall clean_op os -> clean_name n ->
  let r := urun (fresh_req line m v url) os in
  let r' := http_request_set_query_param r n None in
  (forall k, k <> n -> fst (http_request_get_query_param_value r' k)
                       = fst (http_request_get_query_param_value r k)) /\
  fst (http_request_get_path r') = fst (http_request_get_path r).
Proof.
  intros line m v url os n F Hn. cbv zeta.
  destruct (reach_inv line m v url os F) as (w & I).
  set (r := urun (fresh_req line m v url) os) in *. clearbody r.
  destruct (step_inv r w (ODelParam n) I Hn) as (w' & S & I'). cbn [ustep] in I'.
  split.
  - intros k Hk. destruct (value_inv _ _ k I') as [V1 _]. destruct (value_inv _ _ k I) as [V2 _].
    rewrite V1, V2. inversion S; subst; cbn; auto. apply value_del_other. auto.
  - destruct (inv_get _ _ I') as [P1 _]. destruct (inv_get _ _ I) as [P2 _]. rewrite P1, P2.
    inversion S; subst; reflexivity.
Qed.

Lemma vruns_snoc : forall os w w1 o w2, vruns w os w1 -> vstep w1 o w2 -> vruns w (os ++ [o]) w2.
Proof.
  intros os w w1 o w2 H. induction H; intros S; simpl.
  - econstructor; eauto. constructor.
  - econstructor; eauto.
Qed.

(** Everything about one edit after a history, in terms of the target texts. *)
Lemma edit_text : forall line m v url os n x, Forall clean_op os -> clean_name n -> clean_value x ->
  let r := urun (fresh_req line m v url) os in
  let r' := http_request_set_query_param r n (Some x) in
  exists path q ps ps0 q' ps',
    fst (http_request_get_path r) = Some path /\ fst (http_request_get_query r) = q /\
    opt_params q ps0 /\ proper ps0 = proper ps /\
    (forall k, fst (http_request_get_query_param_value r k) = value_of ps k) /\
    http_request_get_url r' = compose path (Some q') /\ query_params q' ps' /\
    proper ps' = proper (set_param ps n x).
Proof.
  intros line m v url os n x F Hn Hx. cbv zeta.
  destruct (reach_inv line m v url os F) as (w & I).
  set (r := urun (fresh_req line m v url) os) in *. clearbody r.
  destruct (set_target r w (OSetParam n x) I (conj Hn Hx)) as (q' & ps' & E & Q & P).
  destruct (inv_get _ _ I) as [P1 P2].
  pose proof (split_inv _ _ I) as I2. unfold Inv in I2. rewrite split_false in I2.
  destruct I2 as (_ & _ & _ & _ & (ps0 & O1 & O2) & _).
  exists (v_path w), (v_query w), (v_params w), ps0, q', ps'. repeat split; auto.
  intros k. apply value_inv. auto.
Qed.
