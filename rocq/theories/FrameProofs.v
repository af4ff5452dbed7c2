From Coq Require Import Ascii String List ZArith Bool Lia.
From Verif Require Import Bytes ClenModel ClenSpec ClenProofs TokModel TokSpec TokProofs
  ReqModel ReqSpec ReqProofs HdrProofs FrameModel FrameSpec.
Import ListNotations.
Open Scope Z_scope.

(** ** Header codes are header names *)

Lemma code_te : forall n, find_hd_type hd_types n = HEADER_TRANSFER_ENCODING <->
  same_letters n (lit "Transfer-Encoding").
Proof.
  intros n. unfold hd_types. cbn [find_hd_type].
  split.
  - intros H.
    repeat match type of H with
    | (if ?x then ?a else _) = _ => destruct x eqn:E; [try discriminate H|clear E]
    end; try discriminate H.
    apply andb_true_iff in E. destruct E as [_ E]. apply ci_eqb_eq in E. exact E.
  - intros H. assert (X: ci_eqb n (lit "Transfer-encoding") = true).
    { apply ci_eqb_eq. exact H. }
    rewrite X, (ci_eqb_length _ _ X). reflexivity.
Qed.

Lemma code_cl : forall n, find_hd_type hd_types n = HEADER_CONTENT_LENGTH <->
  same_letters n (lit "Content-Length").
Proof.
  intros n. unfold hd_types. cbn [find_hd_type].
  split.
  - intros H.
    repeat match type of H with
    | (if ?x then ?a else _) = _ => destruct x eqn:E; [try discriminate H|clear E]
    end; try discriminate H.
    apply andb_true_iff in E. destruct E as [_ E]. apply ci_eqb_eq in E. exact E.
  - intros H. assert (X: ci_eqb n (lit "Content-length") = true).
    { apply ci_eqb_eq. exact H. }
    destruct (_ && _) eqn:Y.
    + apply andb_true_iff in Y. destruct Y as [Y _]. rewrite (ci_eqb_length _ _ X) in Y.
      vm_compute in Y. discriminate.
    + rewrite X, (ci_eqb_length _ _ X). reflexivity.
Qed.

Definition is_te (h : header) : bool := is_named (lit "Transfer-Encoding") (hfield h).
Definition is_cl (h : header) : bool := is_named (lit "Content-Length") (hfield h).

Lemma good_code : forall h, good h -> h_code h = find_hd_type hd_types (h_name h).
Proof.
  intros h Hg. pose proof (good_field _ Hg) as Hf. destruct Hg as [E _].
  rewrite E at 1. rewrite (qualify_field _ _ _ Hf). reflexivity.
Qed.

Lemma is_te_code : forall h, good h -> is_te h = true <-> h_code h = HEADER_TRANSFER_ENCODING.
Proof.
  intros h Hg. rewrite good_code, code_te by auto. unfold is_te. rewrite is_named_iff. reflexivity.
Qed.

Lemma is_cl_code : forall h, good h -> is_cl h = true <-> h_code h = HEADER_CONTENT_LENGTH.
Proof.
  intros h Hg. rewrite good_code, code_cl by auto. unfold is_cl. rewrite is_named_iff. reflexivity.
Qed.

(** ** The two independent scans *)

Fixpoint te_fold (t : tenc) (vs : list bytes) : option tenc :=
  match vs with
  | [] => Some t
  | v :: vs' =>
      match t with
      | TE_CHUNKED => None
      | _ =>
          match cs_locate_token v (lit "chunked") true with
          | Some (_, []) => te_fold TE_CHUNKED vs'
          | Some (_, _ :: _) => None
          | None => te_fold TE_UNKNOWN vs'
          end
      end
  end.

Fixpoint cl_fold (c : Z) (vs : list bytes) : option Z :=
  match vs with
  | [] => Some c
  | v :: vs' =>
      if negb (c =? NO_CONTENT_LENGTH) || existsb (beq COMMA) v then None
      else let n := get_content_length v CL_HEADER in
           if n =? NO_CONTENT_LENGTH then None else cl_fold n vs'
  end.

Definition te_vals (hs : list header) : list bytes := values "Transfer-Encoding" (hfields hs).
Definition cl_vals (hs : list header) : list bytes := values "Content-Length" (hfields hs).

Lemma te_vals_cons : forall h hs, te_vals (h :: hs) = if is_te h then h_val h :: te_vals hs else te_vals hs.
Proof.
  intros h hs. unfold te_vals, values, is_te, hfields. cbn [map filter].
  destruct (is_named (lit "Transfer-Encoding") (hfield h)); reflexivity.
Qed.
Lemma cl_vals_cons : forall h hs, cl_vals (h :: hs) = if is_cl h then h_val h :: cl_vals hs else cl_vals hs.
Proof.
  intros h hs. unfold cl_vals, values, is_cl, hfields. cbn [map filter].
  destruct (is_named (lit "Content-Length") (hfield h)); reflexivity.
Qed.

Lemma code_bools : forall h, good h ->
  is_te h = match h_code h with HEADER_TRANSFER_ENCODING => true | _ => false end /\
  is_cl h = match h_code h with HEADER_CONTENT_LENGTH => true | _ => false end.
Proof.
  intros h Hg. pose proof (is_te_code h Hg) as [A1 A2]. pose proof (is_cl_code h Hg) as [B1 B2].
  destruct (is_te h), (is_cl h), (h_code h); split; auto;
  try (specialize (A1 eq_refl); discriminate); try (specialize (B1 eq_refl); discriminate);
  try (specialize (A2 eq_refl); discriminate); try (specialize (B2 eq_refl); discriminate).
Qed.

Lemma scan_split : forall hs sc, Forall good hs ->
  match scan_headers sc hs with
  | inl st => st = ST_400 /\ (te_fold (sc_te sc) (te_vals hs) = None \/ cl_fold (sc_cl sc) (cl_vals hs) = None)
  | inr sc' => te_fold (sc_te sc) (te_vals hs) = Some (sc_te sc') /\
               cl_fold (sc_cl sc) (cl_vals hs) = Some (sc_cl sc')
  end.
Proof.
  induction hs as [|h hs IH]; intros sc Hg.
  - simpl. auto.
  - inversion Hg as [|? ? G1 G2]; subst. cbn [scan_headers].
    rewrite te_vals_cons, cl_vals_cons.
    destruct (code_bools h G1) as [-> ->].
    unfold scan_header.
    destruct (h_code h) eqn:Ec;
      try (match goal with |- context [scan_headers ?s hs] => exact (IH s G2) end).
    + (* TE *)
      cbn [te_fold]. destruct (sc_te sc) eqn:Et; auto;
      (destruct (cs_locate_token (h_val h) (lit "chunked") true) as [[p [|c r]]|]; auto;
       match goal with |- context [scan_headers ?s hs] => specialize (IH s G2); exact IH end).
    + (* CL *)
      cbn [cl_fold]. destruct (negb (sc_cl sc =? NO_CONTENT_LENGTH) || existsb (beq COMMA) (h_val h)); auto.
      destruct (get_content_length (h_val h) CL_HEADER =? NO_CONTENT_LENGTH) eqn:En; auto.
      match goal with |- context [scan_headers ?s hs] => specialize (IH s G2); exact IH end.
    + (* Connection *)
      match goal with |- context [scan_headers ?s hs] => specialize (IH s G2) end.
      destruct (cs_locate_token (h_val h) (lit "close") true); auto.
      destruct (conn_upgrd (h_val h)); auto.
    + (* Expect *)
      destruct (ci_eqb (lit "100-continue") (h_val h));
      match goal with |- context [scan_headers ?s hs] => specialize (IH s G2); exact IH end.
    + (* Upgrade *)
      match goal with |- context [scan_headers ?s hs] => specialize (IH s G2) end.
      destruct (cs_locate_token (h_val h) (lit "websocket") true); auto.
Qed.

(** ** Meaning of the two scans *)

Lemma locate_none_no_chunked : forall v,
  cs_locate_token v (lit "chunked") true = None <-> no_chunked v.
Proof.
  intros v. pose proof (locate_found_iff v (lit "chunked") true ltac:(discriminate)) as H.
  split.
  - intros E e He (t & Hs & Hm). destruct (proj2 H) as (r & Hr); [eauto|]. congruence.
  - intros Hn. destruct (cs_locate_token v (lit "chunked") true) as [r|]; auto.
    destruct (proj1 H) as (e & t & He & Hs & Hm); [eauto|]. exfalso. eapply Hn; eauto. exists t. auto.
Qed.

Lemma is_chunked_str : forall e, is_chunked e <-> str_eqb true (trim e) (lit "chunked") = true.
Proof.
  intros e. rewrite str_eqb_same. unfold is_chunked. simpl. split.
  - intros (t & Hs & Hm). apply stripped_trim in Hs. subst. exact Hm.
  - intros H. exists (trim e). split; [apply trim_stripped|exact H].
Qed.

(** Two first occurrences coincide. *)
Lemma first_occurrence_unique : forall v pre e post pre' e' post',
  element_at v pre e post -> element_at v pre' e' post' ->
  is_chunked e -> is_chunked e' ->
  (forall q, pre = q ++ [","%char] -> no_chunked q) ->
  (forall q, pre' = q ++ [","%char] -> no_chunked q) -> pre = pre' /\ e = e' /\ post = post'.
Proof.
  assert (L: forall v pre e post pre' e' post',
    element_at v pre e post -> element_at v pre' e' post' ->
    is_chunked e -> (forall q, pre' = q ++ [","%char] -> no_chunked q) ->
    (length pre' <= length pre)%nat).
  { intros v pre e post pre' e' post' (E & He & Hpre & Hpost) (E' & He' & Hpre' & Hpost') Hc Hn.
    destruct (le_lt_dec (length pre') (length pre)) as [|Hlt]; auto. exfalso.
    destruct Hpre' as [->|(q & ->)]; [simpl in Hlt; lia|].
    specialize (Hn q eq_refl).
    rewrite app_length in Hlt. simpl in Hlt.
    (* e is an element of q *)
    rewrite E in E'. rewrite <- app_assoc in E'. simpl in E'.
    assert (X: exists d, q = pre ++ d /\ e ++ post = d ++ ","%char :: e' ++ post').
    { clear - E' Hlt. revert q E' Hlt. induction pre as [|x pre IH]; intros q E' Hlt.
      - exists q. auto.
      - destruct q as [|y q]; [simpl in Hlt; lia|]. simpl in E'. injection E' as <- E'.
        destruct (IH q E') as (d & -> & Ed); [simpl in Hlt; lia|]. exists d. auto. }
    destruct X as (d & -> & Ed).
    assert (Y: exists d2, d = e ++ d2 /\ post = d2 ++ ","%char :: e' ++ post').
    { clear - Ed He. revert d Ed. induction e as [|x e IH]; intros d Ed.
      - exists d. auto.
      - destruct d as [|y d]; simpl in Ed; injection Ed as Ex Ed.
        + exfalso. apply He. left. auto.
        + subst y. destruct (IH (fun h => He (or_intror h)) d Ed) as (d2 & -> & E2). exists d2. auto. }
    destruct Y as (d2 & -> & Ep).
    apply (Hn e); auto. exists pre, d2. repeat split; auto.
    destruct Hpost as [->|(z & ->)]; [destruct d2; discriminate|].
    destruct d2 as [|y d2]; [left; reflexivity|]. right. injection Ep as <- _. eauto. }
  intros v pre e post pre' e' post' H H' Hc Hc' Hn Hn'.
  assert (Hlen: length pre = length pre').
  { pose proof (L _ _ _ _ _ _ _ H H' Hc Hn'). pose proof (L _ _ _ _ _ _ _ H' H Hc' Hn). lia. }
  destruct H as (E & He & Hpre & Hpost). destruct H' as (E' & He' & Hpre' & Hpost').
  rewrite E in E'.
  assert (Ep: pre = pre' /\ e ++ post = e' ++ post').
  { clear - E' Hlen. revert pre' E' Hlen. induction pre as [|x pre IH]; intros [|y pre'] E' Hlen;
      simpl in *; try discriminate; auto.
    injection E' as <- E'. injection Hlen as Hlen. destruct (IH _ E' Hlen) as [-> ?]. auto. }
  destruct Ep as [-> Ep]. split; auto.
  assert (A: span notcomma (e ++ post) = (e, post)).
  { apply span_unique; [apply notcomma_in; auto|]. destruct Hpost as [->|(z & ->)]; reflexivity. }
  assert (B: span notcomma (e' ++ post') = (e', post')).
  { apply span_unique; [apply notcomma_in; auto|]. destruct Hpost' as [->|(z & ->)]; reflexivity. }
  rewrite Ep, B in A. injection A as -> ->. auto.
Qed.

Lemma locate_chunked_shape : forall v p next,
  cs_locate_token v (lit "chunked") true = Some (p, next) ->
  exists pre e post, element_at v pre e post /\ is_chunked e /\
    (post = [] /\ next = [] \/ post = ","%char :: next) /\
    (forall q, pre = q ++ [","%char] -> no_chunked q).
Proof.
  intros v p next H. apply locate_first in H.
  destruct H as (pre & e & t & post & H1 & H2 & H3 & H4 & H5).
  exists pre, e, post. split; auto. split; [exists t; auto|]. split; auto.
  intros q Hq e' He' (t' & Hs' & Hm'). eapply H5; eauto.
Qed.

Lemma locate_last : forall v,
  (exists p, cs_locate_token v (lit "chunked") true = Some (p, [])) <-> chunked_last v.
Proof.
  intros v. split.
  - intros (p & H). destruct (locate_chunked_shape _ _ _ H) as (pre & e & post & H1 & H2 & H3 & H4).
    exists pre, e, post. repeat split; auto; try apply H1.
    destruct H3 as [[-> _]| ->]; auto.
  - intros (pre & e & post & H1 & H2 & H3 & H4).
    destruct (cs_locate_token v (lit "chunked") true) as [[p next]|] eqn:E.
    + destruct (locate_chunked_shape _ _ _ E) as (pre' & e' & post' & K1 & K2 & K3 & K4).
      destruct (first_occurrence_unique _ _ _ _ _ _ _ H1 K1 H2 K2 H4 K4) as (-> & -> & ->).
      exists p. f_equal. f_equal.
      destruct K3 as [[_ ->]|Ep]; auto. subst post'. destruct H3 as [H3|H3]; [discriminate|].
      injection H3 as ->. reflexivity.
    + apply locate_none_no_chunked in E. exfalso. eapply E; eauto. exists pre, post. exact H1.
Qed.

Lemma te_fold_chunked : forall vs r, te_fold TE_CHUNKED vs = Some r -> vs = [] /\ r = TE_CHUNKED.
Proof. intros [|v vs] r H; simpl in H; [|discriminate]. injection H as <-. auto. Qed.

Lemma te_fold_spec : forall vs t r, t <> TE_CHUNKED -> te_fold t vs = Some r ->
  match r with
  | TE_NONE => vs = [] /\ t = TE_NONE
  | TE_UNKNOWN => Forall no_chunked vs /\ (vs = [] -> t = TE_UNKNOWN)
  | TE_CHUNKED => exists us v, vs = us ++ [v] /\ Forall no_chunked us /\ chunked_last v
  end.
Proof.
  induction vs as [|v vs IH]; intros t r Ht H.
  - simpl in H. injection H as <-. destruct t; try congruence; auto.
  - cbn [te_fold] in H.
    assert (H': match cs_locate_token v (lit "chunked") true with
          | Some (_, []) => te_fold TE_CHUNKED vs
          | Some (_, _ :: _) => None
          | None => te_fold TE_UNKNOWN vs
          end = Some r) by (destruct t; congruence). clear H.
    destruct (cs_locate_token v (lit "chunked") true) as [[p [|c n]]|] eqn:E; try discriminate.
    + apply te_fold_chunked in H'. destruct H' as [-> ->].
      exists [], v. repeat split; auto. apply locate_last. eauto.
    + apply locate_none_no_chunked in E.
      pose proof (IH TE_UNKNOWN r ltac:(discriminate) H') as K.
      destruct r.
      * destruct K; discriminate.
      * destruct K as (us & w & -> & F & L). exists (v :: us), w. repeat split; auto.
      * destruct K as [F _]. split; [constructor; auto|discriminate].
Qed.

Lemma te_fold_unknown_complete : forall vs t, t <> TE_CHUNKED -> Forall no_chunked vs -> vs <> [] ->
  te_fold t vs = Some TE_UNKNOWN.
Proof.
  induction vs as [|v vs IH]; intros t Ht F Hne; [congruence|].
  inversion F; subst. apply locate_none_no_chunked in H1. cbn [te_fold]. rewrite H1.
  assert (te_fold TE_UNKNOWN vs = Some TE_UNKNOWN).
  { destruct vs; [reflexivity|]. apply IH; auto; discriminate. }
  destruct t; congruence.
Qed.

Lemma te_fold_chunked_complete : forall us v t, t <> TE_CHUNKED -> Forall no_chunked us ->
  chunked_last v -> te_fold t (us ++ [v]) = Some TE_CHUNKED.
Proof.
  induction us as [|u us IH]; intros v t Ht F L.
  - apply locate_last in L. destruct L as (p & L). simpl app. cbn [te_fold]. rewrite L.
    destruct t; congruence || reflexivity.
  - inversion F; subst. apply locate_none_no_chunked in H1. cbn [app te_fold]. rewrite H1.
    rewrite IH; auto; try discriminate. destruct t; congruence.
Qed.

Lemma cl_fold_spec : forall vs r, cl_fold NO_CONTENT_LENGTH vs = Some r <->
  (vs = [] /\ r = NO_CONTENT_LENGTH) \/ (exists v, vs = [v] /\ content_length_value v r).
Proof.
  intros vs r. destruct vs as [|v vs].
  - simpl. split.
    + intros H. injection H as <-. auto.
    + intros [[_ ->]|(v & H & _)]; [auto|discriminate].
  - cbn [cl_fold]. rewrite Z.eqb_refl. cbn [negb orb]. split.
    + intros H. destruct (existsb (beq COMMA) v); [discriminate|].
      destruct (get_content_length v CL_HEADER =? NO_CONTENT_LENGTH) eqn:En; [discriminate|].
      apply Z.eqb_neq in En. right. exists v.
      destruct vs as [|v2 vs].
      * simpl in H. injection H as <-. split; auto. apply header_length_iff. auto.
      * cbn [cl_fold] in H. apply Z.eqb_neq in En. rewrite En in H. discriminate.
    + intros [[H _]|(v' & E & Hv)]; [discriminate|]. injection E as -> ->.
      pose proof Hv as Hv'. apply header_length_iff in Hv. destruct Hv as [Hg Hr].
      assert (Hc: existsb (beq COMMA) v' = false).
      { destruct Hv' as (l & ds & rr & -> & Fl & Fr & Hnum & _).
        apply not_true_iff_false. intros C. apply existsb_exists in C. destruct C as (c & Hin & Hc).
        apply beq_eq in Hc. subst c.
        assert (D: forall ds n, numeral decimal 10 ds n -> ~ In COMMA ds).
        { induction 1 as [c d Hd|s v0 c d Hs IHs Hd]; intros Hi.
          - destruct Hi as [->|[]]. destruct Hd as [_ Hd]. apply nth_error_In in Hd.
            vm_compute in Hd. decompose [or] Hd; try discriminate; contradiction.
          - apply in_app_or in Hi. destruct Hi as [Hi|[->|[]]]; auto.
            destruct Hd as [_ Hd]. apply nth_error_In in Hd.
            vm_compute in Hd. decompose [or] Hd; try discriminate; contradiction. }
        apply in_app_or in Hin. destruct Hin as [Hin|Hin].
        - rewrite Forall_forall in Fl. apply Fl in Hin. destruct Hin; discriminate.
        - apply in_app_or in Hin. destruct Hin as [Hin|Hin]; [eapply D; eauto|].
          rewrite Forall_forall in Fr. apply Fr in Hin. destruct Hin; discriminate. }
      rewrite Hc, Hg. apply Z.eqb_neq in Hr. rewrite Hr. reflexivity.
Qed.

Lemma content_length_nonneg : forall v n, content_length_value v n -> n <> NO_CONTENT_LENGTH.
Proof. intros v n H. apply header_length_iff in H. tauto. Qed.

(** ** The decision *)

Definition decided (sc : scan) : framing :=
  match sc_te sc with
  | TE_CHUNKED => Chunked
  | _ => if sc_cl sc =? NO_CONTENT_LENGTH then NoBody else Length (sc_cl sc)
  end.

Lemma check_framing_sound : forall hs sc, Forall good hs -> check_framing hs = inr sc ->
  framing_of (hfields hs) (decided sc).
Proof.
  intros hs sc Hg H. unfold check_framing in H.
  pose proof (scan_split hs scan0 Hg) as S.
  destruct (scan_headers scan0 hs) as [st|sc']; [discriminate|].
  destruct S as [S1 S2]. cbn [scan0 sc_te sc_cl] in S1, S2.
  pose proof (te_fold_spec _ TE_NONE _ ltac:(discriminate) S1) as T. apply cl_fold_spec in S2.
  unfold te_vals, cl_vals in *.
  destruct (sc_te sc') eqn:Et.
  - injection H as <-. unfold decided. rewrite Et. destruct T as [T _].
    destruct S2 as [[C ->]|(v & C & Hv)].
    + rewrite Z.eqb_refl. constructor; auto.
    + pose proof (content_length_nonneg _ _ Hv) as Hne. apply Z.eqb_neq in Hne. rewrite Hne.
      econstructor; eauto.
  - destruct (sc_cl sc' =? NO_CONTENT_LENGTH) eqn:Ec; [|discriminate].
    injection H as <-. unfold decided. rewrite Et. apply Z.eqb_eq in Ec.
    destruct T as (us & v & Tv & F & L).
    destruct S2 as [[C _]|(w & C & Hv)].
    + econstructor; eauto.
    + apply content_length_nonneg in Hv. congruence.
  - discriminate.
Qed.

Lemma check_framing_complete : forall hs f, Forall good hs -> framing_of (hfields hs) f ->
  exists sc, check_framing hs = inr sc /\ decided sc = f.
Proof.
  intros hs f Hg Hf. unfold check_framing.
  pose proof (scan_split hs scan0 Hg) as S.
  assert (K: exists t c, te_fold TE_NONE (te_vals hs) = Some t /\
                        cl_fold NO_CONTENT_LENGTH (cl_vals hs) = Some c /\
     match f with
     | NoBody => t = TE_NONE /\ c = NO_CONTENT_LENGTH
     | Length n => t = TE_NONE /\ c = n /\ n <> NO_CONTENT_LENGTH
     | Chunked => t = TE_CHUNKED /\ c = NO_CONTENT_LENGTH
     end).
  { unfold te_vals, cl_vals. inversion Hf; subst.
    - rewrite H, H0. exists TE_NONE, NO_CONTENT_LENGTH. auto.
    - rewrite H, H0. exists TE_NONE, n. split; auto. split.
      + apply cl_fold_spec. right. eauto.
      + apply content_length_nonneg in H1. auto.
    - rewrite H, H0. exists TE_CHUNKED, NO_CONTENT_LENGTH. split; auto.
      apply te_fold_chunked_complete; auto. discriminate. }
  destruct K as (t & c & Kt & Kc & K).
  destruct (scan_headers scan0 hs) as [st|sc].
  - cbn [scan0 sc_te sc_cl] in S. destruct S as [_ [S|S]]; congruence.
  - cbn [scan0 sc_te sc_cl] in S. destruct S as [S1 S2].
    assert (Et: sc_te sc = t) by congruence. assert (Ec: sc_cl sc = c) by congruence.
    unfold decided. destruct f.
    + destruct K as [-> ->]. rewrite Et. exists sc. split; auto. rewrite Et, Ec. reflexivity.
    + destruct K as (-> & -> & Hn). rewrite Et. exists sc. split; auto. rewrite Et, Ec.
      apply Z.eqb_neq in Hn. rewrite Hn. reflexivity.
    + destruct K as [-> ->]. rewrite Et, Ec, Z.eqb_refl. exists sc. split; auto. rewrite Et. auto.
Qed.

Lemma framing_unique : forall fs f f', framing_of fs f -> framing_of fs f' -> f = f'.
Proof.
  intros fs f f' H H'. inversion H; inversion H'; subst; try congruence.
  - match goal with A : values ?x fs = [], B : values ?x fs = ?us ++ [?v] |- _ =>
      rewrite A in B; destruct us; discriminate end.
  - f_equal. assert (v = v0) by congruence. subst.
    match goal with A : content_length_value _ n, B : content_length_value _ n0 |- _ =>
      apply header_length_iff in A; apply header_length_iff in B; destruct A, B; congruence end.
  - match goal with A : values ?x fs = [], B : values ?x fs = ?us ++ [?v] |- _ =>
      rewrite A in B; destruct us; discriminate end.
Qed.

Lemma check_framing_refuse : forall hs st, Forall good hs -> check_framing hs = inl st ->
  (forall f, ~ framing_of (hfields hs) f) /\ (st = ST_400 \/ st = ST_501).
Proof.
  intros hs st Hg H. split.
  - intros f Hf. destruct (check_framing_complete hs f Hg Hf) as (sc & E & _). congruence.
  - unfold check_framing in H. pose proof (scan_split hs scan0 Hg) as S.
    destruct (scan_headers scan0 hs) as [st'|sc].
    + injection H as <-. destruct S as [-> _]. auto.
    + destruct (sc_te sc); try discriminate.
      * destruct (sc_cl sc =? NO_CONTENT_LENGTH); [discriminate|]. injection H as <-. auto.
      * injection H as <-. auto.
Qed.

Lemma check_framing_501 : forall hs, Forall good hs ->
  (check_framing hs = inl ST_501 <-> unknown_coding (hfields hs)).
Proof.
  intros hs Hg. unfold check_framing, unknown_coding.
  pose proof (scan_split hs scan0 Hg) as S. fold (te_vals hs) (cl_vals hs).
  destruct (scan_headers scan0 hs) as [st'|sc]; cbn [scan0 sc_te sc_cl] in S.
  - destruct S as [-> S]. split; [discriminate|]. intros (H1 & H2 & H3). exfalso.
    destruct S as [S|S].
    + rewrite te_fold_unknown_complete in S; auto; discriminate.
    + destruct H3 as [H3|(v & n & H3 & Hv)]; rewrite H3 in S; [discriminate|].
      assert (X: cl_fold NO_CONTENT_LENGTH [v] = Some n) by (apply cl_fold_spec; eauto). congruence.
  - destruct S as [S1 S2]. pose proof (te_fold_spec _ TE_NONE _ ltac:(discriminate) S1) as T.
    apply cl_fold_spec in S2.
    destruct (sc_te sc).
    + split; [discriminate|]. intros (H & _). destruct T; congruence.
    + destruct T as (us & v & E & F & L).
      split; [destruct (sc_cl sc =? NO_CONTENT_LENGTH); discriminate|].
      intros (H1 & H2 & _). exfalso. rewrite E in H2. apply Forall_app in H2. destruct H2 as [_ H2].
      inversion H2; subst. destruct L as (pre & e & post & L1 & L2 & _). eapply H3; eauto.
      exists pre, post. exact L1.
    + split; auto. intros _. destruct T as [T1 T2]. repeat split; auto.
      * intro C. rewrite C in *. specialize (T2 eq_refl). discriminate.
      * destruct S2 as [[-> _]|(v & -> & Hv)]; eauto.
Qed.

(** ** The forwarded headers *)

Lemma scan_kept : forall hs sc sc', scan_headers sc hs = inr sc' ->
  exists k, sc_kept sc' = sc_kept sc ++ k /\
    k = filter (fun h => match h_code h with
                         | HEADER_EXPECT => negb (ci_eqb (lit "100-continue") (h_val h))
                         | HEADER_ILLEGAL => false
                         | _ => true end) hs.
Proof.
  induction hs as [|h hs IH]; intros sc sc' H.
  - injection H as <-. exists []. rewrite app_nil_r. auto.
  - cbn [scan_headers] in H. destruct (scan_header sc h) as [st|sc1] eqn:E1; [discriminate|].
    destruct (IH _ _ H) as (k & Ek & Hk). clear IH H. cbn [filter]. rewrite <- Hk.
    unfold scan_header in E1. rewrite Ek. clear Ek Hk.
    destruct (h_code h);
      try (injection E1 as <-; exists (h :: k); cbn [keep sc_kept]; rewrite <- app_assoc; auto; fail).
    + injection E1 as <-. exists k. auto.
    + destruct (sc_te sc); try discriminate;
      destruct (cs_locate_token (h_val h) (lit "chunked") true) as [[p [|c r]]|]; try discriminate;
      injection E1 as <-; exists (h :: k); cbn [keep sc_kept]; rewrite <- app_assoc; auto.
    + destruct (negb (sc_cl sc =? NO_CONTENT_LENGTH) || existsb (beq COMMA) (h_val h)); [discriminate|].
      destruct (get_content_length (h_val h) CL_HEADER =? NO_CONTENT_LENGTH); [discriminate|].
      injection E1 as <-; exists (h :: k); cbn [keep sc_kept]; rewrite <- app_assoc; auto.
    + injection E1 as <-; exists (h :: k).
      cbn [keep sc_kept]; rewrite <- app_assoc;
      repeat match goal with |- context [match ?x with _ => _ end] => destruct x end; auto.
    + destruct (ci_eqb (lit "100-continue") (h_val h)); injection E1 as <-; cbn [negb].
      * exists k. auto.
      * exists (h :: k). cbn [keep sc_kept]. rewrite <- app_assoc. auto.
    + injection E1 as <-; exists (h :: k).
      cbn [keep sc_kept]; rewrite <- app_assoc;
      repeat match goal with |- context [match ?x with _ => _ end] => destruct x end; auto.
Qed.

Lemma kept_framing : forall hs sc f, Forall good hs -> check_framing hs = inr sc ->
  framing_of (hfields hs) f <-> framing_of (hfields (sc_kept sc)) f.
Proof.
  intros hs sc f Hg H.
  assert (E: scan_headers scan0 hs = inr sc).
  { unfold check_framing in H. destruct (scan_headers scan0 hs) as [|sc']; [discriminate|].
    destruct (sc_te sc'); try discriminate; try congruence.
    destruct (sc_cl sc' =? NO_CONTENT_LENGTH); congruence. }
  destruct (scan_kept _ _ _ E) as (k & Ek & Hk). cbn [scan0 sc_kept app] in Ek.
  assert (T: te_vals (sc_kept sc) = te_vals hs /\ cl_vals (sc_kept sc) = cl_vals hs).
  { rewrite Ek, Hk. clear - Hg. induction hs as [|h hs IH]; auto.
    inversion Hg as [|? ? G1 G2]; subst. destruct (IH G2) as [I1 I2]. cbn [filter].
    destruct (code_bools h G1) as [B1 B2].
    rewrite (te_vals_cons h hs), (cl_vals_cons h hs).
    destruct (h_code h) eqn:Ec; rewrite ?B1, ?B2;
      try (rewrite te_vals_cons, cl_vals_cons, B1, B2, I1, I2; auto; fail); auto.
    destruct (negb _); rewrite ?te_vals_cons, ?cl_vals_cons, ?B1, ?B2, ?I1, ?I2; auto. }
  destruct T as [T1 T2]. unfold te_vals, cl_vals in *.
  split; intros F; inversion F; subst; econstructor; eauto; congruence.
Qed.

Lemma same_framing_fields : forall hs hs' sc, Forall good hs -> Forall good hs' ->
  values "Transfer-Encoding" (hfields hs) = values "Transfer-Encoding" (hfields hs') ->
  values "Content-Length" (hfields hs) = values "Content-Length" (hfields hs') ->
  check_framing hs = inr sc -> exists sc', check_framing hs' = inr sc' /\ decided sc' = decided sc.
Proof.
  intros hs hs' sc Hg Hg' E1 E2 H. apply check_framing_sound in H; auto.
  apply check_framing_complete; auto.
  inversion H; subst; rewrite E1, E2 in *; econstructor; eauto.
Qed.

(** Accepted requests: relay agrees with the framing. *)
Lemma check_request_framing : forall l req hs rl sc, Forall good hs ->
  check_request l req hs = inr (rl, sc) -> check_framing hs = inr sc.
Proof.
  intros l req hs rl sc Hg H. unfold check_request in H.
  destruct (parse_http_request req (l_verb l)) as [[] [rl'|]]; try discriminate.
  destruct (match l_url_ok l with Some p => _ | None => _ end); [discriminate|].
  destruct (check_framing hs) as [|sc']; [discriminate|].
  destruct (_ && _); [discriminate|]. destruct (_ && _ && _); [discriminate|].
  injection H as -> ->. reflexivity.
Qed.

Definition relay_of (f : framing) : relay :=
  match f with
  | NoBody => RelayNothing
  | Length n => if 0 <? n then RelayLength n else RelayNothing
  | Chunked => RelayChunks
  end.

Lemma relay_http11 : forall l req hs rl sc, Forall good hs ->
  check_request l req hs = inr (rl, sc) -> rl_version rl = 1 ->
  exists f, framing_of (hfields (sc_kept sc)) f /\ body_relay rl sc = relay_of f.
Proof.
  intros l req hs rl sc Hg H Hv. apply check_request_framing in H; auto.
  exists (decided sc). split.
  - apply (kept_framing hs sc _ Hg H). apply check_framing_sound; auto.
  - unfold body_relay, decided. rewrite Hv. cbn [Z.eqb Pos.eqb andb].
    pose proof (check_framing_sound _ _ Hg H) as F. unfold decided in F.
    destruct (sc_te sc); simpl; auto.
    + destruct (sc_cl sc =? NO_CONTENT_LENGTH) eqn:Ec; simpl; auto.
      apply Z.eqb_eq in Ec. rewrite Ec. reflexivity.
    + destruct (sc_cl sc =? NO_CONTENT_LENGTH) eqn:Ec; simpl; auto.
      apply Z.eqb_eq in Ec. rewrite Ec. reflexivity.
Qed.

Lemma relay_http10 : forall l req hs rl sc, Forall good hs ->
  check_request l req hs = inr (rl, sc) -> rl_version rl <> 1 ->
  ~ framing_of (hfields hs) Chunked ->
  exists f, framing_of (hfields (sc_kept sc)) f /\ body_relay rl sc = relay_of f.
Proof.
  intros l req hs rl sc Hg H Hv Hn. apply check_request_framing in H; auto.
  pose proof (check_framing_sound _ _ Hg H) as F.
  exists (decided sc). split.
  - apply (kept_framing hs sc _ Hg H). exact F.
  - unfold body_relay, decided in *.
    destruct (sc_te sc); try contradiction; rewrite andb_false_r;
    (destruct (sc_cl sc =? NO_CONTENT_LENGTH) eqn:Ec; simpl; auto;
      apply Z.eqb_eq in Ec; rewrite Ec; reflexivity).
Qed.


Lemma limits : forall l req hs rl sc, Forall good hs -> check_request l req hs = inr (rl, sc) ->
  (0 < l_max_uri l -> Z.of_nat (length (rl_url rl)) <= l_max_uri l) /\
  (0 < l_max_req l -> forall n, framing_of (hfields hs) (Length n) -> n <= l_max_req l).
Proof.
  intros l req hs rl sc Hg H.
  unfold check_request in H.
  destruct (parse_http_request req (l_verb l)) as [[] [rl'|]]; try discriminate.
  destruct (match l_url_ok l with Some p => _ | None => _ end); [discriminate|].
  pose proof (check_framing_sound hs) as F.
  destruct (check_framing hs) as [|sc'] eqn:Hc; [discriminate|].
  specialize (F sc' Hg eq_refl).
  destruct ((0 <? l_max_uri l) && (l_max_uri l <? Z.of_nat (length (rl_url rl')))) eqn:E1; [discriminate|].
  destruct ((0 <? l_max_req l) && (0 <? sc_cl sc') && (l_max_req l <? sc_cl sc')) eqn:E2; [discriminate|].
  injection H as <- <-. split.
  - intros Hp. apply andb_false_iff in E1. destruct E1 as [E1|E1]; lia.
  - intros Hp n Hn. pose proof (framing_unique _ _ _ F Hn) as U.
    unfold decided in U.
    assert (X: sc_cl sc' = n).
    { destruct (sc_te sc'); try discriminate; destruct (sc_cl sc' =? NO_CONTENT_LENGTH); congruence. }
    lia.
Qed.

Lemma limit_413 : forall l req hs, Forall good hs -> check_request l req hs = inl ST_413 ->
  0 < l_max_req l /\ exists n, framing_of (hfields hs) (Length n) /\ l_max_req l < n.
Proof.
  intros l req hs Hg H. unfold check_request in H.
  pose proof (check_framing_sound hs) as F.
  pose proof (check_framing_refuse hs) as R.
  destruct (parse_http_request req (l_verb l)) as [st o] eqn:Ep.
  assert (St: st <> ST_413).
  { assert (E0: st = fst (parse_http_request req (l_verb l))) by (rewrite Ep; reflexivity).
    rewrite E0. unfold parse_http_request. cbv zeta.
    repeat match goal with
    | |- context [if ?a <? ?b then _ else _] => destruct (a <? b)
    | |- context [match ?x with _ => _ end] => destruct x; cbn [fst]
    end; discriminate. }
  destruct st; try (destruct o; congruence).
  destruct o as [rl'|]; [|discriminate].
  destruct (match l_url_ok l with Some p => _ | None => _ end); [discriminate|].
  destruct (check_framing hs) as [st|sc'] eqn:Hc.
  { destruct (R _ Hg eq_refl) as [_ [-> | ->]]; discriminate. }
  specialize (F sc' Hg eq_refl).
  destruct ((0 <? l_max_uri l) && (l_max_uri l <? Z.of_nat (length (rl_url rl')))) eqn:E1; [discriminate|].
  destruct ((0 <? l_max_req l) && (0 <? sc_cl sc') && (l_max_req l <? sc_cl sc')) eqn:E2; [|discriminate].
  split; [lia|]. exists (sc_cl sc'). split; [|lia].
  unfold decided in F. destruct (sc_te sc') eqn:Et.
  - destruct (sc_cl sc' =? NO_CONTENT_LENGTH) eqn:Ec; auto.
    apply Z.eqb_eq in Ec. rewrite Ec in E2. unfold NO_CONTENT_LENGTH in E2. lia.
  - exfalso. unfold check_framing in Hc. destruct (scan_headers scan0 hs) as [|s]; [discriminate|].
    destruct (sc_te s) eqn:Ets; try (injection Hc as ->; congruence); try discriminate.
    destruct (sc_cl s =? NO_CONTENT_LENGTH) eqn:Ec; [|discriminate].
    injection Hc as ->. apply Z.eqb_eq in Ec. rewrite Ec in E2. unfold NO_CONTENT_LENGTH in E2. lia.
  - exfalso. unfold check_framing in Hc. destruct (scan_headers scan0 hs) as [|s]; [discriminate|].
    destruct (sc_te s) eqn:Ets; try (injection Hc as ->; congruence); try discriminate.
    destruct (sc_cl s =? NO_CONTENT_LENGTH) eqn:Ec; [|discriminate].
    injection Hc as ->. congruence.
Qed.
