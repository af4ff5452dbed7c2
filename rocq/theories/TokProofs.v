From Coq Require Import Ascii List ZArith Bool Lia.
From Verif Require Import Bytes TokModel TokSpec.
Import ListNotations.

Lemma is_space_white : forall c, is_space c = true <-> white c.
Proof.
  intros c. unfold white. split.
  - destruct c as [[] [] [] [] [] [] [] []]; vm_compute; intro H; try discriminate H; tauto.
  - simpl. intros H. decompose [or] H; subst; try reflexivity. contradiction.
Qed.

Lemma is_space_not_white : forall c, is_space c = false <-> ~ white c.
Proof.
  intros c. rewrite <- is_space_white. destruct (is_space c); split; intro H; try congruence.
Qed.

Lemma skip_space_split : forall s, exists l,
  s = l ++ skip_space s /\ Forall white l.
Proof.
  induction s as [|c s (l & E & F)]; simpl.
  - exists []. auto.
  - destruct (is_space c) eqn:Hc.
    + exists (c :: l). split. { simpl. congruence. }
      constructor; auto. apply is_space_white; auto.
    + exists []. auto.
Qed.

Lemma skip_space_head : forall s c u, skip_space s = c :: u -> is_space c = false.
Proof.
  induction s as [|x s IH]; simpl; intros c u H; [discriminate|].
  destruct (is_space x) eqn:E; eauto. congruence.
Qed.

Lemma skip_space_length : forall s, length (skip_space s) <= length s.
Proof.
  induction s as [|c s IH]; simpl; [lia|]. destruct (is_space c); simpl; lia.
Qed.

Lemma skip_space_white_app : forall l s, Forall white l -> skip_space (l ++ s) = skip_space s.
Proof.
  induction 1; simpl; auto. apply is_space_white in H. rewrite H. auto.
Qed.

Lemma skip_space_id : forall s, (forall c u, s = c :: u -> ~ white c) -> skip_space s = s.
Proof.
  destruct s as [|c s]; intros H; simpl; auto.
  specialize (H c s eq_refl). apply is_space_not_white in H. rewrite H. reflexivity.
Qed.

Lemma Forall_white_rev : forall l, Forall white l -> Forall white (rev l).
Proof. intros l H. apply Forall_rev. exact H. Qed.

Definition trim (e : bytes) : bytes := trim_right (skip_space e).

Lemma trim_right_split : forall s, exists r, s = trim_right s ++ r /\ Forall white r.
Proof.
  intros s. unfold trim_right.
  destruct (skip_space_split (rev s)) as (l & E & F).
  exists (rev l). split; [|apply Forall_rev; auto].
  rewrite <- rev_app_distr, <- E, rev_involutive. reflexivity.
Qed.

Lemma trim_right_last : forall s c u, trim_right s = u ++ [c] -> is_space c = false.
Proof.
  intros s c u H. unfold trim_right in H.
  assert (skip_space (rev s) = c :: rev u).
  { rewrite <- (rev_involutive (skip_space (rev s))), H, rev_app_distr. reflexivity. }
  eapply skip_space_head; eauto.
Qed.

Lemma trim_right_white_app : forall s r, Forall white r -> trim_right (s ++ r) = trim_right s.
Proof.
  intros s r H. unfold trim_right. rewrite rev_app_distr, skip_space_white_app; auto.
  apply Forall_rev; auto.
Qed.

Lemma trim_right_id : forall s, (forall c u, s = u ++ [c] -> ~ white c) -> trim_right s = s.
Proof.
  intros s H. unfold trim_right. rewrite skip_space_id, rev_involutive; auto.
  intros c u E. apply (H c (rev u)).
  rewrite <- (rev_involutive s), E. reflexivity.
Qed.

Lemma trim_right_head : forall s c u,
  (forall c u, s = c :: u -> ~ white c) -> trim_right s = c :: u -> ~ white c.
Proof.
  intros s c u H E. destruct (trim_right_split s) as (r & Er & Fr).
  rewrite E in Er. simpl in Er. eapply H. exact Er.
Qed.

Lemma trim_stripped : forall e, stripped e (trim e).
Proof.
  intros e. unfold trim.
  destruct (skip_space_split e) as (l & El & Fl).
  destruct (trim_right_split (skip_space e)) as (r & Er & Fr).
  exists l, r. repeat split; auto.
  - congruence.
  - intros c u E. eapply trim_right_head; eauto.
    intros c' u' E'. apply is_space_not_white. eapply skip_space_head; eauto.
  - intros c u E. apply is_space_not_white. eapply trim_right_last; eauto.
Qed.

Lemma stripped_trim : forall e t, stripped e t -> t = trim e.
Proof.
  intros e t (l & r & -> & Fl & Fr & H1 & H2). unfold trim.
  rewrite skip_space_white_app; auto.
  destruct t as [|c t].
  - simpl. destruct (skip_space_split r) as (l' & E & F).
    assert (Forall white (skip_space r)).
    { rewrite E in Fr. apply Forall_app in Fr. tauto. }
    rewrite <- (app_nil_l (skip_space r)), trim_right_white_app; auto.
  - simpl. pose proof (H1 c t eq_refl) as Hc. apply is_space_not_white in Hc. rewrite Hc.
    change (c :: t ++ r) with ((c :: t) ++ r).
    rewrite trim_right_white_app; auto. rewrite trim_right_id; auto.
Qed.

Definition notcomma (c : byte) : bool := negb (beq c COMMA).

Lemma notcomma_in : forall e, forallb notcomma e = true <-> ~ In ","%char e.
Proof.
  intros e. rewrite forallb_forall. unfold notcomma. split.
  - intros H Hin. apply H in Hin. vm_compute in Hin. discriminate.
  - intros H c Hc. apply negb_true_iff. apply beq_neq. intro E. subst. apply H. exact Hc.
Qed.

Lemma span_comma : forall s item rest,
  span notcomma s = (item, rest) ->
  s = item ++ rest /\ ~ In ","%char item /\
  (rest = [] \/ exists q, rest = ","%char :: q).
Proof.
  intros s item rest H.
  pose proof (span_app notcomma s) as E1. pose proof (span_fst_all notcomma s) as E2.
  pose proof (span_snd_head notcomma s) as E3.
  rewrite H in *. simpl in *. repeat split; auto.
  - apply notcomma_in; auto.
  - destruct rest as [|c r]; auto. right. exists r. f_equal.
    specialize (E3 _ _ eq_refl). unfold notcomma in E3.
    apply negb_false_iff, beq_eq in E3. exact E3.
Qed.

(** Elements of a list cut at the first comma. *)
Lemma element_cut : forall item rest e,
  ~ In ","%char item -> (rest = [] \/ exists q, rest = ","%char :: q) ->
  (element (item ++ rest) e <->
   e = item \/ exists q, rest = ","%char :: q /\ element q e).
Proof.
  intros item rest e Hi Hr. split.
  - intros (pre & post & E & He & Hpre & Hpost).
    destruct Hpre as [->|(p & ->)].
    + left. simpl in E.
      assert (H: span notcomma (item ++ rest) = (item, rest)).
      { apply span_unique. apply notcomma_in; auto.
        destruct Hr as [->|(q & ->)]; reflexivity. }
      assert (H': span notcomma (e ++ post) = (e, post)).
      { apply span_unique. apply notcomma_in; auto.
        destruct Hpost as [->|(q & ->)]; reflexivity. }
      rewrite E, H' in H. congruence.
    + right.
      assert (Hp: exists d, p = item ++ d /\ rest = d ++ ","%char :: e ++ post).
      { rewrite <- app_assoc in E. simpl in E. clear - E Hi.
        revert p E. induction item as [|c item IH]; intros p E.
        - exists p. auto.
        - destruct p as [|c' p]; simpl in E.
          + injection E as -> E. exfalso. apply Hi. left. reflexivity.
          + injection E as <- E. destruct (IH (fun h => Hi (or_intror h)) p E) as (d & -> & ->).
            exists d. auto. }
      destruct Hp as (d & -> & ->).
      destruct Hr as [Hr|(q & Hq)].
      { destruct d; discriminate. }
      exists q. split; auto.
      destruct d as [|c d]; simpl in Hq; injection Hq as; subst.
      * exists [], post. repeat split; auto.
      * exists (d ++ [","%char]), post. repeat split; auto.
        -- rewrite <- app_assoc. reflexivity.
        -- right. exists d. reflexivity.
  - intros [->|(q & -> & pre & post & -> & He & Hpre & Hpost)].
    + exists [], rest. repeat split; auto.
    + exists (item ++ ","%char :: pre), post. repeat split; auto.
      * rewrite <- app_assoc. reflexivity.
      * right. destruct Hpre as [->|(p & ->)].
        -- exists item. reflexivity.
        -- exists (item ++ ","%char :: p). rewrite <- app_assoc. reflexivity.
Qed.

Lemma str_eqb_len : forall ci a b, str_eqb ci a b = true -> length a = length b.
Proof.
  intros [] a b H; simpl in H.
  - apply ci_eqb_length; auto.
  - apply bytes_eqb_eq in H. congruence.
Qed.

(** The search condition of one item. *)
Definition item_matches (ci : bool) (e tok : bytes) : bool := str_eqb ci (trim e) tok.

Lemma item_test : forall ci i tok,
  Nat.eqb (length i) (length tok) && str_eqb ci i tok = str_eqb ci i tok.
Proof.
  intros ci i tok. destruct (str_eqb ci i tok) eqn:E.
  - apply str_eqb_len in E. rewrite E, Nat.eqb_refl. reflexivity.
  - apply andb_false_r.
Qed.

(** Skipping leading blanks only changes the first item's leading blanks. *)
Lemma skip_space_item : forall s item rest,
  skip_space s = item ++ rest -> ~ In ","%char item ->
  (rest = [] \/ exists q, rest = ","%char :: q) ->
  exists l, s = (l ++ item) ++ rest /\ ~ In ","%char (l ++ item) /\
            skip_space (l ++ item) = skip_space item /\ Forall white l.
Proof.
  intros s item rest H Hi Hr.
  destruct (skip_space_split s) as (l & E & F).
  exists l. rewrite H in E. repeat split; auto.
  - rewrite <- app_assoc. auto.
  - intros Hin. apply in_app_or in Hin. destruct Hin as [Hin|Hin]; auto.
    rewrite Forall_forall in F. apply F in Hin. unfold white in Hin.
    simpl in Hin. decompose [or] Hin; try discriminate; contradiction.
  - apply skip_space_white_app; auto.
Qed.

Lemma trim_lead : forall s item rest l,
  skip_space s = item ++ rest -> s = (l ++ item) ++ rest ->
  Forall white l -> item ++ rest <> [] -> trim (l ++ item) = trim_right item.
Proof.
  intros s item rest l H E F Hne. unfold trim.
  rewrite skip_space_white_app; auto. f_equal.
  apply skip_space_id. intros c u Ei. apply is_space_not_white.
  eapply skip_space_head. rewrite H, Ei. reflexivity.
Qed.

Lemma all_white_elements : forall s, skip_space s = [] -> forall e, element s e -> trim e = [].
Proof.
  intros s H e (pre & post & E & _).
  destruct (skip_space_split s) as (l & El & Fl). rewrite H, app_nil_r in El. subst l.
  rewrite E in Fl. apply Forall_app in Fl. destruct Fl as [_ Fl].
  apply Forall_app in Fl. destruct Fl as [Fl _].
  unfold trim. rewrite <- (app_nil_r e), skip_space_white_app by auto. reflexivity.
Qed.

Lemma locate_loop_none : forall fuel s tok ci,
  length s < fuel -> tok <> [] ->
  cs_locate_loop fuel s tok ci = None ->
  forall e, element s e -> str_eqb ci (trim e) tok = false.
Proof.
  induction fuel as [|fuel IH]; intros s tok ci Hf Ht Hn e He; [lia|].
  cbn [cs_locate_loop] in Hn. destruct (skip_space s) as [|c0 s0] eqn:Es.
  - rewrite (all_white_elements s Es e He).
    destruct tok; [congruence|]. destruct ci; reflexivity.
  - change (fun c => negb (beq c COMMA)) with notcomma in Hn.
    destruct (span notcomma (c0 :: s0)) as [item rest] eqn:Esp.
    destruct (span_comma _ _ _ Esp) as (E1 & E2 & E3).
    rewrite item_test in Hn.
    destruct (str_eqb ci (trim_right item) tok) eqn:Em; [discriminate|].
    rewrite E1 in Es.
    destruct (skip_space_item _ _ _ Es E2 E3) as (l & El & Hl & _ & Fl).
    rewrite El in He. apply element_cut in He; auto.
    destruct He as [->|(q & -> & Hq)].
    + erewrite trim_lead; eauto. rewrite <- E1. discriminate.
    + eapply IH; eauto.
      rewrite El in Hf. rewrite !app_length in Hf. simpl in Hf. lia.
Qed.

Lemma locate_loop_some : forall fuel s tok ci p next,
  length s < fuel ->
  cs_locate_loop fuel s tok ci = Some (p, next) ->
  exists pre e post, element_at s pre e post /\ str_eqb ci (trim e) tok = true /\
    (post = [] /\ next = [] \/ post = ","%char :: next) /\
    (forall q, pre = q ++ [","%char] ->
       forall e', element q e' -> str_eqb ci (trim e') tok = false).
Proof.
  induction fuel as [|fuel IH]; intros s tok ci p next Hf Hn; [lia|].
  cbn [cs_locate_loop] in Hn. destruct (skip_space s) as [|c0 s0] eqn:Es; [discriminate|].
  change (fun c => negb (beq c COMMA)) with notcomma in Hn.
  destruct (span notcomma (c0 :: s0)) as [item rest] eqn:Esp.
  destruct (span_comma _ _ _ Esp) as (E1 & E2 & E3).
  rewrite item_test in Hn. rewrite E1 in Es.
  destruct (skip_space_item _ _ _ Es E2 E3) as (l & El & Hl & _ & Fl).
  assert (Htr: trim (l ++ item) = trim_right item).
  { eapply trim_lead; eauto. rewrite <- E1. discriminate. }
  destruct (str_eqb ci (trim_right item) tok) eqn:Em.
  - injection Hn as <- <-. exists [], (l ++ item), rest. repeat split; auto.
    + congruence.
    + destruct E3 as [->|(q & ->)]; auto.
    + intros q Hq. destruct q; discriminate.
  - destruct rest as [|c r].
    { destruct fuel; simpl in Hn; discriminate. }
    destruct E3 as [E3|(q & E3)]; [discriminate|]. injection E3 as -> ->.
    assert (Hlen: length q < fuel).
    { rewrite El in Hf. rewrite !app_length in Hf. simpl in Hf. lia. }
    destruct (IH _ _ _ _ _ Hlen Hn) as (pre & e & post & (H1 & H2 & H3 & H4) & H5 & H6 & H7).
    exists ((l ++ item) ++ ","%char :: pre), e, post. repeat split; auto.
    + rewrite El, H1, <- !app_assoc. reflexivity.
    + right. destruct H3 as [->|(p' & ->)].
      * exists (l ++ item). reflexivity.
      * exists ((l ++ item) ++ ","%char :: p'). rewrite <- !app_assoc. reflexivity.
    + intros q' Hq' e' He'.
      destruct H3 as [->|(p' & ->)].
      * apply app_inj_tail in Hq'. destruct Hq' as [<- _].
        rewrite <- (app_nil_r (l ++ item)) in He'. apply element_cut in He'; auto.
        destruct He' as [->|(x & Hx & _)]; [|discriminate]. rewrite Htr. auto.
      * assert (Eq: q' = (l ++ item) ++ ","%char :: p').
        { change (","%char :: p' ++ [","%char]) with ((","%char :: p') ++ [","%char]) in Hq'.
          rewrite app_assoc in Hq'. apply app_inj_tail in Hq'. destruct Hq'; auto. }
        subst q'. apply element_cut in He'; eauto.
        destruct He' as [->|(x & Hx & Hel)].
        -- rewrite Htr. auto.
        -- injection Hx as ->. eapply H7; eauto.
Qed.

Definition same_text (ci : bool) (a b : bytes) : Prop :=
  if ci then same_letters a b else a = b.

Lemma str_eqb_same : forall ci a b, str_eqb ci a b = true <-> same_text ci a b.
Proof.
  intros [] a b; simpl.
  - apply ci_eqb_eq.
  - apply bytes_eqb_eq.
Qed.

Lemma locate_found_iff : forall s tok ci, tok <> [] ->
  ((exists r, cs_locate_token s tok ci = Some r) <->
   exists e t, element s e /\ stripped e t /\ (if ci then same_letters t tok else t = tok)).
Proof.
  intros s tok ci Ht. unfold cs_locate_token. split.
  - intros ([p next] & H).
    destruct (locate_loop_some (S (length s)) s tok ci p next ltac:(lia) H)
      as (pre & e & post & H1 & H2 & _).
    exists e, (trim e). split; [exists pre, post; auto|]. split; [apply trim_stripped|].
    apply str_eqb_same in H2. exact H2.
  - intros (e & t & He & Hs & Hm). apply stripped_trim in Hs. subst t.
    destruct (cs_locate_loop (S (length s)) s tok ci) as [r|] eqn:E; [eauto|].
    exfalso. pose proof (locate_loop_none (S (length s)) s tok ci ltac:(lia) Ht E e He) as H.
    assert (str_eqb ci (trim e) tok = true) by (apply str_eqb_same; exact Hm). congruence.
Qed.

Lemma locate_first : forall s tok ci p next,
  cs_locate_token s tok ci = Some (p, next) ->
  exists pre e t post, element_at s pre e post /\ stripped e t /\
    (if ci then same_letters t tok else t = tok) /\
    (post = [] /\ next = [] \/ post = ","%char :: next) /\
    (forall q, pre = q ++ [","%char] ->
       forall e' t', element q e' -> stripped e' t' ->
                     ~ (if ci then same_letters t' tok else t' = tok)).
Proof.
  intros s tok ci p next H.
  destruct (locate_loop_some (S (length s)) s tok ci p next ltac:(lia) H)
      as (pre & e & post & H1 & H2 & H3 & H4).
  exists pre, e, (trim e), post. split; [exact H1|]. split; [apply trim_stripped|].
  split; [apply str_eqb_same in H2; exact H2|]. split; [exact H3|].
  intros q Hq e' t' He' Hs' Hm. apply stripped_trim in Hs'. subst t'.
  specialize (H4 q Hq e' He').
  assert (str_eqb ci (trim e') tok = true) by (apply str_eqb_same; exact Hm). congruence.
Qed.
