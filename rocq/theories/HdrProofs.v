From Coq Require Import Ascii String List ZArith Bool Lia.
From Verif Require Import Bytes ClenModel ClenSpec StreamModel StreamSpec StreamProofs
  TokSpec ReqModel ReqSpec.
Import ListNotations.
Open Scope Z_scope.

(** ** Header lines *)

Lemma isws_blank : forall c, isws c = true <-> blank c.
Proof.
  intros c. unfold isws, blank. rewrite orb_true_iff, !beq_eq. reflexivity.
Qed.

Lemma isws_not_blank : forall c, isws c = false <-> ~ blank c.
Proof. intros c. rewrite <- isws_blank. destruct (isws c); split; intro H; congruence. Qed.

Lemma hname_token : forall c, hname_char c = true <-> token_char c.
Proof.
  intros c. unfold token_char. split.
  - destruct c as [[] [] [] [] [] [] [] []]; vm_compute; intro H; try discriminate H; tauto.
  - intros H. vm_compute in H. decompose [or] H; subst; try reflexivity. contradiction.
Qed.

Lemma hname_all : forall n, forallb hname_char n = true <-> Forall token_char n.
Proof.
  intros n. rewrite forallb_forall, Forall_forall.
  split; intros H c Hc; apply hname_token; auto.
Qed.

Lemma trimwsl_split : forall s, exists b, s = b ++ trimwsl s /\ Forall blank b.
Proof.
  induction s as [|c s (b & E & F)]; simpl.
  - exists []. auto.
  - destruct (isws c) eqn:Hc.
    + exists (c :: b). split; [simpl; congruence|]. constructor; auto. apply isws_blank; auto.
    + exists []. auto.
Qed.

Lemma trimwsl_head : forall s c u, trimwsl s = c :: u -> ~ blank c.
Proof.
  induction s as [|x s IH]; simpl; intros c u H; [discriminate|].
  destruct (isws x) eqn:E; eauto. injection H as -> ->. apply isws_not_blank; auto.
Qed.

Lemma trimwsl_app : forall b s, Forall blank b -> trimwsl (b ++ s) = trimwsl s.
Proof. induction 1; simpl; auto. apply isws_blank in H. rewrite H. auto. Qed.

Lemma trimwsl_id : forall s, (forall c u, s = c :: u -> ~ blank c) -> trimwsl s = s.
Proof.
  destruct s as [|c s]; intros H; simpl; auto.
  pose proof (H c s eq_refl) as Hc. apply isws_not_blank in Hc. rewrite Hc. reflexivity.
Qed.

Lemma find_hd_type_legal : forall tab n,
  (forall x c, In (x, c) tab -> c <> HEADER_ILLEGAL) -> find_hd_type tab n <> HEADER_ILLEGAL.
Proof.
  induction tab as [|[x c] tab IH]; simpl; intros n H; [discriminate|].
  destruct (_ && _); [eapply H; left; reflexivity|apply IH; intros; eapply H; right; eauto].
Qed.

Lemma hd_types_legal : forall n, find_hd_type hd_types n <> HEADER_ILLEGAL.
Proof.
  intros n. apply find_hd_type_legal. intros x c H. simpl in H.
  decompose [or] H; try contradiction;
  match goal with E : (_, _) = (_, _) |- _ => injection E as <- <- end; discriminate.
Qed.

Lemma colon_not_token : hname_char ":"%char = false.
Proof. reflexivity. Qed.

Lemma qualify_field : forall s n v, field_line s n v ->
  qualify_header s = mkH s (find_hd_type hd_types n) n v.
Proof.
  intros s n v (b & -> & Hn & Ht & Hb & Hv). unfold qualify_header.
  rewrite span_unique; [|apply hname_all; auto|reflexivity].
  destruct n as [|c n]; [congruence|]. rewrite beq_refl.
  rewrite trimwsl_app by auto. rewrite trimwsl_id by auto. reflexivity.
Qed.

Lemma qualify_legal : forall s, illegal (qualify_header s) = false ->
  field_line s (h_name (qualify_header s)) (h_val (qualify_header s)).
Proof.
  intros s H. unfold qualify_header in *.
  destruct (span hname_char s) as [name rest] eqn:E.
  pose proof (span_app hname_char s) as E1. pose proof (span_fst_all hname_char s) as E2.
  rewrite E in *. simpl in E1, E2.
  destruct name as [|c0 n0]; [discriminate|].
  destruct rest as [|c r]; [discriminate|].
  destruct (beq c ":"%char) eqn:Ec; [|discriminate]. simpl.
  apply beq_eq in Ec. subst c.
  destruct (trimwsl_split r) as (b & Eb & Fb).
  exists b. rewrite <- E1. repeat split; auto.
  - simpl. rewrite Eb at 1. reflexivity.
  - discriminate.
  - apply hname_all; auto.
  - intros x u Hx. eapply trimwsl_head; eauto.
Qed.

Lemma qualify_text : forall s, h_text (qualify_header s) = s.
Proof.
  intros s. unfold qualify_header. destruct (span hname_char s) as [[|c n] [|c' r]]; auto.
  destruct (beq c' ":"%char); auto.
Qed.

Lemma qualify_illegal : forall s, illegal (qualify_header s) = true <-> forall n v, ~ field_line s n v.
Proof.
  intros s. split.
  - intros H n v Hf. rewrite (qualify_field _ _ _ Hf) in H. unfold illegal in H. cbn [h_code] in H.
    pose proof (hd_types_legal n). destruct (find_hd_type hd_types n); congruence.
  - intros H. destruct (illegal (qualify_header s)) eqn:E; auto.
    apply qualify_legal in E. exfalso. eapply H; eauto.
Qed.

Lemma field_line_fun : forall s n v n' v', field_line s n v -> field_line s n' v' -> n = n' /\ v = v'.
Proof.
  intros s n v n' v' H H'. apply qualify_field in H, H'. rewrite H in H'.
  injection H' as _ -> ->. auto.
Qed.

Lemma qualify_iff : forall s n v,
  (illegal (qualify_header s) = false /\ h_name (qualify_header s) = n /\
   h_val (qualify_header s) = v) <-> field_line s n v.
Proof.
  intros s n v. split.
  - intros (H1 & <- & <-). apply qualify_legal; auto.
  - intros H. split.
    + destruct (illegal (qualify_header s)) eqn:E; auto.
      exfalso. eapply (proj1 (qualify_illegal s)); eauto.
    + rewrite (qualify_field _ _ _ H). auto.
Qed.

(** A header object as produced by the code: derived from its text, legal. *)
Definition good (h : header) : Prop := h = qualify_header (h_text h) /\ illegal h = false.

Lemma good_field : forall h, good h -> field_line (h_text h) (h_name h) (h_val h).
Proof.
  intros h [E H]. apply qualify_iff. rewrite <- E. auto.
Qed.

Lemma good_of_field : forall s n v, field_line s n v -> good (qualify_header s).
Proof.
  intros s n v H. split; [rewrite qualify_text; reflexivity|].
  apply qualify_iff in H. tauto.
Qed.

(** ** Editing the header list *)

Definition hfield (h : header) : field := (h_name h, h_val h).
Definition hfields (hs : list header) : list field := map hfield hs.

Lemma name_eqb_named : forall h n, name_eqb h n = true <-> named n (hfield h).
Proof.
  intros h n. unfold name_eqb, named, same_letters. simpl.
  rewrite andb_true_iff, ci_eqb_eq, Nat.eqb_eq. split; [tauto|].
  intros H. split; auto.
  unfold lower in *. rewrite <- (map_length to_lower (h_name h)), H. apply map_length.
Qed.

Lemma name_eqb_not : forall h n, name_eqb h n = false <-> ~ named n (hfield h).
Proof. intros h n. rewrite <- name_eqb_named. destruct (name_eqb h n); split; intro H; congruence. Qed.

Lemma field_name_of_text : forall s n v, field_line s n v -> name_of_text s = n.
Proof.
  intros s n v (b & -> & Hn & Ht & _). unfold name_of_text.
  rewrite span_unique; auto.
  rewrite forallb_forall. intros c Hc. apply negb_true_iff, beq_neq. intro. subst.
  rewrite Forall_forall in Ht. apply Ht in Hc. apply hname_token in Hc. discriminate.
Qed.

Lemma locate_none : forall hs n, http_header_list_locate_name hs n = None <->
  Forall (fun f => ~ named n f) (hfields hs).
Proof.
  induction hs as [|h hs IH]; simpl; intros n.
  - split; auto.
  - destruct (name_eqb h n) eqn:E.
    + split; [discriminate|]. intros H. inversion H; subst. apply name_eqb_named in E. contradiction.
    + rewrite IH. apply name_eqb_not in E. split; [constructor; auto|inversion 1; auto].
Qed.

Lemma first_split : forall hs n a f b, first_named n (hfields hs) a f b ->
  exists ha h hb, hs = ha ++ h :: hb /\ hfields ha = a /\ hfield h = f /\ hfields hb = b /\
    (forall g, change_first hs n g = ha ++ g h :: hb) /\
    http_header_list_locate_name hs n = Some h.
Proof.
  intros hs n a f b (E & Hf & Ha). revert a E Ha.
  induction hs as [|h hs IH]; intros a E Ha; simpl in E.
  - destruct a; discriminate.
  - destruct a as [|x a]; injection E as E1 E2.
    + exists [], h, hs. simpl. subst f.
      apply name_eqb_named in Hf. rewrite Hf. repeat split; auto.
    + inversion Ha; subst.
      destruct (IH a E2 H2) as (ha & h' & hb & -> & <- & Eh & <- & Hc & Hl).
      exists (h :: ha), h', hb. simpl.
      apply name_eqb_not in H1. rewrite H1. repeat split; auto.
      intros g. rewrite Hc. reflexivity.
Qed.

Lemma first_exists : forall n l, (Exists (named n) l -> exists a f b, first_named n l a f b) /\
  (Exists (named n) l \/ Forall (fun f => ~ named n f) l).
Proof.
  intros n l. induction l as [|f l [IH1 IH2]].
  - split; [inversion 1|right; constructor].
  - destruct (list_eq_dec ascii_dec (map to_lower (fst f)) (map to_lower n)) as [E|E].
    + split; [|left; constructor; exact E].
      intros _. exists [], f, l. repeat split; auto.
    + split.
      * intros H. inversion H; subst; [contradiction|].
        destruct (IH1 H1) as (a & g & b & -> & Hg & Ha).
        exists (f :: a), g, b. repeat split; auto.
      * destruct IH2; [left; constructor 2; auto|right; constructor; auto].
Qed.

(** Absent name: every mode appends the field. *)
Lemma append_absent : forall hs s n v mode, field_line s n v ->
  Forall (fun f => ~ named n f) (hfields hs) ->
  exists hs', http_header_list_append hs s mode = (0, hs') /\
    hfields hs' = hfields hs ++ [(n, v)] /\ map h_text hs' = map h_text hs ++ [s].
Proof.
  intros hs s n v mode Hf Ha. unfold http_header_list_append.
  rewrite (field_name_of_text _ _ _ Hf). apply locate_none in Ha. rewrite Ha.
  pose proof (proj2 (qualify_iff s n v) Hf) as (Hl & _). rewrite Hl.
  exists (hs ++ [qualify_header s]). split; auto.
  unfold hfields. rewrite !map_app. simpl. rewrite qualify_text. unfold hfield at 2.
  rewrite (qualify_field _ _ _ Hf). auto.
Qed.

Lemma append_keep : forall hs s n v a f b, field_line s n v ->
  first_named n (hfields hs) a f b ->
  http_header_list_append hs s H_KEEP = (0, hs).
Proof.
  intros hs s n v a f b Hf H. unfold http_header_list_append.
  rewrite (field_name_of_text _ _ _ Hf).
  destruct (first_split _ _ _ _ _ H) as (ha & h & hb & _ & _ & _ & _ & _ & Hl). rewrite Hl. reflexivity.
Qed.

Lemma append_replace : forall hs s n v a f b, field_line s n v ->
  first_named n (hfields hs) a f b ->
  exists hs', http_header_list_append hs s H_REPLACE = (0, hs') /\
    hfields hs' = a ++ (n, v) :: b.
Proof.
  intros hs s n v a f b Hf H. unfold http_header_list_append.
  rewrite (field_name_of_text _ _ _ Hf).
  destruct (first_split _ _ _ _ _ H) as (ha & h & hb & -> & <- & _ & <- & Hc & Hl). rewrite Hl, Hc.
  eexists. split; [reflexivity|]. unfold hfields. rewrite map_app. simpl. unfold hfield at 2.
  rewrite (qualify_field _ _ _ Hf). reflexivity.
Qed.

Lemma skipn_name : forall (n : bytes) x r, skipn (length n + 1) (n ++ x :: r) = r.
Proof.
  intros n x r. replace (length n + 1)%nat with (length (n ++ [x])) by (rewrite app_length; auto).
  change (x :: r) with ([x] ++ r). rewrite app_assoc, skipn_app, skipn_all, Nat.sub_diag. reflexivity.
Qed.

Lemma same_letters_length : forall a b, same_letters a b -> length a = length b.
Proof.
  intros a b H. unfold same_letters in H.
  rewrite <- (map_length to_lower a), H. apply map_length.
Qed.

Lemma append_append : forall hs s n v a m w b, Forall good hs -> field_line s n v ->
  first_named n (hfields hs) a (m, w) b ->
  exists hs' f', http_header_list_append hs s H_APPEND = (0, hs') /\
    hfields hs' = a ++ f' :: b /\
    (w = [] -> f' = (n, v)) /\
    (w <> [] -> exists bl, Forall blank bl /\ f' = (m, w ++ ","%char :: bl ++ v)).
Proof.
  intros hs s n v a m w b Hg Hf H. unfold http_header_list_append.
  rewrite (field_name_of_text _ _ _ Hf).
  destruct (first_split _ _ _ _ _ H) as (ha & h & hb & E & <- & Eh & <- & Hc & Hl). rewrite Hl, Hc.
  assert (Hgh: good h).
  { rewrite Forall_forall in Hg. apply Hg. rewrite E. apply in_or_app. right. left. reflexivity. }
  pose proof (good_field _ Hgh) as Hfh.
  unfold hfield in Eh. injection Eh as Em Ew.
  eexists. exists (hfield (qualify_header (appended_text h s))). split; [reflexivity|].
  split; [unfold hfields; rewrite map_app; reflexivity|].
  unfold appended_text. rewrite Ew. split.
  - intros ->. unfold hfield. rewrite (qualify_field _ _ _ Hf). reflexivity.
  - intros Hw. destruct w as [|c w]; [congruence|].
    pose proof Hf as (b0 & Es & Hn & Ht & Hb & Hv).
    pose proof Hfh as (b1 & Eh & Hn1 & Ht1 & Hb1 & Hv1).
    assert (Hlen: length (h_name h) = length n).
    { apply same_letters_length. destruct H as (_ & H & _). unfold named in H. simpl in H.
      rewrite Em. exact H. }
    rewrite Hlen. replace (skipn (length n + 1) s) with (b0 ++ v) by (rewrite Es, skipn_name; reflexivity).
    set (sp := match b0 ++ v with [] => [SP] | c0 :: _ => if is_space c0 then [] else [SP] end).
    assert (Hsp: Forall blank sp).
    { unfold sp. destruct (b0 ++ v) as [|c0 r0]; [repeat constructor|].
      destruct (is_space c0); repeat constructor. }
    exists (sp ++ b0). split; [apply Forall_app; auto|].
    assert (Hnew: field_line (h_text h ++ [","%char] ++ sp ++ b0 ++ v) (h_name h)
                    (h_val h ++ ","%char :: (sp ++ b0) ++ v)).
    { exists b1. rewrite Eh at 1. repeat split; auto.
      - rewrite <- !app_assoc. simpl. rewrite <- !app_assoc. reflexivity.
      - intros x u Ex. rewrite Ew in Ex. injection Ex as <- _. eapply Hv1. rewrite Ew. reflexivity. }
    unfold hfield. rewrite (qualify_field _ _ _ Hnew). cbn [h_name h_val]. rewrite Em, Ew. reflexivity.
Qed.

Lemma qualify_illegal_keep : forall hs s mode,
  (forall n v, ~ field_line s n v) ->
  Forall good hs ->
  Forall (fun f => ~ named (name_of_text s) f) (hfields hs) ->
  http_header_list_append hs s mode = (1, hs).
Proof.
  intros hs s mode H Hg Hn. unfold http_header_list_append.
  apply locate_none in Hn. rewrite Hn. apply qualify_illegal in H. rewrite H. reflexivity.
Qed.

(** Fields of other names survive every successful edit, in order. *)

Lemma is_named_iff : forall n f, is_named n f = true <-> named n f.
Proof. intros n f. apply ci_eqb_eq. Qed.


Lemma others_hit : forall n f l, named n f -> others n (f :: l) = others n l.
Proof. intros n f l H. unfold others. simpl. apply is_named_iff in H. rewrite H. reflexivity. Qed.

Lemma others_app : forall n a b, others n (a ++ b) = others n a ++ others n b.
Proof. intros. unfold others. apply filter_app. Qed.

Lemma append_others : forall hs s n v mode, Forall good hs -> field_line s n v ->
  exists hs', http_header_list_append hs s mode = (0, hs') /\
    others n (hfields hs') = others n (hfields hs).
Proof.
  intros hs s n v mode Hg Hf.
  assert (Hnn: named n (n, v)) by reflexivity.
  destruct (first_exists n (hfields hs)) as [H1 [H2|H2]].
  - destruct (H1 H2) as (a & [m w] & b & H). clear H1 H2.
    pose proof H as (E & Hm & _).
    destruct mode.
    + rewrite (append_keep _ _ _ _ _ _ _ Hf H). eauto.
    + destruct (append_replace _ _ _ _ _ _ _ Hf H) as (hs' & -> & Ef).
      exists hs'. split; auto. rewrite Ef, E, !others_app.
      rewrite (others_hit n (n, v)), (others_hit n (m, w)); auto.
    + destruct (append_append _ _ _ _ _ _ _ _ Hg Hf H) as (hs' & f' & -> & Ef & Ha & Hb).
      exists hs'. split; auto. rewrite Ef, E, !others_app.
      assert (named n f').
      { destruct w as [|c w]; [rewrite Ha; auto|].
        destruct Hb as (bl & _ & ->); [discriminate|]. exact Hm. }
      rewrite (others_hit n f'), (others_hit n (m, w)); auto.
  - destruct (append_absent _ _ _ _ mode Hf H2) as (hs' & -> & Ef & _).
    exists hs'. split; auto. rewrite Ef, others_app, others_hit by auto. apply app_nil_r.
Qed.

Lemma append_good : forall hs s n v mode, Forall good hs -> field_line s n v ->
  Forall good (snd (http_header_list_append hs s mode)).
Proof.
  intros hs s n v mode Hg Hf. unfold http_header_list_append.
  rewrite (field_name_of_text _ _ _ Hf).
  destruct (http_header_list_locate_name hs n) eqn:El.
  - destruct mode; simpl; auto.
    + clear El. induction hs as [|x hs IH]; simpl; auto. inversion Hg; subst.
      destruct (name_eqb x n); constructor; auto. eapply good_of_field; eauto.
    + destruct (first_exists n (hfields hs)) as [H1 [H2|H2]].
      * destruct (H1 H2) as (a & [m w] & b & H).
        destruct (append_append _ _ _ _ _ _ _ _ Hg Hf H) as (hs' & f' & Ea & Ef & Hw1 & Hw2).
        unfold http_header_list_append in Ea. rewrite (field_name_of_text _ _ _ Hf), El in Ea.
        destruct (first_split _ _ _ _ _ H) as (ha & h' & hb & E & <- & Eh & <- & Hc & Hl).
        rewrite Hc in Ea |- *.
        injection Ea as <-. rewrite E in Hg. apply Forall_app in Hg. destruct Hg as [G1 G2].
        inversion G2; subst.
        apply Forall_app. split; auto. constructor; auto.
        split; [rewrite qualify_text; auto|].
        unfold hfields in Ef. rewrite map_app in Ef. apply app_inv_head in Ef. simpl in Ef.
        injection Ef as Ef. 
        destruct (illegal (qualify_header (appended_text h' s))) eqn:Ei; auto. exfalso.
        assert (Hnil: h_name (qualify_header (appended_text h' s)) = []).
        { unfold qualify_header in *. destruct (span hname_char (appended_text h' s)) as [[|? ?] [|? ?]]; auto.
          destruct (beq _ _); auto. unfold illegal in Ei. cbn [h_code] in Ei.
          match type of Ei with match ?x with _ => _ end = _ => assert (x <> HEADER_ILLEGAL) by apply hd_types_legal; destruct x; congruence end. }
        destruct w as [|c w].
        -- rewrite (Hw1 eq_refl) in Ef. unfold hfield in Ef. injection Ef as Ef _.
           rewrite Hnil in Ef. destruct Hf as (? & _ & Hn & _). congruence.
        -- destruct (Hw2 ltac:(discriminate)) as (bl & _ & E'). rewrite E' in Ef.
           unfold hfield in Ef. injection Ef as Ef _. rewrite Hnil in Ef.
           unfold hfield in Eh. injection Eh as Eh _.
           match goal with G : good h' |- _ => pose proof (good_field _ G) as (? & _ & Hn & _) end.
           apply Hn. congruence.
      * apply locate_none in H2. congruence.
  - destruct (illegal (qualify_header s)) eqn:Ei; simpl; auto.
    apply Forall_app. split; auto. constructor; auto. eapply good_of_field; eauto.
Qed.
