From Coq Require Import Ascii String List ZArith Bool Lia.
From Verif Require Import Bytes ClenModel ClenSpec StreamModel StreamSpec StreamProofs
  TokSpec ReqModel ReqSpec HdrProofs.
Import ListNotations.
Open Scope Z_scope.

(** ** Combining *)

Lemma same_sym : forall a b, same_letters a b -> same_letters b a.
Proof. unfold same_letters. congruence. Qed.
Lemma same_trans : forall a b c, same_letters a b -> same_letters b c -> same_letters a c.
Proof. unfold same_letters. congruence. Qed.

Lemma join_snoc : forall vs v, vs <> [] -> join (vs ++ [v]) = join vs ++ ","%char :: " "%char :: v.
Proof.
  induction vs as [|x vs IH]; intros v H; [congruence|].
  destruct vs as [|y vs]; [reflexivity|].
  change (join ((x :: y :: vs) ++ [v])) with (x ++ ","%char :: " "%char :: join ((y :: vs) ++ [v])).
  rewrite IH by discriminate.
  change (join (x :: y :: vs)) with (x ++ ","%char :: " "%char :: join (y :: vs)).
  rewrite <- !app_assoc. reflexivity.
Qed.

Section Comb.
Variable comb : bytes -> Prop.
Hypothesis comb_letters : forall a b, same_letters a b -> comb a -> comb b.

Lemma collect_snoc_miss : forall n fs vs o f,
  collect n fs vs o -> ~ named n f -> collect n (fs ++ [f]) vs (o ++ [f]).
Proof.
  induction 1; intros Hf; simpl.
  - destruct f as [m v]. constructor; auto. constructor.
  - constructor; auto.
  - constructor; auto.
Qed.

Lemma collect_snoc_hit : forall n fs vs o m v,
  collect n fs vs o -> same_letters m n -> collect n (fs ++ [(m, v)]) (vs ++ [v]) o.
Proof.
  induction 1; intros Hf; simpl.
  - constructor; auto. constructor.
  - constructor; auto.
  - constructor; auto.
Qed.

Lemma collect_in : forall n fs vs o f, collect n fs vs o -> In f o -> In f fs.
Proof. induction 1; simpl; intuition. Qed.

Lemma collect_in_inv : forall n fs vs o f, collect n fs vs o -> In f fs -> ~ named n f -> In f o.
Proof.
  induction 1; simpl; auto.
  - intros [<-|Hin] Hn; [exfalso; apply Hn; exact H|auto].
  - intros [<-|Hin] Hn; auto.
Qed.

(** A field whose name is not combinable, or is new, goes to the end. *)
Lemma combined_snoc_end : forall fs gs n v,
  combined comb fs gs -> (~ comb n \/ comb n /\ Forall (fun f => ~ named n f) fs) ->
  combined comb (fs ++ [(n, v)]) (gs ++ [(n, v)]).
Proof.
  induction 1 as [|n0 v0 fs gs Hn H IH|n0 v0 fs vs o gs Hn Hc H IH]; intros Hor; simpl.
  - destruct Hor as [Hor|[Hor _]].
    + constructor; auto. constructor.
    + change (n, v) with (n, join (v :: [])) at 2. econstructor; eauto; constructor.
  - constructor; auto. apply IH. destruct Hor as [|[? Hor]]; auto. inversion Hor; auto.
  - assert (Hm: ~ named n0 (n, v)).
    { unfold named. simpl. intro E. destruct Hor as [Hor|[_ Hor]].
      - apply Hor. eapply comb_letters; [|exact Hn]. apply same_sym; auto.
      - inversion Hor; subst. apply H2. apply same_sym. exact E. }
    econstructor; eauto.
    + apply collect_snoc_miss; eauto.
    + apply IH. destruct Hor as [|[? Hor]]; auto. right. split; auto.
      inversion Hor; subst. rewrite Forall_forall in *. intros f Hf. apply H4.
      eapply collect_in; eauto.
Qed.

(** A further value of a combinable name is joined to the field already there. *)
Lemma combined_snoc_hit : forall fs gs n v,
  combined comb fs gs -> comb n -> Exists (named n) fs ->
  exists a m w b, first_named n gs a (m, w) b /\ comb m /\
    combined comb (fs ++ [(n, v)]) (a ++ (m, w ++ ","%char :: " "%char :: v) :: b).
Proof.
  induction 1 as [|n0 v0 fs gs Hn H IH|n0 v0 fs vs o gs Hn Hc H IH]; intros Hcn Hex.
  - inversion Hex.
  - inversion Hex as [? ? E|? ? E]; subst.
    { exfalso. apply Hn. eapply comb_letters; [|exact Hcn]. apply same_sym. exact E. }
    destruct (IH Hcn E) as (a & m & w & b & (-> & F2 & F3) & Hm & Hcb).
    exists ((n0, v0) :: a), m, w, b. repeat split; auto.
    + constructor; auto. unfold named. simpl. intro Es. apply Hn.
      eapply comb_letters; [|exact Hcn]. apply same_sym; auto.
    + simpl. constructor; auto.
  - destruct (list_eq_dec ascii_dec (map to_lower n0) (map to_lower n)) as [E|E].
    + exists [], n0, (join (v0 :: vs)), gs. repeat split; auto.
      cbn [app]. rewrite <- join_snoc by discriminate.
      change ((v0 :: vs) ++ [v]) with (v0 :: (vs ++ [v])).
      econstructor; eauto. apply collect_snoc_hit; auto. apply same_sym. exact E.
    + assert (Hex': Exists (named n) o).
      { apply Exists_exists. apply Exists_exists in Hex. destruct Hex as (f & Hf & Hnf).
        exists f. split; auto. destruct Hf as [<-|Hf]; [contradiction|].
        eapply collect_in_inv; eauto. unfold named in *. intro Es. apply E.
        eapply same_trans; [apply same_sym; exact Es|exact Hnf]. }
      destruct (IH Hcn Hex') as (a & m & w & b & (-> & F2 & F3) & Hm & Hcb).
      exists ((n0, join (v0 :: vs)) :: a), m, w, b. split; [split; [reflexivity|split; [auto|constructor; auto]]|].
      split; [exact Hm|].
      cbn [app]. econstructor; eauto. apply collect_snoc_miss; eauto.
Qed.

Lemma combined_names : forall fs gs n, combined comb fs gs ->
  Forall (fun f => ~ named n f) fs <-> Forall (fun f => ~ named n f) gs.
Proof.
  induction 1 as [|n0 v0 fs gs Hn H IH|n0 v0 fs vs o gs Hn Hc H IH].
  - tauto.
  - split; intros X; inversion X; subst; constructor; auto; tauto.
  - split; intros X; inversion X; subst; constructor; auto.
    + apply IH. rewrite Forall_forall in *. intros f Hf. apply H3. eapply collect_in; eauto.
    + rewrite Forall_forall in *. intros f Hf Hnf.
      destruct (list_eq_dec ascii_dec (map to_lower (fst f)) (map to_lower n0)) as [E|E].
      * apply H2. unfold named in *. simpl. eapply same_trans; [apply same_sym; exact E|exact Hnf].
      * assert (Ho: In f o) by (eapply collect_in_inv; eauto).
        assert (IH2 := proj2 IH). rewrite Forall_forall in IH2. eapply IH2; eauto.
Qed.
End Comb.

(** ** The header loop of the reader *)


Lemma combs_letters : forall comb a b, same_letters a b -> combs comb a -> combs comb b.
Proof. intros comb a b E (c & H & Hs). exists c. split; auto. eapply same_trans; eauto. Qed.

Lemma len_ci : forall a b, Nat.eqb (length a) (length b) && ci_eqb a b = true <-> same_letters a b.
Proof.
  intros a b. rewrite andb_true_iff, Nat.eqb_eq, ci_eqb_eq. unfold same_letters, lower.
  split; [tauto|]. intros H. split; auto. apply same_letters_length. exact H.
Qed.

Lemma len_ci_false : forall a b, Nat.eqb (length a) (length b) && ci_eqb a b = false <-> ~ same_letters a b.
Proof. intros a b. rewrite <- len_ci. destruct (_ && _); split; intro; congruence. Qed.

Lemma is_combinable_combs : forall comb h, is_combinable comb h = true <-> combs comb (h_name h).
Proof.
  intros comb h. unfold is_combinable, combs. rewrite existsb_exists. split.
  - intros (c & H & E). exists c. split; auto. apply len_ci. exact E.
  - intros (c & H & E). exists c. split; auto. apply len_ci. exact E.
Qed.

(** State of the loop against the combined fields. *)
Definition rh_ok (comb : list bytes) (x : rdhdr) (f : field) : Prop :=
  let (h, sb) := x in
  good h /\ h_name h = fst f /\
  match sb with
  | None => ~ combs comb (fst f) /\ h_val h = snd f
  | Some s => combs comb (fst f) /\ s = fst f ++ lit ": " ++ snd f /\
              (forall c u, snd f = c :: u -> ~ blank c)
  end.

Lemma compose_add_none : forall comb hs gs h, Forall2 (rh_ok comb) hs gs -> combs comb (h_name h) ->
  Forall (fun f => ~ named (h_name h) f) gs -> compose_add hs h = None.
Proof.
  induction 1 as [|[h0 sb] [n v] hs gs Hr H IH]; intros Hc Hn; simpl; auto.
  inversion Hn; subst. destruct Hr as (G & E & Hsb). simpl in E.
  rewrite IH by auto. destruct sb as [s|]; [|reflexivity].
  assert (X: Nat.eqb (length (h_name h0)) (length (h_name h)) && ci_eqb (h_name h0) (h_name h) = false).
  { apply len_ci_false. rewrite E. exact H2. }
  rewrite X. reflexivity.
Qed.

Lemma compose_add_some : forall comb hs gs h a m w b, Forall2 (rh_ok comb) hs gs ->
  combs comb (h_name h) -> first_named (h_name h) gs a (m, w) b ->
  exists hs', compose_add hs h = Some hs' /\
    Forall2 (rh_ok comb) hs' (a ++ (m, w ++ lit ", " ++ h_val h) :: b).
Proof.
  intros comb hs gs h a m w b H Hc (E & Hn & Ha). subst gs. revert a Ha H.
  induction hs as [|[h0 sb] hs IH]; intros a Ha H.
  - inversion H. destruct a; discriminate.
  - destruct a as [|[n v] a]; simpl in H; inversion H; subst.
    + destruct H3 as (G & E & Hsb). simpl in *.
      assert (X: Nat.eqb (length (h_name h0)) (length (h_name h)) && ci_eqb (h_name h0) (h_name h) = true).
      { apply len_ci. rewrite E. exact Hn. }
      destruct sb as [s|].
      * rewrite X. eexists. split; [reflexivity|]. destruct Hsb as (Hc' & -> & Hv).
        constructor; auto. split; auto. split; auto. simpl. repeat split; auto.
        -- rewrite <- !app_assoc. reflexivity.
        -- intros c u Eu. destruct w as [|c0 w]; simpl in Eu.
           ++ injection Eu as <- _. intros [C|C]; discriminate.
           ++ injection Eu as <- _. eapply Hv. reflexivity.
      * exfalso. apply (proj1 Hsb). eapply combs_letters; [|exact Hc]. apply same_sym. exact Hn.
    + inversion Ha; subst.
      destruct (IH a H4 H5) as (hs' & E & F).
      destruct H3 as (G & E' & Hsb). simpl in *. 
      destruct sb as [s|].
      * assert (X: Nat.eqb (length (h_name h0)) (length (h_name h)) && ci_eqb (h_name h0) (h_name h) = false).
        { apply len_ci_false. rewrite E'. exact H2. }
        rewrite X, E. eexists. split; [reflexivity|]. constructor; auto. split; auto.
      * rewrite E. eexists. split; [reflexivity|]. constructor; auto. split; auto.
Qed.

Lemma Forall2_snoc : forall A B (R : A -> B -> Prop) l1 l2 x y,
  Forall2 R l1 l2 -> R x y -> Forall2 R (l1 ++ [x]) (l2 ++ [y]).
Proof. induction 1; intros; simpl; constructor; auto. Qed.

Lemma add_line_ok : forall comb hs gs fs line n v,
  Forall2 (rh_ok comb) hs gs -> combined (combs comb) fs gs -> field_line line n v ->
  exists gs', Forall2 (rh_ok comb) (add_header_line comb hs line) gs' /\
              combined (combs comb) (fs ++ [(n, v)]) gs'.
Proof.
  intros comb hs gs fs line n v H Hcb Hf. unfold add_header_line.
  pose proof (proj2 (qualify_iff _ _ _) Hf) as (Hl & Hn & Hv). rewrite Hl.
  pose proof (good_of_field _ _ _ Hf) as Hg.
  pose proof (combs_letters comb) as HL.
  destruct (is_combinable comb (qualify_header line)) eqn:Ec.
  - apply is_combinable_combs in Ec. 
    destruct (first_exists n gs) as [F1 [F2|F2]].
    + assert (Ex: Exists (named n) fs).
      { destruct (first_exists n fs) as [_ [X|X]]; auto.
        apply (combined_names _ _ _ n Hcb) in X. exfalso.
        apply Exists_exists in F2. destruct F2 as (f & Hin & Hnf).
        rewrite Forall_forall in X. eapply X; eauto. }
      destruct (combined_snoc_hit _ HL _ _ n v Hcb ltac:(rewrite <- Hn; exact Ec) Ex)
        as (a & m & w & b & Hfn & Hm & Hc').
      rewrite <- Hn in Hfn.
      destruct (compose_add_some _ _ _ _ _ _ _ _ H Ec Hfn) as (hs' & -> & F).
      rewrite Hv in F. eauto.
    + rewrite (compose_add_none _ _ _ _ H Ec) by (rewrite Hn; exact F2).
      exists (gs ++ [(n, v)]). split.
      * apply Forall2_snoc; auto. split; auto. simpl. split; auto.
        rewrite Hn, Hv in *. repeat split; auto.
        destruct Hf as (b & _ & _ & _ & _ & Hv'). exact Hv'.
      * apply combined_snoc_end; auto. right. split; [rewrite <- Hn; exact Ec|].
        apply (combined_names _ _ _ n Hcb). exact F2.
  - assert (Hnc: ~ combs comb n).
    { intro C. rewrite <- Hn in C. apply is_combinable_combs in C. congruence. }
    exists (gs ++ [(n, v)]). split.
    + apply Forall2_snoc; auto. split; auto.
    + apply combined_snoc_end; auto.
Qed.

Lemma add_line_drop : forall comb hs line, (forall n v, ~ field_line line n v) ->
  add_header_line comb hs line = hs.
Proof.
  intros comb hs line H. unfold add_header_line. apply qualify_illegal in H. rewrite H. reflexivity.
Qed.

Lemma field_line_dec : forall l, (exists n v, field_line l n v) \/ (forall n v, ~ field_line l n v).
Proof.
  intros l. destruct (illegal (qualify_header l)) eqn:E.
  - right. apply qualify_illegal. exact E.
  - left. apply qualify_legal in E. eauto.
Qed.

Lemma fields_of_exists : forall ls, exists fs, fields_of ls fs.
Proof.
  induction ls as [|l ls (fs & IH)].
  - exists []. constructor.
  - destruct (field_line_dec l) as [(n & v & H)|H].
    + exists ((n, v) :: fs). constructor; auto.
    + exists fs. constructor; auto.
Qed.

Lemma fold_lines_ok : forall comb ls fs hs0 gs0 fs0,
  fields_of ls fs -> Forall2 (rh_ok comb) hs0 gs0 -> combined (combs comb) fs0 gs0 ->
  exists gs, Forall2 (rh_ok comb) (fold_left (add_header_line comb) ls hs0) gs /\
             combined (combs comb) (fs0 ++ fs) gs.
Proof.
  intros comb ls fs hs0 gs0 fs0 Hfo. revert hs0 gs0 fs0.
  induction Hfo as [|l n v ls fs Hl Hfo IH|l ls fs Hl Hfo IH]; intros hs0 gs0 fs0 H2 Hc; simpl.
  - rewrite app_nil_r. eauto.
  - destruct (add_line_ok _ _ _ _ _ _ _ H2 Hc Hl) as (gs' & F & C).
    destruct (IH _ _ _ F C) as (gs & F' & C'). rewrite <- app_assoc in C'. eauto.
  - rewrite add_line_drop by auto. eauto.
Qed.

Lemma compose_finish_ok : forall comb hs gs, Forall2 (rh_ok comb) hs gs ->
  hfields (compose_finish hs) = gs /\ Forall good (compose_finish hs).
Proof.
  induction 1 as [|[h sb] [n v] hs gs Hr H [IH1 IH2]]; simpl; auto.
  destruct Hr as (G & E & Hsb). simpl in *.
  destruct sb as [s|].
  - destruct Hsb as (Hc & -> & Hv).
    assert (Hf: field_line (n ++ lit ": " ++ v) n v).
    { exists [" "%char]. repeat split; auto.
      - intro C. subst n. apply good_field in G. destruct G as (b & _ & Hne & _). congruence.
      - apply good_field in G. destruct G as (b & _ & _ & Ht & _). congruence.
      - repeat constructor. }
    change (n ++ ":"%char :: " "%char :: v) with (n ++ lit ": " ++ v).
    split.
    + rewrite IH1. f_equal. unfold hfield. rewrite (qualify_field _ _ _ Hf). reflexivity.
    + constructor; auto. eapply good_of_field; eauto.
  - destruct Hsb as (Hc & Hv). split.
    + rewrite IH1. f_equal. unfold hfield. congruence.
    + constructor; auto.
Qed.

(** ** Lines *)

Lemma line_ok_split : forall s l rest, line_ok MAXBUF s l rest ->
  (exists e, eol e /\ s = l ++ e ++ rest /\ text l /\ Z.of_nat (length l + length e) < 4096) \/
  (rest = [] /\ text l /\ l <> []) \/ (l = [] /\ rest = [] /\ s = ["013"%char]).
Proof.
  intros s l rest H. inversion H; subst.
  - left. exists e. repeat split; auto.
  - right. left. auto.
  - destruct l as [|c l]; [right; right; auto|right; left; repeat split; auto; discriminate].
Qed.

Lemma read_eof : forall fuel comb hs, read_header_lines fuel comb hs [] = None.
Proof. intros [|fuel] comb hs; reflexivity. Qed.

Lemma read_lines_sound : forall fuel comb hs0 bs hs rest,
  read_header_lines fuel comb hs0 (map RByte bs) = Some (hs, rest) ->
  exists ls r, head_lines 4096 bs ls r /\ rest = map RByte r /\
    hs = compose_finish (fold_left (add_header_line comb) ls hs0).
Proof.
  induction fuel as [|fuel IH]; intros comb hs0 bs hs rest H; [discriminate|].
  cbn [read_header_lines] in H.
  destruct (get_line_status MAXBUF bs ltac:(unfold MAXBUF; lia)) as (st & line & r & Eg & Er & Hst).
  rewrite Eg in H. destruct st; try discriminate.
  apply line_ok_split in Hst. clear Er.
  destruct line as [|c line].
  - injection H as <- <-. exists [], r. 
    destruct Hst as [(e & He & -> & _)|[(_ & _ & C)|(_ & -> & ->)]].
    + repeat split; auto. apply (hl_end 4096 e r); auto.
    + congruence.
    + repeat split; auto. constructor.
  - destruct Hst as [(e & He & -> & Ht & Hlen)|[(-> & Ht & _)|(C & _)]]; [| |discriminate].
    + destruct (IH _ _ _ _ _ H) as (ls & r' & Hh & -> & ->).
      exists ((c :: line) :: ls), r'. repeat split; auto. constructor; auto. discriminate.
    + rewrite read_eof in H. discriminate.
Qed.

Lemma read_lines_complete : forall bs ls r, head_lines 4096 bs ls r ->
  forall fuel comb hs0, (length bs < fuel)%nat ->
  read_header_lines fuel comb hs0 (map RByte bs) =
    Some (compose_finish (fold_left (add_header_line comb) ls hs0), map RByte r).
Proof.
  induction 1 as [e rest He| |l e s ls rest Ht Hne He Hlen H IH]; intros fuel comb hs0 Hf;
    (destruct fuel as [|fuel]; [simpl in Hf; lia|]); cbn [read_header_lines].
  - assert (L: line_ok MAXBUF (e ++ rest) [] rest).
    { apply (line_terminated MAXBUF [] e rest); auto. constructor.
      destruct He as [->| ->]; unfold MAXBUF; simpl; lia. }
    apply get_line_ok_iff in L; [|unfold MAXBUF; lia]. rewrite L. reflexivity.
  - reflexivity.
  - assert (L: line_ok MAXBUF (l ++ e ++ s) l s) by (constructor; auto).
    apply get_line_ok_iff in L; [|unfold MAXBUF; lia]. rewrite L.
    destruct l as [|c l]; [congruence|].
    rewrite IH; [reflexivity|]. rewrite !app_length in Hf. simpl in Hf.
    destruct He as [->| ->]; simpl in Hf; lia.
Qed.

Lemma skip_sound : forall fuel bs st line src,
  skip_blank_lines fuel (map RByte bs) = (st, line, src) ->
  (st = COPY_OK -> (exists r, src = map RByte r /\ line <> [] /\
     forall ls q, head_lines 4096 r ls q -> message_head 4096 bs line ls q) \/ src = []) /\
  (st = COPY_EOF -> (length bs < fuel)%nat -> src = []).
Proof.
  induction fuel as [|fuel IH]; intros bs st line src H.
  - injection H as <- <- <-. split; [discriminate|]. intros _ C. lia.
  - cbn [skip_blank_lines] in H.
    destruct (get_line_status MAXBUF bs ltac:(unfold MAXBUF; lia)) as (st' & line' & r & Eg & Er & Hst).
    rewrite Eg in H.
    destruct st'.
    + apply line_ok_split in Hst. destruct line' as [|c l'].
      * destruct Hst as [(e & He & -> & _)|[(_ & _ & C)|(_ & -> & ->)]]; [|congruence|].
        -- destruct (IH _ _ _ _ H) as [I1 I2]. split.
           ++ intros E. destruct (I1 E) as [(r' & -> & Hne & Hh)|E2]; auto. left.
              exists r'. repeat split; auto. intros ls q Hq. apply (mh_blank 4096 e r); auto.
           ++ intros E Hl. apply I2; auto. rewrite app_length in Hl.
              destruct He as [->| ->]; simpl in Hl; lia.
        -- destruct fuel as [|fuel]; simpl in H; injection H as <- <- <-; split; auto; discriminate.
      * injection H as <- <- <-. split; [|discriminate]. intros _.
        destruct Hst as [(e & He & -> & Ht & Hl)|[(-> & Ht & _)|(C & _)]]; [| |discriminate].
        -- left. exists r. repeat split; auto. discriminate.
           intros ls q Hq. apply (mh_first 4096 (c :: l') e r); auto. discriminate.
        -- right. reflexivity.
    + injection H as <- <- <-. split; [discriminate|]. intros _ _. subst. reflexivity.
    + injection H as <- <- <-. split; discriminate.
    + injection H as <- <- <-. split; discriminate.
    + injection H as <- <- <-. split; discriminate.
    + injection H as <- <- <-. split; discriminate.
Qed.

Lemma skip_complete : forall bs l ls q, message_head 4096 bs l ls q ->
  forall fuel, (length bs < fuel)%nat ->
  exists r, skip_blank_lines fuel (map RByte bs) = (COPY_OK, l, map RByte r) /\
            head_lines 4096 r ls q.
Proof.
  induction 1 as [e s l ls rest He H IH|l e s ls rest Ht Hne He Hlen H]; intros fuel Hf;
    (destruct fuel as [|fuel]; [simpl in Hf; lia|]); cbn [skip_blank_lines].
  - assert (L: line_ok MAXBUF (e ++ s) [] s).
    { apply (line_terminated MAXBUF [] e s); auto. constructor.
      destruct He as [->| ->]; unfold MAXBUF; simpl; lia. }
    apply get_line_ok_iff in L; [|unfold MAXBUF; lia]. rewrite L.
    apply IH. rewrite app_length in Hf. destruct He as [->| ->]; simpl in Hf; lia.
  - assert (L: line_ok MAXBUF (l ++ e ++ s) l s) by (constructor; auto).
    apply get_line_ok_iff in L; [|unfold MAXBUF; lia]. rewrite L.
    destruct l as [|c l]; [congruence|]. eauto.
Qed.

Lemma read_request_sound : forall comb bs req hs rest,
  http_request_read comb (map RByte bs) = RR_ok req hs rest ->
  exists ls fs gs r, message_head 4096 bs req ls r /\ fields_of ls fs /\
    combined (combs comb) fs gs /\ hfields hs = gs /\ Forall good hs /\ rest = map RByte r.
Proof.
  intros comb bs req hs rest H. unfold http_request_read in H.
  destruct (skip_blank_lines _ _) as [[st line] src] eqn:Es.
  pose proof (skip_sound _ _ _ _ _ Es) as [S1 S2].
  assert (K: exists r, src = map RByte r /\ (forall ls q, head_lines 4096 r ls q -> message_head 4096 bs line ls q) /\
            exists hs', read_header_lines (S (length src)) comb [] src = Some (hs', rest) /\ hs = hs' /\ req = line).
  { destruct st; try discriminate.
    - destruct (read_header_lines (S (length src)) comb [] src) as [[hs' src']|] eqn:Er; [|discriminate].
      injection H as <- <- <-.
      destruct (S1 eq_refl) as [(r & -> & Hne & Hh)|E].
      + exists r. repeat split; auto. eauto.
      + subst src. rewrite read_eof in Er. discriminate.
    - rewrite map_length in S2. rewrite S2 in H by (auto; lia). discriminate. }
  destruct K as (r & -> & Hh & hs' & Er & -> & ->).
  destruct (read_lines_sound _ _ _ _ _ _ Er) as (ls & r' & Hl & -> & ->).
  destruct (fields_of_exists ls) as (fs & Hfo).
  destruct (fold_lines_ok comb ls fs [] [] [] Hfo ltac:(constructor) ltac:(constructor)) as (gs & F & C).
  destruct (compose_finish_ok _ _ _ F) as [E1 E2].
  exists ls, fs, gs, r'. simpl in C. auto 10.
Qed.

Lemma read_request_complete : forall comb bs req ls r,
  message_head 4096 bs req ls r ->
  exists hs, http_request_read comb (map RByte bs) = RR_ok req hs (map RByte r).
Proof.
  intros comb bs req ls r H. unfold http_request_read.
  destruct (skip_complete _ _ _ _ H (S (length (map RByte bs)))) as (r' & -> & Hl).
  { rewrite map_length. lia. }
  rewrite (read_lines_complete _ _ _ Hl); [eauto|]. rewrite map_length. lia.
Qed.

(** Without combinable names the header texts are the lines themselves. *)
Lemma fold_lines_plain : forall ls hs0,
  compose_finish (fold_left (add_header_line []) ls hs0) =
  compose_finish hs0 ++ filter (fun h => negb (illegal h)) (map qualify_header ls).
Proof.
  induction ls as [|l ls IH]; intros hs0; simpl.
  - rewrite app_nil_r. reflexivity.
  - rewrite IH. unfold add_header_line. simpl.
    destruct (illegal (qualify_header l)); simpl; auto.
    unfold compose_finish. rewrite map_app, <- app_assoc. reflexivity.
Qed.

Definition keep_line (l : bytes) : bool := negb (illegal (qualify_header l)).

Lemma read_plain_texts : forall bs req hs rest,
  http_request_read [] (map RByte bs) = RR_ok req hs rest ->
  exists ls r, message_head 4096 bs req ls r /\
    map h_text hs = filter keep_line ls /\
    (forall l, keep_line l = true <-> exists n v, field_line l n v).
Proof.
  intros bs req hs rest H. unfold http_request_read in H.
  destruct (skip_blank_lines _ _) as [[st line] src] eqn:Es.
  pose proof (skip_sound _ _ _ _ _ Es) as [S1 S2].
  assert (HK: forall l, keep_line l = true <-> exists n v, field_line l n v).
  { intros l. unfold keep_line. rewrite negb_true_iff. split.
    - intros E. apply qualify_legal in E. eauto.
    - intros (n & v & E). apply qualify_iff in E. tauto. }
  assert (K: exists r, src = map RByte r /\ (forall ls q, head_lines 4096 r ls q -> message_head 4096 bs line ls q) /\
            exists hs', read_header_lines (S (length src)) [] [] src = Some (hs', rest) /\ hs = hs' /\ req = line).
  { destruct st; try discriminate.
    - destruct (read_header_lines (S (length src)) [] [] src) as [[hs' src']|] eqn:Er; [|discriminate].
      injection H as <- <- <-.
      destruct (S1 eq_refl) as [(r & -> & Hne & Hh)|E].
      + exists r. repeat split; auto. eauto.
      + subst src. rewrite read_eof in Er. discriminate.
    - rewrite map_length in S2. rewrite S2 in H by (auto; lia). discriminate. }
  destruct K as (r & -> & Hh & hs' & Er & -> & ->).
  destruct (read_lines_sound _ _ _ _ _ _ Er) as (ls & r' & Hl & -> & ->).
  exists ls, r'. repeat split; auto; try apply HK.
  rewrite fold_lines_plain. simpl. clear.
  induction ls as [|l ls IH]; simpl; auto. unfold keep_line at 1.
  destruct (illegal (qualify_header l)) eqn:E; simpl; auto.
  rewrite qualify_text, IH. reflexivity.
Qed.
