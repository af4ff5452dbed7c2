From Coq Require Import String Ascii List ZArith Bool Lia Arith.
From Verif Require LogSpec LogProofs ReplyProofs NumProofs.
From Verif Require Import Bytes ClenModel ClenSpec ClenProofs StreamModel StreamSpec StreamProofs TokSpec ReqModel ReqSpec ReqProofs HdrProofs HeadProofs
  FrameModel FrameSpec FrameProofs LogModel LocModel LocSpec LocProofs RespModel RespSpec RespProofs RespConnProofs FwdModel FwdSpec.
Import ListNotations.
Open Scope Z_scope.

(** ** Fields *)

Lemma field_of : forall n v, n <> [] -> Forall token_char n -> (forall c u, v = c :: u -> ~ blank c) ->
  field_line (n ++ lit ": " ++ v) n v.
Proof. intros n v H1 H2 H3. exists [" "%char]. repeat split; auto. repeat constructor. Qed.

Lemma lit_tokens : forall n, forallb hname_char n = true -> Forall token_char n.
Proof.
  intros n H. rewrite forallb_forall in H. rewrite Forall_forall. intros c Hc. apply hname_token. auto.
Qed.

Lemma set_replace : forall n v k hs, n <> [] -> forallb hname_char n = true -> (forall c u, v = c :: u -> ~ blank c) -> Forall good hs ->
  exists hs', set_to H_REPLACE (n ++ lit ": " ++ v) k hs = k hs' /\ Forall good hs' /\ replaced n v (hfields hs) (hfields hs') /\
    http_header_list_append hs (n ++ lit ": " ++ v) H_REPLACE = (0, hs').
Proof.
  intros n v k hs N T V G. pose proof (field_of n v N (lit_tokens n T) V) as F.
  pose proof (append_good hs _ n v H_REPLACE G F) as G'. unfold set_to.
  destruct (first_exists n (hfields hs)) as [H1 [H2|H2]].
  - destruct (H1 H2) as (a & f & b & H). destruct (append_replace _ _ _ _ _ _ _ F H) as (hs' & E & Ef). rewrite E in *.
    exists hs'. cbn [Z.eqb]. repeat split; auto. rewrite Ef. eapply re_first. eauto.
  - destruct (append_absent hs _ n v H_REPLACE F H2) as (hs' & E & Ef & _). rewrite E in *.
    exists hs'. cbn [Z.eqb]. repeat split; auto. rewrite Ef. apply re_new. auto.
Qed.

Lemma set_join : forall n v k hs, n <> [] -> forallb hname_char n = true -> (forall c u, v = c :: u -> ~ blank c) -> Forall good hs ->
  exists hs', set_to H_APPEND (n ++ lit ": " ++ v) k hs = k hs' /\ Forall good hs' /\ joined n v (hfields hs) (hfields hs').
Proof.
  intros n v k hs N T V G. pose proof (field_of n v N (lit_tokens n T) V) as F.
  pose proof (append_good hs _ n v H_APPEND G F) as G'. unfold set_to.
  destruct (first_exists n (hfields hs)) as [H1 [H2|H2]].
  - destruct (H1 H2) as (a & [m w] & b & H). destruct (append_append _ _ _ _ _ _ _ _ G F H) as (hs' & f' & E & Ef & E1 & E2). rewrite E in *.
    exists hs'. cbn [Z.eqb]. repeat split; auto. rewrite Ef. destruct w as [|c w].
    + rewrite (E1 eq_refl). eapply jo_empty. eauto.
    + destruct (E2 ltac:(discriminate)) as (bl & Hb & ->). eapply jo_join; eauto. discriminate.
  - destruct (append_absent hs _ n v H_APPEND F H2) as (hs' & E & Ef & _). rewrite E in *.
    exists hs'. cbn [Z.eqb]. repeat split; auto. rewrite Ef. apply jo_new. auto.
Qed.

Lemma edited_app : forall es1 es2 fs fs1 fs2, edited es1 fs fs1 -> edited es2 fs1 fs2 -> edited (es1 ++ es2) fs fs2.
Proof. induction 1; intros; cbn [app]; auto; econstructor; eauto. Qed.

(** ** Continuations: each step is an edit *)
Definition does (es : list edit) (f : list header -> list header) : Prop :=
  forall hs, Forall good hs -> Forall good (f hs) /\ edited es (hfields hs) (hfields (f hs)).

Lemma does_id : does [] (fun hs => hs).
Proof. intros hs G. split; [auto|constructor]. Qed.
Lemma does_replace : forall n v es k, n <> [] -> forallb hname_char n = true -> (forall c u, v = c :: u -> ~ blank c) ->
  does es k -> does (Replace n v :: es) (set_to H_REPLACE (n ++ lit ": " ++ v) k).
Proof.
  intros n v es k N T V D hs G. destruct (set_replace n v k hs N T V G) as (hs' & -> & G' & R & _).
  destruct (D hs' G') as [D1 D2]. split; [auto|]. econstructor; eauto.
Qed.
Lemma does_join : forall n v es k, n <> [] -> forallb hname_char n = true -> (forall c u, v = c :: u -> ~ blank c) ->
  does es k -> does (Join n v :: es) (set_to H_APPEND (n ++ lit ": " ++ v) k).
Proof.
  intros n v es k N T V D hs G. destruct (set_join n v k hs N T V G) as (hs' & -> & G' & R).
  destruct (D hs' G') as [D1 D2]. split; [auto|]. econstructor; eauto.
Qed.
Lemma does_then : forall es1 es2 f g, does es1 f -> does es2 g -> does (es1 ++ es2) (fun hs => g (f hs)).
Proof.
  intros es1 es2 f g D1 D2 hs G. destruct (D1 hs G) as [A1 A2]. destruct (D2 _ A1) as [B1 B2]. split; [auto|].
  eapply edited_app; eauto.
Qed.

(** ** Numbers and texts *)
Lemma integer_fmt : forall n t, integer n t -> fmt_ld n = t.
Proof.
  intros n t [[H D]|(H & u & -> & D)].
  - apply LogProofs.decimal_fmt; auto.
  - pose proof (LogProofs.decimal_fmt (- n) u ltac:(lia) D) as E. unfold fmt_ld in *.
    destruct (Z.ltb_spec (- n) 0); [lia|]. destruct (Z.ltb_spec n 0); [|lia]. rewrite E. reflexivity.
Qed.
Lemma digit_text : forall c, 48 <= code c <= 57 -> text_byte c.
Proof. intros c H. right. lia. Qed.
Lemma digit_no_blank : forall c, 48 <= code c <= 57 -> ~ blank c.
Proof. intros c H [->| ->]; cbn in H; lia. Qed.
Lemma integer_visible : forall n t, integer n t -> visible t.
Proof.
  intros n t [[H D]|(H & u & -> & D)]; destruct D as (_ & D & _).
  - split; [eapply Forall_impl; [|exact D]; intros; apply digit_text; auto|]. intros c u ->. inversion D; subst. apply digit_no_blank. auto.
  - split; [constructor; [right; cbn; lia|]; eapply Forall_impl; [|exact D]; intros; apply digit_text; auto|].
    intros c v E. injection E as <- _. intros [C|C]; discriminate.
Qed.

Lemma strip_text : forall d, text d -> strip_eol (d ++ [LF]) = d.
Proof.
  induction d as [|c d IH]; intros T; [reflexivity|]. inversion T as [|? ? Tc Td]; subst. cbn [app strip_eol].
  assert (B: beq c LF || beq c CR && match d ++ [LF] with x :: _ => beq x LF | [] => false end = false).
  { apply orb_false_iff. split; [|apply andb_false_iff; left]; apply beq_neq; intros ->; destruct Tc as [C|[C C']]; try discriminate; vm_compute in C; congruence. }
  rewrite B, IH; auto.
Qed.

Lemma bio_line : forall t, text t -> t <> [] -> Z.of_nat (length t) + 1 < MAXBUF -> get_line MAXBUF (map RByte t) = (COPY_OK, t, []).
Proof.
  intros t T N L. change (@nil rd) with (map RByte []). apply get_line_ok_iff; [unfold MAXBUF; lia|]. apply line_at_eof; auto.
Qed.

Lemma does_bio : forall n v ind es k, n <> [] -> forallb hname_char n = true -> shown v -> Forall blank ind -> Z.of_nat (length ind) <= 8 ->
  does es (k []) -> does (Replace n v :: es) (set_header_from_bio n k (map RByte (ind ++ v))).
Proof.
  intros n v ind es k N T ((V1 & V2) & V3 & V4) I1 I2 D hs G. unfold set_header_from_bio.
  rewrite bio_line.
  - rewrite ClenProofs.trimwsl_app; [|auto|destruct v; [auto|eapply V2; eauto]]. apply does_replace; auto.
  - apply Forall_app. split; [|auto]. eapply Forall_impl; [|exact I1]. intros c [->| ->]; [right|left; auto]. cbn. lia.
  - destruct ind; [auto|discriminate].
  - rewrite app_length. unfold MAXBUF. lia.
Qed.

Lemma pem_ok : forall ls fuel, Forall shown ls -> (length ls <= fuel)%nat -> pem_lines fuel (map RByte (flat_map (fun l => l ++ [LF]) ls)) = ls.
Proof.
  induction ls as [|l ls IH]; intros fuel S F.
  - destruct fuel; [reflexivity|]. reflexivity.
  - inversion S as [|? ? ((V1 & V2) & V3 & V4) S']; subst. destruct fuel as [|fuel]; [cbn in F; lia|]. cbn [pem_lines flat_map].
    assert (E: get_line MAXBUF (map RByte ((l ++ [LF]) ++ flat_map (fun l => l ++ [LF]) ls)) = (COPY_OK, l, map RByte (flat_map (fun l => l ++ [LF]) ls))).
    { apply get_line_ok_iff; [unfold MAXBUF; lia|]. rewrite <- app_assoc. apply (line_terminated MAXBUF l [LF]); auto; [left; reflexivity|]. cbn [length]. unfold MAXBUF. lia. }
    rewrite E. f_equal. apply IH; [auto|]. cbn in F. lia.
Qed.
Lemma pem_fuel : forall ls, (length ls <= length (map RByte (flat_map (fun l => l ++ [LF]) ls)))%nat.
Proof. induction ls as [|l ls IH]; [cbn; lia|]. cbn [flat_map]. rewrite map_length, !app_length in *. cbn [length]. lia. Qed.
Lemma fold_is : forall ls, fold_lines ls = fold ls.
Proof. intros [|l ls]; [reflexivity|]. cbn [fold_lines fold]. rewrite flat_map_concat_map. reflexivity. Qed.
Lemma fold_no_blank : forall ls c u, ls <> [] -> Forall shown ls -> fold ls = c :: u -> ~ blank c.
Proof.
  intros [|l ls] c u N S E; [congruence|]. inversion S as [|? ? ((V1 & V2) & V3 & V4) S']; subst. cbn [fold] in E.
  destruct l as [|x l]; [congruence|]. injection E as <- _. eapply V2. reflexivity.
Qed.

(** ** The functions *)
Lemma forwarded_does : forall s w, side_ok s w -> does (forwarded_edits s w) (add_forwarded_headers s).
Proof.
  intros s w ((_ & Hc) & _ & _ & _ & _ & Hp). unfold add_forwarded_headers, forwarded_edits. cbn [app].
  change (lit "X-Forwarded-For: ") with (lit "X-Forwarded-For" ++ lit ": ").
  change (lit "X-Forwarded-Proto: ") with (lit "X-Forwarded-Proto" ++ lit ": ").
  change (lit "X-Forwarded-Port: ") with (lit "X-Forwarded-Port" ++ lit ": ").
  rewrite <- !app_assoc. apply does_join; [discriminate|reflexivity|auto|]. unfold is_tls.
  assert (E: (if match f_tls s with Some _ => true | None => false end then lit "https" else lit "http") = match f_tls s with Some _ => lit "https" | None => lit "http" end) by (destruct (f_tls s); reflexivity).
  rewrite E. apply does_replace; [discriminate|reflexivity| |].
  { intros c u H. destruct (f_tls s); injection H as <- _; intros [C|C]; discriminate. }
  destruct (f_port s) as [p|]; [|apply does_id]. destruct (Hp p eq_refl) as [_ I]. rewrite (integer_fmt _ _ I), <- app_assoc.
  apply does_replace; [discriminate|reflexivity| |apply does_id]. apply (integer_visible _ _ I).
Qed.

(** A text that does not fit into the buffer leaves the fields as they are. *)
Lemma after_no_LF : forall t, text t -> after_first_LF t = [].
Proof.
  induction t as [|c t IH]; intros T; [reflexivity|]. inversion T as [|? ? Tc Tt]; subst. cbn [after_first_LF].
  destruct (Ascii.eqb_spec c "010"%char) as [->|]; [|auto]. destruct Tc as [C|[C _]]; [discriminate|vm_compute in C; congruence].
Qed.
Lemma bio_long : forall t, text t -> MAXBUF <= Z.of_nat (length t) -> exists st l, st <> COPY_OK /\ get_line MAXBUF (map RByte t) = (st, l, []).
Proof.
  intros t T L. destruct (get_line_status MAXBUF t ltac:(unfold MAXBUF; lia)) as (st & l & r & E & R & O). rewrite (after_no_LF t T) in R. subst r.
  exists st, l. split; [|exact E]. intros ->. unfold MAXBUF in *. inversion O; subst.
  - rewrite !app_length in L. cbn in L. lia.
  - lia.
  - rewrite app_length in L. cbn in L. lia.
Qed.
Lemma skips_bio : forall n v ind es k, text v -> MAXBUF <= Z.of_nat (length v) -> Forall blank ind ->
  does es (k []) -> does es (set_header_from_bio n k (map RByte (ind ++ v))).
Proof.
  intros n v ind es k T L B D. unfold set_header_from_bio. destruct (bio_long (ind ++ v)) as (st & l & N & ->).
  - apply Forall_app. split; [|auto]. eapply Forall_impl; [|exact B]. intros c [->| ->]; [right|left; auto]. cbn. lia.
  - rewrite app_length. lia.
  - destruct st; try exact D. congruence.
Qed.

(** The general case: the subject may be too long, the serial number too big. *)
Definition subject_edits (c : cert) (es : list edit) : Prop :=
  shown (ce_subject c) /\ es = [Replace (lit "X-SSL-Subject") (ce_subject c)] \/
  text (ce_subject c) /\ MAXBUF <= Z.of_nat (length (ce_subject c)) /\ es = [].
Lemma certificate_does_gen : forall c ser pem es1, subject_edits c es1 -> shown (ce_issuer c) -> shown (ce_before c) -> shown (ce_after c) ->
  fmt_ld (asn1_integer_get (ce_serial c)) = ser -> visible ser -> pem <> [] -> Forall shown pem -> ce_pem c = flat_map (fun l => l ++ ["010"%char]) pem ->
  does (es1 ++ [Replace (lit "X-SSL-Issuer") (ce_issuer c); Replace (lit "X-SSL-notBefore") (ce_before c); Replace (lit "X-SSL-notAfter") (ce_after c);
                Replace (lit "X-SSL-serial") ser; Replace (lit "X-SSL-certificate") (fold pem)]) (fun hs =>
    set_header_from_bio (lit "X-SSL-Subject") (fun bio =>
    set_header_from_bio (lit "X-SSL-Issuer") (fun bio =>
    set_header_from_bio (lit "X-SSL-notBefore") (fun bio =>
    set_header_from_bio (lit "X-SSL-notAfter") (fun bio =>
    set_to H_REPLACE (lit "X-SSL-serial: " ++ fmt_ld (asn1_integer_get (ce_serial c)))
      (set_to H_REPLACE (lit "X-SSL-certificate: " ++ fold_lines (pem_lines (length (bio ++ map RByte (ce_pem c))) (bio ++ map RByte (ce_pem c)))) (fun hs => hs)))
      (bio ++ map RByte (ce_after c))) (bio ++ map RByte (ce_before c))) (bio ++ map RByte (repeat SP 8 ++ ce_issuer c))) ([] ++ map RByte (repeat SP 8 ++ ce_subject c)) hs).
Proof.
  intros c ser pem es1 C1 C2 C3 C4 C5 C6 C7 C8 C9. rewrite C9, C5.
  assert (B8: Forall blank (repeat SP 8)) by (apply Forall_forall; intros x X; apply repeat_spec in X; left; exact X).
  match goal with |- does (es1 ++ ?e) (fun hs => set_header_from_bio _ ?k _ hs) => assert (D: does e (k [])) end.
  { cbn [app]. apply (does_bio (lit "X-SSL-Issuer") (ce_issuer c) (repeat SP 8)); [discriminate|reflexivity|auto|auto|cbn; lia|]. cbn [app].
    apply (does_bio (lit "X-SSL-notBefore") (ce_before c) []); [discriminate|reflexivity|auto|auto|cbn; lia|]. cbn [app].
    apply (does_bio (lit "X-SSL-notAfter") (ce_after c) []); [discriminate|reflexivity|auto|auto|cbn; lia|]. cbn [app].
    change (lit "X-SSL-serial: ") with (lit "X-SSL-serial" ++ lit ": "). rewrite <- app_assoc.
    apply does_replace; [discriminate|reflexivity|apply C6|].
    change (flat_map (fun l => l ++ ["010"%char]) pem) with (flat_map (fun l => l ++ [LF]) pem).
    rewrite pem_ok, fold_is; [|auto|apply pem_fuel].
    change (lit "X-SSL-certificate: ") with (lit "X-SSL-certificate" ++ lit ": "). rewrite <- app_assoc.
    apply does_replace; [discriminate|reflexivity| |apply does_id]. intros x u. apply fold_no_blank; auto. }
  change ([] ++ map RByte (repeat SP 8 ++ ce_subject c)) with (map RByte (repeat SP 8 ++ ce_subject c)).
  destruct C1 as [[S1 ->]|(S1 & S2 & ->)]; cbn [app].
  - apply (does_bio (lit "X-SSL-Subject") (ce_subject c) (repeat SP 8)); [discriminate|reflexivity|auto|auto|cbn; lia|exact D].
  - apply (skips_bio (lit "X-SSL-Subject") (ce_subject c) (repeat SP 8)); auto.
Qed.

Lemma certificate_does : forall s c w, f_cert s = Some c -> (0 <? f_check s) = true -> cert_ok c w -> does (cert_edits c w) (add_cert_headers s).
Proof.
  intros s c w E1 E2 (C1 & C2 & C3 & C4 & C5 & C6 & C7 & C8 & C9). unfold add_cert_headers. rewrite E1, E2.
  apply (certificate_does_gen c (w_serial w) (w_pem w) [Replace (lit "X-SSL-Subject") (ce_subject c)]); auto; [left; auto| |apply (integer_visible _ _ C6)].
  unfold asn1_integer_get. destruct (Z.leb_spec (- 2 ^ 63) (ce_serial c)); [|lia]. destruct (Z.ltb_spec (ce_serial c) (2 ^ 63)); [|lia]. apply integer_fmt. exact C6.
Qed.

Lemma ssl_does : forall s w cipher, side_ok s w -> f_tls s = Some cipher ->
  does (cipher_edits s ++ match f_cert s with Some c => if 0 <? f_check s then cert_edits c w else [] | None => [] end) (add_ssl_headers s cipher).
Proof.
  intros s w cipher (_ & _ & _ & Ht & Hc & _) E. unfold add_ssl_headers, cipher_edits. rewrite E.
  assert (D: does match f_cert s with Some c => if 0 <? f_check s then cert_edits c w else [] | None => [] end (add_cert_headers s)).
  { destruct (f_cert s) as [c|] eqn:Ec; [|unfold add_cert_headers; rewrite Ec; apply does_id].
    destruct (0 <? f_check s) eqn:Ek; [|unfold add_cert_headers; rewrite Ec, Ek; apply does_id]. apply certificate_does; auto. }
  destruct cipher as [[v d]|]; [|exact D]. destruct (Ht v d E) as ((V1 & V2) & T & N). cbn [app].
  rewrite (strip_text d T). change (lit "X-SSL-cipher: ") with (lit "X-SSL-cipher" ++ lit ": "). rewrite <- app_assoc.
  apply does_replace; [discriminate|reflexivity| |exact D]. intros c u H. destruct v as [|x v]; [congruence|]. injection H as <- _. eapply V2. reflexivity.
Qed.

Lemma code_destination : forall n, find_hd_type hd_types n = HEADER_DESTINATION <-> same_letters n (lit "Destination").
Proof.
  intros n. unfold hd_types. cbn [find_hd_type]. split.
  - intros H.
    repeat match type of H with
    | (if ?x then ?a else _) = _ => destruct x eqn:E; [try discriminate H|clear E]
    end; try discriminate H.
    apply andb_true_iff in E. destruct E as [_ E]. apply ci_eqb_eq in E. exact E.
  - intros H. assert (X: ci_eqb n (lit "Destination") = true) by (apply ci_eqb_eq; exact H).
    pose proof (ci_eqb_length _ _ X) as L. apply ci_eqb_eq in X.
    repeat match goal with
    | |- (if Nat.eqb ?a ?b && ci_eqb n ?m then ?r else _) = _ =>
        let E := fresh in destruct (Nat.eqb a b && ci_eqb n m) eqn:E;
        [first [reflexivity | exfalso; apply andb_true_iff in E; destruct E as [_ E]; apply ci_eqb_eq in E; rewrite X in E; vm_compute in E; discriminate]
        |first [exfalso; rewrite L, (proj2 (ci_eqb_eq n (lit "Destination")) H) in E; discriminate E | clear E]]
    end.
Qed.

(** ** The Destination field *)
Lemma change_code_app : forall ha h hb f, Forall (fun h => is_destination (h_code h) = false) ha -> is_destination (h_code h) = true ->
  change_code (ha ++ h :: hb) is_destination f = ha ++ f h :: hb.
Proof.
  induction ha as [|x ha IH]; intros h hb f H1 H2; cbn [app change_code]; [rewrite H2; reflexivity|].
  inversion H1 as [|? ? E F]; subst. rewrite E, IH; auto.
Qed.
Lemma change_code_none : forall hs f, Forall (fun h => is_destination (h_code h) = false) hs -> change_code hs is_destination f = hs.
Proof. induction hs as [|x hs IH]; intros f H; cbn [change_code]; [reflexivity|]. inversion H as [|? ? E F]; subst. rewrite E, IH; auto. Qed.
Lemma destination_code : forall h, good h -> is_destination (h_code h) = true <-> named (lit "Destination") (hfield h).
Proof.
  intros h G. rewrite (good_code h G). unfold named. cbn [hfield fst]. rewrite <- code_destination.
  destruct (find_hd_type hd_types (h_name h)); cbn [is_destination]; split; auto; discriminate.
Qed.
Lemma destination_code_all : forall hs, Forall good hs -> Forall (fun f => ~ named (lit "Destination") f) (hfields hs) -> Forall (fun h => is_destination (h_code h) = false) hs.
Proof.
  intros hs G H. unfold hfields in H. rewrite Forall_map in H. rewrite Forall_forall in *. intros h I. apply not_true_iff_false. intros E. apply (H h I), destination_code; auto.
Qed.

Lemma dest_does : forall s w hs es, side_ok s w -> Forall good hs -> destination s (hfields hs) es ->
  Forall good (rewrite_destination s hs) /\ edited es (hfields hs) (hfields (rewrite_destination s hs)).
Proof.
  intros s w hs es _ G D. unfold rewrite_destination. destruct D as [E|H|a m v b H N|tls addr a m v b scheme host path E H U].
  - rewrite E. split; [auto|constructor].
  - destruct (f_dest s) as [[t ad]|]; [|split; [auto|constructor]]. rewrite change_code_none by (apply destination_code_all; auto). split; [auto|constructor].
  - destruct (f_dest s) as [[t ad]|]; [|split; [auto|constructor]].
    destruct (first_split _ _ _ _ _ H) as (ha & h & hb & E & <- & Eh & <- & _). subst hs. apply Forall_app in G as [G1 G2]. inversion G2 as [|? ? Gh G3]; subst.
    destruct H as (_ & H & Ha). rewrite <- Eh in H.
    rewrite change_code_app; [|apply destination_code_all; auto|apply destination_code; auto].
    injection Eh as _ Ev. rewrite Ev, (no_url_match v N). split; [apply Forall_app; auto|constructor].
  - rewrite E. pose proof H as H0.
    destruct (first_split _ _ _ _ _ H) as (ha & h & hb & Eq & <- & Eh & <- & _). subst hs. apply Forall_app in G as [G1 G2]. inversion G2 as [|? ? Gh G3]; subst.
    destruct H as (_ & H & Ha). rewrite <- Eh in H.
    rewrite change_code_app; [|apply destination_code_all; auto|apply destination_code; auto].
    pose proof Eh as Eh'. injection Eh' as _ Ev. rewrite Ev, (url_match _ _ _ _ U).
    set (x := (if tls then lit "https" else lit "http") ++ lit "://" ++ addr ++ path).
    assert (F: field_line (lit "Destination: " ++ x) (lit "Destination") x).
    { change (lit "Destination: ") with (lit "Destination" ++ lit ": "). rewrite <- app_assoc. apply field_of; [discriminate|apply lit_tokens; reflexivity|].
      intros c u X. unfold x in X. destruct tls; injection X as <- _; intros [C|C]; discriminate. }
    split; [apply Forall_app; split; [auto|constructor; [eapply good_of_field; eauto|auto]]|].
    econstructor; [|constructor]. unfold hfields at 2. rewrite map_app. cbn [map]. unfold hfield at 2. rewrite (qualify_field _ _ _ F). cbn [h_name h_val].
    eapply re_first. exact H0.
Qed.

(** ** The whole *)
Lemma compose_ok : forall s w line hs es0, side_ok s w -> Forall good hs -> destination s (hfields hs) es0 ->
  exists hs', compose s line hs = f_rules s line hs' /\ Forall good hs' /\ edited (es0 ++ edits s w) (hfields hs) (hfields hs').
Proof.
  intros s w line hs es0 K G D. destruct (dest_does s w hs es0 K G D) as [G0 E0]. unfold compose, edits. set (h0 := rewrite_destination s hs) in *. clearbody h0.
  assert (D1: does (if f_forwarded s then forwarded_edits s w else []) (fun hs => if f_forwarded s then add_forwarded_headers s hs else hs)).
  { destruct (f_forwarded s); [apply forwarded_does; auto|apply does_id]. }
  destruct (D1 h0 G0) as [G1 E1]. clear D1. set (h1 := if f_forwarded s then add_forwarded_headers s h0 else h0) in *. clearbody h1.
  match goal with |- context [edited (es0 ++ _ ++ ?e ++ _)] => assert (D2: does e (fun hs => match f_tls s with Some cipher => if f_ssl_headers s then add_ssl_headers s cipher hs else hs | None => hs end)) end.
  { destruct (f_tls s) as [cipher|] eqn:T; [|apply does_id]. destruct (f_ssl_headers s); [apply ssl_does; auto|apply does_id]. }
  destruct (D2 h1 G1) as [G2 E2]. clear D2. set (h2 := match f_tls s with Some cipher => if f_ssl_headers s then add_ssl_headers s cipher h1 else h1 | None => h1 end) in *. clearbody h2.
  unfold host_edits. destruct K as (_ & _ & Kn & _). destruct (f_servername s) as [n|].
  - change (lit "Host: ") with (lit "Host" ++ lit ": "). rewrite <- app_assoc.
    destruct (set_replace (lit "Host") n (fun h => h) h2 ltac:(discriminate) eq_refl (proj2 (Kn n eq_refl)) G2) as (h3 & _ & G3 & R & ->).
    exists h3. cbn [Z.eqb]. split; [reflexivity|]. split; [auto|]. repeat (eapply edited_app; eauto). econstructor; [exact R|constructor].
  - exists h2. split; [reflexivity|]. split; [auto|]. repeat (eapply edited_app; eauto). constructor.
Qed.

(** ** What the edits do to the fields of a name *)
Lemma values_app : forall n a b, values_of n (a ++ b) = values_of n a ++ values_of n b.
Proof. intros n a b. unfold values_of. rewrite filter_app, map_app. reflexivity. Qed.
Lemma values_cons : forall n f l, values_of n (f :: l) = (if is_named n f then [snd f] else []) ++ values_of n l.
Proof. intros n f l. unfold values_of. cbn [filter]. destruct (is_named n f); reflexivity. Qed.
Lemma values_none : forall n l, Forall (fun f => ~ named n f) l -> values_of n l = [].
Proof.
  intros n l H. induction H as [|f l Hf H IH]; [reflexivity|]. rewrite values_cons, IH.
  destruct (is_named n f) eqn:E; [exfalso; apply Hf, is_named_iff; auto|reflexivity].
Qed.
Lemma is_named_refl : forall n v, is_named n (n, v) = true.
Proof. intros n v. apply is_named_iff. reflexivity. Qed.

Lemma replaced_values : forall n v fs fs', replaced n v fs fs' -> values_of n fs' = v :: tl (values_of n fs).
Proof.
  intros n v fs fs' [H|a f b (-> & Hn & Ha)].
  - rewrite values_app, values_cons, is_named_refl, values_none by auto. reflexivity.
  - rewrite !values_app, !values_cons, is_named_refl, (values_none n a) by auto. apply is_named_iff in Hn. rewrite Hn. reflexivity.
Qed.
Lemma joined_values : forall n v fs fs', joined n v fs fs' ->
  values_of n fs = [] /\ values_of n fs' = [v] \/
  exists w ws, values_of n fs = w :: ws /\ (w = [] /\ values_of n fs' = v :: ws \/
    w <> [] /\ exists bl, Forall blank bl /\ values_of n fs' = (w ++ ","%char :: bl ++ v) :: ws).
Proof.
  intros n v fs fs' [H|a m b (-> & Hn & Ha)|a m w b bl (-> & Hn & Ha) Hw Hb].
  - left. rewrite values_app, values_cons, is_named_refl, values_none by auto. auto.
  - right. pose proof Hn as Hn'. apply is_named_iff in Hn'. exists [], (values_of n b). rewrite !values_app, !values_cons, is_named_refl, Hn', (values_none n a) by auto. auto.
  - right. pose proof Hn as Hn'. apply is_named_iff in Hn'. exists w, (values_of n b).
    assert (Hn2: is_named n (m, w ++ ","%char :: bl ++ v) = true) by exact Hn'.
    rewrite !values_app, !values_cons, Hn', Hn2, (values_none n a) by auto. split; [reflexivity|]. right. split; [auto|]. exists bl. auto.
Qed.

(** Fields that a test does not tell apart from edited ones stay, in order. *)
Definition apart (P : field -> bool) (n : bytes) : Prop := forall f, named n f -> P f = false.
Lemma replaced_rest : forall P n v fs fs', apart P n -> replaced n v fs fs' -> filter P fs' = filter P fs.
Proof.
  intros P n v fs fs' A [H|a f b (-> & Hn & Ha)]; rewrite !filter_app; cbn [filter]; rewrite (A (n, v)) by reflexivity.
  - rewrite app_nil_r. reflexivity.
  - rewrite (A f Hn). reflexivity.
Qed.
Lemma joined_rest : forall P n v fs fs', apart P n -> joined n v fs fs' -> filter P fs' = filter P fs.
Proof.
  intros P n v fs fs' A [H|a m b (-> & Hn & Ha)|a m w b bl (-> & Hn & Ha) Hw Hb]; rewrite !filter_app; cbn [filter].
  - rewrite (A (n, v)) by reflexivity. rewrite app_nil_r. reflexivity.
  - rewrite (A (n, v)), (A _ Hn) by reflexivity. reflexivity.
  - rewrite (A _ Hn), (A (m, w ++ ","%char :: bl ++ v)) by exact Hn. reflexivity.
Qed.
Lemma edited_rest : forall P es fs fs', edited es fs fs' -> Forall (fun e => apart P (edit_name e)) es -> filter P fs' = filter P fs.
Proof.
  induction 1 as [|n v es fs fs1 fs2 J E IH|n v es fs fs1 fs2 J E IH]; intros F; [reflexivity| |]; inversion F; subst; rewrite IH by auto.
  - eapply joined_rest; eauto.
  - eapply replaced_rest; eauto.
Qed.
Lemma apart_named : forall n m, ~ same_letters n m -> apart (is_named n) m.
Proof.
  intros n m H f Hf. apply not_true_iff_false. intros E. apply is_named_iff in E. apply H. unfold named in *. unfold same_letters in *. congruence.
Qed.
Lemma edited_values : forall n es fs fs', edited es fs fs' -> Forall (fun e => ~ same_letters n (edit_name e)) es -> values_of n fs' = values_of n fs.
Proof.
  intros n es fs fs' E F. unfold values_of. f_equal. eapply edited_rest; eauto. eapply Forall_impl; [|exact F]. intros e. apply apart_named.
Qed.

Lemma edited_split : forall es1 es2 fs fs', edited (es1 ++ es2) fs fs' -> exists f1, edited es1 fs f1 /\ edited es2 f1 fs'.
Proof.
  induction es1 as [|e es1 IH]; intros es2 fs fs' H; cbn [app] in H.
  - exists fs. split; [constructor|auto].
  - inversion H; subst; match goal with K : edited (es1 ++ es2) _ _ |- _ => destruct (IH _ _ _ K) as (f1 & A & B) end; exists f1; split; auto; econstructor; eauto.
Qed.
Lemma edited_replace : forall n v es1 es2 fs fs', edited (es1 ++ Replace n v :: es2) fs fs' ->
  Forall (fun e => ~ same_letters n (edit_name e)) es1 -> Forall (fun e => ~ same_letters n (edit_name e)) es2 ->
  values_of n fs' = v :: tl (values_of n fs).
Proof.
  intros n v es1 es2 fs fs' H F1 F2. destruct (edited_split _ _ _ _ H) as (f1 & A & B). inversion B; subst.
  rewrite (edited_values n es2 _ _ ltac:(eassumption) F2), <- (edited_values n es1 _ _ A F1). apply replaced_values. auto.
Qed.
Lemma edited_join : forall n v es1 es2 fs fs', edited (es1 ++ Join n v :: es2) fs fs' ->
  Forall (fun e => ~ same_letters n (edit_name e)) es1 -> Forall (fun e => ~ same_letters n (edit_name e)) es2 ->
  exists x, values_of n fs' = x :: tl (values_of n fs) /\ last_element x v /\
    (forall w ws, values_of n fs = w :: ws -> w <> [] -> exists bl, Forall blank bl /\ x = w ++ ","%char :: bl ++ v) /\
    ((forall w ws, values_of n fs = w :: ws -> w = []) -> x = v).
Proof.
  intros n v es1 es2 fs fs' H F1 F2. destruct (edited_split _ _ _ _ H) as (f1 & A & B). inversion B; subst.
  rewrite (edited_values n es2 _ _ ltac:(eassumption) F2), <- (edited_values n es1 _ _ A F1).
  match goal with J : joined _ _ _ _ |- _ => destruct (joined_values _ _ _ _ J) as [[E1 E2]|(w & ws & E1 & [[-> E2]|(Hw & bl & Hb & E2)])] end; rewrite E1, E2.
  - exists v. split; [reflexivity|]. split; [left; exists []; split; [constructor|reflexivity]|]. split; [discriminate|auto].
  - exists v. split; [reflexivity|]. split; [left; exists []; split; [constructor|reflexivity]|]. split; [intros w' ws' E; injection E as <- <-; congruence|auto].
  - exists (w ++ ","%char :: bl ++ v). split; [reflexivity|]. split; [right; exists w, bl; auto|]. split.
    + intros w' ws' E _. injection E as <- <-. exists bl. auto.
    + intros K. exfalso. apply Hw. eapply K. reflexivity.
Qed.

(** Names of the edits: all different. *)
Ltac diff := let Q := fresh "Q" in intros Q; vm_compute in Q; discriminate Q.
Lemma names_dest : forall s fs es, destination s fs es -> es = [] \/ exists v, es = [Replace (lit "Destination") v].
Proof. intros s fs es []; eauto. Qed.

(** ** The bytes *)
Definition foldable (v : bytes) : Prop := exists l cs, v = l ++ flat_map (fun x => CRLF ++ x) cs /\ text l /\
  Forall (fun x => text x /\ exists c u, x = c :: u /\ blank c) cs.
Lemma text_foldable : forall v, text v -> foldable v.
Proof. intros v H. exists v, []. cbn. rewrite app_nil_r. auto. Qed.
Lemma foldable_app : forall v x, foldable v -> text x -> foldable (v ++ x).
Proof.
  intros v x (l & cs & -> & Hl & Hc) Hx. destruct cs as [|c cs] using rev_ind.
  - exists (l ++ x), []. cbn. rewrite !app_nil_r. repeat split; auto. apply Forall_app. auto.
  - clear IHcs. apply Forall_app in Hc as [H1 H2]. inversion H2 as [|? ? [Hc (d & u & -> & Hd)] _]; subst.
    exists l, (cs ++ [(d :: u) ++ x]). repeat split; auto.
    + rewrite !flat_map_app. cbn [flat_map]. rewrite !app_nil_r, <- !app_assoc. reflexivity.
    + apply Forall_app. split; [auto|]. constructor; [|constructor]. split; [apply Forall_app; auto|]. exists d, (u ++ x). auto.
Qed.
Lemma foldable_pre : forall v x, foldable v -> text x -> foldable (x ++ v).
Proof. intros v x (l & cs & -> & Hl & Hc) Hx. exists (x ++ l), cs. rewrite app_assoc. repeat split; auto. apply Forall_app. auto. Qed.
Lemma fold_foldable : forall ls, Forall shown ls -> foldable (fold ls).
Proof.
  intros [|l ls] H; [apply text_foldable; constructor|]. inversion H as [|? ? ((V1 & _) & _) S]; subst. cbn [fold].
  exists l, (map (fun x => "009"%char :: x) ls). split; [f_equal; clear; induction ls as [|x ls IH]; [reflexivity|]; cbn [flat_map map]; rewrite IH; reflexivity|].
  split; [auto|]. clear - S. induction S as [|x ls ((V1 & _) & _) S IH]; constructor; auto. split; [constructor; [left; reflexivity|auto]|]. exists "009"%char, x. split; [auto|right; reflexivity].
Qed.
Lemma blanks_text : forall b, Forall blank b -> text b.
Proof. intros b H. eapply Forall_impl; [|exact H]. intros c [->| ->]; [right; cbn; lia|left; reflexivity]. Qed.

Definition edit_ok (e : edit) : Prop := match e with Join _ v => text v | Replace _ v => foldable v end.
Lemma edited_foldable : forall es fs fs', edited es fs fs' -> Forall edit_ok es -> Forall (fun f => foldable (snd f)) fs -> Forall (fun f => foldable (snd f)) fs'.
Proof.
  induction 1 as [|n v es fs fs1 fs2 J E IH|n v es fs fs1 fs2 J E IH]; intros Ho Hf; auto; inversion Ho as [|? ? Hv Ho']; subst; cbn in Hv; apply IH; auto; clear IH E Ho.
  - destruct J as [H|a m b (-> & Hn & Ha)|a m w b bl (-> & Hn & Ha) Hw Hb]; apply Forall_app.
    + split; [auto|]. repeat constructor. apply text_foldable. auto.
    + apply Forall_app in Hf as [H1 H2]. inversion H2; subst. split; [auto|]. constructor; [apply text_foldable; auto|auto].
    + apply Forall_app in Hf as [H1 H2]. inversion H2 as [|? ? H3 H4]; subst. split; [auto|]. constructor; [|auto]. cbn [snd] in *. apply foldable_app; [auto|].
      constructor; [right; cbn; lia|]. apply Forall_app. split; [apply blanks_text; auto|auto].
  - destruct J as [H|a f b (-> & Hn & Ha)]; apply Forall_app.
    + split; [auto|]. repeat constructor. auto.
    + apply Forall_app in Hf as [H1 H2]. inversion H2; subst. split; [auto|]. constructor; auto.
Qed.

Definition texts (fs : list field) : Prop := Forall (fun f => text (snd f)) fs.
Lemma head_lines_text : forall lim bs ls r, head_lines lim bs ls r -> Forall (fun l => text l /\ l <> []) ls.
Proof. induction 1; constructor; auto. Qed.
Lemma message_head_text : forall lim bs l ls r, message_head lim bs l ls r -> text l /\ l <> [] /\ Forall (fun l => text l /\ l <> []) ls.
Proof. induction 1; auto. repeat split; auto. eapply head_lines_text; eauto. Qed.
Lemma field_text : forall l n v, field_line l n v -> text l -> text v.
Proof.
  intros l n v (b & -> & _) H. apply Forall_app in H as [_ H]. inversion H as [|? ? _ H2]; subst. apply Forall_app in H2. tauto.
Qed.
Lemma fields_of_text : forall ls fs, fields_of ls fs -> Forall (fun l => text l /\ l <> []) ls -> texts fs.
Proof.
  induction 1 as [|l n v ls fs F H IH|l ls fs F H IH]; intros T; [constructor| |]; inversion T as [|? ? [T1 T2] T3]; subst; [|auto].
  constructor; [eapply field_text; eauto|auto]. apply IH. auto.
Qed.
Lemma join_text : forall vs, Forall text vs -> text (join vs).
Proof.
  induction vs as [|v vs IH]; intros H; [constructor|]. inversion H; subst. destruct vs as [|v' vs]; [auto|].
  change (join (v :: v' :: vs)) with (v ++ ","%char :: " "%char :: join (v' :: vs)). apply Forall_app. split; [auto|].
  constructor; [right; cbn; lia|]. constructor; [right; cbn; lia|]. apply IH. auto.
Qed.
Lemma collect_text : forall n fs vs o, collect n fs vs o -> texts fs -> Forall text vs /\ texts o.
Proof.
  induction 1; intros T; [split; constructor| |]; inversion T as [|? ? T1 T2]; subst; destruct (IHcollect T2); split; auto; constructor; auto.
Qed.
Lemma combined_text : forall comb fs gs, combined comb fs gs -> texts fs -> texts gs.
Proof.
  induction 1 as [|n v fs gs Hn H IH|n v fs vs o gs Hn Hc H IH]; intros T; [constructor| |]; inversion T as [|? ? T1 T2]; subst.
  - constructor; auto. apply IH. auto.
  - destruct (collect_text _ _ _ _ Hc T2) as [C1 C2]. constructor; [|apply IH; auto]. apply (join_text (v :: vs)). auto.
Qed.

Lemma edits_ok : forall s w fs es0, side_ok s w -> destination s fs es0 -> texts fs -> Forall edit_ok (es0 ++ edits s w).
Proof.
  intros s w fs es0 (K1 & K2 & K3 & K4 & K5 & K6) D T. apply Forall_app. split.
  - destruct D as [E|H|a m v b H N|tls addr a m v b scheme host path E H U]; try constructor; [|constructor]. unfold edit_ok. apply text_foldable.
    apply Forall_app. split; [destruct tls; repeat (constructor; [right; cbn; lia|]); constructor|].
    apply Forall_app. split; [repeat (constructor; [right; cbn; lia|]); constructor|]. apply Forall_app. split; [eapply K2; eauto|].
    destruct H as (-> & _). apply Forall_app in T as [_ T]. inversion T as [|? ? T1 _]; subst. cbn in T1. destruct U as (-> & _).
    unfold text in T1. rewrite !Forall_app in T1. tauto.
  - unfold edits. apply Forall_app. split; [|apply Forall_app; split].
    + destruct (f_forwarded s); [|constructor]. unfold forwarded_edits. constructor; [apply K1|]. constructor.
      { apply text_foldable. destruct (f_tls s); repeat (constructor; [right; cbn; lia|]); constructor. }
      destruct (f_port s) as [p|]; [|constructor]. constructor; [|constructor]. apply text_foldable. destruct (K6 p eq_refl) as [_ I]. apply (integer_visible _ _ I).
    + destruct (f_tls s) as [cipher|] eqn:Et; [|constructor]. destruct (f_ssl_headers s); [|constructor]. apply Forall_app. split.
      * unfold cipher_edits. rewrite Et. destruct cipher as [[v d]|]; [|constructor]. destruct (K4 v d eq_refl) as ((V1 & V2) & V3 & _). constructor; [|constructor].
        apply text_foldable. apply Forall_app. split; [auto|]. apply Forall_app. split; [repeat (constructor; [right; cbn; lia|]); constructor|auto].
      * destruct (f_cert s) as [c|]; [|constructor]. destruct (0 <? f_check s); [|constructor].
        destruct (K5 c eq_refl) as (((C1 & _) & _) & ((C2 & _) & _) & ((C3 & _) & _) & ((C4 & _) & _) & C5 & C6 & C7 & C8 & C9).
        unfold cert_edits. repeat (constructor; [first [apply text_foldable; assumption | apply text_foldable; apply (integer_visible _ _ C6) | apply fold_foldable; assumption]|]). constructor.
    + unfold host_edits. destruct (f_servername s) as [n|]; [|constructor]. constructor; [|constructor]. apply text_foldable. apply (K3 n eq_refl).
Qed.

(** Lines of the header texts *)
Lemma token_text : forall c, token_char c -> text_byte c /\ ~ blank c.
Proof.
  intros c H. apply hname_token in H. split.
  - right. destruct c as [[] [] [] [] [] [] [] []]; vm_compute in H; try discriminate H; vm_compute; split; intros C; discriminate C.
  - intros [->| ->]; discriminate H.
Qed.
Lemma header_lines : forall h, good h -> foldable (h_val h) -> exists l cs, h_text h = l ++ flat_map (fun x => CRLF ++ x) cs /\
  text l /\ l <> [] /\ (forall c u, l = c :: u -> ~ blank c) /\ Forall (fun x => text x /\ exists c u, x = c :: u /\ blank c) cs.
Proof.
  intros h G (l & cs & E & Hl & Hc). destruct (good_field h G) as (b & Et & Hn & Ht & Hb & _).
  exists (h_name h ++ ":"%char :: b ++ l), cs. split; [|split; [|split; [|split; [|auto]]]].
  - rewrite Et, E, <- app_assoc. cbn [app]. rewrite <- app_assoc. reflexivity.
  - apply Forall_app. split; [eapply Forall_impl; [|exact Ht]; intros c Hc'; apply token_text; auto|]. constructor; [right; cbn; lia|]. apply Forall_app. split; [apply blanks_text; auto|auto].
  - destruct (h_name h); [congruence|discriminate].
  - intros c u X. destruct (h_name h) as [|x n]; [congruence|]. injection X as <- _. inversion Ht; subst. apply token_text. auto.
Qed.

Lemma head_reads : forall hs, Forall good hs -> Forall (fun f => foldable (snd f)) (hfields hs) ->
  exists ls, unfolded ls (map h_text hs) /\ forall body lim, Z.of_nat (length (concat (map (fun t => t ++ CRLF) (map h_text hs)))) < lim ->
    head_lines lim (concat (map (fun t => t ++ CRLF) (map h_text hs)) ++ CRLF ++ body) ls body.
Proof.
  induction hs as [|h hs IH]; intros G F.
  - exists []. split; [constructor|]. intros body lim _. cbn [map concat app]. apply (hl_end lim CRLF). right. reflexivity.
  - inversion G as [|? ? G1 G2]; subst. cbn in F. inversion F as [|? ? F1 F2]; subst. cbn in F1.
    destruct (IH G2 F2) as (ls & U & R). destruct (header_lines h G1 F1) as (l & cs & E & Tl & Nl & Bl & Hc).
    exists (l :: cs ++ ls). cbn [map]. split.
    + rewrite E. constructor; auto. eapply Forall_impl; [|exact Hc]. intros x [_ X]. exact X.
    + intros body lim L. cbn [concat map] in *. rewrite E in *. clear E. set (z := concat (map (fun t => t ++ CRLF) (map h_text hs))) in *.
      rewrite !app_length in L. specialize (R body lim ltac:(lia)). rewrite <- !app_assoc.
      assert (L2: Z.of_nat (length l + length (flat_map (fun x => CRLF ++ x) cs) + 2) < lim) by (cbn [length CRLF] in L; lia). clear L U F1 F2 G1 Bl.
      revert l Tl Nl L2. induction cs as [|x cs IHc]; intros l Tl Nl L2.
      * cbn [flat_map app]. constructor; auto; [right; reflexivity|]. cbn [flat_map length CRLF] in *. lia.
      * inversion Hc as [|? ? [Tx (c & u & -> & Hcb)] Hc']; subst. cbn [flat_map app] in *. rewrite <- ?app_assoc. cbn [app]. cbn [length] in L2. rewrite !app_length in L2. cbn [length] in L2.
        apply (hl_line lim l CRLF); auto; [right; reflexivity|cbn [length CRLF]; lia|]. rewrite app_comm_cons.
        apply (IHc Hc' (c :: u)); auto; [discriminate|]. cbn [length]. lia.
Qed.

(** ** What is kept of the client's fields *)
Lemma code_expect : forall n, find_hd_type hd_types n = HEADER_EXPECT <-> same_letters n (lit "Expect").
Proof.
  intros n. unfold hd_types. cbn [find_hd_type]. split.
  - intros H.
    repeat match type of H with
    | (if ?x then ?a else _) = _ => destruct x eqn:E; [try discriminate H|clear E]
    end; try discriminate H.
    apply andb_true_iff in E. destruct E as [_ E]. apply ci_eqb_eq in E. exact E.
  - intros H. assert (X: ci_eqb n (lit "Expect") = true) by (apply ci_eqb_eq; exact H).
    pose proof (ci_eqb_length _ _ X) as L. apply ci_eqb_eq in X.
    repeat match goal with
    | |- (if Nat.eqb ?a ?b && ci_eqb n ?m then ?r else _) = _ =>
        let E := fresh in destruct (Nat.eqb a b && ci_eqb n m) eqn:E;
        [first [reflexivity | exfalso; apply andb_true_iff in E; destruct E as [_ E]; apply ci_eqb_eq in E; rewrite X in E; vm_compute in E; discriminate]
        |first [exfalso; rewrite L, (proj2 (ci_eqb_eq n (lit "Expect")) H) in E; discriminate E | clear E]]
    end.
Qed.

Lemma kept_fields : forall hs, Forall good hs ->
  hfields (filter (fun h => match h_code h with
                         | HEADER_EXPECT => negb (ci_eqb (lit "100-continue") (h_val h))
                         | HEADER_ILLEGAL => false
                         | _ => true end) hs) = filter (fun f => negb (continue_expected f)) (hfields hs).
Proof.
  induction hs as [|h hs IH]; intros G; [reflexivity|]. inversion G as [|? ? G1 G2]; subst.
  cbn [hfields map filter]. fold (hfields hs). rewrite <- (IH G2).
  assert (E: match h_code h with HEADER_EXPECT => negb (ci_eqb (lit "100-continue") (h_val h)) | HEADER_ILLEGAL => false | _ => true end = negb (continue_expected (hfield h))).
  { unfold continue_expected. cbn [hfield fst snd]. pose proof (code_expect (h_name h)) as X. rewrite <- (good_code h G1) in X.
    destruct (ci_eqb (h_name h) (lit "Expect")) eqn:Y.
    - apply ci_eqb_eq in Y. rewrite (proj2 X Y). cbn [andb]. f_equal. apply eq_true_iff_eq. rewrite !ci_eqb_eq. split; intros Q; congruence.
    - cbn [andb negb]. assert (N: h_code h <> HEADER_EXPECT) by (intros C; apply X in C; apply ci_eqb_eq in C; congruence).
      destruct G1 as [_ G1]. unfold illegal in G1. destruct (h_code h); congruence. }
  rewrite E. destruct (negb (continue_expected (hfield h))); reflexivity.
Qed.

Lemma kept_values : forall n fs, ~ same_letters n (lit "Expect") -> values_of n (filter (fun f => negb (continue_expected f)) fs) = values_of n fs.
Proof.
  intros n fs H. induction fs as [|f fs IH]; [reflexivity|]. cbn [filter]. rewrite values_cons, <- IH.
  destruct (continue_expected f) eqn:E; cbn [negb]; [|rewrite values_cons; reflexivity].
  assert (X: is_named n f = false).
  { apply not_true_iff_false. intros C. unfold continue_expected in E. apply andb_true_iff in E as [E _]. unfold is_named in C.
    apply ci_eqb_eq in E, C. apply H. unfold same_letters, lower in *. congruence. }
  rewrite X. reflexivity.
Qed.

Lemma values_same : forall n fs, values n fs = values_of (lit n) fs.
Proof. reflexivity. Qed.
Lemma framing_same : forall fs fs' f, values "Transfer-Encoding" fs' = values "Transfer-Encoding" fs -> values "Content-Length" fs' = values "Content-Length" fs ->
  framing_of fs f -> framing_of fs' f.
Proof.
  intros fs fs' f E1 E2 []; [apply fr_none|eapply fr_length|eapply fr_chunked]; rewrite ?E1, ?E2; eauto.
Qed.

Lemma edit_names : forall s w fs es0, destination s fs es0 -> Forall (fun e => In (edit_name e)
  [lit "Destination"; lit "X-Forwarded-For"; lit "X-Forwarded-Proto"; lit "X-Forwarded-Port"; lit "X-SSL-cipher"; lit "X-SSL-Subject";
   lit "X-SSL-Issuer"; lit "X-SSL-notBefore"; lit "X-SSL-notAfter"; lit "X-SSL-serial"; lit "X-SSL-certificate"; lit "Host"]) (es0 ++ edits s w).
Proof.
  intros s w fs es0 D. apply Forall_app. split.
  - destruct (names_dest _ _ _ D) as [->|(v & ->)]; [constructor|]. constructor; [left; reflexivity|constructor].
  - unfold edits, forwarded_edits, cipher_edits, cert_edits, host_edits.
    repeat match goal with
    | |- Forall _ (_ ++ _) => apply Forall_app; split
    | |- Forall _ [] => constructor
    | |- Forall _ (_ :: _) => constructor; [cbn [edit_name In]; tauto|]
    | |- context [match ?x with _ => _ end] => destruct x
    end.
Qed.
Lemma other_name : forall n s w fs es0, destination s fs es0 ->
  (forall m, In m [lit "Destination"; lit "X-Forwarded-For"; lit "X-Forwarded-Proto"; lit "X-Forwarded-Port"; lit "X-SSL-cipher"; lit "X-SSL-Subject";
   lit "X-SSL-Issuer"; lit "X-SSL-notBefore"; lit "X-SSL-notAfter"; lit "X-SSL-serial"; lit "X-SSL-certificate"; lit "Host"] -> ~ same_letters n m) ->
  Forall (fun e => ~ same_letters n (edit_name e)) (es0 ++ edits s w).
Proof. intros n s w fs es0 D H. eapply Forall_impl; [|eapply edit_names; eauto]. intros e I. apply H. exact I. Qed.

Lemma read_texts : forall comb bs line hs r, http_request_read comb (map RByte bs) = RR_ok line hs r ->
  Forall good hs /\ texts (hfields hs) /\ text line /\ line <> [].
Proof.
  intros comb bs line hs r H. destruct (read_request_sound _ _ _ _ _ H) as (ls & fs & gs & r' & M & F & C & E & G & _).
  destruct (message_head_text _ _ _ _ _ M) as (T1 & T2 & T3). repeat split; auto. rewrite E. eapply combined_text; eauto. eapply fields_of_text; eauto.
Qed.

Lemma good_fields_of : forall hs, Forall good hs -> fields_of (map h_text hs) (hfields hs).
Proof. induction 1 as [|h hs G H IH]; [constructor|]. cbn. constructor; [apply good_field; auto|exact IH]. Qed.


Lemma received : forall comb l verb s w plan wr input line hs r m name g url f sent rest es0,
  no_limits l verb -> side_ok s w -> (forall line hs, f_rules s line hs = Some (line, hs)) -> all_ok wr ->
  http_request_read comb (map RByte input) = RR_ok line hs (map RByte r) ->
  request_line line m url 1 -> method m name g -> g <= verb -> framing_of (hfields hs) f -> request_body f r sent rest ->
  destination s (kept (hfields hs)) es0 ->
  exists ts fs', forward comb l s plan wr (map RByte input) = Forwarded ST_OK (head_text line ts ++ sent) (map RByte rest) /\
    fields_of ts fs' /\ edited (es0 ++ edits s w) (kept (hfields hs)) fs' /\ framing_of fs' f /\
    exists ls', unfolded ls' ts /\ forall lim, Z.of_nat (length (head_text line ts)) < lim -> message_head lim (head_text line ts ++ sent) line ls' sent.
Proof.
  intros comb l verb s w plan wr input line hs r m name g url f sent rest es0 (N1 & N2 & N3 & N4) K Ru Hw A1 A2 A3 A4 A7 A8 D.
  destruct (read_texts _ _ _ _ _ A1) as (G & T & Tl & Nl).
  destruct (check_framing_complete hs f G A7) as (sc & Sf & Sd).
  assert (P: parse_http_request line (l_verb l) = (ST_OK, Some (mkRL name url 1))) by (apply parse_ok_iff; rewrite N1; eauto).
  assert (C: check_request l line hs = inr (mkRL name url 1, sc)).
  { unfold check_request. rewrite P, N2, Sf, N3, N4. reflexivity. }
  assert (Kp: hfields (sc_kept sc) = kept (hfields hs) /\ Forall good (sc_kept sc)).
  { unfold check_framing in Sf. destruct (scan_headers scan0 hs) as [st|sc'] eqn:Es; [discriminate|].
    assert (sc' = sc) as ->.
    { destruct (sc_te sc'); try discriminate; try (injection Sf; congruence).
      all: repeat match type of Sf with context [if ?x then _ else _] => destruct x end; try discriminate; injection Sf; congruence. }
    destruct (scan_kept _ _ _ Es) as (k & Ek & ->). cbn [scan0 sc_kept app] in Ek. rewrite Ek. split; [apply kept_fields; auto|].
    apply Forall_forall. intros h I. apply filter_In in I as [I _]. rewrite Forall_forall in G. auto. }
  destruct Kp as [Kf Kg]. rewrite <- Kf in *.
  destruct (compose_ok s w line (sc_kept sc) es0 K Kg D) as (hs' & E & G' & Ed). rewrite Ru in E.
  unfold forward. rewrite A1, C, E, N4, (relay_is (mkRL name url 1) sc eq_refl), Sd.
  set (q := mkQ _ _ _ _ _ _ _ _ _). destruct (send_ok q f r sent rest eq_refl Hw A8) as (c1 & Es & E1 & E2).
  cbn [q q_plan q_wr] in Es. rewrite Es, E1, E2. cbn [q q_head].
  assert (Ho: concat (map (fun t => t ++ CRLF) (line :: map h_text hs')) ++ CRLF ++ sent = head_text line (map h_text hs') ++ sent).
  { unfold head_text. cbn [map concat]. rewrite <- !app_assoc. reflexivity. }
  exists (map h_text hs'), (hfields hs'). rewrite Ho. split; [reflexivity|]. split; [apply good_fields_of; auto|]. split; [exact Ed|].
  assert (Te: texts (kept (hfields hs))).
  { apply Forall_forall. intros x I. apply filter_In in I as [I _]. unfold texts in T. rewrite Forall_forall in T. auto. }
  split.
  - assert (V: forall n, (forall m, In m [lit "Destination"; lit "X-Forwarded-For"; lit "X-Forwarded-Proto"; lit "X-Forwarded-Port"; lit "X-SSL-cipher"; lit "X-SSL-Subject";
      lit "X-SSL-Issuer"; lit "X-SSL-notBefore"; lit "X-SSL-notAfter"; lit "X-SSL-serial"; lit "X-SSL-certificate"; lit "Host"] -> ~ same_letters n m) -> ~ same_letters n (lit "Expect") ->
      values_of n (hfields hs') = values_of n (hfields hs)).
    { intros n H1 H2. rewrite (edited_values n _ _ _ Ed); [rewrite Kf; apply kept_values; auto|]. eapply other_name; eauto. }
    apply (framing_same (hfields hs) (hfields hs') f); [| |exact A7]; rewrite !values_same; apply V.
    1,3: intros mm I; cbn [In] in I; repeat (destruct I as [I|I]; [rewrite <- I; diff|]); contradiction.
    all: diff.
  - assert (Fo: Forall (fun f => foldable (snd f)) (hfields hs')).
    { rewrite <- Kf in Te. eapply edited_foldable; [exact Ed|eapply edits_ok; eauto|]. eapply Forall_impl; [|exact Te]. intros x. apply text_foldable. }
    destruct (head_reads hs' G' Fo) as (ls' & U & R). exists ls'. split; [exact U|]. intros lim L. unfold head_text in *. rewrite <- !app_assoc.
    rewrite !app_length in L. apply (mh_first lim line CRLF); auto; [right; reflexivity|lia|]. apply R. lia.
Qed.

(** ** Certificates that are not shown as they are *)
Lemma compose_cert : forall s line hs c ser pem es1 cipher,
  f_dest s = None -> f_forwarded s = false -> f_tls s = Some cipher -> f_ssl_headers s = true -> f_cert s = Some c -> 0 < f_check s -> f_servername s = None ->
  (forall v d, cipher = Some (v, d) -> visible v /\ text d /\ v <> []) ->
  subject_edits c es1 -> shown (ce_issuer c) -> shown (ce_before c) -> shown (ce_after c) ->
  fmt_ld (asn1_integer_get (ce_serial c)) = ser -> visible ser -> pem <> [] -> Forall shown pem -> ce_pem c = flat_map (fun l => l ++ ["010"%char]) pem -> Forall good hs ->
  exists hs', compose s line hs = f_rules s line hs' /\ edited (cipher_edits s ++ es1 ++ [Replace (lit "X-SSL-Issuer") (ce_issuer c); Replace (lit "X-SSL-notBefore") (ce_before c);
    Replace (lit "X-SSL-notAfter") (ce_after c); Replace (lit "X-SSL-serial") ser; Replace (lit "X-SSL-certificate") (fold pem)]) (hfields hs) (hfields hs').
Proof.
  intros s line hs c ser pem es1 cipher D F T Hs C K N Ci C1 C2 C3 C4 C5 C6 C7 C8 C9 G. unfold compose, rewrite_destination. rewrite D, F, T, Hs, N.
  eexists. split; [reflexivity|].
  match goal with |- edited (_ ++ ?e) _ _ => assert (Dc: does e (add_cert_headers s)) end.
  { unfold add_cert_headers. apply Z.ltb_lt in K. rewrite C, K. apply certificate_does_gen; auto. }
  unfold add_ssl_headers, cipher_edits. rewrite T. destruct cipher as [[v d]|]; [|apply Dc; auto]. destruct (Ci v d eq_refl) as ((V1 & V2) & Td & Nv).
  rewrite (strip_text d Td). change (lit "X-SSL-cipher: ") with (lit "X-SSL-cipher" ++ lit ": "). rewrite <- app_assoc.
  apply does_replace; [discriminate|reflexivity| |exact Dc|auto]. intros x u H. destruct v as [|y v]; [congruence|]. injection H as <- _. eapply V2. reflexivity.
Qed.

(** ** Every edit is the only one of its name *)
Definition lname (e : edit) : bytes := lower (edit_name e).
Lemma names_nodup : forall s w fs es0, destination s fs es0 -> NoDup (map lname (es0 ++ edits s w)).
Proof.
  intros s w fs es0 D.
  assert (N: forall l, (fix f (l : list bytes) : bool := match l with [] => true | x :: t => negb (existsb (bytes_eqb x) t) && f t end) l = true -> NoDup l).
  { induction l as [|x l IH]; intros H; [constructor|]. apply andb_true_iff in H as [H1 H2]. constructor; [|auto].
    intros I. apply negb_true_iff in H1. apply not_true_iff_false in H1. apply H1. apply existsb_exists. exists x. split; [auto|apply bytes_eqb_eq; reflexivity]. }
  apply N. clear N.
  assert (E: es0 = [] \/ exists v, es0 = [Replace (lit "Destination") v]) by (eapply names_dest; eauto).
  unfold edits, forwarded_edits, cipher_edits, cert_edits, host_edits.
  destruct E as [->|(v & ->)]; repeat match goal with |- context [match ?x with _ => _ end] => first [is_var x; destruct x | match x with f_port _ => idtac | f_tls _ => idtac | f_cert _ => idtac | f_servername _ => idtac | f_forwarded _ => idtac | f_ssl_headers _ => idtac | 0 <? f_check _ => idtac end; destruct x] end; vm_compute; reflexivity.
Qed.

Lemma nodup_around : forall es1 (e : edit) es2, NoDup (map lname (es1 ++ e :: es2)) ->
  Forall (fun x => ~ same_letters (edit_name e) (edit_name x)) es1 /\ Forall (fun x => ~ same_letters (edit_name e) (edit_name x)) es2.
Proof.
  intros es1 e es2 H. rewrite map_app in H. cbn [map] in H. apply NoDup_remove_2 in H.
  split; apply Forall_forall; intros x I S; apply H; apply in_or_app; [left|right]; apply in_map_iff; exists x; split; auto; unfold lname; symmetry; exact S.
Qed.
Lemma set_values : forall es fs fs' n v, edited es fs fs' -> NoDup (map lname es) -> In (Replace n v) es -> values_of n fs' = v :: tl (values_of n fs).
Proof.
  intros es fs fs' n v E N I. apply in_split in I as (es1 & es2 & ->). destruct (nodup_around _ _ _ N) as [A B]. eapply edited_replace; eauto.
Qed.
Lemma join_values : forall es fs fs' n v, edited es fs fs' -> NoDup (map lname es) -> In (Join n v) es ->
  exists x, values_of n fs' = x :: tl (values_of n fs) /\ last_element x v /\
    (forall w ws, values_of n fs = w :: ws -> w <> [] -> exists bl, Forall blank bl /\ x = w ++ ","%char :: bl ++ v) /\
    ((forall w ws, values_of n fs = w :: ws -> w = []) -> x = v).
Proof.
  intros es fs fs' n v E N I. apply in_split in I as (es1 & es2 & ->). destruct (nodup_around _ _ _ N) as [A B]. eapply edited_join; eauto.
Qed.

(** ** The claims *)
Lemma delivered_ok : forall comb l verb s w plan wr input line fs f sent rest es,
  ordinary l verb s w wr -> request comb verb input line fs f sent rest -> destination s fs es ->
  exists fs', delivered comb l s plan wr input line fs' sent rest /\ edited (es ++ edits s w) fs fs' /\ framing_of fs' f.
Proof.
  intros comb l verb s w plan wr input line fs f sent rest es (U1 & U2 & U3 & U4) (hs & r & m & name & g & url & R1 & R2 & R3 & R4 & R5 & R6 & ->) D.
  destruct (received comb l verb s w plan wr input line hs r m name g url f sent rest es U1 U2 U3 U4 R1 R2 R3 R4 R5 R6 D) as (ts & fs' & A & B & C & E & ls & X & Y).
  exists fs'. split; [exists ts, ls; auto|auto].
Qed.
Lemma untouched : forall comb l verb s w plan wr input line fs f sent rest,
  ordinary l verb s w wr -> request comb verb input line fs f sent rest ->
  f_dest s = None -> f_forwarded s = false -> (f_tls s = None \/ f_ssl_headers s = false) -> f_servername s = None ->
  delivered comb l s plan wr input line fs sent rest.
Proof.
  intros comb l verb s w plan wr input line fs f sent rest U R D F T N.
  destruct (delivered_ok comb l verb s w plan wr input line fs f sent rest [] U R (de_off _ _ D)) as (fs' & A & B & _).
  assert (E: edits s w = []).
  { unfold edits, host_edits. rewrite F, N. destruct T as [->| ->]; [reflexivity|]. destruct (f_tls s); reflexivity. }
  rewrite E in B. inversion B; subst. exact A.
Qed.
Lemma others_arrive : forall comb l verb s w plan wr input line fs f sent rest es,
  ordinary l verb s w wr -> request comb verb input line fs f sent rest -> destination s fs es ->
  exists fs', delivered comb l s plan wr input line fs' sent rest /\
    filter (fun f => negb (existsb (fun n => is_named (lit n) f) set_by_proxy)) fs' =
    filter (fun f => negb (existsb (fun n => is_named (lit n) f) set_by_proxy)) fs.
Proof.
  intros comb l verb s w plan wr input line fs f sent rest es U R D. destruct (delivered_ok comb l verb s w plan wr input line fs f sent rest es U R D) as (fs' & A & B & _).
  exists fs'. split; [exact A|]. eapply edited_rest; [exact B|]. eapply Forall_impl; [|eapply edit_names; eauto].
  intros e I x Hx. apply negb_false_iff, existsb_exists. apply is_named_iff in Hx.
  change (In (edit_name e) (map lit set_by_proxy)) in I. apply in_map_iff in I as (n & En & I). exists n. rewrite En. auto.
Qed.
Lemma set_arrive : forall comb l verb s w plan wr input line fs f sent rest es,
  ordinary l verb s w wr -> request comb verb input line fs f sent rest -> destination s fs es ->
  exists fs', delivered comb l s plan wr input line fs' sent rest /\
    (forall n v, In (Replace n v) (es ++ edits s w) -> values_of n fs' = v :: tl (values_of n fs)) /\
    (f_forwarded s = true -> exists x, values_of (lit "X-Forwarded-For") fs' = x :: tl (values_of (lit "X-Forwarded-For") fs) /\
      last_element x (f_client s)).
Proof.
  intros comb l verb s w plan wr input line fs f sent rest es U R D. destruct (delivered_ok comb l verb s w plan wr input line fs f sent rest es U R D) as (fs' & A & B & _).
  pose proof (names_nodup s w fs es D) as N. exists fs'. split; [exact A|]. split.
  - intros n v I. eapply set_values; eauto.
  - intros F. destruct (join_values _ _ _ (lit "X-Forwarded-For") (f_client s) B N) as (x & X1 & X2 & _); eauto.
    apply in_or_app. right. unfold edits. rewrite F. left. reflexivity.
Qed.

Lemma collect_none : forall n fs vs o, collect n fs vs o -> Forall (fun f => ~ named n f) o.
Proof. induction 1; auto. Qed.
Lemma combined_once : forall comb fs gs n, combined (combs comb) fs gs -> combs comb n -> (length (values_of n gs) <= 1)%nat.
Proof.
  induction 1 as [|m v fs gs Hn H IH|m v fs vs o gs Hn Hc H IH]; intros Cn; [cbn; lia| |]; rewrite values_cons.
  - destruct (is_named n (m, v)) eqn:E; [|cbn [app]; auto]. exfalso. apply is_named_iff in E. unfold named in E. cbn in E.
    apply Hn. eapply combs_letters; [|exact Cn]. apply same_sym. exact E.
  - destruct (is_named n (m, join (v :: vs))) eqn:E; [|cbn [app]; auto].
    rewrite (values_none n gs); [cbn; lia|]. apply (proj1 (combined_names _ _ _ n H)).
    pose proof (collect_none _ _ _ _ Hc) as O. eapply Forall_impl; [|exact O]. intros f0 Hf C. apply Hf. apply is_named_iff in E. unfold named in *. cbn in E. eapply same_trans; [exact C|]. apply same_sym. exact E.
Qed.
Lemma kept_length : forall n fs, (length (values_of n (kept fs)) <= length (values_of n fs))%nat.
Proof.
  intros n fs. induction fs as [|f fs IH]; [cbn; lia|]. unfold kept in *. cbn [filter]. rewrite values_cons. destruct (negb (continue_expected f)); [rewrite values_cons|]; rewrite ?app_length; lia.
Qed.
Lemma request_once : forall comb verb input line fs f sent rest n, request comb verb input line fs f sent rest -> In n comb -> (length (values_of n fs) <= 1)%nat.
Proof.
  intros comb verb input line fs f sent rest n (hs & r & m & name & g & url & R1 & _ & _ & _ & _ & _ & ->) I.
  destruct (read_request_sound _ _ _ _ _ R1) as (ls & ffs & gs & r' & _ & _ & C & E & _ & _). rewrite E. etransitivity; [apply kept_length|].
  eapply combined_once; [exact C|]. exists n. split; [auto|reflexivity].
Qed.
Lemma client_arrives : forall comb l verb s w plan wr input line fs f sent rest es,
  ordinary l verb s w wr -> request comb verb input line fs f sent rest -> destination s fs es -> f_forwarded s = true ->
  (length (values_of (lit "X-Forwarded-For") fs) <= 1)%nat \/ In (lit "X-Forwarded-For") comb ->
  exists fs' x, delivered comb l s plan wr input line fs' sent rest /\
    values_of (lit "X-Forwarded-For") fs' = [x] /\ last_element x (f_client s) /\
    (values_of (lit "X-Forwarded-For") fs = [] -> x = f_client s) /\
    (forall u, values_of (lit "X-Forwarded-For") fs = [u] -> u <> [] -> exists bl, Forall blank bl /\ x = u ++ ","%char :: bl ++ f_client s).
Proof.
  intros comb l verb s w plan wr input line fs f sent rest es U R D F H.
  assert (L: (length (values_of (lit "X-Forwarded-For") fs) <= 1)%nat) by (destruct H as [|I]; [auto|eapply request_once; eauto]).
  destruct (delivered_ok comb l verb s w plan wr input line fs f sent rest es U R D) as (fs' & A & B & _).
  destruct (join_values _ _ _ (lit "X-Forwarded-For") (f_client s) B (names_nodup s w fs es D)) as (x & X1 & X2 & X3 & X4).
  { apply in_or_app. right. unfold edits. rewrite F. left. reflexivity. }
  exists fs', x. split; [exact A|]. split; [rewrite X1; destruct (values_of (lit "X-Forwarded-For") fs) as [|? [|]]; cbn in L |- *; try reflexivity; lia|].
  split; [exact X2|]. split.
  - intros E. apply X4. intros u us E'. rewrite E in E'. discriminate.
  - intros u E N. eapply X3; eauto.
Qed.
Lemma once_arrives : forall comb l verb s w plan wr input line fs f sent rest es n v,
  ordinary l verb s w wr -> request comb verb input line fs f sent rest -> destination s fs es ->
  In (Replace n v) (es ++ edits s w) ->
  (length (values_of n fs) <= 1)%nat \/ In n comb ->
  exists fs', delivered comb l s plan wr input line fs' sent rest /\ values_of n fs' = [v].
Proof.
  intros comb l verb s w plan wr input line fs f sent rest es n v U R D I H.
  assert (L: (length (values_of n fs) <= 1)%nat) by (destruct H as [|J]; [auto|eapply request_once; eauto]).
  destruct (set_arrive comb l verb s w plan wr input line fs f sent rest es U R D) as (fs' & A & B & _).
  exists fs'. split; [exact A|]. rewrite (B n v I). destruct (values_of n fs) as [|? [|]]; cbn in L |- *; try reflexivity; lia.
Qed.

Lemma second_arrives : forall comb l verb s w plan wr input line fs f sent rest es n v u1 u2 us,
  ordinary l verb s w wr -> request comb verb input line fs f sent rest -> destination s fs es ->
  In (Replace n v) (es ++ edits s w) -> values_of n fs = u1 :: u2 :: us ->
  exists fs', delivered comb l s plan wr input line fs' sent rest /\ values_of n fs' = v :: u2 :: us.
Proof.
  intros comb l verb s w plan wr input line fs f sent rest es n v u1 u2 us U R D I E.
  destruct (set_arrive comb l verb s w plan wr input line fs f sent rest es U R D) as (fs' & A & B & _).
  exists fs'. split; [exact A|]. rewrite (B n v I), E. reflexivity.
Qed.
Lemma no_certificate : forall comb l verb s w plan wr input line fs f sent rest es,
  ordinary l verb s w wr -> request comb verb input line fs f sent rest -> destination s fs es ->
  f_cert s = None \/ f_tls s = None \/ f_ssl_headers s = false \/ f_check s = 0 ->
  exists fs', delivered comb l s plan wr input line fs' sent rest /\
    forall n, In n ["X-SSL-Subject"; "X-SSL-Issuer"; "X-SSL-notBefore"; "X-SSL-notAfter"; "X-SSL-serial"; "X-SSL-certificate"]%string ->
      values_of (lit n) fs' = values_of (lit n) fs.
Proof.
  intros comb l verb s w plan wr input line fs f sent rest es U R D H.
  destruct (delivered_ok comb l verb s w plan wr input line fs f sent rest es U R D) as (fs' & A & B & _).
  exists fs'. split; [exact A|]. intros n I. eapply edited_values; [exact B|].
  assert (N: Forall (fun e => In (edit_name e) [lit "Destination"; lit "X-Forwarded-For"; lit "X-Forwarded-Proto"; lit "X-Forwarded-Port"; lit "X-SSL-cipher"; lit "Host"]) (es ++ edits s w)).
  { apply Forall_app. split.
    - destruct (names_dest _ _ _ D) as [->|(v & ->)]; [constructor|]. constructor; [left; reflexivity|constructor].
    - unfold edits. apply Forall_app. split; [|apply Forall_app; split].
      + unfold forwarded_edits. destruct (f_forwarded s), (f_port s); repeat (constructor; [cbn [edit_name In]; tauto|]); constructor.
      + unfold cipher_edits. destruct (f_tls s) as [ci|] eqn:T; [|constructor]. destruct (f_ssl_headers s) eqn:Hs; [|constructor]. apply Forall_app. split.
        * destruct ci as [[? ?]|]; repeat (constructor; [cbn [edit_name In]; tauto|]); constructor.
        * destruct H as [->|[?|[?| ->]]]; [constructor|discriminate|discriminate|]. destruct (f_cert s); constructor.
      + unfold host_edits. destruct (f_servername s); repeat (constructor; [cbn [edit_name In]; tauto|]); constructor. }
  eapply Forall_impl; [|exact N]. intros e Ie. cbn [In] in Ie, I.
  repeat (destruct I as [<-|I]; [repeat (destruct Ie as [<-|Ie]; [diff|]); contradiction|]); contradiction.
Qed.
Lemma fmt_visible : forall n, visible (fmt_ld n).
Proof.
  assert (P: forall n, 0 <= n -> Forall (fun c => 48 <= code c <= 57) (fmt_ld n)).
  { intros n H. destruct (ReplyProofs.numeral_chars _ _ (ReplyProofs.fmt_numeral n H)) as [C _].
    eapply Forall_impl; [|exact C]. intros c (d & D). apply NumProofs.num_digit_decimal in D as [D _]. apply andb_true_iff in D as [D1 D2].
    apply Z.leb_le in D1. first [apply Z.leb_le in D2|apply Z.ltb_lt in D2]. lia. }
  assert (Q: forall l, Forall (fun c => 48 <= code c <= 57) l -> text l) by (intros l H; eapply Forall_impl; [|exact H]; intros; apply digit_text; auto).
  intros n. destruct (Z.ltb_spec n 0) as [H|H].
  - assert (E: fmt_ld n = "-"%char :: fmt_ld (- n)).
    { unfold fmt_ld. destruct (Z.ltb_spec n 0); [|lia]. destruct (Z.ltb_spec (- n) 0); [lia|]. reflexivity. }
    rewrite E. split; [constructor; [right; cbn; lia|apply Q, P; lia]|]. intros c u X. injection X as <- _. intros [Y|Y]; discriminate.
  - specialize (P n H). split; [apply Q; auto|]. intros c u E. rewrite E in P. inversion P; subst. apply digit_no_blank. auto.
Qed.
Lemma long_subject : forall s line hs c pem cipher,
  f_dest s = None -> f_forwarded s = false -> f_tls s = Some cipher -> f_ssl_headers s = true -> f_cert s = Some c -> 0 < f_check s -> f_servername s = None ->
  (forall v d, cipher = Some (v, d) -> visible v /\ text d /\ v <> []) ->
  text (ce_subject c) -> 4096 <= Z.of_nat (length (ce_subject c)) ->
  shown (ce_issuer c) -> shown (ce_before c) -> shown (ce_after c) -> 
  pem <> [] -> Forall shown pem -> ce_pem c = flat_map (fun l => l ++ ["010"%char]) pem -> Forall good hs ->
  exists hs', compose s line hs = f_rules s line hs' /\
    values_of (lit "X-SSL-Subject") (hfields hs') = values_of (lit "X-SSL-Subject") (hfields hs).
Proof.
  intros s line hs c pem cipher D F T Hs C K N Ci Ts Ls S2 S3 S4 P1 P2 P3 G.
  assert (V: visible (fmt_ld (asn1_integer_get (ce_serial c)))).
  { apply fmt_visible. }
  destruct (compose_cert s line hs c (fmt_ld (asn1_integer_get (ce_serial c))) pem [] cipher D F T Hs C K N Ci) as (hs' & E & Ed); auto.
  { right. auto. }
  exists hs'. split; [exact E|]. eapply edited_values; [exact Ed|]. unfold cipher_edits. rewrite T.
  destruct cipher as [[v d]|]; cbn [app]; repeat (constructor; [cbn [edit_name]; diff|]); constructor.
Qed.
Lemma big_serial : forall s line hs c pem cipher,
  f_dest s = None -> f_forwarded s = false -> f_tls s = Some cipher -> f_ssl_headers s = true -> f_cert s = Some c -> 0 < f_check s -> f_servername s = None ->
  (forall v d, cipher = Some (v, d) -> visible v /\ text d /\ v <> []) ->
  2 ^ 63 <= ce_serial c -> shown (ce_subject c) ->
  shown (ce_issuer c) -> shown (ce_before c) -> shown (ce_after c) -> 
  pem <> [] -> Forall shown pem -> ce_pem c = flat_map (fun l => l ++ ["010"%char]) pem -> Forall good hs ->
  exists hs', compose s line hs = f_rules s line hs' /\
    values_of (lit "X-SSL-serial") (hfields hs') = lit "-1" :: tl (values_of (lit "X-SSL-serial") (hfields hs)).
Proof.
  intros s line hs c pem cipher D F T Hs C K N Ci Se S1 S2 S3 S4 P1 P2 P3 G.
  assert (V: visible (lit "-1")).
  { split; [repeat (constructor; [right; vm_compute; split; intros ?; discriminate|]); constructor|]. intros x u E. injection E as <- _. intros [X|X]; discriminate. }
  destruct (compose_cert s line hs c (lit "-1") pem [Replace (lit "X-SSL-Subject") (ce_subject c)] cipher D F T Hs C K N Ci) as (hs' & E & Ed); auto.
  { left. auto. }
  { unfold asn1_integer_get. destruct (Z.ltb_spec (ce_serial c) (2 ^ 63)); [lia|]. rewrite andb_false_r. reflexivity. }
  exists hs'. split; [exact E|]. unfold cipher_edits in Ed. rewrite T in Ed. cbn [app] in Ed.
  destruct cipher as [[v d]|]; cbn [app] in Ed; (eapply set_values; [exact Ed| |cbn [In]; tauto]);
    cbn [map]; unfold lname; cbn [edit_name]; repeat (constructor; [cbn [In]; intros Q; repeat (destruct Q as [Q|Q]; [vm_compute in Q; discriminate|]); contradiction|]); constructor.
Qed.
