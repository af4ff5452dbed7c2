From Coq Require Import Ascii String List ZArith Bool Lia.
From Verif Require Import Bytes ClenModel ClenSpec StreamModel StreamSpec StreamProofs
  TokSpec ReqModel ReqSpec.
Import ListNotations.
Open Scope Z_scope.

(** ** Request line *)

Definition method_table_ok : Prop :=
  forall name g, In (name, g) methods <-> exists n, In n (method_group g) /\ name = lit n.

Lemma methods_spec : forall name g,
  In (name, g) methods <-> exists n, In n (method_group g) /\ name = lit n.
Proof.
  intros name g. split.
  - intros H. unfold methods in H. simpl in H.
    decompose [or] H; try contradiction;
    match goal with E : (_, _) = (_, _) |- _ => injection E as <- <- end;
    match goal with |- exists n, _ /\ ?x = lit n =>
      exists (string_of_list_ascii x); split; [vm_compute; tauto | vm_compute; reflexivity] end.
  - intros (n & H & ->). unfold method_group in H.
    destruct (g =? 0) eqn:E0; [apply Z.eqb_eq in E0; subst g|
    destruct (g =? 1) eqn:E1; [apply Z.eqb_eq in E1; subst g|
    destruct (g =? 2) eqn:E2; [apply Z.eqb_eq in E2; subst g|
    destruct (g =? 3) eqn:E3; [apply Z.eqb_eq in E3; subst g|]]]];
    simpl in H; try contradiction;
    decompose [or] H; try contradiction; subst n; unfold methods; simpl; tauto.
Qed.

Lemma methods_unique : forall n1 g1 n2 g2,
  In (n1, g1) methods -> In (n2, g2) methods -> lower n1 = lower n2 -> n1 = n2 /\ g1 = g2.
Proof.
  assert (H: forallb (fun p => forallb (fun q =>
     negb (bytes_eqb (lower (fst p)) (lower (fst q))) ||
     (bytes_eqb (fst p) (fst q) && Z.eqb (snd p) (snd q))) methods) methods = true)
   by (vm_compute; reflexivity).
  intros n1 g1 n2 g2 H1 H2 E.
  rewrite forallb_forall in H. specialize (H _ H1).
  rewrite forallb_forall in H. specialize (H _ H2). simpl in H.
  rewrite E, bytes_eqb_refl in H. simpl in H.
  apply andb_true_iff in H. destruct H as [Ha Hb].
  apply bytes_eqb_eq in Ha. apply Z.eqb_eq in Hb. auto.
Qed.

Lemma find_method_in_spec : forall tab m r,
  find_method_in tab m = Some r -> In r tab /\ same_letters m (fst r).
Proof.
  induction tab as [|[name g] tab IH]; simpl; intros m r H; [discriminate|].
  destruct (_ && _) eqn:E.
  - injection H as <-. apply andb_true_iff in E. destruct E as [_ E].
    apply ci_eqb_eq in E. split; auto. symmetry. exact E.
  - apply IH in H. tauto.
Qed.

Lemma find_method_in_none : forall tab m,
  find_method_in tab m = None -> forall r, In r tab -> ~ same_letters m (fst r).
Proof.
  induction tab as [|[name g] tab IH]; simpl; intros m H r Hr Hs; [contradiction|].
  destruct (_ && _) eqn:E; [discriminate|].
  destruct Hr as [<-|Hr]; [|eapply IH; eauto].
  simpl in Hs. assert (Hc: ci_eqb name m = true) by (apply ci_eqb_eq; symmetry; exact Hs).
  pose proof (ci_eqb_length _ _ Hc) as Hl. rewrite Hl, Nat.eqb_refl, Hc in E. discriminate.
Qed.

Lemma find_method_iff : forall m name g,
  find_method m = Some (name, g) <-> method m name g.
Proof.
  intros m name g. unfold find_method, method. split.
  - intros H. apply find_method_in_spec in H. destruct H as [H1 H2].
    apply methods_spec in H1. destruct H1 as (n & Hn & ->). eauto.
  - intros (n & Hn & -> & Hs).
    assert (Hin: In (lit n, g) methods) by (apply methods_spec; eauto).
    destruct (find_method_in methods m) as [[name' g']|] eqn:E.
    + apply find_method_in_spec in E. destruct E as [E1 E2].
      destruct (methods_unique _ _ _ _ Hin E1) as [-> ->]; auto.
      unfold same_letters in *. simpl in *. unfold lower. congruence.
    + exfalso. eapply find_method_in_none; eauto.
Qed.

Lemma not_space_word : forall s, forallb not_space s = true <-> ~ In " "%char s.
Proof.
  intros s. rewrite forallb_forall. unfold not_space. split.
  - intros H Hin. apply H in Hin. vm_compute in Hin. discriminate.
  - intros H c Hc. apply negb_true_iff, beq_neq. intro E. subst. exact (H Hc).
Qed.

Lemma a_space_all : forall s, forallb a_space s = true <-> Forall (fun c => c = " "%char) s.
Proof.
  intros s. rewrite forallb_forall, Forall_forall. unfold a_space.
  split; intros H c Hc; specialize (H c Hc); apply beq_eq; auto.
Qed.

Lemma span_word : forall s a b, span not_space s = (a, b) ->
  s = a ++ b /\ ~ In " "%char a /\ (b = [] \/ exists r, b = " "%char :: r).
Proof.
  intros s a b H.
  pose proof (span_app not_space s) as E1. pose proof (span_fst_all not_space s) as E2.
  pose proof (span_snd_head not_space s) as E3. rewrite H in *. simpl in *.
  repeat split; auto. { apply not_space_word; auto. }
  destruct b as [|c r]; auto. right. exists r. f_equal.
  specialize (E3 _ _ eq_refl). unfold not_space in E3. apply negb_false_iff, beq_eq in E3. auto.
Qed.

Lemma span_spaces : forall s a b, span a_space s = (a, b) ->
  s = a ++ b /\ Forall (fun c => c = " "%char) a /\ (forall c r, b = c :: r -> c <> " "%char).
Proof.
  intros s a b H.
  pose proof (span_app a_space s) as E1. pose proof (span_fst_all a_space s) as E2.
  pose proof (span_snd_head a_space s) as E3. rewrite H in *. simpl in *.
  repeat split; auto. { apply a_space_all; auto. }
  intros c r E. apply E3 in E. unfold a_space in E. apply beq_neq. auto.
Qed.

Lemma spaces_first : forall s, spaces s -> exists r, s = " "%char :: r /\ Forall (fun c => c = " "%char) r.
Proof.
  intros s [H1 H2]. destruct s as [|c r]; [congruence|]. inversion H2; subst. eauto.
Qed.

(** What the tests after the method find on a well-formed line. *)
Lemma parse_shape : forall s m url v, request_line s m url v ->
  exists b1 b2 d, span not_space s = (m, b1) /\ snd (span a_space b1) = url ++ b2 /\ url <> [] /\
    span not_space (url ++ b2) = (url, b2) /\
    snd (span a_space b2) = lit "HTTP/1." ++ [d] /\ m <> [] /\
    (beq d "0"%char || beq d "1"%char = true) /\ v = code d - 48.
Proof.
  intros s m url v (s1 & s2 & d & -> & [Hm1 Hm2] & Hs1 & [Hu1 Hu2] & Hs2 & Hd).
  exists (s1 ++ url ++ s2 ++ lit "HTTP/1." ++ [d]), (s2 ++ lit "HTTP/1." ++ [d]), d.
  assert (HX: forall s tail, spaces s -> match s ++ tail with [] => True | c :: _ => not_space c = false end).
  { intros s tail Hs. apply spaces_first in Hs. destruct Hs as (r & -> & _). reflexivity. }
  repeat split; auto.
  - apply span_unique; [apply not_space_word; auto|apply HX; auto].
  - destruct Hs1 as [_ Hs1]. apply a_space_all in Hs1.
    rewrite span_unique; [reflexivity|assumption|].
    destruct url as [|c u]; [congruence|]. simpl. unfold a_space. apply beq_neq. intro E. subst.
    apply Hu2. left; reflexivity.
  - apply span_unique; [apply not_space_word; auto|apply HX; auto].
  - destruct Hs2 as [_ Hs2]. apply a_space_all in Hs2.
    rewrite span_unique; [reflexivity|assumption|reflexivity].
  - destruct Hd as [[-> _]|[-> _]]; reflexivity.
  - destruct Hd as [[-> ->]|[-> ->]]; reflexivity.
Qed.

Lemma firstn_skipn7 : forall (str : bytes) v,
  bytes_eqb (firstn 7 str) (lit "HTTP/1.") = true -> skipn 7 str = [v] -> str = lit "HTTP/1." ++ [v].
Proof.
  intros str v H1 H2. apply bytes_eqb_eq in H1. rewrite <- (firstn_skipn 7 str), H1, H2. reflexivity.
Qed.

(** The parser's decision in terms of the grammar. *)
Lemma parse_sound : forall s group st r,
  parse_http_request s group = (st, r) ->
  (exists m name g url v, request_line s m url v /\ method m name g /\
      ((g <= group /\ st = ST_OK /\ r = Some (mkRL name url v)) \/
       (group < g /\ st = ST_405 /\ r = None))) \/
  (st = ST_400 /\ r = None /\
   ~ exists m name g url v, request_line s m url v /\ method m name g).
Proof.
  intros s group st r H.
  assert (Hdec: (exists m name g url v, request_line s m url v /\ method m name g) \/
               (st = ST_400 /\ r = None)).
  { unfold parse_http_request in H.
    destruct (span not_space s) as [meth str] eqn:E1.
    destruct meth as [|c0 m0]; [right; injection H as <- <-; auto|].
    destruct (find_method (c0 :: m0)) as [[name mg]|] eqn:E2; [|right; injection H as <- <-; auto].
    destruct (span a_space str) as [sp1 str2] eqn:E3. cbn [snd] in H.
    destruct str2 as [|c1 s2]; [right; injection H as <- <-; auto|].
    destruct (span not_space (c1 :: s2)) as [url str3] eqn:E4.
    destruct (span a_space str3) as [sp2 str4] eqn:E5. cbn [snd] in H.
    destruct (bytes_eqb (firstn 7 str4) (lit "HTTP/1.")) eqn:E6; [|right; injection H as <- <-; auto].
    destruct (skipn 7 str4) as [|v [|]] eqn:E7; try (right; injection H as <- <-; auto; fail).
    destruct (beq v "0"%char || beq v "1"%char) eqn:E8; [|right; injection H as <- <-; auto].
    left.
    pose proof (firstn_skipn7 _ _ E6 E7) as E9.
    apply span_word in E1. destruct E1 as (A1 & A2 & A3).
    apply span_spaces in E3. destruct E3 as (B1 & B2 & B3).
    apply span_word in E4. destruct E4 as (C1 & C2 & C3).
    apply span_spaces in E5. destruct E5 as (D1 & D2 & D3).
    apply find_method_iff in E2.
    assert (Hurl: url <> []).
    { intro. subst url. destruct C3 as [C3|(q & C3)]; subst str3; simpl in C1; try discriminate.
      injection C1 as -> ->. eapply B3; eauto. }
    assert (Hsp1: sp1 <> []).
    { intro. subst sp1. simpl in B1. rewrite B1 in A3. destruct A3 as [A3|(q & A3)]; try discriminate.
      injection A3 as -> ->. eapply B3; eauto. }
    assert (Hsp2: sp2 <> []).
    { intro. subst sp2. simpl in D1. rewrite D1, E9 in C3. destruct C3 as [C3|(q & C3)]; discriminate. }
    exists (c0 :: m0), name, mg, url, (code v - 48). split; [|exact E2].
    exists sp1, sp2, v. repeat split; auto; try congruence.
    apply orb_true_iff in E8. destruct E8 as [E8|E8]; apply beq_eq in E8; subst v; auto. }
  destruct Hdec as [(m & name & g & url & v & Hr & Hm)|[-> ->]].
  - left. exists m, name, g, url, v. split; [exact Hr|]. split; [exact Hm|].
    destruct (parse_shape _ _ _ _ Hr) as (b1 & b2 & d & P1 & P2 & P3 & P4 & P5 & P6 & P7 & P8).
    apply find_method_iff in Hm.
    unfold parse_http_request in H. rewrite P1 in H.
    destruct m as [|c0 m0]; [congruence|]. rewrite Hm in H. rewrite P2 in H.
    destruct url as [|c1 u]; [congruence|]. cbn [app] in H, P4. rewrite P4, P5 in H.
    cbn [lit list_ascii_of_string app firstn skipn] in H. rewrite bytes_eqb_refl, P7 in H.
    rewrite <- P8 in H.
    destruct (group <? g) eqn:Eg; injection H as <- <-.
    + right. repeat split; auto. lia.
    + left. repeat split; auto. lia.
  - (* refused: show there is no reading *)
    right. repeat split; auto.
    intros (m & name & g & url & v & Hr & Hm).
    destruct (parse_shape _ _ _ _ Hr) as (b1 & b2 & d & P1 & P2 & P3 & P4 & P5 & P6 & P7 & P8).
    apply find_method_iff in Hm.
    unfold parse_http_request in H. rewrite P1 in H.
    destruct m as [|c0 m0]; [congruence|]. rewrite Hm in H. rewrite P2 in H.
    destruct url as [|c1 u]; [congruence|]. cbn [app] in H, P4. rewrite P4, P5 in H.
    cbn [lit list_ascii_of_string app firstn skipn] in H. rewrite bytes_eqb_refl, P7 in H.
    destruct (group <? g) eqn:Eg; discriminate.
Qed.

Lemma method_fun : forall m n1 g1 n2 g2, method m n1 g1 -> method m n2 g2 -> n1 = n2 /\ g1 = g2.
Proof.
  intros m n1 g1 n2 g2 H1 H2. apply find_method_iff in H1, H2. rewrite H1 in H2.
  injection H2 as -> ->. auto.
Qed.

Lemma request_line_fun : forall s m1 u1 v1 m2 u2 v2,
  request_line s m1 u1 v1 -> request_line s m2 u2 v2 -> m1 = m2 /\ u1 = u2 /\ v1 = v2.
Proof.
  intros s m1 u1 v1 m2 u2 v2 H1 H2.
  destruct (parse_shape _ _ _ _ H1) as (b1 & b2 & d & P1 & P2 & P3 & P4 & P5 & P6 & P7 & P8).
  destruct (parse_shape _ _ _ _ H2) as (b1' & b2' & d' & Q1 & Q2 & Q3 & Q4 & Q5 & Q6 & Q7 & Q8).
  rewrite P1 in Q1. injection Q1 as <- <-. rewrite P2 in Q2. rewrite <- Q2, P4 in Q4.
  injection Q4 as <- <-. rewrite P5 in Q5. apply app_inv_head in Q5. injection Q5 as <-.
  repeat split; congruence.
Qed.

Lemma parse_ok_iff : forall s group name url v,
  parse_http_request s group = (ST_OK, Some (mkRL name url v)) <->
  exists m g, request_line s m url v /\ method m name g /\ g <= group.
Proof.
  intros s group name url v. split.
  - intros H. apply parse_sound in H.
    destruct H as [(m & n & g & u & w & Hr & Hm & [(Hg & _ & E)|(_ & E & _)])|(E & _)];
      try discriminate.
    injection E as -> -> ->. eauto.
  - intros (m & g & Hr & Hm & Hg).
    destruct (parse_http_request s group) as [st r] eqn:E.
    apply parse_sound in E.
    destruct E as [(m' & n' & g' & u' & v' & Hr' & Hm' & D)|(_ & _ & C)].
    + destruct (request_line_fun _ _ _ _ _ _ _ Hr Hr') as (<- & <- & <-).
      destruct (method_fun _ _ _ _ _ Hm Hm') as (<- & <-).
      destruct D as [(_ & -> & ->)|(Hg' & _)]; [reflexivity|lia].
    + exfalso. apply C. eauto 10.
Qed.

Lemma parse_405_iff : forall s group r,
  parse_http_request s group = (ST_405, r) <->
  r = None /\ exists m name g url v, request_line s m url v /\ method m name g /\ group < g.
Proof.
  intros s group r. split.
  - intros H. apply parse_sound in H.
    destruct H as [(m & n & g & u & w & Hr & Hm & [(Hg & E & _)|(Hg & _ & E)])|(E & _)];
      try discriminate. subst. split; eauto 10.
  - intros (-> & m & name & g & url & v & Hr & Hm & Hg).
    destruct (parse_http_request s group) as [st r] eqn:E.
    apply parse_sound in E.
    destruct E as [(m' & n' & g' & u' & v' & Hr' & Hm' & D)|(_ & _ & C)].
    + destruct (request_line_fun _ _ _ _ _ _ _ Hr Hr') as (<- & <- & <-).
      destruct (method_fun _ _ _ _ _ Hm Hm') as (<- & <-).
      destruct D as [(Hg' & _)|(_ & -> & ->)]; [lia|reflexivity].
    + exfalso. apply C. eauto 10.
Qed.

Lemma parse_400_iff : forall s group r,
  parse_http_request s group = (ST_400, r) <->
  r = None /\ ~ exists m name g url v, request_line s m url v /\ method m name g.
Proof.
  intros s group r. split.
  - intros H. apply parse_sound in H.
    destruct H as [(m & n & g & u & w & Hr & Hm & [(Hg & E & _)|(Hg & E & _)])|(_ & -> & C)];
      try discriminate. auto.
  - intros (-> & C).
    destruct (parse_http_request s group) as [st r] eqn:E.
    apply parse_sound in E.
    destruct E as [(m' & n' & g' & u' & v' & Hr' & Hm' & D)|(-> & -> & _)]; auto.
    exfalso. apply C. eauto 10.
Qed.

Lemma parse_three : forall s group, exists st r, parse_http_request s group = (st, r) /\
  (st = ST_OK \/ st = ST_405 \/ st = ST_400).
Proof.
  intros s group. destruct (parse_http_request s group) as [st r] eqn:E.
  exists st, r. split; auto. apply parse_sound in E.
  destruct E as [(m' & n' & g' & u' & v' & Hr' & Hm' & [(_ & -> & _)|(_ & -> & _)])|(-> & _)]; auto.
Qed.
