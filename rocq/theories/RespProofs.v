From Coq Require Import Ascii String List ZArith Bool Lia.
From Verif Require Import Bytes ClenModel ClenSpec ClenProofs StreamModel StreamSpec StreamProofs TokModel
  TokSpec TokProofs ReqModel ReqSpec ReqProofs HdrProofs HeadProofs FrameModel FrameSpec FrameProofs
  RespModel RespSpec.
Import ListNotations.
Open Scope Z_scope.

(** ** The status line *)

Lemma dig_dec : forall c, is_dig c = true <-> decimal c (dig c).
Proof.
  intros c. rewrite decimal_model.
  destruct c as [[] [] [] [] [] [] [] []]; vm_compute; split; congruence.
Qed.
Lemma dec_dig : forall c d, decimal c d -> is_dig c = true /\ d = dig c.
Proof.
  intros c d H. apply decimal_model in H.
  destruct c as [[] [] [] [] [] [] [] []]; vm_compute in H |- *; try discriminate; injection H as <-; auto.
Qed.
Lemma dig_range : forall c, is_dig c = true ->
  ("1"%char <=? c)%char && (c <=? "5"%char)%char = true <-> 1 <= dig c <= 5.
Proof.
  intros c. destruct c as [[] [] [] [] [] [] [] []]; vm_compute; split; intros; try discriminate; try tauto;
    repeat split; try discriminate; destruct H0; congruence.
Qed.
Lemma range_dig : forall c, ("1"%char <=? c)%char && (c <=? "5"%char)%char = true -> is_dig c = true.
Proof. intros c. destruct c as [[] [] [] [] [] [] [] []]; vm_compute; congruence. Qed.
Lemma dig_not_blank : forall c, is_dig c = true -> ~ blank c.
Proof. intros c H B. destruct B as [->| ->]; discriminate. Qed.

Lemma validate_iff : forall s v code, response_validate s = Some (v, code) <-> status_line s v code.
Proof.
  intros s v code. unfold response_validate. split.
  - intros H. destruct (bytes_eqb (firstn 7 s) (lit "HTTP/1.")) eqn:E; [|discriminate]. cbn [negb] in H.
    apply bytes_eqb_eq in E. pose proof (firstn_skipn 7 s) as Es. rewrite E in Es.
    destruct (skipn 7 s) as [|dv [|w r]]; try discriminate.
    destruct ((beq dv "0" || beq dv "1") && isws w) eqn:E1; [|discriminate].
    apply andb_true_iff in E1. destruct E1 as [E1 E2].
    destruct (trimwsl_split (w :: r)) as (bl & Eb & Fb).
    assert (Hne: bl <> []).
    { intros ->. cbn [app] in Eb. rewrite trimwsl_span in Eb. cbn [span] in Eb. rewrite E2 in Eb.
      destruct (span isws r) as [p q] eqn:Ep. cbn [snd] in Eb.
      assert (L: r = p ++ q).
      { pose proof (trimwsl_split r) as (l & El & _). rewrite trimwsl_span, Ep in El.
        cbn [snd] in El. rewrite El in Eb. exfalso. apply (f_equal (@length _)) in Eb. cbn [length] in Eb. rewrite app_length in Eb. lia. }
      rewrite L in Eb. apply (f_equal (@length _)) in Eb. cbn [length] in Eb. rewrite app_length in Eb. lia. }
    destruct (trimwsl (w :: r)) as [|a [|b [|c tl]]]; try discriminate.
    destruct (_ && _ && _ && _ && _) eqn:E3; [|discriminate].
    rewrite !andb_true_iff in E3. destruct E3 as [[[[E3 E4] E5] E6] E7].
    assert (Ea: is_dig a = true) by (apply range_dig; rewrite E3, E4; auto).
    injection H as <- <-.
    exists dv, bl, a, b, c, tl, (dig a), (dig b), (dig c).
    split. { rewrite <- Es, Eb. reflexivity. }
    split. { apply orb_true_iff in E1. destruct E1 as [E1|E1]; apply beq_eq in E1; subst dv; [left|right]; auto. }
    split; [auto|]. split; [auto|].
    split; [apply dig_dec; auto|]. split; [apply dig_dec; auto|]. split; [apply dig_dec; auto|].
    split. { apply dig_range; auto. rewrite E3, E4. auto. }
    split; [reflexivity|].
    destruct tl as [|t u]; [auto|right]. exists t, u. split; [auto|]. apply isws_blank. auto.
  - intros (dv & bl & a & b & c & tl & x & y & z & -> & Hv & Hne & Fb & Ha & Hb & Hc & Hx & -> & Ht).
    destruct (dec_dig _ _ Ha) as [Da ->]. destruct (dec_dig _ _ Hb) as [Db ->]. destruct (dec_dig _ _ Hc) as [Dc ->].
    assert (E7: forall X, firstn 7 (lit "HTTP/1." ++ X) = lit "HTTP/1." /\ skipn 7 (lit "HTTP/1." ++ X) = X) by (intros; split; reflexivity).
    destruct (E7 ([dv] ++ bl ++ [a; b; c] ++ tl)) as [-> ->].
    replace (bytes_eqb (lit "HTTP/1.") (lit "HTTP/1.")) with true by reflexivity. cbn [negb app].
    destruct bl as [|w bl]; [congruence|]. cbn [app].
    assert (Ew: isws w = true) by (apply isws_blank; inversion Fb; auto). rewrite Ew.
    assert (Ed: beq dv "0" || beq dv "1" = true /\ dig dv = v) by (destruct Hv as [[-> ->]|[-> ->]]; split; reflexivity).
    destruct Ed as [-> Edv]. cbn [andb].
    change (w :: bl ++ a :: b :: c :: tl) with ((w :: bl) ++ a :: b :: c :: tl).
    assert (Et: trimwsl ((w :: bl) ++ a :: b :: c :: tl) = a :: b :: c :: tl).
    { apply ClenProofs.trimwsl_app; auto. apply dig_not_blank; auto. }
    rewrite Et.
    assert (Ra: ("1"%char <=? a)%char && (a <=? "5"%char)%char = true) by (apply dig_range; auto).
    rewrite Ra, Db, Dc. cbn [andb].
    assert (El: match tl with [] => true | d :: _ => isws d end = true).
    { destruct Ht as [->|(t & u & -> & B)]; auto. apply isws_blank; auto. }
    rewrite El, Edv. reflexivity.
Qed.

(** ** The header scan *)

Lemma code_conn : forall n, find_hd_type hd_types n = HEADER_CONNECTION <-> same_letters n (lit "Connection").
Proof.
  intros n. unfold hd_types. cbn [find_hd_type]. split.
  - intros H.
    repeat match type of H with
    | (if ?x then ?a else _) = _ => destruct x eqn:E; [try discriminate H|clear E]
    end; try discriminate H.
    apply andb_true_iff in E. destruct E as [_ E]. apply ci_eqb_eq in E. exact E.
  - intros H. assert (X: ci_eqb n (lit "Connection") = true) by (apply ci_eqb_eq; exact H).
    pose proof (ci_eqb_length _ _ X) as L.
    do 2 (match goal with |- (if ?x then ?a else _) = _ => destruct x eqn:Y;
      [exfalso; apply andb_true_iff in Y; destruct Y as [Y _]; rewrite L in Y; vm_compute in Y; discriminate|clear Y] end).
    rewrite X, L. reflexivity.
Qed.

Definition conn_vals (hs : list header) : list bytes := values "Connection" (hfields hs).
Definition is_conn (h : header) : bool := is_named (lit "Connection") (hfield h).

Lemma conn_vals_cons : forall h hs, conn_vals (h :: hs) = if is_conn h then h_val h :: conn_vals hs else conn_vals hs.
Proof.
  intros h hs. unfold conn_vals, values, is_conn, hfields. cbn [map filter].
  destruct (is_named (lit "Connection") (hfield h)); reflexivity.
Qed.
Lemma conn_bool : forall h, good h -> is_conn h = match h_code h with HEADER_CONNECTION => true | _ => false end.
Proof.
  intros h Hg. assert (A: is_conn h = true <-> h_code h = HEADER_CONNECTION).
  { rewrite good_code, code_conn by auto. unfold is_conn. rewrite is_named_iff. reflexivity. }
  destruct A as [A1 A2]. destruct (is_conn h), (h_code h); auto;
    try (specialize (A1 eq_refl); discriminate); try (specialize (A2 eq_refl); discriminate).
Qed.

Definition finds (tok v : bytes) : bool := match cs_locate_token v tok true with Some _ => true | None => false end.

Lemma finds_iff : forall tok v, tok <> [] ->
  finds tok v = true <-> exists e t, element v e /\ stripped e t /\ same_letters t tok.
Proof.
  intros tok v Ht. rewrite <- (locate_found_iff v tok true Ht). unfold finds.
  destruct (cs_locate_token v tok true); split; eauto; try discriminate; intros [r E]; discriminate.
Qed.

Lemma existsb_element : forall n tok fs, lit tok <> [] ->
  existsb (finds (lit tok)) (values n fs) = true <-> has_element n tok fs.
Proof.
  intros n tok fs Ht. rewrite existsb_exists. unfold has_element. split.
  - intros (v & Hi & H). apply finds_iff in H; auto. destruct H as (e & t & H). exists v, e, t. tauto.
  - intros (v & e & t & Hi & H). exists v. split; auto. apply finds_iff; auto. eauto.
Qed.

Lemma scan_response_spec : forall hs x ck cl, Forall good hs ->
  match scan_response (x, ck, cl) hs with
  | None => ~ lengths_valid (hfields hs)
  | Some (x', ck', cl') =>
      lengths_valid (hfields hs) /\
      ck' = ck || existsb (finds (lit "chunked")) (te_vals hs) /\
      cl' = last (map (fun v => get_content_length v CL_HEADER) (cl_vals hs)) cl /\
      x_nocont x' = x_nocont x && negb (existsb (finds (lit "chunked")) (te_vals hs)) /\
      x_closed x' = x_closed x || existsb (ci_eqb (lit "close")) (conn_vals hs) /\
      x_wsreq x' = x_wsreq x /\ x_101 x' = x_101 x
  end.
Proof.
  assert (LV: forall hs, lengths_valid (hfields hs) = Forall (fun v => exists n, content_length_value v n) (cl_vals hs)) by reflexivity.
  assert (LAST: forall (l : list Z) a b, last (a :: l) b = last l a).
  { intros l. induction l as [|c l IH]; intros a b; [reflexivity|].
    change (last (a :: c :: l) b) with (last (c :: l) b). rewrite !IH. reflexivity. }
  induction hs as [|h hs IH]; intros x ck cl Hg.
  - cbn. rewrite !orb_false_r, andb_true_r. repeat split; auto. constructor.
  - inversion Hg as [|? ? G1 G2]; subst. cbn [scan_response].
    destruct (code_bools h G1) as [Bt Bc]. pose proof (conn_bool h G1) as Bn.
    rewrite !LV, te_vals_cons, cl_vals_cons, conn_vals_cons, Bt, Bc, Bn.
    unfold scan_response_header.
    destruct (h_code h) eqn:Ec; try (specialize (IH x ck cl G2); rewrite LV in IH; exact IH).
    + (* TE *)
      cbn [existsb]. unfold finds at 1 3. destruct (cs_locate_token (h_val h) (lit "chunked") true).
      * match goal with |- context [scan_response (?a, ?b, ?c) hs] => specialize (IH a b c G2) end. rewrite LV in IH.
        destruct (scan_response _ hs) as [[[x' ck'] cl']|]; [|exact IH].
        destruct IH as (I1 & I2 & I3 & I4 & I5 & I6 & I7). cbn [x_nocont x_closed x_wsreq x_101] in *.
        cbn [orb negb]. rewrite orb_true_r, andb_false_r. rewrite I2, I4. auto 10.
      * specialize (IH x ck cl G2). rewrite LV in IH. exact IH.
    + (* CL *)
      cbn [map]. destruct (get_content_length (h_val h) CL_HEADER =? NO_CONTENT_LENGTH) eqn:En.
      * intros F. inversion F as [|? ? [n Hn] _]; subst. apply header_length_iff in Hn. destruct Hn as [E1 Hn]. apply Z.eqb_eq in En. congruence.
      * specialize (IH x ck (get_content_length (h_val h) CL_HEADER) G2). rewrite LV in IH.
        apply Z.eqb_neq in En.
        destruct (scan_response _ hs) as [[[x' ck'] cl']|].
        -- destruct IH as (I1 & I2 & I3 & I4). rewrite LAST. split; [|auto]. constructor; auto.
           eexists. apply header_length_iff. eauto.
        -- intros F. apply IH. inversion F; auto.
    + (* Connection *)
      cbn [existsb].
      destruct (ci_eqb (lit "close") (h_val h)).
      * match goal with |- context [scan_response (?a, ?b, ?c) hs] => specialize (IH a b c G2) end. rewrite LV in IH.
        destruct (scan_response _ hs) as [[[x' ck'] cl']|]; [|exact IH]. cbn [x_nocont x_closed x_wsreq x_101] in *.
        cbn [orb] in *. rewrite orb_true_r. exact IH.
      * cbn [orb]. destruct (conn_upgrd (h_val h)).
        -- match goal with |- context [scan_response (?a, ?b, ?c) hs] => specialize (IH a b c G2) end. rewrite LV in IH.
           exact IH.
        -- specialize (IH x ck cl G2). rewrite LV in IH. exact IH.
    + (* Upgrade *)
      destruct (cs_locate_token (h_val h) (lit "websocket") true).
      * match goal with |- context [scan_response (?a, ?b, ?c) hs] => specialize (IH a b c G2) end. rewrite LV in IH.
        exact IH.
      * specialize (IH x ck cl G2). rewrite LV in IH. exact IH.
Qed.

(** ** Writing *)

Lemma send_lines_ok : forall ls st, all_ok (c_wr st) ->
  exists w, all_ok w /\ send_lines ls st =
    (true, mkC (c_src st) (c_plan st) w (c_out st ++ concat (map (fun t => t ++ CRLF) ls)) (c_cnt st)).
Proof.
  induction ls as [|l ls IH]; intros st Hw.
  - exists (c_wr st). split; auto. cbn. rewrite app_nil_r. destruct st; reflexivity.
  - cbn [send_lines]. destruct (bio_write_ok (l ++ CRLF) st Hw) as (w & Hw' & ->).
    destruct (IH (mkC (c_src st) (c_plan st) w (c_out st ++ l ++ CRLF) (c_cnt st)) Hw') as (w2 & Hw2 & ->).
    exists w2. split; auto. cbn [c_src c_plan c_out c_cnt map concat]. rewrite <- !app_assoc. reflexivity.
Qed.

Lemma copy_to_eof_ok : forall bs st, all_ok (c_wr st) ->
  exists w, all_ok w /\ copy_to_eof (map RByte bs) st = (true, mkC [] (c_plan st) w (c_out st ++ bs) (c_cnt st)).
Proof.
  induction bs as [|c bs IH]; intros st Hw.
  - exists (c_wr st). split; auto. cbn. rewrite app_nil_r. reflexivity.
  - cbn [map copy_to_eof]. destruct (bio_write_ok [c] st Hw) as (w & Hw' & ->).
    destruct (IH (mkC (c_src st) (c_plan st) w (c_out st ++ [c]) (c_cnt st)) Hw') as (w2 & Hw2 & ->).
    exists w2. split; auto. cbn [c_plan c_out c_cnt]. rewrite <- app_assoc. reflexivity.
Qed.

Lemma flushed_ok : forall b x st, all_ok (c_wr st) ->
  exists w, all_ok w /\ flushed b x st = (BodyOk b x, mkC (c_src st) (c_plan st) w (c_out st) (c_cnt st)).
Proof.
  intros b x st Hw. unfold flushed. destruct (bio_write_ok [] st Hw) as (w & Hw' & ->).
  rewrite app_nil_r. eauto.
Qed.

Lemma flushed_cases : forall b x st r st', flushed b x st = (r, st') ->
  c_out st' = c_out st /\ c_src st' = c_src st /\ (r = BodyOk b x \/ r = BodyAbort).
Proof.
  intros b x st r st' H. unfold flushed in H. destruct (bio_write [] st) as [ok st1] eqn:E.
  apply bio_write_src in E. destruct E as (E1 & E2 & E3 & E4 & E5). injection H as <- <-.
  destruct ok; rewrite ?E4, ?E5, ?app_nil_r by auto; auto.
Qed.

(** With the no_write flag nothing is written, whatever happens. *)
Lemma copy_bin_nw : forall fuel cont st r st', copy_bin_loop fuel cont true st = Some (r, st') -> c_out st' = c_out st.
Proof.
  induction fuel as [|fuel IH]; intros cont st r st' H; [discriminate|]. cbn [copy_bin_loop] in H.
  destruct (0 <? cont); [|injection H as _ <-; reflexivity].
  assert (G: forall lim p,
    match c_src st with
    | [] => Some (COPY_EOF, mkC [] p (c_wr st) (c_out st) (c_cnt st))
    | RErr :: s => Some (COPY_READ_ERR, mkC s p (c_wr st) (c_out st) (c_cnt st))
    | RRetry :: s => copy_bin_loop fuel cont true (mkC s p (c_wr st) (c_out st) (c_cnt st))
    | RByte _ :: _ =>
        let '(buf, s) := take_bytes (Z.to_nat lim) (c_src st) in
        copy_bin_loop fuel (cont - Z.of_nat (length buf)) true
          (mkC s p (c_wr st) (c_out st) (c_cnt st + Z.of_nat (length buf)))
    end = Some (r, st') -> c_out st' = c_out st).
  { intros lim p G. destruct (c_src st) as [|[c| |] s]; try (injection G as _ <-; reflexivity);
      [|apply IH in G; exact G].
    destruct (take_bytes _ _) as [buf s']. apply IH in G. exact G. }
  destruct (c_plan st) as [|[k|] p].
  - apply (G _ _ H).
  - apply (G _ _ H).
  - apply IH in H. exact H.
Qed.

Lemma copy_trailers_nw : forall fuel st r st', copy_trailers fuel true st = (r, st') -> c_out st' = c_out st.
Proof.
  induction fuel as [|fuel IH]; intros st r st' H; [injection H as _ <-; reflexivity|]. cbn [copy_trailers put_line] in H.
  destruct (get_line _ _) as [[res buf] s]. destruct res; try (injection H as _ <-; reflexivity).
  cbn [negb] in H. destruct buf; [injection H as _ <-; reflexivity|]. apply IH in H. exact H.
Qed.

Lemma copy_chunks_nw : forall fuel wr tot max st r st', copy_chunks_loop fuel wr tot true max st = (r, st') -> c_out st' = c_out st.
Proof.
  induction fuel as [|fuel IH]; intros wr tot max st r st' H; [injection H as _ <-; reflexivity|].
  cbn [copy_chunks_loop put_line] in H.
  destruct (get_line _ _) as [[res buf] s]. destruct res; try (injection H as _ <-; reflexivity).
  destruct (_ =? _); [injection H as _ <-; reflexivity|]. cbn [negb] in H.
  destruct (add_size _ _ _) as [t|]; [|injection H as _ <-; reflexivity].
  destruct (_ && _); [injection H as _ <-; reflexivity|].
  destruct (0 <? _).
  - destruct (copy_bin _ _ _) as [[res2 st2]|] eqn:Eb; [|injection H as _ <-; reflexivity].
    unfold copy_bin in Eb. apply copy_bin_nw in Eb. cbn in Eb.
    destruct res2; try (injection H as _ <-; exact Eb).
    destruct (get_line _ _) as [[res3 buf3] s3]. destruct res3; try (injection H as _ <-; exact Eb).
    cbn [negb] in H. apply IH in H. rewrite H. exact Eb.
  - apply copy_trailers_nw in H. exact H.
Qed.

Lemma body_nw : forall env b ck cl x st r st',
  response_body env b true ck cl x st = (r, st') -> c_out st' = c_out st.
Proof.
  intros env b ck cl x st r st' H. unfold response_body in H.
  destruct (negb (x_nocont x)).
  - destruct (b && ck).
    + destruct (copy_chunks false true 0 st) as [c s1] eqn:Ec. unfold copy_chunks in Ec. apply copy_chunks_nw in Ec.
      destruct c; try (injection H as _ <-; exact Ec). apply flushed_cases in H. destruct H as (-> & _). exact Ec.
    + destruct (0 <=? cl).
      * destruct (copy_bin cl true st) as [[c s1]|] eqn:Ec; [|injection H as _ <-; reflexivity].
        unfold copy_bin in Ec. apply copy_bin_nw in Ec.
        destruct c; try (injection H as _ <-; exact Ec). apply flushed_cases in H. destruct H as (-> & _). exact Ec.
      * cbn [negb] in H. apply flushed_cases in H. tauto.
  - destruct (ws_complete x); [destruct (e_tunnel env)|]; injection H as _ <-; reflexivity.
Qed.

(** Once a response is skipped all are. *)
Lemma loop_skip : forall fuel env x st r st', response_loop fuel env true x st = (r, st') ->
  c_out st' = c_out st /\ (forall c x' code, r <> RespOk c x' code).
Proof.
  induction fuel as [|fuel IH]; intros env x st r st' H.
  - injection H as <- <-. split; [auto|discriminate].
  - cbn [response_loop] in H.
    destruct (http_request_read _ _) as [line hs rest|e]; [|injection H as <- <-; split; [auto|discriminate]].
    destruct (response_validate line) as [[v code]|]; [|injection H as <- <-; split; [auto|discriminate]].
    destruct (e_rules env hs) as [hs'|]; [|injection H as <- <-; split; [auto|discriminate]].
    destruct (scan_response _ hs') as [[[x' ck] cl]|]; [|injection H as <- <-; split; [auto|discriminate]].
    cbn [orb negb] in H.
    destruct (bio_write [] (set_src st rest)) as [ok st1] eqn:E. apply bio_write_src in E.
    destruct E as (E1 & E2 & E3 & E4 & E5).
    assert (Eo: c_out st1 = c_out st) by (destruct ok; [rewrite E4, app_nil_r by auto|rewrite E5 by auto]; reflexivity).
    destruct ok; cbn [negb] in H; [|injection H as <- <-; split; [auto|discriminate]].
    destruct (response_body _ _ _ _ _ _ _) as [br st2] eqn:Eb. apply body_nw in Eb. rewrite Eo in Eb.
    destruct br; try (injection H as <- <-; split; [auto|discriminate]).
    apply IH in H. destruct H as [H1 H2]. split; [congruence|auto].
Qed.

(** An error page is only asked for when nothing was written. *)
Lemma response_error : forall env x st e st', backend_response env x st = (RespErr e, st') -> c_out st' = c_out st.
Proof.
  intros env x st e st' H. unfold backend_response in H. cbn [response_loop] in H.
  destruct (http_request_read _ _) as [line hs rest|e']; [|injection H as <- <-; auto].
  destruct (response_validate line) as [[v code]|]; [|injection H as <- <-; auto].
  destruct (e_rules env hs) as [hs'|]; [|injection H as <- <-; auto].
  destruct (scan_response _ hs') as [[[x' ck] cl]|]; [|discriminate].
  cbn [orb] in H. destruct (code =? 100).
  - cbn [negb] in H.
    destruct (bio_write [] (set_src st rest)) as [ok st1] eqn:E. apply bio_write_src in E.
    destruct E as (E1 & E2 & E3 & E4 & E5).
    assert (Eo: c_out st1 = c_out st) by (destruct ok; [rewrite E4, app_nil_r by auto|rewrite E5 by auto]; reflexivity).
    destruct ok; cbn [negb] in H; [|discriminate].
    destruct (response_body _ _ _ _ _ _ _) as [br st2] eqn:Eb. apply body_nw in Eb. rewrite Eo in Eb.
    destruct br; try discriminate. apply loop_skip in H. destruct H as [H _]. congruence.
  - destruct (send_lines _ _) as [ok st1]. destruct ok; cbn [negb] in H; [|discriminate].
    destruct (bio_write [] _) as [ok st2]. destruct ok; cbn [negb] in H; [|discriminate].
    destruct (response_body _ _ _ _ _ _ _) as [br st3]. destruct br; discriminate.
Qed.

(** ** One round *)

Definition after_body (code : Z) (p : body_result * cstate) : resp_result * cstate :=
  match p with
  | (BodyUB, st) => (RespUB, st)
  | (BodyFuel, st) => (RespFuel, st)
  | (BodyAbort, st) => (RespAbort, st)
  | (BodyOk c x, st) => (RespOk c x code, st)
  end.

Definition texts (env : renv) (hs : list header) : list bytes := map (fun h => h_text (e_loc env h)) hs.

Lemma one_round : forall env x st line hs rest v code hs' x' ck cl, all_ok (c_wr st) ->
  http_request_read (e_comb env) (c_src st) = RR_ok line hs rest ->
  response_validate line = Some (v, code) -> code <> 100 ->
  e_rules env hs = Some hs' ->
  scan_response (note_code code x, false, NO_CONTENT_LENGTH) hs' = Some (x', ck, cl) ->
  exists w, all_ok w /\
    backend_response env x st =
    after_body code (response_body env (v =? 1) false ck cl x'
      (mkC rest (c_plan st) w (c_out st ++ head_text line (texts env hs')) (c_cnt st))).
Proof.
  intros env x st line hs rest v code hs' x' ck cl Hw R V Hc Ru Sc.
  unfold backend_response. cbn [response_loop]. rewrite R, V, Ru, Sc.
  apply Z.eqb_neq in Hc. rewrite Hc. cbn [orb].
  destruct (send_lines_ok (line :: map (fun h => h_text (e_loc env h)) hs') (set_src st rest) Hw) as (w1 & W1 & ->).
  destruct (bio_write_ok CRLF (mkC (c_src (set_src st rest)) (c_plan (set_src st rest)) w1
    (c_out (set_src st rest) ++ concat (map (fun t => t ++ CRLF) (line :: map (fun h => h_text (e_loc env h)) hs'))) (c_cnt (set_src st rest))) W1) as (w2 & W2 & ->).
  cbn [snd negb].
  match goal with |- context [bio_write [] ?s] => destruct (bio_write_ok [] s W2) as (w3 & W3 & ->) end.
  exists w3. split; auto. cbn [negb c_src c_plan c_out c_cnt set_src].
  rewrite app_nil_r. unfold head_text, texts. cbn [map concat]. rewrite <- !app_assoc.
  destruct (response_body _ _ _ _ _ _ _) as [[] st2]; reflexivity.
Qed.

Lemma code_range : forall s v code, status_line s v code -> 100 <= code < 600.
Proof.
  intros s v code (dv & bl & a & b & c & tl & x & y & z & _ & _ & _ & _ & _ & Hb & Hc & Hx & -> & _).
  apply decimal_model in Hb. apply decimal_model in Hc.
  apply clen_digit_range in Hb; [|auto]. apply clen_digit_range in Hc; [|auto]. lia.
Qed.

Lemma no_content_iff : forall h code, 100 <= code < 600 -> code <> 100 -> code <> 305 -> code <> 306 ->
  h || no_content_code code = true <-> never_content h code.
Proof.
  intros h code Hr H1 H2 H3. unfold no_content_code, never_content.
  rewrite !orb_true_iff, andb_true_iff, negb_true_iff, Z.eqb_neq, !Z.eqb_eq.
  assert (D: code / 100 = 1 <-> 100 <= code < 200).
  { split; intros H; [|symmetry; apply Z.div_unique with (code - 100); lia].
    pose proof (Z.div_mod code 100 ltac:(lia)). pose proof (Z.mod_pos_bound code 100 ltac:(lia)). lia. }
  rewrite D. intuition lia.
Qed.

Lemma chunked_last_finds : forall v, chunked_last v -> finds (lit "chunked") v = true.
Proof.
  intros v (pre & e & post & He & (t & Hs & Hl) & _). apply finds_iff; [discriminate|].
  exists e, t. split; [exists pre, post; auto|auto].
Qed.

Lemma kind_decides : forall h x code hs x' ck cl v line ready k,
  status_line line v code -> Forall good hs -> x_nocont x = h -> x_101 x = false ->
  scan_response (note_code code x, false, NO_CONTENT_LENGTH) hs = Some (x', ck, cl) ->
  response_kind h code (hfields hs) k -> usual h v code (hfields hs) ready k ->
  ws_complete x' = false /\
  match k with
  | NoContent => x_nocont x' = true
  | Fixed n => x_nocont x' = false /\ ck = false /\ cl = n /\ 0 <= n
  | Chunks => x_nocont x' = false /\ ck = true
  | UntilClose => x_nocont x' = false /\ ck = false /\ cl = NO_CONTENT_LENGTH
  end.
Proof.
  intros h x code hs x' ck cl v line ready k L G Hh H101 Sc K (U1 & U2 & U3 & U4 & U5 & U6).
  pose proof (scan_response_spec hs (note_code code x) false NO_CONTENT_LENGTH G) as S. rewrite Sc in S.
  destruct S as (S1 & S2 & S3 & S4 & S5 & S6 & S7). cbn [note_code x_nocont x_101 orb] in *.
  pose proof (no_content_iff h code (code_range _ _ _ L) U2 U4 U5) as N. rewrite Hh in S4.
  split.
  - unfold ws_complete. rewrite S7, H101. apply Z.eqb_neq in U3. rewrite U3. cbn. rewrite andb_false_r. reflexivity.
  - destruct K as [K|us v0 K1 K2 K3|v0 n K1 K2 K3 K4|K1 K2 K3].
    + apply N in K. rewrite S4, K. cbn [andb]. apply negb_true_iff, not_true_iff_false. intros C. apply U6.
      apply existsb_element; [discriminate|exact C].
    + assert (E: existsb (finds (lit "chunked")) (te_vals hs) = true).
      { unfold te_vals. rewrite K2, existsb_app. cbn [existsb]. rewrite (chunked_last_finds _ K3), orb_true_r. reflexivity. }
      rewrite S4, S2, E, andb_false_r. auto.
    + unfold te_vals in *. rewrite K2 in *. cbn in S2, S4. rewrite andb_true_r in S4.
      assert (E: h || no_content_code code = false) by (apply not_true_iff_false; intros C; apply K1, N, C).
      unfold cl_vals in S3. rewrite K3 in S3. cbn in S3. pose proof (header_length_bounds v0 n) as B.
      pose proof K4 as K5. apply header_length_iff in K4. destruct K4 as [K4 K6]. rewrite K4 in S3.
      split; [congruence|]. split; [auto|]. split; [auto|].
      assert (0 <= n <= max_length) by (apply B; auto). lia.
    + unfold te_vals in *. rewrite K2 in *. cbn in S2, S4. rewrite andb_true_r in S4.
      assert (E: h || no_content_code code = false) by (apply not_true_iff_false; intros C; apply K1, N, C).
      unfold cl_vals in S3. rewrite K3 in S3. cbn in S3. split; [congruence|]. auto.
Qed.

Lemma strict_lenient : forall lim s o p z r, chunked lim strict s o p z r -> chunked lim lenient s o p z r.
Proof. induction 1; [eapply ck_last|eapply ck_chunk]; eauto. exact I. Qed.

Lemma weaken : forall k s o r, delimited strict k s o r -> delimited lenient k s o r.
Proof. intros k s o r []; econstructor; eauto. apply strict_lenient. eauto. Qed.

(** A body that is all there is passed on. *)
Lemma body_complete : forall env v ck cl x k r body rest plan w out cnt, all_ok w ->
  ws_complete x = false -> (k = Chunks -> v = 1) -> (k = UntilClose -> e_ready env = true) ->
  match k with
  | NoContent => x_nocont x = true
  | Fixed n => x_nocont x = false /\ ck = false /\ cl = n /\ 0 <= n
  | Chunks => x_nocont x = false /\ ck = true
  | UntilClose => x_nocont x = false /\ ck = false /\ cl = NO_CONTENT_LENGTH
  end ->
  delimited lenient k r body rest ->
  exists x2 st, response_body env (v =? 1) false ck cl x (mkC (map RByte r) plan w out cnt) =
    (BodyOk (negb (v =? 1) || match k with UntilClose => true | _ => false end) x2, st) /\
    x_closed x2 = x_closed x || match k with UntilClose => true | _ => false end /\
    c_out st = out ++ body /\ c_src st = map RByte rest /\ all_ok (c_wr st).
Proof.
  intros env v ck cl x k r body rest plan w out cnt Hw Ws Hv1 Hr Hk D. unfold response_body.
  destruct D as [r|d r|s o pay sizes r D1 D2|s].
  - rewrite Hk, Ws. cbn [negb]. rewrite !orb_false_r. do 2 eexists. split; [reflexivity|]. cbn [c_out c_src c_wr]. rewrite app_nil_r. auto.
  - destruct Hk as (-> & -> & -> & Hn). rewrite andb_false_r. cbn [negb]. rewrite (proj2 (Z.leb_le _ _) Hn).
    rewrite map_app. destruct (copy_bin_ok false d (map RByte r) plan w out cnt Hw) as (p' & w' & Hw' & ->).
    destruct (flushed_ok (negb (v =? 1)) x (mkC (map RByte r) p' w' (emit false out d) (cnt + Z.of_nat (length d))) Hw') as (w2 & W2 & ->).
    rewrite !orb_false_r. do 2 eexists. split; [reflexivity|]. auto.
  - destruct Hk as (-> & ->). rewrite (Hv1 eq_refl). cbn [negb andb Z.eqb Pos.eqb].
    destruct (copy_chunks_complete false false 0 s o pay sizes r plan w out cnt D1 Hw D2 ltac:(lia)) as (p' & w' & Hw' & ->).
    match goal with |- context [flushed ?b ?y ?s] => destruct (flushed_ok b y s Hw') as (w2 & W2 & ->) end.
    cbn [orb]. rewrite orb_false_r. do 2 eexists. split; [reflexivity|]. auto.
  - destruct Hk as (-> & -> & ->). rewrite andb_false_r. cbn [negb]. change (0 <=? NO_CONTENT_LENGTH) with false. cbv iota.
    rewrite (Hr eq_refl). cbn [c_src].
    destruct (copy_to_eof_ok s (mkC (map RByte s) plan w out cnt) Hw) as (w' & Hw' & ->).
    match goal with |- context [flushed ?b ?y ?s] => destruct (flushed_ok b y s Hw') as (w2 & W2 & ->) end.
    rewrite !orb_true_r. do 2 eexists. split; [reflexivity|]. auto.
Qed.

Lemma closed_iff : forall x code hs x' ck cl, Forall good hs ->
  scan_response (note_code code x, false, NO_CONTENT_LENGTH) hs = Some (x', ck, cl) ->
  x_closed x' = true <-> x_closed x = true \/ has_value "Connection" "close" (hfields hs).
Proof.
  intros x code hs x' ck cl G Sc. pose proof (scan_response_spec hs (note_code code x) false NO_CONTENT_LENGTH G) as S.
  rewrite Sc in S. destruct S as (_ & _ & _ & _ & S5 & _). rewrite S5. cbn [note_code x_closed].
  rewrite orb_true_iff, existsb_exists. unfold has_value, conn_vals.
  assert (E: forall w, ci_eqb (lit "close") w = true <-> same_letters w (lit "close")).
  { intros w. rewrite ci_eqb_eq. split; intros E; symmetry; exact E. }
  split; (intros [H|(w & H1 & H2)]; [auto|right; exists w; split; [auto|apply E; auto]]).
Qed.

Lemma lengths_scan : forall a hs, Forall good hs -> lengths_valid (hfields hs) -> exists b, scan_response a hs = Some b.
Proof.
  intros [[x ck] cl] hs G V. pose proof (scan_response_spec hs x ck cl G) as S.
  destruct (scan_response _ hs) as [b|]; [eauto|contradiction].
Qed.

Lemma relayed : forall env to_head closed ws bs line r hs hs' v code k body rest plan w out cnt,
  all_ok w -> http_request_read (e_comb env) (map RByte bs) = RR_ok line hs (map RByte r) ->
  status_line line v code -> e_rules env hs = Some hs' -> Forall good hs' ->
  response_kind to_head code (hfields hs') k -> usual to_head v code (hfields hs') (e_ready env) k ->
  delimited lenient k r body rest ->
  exists close x' st',
    backend_response env (start_exchange to_head closed ws) (mkC (map RByte bs) plan w out cnt) = (RespOk close x' code, st') /\
    c_out st' = out ++ head_text line (texts env hs') ++ body /\ c_src st' = map RByte rest /\ all_ok (c_wr st') /\
    (close = true <-> v = 0 \/ k = UntilClose) /\
    (x_closed x' = true <-> closed = true \/ has_value "Connection" "close" (hfields hs') \/ k = UntilClose).
Proof.
  intros env to_head closed ws bs line r hs hs' v code k body rest plan w out cnt Hw R L Ru G K U D.
  pose proof U as (U1 & U2 & U3 & U4 & U5 & U6).
  destruct (lengths_scan (note_code code (start_exchange to_head closed ws), false, NO_CONTENT_LENGTH) hs' G U1) as ([[x' ck] cl] & Sc).
  assert (V: response_validate line = Some (v, code)) by (apply validate_iff; auto).
  destruct (one_round env (start_exchange to_head closed ws) (mkC (map RByte bs) plan w out cnt) line hs (map RByte r) v code hs' x' ck cl Hw R V U2 Ru Sc) as (w1 & W1 & ->).
  destruct (kind_decides to_head (start_exchange to_head closed ws) code hs' x' ck cl v line (e_ready env) k L G eq_refl eq_refl Sc K U) as [Ws Hk].
  cbn [c_plan c_out c_cnt].
  destruct (body_complete env v ck cl x' k r body rest plan w1 (out ++ head_text line (texts env hs')) cnt W1 Ws) as (x2 & st & -> & Hx & Ho & Hs & Hw2); auto.
  { intros ->. exact U6. } { intros ->. exact U6. }
  eexists _, _, st. split; [reflexivity|]. rewrite Ho, <- app_assoc. split; [auto|]. split; [auto|]. split; [auto|].
  assert (Hv: v = 0 \/ v = 1).
  { destruct L as (dv & bl & a & b & c & tl & y1 & y2 & y3 & _ & [[_ ->]|[_ ->]] & _); auto. }
  split.
  - rewrite orb_true_iff, negb_true_iff, Z.eqb_neq. split.
    + intros [H|H]; [left; lia|right; destruct k; congruence].
    + intros [H|H]; [left; lia|right; subst; auto].
  - rewrite Hx, orb_true_iff, (closed_iff _ _ _ _ _ _ G Sc). cbn [start_exchange x_closed].
    assert (Ek: match k with UntilClose => true | _ => false end = true <-> k = UntilClose) by (destruct k; split; congruence).
    rewrite Ek. tauto.
Qed.

(** What was accepted was passed on. *)
Lemma framed : forall env to_head closed ws bs plan w out cnt close x' code st', all_ok w ->
  (forall hs hs', e_rules env hs = Some hs' -> Forall good hs -> Forall good hs') ->
  backend_response env (start_exchange to_head closed ws) (mkC (map RByte bs) plan w out cnt) = (RespOk close x' code, st') ->
  exists line r hs hs' v body, http_request_read (e_comb env) (map RByte bs) = RR_ok line hs (map RByte r) /\
    status_line line v code /\ code <> 100 /\ e_rules env hs = Some hs' /\ Forall good hs' /\
    c_out st' = out ++ head_text line (texts env hs') ++ body /\
    (x_closed x' = false -> closed = false /\ ~ has_value "Connection" "close" (hfields hs')) /\
    forall k, response_kind to_head code (hfields hs') k -> usual to_head v code (hfields hs') (e_ready env) k ->
    (close = true <-> v = 0 \/ k = UntilClose) /\
    (x_closed x' = true <-> closed = true \/ has_value "Connection" "close" (hfields hs') \/ k = UntilClose) /\
    exists rest, c_src st' = map RByte rest /\ delimited lenient k r body rest.
Proof.
  intros env to_head closed ws bs plan w out cnt close x' code st' Hw Hg H.
  destruct (http_request_read (e_comb env) (map RByte bs)) as [line hs rest0|e] eqn:R.
  2:{ unfold backend_response in H. cbn [response_loop c_src] in H. rewrite R in H. discriminate. }
  destruct (read_request_sound _ _ _ _ _ R) as (ls & fs & gs & r & _ & _ & _ & _ & G & ->).
  destruct (response_validate line) as [[v code']|] eqn:V.
  2:{ unfold backend_response in H. cbn [response_loop c_src] in H. rewrite R, V in H. discriminate. }
  destruct (e_rules env hs) as [hs'|] eqn:Ru.
  2:{ unfold backend_response in H. cbn [response_loop c_src] in H. rewrite R, V, Ru in H. discriminate. }
  assert (G': Forall good hs') by eauto.
  destruct (scan_response (note_code code' (start_exchange to_head closed ws), false, NO_CONTENT_LENGTH) hs') as [[[x1 ck] cl]|] eqn:Sc.
  2:{ unfold backend_response in H. cbn [response_loop c_src] in H. rewrite R, V, Ru, Sc in H. discriminate. }
  destruct (Z.eq_dec code' 100) as [->|Hc].
  { exfalso. unfold backend_response in H. cbn [response_loop c_src] in H. rewrite R, V, Ru, Sc in H.
    cbn [Z.eqb Pos.eqb orb negb] in H.
    destruct (bio_write [] _) as [ok st1]. destruct ok; cbn [negb] in H; [|discriminate].
    destruct (response_body _ _ _ _ _ _ _) as [br st2]. destruct br; try discriminate.
    apply loop_skip in H. destruct H as [_ H]. eapply H. reflexivity. }
  destruct (one_round env (start_exchange to_head closed ws) (mkC (map RByte bs) plan w out cnt) line hs (map RByte r) v code' hs' x1 ck cl Hw R V Hc Ru Sc) as (w1 & W1 & E).
  rewrite E in H. clear E. cbn [c_plan c_out c_cnt] in H.
  assert (L: status_line line v code') by (apply validate_iff; auto).
  destruct (response_body _ _ _ _ _ _ _) as [br st1] eqn:B. destruct br; cbn [after_body] in H; try discriminate.
  injection H as -> -> -> ->.
  assert (Hv: v = 0 \/ v = 1).
  { destruct L as (dv & bl & a & b & c & tl & y1 & y2 & y3 & _ & [[_ ->]|[_ ->]] & _); auto. }
  (* the body *)
  assert (M: exists body, c_out st' = (out ++ head_text line (texts env hs')) ++ body /\
     (x_closed x' = false -> x_closed x1 = false) /\
     forall k, response_kind to_head code (hfields hs') k -> usual to_head v code (hfields hs') (e_ready env) k ->
       (close = true <-> v = 0 \/ k = UntilClose) /\
       (x_closed x' = true <-> x_closed x1 = true \/ k = UntilClose) /\
       exists rest, c_src st' = map RByte rest /\ delimited lenient k r body rest).
  { pose proof (fun k K U => kind_decides to_head (start_exchange to_head closed ws) code hs' x1 ck cl v line (e_ready env) k L G' eq_refl eq_refl Sc K U) as KD.
    set (out1 := out ++ head_text line (texts env hs')) in *.
    assert (Cl: forall k : body_kind, k <> UntilClose -> (negb (v =? 1) = true <-> v = 0 \/ k = UntilClose)).
    { intros k Hk. rewrite negb_true_iff, Z.eqb_neq. split; [left; lia|intros [?|?]; [lia|congruence]]. }
    unfold response_body in B. destruct (x_nocont x1) eqn:En; cbn [negb] in B.
    - destruct (ws_complete x1) eqn:Ew.
      + exists []. destruct (e_tunnel env); [|discriminate]. injection B as <- <- <-. cbn [c_out c_src]. rewrite app_nil_r.
        split; [auto|]. split; [discriminate|]. intros k K U. destruct (KD k K U) as [C _]. congruence.
      + injection B as <- <- <-. exists []. cbn [c_out c_src]. rewrite app_nil_r. split; [auto|]. split; [auto|].
        intros k K U. destruct (KD k K U) as [_ C].
        destruct k; try (exfalso; destruct C; congruence).
        split; [apply Cl; discriminate|]. split; [split; [auto|intros [?|?]; [auto|discriminate]]|].
        exists r. split; [auto|constructor].
    - destruct ((v =? 1) && ck) eqn:Eck.
      + destruct (copy_chunks false false 0 _) as [c s1] eqn:Ec. destruct c; try discriminate.
        destruct (copy_chunks_sound false 0 (mkC (map RByte r) plan w1 out1 cnt) r s1 eq_refl Ec) as (o & pay & sizes & rest & D & Hb & Ho & _ & Hm & _).
        apply flushed_cases in B. destruct B as (B1 & B2 & [B3|B3]); [|discriminate]. injection B3 as -> ->.
        exists o. rewrite B1, Ho. cbn [emit c_out]. split; [auto|]. split; [auto|]. intros k K U. destruct (KD k K U) as [_ C].
        apply andb_true_iff in Eck. destruct Eck as [Ev Eck].
        destruct k; try congruence; try (destruct C as (_ & C & _); congruence).
        split; [apply Cl; discriminate|]. split; [split; [auto|intros [?|?]; [auto|discriminate]]|].
        exists rest. split; [congruence|]. apply dl_chunks with pay sizes; auto.
      + destruct (0 <=? cl) eqn:Ecl.
        * apply Z.leb_le in Ecl. destruct (copy_bin_sound false cl (mkC (map RByte r) plan w1 out1 cnt) r Ecl eq_refl) as (res & s1 & data & rest & Ec & Hd & Hs & Hl & Hok & _).
          rewrite Ec in B. destruct res; try discriminate. destruct (Hok eq_refl) as (Hn & Ho & _).
          apply flushed_cases in B. destruct B as (B1 & B2 & [B3|B3]); [|discriminate]. injection B3 as -> ->.
          exists data. rewrite B1, Ho. cbn [emit c_out]. split; [auto|]. split; [auto|]. intros k K U. destruct (KD k K U) as [_ C].
          destruct k as [|n| |]; try congruence.
          -- destruct C as (_ & _ & C & _). split; [apply Cl; discriminate|]. split; [split; [auto|intros [?|?]; [auto|discriminate]]|].
             exists rest. split; [congruence|]. rewrite <- C, <- Hn, Hd. constructor.
          -- destruct C as (_ & C). destruct U as (_ & _ & _ & _ & _ & ->). subst ck. discriminate.
          -- destruct C as (_ & _ & C). rewrite C in Ecl. unfold NO_CONTENT_LENGTH in Ecl. lia.
        * cbn [negb] in B. destruct (e_ready env) eqn:Er.
          -- cbn [c_src] in B. destruct (copy_to_eof_ok r (mkC (map RByte r) plan w1 out1 cnt) W1) as (w2 & W2 & E).
             rewrite E in B. apply flushed_cases in B. destruct B as (B1 & B2 & [B3|B3]); [|discriminate]. injection B3 as -> ->.
             exists r. rewrite B1. cbn [c_out]. split; [auto|]. split; [discriminate|]. intros k K U. destruct (KD k K U) as [_ C].
             destruct k as [|n| |]; try congruence.
             ++ destruct C as (_ & _ & -> & C). apply Z.leb_gt in Ecl. lia.
             ++ destruct C as (_ & C). destruct U as (_ & _ & _ & _ & _ & ->). subst ck. discriminate.
             ++ split; [tauto|]. split; [cbn; tauto|]. exists []. split; [rewrite B2; reflexivity|constructor].
          -- apply flushed_cases in B. destruct B as (B1 & B2 & [B3|B3]); [|discriminate]. injection B3 as -> ->.
             exists []. rewrite B1. cbn [c_out]. rewrite app_nil_r. split; [auto|]. split; [auto|]. intros k K U. destruct (KD k K U) as [_ C].
             destruct k as [|n| |]; try congruence.
             ++ destruct C as (_ & _ & -> & C). apply Z.leb_gt in Ecl. lia.
             ++ destruct C as (_ & C). destruct U as (_ & _ & _ & _ & _ & ->). subst ck. discriminate.
             ++ destruct U as (_ & _ & _ & _ & _ & U). discriminate. }
  destruct M as (body & M1 & M2 & M3). exists line, r, hs, hs', v, body.
  pose proof (closed_iff _ _ _ _ _ _ G' Sc) as CI. cbn [start_exchange x_closed] in CI.
  do 5 (split; [auto|]). split; [|split].
  - rewrite M1, <- app_assoc. reflexivity.
  - intros Hx. apply M2 in Hx. split; [destruct closed; [|auto]|intros C].
    + rewrite (proj2 CI) in Hx by auto. discriminate.
    + rewrite (proj2 CI) in Hx by auto. discriminate.
  - intros k K U. destruct (M3 k K U) as (N1 & N2 & N3). split; [auto|]. split; [|auto]. rewrite N2, CI. tauto.
Qed.

Lemma malformed_response : forall env x st,
  (forall line hs rest, http_request_read (e_comb env) (c_src st) = RR_ok line hs rest -> (forall v code, ~ status_line line v code) ->
    exists st', backend_response env x st = (RespErr ST_503, st') /\ c_out st' = c_out st /\ c_src st' = rest) /\
  (forall e, http_request_read (e_comb env) (c_src st) = RR_err e -> backend_response env x st = (RespErr e, st)) /\
  (forall line hs rest v code, http_request_read (e_comb env) (c_src st) = RR_ok line hs rest -> status_line line v code -> e_rules env hs = None ->
    exists st', backend_response env x st = (RespErr ST_500, st') /\ c_out st' = c_out st).
Proof.
  intros env x st. unfold backend_response. cbn [response_loop]. split; [|split].
  - intros line hs rest R N. rewrite R. cbv zeta. destruct (response_validate line) as [[v code]|] eqn:V.
    + apply validate_iff in V. destruct (N _ _ V).
    + eexists. split; [reflexivity|]. split; reflexivity.
  - intros e R. rewrite R. reflexivity.
  - intros line hs rest v code R V U. rewrite R. cbv zeta. apply validate_iff in V. rewrite V, U. eexists. split; reflexivity.
Qed.
