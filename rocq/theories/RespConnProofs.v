From Coq Require Import Ascii String List ZArith Bool Lia.
From Verif Require Import Bytes ClenModel ClenSpec ClenProofs StreamModel StreamSpec StreamProofs TokModel
  TokSpec TokProofs ReqModel ReqSpec ReqProofs HdrProofs HeadProofs FrameModel FrameSpec FrameProofs
  RespModel RespSpec RespProofs.
Import ListNotations.
Open Scope Z_scope.

(** ** Termination *)

Lemma head_lines_shorter : forall lim s ls r, head_lines lim s ls r -> (length r < length s)%nat.
Proof.
  induction 1 as [e rest He| |l e s ls rest Ht Hne He Hlen H IH].
  - rewrite app_length. destruct He as [->| ->]; simpl; lia.
  - simpl. lia.
  - rewrite !app_length. lia.
Qed.
Lemma message_head_shorter : forall lim s l ls r, message_head lim s l ls r -> (length r < length s)%nat.
Proof.
  induction 1 as [e s l ls rest He H IH|l e s ls rest Ht Hne He Hlen H].
  - rewrite app_length. lia.
  - apply head_lines_shorter in H. rewrite !app_length. lia.
Qed.
Lemma trailer_shorter : forall lim t o r, trailer lim t o r -> (length r <= length t)%nat.
Proof. induction 1; rewrite ?app_length; simpl; lia. Qed.
Lemma chunked_shorter : forall lim j s o p z r, chunked lim j s o p z r -> (length r <= length s)%nat.
Proof. induction 1 as [? ? ? ? ? ? ? ? ? T|]; [apply trailer_shorter in T|]; rewrite ?app_length; lia. Qed.

Lemma copy_to_eof_src : forall bs st ok st', copy_to_eof (map RByte bs) st = (ok, st') -> exists n, c_src st' = map RByte (skipn n bs).
Proof.
  induction bs as [|c bs IH]; intros st ok st' H.
  - cbn in H. injection H as <- <-. exists O. reflexivity.
  - cbn [map copy_to_eof] in H. destruct (bio_write [c] st) as [o s1]. destruct o.
    + apply IH in H. destruct H as [n ->]. exists (S n). reflexivity.
    + injection H as <- <-. exists 1%nat. reflexivity.
Qed.

Lemma body_src : forall env b sk ck cl x st r br st', c_src st = map RByte r ->
  response_body env b sk ck cl x st = (br, st') -> br <> BodyFuel /\
  (forall c x', br = BodyOk c x' -> exists rest, c_src st' = map RByte rest /\ (length rest <= length r)%nat).
Proof.
  intros env b sk ck cl x st r br st' Hs H. unfold response_body in H.
  assert (FL: forall b1 x1 s1 n, c_src s1 = map RByte n -> (length n <= length r)%nat -> flushed b1 x1 s1 = (br, st') ->
     br <> BodyFuel /\ (forall c x', br = BodyOk c x' -> exists rest, c_src st' = map RByte rest /\ (length rest <= length r)%nat)).
  { intros b1 x1 s1 n E Hl F. apply flushed_cases in F. destruct F as (_ & F2 & [-> | ->]); (split; [discriminate|]).
    - intros _ _ _. exists n. split; [congruence|auto].
    - discriminate. }
  destruct (negb (x_nocont x)).
  - destruct (b && ck).
    + destruct (copy_chunks false sk 0 st) as [c s1] eqn:Ec.
      pose proof (copy_chunks_fuel false sk 0 st r Hs) as Fu. rewrite Ec in Fu. cbn [fst] in Fu.
      destruct c; try (injection H as <- <-; split; [congruence|discriminate]).
      destruct (copy_chunks_sound sk 0 st r s1 Hs Ec) as (o & pay & sizes & rest & D & Hb & _).
      apply FL with (n := rest) in H; auto. apply chunked_shorter in D. lia.
    + destruct (0 <=? cl) eqn:E0.
      * apply Z.leb_le in E0. destruct (copy_bin_sound sk cl st r E0 Hs) as (res & s1 & data & rest & Ec & Hd & Hb & _).
        rewrite Ec in H. destruct res; try (injection H as <- <-; split; discriminate).
        apply FL with (n := rest) in H; auto. rewrite Hd, app_length. lia.
      * destruct (negb sk); [destruct (e_ready env)|].
        -- rewrite Hs in H. destruct (copy_to_eof (map RByte r) st) as [ok s1] eqn:Ec. apply copy_to_eof_src in Ec. destruct Ec as [n Ec].
           destruct ok; [|injection H as <- <-; split; discriminate]. apply FL with (n := skipn n r) in H; auto. rewrite skipn_length. lia.
        -- apply FL with (n := r) in H; auto.
        -- apply FL with (n := r) in H; auto.
  - destruct (ws_complete x).
    + destruct (e_tunnel env); injection H as <- <-; (split; [discriminate|]); [eauto|discriminate].
    + injection H as <- <-. split; [discriminate|]. eauto.
Qed.

Lemma loop_fuel : forall fuel env sk x st bs, c_src st = map RByte bs -> (length bs < fuel)%nat ->
  fst (response_loop fuel env sk x st) <> RespFuel.
Proof.
  induction fuel as [|fuel IH]; intros env sk x st bs Hs Hf; [lia|]. cbn [response_loop]. rewrite Hs.
  destruct (http_request_read _ _) as [line hs rest|e] eqn:R; [|discriminate].
  destruct (read_request_sound _ _ _ _ _ R) as (ls & fs & gs & r & Hm & _ & _ & _ & _ & ->). apply message_head_shorter in Hm.
  destruct (response_validate line) as [[v code]|]; [|discriminate].
  destruct (e_rules env hs) as [hs'|]; [|discriminate].
  destruct (scan_response _ hs') as [[[x' ck] cl]|]; [|discriminate].
  assert (SL: forall ls s, c_src (snd (send_lines ls s)) = c_src s).
  { induction ls0 as [|l0 ls0 IHl]; intros s; [reflexivity|]. cbn [send_lines].
    destruct (bio_write _ s) as [ok s1] eqn:E. apply bio_write_src in E. destruct E as (E & _).
    destruct ok; cbn [snd]; [rewrite IHl|]; exact E. }
  assert (S1: forall (a : bool) (b : bool * cstate), c_src (snd (if a then (true, set_src st (map RByte r)) else b)) =
     if a then map RByte r else c_src (snd b)) by (intros []; reflexivity).
  match goal with |- context [let '(ok, st) := ?p in _] => assert (Sp: c_src (snd p) = map RByte r); [|destruct p as [ok st1]] end.
  { destruct (sk || (code =? 100)); [reflexivity|].
    match goal with |- context [send_lines ?a ?b] => pose proof (SL a b) as Q; destruct (send_lines a b) as [ok s1] end.
    cbn [snd] in Q. destruct ok; cbn [snd]; [|exact Q].
    destruct (bio_write CRLF s1) as [ok2 s2] eqn:E. apply bio_write_src in E. destruct E as (E & _). cbn [snd]. rewrite E. exact Q. }
  cbn [snd] in Sp. destruct ok; cbn [negb]; [|discriminate].
  destruct (bio_write [] st1) as [ok2 st2] eqn:E. apply bio_write_src in E. destruct E as (E & _).
  destruct ok2; cbn [negb]; [|discriminate].
  destruct (response_body _ _ _ _ _ _ _) as [br st3] eqn:B.
  rewrite Sp in E. destruct (body_src _ _ _ _ _ _ _ r _ _ E B) as [B1 B2].
  destruct br; try discriminate; [congruence|].
  destruct (B2 _ _ eq_refl) as (rest & Hr & Hl).
  destruct (sk || (code =? 100)); [|discriminate].
  apply IH with rest; auto. lia.
Qed.

Lemma response_terminates : forall env x st bs, c_src st = map RByte bs -> fst (backend_response env x st) <> RespFuel.
Proof. intros env x st bs H. unfold backend_response. apply loop_fuel with bs; auto. rewrite H, map_length. lia. Qed.

(** A first response 100 is the end of it. *)
Lemma response_100 : forall env x st line hs rest v,
  http_request_read (e_comb env) (c_src st) = RR_ok line hs rest -> status_line line v 100 ->
  forall r st', backend_response env x st = (r, st') -> c_out st' = c_out st /\ (forall c x' code, r <> RespOk c x' code).
Proof.
  intros env x st line hs rest v R L r st' H. apply validate_iff in L.
  unfold backend_response in H. cbn [response_loop] in H. rewrite R, L in H.
  destruct (e_rules env hs) as [hs'|]; [|injection H as <- <-; split; [auto|discriminate]].
  destruct (scan_response _ hs') as [[[x' ck] cl]|]; [|injection H as <- <-; split; [auto|discriminate]].
  cbn [Z.eqb Pos.eqb orb negb] in H.
  destruct (bio_write [] (set_src st rest)) as [ok st1] eqn:E. apply bio_write_src in E.
  destruct E as (E1 & E2 & E3 & E4 & E5).
  assert (Eo: c_out st1 = c_out st) by (destruct ok; [rewrite E4, app_nil_r by auto|rewrite E5 by auto]; reflexivity).
  destruct ok; cbn [negb] in H; [|injection H as <- <-; split; [auto|discriminate]].
  destruct (response_body _ _ _ _ _ _ _) as [br st2] eqn:B. apply body_nw in B. rewrite Eo in B.
  destruct br; try (injection H as <- <-; split; [auto|discriminate]).
  apply loop_skip in H. destruct H as [H1 H2]. split; [congruence|auto].
Qed.

(** An invalid length. *)
Lemma response_invalid : forall env x st line hs hs' rest v code,
  http_request_read (e_comb env) (c_src st) = RR_ok line hs rest -> status_line line v code ->
  e_rules env hs = Some hs' -> Forall good hs' -> ~ lengths_valid (hfields hs') ->
  fst (backend_response env x st) = RespUB.
Proof.
  intros env x st line hs hs' rest v code R L Ru G V. apply validate_iff in L.
  unfold backend_response. cbn [response_loop]. rewrite R, L, Ru.
  pose proof (scan_response_spec hs' (note_code code x) false NO_CONTENT_LENGTH G) as S.
  destruct (scan_response _ hs') as [[[x' ck] cl]|]; [|reflexivity]. tauto.
Qed.

(** A body cut short. *)
Lemma response_cut : forall env to_head closed ws bs line r hs hs' v code n plan w out cnt,
  all_ok w -> http_request_read (e_comb env) (map RByte bs) = RR_ok line hs (map RByte r) ->
  status_line line v code -> e_rules env hs = Some hs' -> Forall good hs' ->
  response_kind to_head code (hfields hs') (Fixed n) -> usual to_head v code (hfields hs') (e_ready env) (Fixed n) ->
  Z.of_nat (length r) < n ->
  exists st' m, backend_response env (start_exchange to_head closed ws) (mkC (map RByte bs) plan w out cnt) = (RespAbort, st') /\
    c_out st' = out ++ head_text line (texts env hs') ++ firstn m r.
Proof.
  intros env to_head closed ws bs line r hs hs' v code n plan w out cnt Hw R L Ru G K U Hn.
  pose proof U as (U1 & U2 & U3 & U4 & U5 & _).
  destruct (lengths_scan (note_code code (start_exchange to_head closed ws), false, NO_CONTENT_LENGTH) hs' G U1) as ([[x' ck] cl] & Sc).
  assert (V: response_validate line = Some (v, code)) by (apply validate_iff; auto).
  destruct (one_round env (start_exchange to_head closed ws) (mkC (map RByte bs) plan w out cnt) line hs (map RByte r) v code hs' x' ck cl Hw R V U2 Ru Sc) as (w1 & W1 & ->).
  destruct (kind_decides to_head (start_exchange to_head closed ws) code hs' x' ck cl v line (e_ready env) _ L G eq_refl eq_refl Sc K U) as [Ws (K1 & K2 & K3 & K4)].
  cbn [c_plan c_out c_cnt]. unfold response_body. rewrite K1, K2, K3, andb_false_r. cbn [negb]. rewrite (proj2 (Z.leb_le _ _) K4).
  set (st0 := mkC (map RByte r) plan w1 (out ++ head_text line (texts env hs')) cnt).
  destruct (copy_bin_sound false n st0 r K4 eq_refl) as (res & s1 & data & rest & Ec & Hd & Hb & Hl & Hok & (m & Hm) & _).
  rewrite Ec. assert (Hres: res <> COPY_OK).
  { intros E. destruct (Hok E) as (C & _). subst r. rewrite app_length in Hn. lia. }
  exists s1, (Nat.min m (length data)). split; [destruct res; [congruence|reflexivity..]|].
  rewrite Hm. cbn [emit st0 c_out]. rewrite <- app_assoc. do 2 f_equal. subst r.
  rewrite firstn_app. replace (Nat.min m (length data) - length data)%nat with O by lia. rewrite firstn_O, app_nil_r.
  destruct (Nat.le_ge_cases m (length data)).
  - rewrite Nat.min_l by auto. reflexivity.
  - rewrite Nat.min_r by auto. rewrite !firstn_all2 by auto. reflexivity.
Qed.

(** ** Requests *)

Lemma scan_closed : forall hs sc sc', Forall good hs -> scan_headers sc hs = inr sc' ->
  sc_closed sc' = sc_closed sc || existsb (finds (lit "close")) (conn_vals hs).
Proof.
  induction hs as [|h hs IH]; intros sc sc' G H.
  - injection H as <-. cbn. rewrite orb_false_r. reflexivity.
  - inversion G as [|? ? G1 G2]; subst. cbn [scan_headers] in H. rewrite conn_vals_cons, (conn_bool h G1).
    unfold scan_header in H.
    destruct (h_code h) eqn:Ec; try (apply IH in H; auto).
    + destruct (sc_te sc); try discriminate;
        (destruct (cs_locate_token (h_val h) (lit "chunked") true) as [[p [|? ?]]|]; try discriminate; apply IH in H; auto).
    + destruct (_ || _); [discriminate|]. destruct (_ =? _); [discriminate|]. apply IH in H; auto.
    + rewrite H. cbn [existsb keep sc_closed]. unfold finds at 2. destruct (cs_locate_token (h_val h) (lit "close") true).
      * cbn [sc_closed orb]. rewrite orb_true_r. reflexivity.
      * destruct (conn_upgrd (h_val h)); reflexivity.
    + destruct (ci_eqb _ _); apply IH in H; auto.
    + rewrite H. cbn [keep sc_closed]. destruct (cs_locate_token _ _ _); reflexivity.
Qed.

Lemma request_closed : forall hs sc, Forall good hs -> check_framing hs = inr sc ->
  sc_closed sc = true <-> has_element "Connection" "close" (hfields hs).
Proof.
  intros hs sc G H. unfold check_framing in H. destruct (scan_headers scan0 hs) as [|sc1] eqn:E; [discriminate|].
  assert (sc1 = sc) as <-.
  { destruct (sc_te sc1); [congruence| |discriminate]. destruct (_ =? _); congruence. }
  rewrite (scan_closed _ _ _ G E). cbn [scan0 sc_closed orb]. unfold conn_vals. apply existsb_element. discriminate.
Qed.

Lemma relay_decided : forall rl sc, rl_version rl = 1 -> body_relay rl sc = relay_of (decided sc) \/
  (sc_te sc <> TE_CHUNKED /\ sc_cl sc < 0).
Proof.
  intros rl sc Hv. unfold body_relay, decided. rewrite Hv. cbn [Z.eqb Pos.eqb andb].
  destruct (sc_te sc); auto; (destruct (sc_cl sc =? NO_CONTENT_LENGTH) eqn:E; [|left; cbn; destruct (0 <? sc_cl sc); reflexivity]);
    apply Z.eqb_eq in E; rewrite E; left; reflexivity.
Qed.

Lemma relay_is : forall rl sc, rl_version rl = 1 -> body_relay rl sc = relay_of (decided sc).
Proof.
  intros rl sc Hv. unfold body_relay, decided. rewrite Hv. cbn [Z.eqb Pos.eqb andb].
  destruct (sc_te sc); auto; (destruct (sc_cl sc =? NO_CONTENT_LENGTH) eqn:E; [|cbn; destruct (0 <? sc_cl sc); reflexivity]);
    apply Z.eqb_eq in E; rewrite E; reflexivity.
Qed.

(** The request and its body reach the backend. *)
Lemma send_ok : forall q f r sent rest, q_head_err q = None -> all_ok (q_wr q) -> request_body f r sent rest ->
  exists c1, send_request q 0 (relay_of f) (mkC (map RByte r) (q_plan q) (q_wr q) [] 0) = Some (ST_OK, c1) /\
    c_src c1 = map RByte rest /\ c_out c1 = concat (map (fun t => t ++ CRLF) (q_head q)) ++ CRLF ++ sent.
Proof.
  intros q f r sent rest He Hw B. unfold send_request. rewrite He.
  destruct (send_lines_ok (q_head q) (mkC (map RByte r) (q_plan q) (q_wr q) [] 0) Hw) as (w1 & W1 & ->). cbn [negb].
  match goal with |- context [bio_write CRLF ?s] => destruct (bio_write_ok CRLF s W1) as (w2 & W2 & ->) end.
  cbn [snd c_src c_plan c_out c_cnt app].
  assert (FL: forall s, all_ok (c_wr s) -> exists c1, (let '(ok, st) := bio_write [] s in Some (if ok then ST_OK else ST_500, st)) = Some (ST_OK, c1) /\ c_src c1 = c_src s /\ c_out c1 = c_out s).
  { intros s Hs. destruct (bio_write_ok [] s Hs) as (w3 & W3 & ->). eexists. split; [reflexivity|]. cbn. rewrite app_nil_r. auto. }
  destruct B as [r|d r|s o pay sizes r B1 B2].
  - cbn [relay_of]. match goal with |- context [bio_write [] ?s] => destruct (FL s W2) as (c1 & -> & E1 & E2) end.
    exists c1. rewrite E1, E2. cbn [c_src c_out]. rewrite ?app_nil_r. auto.
  - cbn [relay_of]. destruct (0 <? Z.of_nat (length d)) eqn:E.
    + rewrite map_app.
      match goal with |- context [copy_bin _ _ (mkC _ ?p _ ?o ?c)] => destruct (copy_bin_ok false d (map RByte r) p w2 o c W2) as (p' & w' & Hw' & ->) end.
      match goal with |- context [bio_write [] ?s] => destruct (FL s Hw') as (c1 & -> & E1 & E2) end.
      exists c1. rewrite E1, E2. cbn [c_src c_out emit]. rewrite <- app_assoc. auto.
    + destruct d as [|c d]; [|cbn [length] in E; apply Z.ltb_ge in E; lia]. cbn [app].
      match goal with |- context [bio_write [] ?s] => destruct (FL s W2) as (c1 & -> & E1 & E2) end.
      exists c1. rewrite E1, E2. cbn [c_src c_out]. rewrite ?app_nil_r. auto.
  - cbn [relay_of].
    match goal with |- context [copy_chunks _ _ _ (mkC _ ?p _ ?oo ?c)] => destruct (copy_chunks_complete false false 0 s o pay sizes r p w2 oo c B1 W2 B2 ltac:(lia)) as (p' & w' & Hw' & ->) end.
    match goal with |- context [bio_write [] ?s] => destruct (FL s Hw') as (c1 & -> & E1 & E2) end.
    exists c1. rewrite E1, E2. cbn [c_src c_out emit]. rewrite <- app_assoc. auto.
Qed.

Lemma concat_add_sent : forall l b, l <> [] -> concat (add_sent l b) = concat l ++ b /\ add_sent l b <> [].
Proof.
  induction l as [|a l IH]; intros b H; [congruence|]. destruct l as [|a' l].
  - cbn. rewrite !app_nil_r. split; [auto|discriminate].
  - change (add_sent (a :: a' :: l) b) with (a :: add_sent (a' :: l) b).
    destruct (IH b ltac:(discriminate)) as [E _]. cbn [concat]. rewrite E. cbn [concat]. rewrite !app_assoc. split; [auto|discriminate].
Qed.

Lemma exchange_ok : forall comb l verb page q i th sent i1 rb resp rb1 v k fs be out wr snt,
  no_limits l verb -> all_ok wr -> (be <> None -> snt <> []) ->
  asked comb verb i th sent i1 ->
  q_force q = false -> q_head_err q = None -> all_ok (q_wr q) ->
  (q_target q = T_new (map RByte rb) \/ q_target q = T_same /\ q_idle q = false /\ be = Some rb) ->
  answered (q_resp q) th rb resp rb1 v k fs -> k <> UntilClose -> ~ has_value "Connection" "close" fs ->
  exists wr' snt', all_ok wr' /\ snt' <> [] /\
    serve_one comb l page q (mkConn (map RByte i) (option_map (map RByte) be) out wr snt) =
      (GoesOn, mkConn (map RByte i1) (option_map (map RByte) (if v =? 1 then Some rb1 else None)) (out ++ resp) wr' snt') /\
    concat snt' = concat snt ++ concat (map (fun t => t ++ CRLF) (q_head q)) ++ CRLF ++ sent.
Proof.
  intros comb l verb page q i th sent i1 rb resp rb1 v k fs be out wr snt (N1 & N2 & N3 & N4) Hw Hsn
    (line & hs & r & m & name & g & url & f & A1 & A2 & A3 & A4 & A5 & A6 & A7 & A8) Qf Qh Qw Qt
    (rline & rhs & rr & code & hs' & body & B1 & B2 & B3 & B4 & B5 & B6 & B7 & B8 & B9) Hk Hc.
  destruct (read_request_sound _ _ _ _ _ A1) as (ls & ffs & gs & r2 & _ & _ & _ & _ & G & _).
  assert (Hv: v = 0 \/ v = 1).
  { destruct B2 as (dv & bl & a & b & c & tl & y1 & y2 & y3 & _ & [[_ ->]|[_ ->]] & _); auto. }
  unfold serve_one. cbn [k_in k_be k_out k_wr k_sent]. rewrite A1.
  destruct (check_framing_complete hs f G A7) as (sc & Sf & Sd).
  assert (P: parse_http_request line (l_verb l) = (ST_OK, Some (mkRL name url 1))) by (apply parse_ok_iff; rewrite N1; eauto).
  assert (C: check_request l line hs = inr (mkRL name url 1, sc)).
  { unfold check_request. rewrite P, N2, Sf, N3, N4. reflexivity. }
  rewrite C. clear P C.
  assert (Sc: sc_closed sc = false).
  { apply not_true_iff_false. intros E. apply A6. apply (request_closed _ _ G Sf). exact E. }
  rewrite Sc, Qf, (relay_is (mkRL name url 1) sc eq_refl), Sd, N4. cbn [orb rl_version Z.eqb Pos.eqb].
  assert (Th: is_method (mkRL name url 1) "HEAD" = th).
  { unfold is_method. cbn [rl_method]. destruct th.
    - rewrite (proj1 A5 eq_refl). reflexivity.
    - apply not_true_iff_false. intros E. apply bytes_eqb_eq in E. apply A5 in E. discriminate. }
  rewrite Th. set (ws := _ && _ && _). clearbody ws.
  destruct (send_ok q f r sent i1 Qh Qw A8) as (c1 & Es & E1 & E2).
  destruct (relayed (q_resp q) th false ws rb rline rr rhs hs' v code k body rb1 (q_rplan q) wr out 0 Hw B1 B2 B3 B4)
    as (close & x' & st' & R1 & R2 & R3 & R4 & R5 & R6); [rewrite B5; auto|rewrite B5; auto|auto|].
  assert (Cl: x_closed x' = false).
  { apply not_true_iff_false. rewrite R6, B5. intros [?|[?|?]]; [discriminate|contradiction|contradiction]. }
  assert (Hcl: (if close then None else Some (c_src st')) = option_map (map RByte) (if v =? 1 then Some rb1 else None)).
  { rewrite R3. destruct close.
    - destruct (proj1 R5 eq_refl) as [->|]; [reflexivity|contradiction].
    - destruct Hv as [->| ->]; [|reflexivity]. assert (false = true) by (apply R5; auto). discriminate. }
  assert (Ho: c_out st' = out ++ resp) by (rewrite R2, B9; reflexivity).
  destruct Qt as [Qt|(Qt & Qi & ->)]; rewrite Qt.
  - cbn [k_in k_be k_out k_wr k_sent]. rewrite Es, R1, E1, Cl. cbn [k_in k_be k_out k_wr k_sent]. rewrite Hcl, Ho.
    assert (Nn: snt ++ [[]] <> []) by (destruct snt; discriminate).
    destruct (concat_add_sent (snt ++ [[]]) (c_out c1) Nn) as [Y1 Y2].
    exists (c_wr st'), (add_sent (snt ++ [[]]) (c_out c1)). split; [auto|]. split; [auto|]. split; [reflexivity|].
    rewrite Y1, concat_app, E2. cbn [concat]. rewrite !app_nil_r. reflexivity.
  - rewrite Qi. cbn [option_map k_in k_be k_out k_wr k_sent]. rewrite Es, R1, E1, Cl. cbn [k_in k_be k_out k_wr k_sent]. rewrite Hcl, Ho.
    destruct (concat_add_sent snt (c_out c1) (Hsn ltac:(discriminate))) as [Y1 Y2].
    exists (c_wr st'), (add_sent snt (c_out c1)). split; [auto|]. split; [auto|]. split; [reflexivity|].
    rewrite Y1, E2. reflexivity.
Qed.

Lemma dialogue_ok : forall comb verb qs i be resps reqs i2 be2, dialogue comb verb qs i be resps reqs i2 be2 ->
  forall l page out wr snt, no_limits l verb -> all_ok wr -> (be <> None -> snt <> []) ->
  exists wr' snt', serve comb l page qs (mkConn (map RByte i) (option_map (map RByte) be) out wr snt) =
    (GoesOn, mkConn (map RByte i2) (option_map (map RByte) be2) (out ++ concat resps) wr' snt') /\
    concat snt' = concat snt ++ concat reqs.
Proof.
  induction 1 as [i be|q qs i be th sent i1 rb resp rb1 v k fs resps reqs i2 be2 A Qf Qh Qw Qt B Hk Hc D IH];
    intros l page out wr snt N Hw Hs.
  - exists wr, snt. cbn. rewrite !app_nil_r. auto.
  - destruct (exchange_ok comb l verb page q i th sent i1 rb resp rb1 v k fs be out wr snt N Hw Hs A Qf Qh Qw Qt B Hk Hc)
      as (wr1 & snt1 & W1 & S1 & E & C).
    cbn [serve]. rewrite E. destruct (IH l page (out ++ resp) wr1 snt1 N W1 ltac:(auto)) as (wr2 & snt2 & -> & C2).
    exists wr2, snt2. cbn [concat]. rewrite <- app_assoc. split; [auto|]. rewrite C2, C, <- !app_assoc. reflexivity.
Qed.

(** ** When the connection goes on *)

Lemma check_request_parts : forall l line hs rl sc, Forall good hs -> check_request l line hs = inr (rl, sc) ->
  check_framing hs = inr sc /\ exists m, request_line line m (rl_url rl) (rl_version rl).
Proof.
  intros l line hs rl sc G H. split; [eapply check_request_framing; eauto|]. unfold check_request in H.
  destruct (parse_http_request line (l_verb l)) as [[] [rl'|]] eqn:P; try discriminate.
  assert (rl' = rl) as ->.
  { destruct (match l_url_ok l with Some p => _ | None => _ end); [discriminate|].
    destruct (check_framing hs); [discriminate|]. destruct (_ && _); [discriminate|]. destruct (_ && _ && _); [discriminate|]. congruence. }
  destruct rl as [name url v]. apply parse_ok_iff in P. destruct P as (m & g & P & _). eauto.
Qed.

Lemma scan_keeps_closed : forall hs x ck c, x_closed x = true ->
  match scan_response (x, ck, c) hs with Some (x1, _, _) => x_closed x1 = true | None => True end.
Proof.
  induction hs as [|h0 hs0 IHh]; intros x ck c Hxc; cbn [scan_response]; [auto|].
  unfold scan_response_header. destruct (h_code h0); try (apply IHh; auto; fail).
  - destruct (cs_locate_token _ _ _); apply IHh; auto.
  - cbv zeta. destruct (_ =? _); [auto|apply IHh; auto].
  - apply IHh. destruct (ci_eqb _ _); [auto|]. destruct (conn_upgrd _); auto.
  - apply IHh. destruct (cs_locate_token _ _ _); auto.
Qed.

Lemma closed_stays : forall env th cl ws st close x' code st',
  backend_response env (start_exchange th cl ws) st = (RespOk close x' code, st') -> x_closed x' = false -> cl = false.
Proof.
  intros env th cl ws st close x' code st' B Hx. destruct cl; [|auto]. exfalso.
      unfold backend_response in B. cbn [response_loop] in B.
      destruct (http_request_read _ _) as [line0 hs0 rest0|]; [|discriminate].
      destruct (response_validate line0) as [[v code']|]; [|discriminate].
      destruct (e_rules env hs0) as [hs1|]; [|discriminate].
      pose proof (scan_keeps_closed hs1 (note_code code' (start_exchange th true ws)) false NO_CONTENT_LENGTH eq_refl) as SMx.
      destruct (scan_response _ hs1) as [[[x1 ck] c]|]; [|discriminate].
      cbn [orb] in B. destruct (code' =? 100) eqn:E100.
      - cbn [negb] in B. destruct (bio_write [] _) as [ok s1]. destruct ok; cbn [negb] in B; [|discriminate].
        destruct (response_body _ _ _ _ _ _ _) as [br s2]. destruct br; try discriminate.
        apply loop_skip in B. destruct B as [_ B]. eapply B. reflexivity.
      - destruct (send_lines _ _) as [ok s1]. destruct ok; cbn [negb] in B; [|discriminate].
        destruct (bio_write [] _) as [ok s2]. destruct ok; cbn [negb] in B; [|discriminate].
        destruct (response_body _ _ _ _ _ _ _) as [br s3] eqn:Eb. destruct br; try discriminate. injection B as -> -> _ _.
        unfold response_body in Eb.
        assert (FL: forall b2 x2 s4, flushed b2 x2 s4 = (BodyOk close x', s3) -> x2 = x').
        { intros b2 x2 s4 F. apply flushed_cases in F. destruct F as (_ & _ & [F|F]); [|discriminate]. injection F as _ <-. auto. }
        destruct (negb (x_nocont x1)).
        + destruct (_ && ck).
          * destruct (copy_chunks _ _ _ _) as [cr s4]. destruct cr; try discriminate. apply FL in Eb. subst. congruence.
          * destruct (0 <=? c).
            -- destruct (copy_bin _ _ _) as [[cr s4]|]; [|discriminate]. destruct cr; try discriminate. apply FL in Eb. subst. congruence.
            -- cbn [negb] in Eb. destruct (e_ready env); [|apply FL in Eb; subst; congruence].
               destruct (copy_to_eof _ _) as [ok s4]. destruct ok; [|discriminate]. apply FL in Eb. subst x'. discriminate.
        + destruct (ws_complete x1); [destruct (e_tunnel env); [|discriminate]|]; injection Eb as _ <- _; [discriminate|congruence].
Qed.

Lemma goes_on : forall comb l page q bs be out wr snt k',
  serve_one comb l page q (mkConn (map RByte bs) be out wr snt) = (GoesOn, k') ->
  exists line ls r hs rl sc, message_head 4096 bs line ls r /\
    http_request_read comb (map RByte bs) = RR_ok line hs (map RByte r) /\ Forall good hs /\
    check_request l line hs = inr (rl, sc) /\ rl_version rl = 1 /\
    (exists m url, request_line line m url 1) /\
    ~ has_element "Connection" "close" (hfields hs) /\ q_force q = false /\
    ((exists reply, q_target q = T_local reply ST_OK /\ k' = mkConn (map RByte r) None (out ++ reply) wr snt) \/
     (exists src c1 close x' code c2, (q_target q = T_new src \/ q_target q = T_same /\ q_idle q = false /\ be = Some src) /\
        send_request q (l_max_req l) (body_relay rl sc) (mkC (map RByte r) (q_plan q) (q_wr q) [] 0) = Some (ST_OK, c1) /\
        backend_response (q_resp q) (start_exchange (is_method rl "HEAD") false (is_method rl "GET" && sc_ws_conn sc && sc_ws_upg sc))
          (mkC src (q_rplan q) wr out 0) = (RespOk close x' code, c2) /\ x_closed x' = false /\
        k_in k' = c_src c1 /\ k_out k' = c_out c2 /\ k_be k' = (if close then None else Some (c_src c2)))).
Proof.
  intros comb l page q bs be out wr snt k' H. unfold serve_one in H. cbn [k_in k_be k_out k_wr k_sent] in H.
  destruct (http_request_read comb (map RByte bs)) as [line hs rest|e] eqn:R; [|discriminate].
  destruct (read_request_sound _ _ _ _ _ R) as (ls & fs & gs & r & Hm & _ & _ & _ & G & ->).
  destruct (check_request l line hs) as [st|[rl sc]] eqn:C; [discriminate|].
  destruct (check_request_parts _ _ _ _ _ G C) as (Cf & m & Cm).
  assert (Fin: forall (c : bool) (kk kk' : conn), (if (rl_version rl =? 1) && negb c then GoesOn else Stopped, kk) = (GoesOn, kk') ->
     rl_version rl = 1 /\ c = false /\ kk = kk').
  { intros c kk kk' F. destruct (rl_version rl =? 1) eqn:E, c; cbn in F; try discriminate. injection F as <-. apply Z.eqb_eq in E. auto. }
  exists line, ls, r, hs, rl, sc. split; [auto|]. split; [auto|]. split; [auto|]. split; [auto|].
  assert (Main: rl_version rl = 1 /\ sc_closed sc || q_force q = false /\
    ((exists reply, q_target q = T_local reply ST_OK /\ k' = mkConn (map RByte r) None (out ++ reply) wr snt) \/
     (exists src c1 close x' code c2, (q_target q = T_new src \/ q_target q = T_same /\ q_idle q = false /\ be = Some src) /\
        send_request q (l_max_req l) (body_relay rl sc) (mkC (map RByte r) (q_plan q) (q_wr q) [] 0) = Some (ST_OK, c1) /\
        backend_response (q_resp q) (start_exchange (is_method rl "HEAD") (sc_closed sc || q_force q) (is_method rl "GET" && sc_ws_conn sc && sc_ws_upg sc))
          (mkC src (q_rplan q) wr out 0) = (RespOk close x' code, c2) /\ x_closed x' = false /\
        k_in k' = c_src c1 /\ k_out k' = c_out c2 /\ k_be k' = (if close then None else Some (c_src c2))))).
  { assert (Reg: forall src kk, k_in kk = map RByte r -> k_out kk = out -> k_wr kk = wr ->
      (q_target q = T_new src \/ q_target q = T_same /\ q_idle q = false /\ be = Some src) ->
      match send_request q (l_max_req l) (body_relay rl sc) (mkC (k_in kk) (q_plan q) (q_wr q) [] 0) with
      | None => (Undefined, kk)
      | Some (st, c1) =>
          let kk := mkConn (c_src c1) (Some src) (k_out kk) (k_wr kk) (add_sent (k_sent kk) (c_out c1)) in
          match st with
          | ST_OK =>
              match backend_response (q_resp q) (start_exchange (is_method rl "HEAD") (sc_closed sc || q_force q)
                       (is_method rl "GET" && sc_ws_conn sc && sc_ws_upg sc)) (mkC src (q_rplan q) (k_wr kk) (k_out kk) 0) with
              | (RespUB, _) | (RespFuel, _) => (Undefined, kk)
              | (RespErr e, c2) =>
                  (if (rl_version rl =? 1) && negb true then GoesOn else Stopped,
                   put (page e) (mkConn (k_in kk) (Some (c_src c2)) (c_out c2) (c_wr c2) (k_sent kk)))
              | (RespAbort, c2) => (Stopped, mkConn (k_in kk) (Some (c_src c2)) (c_out c2) (c_wr c2) (k_sent kk))
              | (RespOk close_be x _, c2) =>
                  (if (rl_version rl =? 1) && negb (x_closed x) then GoesOn else Stopped,
                   mkConn (k_in kk) (if close_be then None else Some (c_src c2)) (c_out c2) (c_wr c2) (k_sent kk))
              end
          | e => (if (rl_version rl =? 1) && negb true then GoesOn else Stopped, put (page e) kk)
          end
      end = (GoesOn, k') ->
      rl_version rl = 1 /\ sc_closed sc || q_force q = false /\
       exists src c1 close x' code c2, (q_target q = T_new src \/ q_target q = T_same /\ q_idle q = false /\ be = Some src) /\
        send_request q (l_max_req l) (body_relay rl sc) (mkC (map RByte r) (q_plan q) (q_wr q) [] 0) = Some (ST_OK, c1) /\
        backend_response (q_resp q) (start_exchange (is_method rl "HEAD") (sc_closed sc || q_force q) (is_method rl "GET" && sc_ws_conn sc && sc_ws_upg sc))
          (mkC src (q_rplan q) wr out 0) = (RespOk close x' code, c2) /\ x_closed x' = false /\
        k_in k' = c_src c1 /\ k_out k' = c_out c2 /\ k_be k' = (if close then None else Some (c_src c2))).
    { intros src kk E1 E2 E3 T F. rewrite E1 in F.
      destruct (send_request _ _ _ _) as [[st c1]|] eqn:Es; [|discriminate]. cbv zeta in F.
      destruct st; try (apply Fin in F; destruct F as (_ & F & _); discriminate).
      cbn [k_in k_be k_out k_wr k_sent] in F. rewrite E2, E3 in F.
      destruct (backend_response _ _ _) as [rr c2] eqn:Eb. destruct rr; try discriminate.
      - apply Fin in F. destruct F as (_ & F & _). discriminate.
      - apply Fin in F. destruct F as (F1 & F2 & <-). split; [auto|]. split; [eapply closed_stays; eauto|].
        exists src, c1, close_be, x, code, c2. cbn [k_in k_be k_out]. auto 10. }
    destruct (q_target q) as [st|reply st| | |src] eqn:T.
    - discriminate.
    - destruct st; apply Fin in H; destruct H as (H1 & H2 & H3); try discriminate.
      split; [auto|]. split; [exact H2|]. left. exists reply. split; [auto|]. symmetry. exact H3.
    - discriminate.
    - destruct (q_idle q) eqn:Qi; [discriminate|]. destruct be as [src|]; [|discriminate].
      apply (Reg src (mkConn (map RByte r) (Some src) out wr snt) eq_refl eq_refl eq_refl ltac:(auto)) in H. destruct H as (H1 & H2 & H3). auto.
    - apply (Reg src (mkConn (map RByte r) (if q_idle q then None else be) out wr (snt ++ [[]])) eq_refl eq_refl eq_refl ltac:(auto)) in H. destruct H as (H1 & H2 & H3). auto. }
  destruct Main as (M1 & M2 & M3). apply orb_false_iff in M2. destruct M2 as [M2 M4].
  split; [auto|]. split; [rewrite M1 in Cm; eauto|].
  split. { intros E. apply (request_closed _ _ G Cf) in E. congruence. }
  split; [auto|]. rewrite M2, M4 in M3. exact M3.
Qed.

Lemma reuse : forall comb l page q bs be out wr snt k', all_ok wr ->
  (forall hs hs', e_rules (q_resp q) hs = Some hs' -> Forall good hs -> Forall good hs') ->
  serve_one comb l page q (mkConn (map RByte bs) be out wr snt) = (GoesOn, k') ->
  exists line ls r hs, message_head 4096 bs line ls r /\
    http_request_read comb (map RByte bs) = RR_ok line hs (map RByte r) /\ (exists m url, request_line line m url 1) /\
    ~ has_element "Connection" "close" (hfields hs) /\ q_force q = false /\
    ((exists reply, q_target q = T_local reply ST_OK /\ k' = mkConn (map RByte r) None (out ++ reply) wr snt) \/
     exists src, (q_target q = T_new src \/ q_target q = T_same /\ be = Some src) /\
       forall rb, src = map RByte rb ->
       exists rline rr rhs hs' v code body,
         http_request_read (e_comb (q_resp q)) (map RByte rb) = RR_ok rline rhs (map RByte rr) /\
         status_line rline v code /\ code <> 100 /\ e_rules (q_resp q) rhs = Some hs' /\ Forall good hs' /\
         k_out k' = out ++ head_text rline (map (fun h => h_text (e_loc (q_resp q) h)) hs') ++ body /\
         ~ has_value "Connection" "close" (hfields hs') /\
         exists to_head, (to_head = true <-> exists m url g, request_line line m url 1 /\ method m (lit "HEAD") g) /\
         forall k, response_kind to_head code (hfields hs') k -> usual to_head v code (hfields hs') (e_ready (q_resp q)) k ->
           k <> UntilClose /\ exists rest, delimited lenient k rr body rest /\
             k_be k' = (if v =? 1 then Some (map RByte rest) else None)).
Proof.
  intros comb l page q bs be out wr snt k' Hw Hg H.
  destruct (goes_on _ _ _ _ _ _ _ _ _ _ H) as (line & ls & r & hs & rl & sc & M & R & G & C & V & RL & NC & F & D).
  exists line, ls, r, hs. do 5 (split; [auto|]). destruct D as [D|(src & c1 & close & x' & code & c2 & T & S & B & X & K1 & K2 & K3)]; [auto|].
  right. exists src. split; [tauto|]. intros rb ->.
  destruct (framed _ _ _ _ _ _ _ _ _ _ _ _ _ Hw Hg B) as (rline & rr & rhs & hs' & v & body & E1 & E2 & E3 & E4 & E5 & E6 & E7 & E8).
  destruct (E7 X) as [_ E9].
  exists rline, rr, rhs, hs', v, code, body. do 5 (split; [auto|]). split; [rewrite K2; exact E6|]. split; [auto|].
  exists (is_method rl "HEAD"). split.
  { unfold check_request in C. destruct (parse_http_request line (l_verb l)) as [[] [rl'|]] eqn:P; try discriminate.
    assert (rl' = rl) as ->.
    { destruct (match l_url_ok l with Some p => _ | None => _ end); [discriminate|].
      destruct (check_framing hs); [discriminate|]. destruct (_ && _); [discriminate|]. destruct (_ && _ && _); [discriminate|]. congruence. }
    destruct rl as [name url v']. apply parse_ok_iff in P. destruct P as (m & g & P1 & P2 & _). cbn [rl_version] in V. subst v'.
    unfold is_method. cbn [rl_method]. split.
    - intros E. apply bytes_eqb_eq in E. subst name. eauto.
    - intros (m2 & u2 & g2 & Q1 & Q2). destruct (request_line_fun _ _ _ _ _ _ _ P1 Q1) as (-> & _).
      destruct (method_fun _ _ _ _ _ P2 Q2) as (-> & _). reflexivity. }
  intros k Hk Hu. destruct (E8 k Hk Hu) as (Z1 & Z2 & rest & Z3 & Z4).
  assert (Hk2: k <> UntilClose).
  { intros ->. assert (x_closed x' = true) by (apply Z2; auto). congruence. }
  split; [auto|]. exists rest. split; [auto|]. rewrite K3, Z3.
  assert (Hv: v = 0 \/ v = 1).
  { destruct E2 as (dv & bl & a & b & c & tl & y1 & y2 & y3 & _ & [[_ ->]|[_ ->]] & _); auto. }
  destruct close.
  - destruct (proj1 Z1 eq_refl) as [->|]; [reflexivity|contradiction].
  - destruct Hv as [->| ->]; [|reflexivity]. assert (false = true) by (apply Z1; auto). discriminate.
Qed.

Lemma local_goes_on : forall comb l page q bs line hs r m name g url f be out wr snt reply,
  http_request_read comb (map RByte bs) = RR_ok line hs (map RByte r) ->
  request_line line m url 1 -> method m name g -> g <= l_verb l -> no_limits l (l_verb l) ->
  ~ has_element "Connection" "close" (hfields hs) -> framing_of (hfields hs) f -> q_force q = false ->
  q_target q = T_local reply ST_OK ->
  serve_one comb l page q (mkConn (map RByte bs) be out wr snt) = (GoesOn, mkConn (map RByte r) None (out ++ reply) wr snt).
Proof.
  intros comb l page q bs line hs r m name g url f be out wr snt reply R A3 A4 A5 (N1 & N2 & N3 & N4) A6 A7 Qf Qt.
  destruct (read_request_sound _ _ _ _ _ R) as (ls & ffs & gs & r2 & _ & _ & _ & _ & G & _).
  unfold serve_one. cbn [k_in k_be k_out k_wr k_sent]. rewrite R.
  destruct (check_framing_complete hs f G A7) as (sc & Sf & Sd).
  assert (P: parse_http_request line (l_verb l) = (ST_OK, Some (mkRL name url 1))) by (apply parse_ok_iff; eauto).
  assert (C: check_request l line hs = inr (mkRL name url 1, sc)).
  { unfold check_request. rewrite P, N2, Sf, N3, N4. reflexivity. }
  rewrite C.
  assert (Sc: sc_closed sc = false).
  { apply not_true_iff_false. intros E. apply A6. apply (request_closed _ _ G Sf). exact E. }
  rewrite Sc, Qf, Qt. reflexivity.
Qed.
