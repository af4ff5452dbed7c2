From Coq Require Import Ascii String List ZArith Bool Lia ZifyBool ZifyNat.
From Verif Require Import Bytes ClenSpec StreamSpec TokSpec ReqSpec FrameSpec NumModel NumSpec NumProofs ClenModel ReqModel HdrProofs
  XpdModel CondModel LogModel StreamModel StreamProofs FrameProofs RespModel RespSpec RespProofs ReplyModel ReplySpec.
Import ListNotations.
Open Scope Z_scope.

(** ** Output *)

Lemma put_all_ok : forall l st, all_ok (c_wr st) ->
  exists w, all_ok w /\ put_all l st = mkC (c_src st) (c_plan st) w (c_out st ++ concat l) (c_cnt st).
Proof.
  unfold put_all. induction l as [|d l IH]; intros st H; cbn [fold_left concat].
  - exists (c_wr st). split; auto. rewrite app_nil_r. destruct st; reflexivity.
  - destruct (bio_write_ok d st H) as (w & W & E). rewrite E. cbn [snd].
    destruct (IH (mkC (c_src st) (c_plan st) w (c_out st ++ d) (c_cnt st)) W) as (w' & W' & E').
    exists w'. split; auto. rewrite E'. cbn [c_src c_plan c_out c_cnt]. rewrite app_assoc. reflexivity.
Qed.

(** ** Numbers *)

Lemma digit_char : forall d, 0 <= d < 10 -> decimal (ascii_of_N (Z.to_N (48 + d))) d.
Proof.
  intros d H. assert (K : d = 0 \/ d = 1 \/ d = 2 \/ d = 3 \/ d = 4 \/ d = 5 \/ d = 6 \/ d = 7 \/ d = 8 \/ d = 9) by lia.
  repeat destruct K as [K|K]; subst; split; (lia || reflexivity).
Qed.

Lemma digits_numeral : forall fuel n acc, 0 <= n -> n < 2 ^ Z.of_nat fuel ->
  exists s, digits fuel n acc = s ++ acc /\ (fuel <> O -> numeral decimal 10 s n).
Proof.
  induction fuel as [|fuel IH]; intros n acc H0 H; [exists []; split; [reflexivity|congruence]|].
  cbn [digits]. cbv zeta.
  assert (M : 0 <= n mod 10 < 10) by (apply Z.mod_pos_bound; lia).
  pose proof (Z.div_mod n 10 ltac:(lia)) as DM.
  destruct (Z.ltb_spec n 10).
  - exists [ascii_of_N (Z.to_N (48 + n mod 10))]. split; [reflexivity|]. intros _.
    replace n with (n mod 10) at 2 by (apply Z.mod_small; lia). constructor. apply digit_char. lia.
  - assert (D : 1 <= n / 10 < 2 ^ Z.of_nat fuel).
    { rewrite Nat2Z.inj_succ, Z.pow_succ_r in H by lia. split; [apply Z.div_le_lower_bound; lia|apply Z.div_lt_upper_bound; lia]. }
    destruct (IH (n / 10) (ascii_of_N (Z.to_N (48 + n mod 10)) :: acc)) as (s & E & N); [lia|lia|].
    exists (s ++ [ascii_of_N (Z.to_N (48 + n mod 10))]). split; [rewrite E, <- app_assoc; reflexivity|]. intros _.
    rewrite DM at 2. constructor; [apply N|apply digit_char; lia]. intros ->. cbn in D. lia.
Qed.

Lemma fmt_numeral : forall n, 0 <= n -> numeral decimal 10 (fmt_ld n) n.
Proof.
  intros n H. unfold fmt_ld. destruct (Z.ltb_spec n 0); [lia|].
  destruct (digits_numeral (S (Z.to_nat (Z.log2 n))) n [] H) as (s & E & N).
  - destruct (Z.eq_dec n 0) as [->|]; [reflexivity|]. rewrite Nat2Z.inj_succ, Z2Nat.id by apply Z.log2_nonneg.
    apply Z.log2_spec. lia.
  - rewrite E, app_nil_r. apply N. lia.
Qed.

Lemma numeral_chars : forall s n, numeral decimal 10 s n -> Forall (fun c => exists d, decimal c d) s /\ s <> [].
Proof.
  intros s n N. induction N as [c d D|s v c d N IH D].
  - split; [repeat constructor; eauto|discriminate].
  - split; [apply Forall_app; split; [apply IH|repeat constructor; eauto]|destruct s; discriminate].
Qed.

(** ** Heads *)

Definition all_codes : list Z := [200; 400; 401; 403; 404; 405; 413; 414; 500; 501; 503; 301; 302; 303; 307; 308].

Lemma status_ok : forall v code reason, v = 0 \/ v = 1 -> In code all_codes ->
  status_line (lit "HTTP/1." ++ fmt_ld v ++ [SP] ++ fmt_ld code ++ [SP] ++ reason) v code.
Proof.
  intros v code reason Hv Hc. apply validate_iff. unfold all_codes in Hc. cbn [In] in Hc.
  destruct Hv as [-> | ->]; repeat destruct Hc as [<-|Hc]; try reflexivity; destruct Hc.
Qed.

Lemma code_content : forall code, In code all_codes -> ~ never_content false code.
Proof.
  intros code Hc [H|H]; [discriminate|]. unfold all_codes in Hc. cbn [In] in Hc. lia.
Qed.

Lemma one_line_app : forall a b, one_line a -> one_line b -> one_line (a ++ b).
Proof. intros a b [A1 A2] [B1 B2]. split; rewrite in_app_iff; tauto. Qed.

Lemma one_line_digits : forall n, 0 <= n -> one_line (fmt_ld n).
Proof.
  intros n H. apply fmt_numeral, numeral_chars in H as [H _]. rewrite Forall_forall in H.
  split; intros K; apply H in K as (d & K); apply num_digit_decimal in K as [K _]; discriminate.
Qed.

Lemma one_line_b : forall s, forallb not_eol s = true <-> one_line s.
Proof.
  intros s. rewrite forallb_forall. unfold not_eol, one_line. split.
  - intros H. split; intros K; apply H in K; discriminate.
  - intros [H1 H2] c Hc. destruct (beq c CR) eqn:E1; [apply beq_eq in E1; subst; contradiction|].
    destruct (beq c LF) eqn:E2; [apply beq_eq in E2; subst; contradiction|reflexivity].
Qed.

Definition field_text (f : field) : bytes := fst f ++ lit ": " ++ snd f.
Definition fair (f : field) : Prop :=
  fst f <> [] /\ forallb hname_char (fst f) = true /\ one_line (snd f) /\ (forall c u, snd f = c :: u -> ~ blank c).

Lemma fair_line : forall f, fair f -> field_line (field_text f) (fst f) (snd f) /\ one_line (field_text f).
Proof.
  intros [n v] (N & T & O & B). cbn [fst snd] in *. unfold field_text. cbn [fst snd]. apply hname_all in T. split.
  - exists [SP]. split; [reflexivity|]. split; auto. split; auto. split; [repeat constructor|auto].
  - apply one_line_app; [|apply one_line_app; [apply one_line_b; reflexivity|auto]].
    rewrite Forall_forall in T. split; intros K; apply T in K; apply hname_token in K; discriminate.
Qed.

(** How the body is delimited, from the fields. *)
Definition framed (v : Z) (fs : list field) (body : bytes) : Prop :=
  values "Transfer-Encoding" fs = [] /\
  (values "Content-Length" fs = [] \/
   exists w, values "Content-Length" fs = [w] /\ content_length_value w (Z.of_nat (length body))).

Lemma build : forall v code reason fs body, v = 0 \/ v = 1 -> In code all_codes -> one_line reason ->
  Forall fair fs -> framed v fs body ->
  message false ((lit "HTTP/1." ++ fmt_ld v ++ [SP] ++ fmt_ld code ++ [SP] ++ reason) ++ CRLF ++
    concat (map (fun f => field_text f ++ CRLF) fs) ++ CRLF ++ body) v code fs body.
Proof.
  intros v code reason fs body Hv Hc Hr Hf [TE CL].
  assert (N : 0 <= code) by (unfold all_codes in Hc; cbn [In] in Hc; lia).
  assert (T : Forall one_line (map field_text fs)).
  { apply Forall_map. eapply Forall_impl; [|exact Hf]. intros f F. apply fair_line, F. }
  assert (F2 : Forall2 (fun t f => field_line t (fst f) (snd f)) (map field_text fs) fs).
  { clear - Hf. induction Hf as [|f fs F _ IH]; constructor; auto. apply fair_line, F. }
  assert (L : one_line (lit "HTTP/1." ++ fmt_ld v ++ [SP] ++ fmt_ld code ++ [SP] ++ reason)).
  { repeat (apply one_line_app; [solve [apply one_line_b; reflexivity|apply one_line_digits; lia]|]). auto. }
  assert (E : forall k, response_kind false code fs k -> delimited (fun _ => False) k body body [] ->
    message false ((lit "HTTP/1." ++ fmt_ld v ++ [SP] ++ fmt_ld code ++ [SP] ++ reason) ++ CRLF ++
      concat (map (fun f => field_text f ++ CRLF) fs) ++ CRLF ++ body) v code fs body).
  { intros k K D. eexists _, (map field_text fs), k. split; [|do 5 (split; [eauto using status_ok|]); exact D].
    unfold head_text. rewrite map_map. rewrite <- !app_assoc. reflexivity. }
  destruct CL as [CL|(w & CL & V)].
  - apply (E UntilClose).
    + constructor; auto using code_content.
    + constructor.
  - apply (E (Fixed (Z.of_nat (length body)))).
    + eapply rk_fixed; eauto using code_content.
    + pose proof (dl_fixed (fun _ => False) body []) as D. rewrite app_nil_r in D. exact D.
Qed.

Definition texts_of (fs : list field) : bytes := concat (map (fun f => field_text f ++ CRLF) fs).
Definition length_fields (v : Z) (body : bytes) : list field :=
  if v =? 1 then [(lit "Content-Length", fmt_ld (Z.of_nat (length body))); (lit "Connection", lit "close")] else [].

Lemma texts_app : forall a b, texts_of (a ++ b) = texts_of a ++ texts_of b.
Proof. intros. unfold texts_of. rewrite map_app, concat_app. reflexivity. Qed.

Lemma values_app : forall n a b, values n (a ++ b) = values n a ++ values n b.
Proof. intros. unfold values. rewrite filter_app, map_app. reflexivity. Qed.

Lemma length_value : forall body : bytes, Z.of_nat (length body) <= max_length ->
  content_length_value (fmt_ld (Z.of_nat (length body))) (Z.of_nat (length body)).
Proof.
  intros body H. exists [], (fmt_ld (Z.of_nat (length body))), [].
  rewrite app_nil_r. do 3 (split; [auto|]). split; [apply fmt_numeral; lia|auto].
Qed.

Lemma fair_const : forall n w, n <> [] -> forallb hname_char n = true -> forallb not_eol w = true ->
  match w with c :: _ => isws c = false | [] => True end -> fair (n, w).
Proof.
  intros n w N T O B. split; auto. split; auto. split; [apply one_line_b; auto|]. cbn [snd].
  intros c u ->. apply isws_not_blank. auto.
Qed.

Lemma fair_digits : forall n k, n <> [] -> forallb hname_char n = true -> 0 <= k -> fair (n, fmt_ld k).
Proof.
  intros n k N T K. split; auto. split; auto. split; [apply one_line_digits; auto|]. cbn [snd].
  intros c u E. apply fmt_numeral, numeral_chars in K as [K _]. rewrite E in K. inversion K as [|? ? [d D]]; subst.
  apply num_digit_decimal in D as [D _]. intros [-> | ->]; discriminate.
Qed.

Lemma length_fields_fair : forall v body, Forall fair (length_fields v body).
Proof.
  intros v body. unfold length_fields. destruct (v =? 1); [|constructor].
  repeat constructor; try (cbn; discriminate).
  - apply (fair_digits (lit "Content-Length") (Z.of_nat (length body))); [discriminate|reflexivity|lia].
  - apply (fair_digits (lit "Content-Length") (Z.of_nat (length body))); [discriminate|reflexivity|lia].
  - apply (fair_digits (lit "Content-Length") (Z.of_nat (length body))); [discriminate|reflexivity|lia].
  - cbn [snd]. intros K. revert K. cbn. intuition discriminate.
  - cbn [snd]. intros K. revert K. cbn. intuition discriminate.
  - cbn [snd]. intros c u [= <- <-]. apply isws_not_blank. reflexivity.
Qed.

Lemma length_fields_framed : forall v body pre post, Z.of_nat (length body) <= max_length ->
  values "Transfer-Encoding" (pre ++ post) = [] -> values "Content-Length" (pre ++ post) = [] ->
  framed v (pre ++ length_fields v body ++ post) body.
Proof.
  intros v body pre post L TE CL. rewrite values_app in TE, CL.
  apply app_eq_nil in TE as [T1 T2]. apply app_eq_nil in CL as [C1 C2].
  unfold framed. rewrite !values_app, T1, T2, C1, C2. unfold length_fields. cbn [app].
  destruct (v =? 1).
  - split; [reflexivity|]. right. eexists. split; [reflexivity|]. apply length_value, L.
  - split; [reflexivity|]. left. reflexivity.
Qed.

Lemma texts_nil : texts_of [] = [].
Proof. reflexivity. Qed.
Lemma texts_one : forall n w, texts_of [(n, w)] = n ++ lit ": " ++ w ++ CRLF.
Proof. intros. unfold texts_of, field_text. cbn [map concat fst snd]. rewrite app_nil_r, <- !app_assoc. reflexivity. Qed.
Lemma texts_two : forall n w m x, texts_of [(n, w); (m, x)] = n ++ lit ": " ++ w ++ CRLF ++ m ++ lit ": " ++ x ++ CRLF.
Proof. intros. change [(n, w); (m, x)] with ([(n, w)] ++ [(m, x)]). rewrite texts_app, !texts_one, <- !app_assoc. reflexivity. Qed.

Lemma reply_text : forall v code reason headers type content extra, v = 0 \/ v = 1 ->
  match headers with Some h => h = texts_of extra | None => extra = [] end ->
  concat (http_reply v code reason headers type content) =
  (lit "HTTP/1." ++ fmt_ld v ++ [SP] ++ fmt_ld code ++ [SP] ++ reason) ++ CRLF ++
    texts_of ((lit "Content-Type", type) :: length_fields v content ++ extra) ++ CRLF ++ content.
Proof.
  intros v code reason headers type content extra Hv Hh. unfold http_reply, reply_start.
  change ((lit "Content-Type", type) :: length_fields v content ++ extra)
    with ([(lit "Content-Type", type)] ++ length_fields v content ++ extra).
  rewrite !texts_app.
  assert (X : match headers with Some h => h | None => [] end = texts_of extra) by (destruct headers; subst; reflexivity).
  rewrite X, texts_one. unfold length_fields.
  destruct Hv as [-> | ->]; cbn [Z.eqb Pos.eqb]; rewrite !concat_app; cbn [concat].
  - rewrite texts_nil, ?app_nil_r. rewrite <- !app_assoc. reflexivity.
  - rewrite texts_two, ?app_nil_r. rewrite <- !app_assoc. reflexivity.
Qed.

Lemma reply_message : forall v code reason headers type content extra, v = 0 \/ v = 1 -> In code all_codes ->
  one_line reason -> match headers with Some h => h = texts_of extra | None => extra = [] end ->
  fair (lit "Content-Type", type) -> Forall fair extra ->
  values "Transfer-Encoding" extra = [] -> values "Content-Length" extra = [] ->
  Z.of_nat (length content) <= max_length ->
  message false (concat (http_reply v code reason headers type content)) v code
    ((lit "Content-Type", type) :: length_fields v content ++ extra) content.
Proof.
  intros v code reason headers type content extra Hv Hc Hr Hh Ht He TE CL L.
  rewrite (reply_text v code reason headers type content extra Hv Hh). apply build; auto.
  - constructor; auto. apply Forall_app. split; [apply length_fields_fair|auto].
  - apply (length_fields_framed v content [(lit "Content-Type", type)] extra); auto.
Qed.

(** The same without the body, as a reply to HEAD. *)
Lemma reply_head : forall v code reason headers type content extra, v = 0 \/ v = 1 -> In code all_codes ->
  one_line reason -> match headers with Some h => h = texts_of extra | None => extra = [] end ->
  fair (lit "Content-Type", type) -> Forall fair extra ->
  exists head, concat (http_reply v code reason headers type content) = head ++ content /\
  message true head v code ((lit "Content-Type", type) :: length_fields v content ++ extra) [].
Proof.
  intros v code reason headers type content extra Hv Hc Hr Hh Ht He.
  rewrite (reply_text v code reason headers type content extra Hv Hh).
  set (fs := (lit "Content-Type", type) :: length_fields v content ++ extra).
  assert (Hf : Forall fair fs) by (constructor; auto; apply Forall_app; split; [apply length_fields_fair|auto]).
  exists (head_text (lit "HTTP/1." ++ fmt_ld v ++ [SP] ++ fmt_ld code ++ [SP] ++ reason) (map field_text fs)).
  split; [unfold head_text, texts_of; rewrite map_map, <- !app_assoc; reflexivity|].
  eexists _, (map field_text fs), NoContent. rewrite app_nil_r. split; [reflexivity|].
  assert (N : 0 <= code) by (unfold all_codes in Hc; cbn [In] in Hc; lia).
  split. { repeat (apply one_line_app; [solve [apply one_line_b; reflexivity|apply one_line_digits; lia]|]). auto. }
  split. { apply Forall_map. eapply Forall_impl; [|exact Hf]. intros f F. apply fair_line, F. }
  split; [auto using status_ok|]. split.
  - clear - Hf. induction Hf as [|f fs F _ IH]; constructor; auto. apply fair_line, F.
  - split; [constructor; left; reflexivity|constructor].
Qed.

(** ** Error replies *)

Definition err_fields : list field :=
  [(lit "Expires", lit "now"); (lit "Pragma", lit "no-cache"); (lit "Cache-control", lit "no-cache,no-store")].
Lemma err_headers_texts : err_headers = texts_of err_fields.
Proof. reflexivity. Qed.
Lemma err_fields_fair : Forall fair err_fields.
Proof. repeat apply Forall_cons; try apply Forall_nil; apply fair_const; try reflexivity; discriminate. Qed.
Lemma html_fair : fair (lit "Content-Type", lit "text/html").
Proof. apply fair_const; try reflexivity; discriminate. Qed.

Lemma phrases_entries : map (fun p => (fst p, lit (snd p))) phrases = map (fun h => (hs_code h, hs_reason h)) http_statuses.
Proof. reflexivity. Qed.

Lemma to_pound : forall code phrase, In (code, phrase) phrases ->
  let e := http_status_to_pound code in
  0 <= e < 11 /\ hs_code (status_entry e) = code /\ hs_reason (status_entry e) = lit phrase /\ one_line (lit phrase) /\
  In code all_codes.
Proof.
  intros code phrase H. unfold phrases in H. cbn [In] in H.
  repeat destruct H as [[= <- <-]|H]; try destruct H;
    (split; [vm_compute; split; congruence|]; split; [reflexivity|]; split; [reflexivity|];
     split; [apply one_line_b; reflexivity|vm_compute; tauto]).
Qed.

Lemma to_pound_none : forall code, (forall phrase, ~ In (code, phrase) phrases) -> http_status_to_pound code = -1.
Proof.
  intros code H. unfold http_status_to_pound, http_statuses. cbn [map find_status fst snd hs_code].
  repeat match goal with |- context [?a =? code] =>
    let E := fresh in destruct (Z.eqb_spec a code) as [E|E]; [subst; exfalso; eapply H; unfold phrases; cbn [In]; eauto 20|] end.
  reflexivity.
Qed.

Lemma error_reply_message : forall v code phrase pages st, v = 0 \/ v = 1 -> In (code, phrase) phrases ->
  let err := http_status_to_pound code in
  let page := match pages err with Some p => p | None => default_error_page (status_entry err) end in
  Z.of_nat (length page) <= max_length -> all_ok (c_wr st) ->
  exists msg fs, c_out (http_err_reply v err pages st) = c_out st ++ msg /\
    message false msg v code fs page /\
    values "Content-Type" fs = [lit "text/html"] /\ values "Connection" fs = (if v =? 1 then [lit "close"] else []).
Proof.
  intros v code phrase pages st Hv Hp err page L W. destruct (to_pound code phrase Hp) as (E & C & R & O & A).
  fold err in E, C, R. unfold http_err_reply. destruct (put_all_ok (err_reply v err (pages err)) st W) as (w & _ & P).
  rewrite P. cbn [c_out]. eexists _, _. split; [reflexivity|]. unfold err_reply.
  replace (clamp_err err) with err.
  2:{ unfold clamp_err, HTTP_STATUS_MAX. destruct ((0 <=? err) && (err <? 11)) eqn:B; [reflexivity|lia]. }
  cbv zeta. fold page. rewrite C, R.
  split; [apply (reply_message v code (lit phrase) (Some err_headers) (lit "text/html") page err_fields);
          auto using err_headers_texts, err_fields_fair, html_fair|].
  unfold length_fields. destruct Hv as [-> | ->]; split; reflexivity.
Qed.

Lemma error_reply_head : forall v code phrase pages st, v = 0 \/ v = 1 -> In (code, phrase) phrases ->
  let err := http_status_to_pound code in
  let page := match pages err with Some p => p | None => default_error_page (status_entry err) end in
  all_ok (c_wr st) ->
  exists head fs, c_out (http_err_reply v err pages st) = c_out st ++ head ++ page /\ message true head v code fs [].
Proof.
  intros v code phrase pages st Hv Hp err page W. destruct (to_pound code phrase Hp) as (E & C & R & O & A).
  fold err in E, C, R. unfold http_err_reply. destruct (put_all_ok (err_reply v err (pages err)) st W) as (w & _ & P).
  rewrite P. cbn [c_out]. unfold err_reply.
  replace (clamp_err err) with err.
  2:{ unfold clamp_err, HTTP_STATUS_MAX. destruct ((0 <=? err) && (err <? 11)) eqn:B; [reflexivity|lia]. }
  cbv zeta. fold page. rewrite C, R.
  destruct (reply_head v code (lit phrase) (Some err_headers) (lit "text/html") page err_fields) as (h & H1 & H2);
    auto using err_headers_texts, err_fields_fair, html_fair.
  rewrite H1. eauto.
Qed.

(** ** Redirects *)

Lemma safe_chars : forall u c, In c (safe_url u) -> safe_char c = true \/ c = PERCENT.
Proof.
  intros u c H. unfold safe_url in H. apply in_flat_map in H as (x & _ & H). destruct (safe_char x) eqn:E.
  - destruct H as [<-|[]]. auto.
  - destruct H as [<-|H]; [auto|left].
    assert (K : forall k n acc, In c (hex_digits k n acc) -> (forall d, In d acc -> safe_char d = true) -> safe_char c = true).
    { clear. induction k as [|k IH]; intros n acc H Ha; cbn [hex_digits] in H; [auto|].
      apply (IH _ _ H). intros d [<-|Hd]; [|auto]. unfold hexdig.
      assert (F : Forall (fun d => safe_char d = true) (lit "0123456789abcdef")) by (repeat constructor).
      rewrite Forall_forall in F.
      destruct (nth_in_or_default (Z.to_nat (n mod 16)) (lit "0123456789abcdef") "0"%char) as [I| ->]; [auto|reflexivity]. }
    unfold percent_02x in H. cbv zeta in H. destruct (scode x <? 0); eapply K; eauto; intros d [].
Qed.

Lemma safe_fair : forall u, fair (lit "Location", safe_url u).
Proof.
  intros u. split; [discriminate|]. split; [reflexivity|]. cbn [snd]. split.
  - split; intros K; apply safe_chars in K as [K|K]; discriminate.
  - intros c r E. assert (K : In c (safe_url u)) by (rewrite E; left; reflexivity).
    apply safe_chars in K as [K| ->]; intros [X|X]; subst; discriminate.
Qed.

Lemma redirect_message : forall v code url has_uri ph reason loc body, v = 0 \/ v = 1 ->
  redirect_response code url has_uri ph = R_REPLY code reason loc body ->
  Z.of_nat (length body) <= max_length ->
  exists fs target, message false (concat (redirect_reply v code reason loc body)) v code fs body /\
    values "Location" fs = [target] /\ loc = lit "Location: " ++ target ++ CRLF.
Proof.
  intros v code url has_uri ph reason loc body Hv E L. unfold redirect_response in E.
  destruct (redirect_reason code) as [r|] eqn:R; [|discriminate].
  destruct (expand_url url ph has_uri) as [xurl p| |]; try discriminate.
  cbv zeta in E. remember (safe_url xurl) as u eqn:U. injection E as <- <- <-.
  assert (F : fair (lit "Location", u)) by (subst; apply safe_fair).
  assert (A : In code all_codes /\ one_line r).
  { unfold redirect_reason in R.
    repeat match type of R with (if code =? ?n then _ else _) = _ =>
      let X := fresh in destruct (Z.eqb_spec code n) as [X|X];
        [injection R as <-; split; [subst; vm_compute; tauto|apply one_line_b; reflexivity]|] end. discriminate. }
  destruct A as [A O]. unfold redirect_reply.
  eexists _, u. split.
  - apply (reply_message v code r (Some (location_line u)) (lit "text/html") (redirect_body u) [(lit "Location", u)]); auto.
    + unfold location_line. rewrite texts_one. reflexivity.
    + apply html_fair.
  - split; [|reflexivity]. unfold length_fields. destruct Hv as [-> | ->]; reflexivity.
Qed.

(** ** Control and metrics *)

Lemma json_message : forall str, Z.of_nat (length str) <= max_length ->
  exists fs, message false (concat (json_reply str)) 1 200 fs str /\ values "Content-Type" fs = [lit "application/json"] /\
    values "Connection" fs = [lit "close"].
Proof.
  intros str L.
  exists ([(lit "Content-Type", lit "application/json")] ++ length_fields 1 str ++ []). split; [|split; reflexivity].
  replace (concat (json_reply str)) with
    ((lit "HTTP/1." ++ fmt_ld 1 ++ [SP] ++ fmt_ld 200 ++ [SP] ++ lit "OK") ++ CRLF ++
     texts_of ([(lit "Content-Type", lit "application/json")] ++ length_fields 1 str ++ []) ++ CRLF ++ str).
  - apply build; [auto|vm_compute; tauto|apply one_line_b; reflexivity| |].
    + apply Forall_app. split; [|apply Forall_app; split; [apply length_fields_fair|constructor]].
      constructor; [apply fair_const; try reflexivity; discriminate|constructor].
    + apply length_fields_framed; auto.
  - rewrite !texts_app, texts_one. change (length_fields 1 str) with
      [(lit "Content-Length", fmt_ld (Z.of_nat (length str))); (lit "Connection", lit "close")].
    rewrite texts_two, texts_nil. unfold json_reply. cbn [concat]. rewrite !app_nil_r, <- !app_assoc. reflexivity.
Qed.

Lemma metrics_message : forall v content, v = 0 \/ v = 1 -> Z.of_nat (length content) <= max_length ->
  exists fs, message false (concat (metrics_reply v content)) v 200 fs content /\
    values "Content-Type" fs = [lit "application/openmetrics-text; version=1.0.0; charset=utf-8"].
Proof.
  intros v content Hv L.
  set (fs := [(lit "Content-Type", lit "application/openmetrics-text; version=1.0.0; charset=utf-8");
              (lit "Content-Length", fmt_ld (Z.of_nat (length content)))]).
  exists fs. split; [|reflexivity].
  replace (concat (metrics_reply v content)) with
    ((lit "HTTP/1." ++ fmt_ld v ++ [SP] ++ fmt_ld 200 ++ [SP] ++ lit "OK") ++ CRLF ++ texts_of fs ++ CRLF ++ content).
  - apply build; [auto|vm_compute; tauto|apply one_line_b; reflexivity| |].
    + constructor; [apply fair_const; try reflexivity; discriminate|constructor; [|constructor]].
      apply fair_digits; [discriminate|reflexivity|lia].
    + split; [reflexivity|]. right. eexists. split; [reflexivity|]. apply length_value, L.
  - unfold fs. rewrite texts_two. unfold metrics_reply. cbn [concat]. rewrite !app_nil_r, <- !app_assoc. reflexivity.
Qed.

(** ** Error backends *)

Lemma build_texts : forall v code reason texts fs body, v = 0 \/ v = 1 -> In code all_codes -> one_line reason ->
  Forall one_line texts -> Forall2 (fun t f => field_line t (fst f) (snd f)) texts fs -> framed v fs body ->
  message false ((lit "HTTP/1." ++ fmt_ld v ++ [SP] ++ fmt_ld code ++ [SP] ++ reason) ++ CRLF ++
    concat (map (fun t => t ++ CRLF) texts) ++ CRLF ++ body) v code fs body.
Proof.
  intros v code reason texts fs body Hv Hc Hr T F2 [TE CL].
  assert (N : 0 <= code) by (unfold all_codes in Hc; cbn [In] in Hc; lia).
  assert (L : one_line (lit "HTTP/1." ++ fmt_ld v ++ [SP] ++ fmt_ld code ++ [SP] ++ reason)).
  { repeat (apply one_line_app; [solve [apply one_line_b; reflexivity|apply one_line_digits; lia]|]). auto. }
  assert (E : forall k, response_kind false code fs k -> delimited (fun _ => False) k body body [] ->
    message false ((lit "HTTP/1." ++ fmt_ld v ++ [SP] ++ fmt_ld code ++ [SP] ++ reason) ++ CRLF ++
      concat (map (fun t => t ++ CRLF) texts) ++ CRLF ++ body) v code fs body).
  { intros k K D. eexists _, texts, k. split; [|do 5 (split; [eauto using status_ok|]); exact D].
    unfold head_text. rewrite <- !app_assoc. reflexivity. }
  destruct CL as [CL|(w & CL & V)].
  - apply (E UntilClose).
    + constructor; auto using code_content.
    + constructor.
  - apply (E (Fixed (Z.of_nat (length body)))).
    + eapply rk_fixed; eauto using code_content.
    + pose proof (dl_fixed (fun _ => False) body []) as D. rewrite app_nil_r in D. exact D.
Qed.

Lemma headers_send_ok : forall hs st, all_ok (c_wr st) -> exists w, all_ok w /\
  headers_send_safe hs st = mkC (c_src st) (c_plan st) w
    (c_out st ++ concat (map (fun h => h_text h ++ CRLF) (filter (fun h => negb (unsafe_header h)) hs))) (c_cnt st).
Proof.
  induction hs as [|h hs IH]; intros st W; cbn [headers_send_safe filter].
  - exists (c_wr st). split; auto. cbn [map concat]. rewrite app_nil_r. destruct st; reflexivity.
  - destruct (unsafe_header h); cbn [negb]; [apply IH, W|].
    destruct (bio_write_ok (h_text h ++ CRLF) st W) as (w & W' & E). rewrite E. cbv iota.
    destruct (IH (mkC (c_src st) (c_plan st) w (c_out st ++ h_text h ++ CRLF) (c_cnt st)) W') as (w2 & W2 & E2).
    exists w2. split; auto. rewrite E2. cbn [c_src c_plan c_out c_cnt map concat]. rewrite <- !app_assoc. reflexivity.
Qed.

Definition is_length_or_conn (f : field) : bool := is_named (lit "Content-Length") f || is_named (lit "Connection") f.

Lemma unsafe_named : forall h, good h -> unsafe_header h = is_length_or_conn (hfield h).
Proof.
  intros h G. unfold is_length_or_conn. change (is_named (lit "Content-Length") (hfield h)) with (is_cl h).
  change (is_named (lit "Connection") (hfield h)) with (is_conn h).
  rewrite (conn_bool h G). pose proof (is_cl_code h G) as C. unfold unsafe_header.
  destruct (is_cl h); [destruct C as [C _]; rewrite C; reflexivity|].
  destruct (h_code h); try reflexivity. destruct C as [_ C]. specialize (C eq_refl). discriminate.
Qed.

Lemma kept_fields : forall hs, Forall good hs ->
  map hfield (filter (fun h => negb (unsafe_header h)) hs) = filter (fun f => negb (is_length_or_conn f)) (hfields hs).
Proof.
  induction hs as [|h hs IH]; intros G; [reflexivity|]. inversion G; subst. unfold hfields in *. cbn [map filter].
  rewrite (unsafe_named h) by auto. destruct (is_length_or_conn (hfield h)); cbn [negb]; [auto|]. cbn [map]. rewrite IH; auto.
Qed.

Lemma parse_err : exists hs, parse_header_text (length err_headers) [] err_headers = Some hs /\ hfields hs = err_fields.
Proof. eexists. split; reflexivity. Qed.

Lemma other_name : forall a b f, named a f -> ~ same_letters a b -> is_named b f = false.
Proof.
  intros a b f N D. apply not_true_iff_false. intros K. apply is_named_iff in K. unfold named, same_letters in *. congruence.
Qed.

Lemma values_filter : forall n p fs, (forall f, named (lit n) f -> p f = true) -> values n (filter p fs) = values n fs.
Proof.
  intros n p fs H. unfold values. induction fs as [|f fs IH]; [reflexivity|]. cbn [filter].
  destruct (p f) eqn:P; cbn [filter]; destruct (is_named (lit n) f) eqn:N; cbn [map]; rewrite ?IH; auto.
  apply is_named_iff in N. rewrite H in P by auto. discriminate.
Qed.
Lemma values_filter_none : forall n p fs, (forall f, named (lit n) f -> p f = false) -> values n (filter p fs) = [].
Proof.
  intros n p fs H. unfold values. induction fs as [|f fs IH]; [reflexivity|]. cbn [filter].
  destruct (p f) eqn:P; cbn [filter]; [|auto]. destruct (is_named (lit n) f) eqn:N; [|auto].
  apply is_named_iff in N. rewrite H in P by auto. discriminate.
Qed.

Lemma error_backend_message : forall v code phrase text pages rules hs' st, v = 0 \/ v = 1 -> In (code, phrase) phrases ->
  (forall hs, hfields hs = err_fields -> rules hs = Some hs') ->
  Forall good hs' -> Forall (fun h => one_line (h_text h)) hs' -> values "Transfer-Encoding" (hfields hs') = [] ->
  let err := http_status_to_pound code in
  let body := match text with Some t => t | None => match pages err with Some t => t | None => hs_text (status_entry err) end end in
  Z.of_nat (length body) <= max_length -> all_ok (c_wr st) ->
  exists msg fs st', error_response v err text pages rules st = (0, st') /\ c_out st' = c_out st ++ msg /\
    message false msg v code fs body /\ values "Connection" fs = (if v =? 1 then [lit "close"] else []) /\
    (forall n, ~ same_letters (lit n) (lit "Content-Length") -> ~ same_letters (lit n) (lit "Connection") ->
       values n fs = values n (hfields hs')).
Proof.
  intros v code phrase text pages rules hs' st Hv Hp HR G O TE err body L W.
  destruct (to_pound code phrase Hp) as (E & C & R & OL & A). fold err in E, C, R.
  unfold error_response. fold body. destruct parse_err as (hs & PE & F). rewrite PE, (HR hs F). cbv zeta.
  unfold reply_start_list.
  set (start := [_] ++ _).
  destruct (put_all_ok start st W) as (w1 & W1 & E1).
  rewrite E1. destruct (headers_send_ok hs' (mkC (c_src st) (c_plan st) w1 (c_out st ++ concat start) (c_cnt st)) W1) as (w2 & W2 & E2).
  rewrite E2. cbn [c_src c_plan c_out c_cnt].
  set (texts := concat (map (fun h => h_text h ++ CRLF) (filter (fun h => negb (unsafe_header h)) hs'))) in *.
  destruct (put_all_ok [CRLF] (mkC (c_src st) (c_plan st) w2 ((c_out st ++ concat start) ++ texts) (c_cnt st)) W2) as (w3 & W3 & E3).
  rewrite E3. cbn [c_src c_plan c_out c_cnt c_wr concat].
  destruct (copy_bin_ok false body [] [] w3 (((c_out st ++ concat start) ++ texts) ++ CRLF ++ []) (c_cnt st) W3) as (p4 & w4 & W4 & E4).
  rewrite app_nil_r in E4. rewrite app_nil_r with (l := CRLF).
  rewrite app_nil_r in E4. rewrite E4. cbn [c_wr c_out emit].
  destruct (put_all_ok [[]] (mkC (c_src st) (c_plan st) w4 ((((c_out st ++ concat start) ++ texts) ++ CRLF) ++ body) (c_cnt st)) W4) as (w5 & W5 & E5).
  rewrite E5. cbn [c_src c_plan c_out c_cnt concat app]. rewrite app_nil_r.
  set (kept := filter (fun h => negb (unsafe_header h)) hs').
  exists (concat start ++ texts ++ CRLF ++ body), (length_fields v body ++ map hfield kept).
  eexists. split; [reflexivity|]. split; [cbn [c_out]; rewrite <- !app_assoc; reflexivity|].
  assert (GK : Forall good kept) by (apply Forall_forall; intros h Hh; apply filter_In in Hh as [Hh _]; rewrite Forall_forall in G; auto).
  assert (OK : Forall (fun h => one_line (h_text h)) kept)
    by (apply Forall_forall; intros h Hh; apply filter_In in Hh as [Hh _]; rewrite Forall_forall in O; auto).
  assert (KF : map hfield kept = filter (fun f => negb (is_length_or_conn f)) (hfields hs')) by (apply kept_fields, G).
  split; [|split].
  - assert (T : concat start ++ texts ++ CRLF ++ body =
      (lit "HTTP/1." ++ fmt_ld v ++ [SP] ++ fmt_ld code ++ [SP] ++ lit phrase) ++ CRLF ++
       concat (map (fun t => t ++ CRLF) (map field_text (length_fields v body) ++ map h_text kept)) ++ CRLF ++ body).
    { rewrite map_app, !map_map, concat_app. change (concat (map (fun x => field_text x ++ CRLF) (length_fields v body)))
        with (texts_of (length_fields v body)).
      unfold start, length_fields. rewrite C, R. fold kept in texts. fold texts.
      destruct Hv as [-> | ->]; cbn [Z.eqb Pos.eqb]; rewrite concat_app; cbn [concat].
      - rewrite texts_nil, !app_nil_r. rewrite <- !app_assoc. reflexivity.
      - rewrite texts_two, !app_nil_r. rewrite <- !app_assoc. reflexivity. }
    rewrite T. apply build_texts; auto.
    + apply Forall_app. split; apply Forall_map; [|exact OK].
      eapply Forall_impl; [|apply length_fields_fair]. intros f X. apply fair_line, X.
    + apply Forall2_app.
      * pose proof (length_fields_fair v body) as X. clear - X. induction X; constructor; auto. apply fair_line; auto.
      * clear - GK. induction GK as [|h l X _ IH]; constructor; auto. apply (good_field h X).
    + apply (length_fields_framed v body [] (map hfield kept)); auto; cbn [app]; rewrite KF.
      * rewrite values_filter; auto. intros f N. unfold is_length_or_conn. rewrite !(other_name _ _ f N) by (vm_compute; discriminate). reflexivity.
      * apply values_filter_none. intros f N. unfold is_length_or_conn. apply is_named_iff in N. rewrite N. reflexivity.
  - rewrite values_app, KF, values_filter_none.
    2:{ intros f N. unfold is_length_or_conn. apply is_named_iff in N. rewrite N, orb_true_r. reflexivity. }
    unfold length_fields. destruct Hv as [-> | ->]; reflexivity.
  - intros n N1 N2. rewrite values_app, KF, values_filter.
    2:{ intros f N. unfold is_length_or_conn. apply negb_true_iff, orb_false_iff.
        split; apply not_true_iff_false; intros K; apply is_named_iff in K; unfold named, same_letters in *; congruence. }
    assert (Z : values n (length_fields v body) = []); [|rewrite Z; reflexivity].
    unfold length_fields, values. destruct (v =? 1); [|reflexivity]. cbn [filter].
    destruct (is_named (lit n) (lit "Content-Length", fmt_ld (Z.of_nat (length body)))) eqn:B1;
      [apply is_named_iff in B1; unfold named, same_letters in *; cbn [fst] in *; congruence|].
    destruct (is_named (lit n) (lit "Connection", lit "close")) eqn:B2;
      [apply is_named_iff in B2; unfold named, same_letters in *; cbn [fst] in *; congruence|]. reflexivity.
Qed.
