(** C68: what poundctl makes of the answer. *)
From Coq Require Import Ascii String List ZArith Bool Lia.
From Verif Require Import Bytes StreamModel ClenSpec TokSpec ReqSpec FrameSpec RespSpec NumSpec NumModel NumProofs HdrProofs JsonModel JsonSpec AnsModel AnsSpec AnsProofs AnsMoreProofs.
From Verif Require PtlModel ReplyModel ReplySpec ReplyProofs CtlModel CtlSpec CtlProps AskModel AskSpec AskProps.
Import ListNotations.
Local Open Scope string_scope.
Local Open Scope list_scope.
Local Open Scope Z_scope.

(** From an answer 200 with a JSON text, delimited by its length or by the end of the connection, poundctl takes
    the value of the text (reading JSON is C33).  Partial: lines of the head of at most 4093 characters (C68_long_refuted), without
    blanks at the end (C68_blank_refuted), and no transfer codings (C68_chunked_refuted). *)
Theorem C68_value_partial : forall N s line v fs body rest, answer s line v 200 fs (body ++ rest) -> json_fields v fs body rest ->
  ~ In NUL body -> Z.of_nat (length body) <= INT_MAX ->
  (forall x r, json_parse_string N body = POk N x r -> read_response N s = Got x) /\
  (forall e, json_parse_string N body = PErr N e -> read_response N s = Fails (Bad_json e)).
Proof.
  intros N s line v fs body rest A F NN L. rewrite (read_json N s line v fs body rest A F NN L).
  split; [intros x r ->|intros e ->]; reflexivity.
Qed.
Print Assumptions C68_value_partial.

(** Any other status ends it with a message: the text of the status line. *)
Theorem C68_status : forall N s line v code fs rest t, answer s line v code fs rest -> reason line t -> code <> 200 ->
  read_response N s = Fails (Status t).
Proof.
  intros N s line v cd fs rest t (texts & -> & F & _ & S & _) R NC. unfold head_text. rewrite <- !app_assoc. exact (read_status N line v cd t _ F S R NC).
Qed.
Print Assumptions C68_status.

(** What the daemon writes is what poundctl reads, whatever the value and the indentation.  Partial: the
    values that survive writing and reading (C33). *)
Theorem C68_reply_partial : forall N v i, good N 0 v -> ~ In NUL (json_value_format N (mkFormat i 0) v 0) ->
  Z.of_nat (length (json_value_format N (mkFormat i 0) v 0)) <= INT_MAX ->
  read_response N (concat (ReplyModel.json_reply (json_value_format N (mkFormat i 0) v 0))) = Got (as_read N v).
Proof. exact read_reply. Qed.
Print Assumptions C68_reply_partial.

(** Every error the daemon reports is one for poundctl, with its phrase, whatever error page is configured. *)
Theorem C68_error : forall N pages code phrase, In (code, phrase) ReplySpec.phrases -> code <> 200 ->
  read_response N (concat (ReplyModel.err_reply 1 (ReplyModel.http_status_to_pound code) pages)) = Fails (Status (lit phrase)).
Proof. intros N pages cd phrase I NC. exact (error_reply N _ pages cd phrase I NC eq_refl). Qed.
Print Assumptions C68_error.

(** disable, off, enable and on succeed only if the answer is one with status 200, of a known version,
    and the value true in it. *)
Theorem C68_success : forall N json s out, command_on_off N json s = Exit 0 out ->
  (exists dv sp rest, s = lit "HTTP/1." ++ [dv] ++ sp ++ lit "200" ++ rest /\ (dv = "0"%char \/ dv = "1"%char) /\ sp <> [] /\ Forall (fun c => is_space c = true) sp) /\
  exists a body b rest, s = a ++ body ++ b /\ json_parse_string N body = POk N (JBool N true) rest.
Proof.
  intros N json s out H. unfold command_on_off in H. destruct (read_response N s) as [v|c| |] eqn:E; try discriminate.
  destruct v as [|b|n|n|t|l|l]; try discriminate H. destruct b; [|discriminate H]. exact (success N s _ E).
Qed.
Print Assumptions C68_success.

(** poundctl always ends. *)
Theorem C68_ends : forall N s json, stops_within N -> read_response N s <> Stuck /\ command_on_off N json s <> Endless.
Proof.
  intros N s json SW. pose proof (read_ends N s SW) as R. split; [exact R|]. unfold command_on_off.
  destruct (read_response N s) as [v|c| |]; try congruence. destruct v as [|b|n|n|t|l|l]; try congruence. destruct b; congruence.
Qed.
Print Assumptions C68_ends.

(** Its exit status tells whether the daemon did it: 0 if the object was switched, 1 if it is protected or
    there is none.  Partial: see C67. *)
Theorem C68_told_partial : forall N c u w comps (dis : bool) pages json i,
  (if dis then w = lit "disable" \/ w = lit "off" else w = lit "enable" \/ w = lit "on") ->
  CtlSpec.fits c -> comps <> [] -> Forall CtlSpec.plain comps -> AskSpec.proper u -> AskSpec.short u -> PtlModel.path u = [] ->
  AskSpec.sendable (lit "/listener" ++ CtlSpec.path comps) ->
  exists bs hs eff code, AskModel.ask u [w; CtlSpec.path comps] = Some bs /\ AskModel.served c bs = Some (hs, (eff, code)) /\
    let told st := exists cd out, code = CtlModel.Reply cd /\ command_on_off N json (sent N pages i (JBool N true) cd) = Exit st out in
    (forall o, CtlSpec.addressed c comps o -> CtlSpec.protected c o -> eff = CtlModel.NoEffect /\ told 1) /\
    (forall o, CtlSpec.addressed c comps o -> ~ CtlSpec.protected c o -> CtlSpec.switchable c o -> eff = CtlModel.SetDisabled o dis /\ told 0) /\
    ((forall o, ~ CtlSpec.addressed c comps o) -> eff = CtlModel.NoEffect /\ told 1).
Proof.
  intros N c u w comps dis pages json i W F NE PL P SH E SE.
  destruct (AskProps.C67_switch_partial c u w comps dis W F NE PL P SH E SE) as (bs & hs & [eff cd] & A & S & H1 & H2 & H3).
  exists bs, hs, eff, cd. split; [exact A|]. split; [exact S|]. cbv zeta.
  assert (X4 : In (400, "Bad Request") ReplySpec.phrases) by (right; left; reflexivity).
  assert (X5 : In (404, "Not Found") ReplySpec.phrases) by (do 4 right; left; reflexivity).
  assert (T1 : exists out, command_on_off N json (sent N pages i (JBool N true) CtlModel.BAD_REQUEST) = Exit 1 out).
  { exists []. unfold command_on_off, sent. rewrite (error_reply N 1 _ 400 "Bad Request" X4 ltac:(lia) eq_refl). reflexivity. }
  assert (T2 : exists out, command_on_off N json (sent N pages i (JBool N true) CtlModel.NOT_FOUND) = Exit 1 out).
  { exists []. unfold command_on_off, sent. rewrite (error_reply N 4 _ 404 "Not Found" X5 ltac:(lia) eq_refl). reflexivity. }
  assert (T3 : exists out, command_on_off N json (sent N pages i (JBool N true) CtlModel.OK) = Exit 0 out).
  { eexists. unfold command_on_off, sent. rewrite (read_reply N (JBool N true) i); [reflexivity|constructor|cbn; intuition discriminate|cbn; unfold INT_MAX; lia]. }
  split; [|split].
  - intros o O PR. pose proof (H1 o O PR) as K. injection K as -> ->. split; [reflexivity|]. destruct T1 as (out & T1). exists CtlModel.BAD_REQUEST, out. auto.
  - intros o O PR SW. pose proof (H2 o O PR SW) as K. injection K as -> ->. split; [reflexivity|]. destruct T3 as (out & T3). exists CtlModel.OK, out. auto.
  - intros NO. pose proof (H3 NO) as K. injection K as -> ->. split; [reflexivity|]. destruct T2 as (out & T2). exists CtlModel.NOT_FOUND, out. auto.
Qed.
Print Assumptions C68_told_partial.

(** list, delete and add show the value the daemon sent: as JSON with option -j, else by the template. *)
Theorem C68_shown_partial : forall N json run v i pages, good N 0 v -> ~ In NUL (json_value_format N (mkFormat i 0) v 0) ->
  Z.of_nat (length (json_value_format N (mkFormat i 0) v 0)) <= INT_MAX ->
  command_show N json (Some run) (sent N pages i v CtlModel.OK) =
    match json with Some k => Exit 0 (json_value_format N (mkFormat k 0) (as_read N v) 0) | None => run (as_read N v) end.
Proof. intros N json run v i pages G NN L. unfold command_show, sent. rewrite (read_reply N v i G NN L). destruct json; reflexivity. Qed.
Print Assumptions C68_shown_partial.

(** *** Examples *)
Definition crlf (l : list string) : bytes := concat (map (fun t => lit t ++ CRLF) l).
Example C68_case : forall N, let s := crlf ["HTTP/1.0 200 OK"; "Server: x"; "content-type:application/json"; "Content-Length:  6"; ""] ++ lit "[true]junk" in
  answer s (lit "HTTP/1.0 200 OK") 0 200 [(lit "Server", lit "x"); (lit "content-type", lit "application/json"); (lit "Content-Length", lit "6")] (lit "[true]" ++ lit "junk") /\
  json_fields 0 [(lit "Server", lit "x"); (lit "content-type", lit "application/json"); (lit "Content-Length", lit "6")] (lit "[true]") (lit "junk") /\
  read_response N s = Got (JArray N [JBool N true]).
Proof.
  intros N s. assert (FC : forall t, forallb (fun c => negb (beq c CR || beq c LF || beq c NUL)) t = true -> Z.of_nat (length t) <= 4093 -> fit t) by exact fit_const.
  split; [|split].
  - exists [lit "Server: x"; lit "content-type:application/json"; lit "Content-Length:  6"]. split; [reflexivity|]. split; [apply FC; [reflexivity|vm_compute; discriminate]|].
    split; [repeat (constructor; [apply FC; [reflexivity|vm_compute; discriminate]|]); constructor|].
    split; [apply (ReplyProofs.status_ok 0 200 (lit "OK")); [auto|left; reflexivity]|].
    constructor; [exists (lit " "); split; [reflexivity|]; split; [discriminate|]; split; [apply hname_all; reflexivity|]; split; [repeat constructor|intros c u E; injection E as <- _; intros [X|X]; discriminate X]|].
    constructor; [exists []; split; [reflexivity|]; split; [discriminate|]; split; [apply hname_all; reflexivity|]; split; [repeat constructor|intros c u E; injection E as <- _; intros [X|X]; discriminate X]|].
    constructor; [exists (lit "  "); split; [reflexivity|]; split; [discriminate|]; split; [apply hname_all; reflexivity|]; split; [repeat constructor|intros c u E; injection E as <- _; intros [X|X]; discriminate X]|constructor].
  - split; [constructor; [reflexivity|constructor]|]. left. exists (lit "6"). split; [reflexivity|].
    assert (T : number_token (lit "6")) by (apply number_token_digits; split; [discriminate|reflexivity]). split; [exact T|]. apply token_numeral; [exact T|reflexivity].
  - vm_compute. reflexivity.
Qed.
Example C68_case2 : forall N, read_response N (crlf ["HTTP/1.1 403 Forbidden"; "Content-Length: 2"; ""] ++ lit "no") = Fails (Status (lit "Forbidden")) /\
  command_on_off N None (crlf ["HTTP/1.1 200 OK"; "Content-Length: 5"; ""] ++ lit "false") = Exit 1 [].
Proof. intros N. split; vm_compute; reflexivity. Qed.

(** Refuted: that an answer which breaks off is noticed.  The JSON reader is given memory that was not set. *)
Theorem C68_truncated_refuted : forall N s line v fs body w n, answer s line v 200 fs body ->
  Forall (fun w => w = lit "application/json") (values "Content-Type" fs) ->
  values "Content-Length" fs = [w] -> number_token w -> numeral decimal 10 w n -> Z.of_nat (length body) < n <= INT_MAX ->
  read_response N s = Unset.
Proof.
  intros N s line v fs body w n A CT CL T M L. apply (token_numeral w _ T) in M.
  assert (U : Forall usable fs).
  { apply Forall_forall. intros f I. split; intros E; apply (in_values _ _ _ I) in E.
    - rewrite CL in E. destruct E as [<-|[]]. split; [exact T|]. rewrite <- M. unfold INT_MAX, LONG_MAX in *. lia.
    - rewrite Forall_forall in CT. apply CT, E. }
  rewrite (read_head N s line v fs _ A U), fields_state, CL. cbn [fold_left clen close]. unfold content. cbn [clen close]. rewrite <- M.
  destruct (Z.eqb_spec n (-1)); [lia|]. cbn [negb]. destruct (Z.ltb_spec n 0); [lia|]. destruct (Z.ltb_spec INT_MAX n); [lia|].
  destruct (Z.ltb_spec (Z.of_nat (length body)) n); [reflexivity|lia].
Qed.
Print Assumptions C68_truncated_refuted.

(** Refuted: that what follows the value is looked at.  Anything that begins with the word true is success. *)
Theorem C68_trailing_refuted : forall N junk json, ~ In NUL junk -> Z.of_nat (length junk) <= 2000000000 ->
  exists out, command_on_off N json (concat (ReplyModel.json_reply (lit "true" ++ junk))) = Exit 0 out.
Proof.
  intros N junk json NN L. assert (LL : Z.of_nat (length (lit "true" ++ junk)) <= INT_MAX) by (rewrite app_length; unfold INT_MAX; cbn [length lit]; change (length (lit "true")) with 4%nat; lia).
  destruct (json_answer (lit "true" ++ junk) LL) as [A F].
  assert (R : read_response N (concat (ReplyModel.json_reply (lit "true" ++ junk))) = Got (JBool N true)).
  { rewrite (read_json N _ _ 1 _ (lit "true" ++ junk) [] A F); [reflexivity| |exact LL].
    intros I. apply in_app_or in I. destruct I as [I|I]; [cbn in I; intuition discriminate|exact (NN I)]. }
  eexists. unfold command_on_off. rewrite R. reflexivity.
Qed.
Print Assumptions C68_trailing_refuted.

(** Refuted: that exit status 0 means the object was switched.  For a redirect nothing happens, and the daemon
    answers true. *)
Theorem C68_silent_refuted : exists c u, forall N pages json, exists bs hs out,
  AskModel.ask u [lit "off"; lit "/-/0/0"] = Some bs /\ AskModel.served c bs = Some (hs, (CtlModel.NoEffect, CtlModel.Reply CtlModel.OK)) /\
  command_on_off N json (sent N pages 0 (JBool N true) CtlModel.OK) = Exit 0 out.
Proof.
  exists (CtlModel.mkCfg [] [CtlModel.mkSvc None false [[CtlModel.mkBe CtlModel.OtherKind false]]]), AskProps.sample_url. intros N pages json.
  eexists _, _, _. split; [vm_compute; reflexivity|]. split; [vm_compute; reflexivity|].
  unfold command_on_off, sent. rewrite (read_reply N (JBool N true) 0); [reflexivity|constructor|cbn; intuition discriminate|cbn; unfold INT_MAX; lia].
Qed.
Print Assumptions C68_silent_refuted.

(** Refuted: that other servers of HTTP are understood (the daemon can be behind one).  A parameter of the type is refused. *)
Theorem C68_type_refuted : forall N body param, fit (lit "Content-Type: application/json;" ++ param) ->
  exists t, read_response N (crlf ["HTTP/1.1 200 OK"] ++ (lit "Content-Type: application/json;" ++ param) ++ CRLF ++ body) = Fails (Unexpected_type t).
Proof.
  intros N body param F. exists (lit "application/json;" ++ param). unfold read_response, crlf. cbn [map concat]. rewrite app_nil_r, <- app_assoc. rewrite xgets_line by (apply fit_const; [reflexivity|vm_compute; discriminate]).
  change (response_line (cstr_of (lit "HTTP/1.1 200 OK"))) with (Got (200, lit "OK", 1)). cbn [negb Z.eqb Pos.eqb]. cbn [header_lines].
  rewrite xgets_line by exact F. rewrite fit_cstr by exact F. reflexivity.
Qed.
Print Assumptions C68_type_refuted.

(** Refuted: the same, for blanks after the length. *)
Theorem C68_blank_refuted : forall N body, let h := lit "Content-Length: 4 " in
  read_response N (crlf ["HTTP/1.1 200 OK"] ++ h ++ CRLF ++ body) = Fails (Bad_header h).
Proof.
  intros N body h. unfold read_response, crlf. cbn [map concat]. rewrite app_nil_r, <- app_assoc. rewrite xgets_line by (apply fit_const; [reflexivity|vm_compute; discriminate]).
  change (response_line (cstr_of (lit "HTTP/1.1 200 OK"))) with (Got (200, lit "OK", 1)). cbn [negb Z.eqb Pos.eqb]. cbn [header_lines].
  rewrite xgets_line by (apply fit_const; [reflexivity|vm_compute; discriminate]). reflexivity.
Qed.
Print Assumptions C68_blank_refuted.

(** Refuted: the same, for chunked bodies, which clients of HTTP/1.1 have to understand. *)
Theorem C68_chunked_refuted : forall N s line fs rest, answer s line 1 200 fs rest ->
  Forall (fun w => w = lit "application/json") (values "Content-Type" fs) ->
  values "Transfer-Encoding" fs = [lit "chunked"] -> values "Content-Length" fs = [] -> values "Connection" fs = [] ->
  read_response N s = Fails Protocol_error.
Proof.
  intros N s line fs rest A CT _ CL CN.
  assert (U : Forall usable fs).
  { apply Forall_forall. intros f I. split; intros E; apply (in_values _ _ _ I) in E; [rewrite CL in E; destruct E|]. rewrite Forall_forall in CT. apply CT, E. }
  rewrite (read_head N s line 1 fs _ A U), fields_state, CL, CN. reflexivity.
Qed.
Print Assumptions C68_chunked_refuted.

(** Refuted: that a long field does no harm.  With 4095 characters its end is taken for the end of the head. *)
Theorem C68_long_refuted : forall N t f rest, field_line t (fst f) (snd f) -> Z.of_nat (length t) = 4095 ->
  ~ In CR t -> ~ In LF t -> ~ In NUL t -> Forall (fun n => is_named (lit n) f = false) ["Content-Type"; "Content-Length"; "Connection"] ->
  read_response N (crlf ["HTTP/1.1 200 OK"] ++ t ++ CRLF ++ rest) = Fails Protocol_error.
Proof.
  intros N t f rest FL L NR NL NN NM. unfold read_response, crlf. cbn [map concat]. rewrite app_nil_r, <- app_assoc. rewrite xgets_line by (apply fit_const; [reflexivity|vm_compute; discriminate]).
  change (response_line (cstr_of (lit "HTTP/1.1 200 OK"))) with (Got (200, lit "OK", 1)). cbn [negb Z.eqb Pos.eqb]. cbn [header_lines].
  assert (G : forall t n s, ~ In LF t -> Z.of_nat (length t) = n -> gets n (t ++ CRLF ++ s) = (t, CRLF ++ s)).
  { clear. induction t as [|c t IH]; intros n s NL E; cbn [gets app length] in *.
    - change (CRLF ++ s) with (CR :: LF :: s). cbn [gets]. destruct (Z.leb_spec n 0); [reflexivity|lia].
    - destruct (Z.leb_spec n 0); [lia|]. destruct (beq c LF) eqn:B; [apply beq_eq in B; subst c; exfalso; apply NL; left; reflexivity|].
      rewrite IH; [reflexivity|intros I; apply NL; right; exact I|lia]. }
  assert (D : forall c, ~ In c t -> drop_last c t = t).
  { intros c NC. unfold drop_last. destruct (rev t) as [|x m] eqn:R; [reflexivity|]. destruct (beq x c) eqn:B; [|reflexivity].
    apply beq_eq in B. subst x. exfalso. apply NC. apply in_rev. rewrite R. left. reflexivity. }
  assert (X : xgets (t ++ CRLF ++ rest) = (t, CRLF ++ rest)) by (unfold xgets; rewrite (G t (MAXBUF - 1) rest NL L), (D LF NL), (D CR NR); reflexivity).
  rewrite X. destruct t as [|c t]; [discriminate L|]. rewrite cstr_all by exact NN.
  inversion NM as [|? ? N1 NM1]; subst. inversion NM1 as [|? ? N2 NM2]; subst. inversion NM2 as [|? ? N3 _]; subst.
  rewrite (header_line_step _ _ f FL) by (split; intros E; congruence). unfold field_step. rewrite N2, N3.
  destruct (length ((c :: t) ++ CRLF ++ rest)) as [|m] eqn:LE; [discriminate LE|]. cbn [header_lines]. rewrite xgets_end. reflexivity.
Qed.
Print Assumptions C68_long_refuted.
