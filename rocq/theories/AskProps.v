(** C67: what poundctl asks for. *)
From Coq Require Import Ascii String List ZArith Bool Lia.
From Verif Require Import Bytes ClenSpec NumSpec NumModel NumProofs StreamSpec AskModel AskSpec AskProofs.
From Verif Require PtlModel StreamModel ReqModel HdrProofs CtlModel CtlSpec CtlProofs CtlProps AuthModel AuthSpec.
Import ListNotations.
Local Open Scope string_scope.
Local Open Scope list_scope.
Local Open Scope Z_scope.

(** Each command of the manual sends one request, which pound reads whole: the method and
    the resource of the command, under the path of the URL, with the host and the
    credentials of the URL.  Partial: arguments without spaces and control characters (C67_space_refuted), sessions addressed by
    numbers (C67_name_refuted), credentials of at most 48 bytes (C67_credentials_refuted). *)
Theorem C67_request_partial : forall u argv m t, wants argv m t -> proper u -> short u -> sendable (PtlModel.path u ++ t) ->
  exists bs line hs, ask u argv = Some bs /\ ReqModel.http_request_read [] (map StreamModel.RByte bs) = ReqModel.RR_ok line hs []
    /\ ReqModel.parse_http_request line 1 = (ReqModel.ST_OK, Some (ReqModel.mkRL m (PtlModel.path u ++ t) 1))
    /\ Forall HdrProofs.good hs /\ carried u (HdrProofs.hfields hs).
Proof. exact delivered. Qed.
Print Assumptions C67_request_partial.

(** The daemon finds in it the user and the password of the URL. *)
Theorem C67_credentials_partial : forall l u argv m t n p, AuthSpec.sound_lib l -> decodes l ->
  wants argv m t -> proper u -> short u -> sendable (PtlModel.path u ++ t) ->
  PtlModel.user u = Some n -> PtlModel.pass u = Some p -> ~ In NUL (n ++ p) ->
  exists bs line hs, ask u argv = Some bs /\ ReqModel.http_request_read [] (map StreamModel.RByte bs) = ReqModel.RR_ok line hs []
    /\ AuthModel.http_request_get_basic_auth l hs = AuthModel.Creds n p.
Proof.
  intros l u argv m t n p SL D W P SH SE U PA NN. destruct (delivered u argv m t W P SH SE) as (bs & line & hs & A & R & _ & G & C).
  exists bs, line, hs. split; [exact A|]. split; [exact R|]. inversion C as [X E|n' p' e U' P' B E]; [congruence|].
  rewrite U in U'. injection U' as <-. rewrite PA in P'. injection P' as <-.
  destruct P as [_ P]. destruct (P p PA) as (n' & U' & NC). rewrite U in U'. injection U' as <-.
  apply (authorized l hs (PtlModel.host u) n p e SL D G (eq_sym E) B); [|exact NC|exact NN].
  rewrite !app_length. change (length (lit ":")) with 1%nat. specialize (SH n p U PA). lia.
Qed.
Print Assumptions C67_credentials_partial.

(** disable, off, enable and on switch the object addressed, on a control socket of pound. *)
Theorem C67_switch_partial : forall c u w comps (dis : bool),
  (if dis then w = lit "disable" \/ w = lit "off" else w = lit "enable" \/ w = lit "on") ->
  CtlSpec.fits c -> comps <> [] -> Forall CtlSpec.plain comps -> proper u -> short u -> PtlModel.path u = [] ->
  sendable (lit "/listener" ++ CtlSpec.path comps) ->
  exists bs hs r, ask u [w; CtlSpec.path comps] = Some bs /\ served c bs = Some (hs, r) /\
    (forall o, CtlSpec.addressed c comps o -> CtlSpec.protected c o -> r = (CtlModel.NoEffect, CtlModel.Reply CtlModel.BAD_REQUEST)) /\
    (forall o, CtlSpec.addressed c comps o -> ~ CtlSpec.protected c o -> CtlSpec.switchable c o -> r = (CtlModel.SetDisabled o dis, CtlModel.Reply CtlModel.OK)) /\
    ((forall o, ~ CtlSpec.addressed c comps o) -> r = (CtlModel.NoEffect, CtlModel.Reply CtlModel.NOT_FOUND)).
Proof.
  intros c u w comps dis W F N PL P SH E SE.
  assert (G : exists m, wants [w; CtlSpec.path comps] m (lit "/listener" ++ CtlSpec.path comps)
    /\ (meth_of m = CtlModel.DELETE /\ dis = true \/ meth_of m = CtlModel.PUT /\ dis = false)).
  { destruct dis; [exists (lit "DELETE"); split; [apply w_off, W|left; split; reflexivity]|exists (lit "PUT"); split; [apply w_on, W|right; split; reflexivity]]. }
  destruct G as (m & WA & MD). destruct (served_is c u _ _ _ WA P SH E SE) as (bs & hs & A & S & _).
  exists bs, hs, (CtlModel.control_response_basic c (meth_of m) (lit "/listener" ++ CtlSpec.path comps)).
  split; [exact A|]. split; [exact S|].
  pose proof (CtlProps.C30_disable_partial c comps [] (meth_of m) dis F N PL (or_introl eq_refl) MD) as K. cbv zeta in K. rewrite app_nil_r in K.
  destruct K as (K1 & K2 & K3 & K4). split; [exact K1|]. split; [|exact K4]. intros o O1 O2 O3. rewrite (surjective_pairing (CtlModel.control_response_basic _ _ _)).
  rewrite (K2 o O1 O2 O3), (K3 o O1 O2 O3 eq_refl). reflexivity.
Qed.
Print Assumptions C67_switch_partial.

(** delete and add change the session with this key, in the service and for the backend addressed. *)
Theorem C67_session_partial : forall c u comps k,
  CtlSpec.fits c -> proper u -> short u -> PtlModel.path u = [] ->
  ~ In "&"%char k -> (length k <= 127)%nat -> sendable (lit "/session" ++ CtlSpec.path comps ++ lit "?key=" ++ k) ->
  (service_id comps -> exists bs hs r, ask u [lit "delete"; CtlSpec.path comps; k] = Some bs /\ served c bs = Some (hs, r) /\
     (forall l s, CtlSpec.addressed c comps (CtlModel.ObjService l s) -> r = (CtlModel.SessionRemove l s k, CtlModel.Reply CtlModel.OK)) /\
     ((forall o, ~ CtlSpec.addressed c comps o) -> r = (CtlModel.NoEffect, CtlModel.Reply CtlModel.NOT_FOUND))) /\
  (backend_id comps -> exists bs hs r, ask u [lit "add"; CtlSpec.path comps; k] = Some bs /\ served c bs = Some (hs, r) /\
     (forall l s b, CtlSpec.addressed c comps (CtlModel.ObjBackend l s b) -> r = (CtlModel.SessionAdd l s b k, CtlModel.Reply CtlModel.OK)) /\
     ((forall o, ~ CtlSpec.addressed c comps o) -> r = (CtlModel.NoEffect, CtlModel.Reply CtlModel.NOT_FOUND))).
Proof.
  intros c u comps k F P SH E KA KL SE.
  assert (PI : forall a, a = lit "-" \/ index a -> CtlSpec.plain a).
  { intros a [-> |(T & _)].
    - split; [discriminate|]. split; [cbn; intuition discriminate|]. split; [cbn; intuition discriminate|]. right.
      intros (sp & sg & ds & X & Hsp & Hsg & Hne & Hds). destruct sp as [|x sp].
      + destruct Hsg as [-> |[-> | ->]]; cbn in X; [|destruct ds; [congruence|discriminate X]|destruct ds; discriminate X].
        subst ds. inversion Hds as [|y q [d Hd]]; subst. apply num_digit_decimal in Hd as [Hd _]. discriminate Hd.
      + injection X as <- X. inversion Hsp as [|y q Hw]; subst. vm_compute in Hw. intuition discriminate.
    - assert (D : forall x, In x a -> NumModel.num_digit 10 x = true) by (intros x I; exact (number_app a T x I)).
      split; [destruct T; assumption|]. split; [intros I; specialize (D _ I); discriminate D|]. split; [intros I; specialize (D _ I); discriminate D|left; exact T]. }
  split.
  - intros ID. pose proof ID as (a & b & -> & Ha & Hb).
    assert (WA : wants [lit "delete"; CtlSpec.path [a; b]; k] (lit "DELETE") (lit "/session" ++ CtlSpec.path [a; b] ++ lit "?key=" ++ k)) by (apply w_delete; [left; reflexivity|exact ID]).
    destruct (served_is c u _ _ _ WA P SH E SE) as (bs & hs & A & S & _). eexists _, _, _. split; [exact A|]. split; [exact S|].
    destruct (CtlProps.C30_session_partial c [a; b] k F ltac:(discriminate) ltac:(constructor; [exact (PI a Ha)|constructor; [exact (PI b (or_intror Hb))|constructor]]) KA KL) as [K1 K2].
    split; [intros l s O; destruct (K1 _ O) as [_ K]; exact K|]. intros NO. destruct (K2 NO ltac:(cbn; lia)) as [_ K]. exact K.
  - intros ID. pose proof ID as (a & b & x & -> & Ha & Hb & Hx).
    assert (WA : wants [lit "add"; CtlSpec.path [a; b; x]; k] (lit "PUT") (lit "/session" ++ CtlSpec.path [a; b; x] ++ lit "?key=" ++ k)) by (apply w_add; exact ID).
    destruct (served_is c u _ _ _ WA P SH E SE) as (bs & hs & A & S & _). eexists _, _, _. split; [exact A|]. split; [exact S|].
    destruct (CtlProps.C30_session_partial c [a; b; x] k F ltac:(discriminate)
      ltac:(constructor; [exact (PI a Ha)|constructor; [exact (PI b (or_intror Hb))|constructor; [exact (PI x (or_intror Hx))|constructor]]]) KA KL) as [K1 K2].
    split; [intros l s y O; destruct (K1 _ O) as [K _]; exact K|]. intros NO. destruct (K2 NO ltac:(cbn; lia)) as [K _]. exact K.
Qed.
Print Assumptions C67_session_partial.

(** delete is for sessions of a service and add for a backend: with any other object they send nothing. *)
Theorem C67_object : forall u comps k,
  (backend_id comps \/ (exists a, comps = [a] /\ (a = lit "-" \/ index a)) ->
     ask u [lit "delete"; CtlSpec.path comps; k] = None /\ ask u [lit "del"; CtlSpec.path comps; k] = None) /\
  (service_id comps \/ (exists a, comps = [a] /\ (a = lit "-" \/ index a)) -> ask u [lit "add"; CtlSpec.path comps; k] = None).
Proof. exact level_refused. Qed.
Print Assumptions C67_object.

(** The commands are those of the manual, in lower case and with these numbers of arguments: for anything else nothing is sent. *)
Theorem C67_commands : forall u argv bs, ask u argv = Some bs ->
  argv = [] \/ argv = [lit "list"] \/ (exists w a, argv = [w; a] /\ In w [lit "list"; lit "disable"; lit "off"; lit "enable"; lit "on"])
  \/ (exists w a k, argv = [w; a; k] /\ In w [lit "delete"; lit "del"; lit "add"]).
Proof. exact command_words. Qed.
Print Assumptions C67_commands.

(** Listing changes nothing. *)
Theorem C67_list_partial : forall c u argv t, wants argv (lit "GET") t -> proper u -> short u -> PtlModel.path u = [] -> sendable t ->
  exists bs hs r, ask u argv = Some bs /\ served c bs = Some (hs, (CtlModel.NoEffect, r)).
Proof.
  intros c u argv t W P SH E SE. destruct (served_is c u _ _ _ W P SH E SE) as (bs & hs & A & S & _).
  exists bs, hs, (snd (CtlModel.control_response_basic c CtlModel.GET t)). split; [exact A|]. rewrite S.
  change (meth_of (lit "GET")) with CtlModel.GET. rewrite (surjective_pairing (CtlModel.control_response_basic c CtlModel.GET t)) at 1.
  rewrite CtlProps.C30_get. reflexivity.
Qed.
Print Assumptions C67_list_partial.

Definition sample_url : PtlModel.url := PtlModel.mkUrl false [] (lit "localhost") (Some (lit "joe")) (Some (lit "pw")) (PtlModel.Unix (lit "/run/pound")).
Example C67_case : proper sample_url /\ short sample_url /\ wants [lit "off"; lit "/main/a/2"] (lit "DELETE") (lit "/listener/main/a/2")
  /\ sendable (lit "/listener/main/a/2") /\ service_id [lit "-"; lit "0"] /\
  ask sample_url [lit "off"; lit "/main/a/2"]
  = Some (lit "DELETE /listener/main/a/2 HTTP/1.1" ++ CRLF ++ lit "Host: localhost" ++ CRLF ++ lit "Authorization: Basic am9lOnB3" ++ CRLF ++ CRLF).
Proof.
  assert (S : forall s, textb s = true -> ~ In " "%char s -> ~ In "009"%char s -> Z.of_nat (length s) <= 4000 -> sendable s) by (intros s A B C D; split; [apply text_lit, A|auto]).
  split; [|split; [|split; [|split; [|split]]]].
  - split; [apply S; [reflexivity|cbn; intuition discriminate|cbn; intuition discriminate|vm_compute; discriminate]|]. intros p _. exists (lit "joe"). split; [reflexivity|cbn; intuition discriminate].
  - intros n p [= <-] [= <-]. vm_compute. discriminate.
  - apply (w_off (lit "off") (lit "/main/a/2")). right. reflexivity.
  - apply S; [reflexivity|cbn; intuition discriminate|cbn; intuition discriminate|vm_compute; discriminate].
  - exists (lit "-"), (lit "0"). split; [reflexivity|]. split; [left; reflexivity|]. split; [apply number_token_digits; split; [discriminate|reflexivity]|].
    exists 0. split; [|lia]. apply token_numeral; [apply number_token_digits; split; [discriminate|reflexivity]|reflexivity].
  - vm_compute. reflexivity.
Qed.

(** Refuted: that the credentials of the URL are sent.  If they are longer than 48 bytes base64 is broken into
    lines, and so is the header: pound takes the user with the beginning of the password, and drops the rest
    as a header that is none. *)
Theorem C67_credentials_refuted : forall l u argv m t n p p1 p2, AuthSpec.sound_lib l -> decodes l ->
  wants argv m t -> proper u -> sendable (PtlModel.path u ++ t) ->
  PtlModel.user u = Some n -> PtlModel.pass u = Some p -> ~ In NUL (n ++ p) ->
  p = p1 ++ p2 -> length (n ++ lit ":" ++ p1) = 48%nat -> 0 < Z.of_nat (length p2) <= 48 ->
  exists bs line hs, ask u argv = Some bs /\ ReqModel.http_request_read [] (map StreamModel.RByte bs) = ReqModel.RR_ok line hs []
    /\ AuthModel.http_request_get_basic_auth l hs = AuthModel.Creds n p1.
Proof.
  intros l u argv m t n p p1 p2 SL D W P SE U PA NN EP L1 L2.
  assert (EA : n ++ lit ":" ++ p = (n ++ lit ":" ++ p1) ++ p2) by (rewrite EP, <- !app_assoc; reflexivity).
  destruct (cut_off u argv m t n p W P SE U PA) as (bs & line & hs & e & A & R & G & H & B); [rewrite EA, app_length, L1; lia|].
  exists bs, line, hs. split; [exact A|]. split; [exact R|].
  rewrite EA, firstn_app, L1, Nat.sub_diag, <- L1, firstn_all in B. cbn [firstn] in B. rewrite app_nil_r in B.
  destruct P as [_ P]. destruct (P p PA) as (n' & U' & NC). rewrite U in U'. injection U' as <-.
  apply (authorized l hs (PtlModel.host u) n p1 e SL D G H B); [rewrite L1; lia|exact NC|].
  intros I. apply NN. rewrite EP, app_assoc. apply in_or_app. left. exact I.
Qed.
Print Assumptions C67_credentials_refuted.

(** Refuted: that a user without a password is sent, which the manual allows: there is no
    Authorization field at all. *)
Theorem C67_user_refuted : forall u argv m t, wants argv m t -> proper u -> sendable (PtlModel.path u ++ t) -> PtlModel.pass u = None ->
  exists bs line hs, ask u argv = Some bs /\ ReqModel.http_request_read [] (map StreamModel.RByte bs) = ReqModel.RR_ok line hs []
    /\ HdrProofs.hfields hs = [(lit "Host", PtlModel.host u)].
Proof.
  intros u argv m t W P SE N. destruct (delivered u argv m t W P) as (bs & line & hs & A & R & _ & _ & C); [intros n p _ X; congruence|exact SE|].
  exists bs, line, hs. split; [exact A|]. split; [exact R|]. inversion C as [X E|n' p' e U' P' B E]; [reflexivity|congruence].
Qed.
Print Assumptions C67_user_refuted.

(** Refuted: that listeners and services can be named by their names in delete and add, as the manual says and as
    pound would accept: nothing is sent. *)
Theorem C67_name_refuted : forall u k w, w = lit "delete" \/ w = lit "add" ->
  (forall a r, CtlSpec.plain a -> ~ number_token a -> hd_error a <> Some "-"%char -> ask u [w; CtlSpec.path (a :: r); k] = None) /\
  (forall a b r, a = lit "-" \/ index a -> CtlSpec.plain b -> ~ number_token b -> ask u [w; CtlSpec.path (a :: b :: r); k] = None).
Proof.
  intros u k w W. split; [intros a r P N H; exact (listener_refused u a r k w P N H W)|intros a b r A P N; exact (named_refused u a b r k w P N A W)].
Qed.
Print Assumptions C67_name_refuted.

(** Refuted: that any key can be given.  It is put in the URL as it is: the rest after an ampersand is
    lost, so another session is removed. *)
Theorem C67_key_refuted : forall c u comps k rest l s,
  CtlSpec.fits c -> proper u -> short u -> PtlModel.path u = [] -> service_id comps -> Forall CtlSpec.plain comps ->
  ~ In "&"%char k -> (length k <= 127)%nat -> sendable (lit "/session" ++ CtlSpec.path comps ++ lit "?key=" ++ k ++ "&"%char :: rest) ->
  CtlSpec.addressed c comps (CtlModel.ObjService l s) ->
  exists bs hs r, ask u [lit "delete"; CtlSpec.path comps; k ++ "&"%char :: rest] = Some bs /\ served c bs = Some (hs, (CtlModel.SessionRemove l s k, r)).
Proof.
  intros c u comps k rest l s F P SH E ID PL KA KL SE O.
  destruct (served_is c u _ _ _ (w_delete (lit "delete") comps (k ++ "&"%char :: rest) (or_introl eq_refl) ID) P SH E SE) as (bs & hs & A & S & _).
  assert (NE : comps <> []) by (destruct ID as (a & b & -> & _); discriminate).
  pose proof (CtlProps.C30_session_key c comps k rest _ F NE PL KA KL O) as [_ K]. cbv iota in K.
  set (t := lit "/session" ++ CtlSpec.path comps ++ lit "?key=" ++ k ++ "&"%char :: rest) in *.
  exists bs, hs, (snd (CtlModel.control_response_basic c CtlModel.DELETE t)). split; [exact A|]. rewrite S.
  change (meth_of (lit "DELETE")) with CtlModel.DELETE. rewrite (surjective_pairing (CtlModel.control_response_basic c CtlModel.DELETE t)) at 1. rewrite K. reflexivity.
Qed.
Print Assumptions C67_key_refuted.

(** Refuted: the same; with a space in it the request is no request for pound. *)
Theorem C67_space_refuted : forall u comps k1 k2, service_id comps -> PtlModel.path u = [] ->
  ~ In " "%char (CtlSpec.path comps ++ k1) -> k2 <> [] -> hd_error k2 <> Some " "%char ->
  exists t, ask u [lit "delete"; CtlSpec.path comps; k1 ++ lit " " ++ k2] = Some (head_of (lit "DELETE") (t ++ lit " " ++ k2) ++ CRLF
      ++ flat_map (fun l => l ++ CRLF) (fields_text u) ++ CRLF)
    /\ fst (ReqModel.parse_http_request (head_of (lit "DELETE") (t ++ lit " " ++ k2)) 1) = ReqModel.ST_400.
Proof.
  intros u comps k1 k2 ID E NS N2 NK.
  destruct (ask_wants u _ _ _ (w_delete (lit "delete") comps (k1 ++ lit " " ++ k2) (or_introl eq_refl) ID)) as (t' & Et & A & _).
  exists (lit "/session" ++ CtlSpec.path comps ++ lit "?key=" ++ k1). split.
  - rewrite A, request_text, E. cbn [app]. replace (lit "/" ++ t') with ((lit "/session" ++ CtlSpec.path comps ++ lit "?key=" ++ k1) ++ lit " " ++ k2).
    + reflexivity.
    + rewrite <- Et, <- !app_assoc. reflexivity.
  - apply spaced_refused; [cbn; tauto|discriminate| |exact N2|exact NK]. intros I. apply in_app_or in I. destruct I as [I|I]; [cbn in I; intuition discriminate|].
    apply in_app_or in I. destruct I as [I|I]; [apply NS, in_or_app; left; exact I|]. apply in_app_or in I. destruct I as [I|I]; [cbn in I; intuition discriminate|].
    apply NS, in_or_app. right. exact I.
Qed.
Print Assumptions C67_space_refuted.
Example C67_cases : let plainu := PtlModel.mkUrl false [] (lit "localhost") (Some (lit "joe")) None (PtlModel.Unix (lit "/run/pound")) in
  (option_map (fun r => snd r) (match ask sample_url [lit "off"; lit "/main/a/2"] with Some bs => served CtlProps.sample bs | None => None end)
    = Some (CtlModel.SetDisabled (CtlModel.ObjBackend (Some 0%nat) 0%nat 2) true, CtlModel.Reply CtlModel.OK)) /\
  (option_map (fun r => snd r) (match ask sample_url [lit "delete"; lit "/-/0"; lit "k1&x"] with Some bs => served CtlProps.sample bs | None => None end)
    = Some (CtlModel.SessionRemove None 0%nat (lit "k1"), CtlModel.Reply CtlModel.OK)) /\
  ask sample_url [lit "add"; lit "/0/a/1"; lit "k1"] = None /\
  CtlModel.control_response_basic CtlProps.sample CtlModel.PUT (lit "/session/0/a/1?key=k1") = (CtlModel.SessionAdd (Some 0%nat) 0%nat 1 (lit "k1"), CtlModel.Reply CtlModel.OK) /\
  ask plainu [] = Some (lit "GET /listener/ HTTP/1.1" ++ CRLF ++ lit "Host: localhost" ++ CRLF ++ CRLF).
Proof. cbv zeta. split; [vm_compute; reflexivity|]. split; [vm_compute; reflexivity|]. split; [vm_compute; reflexivity|]. split; vm_compute; reflexivity. Qed.
