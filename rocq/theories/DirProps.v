(** C70: redirects, error pages and sessions of a configuration.  C71: options that suppress
    log messages, header lines and versions of TLS. *)
From Coq Require Import Ascii String List ZArith Bool Lia.
From Verif Require Import Bytes ClenSpec NumSpec XpdModel XpdSpec UrlModel XpdProofs ReplyModel ReplySpec ReplyProofs DirModel DirSpec DirProofs.
From Verif Require LexSpec KeyModel XpdProps.
Import ListNotations.
Open Scope string_scope.
Open Scope list_scope.
Open Scope Z_scope.

(** ** C70 *)

(** Redirect is accepted exactly with one of the five status codes, 302 if none is given, and
    with a text that contains a URL of HTTP; it is remembered with that code, and whether the
    URL has a path.  Missing: codes from 2^31 on (see below), texts with a newline. *)
Theorem C70_redirect_partial : forall u rest r k, ~ In LF u ->
  let is c := exists a p, parts u a p /\ rd_status r = c /\ rd_url r = (if bytes_eqb p (lit "/") then a else u) /\ (rd_has_uri r = false <-> p = []) in
  (parse_redirect_backend (LexSpec.Quoted u :: rest) = Some (r, k) <-> k = 1%nat /\ is 302) /\
  (forall w n, value w n -> n < 2147483648 ->
     (parse_redirect_backend (LexSpec.Number w :: LexSpec.Quoted u :: rest) = Some (r, k) <->
      k = 2%nat /\ In n redirect_codes /\ is n)).
Proof.
  intros u rest r k N is. split.
  - cbn [parse_redirect_backend]. unfold is. rewrite <- (redirect_to_iff 302 u r N).
    destruct (redirect_to 302 u) as [r'|]; cbn [option_map]; [|split; [discriminate|intros [_ H]; discriminate H]].
    split; [intros [= <- <-]; auto|]. intros [-> [= <-]]. reflexivity.
  - intros w n V L. unfold is. rewrite <- (redirect_to_iff n u r N). apply parse_redirect_iff; assumption.
Qed.
Print Assumptions C70_redirect_partial.

(** Where the client is sent by a Redirect with the URL [u], whose parts are [a] and [p]: to
    what the text stands for and, if there are no substitutions in it and no path, the URL of
    the request after it.  If the path is a single slash, the text is that without the slash. *)
Theorem C70_location_partial : forall c u a p q pieces text k,
  ~ In LF u -> In c redirect_codes -> parts u a p ->
  reads (if bytes_eqb p (lit "/") then a else u) pieces -> sound_queue (ph_smq q) -> Forall (tame q) pieces -> renders q pieces text k ->
  exists r reason, redirect_to c u = Some r /\
    let target := match p with [] => if 0 <? k then text else text ++ http_request_get_url (ph_req q) | _ => text end in
    redirect_response (rd_status r) (rd_url r) (rd_has_uri r) q =
      R_REPLY c reason (lit "Location: " ++ safe_url target ++ CRLF) (redirect_body (safe_url target)).
Proof.
  intros c u a p q pieces text k N I P R Sq T D.
  destruct (redirect_to c u) as [r|] eqn:E.
  - destruct (proj1 (redirect_to_iff c u r N) E) as (a' & p' & P' & S & U & H).
    destruct (location_parts u N) as [_ L]. pose proof (L _ _ P) as X. rewrite (L _ _ P') in X. injection X as -> ->.
    destruct (XpdProps.C16_target_partial c _ pieces (rd_has_uri r) q text k I R Sq T D) as (reason & K).
    exists r, reason. split; [reflexivity|]. rewrite U, S, K. destruct p as [|x p].
    + destruct H as [_ H]. rewrite (H eq_refl). cbn [orb]. reflexivity.
    + destruct (rd_has_uri r); [reflexivity|]. destruct H as [H _]. specialize (H eq_refl). discriminate H.
  - exfalso. assert (X : redirect_to c u = Some (mkRedirect c (if bytes_eqb p (lit "/") then a else u) (negb (Nat.eqb (length p) 0)))); [|congruence].
    apply (redirect_to_iff c u _ N). exists a, p. split; [exact P|]. cbn [rd_status rd_url rd_has_uri]. split; [reflexivity|]. split; [reflexivity|].
    destruct p; cbn; split; congruence.
Qed.
Print Assumptions C70_location_partial.

(** Expected: a URL with a path, even a mere slash, is used as it is.  The slash is dropped. *)
Theorem C70_slash_refuted : forall c a, ~ In LF a -> begins (a ++ lit "/") a (lit "/") ->
  redirect_to c (a ++ lit "/") = Some (mkRedirect c a true).
Proof.
  intros c a N B. assert (M : ~ In LF (a ++ lit "/")) by (intros I; apply in_app_or in I; destruct I as [I|[I|[]]]; [contradiction|discriminate I]).
  apply (redirect_to_iff c _ _ M). exists a, (lit "/"). split; [apply begins_parts, B|]. cbn. repeat split; discriminate.
Qed.
Print Assumptions C70_slash_refuted.

(** Expected: other numbers are refused.  Only their value modulo 2^32 is looked at. *)
Theorem C70_code_refuted : forall w c j u a p rest, In c redirect_codes -> value w (c + 4294967296 * j) -> c + 4294967296 * j <= max_length ->
  ~ In LF u -> parts u a p ->
  exists r, parse_redirect_backend (LexSpec.Number w :: LexSpec.Quoted u :: rest) = Some (r, 2%nat) /\ rd_status r = c.
Proof.
  intros w c j u a p rest I V L N P. cbn [parse_redirect_backend]. rewrite (atoi_value w _ V) by (unfold max_length in L; lia).
  rewrite to_int_shift by (cbn in I; lia). rewrite (proj2 (redirect_code_iff c) I).
  unfold redirect_to. destruct (location_parts u N) as [_ X]. rewrite (X _ _ P). eexists. split; reflexivity.
Qed.
Print Assumptions C70_code_refuted.

(** Error is accepted exactly with one of the codes of the table and with a regular file that
    is not empty, or none; the answer has that code, and the text is the content of the file, up to its
    first NUL byte. *)
Theorem C70_error_partial : forall file w n rest status text k, value w n -> n < 2147483648 ->
  (parse_error_backend file (LexSpec.Number w :: rest) = Some ((status, text), k) <->
   (exists phrase, In (n, phrase) phrases) /\ status = http_status_to_pound n /\ pound_to_http_status status = n /\
   ((text = None /\ k = 1%nat /\ exists r, rest = LexSpec.Newline :: r) \/
    exists f c t r, text = Some t /\ k = 2%nat /\ rest = LexSpec.Quoted f :: r /\ file f = Some c /\ c <> [] /\ as_string c t)).
Proof.
  intros file w n rest status text k V L. cbn [parse_error_backend]. rewrite (atoi_small w n V L). cbv zeta.
  destruct (Z.eqb_spec (http_status_to_pound n) (-1)) as [E|E].
  - split; [discriminate|]. intros (X & _). apply known_code in E. contradiction.
  - assert (X : exists phrase, In (n, phrase) phrases).
    { destruct (in_dec Z.eq_dec n (map fst phrases)) as [I|I].
      - apply in_map_iff in I. destruct I as ([n' ph] & Y & I). cbn in Y. subst n'. exists ph. exact I.
      - exfalso. apply E. apply known_code. intros (ph & J). apply I. apply in_map_iff. exists (n, ph). auto. }
    assert (Y : pound_to_http_status (http_status_to_pound n) = n).
    { destruct X as (ph & J). destruct (to_pound n ph J) as (E' & C & _). unfold pound_to_http_status, clamp_err, HTTP_STATUS_MAX.
      destruct (Z.leb_spec 0 (http_status_to_pound n)); [|lia]. destruct (Z.ltb_spec (http_status_to_pound n) 11); [exact C|lia]. }
    split.
    + intros H. split; [exact X|]. destruct rest as [|t rest]; [discriminate|]. destruct t; try discriminate.
      * injection H as <- <- <-. split; [reflexivity|]. split; [exact Y|]. left. eauto.
      * cbn [string_from_file] in H. destruct (file v) as [[|x c]|] eqn:F; [discriminate| |discriminate].
        cbn [option_map fst snd] in H. injection H as <- <- <-. split; [reflexivity|]. split; [exact Y|]. right.
        exists v, (x :: c), (LexModel.cstr (x :: c)), rest. repeat (split; [reflexivity|]). split; [exact F|]. split; [discriminate|].
        apply cstr_as_string. reflexivity.
    + intros (_ & -> & _ & [(-> & -> & r & ->)|(f & c & t & r & -> & -> & -> & F & Nc & A)]); [reflexivity|].
      cbn [string_from_file]. rewrite F. destruct c as [|x c]; [congruence|]. cbn [option_map fst snd].
      apply cstr_as_string in A. rewrite A. reflexivity.
Qed.
Print Assumptions C70_error_partial.

(** After ErrorFile the page of that code is the content of the file; the others stay. *)
Theorem C70_errorfile : forall file pages w n rest pages' k, value w n -> n < 2147483648 ->
  parse_errorfile file pages (LexSpec.Number w :: rest) = Some (pages', k) ->
  exists phrase f c t r, In (n, phrase) phrases /\ rest = LexSpec.Quoted f :: r /\ k = 2%nat /\ file f = Some c /\ as_string c t /\
    pages' (http_status_to_pound n) = Some t /\ forall s, s <> http_status_to_pound n -> pages' s = pages s.
Proof.
  intros file pages w n rest pages' k V L H. cbn [parse_errorfile] in H. rewrite (atoi_small w n V L) in H. cbv zeta in H.
  destruct (Z.eqb_spec (http_status_to_pound n) (-1)) as [E|E]; [discriminate|].
  assert (X : exists phrase, In (n, phrase) phrases).
  { destruct (in_dec Z.eq_dec n (map fst phrases)) as [I|I].
    - apply in_map_iff in I. destruct I as ([n' ph] & Y & I). cbn in Y. subst n'. exists ph. exact I.
    - exfalso. apply E. apply known_code. intros (ph & J). apply I. apply in_map_iff. exists (n, ph). auto. }
  destruct X as (ph & X). destruct rest as [|t rest]; [discriminate|]. destruct t; try discriminate.
  cbn [string_from_file] in H. destruct (file v) as [[|x c]|] eqn:F; [discriminate| |discriminate]. injection H as <- <-.
  exists ph, v, (x :: c), (LexModel.cstr (x :: c)), rest. split; [exact X|]. repeat (split; [reflexivity|]). split; [exact F|].
  split; [apply cstr_as_string; reflexivity|]. rewrite Z.eqb_refl. split; [reflexivity|]. intros s D.
  destruct (Z.eqb_spec s (http_status_to_pound n)); [contradiction|reflexivity].
Qed.
Print Assumptions C70_errorfile.

(** A Session section is accepted exactly if each of its statements says something and the
    last ones of each kind, with those of the sections before, give a kind of session, a time to live other than
    zero and, for cookies, URLs and header lines, an identifier. *)
Theorem C70_session : forall s l s', Forall (fun x => sess_number (snd x)) l ->
  (parse_session s l = Some s' <-> exists xs, Forall2 says l xs /\ s' = settled s xs /\ complete s').
Proof. exact parse_session_iff. Qed.
Print Assumptions C70_session.

(** Expected: a section without Type is refused.  A later section may leave out anything that
    an earlier one has said. *)
Theorem C70_session_refuted : forall s l s', parse_session s l = Some s' -> parse_session s' [] = Some s'.
Proof.
  intros s l s' H. unfold parse_session in *. destruct (session_statements s l) as [s1|]; [|discriminate].
  destruct (session_check s1) eqn:C; [|discriminate]. injection H as <-. cbn. rewrite C. reflexivity.
Qed.
Print Assumptions C70_session_refuted.

(** ** C71 *)

(** LogSuppress with words of the manual is accepted, and then the requests that are not logged are exactly
    those whose status is of a class one of the words stands for. *)
Theorem C71_suppress : forall ts ws r rest, Forall2 unq ts ws -> no_word r -> ws <> [] ->
  (Forall known_class ws -> exists m, parse_log_suppress (ts ++ r :: rest) = Some (m, length ts)) /\
  (forall m k, parse_log_suppress (ts ++ r :: rest) = Some (m, k) -> k = length ts /\
     forall status, 100 <= status <= 599 -> (logs m status = false <-> covered ws status)).
Proof.
  intros ts ws r rest F R N. split.
  - intros K. rewrite (parse_log_suppress_loop _ _ _ _ F N). apply (loop_words ts ws r rest F R 0).
    apply Forall_impl with (2 := K). intros w (cs & S). exists cs. left. exact S.
  - intros m k H. exact (log_suppress_logs ts ws r rest m k F R N H).
Qed.
Print Assumptions C71_suppress.

(** Of other words only "6" is accepted ... *)
Theorem C71_suppress_words : forall ts ws r rest m k, Forall2 unq ts ws -> no_word r -> ws <> [] ->
  parse_log_suppress (ts ++ r :: rest) = Some (m, k) -> Forall (fun w => known_class w \/ w = lit "6") ws.
Proof.
  intros ts ws r rest m k F R N H. rewrite (parse_log_suppress_loop _ _ _ _ F N) in H.
  destruct (loop_words ts ws r rest F R 0) as [L _]. destruct (L _ _ H) as (_ & K & _). apply Forall_impl with (2 := K).
  intros w (cs & [S|(E & _)]); [left; exists cs; exact S|right; exact E].
Qed.
Print Assumptions C71_suppress_words.
(** ... which the manual does not have: expected is a refusal. *)
Theorem C71_six_refuted : ~ known_class (lit "6") /\ exists m, parse_log_suppress [LexSpec.Number (lit "6"); LexSpec.Newline] = Some (m, 1%nat) /\
  forall status, 100 <= status <= 599 -> logs m status = true.
Proof.
  assert (Nk : ~ known_class (lit "6")).
  { intros (cs & name & I & W). cbn in I. unfold same_word in W. repeat (destruct I as [[= <- <-]|I]; [discriminate W|]). destruct I. }
  split; [exact Nk|]. exists 64. split; [reflexivity|]. intros st B.
  destruct (log_suppress_logs [LexSpec.Number (lit "6")] [lit "6"] LexSpec.Newline [] 64 1%nat) as [_ H];
    [repeat constructor; right; left; reflexivity|left; reflexivity|discriminate|reflexivity|].
  destruct (logs 64 st) eqn:E; [reflexivity|]. exfalso. apply (H st B) in E. destruct E as (w & cs & [<-|[]] & S & _). apply Nk. exists cs. exact S.
Qed.
Print Assumptions C71_six_refuted.

(** HeaderOption is accepted exactly if all words are known; then each of the two groups of
    header lines is added exactly if it was on and no word turned it off, or some word turned
    it on and none after it turned it off. *)
Theorem C71_header_option : forall ts ws rest o, Forall2 opt_word ts ws ->
  ((exists o' k, parse_header_options o (ts ++ LexSpec.Newline :: rest) = Some (o', k)) <-> Forall known_option ws) /\
  (forall o' k, parse_header_options o (ts ++ LexSpec.Newline :: rest) = Some (o', k) ->
     k = length ts /\ forall f, has o' f = true <-> ends_on (has o f) ws f).
Proof.
  intros ts ws rest o F. destruct (header_options_words ts ws rest F o) as [H1 H2]. split.
  - split.
    + intros (o' & k & E). apply (H1 o' k E).
    + intros K. destruct (H2 K) as (o' & E). exists o', (length ts). exact E.
  - intros o' k E. destruct (H1 o' k E) as (K & _ & T). auto.
Qed.
Print Assumptions C71_header_option.

(** Expected (doc/pound.texi): [HeaderOption off] disables the additional header lines.  It is refused. *)
Theorem C71_off_refuted : forall w rest o, same_word w (lit "off") ->
  parse_header_options o (LexSpec.Ident w :: LexSpec.Newline :: rest) = None.
Proof.
  intros w rest o W. destruct (parse_header_options o (LexSpec.Ident w :: LexSpec.Newline :: rest)) as [[o' k]|] eqn:E; [|reflexivity]. exfalso.
  destruct (header_options_words [LexSpec.Ident w] [w] rest) with (o := o) as [H _]; [repeat constructor|].
  destruct (H o' k E) as (_ & K & _). inversion K as [|x l (f & [[A|A]|[A|[A|A]]]) _]; subst; destruct f; cbn [feature_name] in A;
    pose proof (same_trans w _ _ W A) as X; vm_compute in X; discriminate X.
Qed.
Print Assumptions C71_off_refuted.

(** Disable, in a listener and in a backend: the versions that are refused are exactly those
    that were refused before, the ones named and all older ones. *)
Theorem C71_disable : forall opts ws,
  (Forall (fun w => exists v, names_proto w v) ws <-> disables opts ws <> None) /\
  (forall o, disables opts ws = Some o -> forall v,
     takes o v = false <-> takes opts v = false \/ exists w v', In w ws /\ names_proto w v' /\ age v <= age v') /\
  disables_backend (Some opts) ws = option_map Some (disables opts ws).
Proof.
  intros opts ws. destruct (disables_iff ws opts) as [H1 H2]. split; [split; [exact H2|]|split].
  - intros N. destruct (disables opts ws) as [o|]; [|congruence]. apply (H1 o eq_refl).
  - intros o E v. rewrite !takes_iff. apply (H1 o E).
  - apply disables_backend_some.
Qed.
Print Assumptions C71_disable.

(** TLS 1.3 is never disabled; without TLS, Disable is refused in a backend. *)
Theorem C71_disable_limits : forall ws o, (disables [] ws = Some o -> takes o TLSv1_3 = true) /\
  (ws <> [] -> disables_backend None ws = None).
Proof.
  intros ws o. split.
  - intros E. destruct (takes o TLSv1_3) eqn:T; [reflexivity|]. exfalso. apply takes_iff in T.
    destruct (disables_iff ws []) as [H _]. apply (H o E) in T. destruct T as [[]|(w & v & _ & (name & I & _) & A)].
    cbn in I. repeat (destruct I as [[= <- <-]|I]; [cbn in A; lia|]). destruct I.
  - intros N. destruct ws as [|w ws]; [congruence|]. reflexivity.
Qed.
Print Assumptions C71_disable_limits.

(** *** Cases *)
Example C70_redirect_ex :
  parse_redirect_backend [LexSpec.Number (lit "301"); LexSpec.Quoted (lit "https://www.gnu.org"); LexSpec.Newline] =
    Some (mkRedirect 301 (lit "https://www.gnu.org") false, 2%nat) /\
  parse_redirect_backend [LexSpec.Quoted (lit "https://www.gnu.org/")] = Some (mkRedirect 302 (lit "https://www.gnu.org") true, 1%nat) /\
  parse_redirect_backend [LexSpec.Quoted (lit "https://www.gnu.org/a")] = Some (mkRedirect 302 (lit "https://www.gnu.org/a") true, 1%nat) /\
  parse_redirect_backend [LexSpec.Number (lit "4294967597"); LexSpec.Quoted (lit "http://x"); LexSpec.Newline] =
    Some (mkRedirect 301 (lit "http://x") false, 2%nat) /\
  parse_redirect_backend [LexSpec.Number (lit "304"); LexSpec.Quoted (lit "http://x")] = None /\
  parse_redirect_backend [LexSpec.Quoted (lit "/x")] = None.
Proof. vm_compute. repeat split. Qed.
Example C70_parts_ex : parts (lit "see http:///, HTTP://x/y") (lit "see http:///, HTTP://x") (lit "/y") /\
  begins (lit "https://x" ++ lit "/") (lit "https://x") (lit "/").
Proof.
  split.
  - destruct (location_parts (lit "see http:///, HTTP://x/y")) as [H _]; [intros I; cbn in I; repeat (destruct I as [I|I]; [discriminate I|]); exact I|]. apply (H _ _ []). vm_compute. reflexivity.
  - exists (lit "https://"), (lit "x"). split; [right; reflexivity|]. split; [discriminate|]. split; [intros [I|[]]; discriminate I|].
    split; [reflexivity|]. split; [reflexivity|]. right. exists []. reflexivity.
Qed.
Example C70_location_ex :
  parse_redirect_backend [LexSpec.Number (lit "301"); LexSpec.Quoted (lit "https://www.gnu.org")] = Some (mkRedirect 301 (lit "https://www.gnu.org") false, 2%nat) /\
  redirect_response 301 (lit "https://www.gnu.org") false XpdProps.ex_ph =
  R_REPLY 301 (lit "Moved Permanently") (lit "Location: https://www.gnu.org/a/b?x=1&y" ++ CRLF) (redirect_body (lit "https://www.gnu.org/a/b?x=1&y")).
Proof. split; vm_compute; reflexivity. Qed.
Definition ex_file (f : bytes) : option bytes :=
  if bytes_eqb f (lit "e404") then Some (lit "gone" ++ [NUL; NUL]) else if bytes_eqb f (lit "empty") then Some [] else None.
Example C70_error_ex :
  parse_error_backend ex_file [LexSpec.Number (lit "404"); LexSpec.Quoted (lit "e404"); LexSpec.Newline] = Some ((4, Some (lit "gone")), 2%nat) /\
  parse_error_backend ex_file [LexSpec.Number (lit "503"); LexSpec.Newline] = Some ((10, None), 1%nat) /\
  parse_error_backend ex_file [LexSpec.Number (lit "404"); LexSpec.Quoted (lit "empty"); LexSpec.Newline] = None /\
  parse_error_backend ex_file [LexSpec.Number (lit "418"); LexSpec.Newline] = None /\
  (exists p, parse_errorfile ex_file (fun _ => None) [LexSpec.Number (lit "404"); LexSpec.Quoted (lit "e404")] = Some (p, 2%nat) /\ p 4 = Some (lit "gone") /\ p 3 = None).
Proof. repeat split. eexists. split; [vm_compute; reflexivity|]. split; reflexivity. Qed.
Example C70_session_ex :
  parse_session no_sess [(K_TYPE, LexSpec.Ident (lit "Cookie")); (K_TTL, LexSpec.Number (lit "300")); (K_ID, LexSpec.Quoted (lit "sid"))] =
    Some (mkSess KeyModel.SESS_COOKIE 300 (Some (lit "sid"))) /\
  parse_session no_sess [(K_TYPE, LexSpec.Ident (lit "Cookie")); (K_TTL, LexSpec.Number (lit "300"))] = None /\
  parse_session no_sess [(K_TYPE, LexSpec.Ident (lit "IP")); (K_TTL, LexSpec.Number (lit "300"))] = Some (mkSess KeyModel.SESS_IP 300 None) /\
  parse_session no_sess [(K_TYPE, LexSpec.Ident (lit "IP"))] = None /\
  parse_session no_sess [(K_TTL, LexSpec.Number (lit "300"))] = None.
Proof. vm_compute. repeat split. Qed.
Example C71_suppress_ex : exists m,
  parse_log_suppress [LexSpec.Ident (lit "Success"); LexSpec.Number (lit "3"); LexSpec.Newline] = Some (m, 2%nat) /\
  map (logs m) [100; 200; 299; 301; 404; 503] = [true; false; false; false; true; true] /\
  parse_log_suppress [LexSpec.Ident (lit "success"); LexSpec.Number (lit "7"); LexSpec.Newline] = None.
Proof. eexists. split; [vm_compute; reflexivity|]. split; vm_compute; reflexivity. Qed.
Example C71_header_ex :
  parse_header_options (mkHo true true) [LexSpec.Ident (lit "none"); LexSpec.Ident (lit "ssl"); LexSpec.Newline] = Some (mkHo false true, 2%nat) /\
  parse_header_options (mkHo true true) [LexSpec.Literal (lit "no-ssl"); LexSpec.Newline] = Some (mkHo true false, 1%nat) /\
  parse_header_options (mkHo true true) [LexSpec.Ident (lit "off"); LexSpec.Newline] = None.
Proof. vm_compute. repeat split. Qed.
Example C71_disable_ex : exists o, disables [] [lit "SSLv2"; lit "TLSv1"] = Some o /\
  map (takes o) [SSLv2; SSLv3; TLSv1; TLSv1_1; TLSv1_2; TLSv1_3] = [false; false; false; true; true; true] /\
  disables [] [lit "tlsv1"] = None.
Proof. eexists. split; [vm_compute; reflexivity|]. split; vm_compute; reflexivity. Qed.
