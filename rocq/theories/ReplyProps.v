(** C50: files served by the ACME directive.  C51: replies made by the server itself. *)
From Coq Require Import Ascii String List ZArith Lia.
From Verif Require Import Bytes ClenSpec StreamSpec TokSpec ReqSpec FrameSpec ReqModel HdrProofs UrlModel XpdModel CondModel AclModel
  StreamModel StreamProofs RespSpec ReplyModel ReplySpec ReplyProofs ReplyFileProofs.
Import ListNotations.
Open Scope Z_scope.

(** ** C51 *)

(** The status codes that can be configured are those of the table, and the code is what is sent. *)
Theorem C51_codes : forall code,
  (forall phrase, In (code, phrase) phrases -> pound_to_http_status (http_status_to_pound code) = code) /\
  ((forall phrase, ~ In (code, phrase) phrases) -> http_status_to_pound code = -1).
Proof.
  intros code. split; [|apply to_pound_none]. intros phrase H. destruct (to_pound code phrase H) as (E & C & _).
  unfold pound_to_http_status, clamp_err, HTTP_STATUS_MAX.
  destruct (Z.leb_spec 0 (http_status_to_pound code)); [|lia]. destruct (Z.ltb_spec (http_status_to_pound code) 11); [exact C|lia].
Qed.
Print Assumptions C51_codes.

(** An error reply is one well delimited message with that code; its body is the page configured for the
    code or, if there is none, a page that names the code and the reason. *)
Theorem C51_error : forall v code phrase pages st, v = 0 \/ v = 1 -> In (code, phrase) phrases ->
  let err := http_status_to_pound code in
  all_ok (c_wr st) ->
  exists page, (pages err = Some page \/
      pages err = None /\ occurs (lit phrase) page /\ exists n, occurs n page /\ numeral decimal 10 n code) /\
    (Z.of_nat (length page) <= max_length ->
     exists msg fs, c_out (http_err_reply v err pages st) = c_out st ++ msg /\
       message false msg v code fs page /\
       values "Content-Type" fs = [lit "text/html"] /\ values "Connection" fs = (if v =? 1 then [lit "close"] else [])).
Proof.
  intros v code phrase pages st Hv Hp err W.
  exists (match pages err with Some p => p | None => default_error_page (status_entry err) end). split.
  - destruct (pages err) as [p|]; [auto|]. right. split; auto.
    destruct (to_pound code phrase Hp) as (E & C & R & _ & A). fold err in C, R. unfold default_error_page. rewrite C, R. split.
    + exists (lit "<!DOCTYPE HTML PUBLIC " ++ [QUOTE] ++ lit "-//IETF//DTD HTML 2.0//EN" ++ [QUOTE]
        ++ lit "><html><head><title>" ++ LogModel.fmt_ld code ++ [SP]). eexists. rewrite <- !app_assoc. reflexivity.
    + exists (LogModel.fmt_ld code). split; [|apply fmt_numeral; unfold all_codes in A; cbn [In] in A; lia].
      exists (lit "<!DOCTYPE HTML PUBLIC " ++ [QUOTE] ++ lit "-//IETF//DTD HTML 2.0//EN" ++ [QUOTE]
        ++ lit "><html><head><title>"). eexists. rewrite <- !app_assoc. reflexivity.
  - intros L. apply (error_reply_message v code phrase pages st Hv Hp L W).
Qed.
Print Assumptions C51_error.

(** C51 is false for HEAD: the page is sent after a head that is a complete response. *)
Theorem C51_head_refuted : forall v code phrase pages st, v = 0 \/ v = 1 -> In (code, phrase) phrases ->
  let err := http_status_to_pound code in
  all_ok (c_wr st) -> pages err = None ->
  exists head fs page, c_out (http_err_reply v err pages st) = c_out st ++ head ++ page /\
    message true head v code fs [] /\ page <> [].
Proof.
  intros v code phrase pages st Hv Hp err W P.
  destruct (error_reply_head v code phrase pages st Hv Hp W) as (h & fs & E & M). fold err in E. rewrite P in E.
  exists h, fs, (default_error_page (status_entry err)). split; [exact E|]. split; [exact M|discriminate].
Qed.
Print Assumptions C51_head_refuted.

(** The reply of an Error backend: the text given there, else the page of the listener, else the text of
    the status; the header fields are those the response rules make of the standard ones, except that
    Content-Length and Connection are Pound's own. *)
Theorem C51_error_backend : forall v code phrase text pages rules hs' st, v = 0 \/ v = 1 -> In (code, phrase) phrases ->
  (forall hs, hfields hs = [(lit "Expires", lit "now"); (lit "Pragma", lit "no-cache"); (lit "Cache-control", lit "no-cache,no-store")] ->
     rules hs = Some hs') ->
  Forall good hs' -> Forall (fun h => one_line (h_text h)) hs' -> values "Transfer-Encoding" (hfields hs') = [] ->
  let err := http_status_to_pound code in
  let body := match text with Some t => t | None => match pages err with Some t => t | None => hs_text (status_entry err) end end in
  Z.of_nat (length body) <= max_length -> all_ok (c_wr st) ->
  exists msg fs st', error_response v err text pages rules st = (0, st') /\ c_out st' = c_out st ++ msg /\
    message false msg v code fs body /\ values "Connection" fs = (if v =? 1 then [lit "close"] else []) /\
    (forall n, ~ same_letters (lit n) (lit "Content-Length") -> ~ same_letters (lit n) (lit "Connection") ->
       values n fs = values n (hfields hs')).
Proof. exact error_backend_message. Qed.
Print Assumptions C51_error_backend.

(** Redirects *)
Theorem C51_redirect : forall v code url has_uri ph reason loc body, v = 0 \/ v = 1 ->
  redirect_response code url has_uri ph = R_REPLY code reason loc body ->
  Z.of_nat (length body) <= max_length ->
  exists fs target, message false (concat (redirect_reply v code reason loc body)) v code fs body /\
    values "Location" fs = [target] /\ loc = lit "Location: " ++ target ++ CRLF.
Proof. exact redirect_message. Qed.
Print Assumptions C51_redirect.

(** The control interface and the metrics *)
Theorem C51_json : forall str, Z.of_nat (length str) <= max_length ->
  exists fs, message false (concat (json_reply str)) 1 200 fs str /\ values "Content-Type" fs = [lit "application/json"] /\
    values "Connection" fs = [lit "close"].
Proof. exact json_message. Qed.
Print Assumptions C51_json.

Theorem C51_metrics : forall v content, v = 0 \/ v = 1 -> Z.of_nat (length content) <= max_length ->
  exists fs, message false (concat (metrics_reply v content)) v 200 fs content /\
    values "Content-Type" fs = [lit "application/openmetrics-text; version=1.0.0; charset=utf-8"].
Proof. exact metrics_message. Qed.
Print Assumptions C51_metrics.

(** ** C50 *)

(** The service takes the requests below the directory of the challenges and no others. *)
Theorem C50_selected : forall e ph, (exists p, match_cond e acme_cond ph = CRes 1 p) <->
  exists name, r_url (ph_req ph) = lit "/.well-known/acme-challenge/" ++ name /\ name <> [].
Proof. intros e. exact (acme_selects e (fun _ => true) []). Qed.
Print Assumptions C50_selected.

(** A file below the configured directory is sent under its name, whole and well delimited, if there
    are no request rules. *)
Theorem C50_served_partial : forall e root readable wd d, stored root wd d ->
  forall ph p v st loc content, v = 0 \/ v = 1 -> all_ok (c_wr st) ->
  match_cond e acme_cond ph = CRes 1 p -> length (smq_sm (ph_smq ph)) = SMQ_SIZE ->
  r_url (ph_req ph) = lit "/.well-known/acme-challenge/" ++ path_of loc ->
  stored d loc (NFile content) -> loc <> [] -> Forall file_name loc -> Z.of_nat (length (path_of loc)) < 4096 ->
  readable (wd ++ loc) = true -> Z.of_nat (length content) <= max_length ->
  exists msg fs st', acme_response e [] [] root readable wd v p st = LRes HTTP_STATUS_OK st' /\
    c_out st' = c_out st ++ msg /\ message false msg v 200 fs content.
Proof. exact acme_file. Qed.
Print Assumptions C50_served_partial.

(** A name that is not there gets one 404 reply, and the connection is closed. *)
Theorem C50_missing_partial : forall e root readable wd d, stored root wd d ->
  forall ph p v st pages loc l c rest, v = 0 \/ v = 1 -> all_ok (c_wr st) ->
  match_cond e acme_cond ph = CRes 1 p -> length (smq_sm (ph_smq ph)) = SMQ_SIZE ->
  r_url (ph_req ph) = lit "/.well-known/acme-challenge/" ++ path_of (loc ++ c :: rest) ->
  stored d loc (NDir l) -> ~ In c (map fst l) -> Forall file_name (loc ++ c :: rest) ->
  Z.of_nat (length (path_of (loc ++ c :: rest))) < 4096 ->
  (forall p, pages HTTP_STATUS_NOT_FOUND = Some p -> Z.of_nat (length p) <= max_length) ->
  exists s st' msg fs page, acme_response e [] [] root readable wd v p st = LRes s st' /\
    finish_local v pages (s, st') = (true, http_err_reply v s pages st') /\
    c_out (http_err_reply v s pages st') = c_out st ++ msg /\ message false msg v 404 fs page.
Proof. exact acme_none. Qed.
Print Assumptions C50_missing_partial.

(** Whatever the name, if it is relative and no component of it is ".." and there are no links, only files below the
    directory are sent. *)
Theorem C50_confined_partial : forall e root readable wd d, stored root wd d ->
  forall ph p v st name s st', v = 0 \/ v = 1 -> all_ok (c_wr st) -> link_free d ->
  match_cond e acme_cond ph = CRes 1 p -> length (smq_sm (ph_smq ph)) = SMQ_SIZE ->
  r_url (ph_req ph) = lit "/.well-known/acme-challenge/" ++ name -> ~ goes_up name -> ~ absolute name ->
  (forall loc c, stored d loc (NFile c) -> Z.of_nat (length c) <= max_length) ->
  acme_response e [] [] root readable wd v p st = LRes s st' ->
  (exists loc content msg fs, s = HTTP_STATUS_OK /\ stored d loc (NFile content) /\ readable (wd ++ loc) = true /\
     c_out st' = c_out st ++ msg /\ message false msg v 200 fs content) \/
  (s <> HTTP_STATUS_OK /\ (c_out st' = c_out st \/ exists head fs, c_out st' = c_out st ++ head /\ message true head v 200 fs [])).
Proof. exact acme_confined. Qed.
Print Assumptions C50_confined_partial.

(** C50 is false in general: every file that the server can read, wherever it is, is sent to whoever asks for
    it by its absolute name. *)
Theorem C50_confined_refuted : forall e root readable wd,
  forall ph p v st loc content, v = 0 \/ v = 1 -> all_ok (c_wr st) ->
  match_cond e acme_cond ph = CRes 1 p -> length (smq_sm (ph_smq ph)) = SMQ_SIZE ->
  r_url (ph_req ph) = lit "/.well-known/acme-challenge/" ++ lit "/" ++ path_of loc ->
  stored root loc (NFile content) -> loc <> [] -> Forall file_name loc -> Z.of_nat (length (lit "/" ++ path_of loc)) < 4096 ->
  readable loc = true -> Z.of_nat (length content) <= max_length ->
  exists msg fs st', acme_response e [] [] root readable wd v p st = LRes HTTP_STATUS_OK st' /\
    c_out st' = c_out st ++ msg /\ message false msg v 200 fs content.
Proof. exact acme_absolute. Qed.
Print Assumptions C50_confined_refuted.

(** A directory gets the head of a success and then a second, complete, error reply. *)
Theorem C50_directory_refuted : forall e root readable wd d, stored root wd d ->
  forall ph p v st pages loc l, v = 0 \/ v = 1 -> all_ok (c_wr st) ->
  match_cond e acme_cond ph = CRes 1 p -> length (smq_sm (ph_smq ph)) = SMQ_SIZE ->
  r_url (ph_req ph) = lit "/.well-known/acme-challenge/" ++ path_of loc ->
  stored d loc (NDir l) -> loc <> [] -> Forall file_name loc -> Z.of_nat (length (path_of loc)) < 4096 -> readable (wd ++ loc) = true ->
  (forall p, pages HTTP_STATUS_INTERNAL_SERVER_ERROR = Some p -> Z.of_nat (length p) <= max_length) ->
  exists s st' head fs msg fs' page, acme_response e [] [] root readable wd v p st = LRes s st' /\
    c_out (snd (finish_local v pages (s, st'))) = c_out st ++ head ++ msg /\
    message true head v 200 fs [] /\ message false msg v 500 fs' page.
Proof. exact acme_directory. Qed.
Print Assumptions C50_directory_refuted.

(** A request rule with a condition, even one that does not hold, makes every request fail: the name is
    taken from the last condition tried. *)
Theorem C50_rules_refuted : forall e root readable wd re ops v p st, length (smq_sm (ph_smq p)) = SMQ_SIZE ->
  re (r_url (ph_req p)) = None ->
  acme_response e [RRule (COND_URL re) ops None] [] root readable wd v p st = LRes HTTP_STATUS_INTERNAL_SERVER_ERROR st.
Proof. exact acme_rule. Qed.
Print Assumptions C50_rules_refuted.

(** ** Examples *)

Definition disk : node := NDir
  [(lit "etc", NDir [(lit "passwd", NFile (lit "root:x:0:0"))]);
   (lit "acme", NDir [(lit "token", NFile (lit "abc.def")); (lit "sub", NDir [])])].
Definition asking (url : string) : phttp :=
  mkPh (mkReq (lit ("GET " ++ url ++ " HTTP/1.1")%string) (lit "GET") 1 (lit url) None None [] None true) [] smq_init.
Definition nobody : env := mkEnv (mkSa AF_INET (lit "abcd")) (fun _ _ => 1) (fun _ => false).
Definition out0 : cstate := mkC [] [] [] [] 0.
Definition answer (url : string) : bytes :=
  match match_cond nobody acme_cond (asking url) with
  | CRes 1 p =>
      match acme_response nobody [] [] disk (fun _ => true) [lit "acme"] 1 p out0 with
      | LRes s st => c_out (snd (finish_local 1 (fun _ => None) (s, st)))
      | LUndef _ => lit "undefined"
      end
  | _ => lit "not selected"
  end.
Definition ok_reply (n body : string) : bytes :=
  lit "HTTP/1.1 200 OK" ++ CRLF ++ lit "Content-Type: text/html" ++ CRLF ++ lit "Content-Length: " ++ lit n ++ CRLF ++
  lit "Connection: close" ++ CRLF ++ CRLF ++ lit body.

Example C50_ex_token : answer "/.well-known/acme-challenge/token" = ok_reply "7" "abc.def".
Proof. vm_compute. reflexivity. Qed.
Example C50_ex_up : answer "/.well-known/acme-challenge/../etc/passwd" = ok_reply "10" "root:x:0:0".
Proof. vm_compute. reflexivity. Qed.
Example C50_ex_absolute : answer "/.well-known/acme-challenge//etc/passwd" = ok_reply "10" "root:x:0:0".
Proof. vm_compute. reflexivity. Qed.
Example C50_ex_stored : stored disk [lit "acme"] (NDir [(lit "token", NFile (lit "abc.def")); (lit "sub", NDir [])]) /\
  link_free (NDir [(lit "token", NFile (lit "abc.def")); (lit "sub", NDir [])]) /\
  Forall file_name [lit "token"] /\ ~ goes_up (lit "token") /\ ~ absolute (lit "token").
Proof.
  split; [apply stored_iff; vm_compute; reflexivity|]. split.
  - intros loc t H. inversion H as [|l a b name n loc' x' El Na St]; subst.
    destruct a as [|q a]; cbn in El; injection El as E1 E2; subst; [inversion St|].
    destruct a as [|q' a]; cbn in E2; injection E2 as E3 E4; subst; [|destruct a; discriminate].
    inversion St as [|l2 a2 b2 name2 n2 loc2 x2 El2 _ _]; subst. destruct a2; discriminate.
  - split; [constructor; [|constructor]; repeat split; try discriminate; [cbn; intuition discriminate|cbn; lia]|].
    split; [|intros (b & K); discriminate].
    intros (a & b & K & _). assert (I : In "."%char (lit "token")) by (rewrite K; apply in_or_app; right; left; reflexivity).
    cbn in I. intuition discriminate.
Qed.
Example C50_ex_missing : exists rest, answer "/.well-known/acme-challenge/none" = lit "HTTP/1.1 404 Not Found" ++ CRLF ++ rest.
Proof. eexists. vm_compute. reflexivity. Qed.
Example C51_ex_error : c_out (http_err_reply 1 (http_status_to_pound 503) (fun e => if e =? 10 then Some (lit "busy") else None) out0) =
  lit "HTTP/1.1 503 Service Unavailable" ++ CRLF ++ lit "Content-Type: text/html" ++ CRLF ++ lit "Content-Length: 4" ++ CRLF ++
  lit "Connection: close" ++ CRLF ++ lit "Expires: now" ++ CRLF ++ lit "Pragma: no-cache" ++ CRLF ++
  lit "Cache-control: no-cache,no-store" ++ CRLF ++ CRLF ++ lit "busy".
Proof. vm_compute. reflexivity. Qed.
Example C51_ex_backend : exists hs', Forall good hs' /\ Forall (fun h => one_line (h_text h)) hs' /\
  values "Transfer-Encoding" (hfields hs') = [] /\ hfields hs' = [(lit "X-Reason", lit "closed"); (lit "Content-Length", lit "99")].
Proof.
  exists [qualify_header (lit "X-Reason: closed"); qualify_header (lit "Content-Length: 99")]. split.
  - repeat constructor.
  - split; [repeat constructor; cbn; intuition discriminate|split; reflexivity].
Qed.
