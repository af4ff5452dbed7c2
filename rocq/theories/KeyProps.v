(** C40: session key extraction. *)
From Coq Require Import Ascii String List ZArith Lia.
From Verif Require Import Bytes TokSpec ReqModel ReqSpec HdrProofs UrlModel UrlSpec UrlProps JobModel SessModel SessSpec
  KeyModel KeySpec KeyProofs.
Import ListNotations.

(** C40.  The key in a Cookie field is the value, cut to 127 bytes, of the first cookie
    with the configured name; there is none if no cookie has exactly that name. *)
Theorem C40_cookie : forall addr hs r sid k,
  request_key SESS_COOKIE sid addr hs r = Some k <->
  exists s v, field_value (hfields hs) (lit "Cookie") s /\ first_cookie sid s v /\ k = cut v.
Proof. intros. apply cookie_key. Qed.
Print Assumptions C40_cookie.

(** The key in a header field is the value of the first field of that name, cut. *)
Theorem C40_header : forall addr hs r sid k,
  request_key SESS_HEADER sid addr hs r = Some k <->
  exists v, field_value (hfields hs) sid v /\ k = cut v.
Proof. intros. apply header_key. Qed.
Print Assumptions C40_header.

(** With basic authentication it is the credentials of the first Authorization field. *)
Theorem C40_basic : forall addr hs r sid k,
  request_key SESS_BASIC sid addr hs r = Some k <->
  exists s c, field_value (hfields hs) (lit "Authorization") s /\ basic_credentials s c /\ k = cut c.
Proof. intros. apply basic_key. Qed.
Print Assumptions C40_basic.

(** With a URL parameter it is the value of the first query parameter of that name. *)
Theorem C40_url : forall addr hs line m ver url sid k,
  request_key SESS_URL sid addr hs (fresh_req line m ver url) = Some k <->
  exists path q ps, target_parts url path q /\ opt_params q ps /\ value_of ps sid = Some (Some k).
Proof.
  intros addr hs line m ver url sid k. destruct (C09_read line m ver url) as (path & q & ps & T & O & V).
  unfold request_key. rewrite V. split.
  - intros H. exists path, q, ps. split; auto. split; auto. destruct (value_of ps sid) as [[v|]|]; congruence.
  - intros (path' & q' & ps' & T' & O' & V'). destruct (C08_parts_unique _ _ _ _ _ T T') as [-> ->].
    assert (ps = ps') as ->; [|rewrite V'; auto].
    unfold opt_params in *. destruct q'; [eapply C09_params_unique; eauto|congruence].
Qed.
Print Assumptions C40_url.

(** With a path parameter it is what follows the last semicolon of the path. *)
Theorem C40_parm : forall addr hs line m ver url sid k,
  request_key SESS_PARM sid addr hs (fresh_req line m ver url) = Some k <->
  exists path q, target_parts url path q /\ last_piece path k.
Proof.
  intros addr hs line m ver url sid k. destruct (C08_split line m ver url) as (path & q & T & P & _).
  unfold request_key. rewrite P, after_last_spec. split; [eauto|].
  intros (path' & q' & T' & L). destruct (C08_parts_unique _ _ _ _ _ T T') as [-> _]. exact L.
Qed.
Print Assumptions C40_parm.

(** The pieces of a Cookie field and a cookie's value are determined by the text. *)
Theorem C40_cookie_unique : forall sid s v v', first_cookie sid s v -> first_cookie sid s v' -> cut v = cut v'.
Proof.
  intros sid s v v' A B. assert (X := proj2 (key_cookie_spec s sid (cut v)) (ex_intro _ v (conj A eq_refl))).
  assert (Y := proj2 (key_cookie_spec s sid (cut v')) (ex_intro _ v' (conj B eq_refl))). congruence.
Qed.
Print Assumptions C40_cookie_unique.

(** Whatever the key, only its first 127 bytes select the session. *)
Theorem C40_cut : forall ttl key now choice t,
  find_backend_by_key ttl key now choice t = find_backend_by_key ttl (cut key) now choice t.
Proof. exact find_by_key_cut. Qed.
Print Assumptions C40_cut.

(** A request with a key is given the backend of that key's session (see C22), and a
    request without one is balanced. *)
Theorem C40_used : forall ttl ty sid addr hs r now c1 c2 os,
  snd (get_backend ttl ty sid addr hs r now true c1 c2 (table ttl os)) =
  match request_key ty sid addr hs r with
  | Some key => match answer ttl os key now c1 with Some b => Some b | None => c2 end
  | None => c2
  end.
Proof.
  intros. unfold get_backend, answer. cbn [sstep].
  destruct (request_key ty sid addr hs r) as [key|]; [|reflexivity].
  destruct (find_backend_by_key ttl key now c1 (table ttl os)) as [t1 [b|]]; reflexivity.
Qed.
Print Assumptions C40_used.

Example C40_ex_cookie : key_cookie (lit "xsid=1; sidx=2;  SID=abc=d ;sid=e") (lit "sid") = Some (lit "abc=d ").
Proof. vm_compute. reflexivity. Qed.
Example C40_ex_no_cookie : key_cookie (lit "xsid=1; sidx=2; sid; a=sid=1") (lit "sid") = None.
Proof. vm_compute. reflexivity. Qed.
Example C40_ex_basic : key_authbasic (lit "basic  dXNlcjpwdw==") = Some (lit "dXNlcjpwdw==").
Proof. vm_compute. reflexivity. Qed.
Example C40_ex_parm : request_key SESS_PARM [] [] [] (fresh_req [] (lit "GET") 1 (lit "/a;b/c;id=5?x=1")) = Some (lit "id=5").
Proof. vm_compute. reflexivity. Qed.
Example C40_ex_url : request_key SESS_URL (lit "s") [] [] (fresh_req [] (lit "GET") 1 (lit "/a?x=1&s=5&s=6")) = Some (lit "5").
Proof. vm_compute. reflexivity. Qed.
Example C40_ex_header : request_key SESS_HEADER (lit "x-id") [] [qualify_header (lit "Host: a"); qualify_header (lit "X-Id: 77")]
  (fresh_req [] (lit "GET") 1 (lit "/")) = Some (lit "77").
Proof. vm_compute. reflexivity. Qed.
