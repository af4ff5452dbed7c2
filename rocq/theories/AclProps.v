(** C17: access control lists.  C27: the client address of a forwarding chain. *)
From Coq Require Import Ascii String List ZArith Lia Bool Permutation.
From Verif Require Import Bytes ClenSpec NumModel NumSpec NumProofs TokSpec AclModel AclSpec AclProofs.
Import ListNotations.
Local Open Scope nat_scope.

(** C17.  An address matches an access list exactly when some entry of the list has the same
    family and agrees with the address in as many leading bits as its mask says. *)
Theorem C17_match : forall resolve es acl sa,
  resolver_ok resolve -> Forall (proper_entry resolve) es -> sa_ok sa ->
  parse_acl resolve es = POk acl ->
  (acl_match acl sa = 0%Z <->
   exists e addr n, In e es /\ entry resolve e (sa_family sa) addr n /\ same_prefix n addr (sa_addr sa)).
Proof. intros resolve es acl sa R H O P. apply (acl_spec resolve R es acl sa H P O). Qed.
Print Assumptions C17_match.

(** Every list of proper entries is accepted. *)
Theorem C17_accepted : forall resolve es,
  resolver_ok resolve -> Forall (proper_entry resolve) es -> exists acl, parse_acl resolve es = POk acl.
Proof. intros resolve es R. apply (parse_acl_ok resolve R). Qed.
Print Assumptions C17_accepted.

(** The order of the entries does not matter. *)
Theorem C17_order : forall resolve es es' acl acl' sa,
  resolver_ok resolve -> Permutation es es' -> Forall (proper_entry resolve) es -> sa_ok sa ->
  parse_acl resolve es = POk acl -> parse_acl resolve es' = POk acl' ->
  acl_match acl sa = acl_match acl' sa.
Proof. intros resolve es es' acl acl' sa R P H O E E'. apply (acl_order resolve R es es'); auto. Qed.
Print Assumptions C17_order.

(** An entry denotes one network. *)
Theorem C17_entry_unique : forall resolve text f addr n f' addr' n',
  entry resolve text f addr n -> entry resolve text f' addr' n' -> f = f' /\ addr = addr' /\ n = n'.
Proof. exact entry_det. Qed.
Print Assumptions C17_entry_unique.

(** A reference by name gives the list defined under that name, whatever other lists are
    defined, and a second definition of a name is refused. *)
Theorem C17_named : forall l name acl l' name',
  NoDup (map fst l) -> add_named_acl l name acl = Some l' ->
  NoDup (map fst l') /\ acl_by_name l' name = Some acl /\
  (name' <> name -> acl_by_name l' name' = acl_by_name l name').
Proof.
  intros l name acl l' name' N A. destruct (add_named_ok l name acl l' N A) as [-> N']. split; [auto|]. split.
  - apply named_lookup; auto. apply in_or_app. right. left. reflexivity.
  - intros D. destruct (acl_by_name l name') as [b|] eqn:E.
    + apply named_lookup; auto. apply in_or_app. left. apply named_lookup; auto.
    + apply named_absent. apply named_absent in E. rewrite map_app. intros K. apply in_app_or in K. simpl in K. intuition.
Qed.
Print Assumptions C17_named.

Theorem C17_named_twice : forall l name acl acl', acl_by_name l name = Some acl -> add_named_acl l name acl' = None.
Proof. intros l name acl acl' H. unfold add_named_acl. rewrite H. reflexivity. Qed.
Print Assumptions C17_named_twice.

(** A table of numeric addresses for the examples. *)
Definition ip4 (a b c d : N) : sockaddr := mkSa AF_INET (map ascii_of_N [a; b; c; d]).
Definition ex_resolve (t : bytes) : option (list sockaddr) :=
  if bytes_eqb t (lit "10.1.2.3") then Some [ip4 10 1 2 3]
  else if bytes_eqb t (lit "192.0.2.1") then Some [ip4 192 0 2 1]
  else if bytes_eqb t (lit "172.16.0.9") then Some [ip4 172 16 0 9]
  else if bytes_eqb t (lit "::1") then Some [mkSa AF_INET6 (repeat byte_00 15 ++ [ascii_of_N 1])]
  else None.

Example C17_ex_resolver : resolver_ok ex_resolve.
Proof.
  intros t l sa. unfold ex_resolve.
  destruct (bytes_eqb t (lit "10.1.2.3")); [intros [= <-] [<-|[]]; reflexivity|].
  destruct (bytes_eqb t (lit "192.0.2.1")); [intros [= <-] [<-|[]]; reflexivity|].
  destruct (bytes_eqb t (lit "172.16.0.9")); [intros [= <-] [<-|[]]; reflexivity|].
  destruct (bytes_eqb t (lit "::1")); [intros [= <-] [<-|[]]; reflexivity|discriminate].
Qed.

Lemma ex_entry : proper_entry ex_resolve (lit "10.1.2.3/12").
Proof.
  exists AF_INET, (map ascii_of_N [10; 1; 2; 3]%N), 12. split; [|simpl; lia].
  exists (lit "10.1.2.3"), []. split; [reflexivity|]. split; [vm_compute; intuition discriminate|].
  split; [discriminate|]. right. exists (lit "12"). split; [reflexivity|].
  apply (numeral_value decimal 10 _ _ num_digit_decimal). split; [discriminate|vm_compute; auto].
Qed.

Lemma ex_entry6 : proper_entry ex_resolve (lit "::1").
Proof.
  exists AF_INET6, (repeat byte_00 15 ++ [ascii_of_N 1]), 128. split; [|simpl; lia].
  exists (lit "::1"), []. split; [reflexivity|]. split; [vm_compute; intuition discriminate|].
  split; [discriminate|]. left. split; reflexivity.
Qed.

Example C17_ex_match : exists acl,
  Forall (proper_entry ex_resolve) [lit "10.1.2.3/12"; lit "::1"] /\
  parse_acl ex_resolve [lit "10.1.2.3/12"; lit "::1"] = POk acl /\
  acl_match acl (ip4 10 15 200 7) = 0%Z /\ acl_match acl (ip4 10 16 2 3) = 1%Z /\
  acl_match acl (mkSa AF_INET6 (repeat byte_00 15 ++ [ascii_of_N 1])) = 0%Z /\
  acl_match acl (mkSa AF_OTHER []) = (-1)%Z.
Proof.
  eexists. split; [repeat constructor; [exact ex_entry|exact ex_entry6]|]. vm_compute. repeat split; reflexivity.
Qed.

(** A list is only taken if each of its entries has a known address, and a mask that is a number
    with nothing after it.  Partial: the mask may also be empty, out of range or signed. *)
Theorem C17_refused_partial : forall resolve ts acl,
  parse_acl resolve ts = POk acl -> Forall (loose_entry resolve) ts.
Proof. exact parse_acl_loose. Qed.
Print Assumptions C17_refused_partial.

Example C17_ex_refused :
  parse_acl ex_resolve [lit "::1"; lit "10.1.2.3/12x"] = PFail /\
  parse_acl ex_resolve [lit "::1"; lit "10.1.2.3/12/8"] = PFail /\
  parse_acl ex_resolve [lit "nowhere"; lit "::1"] = PFail.
Proof. vm_compute. repeat split; reflexivity. Qed.

(** Mask lengths outside the documented range are not refused: an empty one stands for 0 and
    matches every address, a negative one wraps, and one of 136 or more overruns the mask. *)
Theorem C17_malformed_mask_accepted :
  (exists acl, parse_acl ex_resolve [lit "10.1.2.3/"] = POk acl /\
     (forall sa, sa_family sa = AF_INET -> length (sa_addr sa) = 4 -> acl_match acl sa = 0%Z)) /\
  (exists acl, parse_acl ex_resolve [lit "10.1.2.3/-1"] = POk acl /\ acl_match acl (ip4 11 200 0 0) = 0%Z) /\
  parse_acl ex_resolve [lit "10.1.2.3/136"] = POverflow.
Proof.
  split.
  - eexists. split; [vm_compute; reflexivity|]. intros [f a] F L. cbn [sa_family sa_addr] in *. subst f.
    destruct a as [|a0 [|a1 [|a2 [|a3 [|]]]]]; try discriminate.
    destruct a0, a1, a2, a3. unfold acl_match. cbn. rewrite ?andb_false_r. reflexivity.
  - split; [eexists; split; [vm_compute; reflexivity|vm_compute; reflexivity]|vm_compute; reflexivity].
Qed.
Print Assumptions C17_malformed_mask_accepted.

(** C27.  The address taken from the header is the right-most one that is not trusted, and
    everything to its right is trusted. *)
Theorem C27_rightmost : forall resolve acl hdr ws w peer,
  resolve [] = None -> chain hdr ws ->
  (scan_forwarded_header resolve (Some hdr) (Some acl) = Some w <->
   exists a b, ws = a ++ w :: b /\ untrusted resolve acl w /\ Forall (trusted resolve acl) b) /\
  (scan_forwarded_header resolve (Some hdr) (Some acl) = Some w ->
   i_forwarded_ip resolve (Some hdr) (Some acl) peer = w).
Proof.
  intros resolve acl hdr ws w peer E C. split; [apply scan_some; auto|].
  unfold i_forwarded_ip. intros ->. reflexivity.
Qed.
Print Assumptions C27_rightmost.

(** The peer address is used when all addresses are trusted, or when one is malformed and
    those to its right are trusted. *)
Theorem C27_fallback : forall resolve acl hdr ws peer,
  resolve [] = None -> chain hdr ws ->
  (Forall (trusted resolve acl) ws \/
   exists a w b, ws = a ++ w :: b /\ malformed resolve w /\ Forall (trusted resolve acl) b) ->
  i_forwarded_ip resolve (Some hdr) (Some acl) peer = peer.
Proof.
  intros resolve acl hdr ws peer E C H. unfold i_forwarded_ip.
  apply (scan_none resolve E acl hdr ws C) in H. rewrite H. reflexivity.
Qed.
Print Assumptions C27_fallback.

(** No other case exists: an address from the header is untrusted, well formed and preceded
    (on the right) only by trusted ones, or the peer is used. *)
Theorem C27_complete : forall resolve acl hdr ws peer,
  resolve [] = None -> chain hdr ws ->
  (exists a w b, ws = a ++ w :: b /\ untrusted resolve acl w /\ Forall (trusted resolve acl) b /\
     i_forwarded_ip resolve (Some hdr) (Some acl) peer = w) \/
  ((Forall (trusted resolve acl) ws \/
    exists a w b, ws = a ++ w :: b /\ malformed resolve w /\ Forall (trusted resolve acl) b) /\
   i_forwarded_ip resolve (Some hdr) (Some acl) peer = peer).
Proof.
  intros resolve acl hdr ws peer E C. unfold i_forwarded_ip.
  destruct (scan_forwarded_header resolve (Some hdr) (Some acl)) as [w|] eqn:S.
  - left. apply (scan_some resolve E acl hdr ws w C) in S as (a & b & -> & U & T). exists a, w, b. auto.
  - right. split; [|auto]. apply (scan_none resolve E acl hdr ws C) in S. exact S.
Qed.
Print Assumptions C27_complete.

(** Without the header or without a list of trusted addresses the peer is used. *)
Theorem C27_absent : forall resolve hdr acl peer,
  hdr = None \/ acl = None -> i_forwarded_ip resolve hdr acl peer = peer.
Proof. intros resolve hdr acl peer [-> | ->]; [reflexivity|destruct hdr; reflexivity]. Qed.
Print Assumptions C27_absent.

(** Several fields count as one list in their order. *)
Theorem C27_fields : forall vs ws, fields_chain vs ws ->
  exists hdr, save_forwarded_header false vs = Some hdr /\ chain hdr ws.
Proof.
  intros vs ws H. exists (join_values vs). split; [|apply fields_join; auto].
  destruct H; reflexivity.
Qed.
Print Assumptions C27_fields.

(** Every header value is such a chain, in one way. *)
Theorem C27_chain : forall hdr, exists ws, chain hdr ws /\ forall ws', chain hdr ws' -> ws' = ws.
Proof.
  intros hdr. destruct (chain_exists hdr) as [ws C]. exists ws. split; auto. intros ws' C'. eapply chain_unique; eauto.
Qed.
Print Assumptions C27_chain.

(** The setting of the service, then of the listener, then the global one applies. *)
Theorem C27_settings : forall (A : Type) (s l g : option A) x,
  first_set s l g = Some x <->
  s = Some x \/ (s = None /\ l = Some x) \/ (s = None /\ l = None /\ g = Some x).
Proof.
  intros A s l g x. unfold first_set. destruct s, l; split; intuition congruence.
Qed.
Print Assumptions C27_settings.

Example C27_ex : exists acl, parse_acl ex_resolve [lit "10.1.2.3/8"] = POk acl /\ ex_resolve [] = None /\
  i_forwarded_ip ex_resolve (Some (lit "172.16.0.9, 192.0.2.1,10.1.2.3")) (Some acl) (lit "peer") = lit "192.0.2.1" /\
  i_forwarded_ip ex_resolve (Some (lit "10.1.2.3, 10.1.2.3")) (Some acl) (lit "peer") = lit "peer" /\
  i_forwarded_ip ex_resolve (Some (lit "192.0.2.1, unknown, 10.1.2.3")) (Some acl) (lit "peer") = lit "peer" /\
  chain (lit "192.0.2.1 , 10.1.2.3") [lit "192.0.2.1"; lit "10.1.2.3"] /\
  fields_chain [lit "192.0.2.1"; lit "10.1.2.3"] [lit "192.0.2.1"; lit "10.1.2.3"].
Proof.
  eexists. split; [vm_compute; reflexivity|]. split; [reflexivity|]. split; [vm_compute; reflexivity|].
  split; [vm_compute; reflexivity|]. split; [vm_compute; reflexivity|].
  split; [apply chain_words; vm_compute; reflexivity|].
  apply (fc_more (lit "192.0.2.1") [lit "10.1.2.3"] [lit "192.0.2.1"] [lit "10.1.2.3"]);
    [discriminate|discriminate|apply chain_words; vm_compute; reflexivity|].
  constructor. apply chain_words; vm_compute; reflexivity.
Qed.
