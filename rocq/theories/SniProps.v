(** C60: which certificate a client of an HTTPS listener gets. *)
From Coq Require Import Ascii String List Bool.
From Verif Require Import Bytes SniModel SniSpec SniProofs.
Import ListNotations.
Local Open Scope string_scope.

(** A client that names a server gets the first certificate, in the order of the configuration,
    one of whose names matches it as a shell pattern, and the first of all if there is none; a client
    that names no server gets the first.  (Partial: a certificate directory has no order of its own,
    and shell patterns are not how certificates are matched, see below.) *)
Theorem C60_choice_partial : forall brackets setting (ds : list (directive setting)) ctxs name,
  parse_listen_https ds = Some ctxs ->
  exists k pc, SNI_server_name brackets ctxs name = Some pc /\ nth_error ctxs k = Some pc /\
    nth_error (files ds) k = Some (pc_cert pc) /\
    match name with
    | None => k = 0
    | Some n => right_one brackets (files ds) n k
    end.
Proof. exact (fun brackets setting => @choice brackets setting). Qed.
Print Assumptions C60_choice_partial.

(** A name without wildcards is matched by itself only, and a wildcard followed by such a name by
    what ends in it. *)
Theorem C60_names : forall brackets p, plain p ->
  (forall s, glob brackets p s <-> s = p) /\
  (forall s, glob brackets ("*"%char :: p) s <-> exists x, s = (x ++ p)%list).
Proof. exact (fun brackets p P => conj (fun s => plain_glob brackets p s P) (fun s => star_glob brackets p s P)). Qed.
Print Assumptions C60_names.

(** Which listeners are accepted. *)
Theorem C60_accepted : forall setting (ds : list (directive setting)),
  parse_listen_https ds <> None <-> acceptable ds.
Proof. exact (fun setting => @accepted setting). Qed.
Print Assumptions C60_accepted.

(** A certificate has the settings made by the directives after the one that names it, all of them
    and no others. *)
Theorem C60_settings_partial : forall setting (ds1 : list (directive setting)) t ds2 ctxs,
  parse_listen_https (ds1 ++ Cert t :: ds2)%list = Some ctxs ->
  forall i, i < length (target_files t) ->
  exists pc, nth_error ctxs (length (files ds1) + i) = Some pc /\ settings pc = made ds2.
Proof. exact (fun setting => @settings_of setting). Qed.
Print Assumptions C60_settings_partial.

(** A directive that the manual says must come after all certificates (ClientCert, Ciphers, lists of CAs and
    revocations) is accepted between two of them, and then does not apply to the second. *)
Theorem C60_settings_refuted : forall setting (x : setting) f1 f2,
  usable f1 -> named f1 -> usable f2 -> named f2 ->
  exists pc1 pc2,
    parse_listen_https [Cert (TRegular f1); Setting x true; Cert (TRegular f2)] = Some [pc1; pc2] /\
    settings pc1 = [x] /\ settings pc2 = [].
Proof. exact (fun setting => @late setting). Qed.
Print Assumptions C60_settings_refuted.

(** Host names do not depend on case, the choice does: if the names of the certificates have no capitals
    and no wildcards, a client that asks for a name with a capital gets the default certificate, also
    if there is one for that name. *)
Theorem C60_case_refuted : forall brackets setting (ds : list (directive setting)) ctxs name,
  parse_listen_https ds = Some ctxs ->
  (forall f p, In f (files ds) -> names_of f p -> plain p /\ no_upper p) -> has_upper name ->
  SNI_server_name brackets ctxs (Some name) = hd_error ctxs.
Proof. exact (fun brackets setting => @case brackets setting). Qed.
Print Assumptions C60_case_refuted.

(** A wildcard certificate is for one label in front of its domain (RFC 6125, 6.4.3).  Here
    it is chosen for any number of labels, and also for none. *)
Theorem C60_wildcard_refuted : forall brackets f d, plain d -> names_of f (lit "*." ++ d)%list ->
  (forall x y, label x -> label y -> is_for brackets f (x ++ lit "." ++ y ++ lit "." ++ d)%list) /\
  is_for brackets f (lit "." ++ d)%list.
Proof.
  intros brackets f d P N.
  assert (P' : plain ("."%char :: d)).
  { constructor; [unfold special; intros [E|[E|[E|E]]]; discriminate|exact P]. }
  assert (W : forall z, is_for brackets f (z ++ lit "." ++ d)%list).
  { intro z; exists (lit "*." ++ d)%list; split; [exact N|]; apply (star_glob brackets ("."%char :: d) _ P').
    exists z; reflexivity. }
  split; [intros x y _ _|exact (W [])].
  replace (x ++ lit "." ++ y ++ lit "." ++ d)%list with ((x ++ lit "." ++ y) ++ lit "." ++ d)%list; [apply W|].
  rewrite <- !app_assoc; reflexivity.
Qed.
Print Assumptions C60_wildcard_refuted.

(** A certificate whose names are all subjectAltNames, with no common name, is refused, and the
    configuration with it. *)
Theorem C60_no_cn_refuted : forall setting (ds : list (directive setting)) f,
  In f (files ds) -> ~ named f -> parse_listen_https ds = None.
Proof.
  intros setting ds f I' N; destruct (parse_listen_https ds) as [c|] eqn:E; [|reflexivity].
  assert (A : parse_listen_https ds <> None) by (rewrite E; discriminate).
  apply accepted in A; destruct A as (_ & _ & A & _); rewrite Forall_forall in A.
  destruct (A f I') as [_ K]; contradiction.
Qed.
Print Assumptions C60_no_cn_refuted.

(** With a certificate directory, the default certificate depends on the order in which the system lists
    the directory: any usable certificate of it that has a common name can be the one. *)
Theorem C60_directory_refuted : forall brackets fs f, In f fs ->
  Forall (fun f => usable f /\ named f) fs ->
  exists es pc ctxs, (forall g, In g fs <-> In (ERegular g) es) /\
    @parse_listen_https unit [Cert (TDirectory es)] = Some ctxs /\
    SNI_server_name brackets ctxs None = Some pc /\ pc_cert pc = f.
Proof.
  intros brackets fs f I' A.
  apply in_split in I'; destruct I' as (l1 & l2 & ->).
  set (es := map ERegular (f :: l1 ++ l2)).
  assert (C : concat (map entry_files es) = f :: l1 ++ l2).
  { unfold es; rewrite map_map; generalize (f :: l1 ++ l2)%list; induction l as [|x l IH]; cbn; [reflexivity|f_equal; exact IH]. }
  assert (K : acceptable [@Cert unit (TDirectory es)]).
  { split; [repeat (apply Forall_cons; [exact I|]); constructor|].
    unfold files; cbn [map concat cert_files target_files]; rewrite app_nil_r, C.
    split; [discriminate|]; split.
    - rewrite Forall_forall in *; intros x H; apply A; rewrite in_app_iff; cbn in *; rewrite in_app_iff in H; tauto.
    - intros [|d1 [|d2 ds1]] y v ds2 Q; discriminate. }
  apply accepted in K; destruct (parse_listen_https [@Cert unit (TDirectory es)]) as [ctxs|] eqn:E; [|contradiction K; reflexivity].
  destruct (choice brackets _ ctxs None E) as (k & pc & H1 & H2 & H3 & ->).
  exists es, pc, ctxs; split; [|split; [exact E|split; [exact H1|]]].
  - intro g; unfold es; split.
    + intro H; apply (in_map ERegular); rewrite in_app_iff in H; cbn in *; rewrite in_app_iff; tauto.
    + intro H; apply in_map_iff in H; destruct H as (x & Q & H); injection Q as ->.
      rewrite in_app_iff; cbn in *; rewrite in_app_iff in H; tauto.
  - unfold files in H3; cbn [map concat cert_files target_files] in H3; rewrite app_nil_r, C in H3.
    cbn in H3; injection H3 as <-; reflexivity.
Qed.
Print Assumptions C60_directory_refuted.

(** Non-vacuity. *)
Definition no_brackets (p : bytes) : option ((byte -> bool) * nat) := None.
Definition ex_cert (cn : string) (sans : list string) : certfile :=
  {| chain_ok := true; key_ok := true; pair_ok := true; readable := true;
     common_names := [Some (lit cn)]; alt_names := map (fun s => Dns (lit s)) sans |}.
Definition ex_listener : list (directive string) :=
  [Cert (TRegular (ex_cert "www.example.org" ["example.org"]));
   Cert (TDirectory [ENotRegular; ERegular (ex_cert "mail.example.com" []); ERegular (ex_cert "*.example.com" ["?.example.net"])]);
   Setting "ClientCert" true].
Example C60_example :
  match parse_listen_https ex_listener with
  | Some ctxs =>
    map (fun n => option_map (fun pc => (server_name pc, settings pc)) (SNI_server_name no_brackets ctxs n))
      [None; Some (lit "example.org"); Some (lit "mail.example.com"); Some (lit "a.example.com");
       Some (lit "x.example.net"); Some (lit "xy.example.net")]
    = [Some (lit "www.example.org", ["ClientCert"]); Some (lit "www.example.org", ["ClientCert"]);
       Some (lit "mail.example.com", ["ClientCert"]); Some (lit "*.example.com", ["ClientCert"]);
       Some (lit "*.example.com", ["ClientCert"]); Some (lit "www.example.org", ["ClientCert"])]
  | None => False
  end.
Proof. vm_compute; reflexivity. Qed.
Example C60_upper_example : has_upper (lit "Mail.example.com") /\ no_upper (lit "mail.example.com").
Proof.
  split; [apply Exists_cons_hd; reflexivity|].
  unfold no_upper; repeat (apply Forall_cons; [reflexivity|]); constructor.
Qed.
Example C60_no_cn_example :
  parse_listen_https [@Cert unit (TRegular {| chain_ok := true; key_ok := true; pair_ok := true; readable := true;
     common_names := []; alt_names := [Dns (lit "www.example.org")] |})] = None.
Proof. reflexivity. Qed.
