(** C66: which daemon poundctl talks to. *)
From Coq Require Import Ascii String List ZArith Bool Lia.
From Verif Require Import Bytes PtlModel PtlSpec PtlProofs PtlSetProofs.
Import ListNotations.
Local Open Scope string_scope.
Local Open Scope list_scope.
Local Open Scope nat_scope.

(** The server in use is the one at top level of .poundctl or the section named by the last
    option -S; of each setting the last one said counts, options after the file.  Without
    a URL the socket is taken from the configuration of pound named by the last -f.
    Partial: options about the server come after -S (C66_order_refuted); peers are verified
    by default only without -S (C66_verify_refuted); TemplatePath has no effect (C66_template_path_refuted). *)
Theorem C66_settings_partial : forall pc dp ep file config opts, well_named config opts -> in_order opts ->
  exists s v, configured config opts v
    /\ tmpl_file s = or_else (either (last_said file_opt opts) (last_said file_said config)) (lit "poundctl.tmpl")
    /\ tmpl_name s = or_else (either (last_said name_opt opts) (last_said name_said config)) (lit "default")
    /\ tmpl_path s = or_else ep dp
    /\ main pc dp ep file config opts =
       match either (s_url v) (match file (or_else (last_said conf_said opts) pc) with Some t => get_socket_name t | None => None end) with
       | None => Fail
       | Some u => match url_parse u with
                   | Parsed x => Connect s (mkServer (Some u) (ca_file v) (ca_path v) (cert v) (verify v)) x
                   | _ => Fail
                   end
       end.
Proof. exact main_settings. Qed.
Print Assumptions C66_settings_partial.

(** A section declared twice, or an option -S with a name that is not there: poundctl connects to nothing. *)
Theorem C66_named : forall pc dp ep file config opts s v x, main pc dp ep file config opts = Connect s v x -> well_named config opts.
Proof. exact main_named. Qed.
Print Assumptions C66_named.

Definition sample_config : list stmt :=
  [Common (Url (lit "http://a")); Server (lit "one") [Url (lit "https://b:1/x"); CAFile (lit "ca")]; TemplateName (lit "xml");
   Server (lit "two") [Verify true]].
Example C66_settings_case : well_named sample_config [OptS (lit "one"); Optj; OptK (lit "me.pem")]
  /\ in_order [OptS (lit "one"); Optj; OptK (lit "me.pem")].
Proof.
  split.
  - split; [cbn; repeat constructor; cbn; intuition discriminate|]. intros n [H|[H|[H|[]]]]; try discriminate H. injection H as <-. cbn. tauto.
  - exists [OptS (lit "one")], [Optj; OptK (lit "me.pem")]. split; [reflexivity|]. split; repeat constructor.
Qed.
Example C66_settings_value : exists s, main (lit "/etc/pound.cfg") (lit "/t") None (fun _ => None) sample_config [OptS (lit "one"); Optj; OptK (lit "me.pem")]
  = Connect s (mkServer (Some (lit "https://b:1/x")) (Some (lit "ca")) None (Some (lit "me.pem")) false)
      (mkUrl true (lit "/x") (lit "b") None None (Inet (lit "b") (lit "1") false)).
Proof. eexists. vm_compute. reflexivity. Qed.

(** Refuted: that the order of options does not matter.  A URL or -k given before -S goes to the
    default server, not to the one in use: with "-s URL -S NAME" the URL of the section is used. *)
Theorem C66_order_refuted : forall pc dp ep file n body u x given,
  url_parse u = Parsed x -> last_said url_said body = Some u ->
  exists s v, main pc dp ep file [Server n body] [Opts given; OptS n] = Connect s v x /\ s_url v = Some u.
Proof.
  intros pc dp ep file n body u x given P L. unfold main.
  change (read_config (initial pc) [Server n body]) with
    (Some (mkSettings default_server [(n, fold_left assign body blank_server)] None (lit "poundctl.tmpl") (lit "default") [] pc false)).
  cbn [options option_step to_server current]. cbn [servers]. unfold find_server at 1. cbn [find fst]. rewrite bytes_eqb_refl.
  cbv zeta. unfold the_server. cbn [current servers]. unfold find_server. cbn [find fst]. rewrite bytes_eqb_refl. cbn [snd].
  destruct (fold_assign body blank_server) as (U & _). rewrite U, L. cbn [either]. rewrite P.
  eexists _, _. split; reflexivity.
Qed.
Print Assumptions C66_order_refuted.

(** Refuted: that peers are verified unless -k or Verify says otherwise.  The manual says so; in
    a Server section that does not mention Verify verification is off, so poundctl sends the
    credentials to whoever answers. *)
Theorem C66_verify_refuted : forall pc dp ep file n u x,
  url_parse u = Parsed x -> exists s v, main pc dp ep file [Server n [Url u]] [OptS n] = Connect s v x /\ s_url v = Some u /\ verify v = false.
Proof.
  intros pc dp ep file n u x P. unfold main. cbn [read_config read_stmt find_server initial servers find app fold_left assign options option_step fst].
  unfold find_server. cbn [find fst]. rewrite bytes_eqb_refl. cbv zeta. unfold the_server. cbn [current servers]. unfold find_server. cbn [find fst].
  rewrite bytes_eqb_refl. cbn [snd s_url]. rewrite P. eexists _, _. split; [reflexivity|]. split; reflexivity.
Qed.
Print Assumptions C66_verify_refuted.

(** Refuted: that TemplatePath in .poundctl says where templates are.  It is overwritten by the
    environment or the default in any case. *)
Theorem C66_template_path_refuted : forall pc dp ep file config opts s v x,
  main pc dp ep file config opts = Connect s v x -> tmpl_path s = or_else ep dp.
Proof.
  intros pc dp ep file config opts s v x H. unfold main in H. destruct (read_config (initial pc) config) as [s1|]; [|discriminate H].
  destruct (options s1 opts) as [s2|]; [|discriminate H]. cbv zeta in H.
  match type of H with match ?t with _ => _ end = _ => destruct t as [w|]; [|discriminate H] end.
  match type of H with match ?t with _ => _ end = _ => destruct t as [u|]; [|discriminate H] end.
  destruct (url_parse u) as [y| |]; try discriminate H. injection H as <- _ _. reflexivity.
Qed.
Print Assumptions C66_template_path_refuted.

(** The socket is the text in quotes of the first directive Control with a text, or of the first Socket of a
    section Control, whatever follows; a file without them has none.  Partial: lines end in a
    newline and are shorter than 4095 characters (C66_newline_refuted, C66_long_refuted), and words before it are
    not short for those directives (C66_abbreviation_refuted). *)
Theorem C66_socket_partial : forall (b : bool) ls l rest n, passes false b ls -> Forall fits (ls ++ [l]) ->
  with_text (if b then lit "socket" else lit "control") l n -> get_socket_name (text_of ls ++ l ++ LF :: rest) = Some n.
Proof. exact name_found. Qed.
Print Assumptions C66_socket_partial.
Theorem C66_no_socket_partial : forall b ls, passes false b ls -> Forall fits ls -> get_socket_name (text_of ls) = None.
Proof. exact name_none. Qed.
Print Assumptions C66_no_socket_partial.

Example C66_socket_case : passes false true [lit "# comment"; lit "User ""www"""; lit "  Control "; lit "  Mode 600"]
  /\ Forall fits ([lit "# comment"; lit "User ""www"""; lit "  Control "; lit "  Mode 600"] ++ [lit " Socket ""/run/p\""d"" x"])
  /\ with_text (lit "socket") (lit " Socket ""/run/p\""d"" x") (lit "/run/p""d").
Proof.
  split; [|split].
  - apply pa_other; [right; left; exists [], (lit " comment"); split; [reflexivity|constructor]|].
    apply pa_other.
    { right; right. exists [], (lit "User"), (lit " ""www"""). split; [reflexivity|]. split; [constructor|].
      split; [split; [discriminate|repeat constructor; cbn; intuition discriminate]|]. split; [discriminate|].
      split; [right; exists " "%char, (lit """www"""); split; [reflexivity|left; reflexivity]|].
      intros k [<-|[]] [r E]. discriminate E. }
    apply pa_section.
    { exists (lit "  "), (lit "Control"), (lit " "). split; [reflexivity|]. split; [repeat constructor|]. split; [repeat constructor|].
      split; [split; [discriminate|repeat constructor; cbn; intuition discriminate]|reflexivity]. }
    apply pa_inside; [|apply pa_nil].
    right; right. exists (lit "  "), (lit "Mode"), (lit " 600"). split; [reflexivity|]. split; [repeat constructor|].
    split; [split; [discriminate|repeat constructor; cbn; intuition discriminate]|]. split; [discriminate|].
    split; [right; exists " "%char, (lit "600"); split; [reflexivity|left; reflexivity]|].
    intros k [<-|[<-|[]]] [r E]; discriminate E.
  - repeat constructor; cbn; intuition discriminate.
  - exists (lit " "), (lit "Socket"), " "%char, [], (lit "/run/p\""d"), (lit " x"). split; [reflexivity|]. split; [repeat constructor|].
    split; [constructor|]. split; [left; reflexivity|]. split; [split; [discriminate|repeat constructor; cbn; intuition discriminate]|]. split; [reflexivity|].
    do 6 (apply qu_char; [discriminate|discriminate|]). apply qu_escape; [left; reflexivity|]. apply qu_char; [discriminate|discriminate|]. apply qu_nil.
Qed.

(** Refuted: that poundctl finds the socket pound uses.  A last line without a newline is not
    looked at, whatever it says, though pound reads it. *)
Theorem C66_newline_refuted : forall b ls l, passes false b ls -> Forall fits ls -> ~ In LF l -> get_socket_name (text_of ls ++ l) = None.
Proof. exact newline_missing. Qed.
Print Assumptions C66_newline_refuted.
(** Refuted: the same, if a line before, a comment say, has 4095 characters or more. *)
Theorem C66_long_refuted : forall b ls l rest, passes false b ls -> Forall fits ls -> ~ In LF l -> (4095 <= Z.of_nat (length l))%Z ->
  get_socket_name (text_of ls ++ l ++ rest) = None.
Proof. exact line_too_long. Qed.
Print Assumptions C66_long_refuted.
(** Refuted: that only the directive Control is looked for.  Any word that is a beginning of that name is taken for
    it, even the single letter C, which pound itself refuses. *)
Theorem C66_abbreviation_refuted : forall n q rest, quotes q n -> ~ In LF q -> (Z.of_nat (length q) < 4000)%Z ->
  get_socket_name (lit "C """ ++ q ++ """"%char :: LF :: rest) = Some n.
Proof.
  intros n q rest Q N L. unfold get_socket_name.
  assert (F : fits (lit "C """ ++ q ++ [""""%char])).
  { split; [intros I; apply in_app_or in I; destruct I as [I|I]; [cbn in I; intuition discriminate|]; apply in_app_or in I; destruct I as [I|[I|[]]]; [exact (N I)|discriminate I]|].
    rewrite !app_length. change (length (lit "C """)) with 3. change (length [""""%char]) with 1. lia. }
  assert (E : lit "C """ ++ q ++ """"%char :: LF :: rest = (lit "C """ ++ q ++ [""""%char]) ++ LF :: rest) by (repeat (rewrite <- app_assoc; cbn [app]); reflexivity).
  rewrite E. destruct (length ((lit "C """ ++ q ++ [""""%char]) ++ LF :: rest)) as [|fuel] eqn:EL; [rewrite app_length in EL; cbn [length] in EL; lia|].
  rewrite (scan_S fuel false _ rest F), scan_line_lf. rewrite <- (app_nil_l ((lit "C """ ++ q ++ [""""%char]) ++ [LF])).
  rewrite (trim_edges [] (lit "C """ ++ q ++ [""""%char]) [LF]).
  - change (lit "C """ ++ q ++ [""""%char]) with ("C" :: (lit " """ ++ q ++ [""""]))%char. change (beq "C" "#") with false. cbv iota.
    change ("C" :: lit " """ ++ q ++ [""""])%char with ((lit "C") ++ (" "%char :: """"%char :: q ++ [""""%char])).
    rewrite word_split; [|split; [discriminate|repeat constructor; cbn; intuition discriminate]|right; exists " "%char, (""""%char :: q ++ [""""%char]); split; [reflexivity|left; reflexivity]].
    change (find_keyword false (lit "C")) with (Some true). cbv iota.
    change (skip_space (" "%char :: """"%char :: q ++ [""""%char])) with (""""%char :: q ++ [""""%char]).
    change (beq """" """") with true. cbv iota. rewrite (unquote_quotes q n [] Q). reflexivity.
  - constructor.
  - exact (white_lf [] (Forall_nil _)).
  - split; [exists "C"%char, (lit " """ ++ q ++ [""""%char]); split; reflexivity|]. exists (lit "C """ ++ q), """"%char. rewrite <- app_assoc. split; reflexivity.
Qed.
Print Assumptions C66_abbreviation_refuted.

(** A URL http or https is taken apart as the manual says: user and password, host, port or its
    default, path.  Partial: see C66_at_refuted and C66_ipv6_refuted. *)
Theorem C66_url_partial : forall s u, is_url s u -> url_parse s = Parsed u.
Proof. exact url_parsed. Qed.
Print Assumptions C66_url_partial.
(** What does not begin as a URL is the name of a socket file, if a socket can have that name. *)
Theorem C66_file : forall s, ~ has_scheme s ->
  url_parse s = if (Z.of_nat (length s) <=? 108)%Z then Parsed (mkUrl false [] (lit "localhost") None None (Unix s)) else Too_long.
Proof. exact file_parsed. Qed.
Print Assumptions C66_file.
(** Other schemes are refused. *)
Theorem C66_scheme : forall a r, ~ In ":"%char a -> a <> lit "http" -> a <> lit "https" -> url_parse (a ++ lit "://" ++ r) = Unsupported.
Proof. exact scheme_refused. Qed.
Print Assumptions C66_scheme.

Example C66_url_case : is_url (lit "https://joe:p:w@ctl.example:8443/pound/ctl")
  (mkUrl true (lit "/pound/ctl") (lit "ctl.example") (Some (lit "joe")) (Some (lit "p:w")) (Inet (lit "ctl.example") (lit "8443") false)).
Proof.
  apply (iu_url true (lit "joe" ++ lit ":" ++ lit "p:w" ++ lit "@") (Some (lit "joe")) (Some (lit "p:w")) (lit "ctl.example") (":"%char :: lit "8443") (lit "8443") (lit "/pound/ctl")).
  - apply cr_both; intros c C I; cbn in C, I; intuition (subst; discriminate).
  - intros c C I; cbn in C, I; intuition (subst; discriminate).
  - apply po_number. intros c C I; cbn in C, I; intuition (subst; discriminate).
  - right. exists (lit "pound/ctl"). reflexivity.
  - discriminate.
Qed.

(** Refuted: that credentials are only what stands before the host.  With an @ in the path
    its beginning becomes the user, and poundctl connects to what follows, with
    those credentials. *)
Theorem C66_at_refuted : forall h a h' , without ":@/" h -> without ":@" a -> without ":/@[" h' ->
  url_parse (lit "http://" ++ h ++ lit "/" ++ a ++ lit "@" ++ h') = Parsed (mkUrl false [] h' (Some (h ++ lit "/" ++ a)) None (Inet h' (lit "80") false)).
Proof.
  intros h a h' H A H'.
  pose proof (iu_url false ((h ++ lit "/" ++ a) ++ lit "@") (Some (h ++ lit "/" ++ a)) None h' [] (lit "80") []) as U.
  replace (lit "http://" ++ h ++ lit "/" ++ a ++ lit "@" ++ h') with (lit "http" ++ lit "://" ++ ((h ++ lit "/" ++ a) ++ lit "@") ++ h' ++ [] ++ []).
  - apply url_parsed, U.
    + apply cr_user. apply without_app; [apply (without_less ":@/"); [exact H|intros c C; cbn in *; tauto]|]. apply without_app; [|exact A].
      intros c C I; cbn in C, I; intuition (subst; discriminate).
    + exact H'.
    + apply po_none.
    + left. reflexivity.
    + discriminate.
  - rewrite !app_nil_r. repeat (rewrite <- app_assoc; cbn [app lit list_ascii_of_string]). reflexivity.
Qed.
Print Assumptions C66_at_refuted.

(** Refuted: that an IPv6 address can be given in brackets.  It is cut at the first colon, so the
    host is "[" and what precedes it, and the rest the port. *)
Theorem C66_ipv6_refuted : url_parse (lit "http://[::1]/ctl") = Parsed (mkUrl false (lit "/ctl") (lit "[") None None (Inet (lit "[") (lit ":1]") true)).
Proof. vm_compute. reflexivity. Qed.
Print Assumptions C66_ipv6_refuted.
