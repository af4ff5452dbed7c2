(** C45: the Host condition. *)
From Coq Require Import Ascii String List ZArith Bool.
From Verif Require Import Bytes ReqModel UrlModel AclModel XpdModel XpdSpec CondModel CondSpec CondProps HostModel HostSpec HostProofs.
Import ListNotations.
Open Scope Z_scope.

(** A Host condition of kind -beg, -end or -contain with a literal text is built,
    has an answer for every request and leaves it as it is, and holds exactly if
    the value of a Host field starts with, ends with or contains the text.
    Partial: not for -exact (C45_exact_refuted) and not for texts with '^', '$' or
    '|' (C45_unescaped_refuted). *)
Theorem C45_literal_partial : forall t ci text, plain_text text ->
  t = GENPAT_PREFIX \/ t = GENPAT_SUFFIX \/ t = GENPAT_CONTAIN ->
  exists c, host_cond t ci text = Some c /\
  forall e p, exists r p', match_cond e c p = CRes r p' /\ alike p p' /\ (r = 1 \/ r = 0) /\
    (r = 1 <-> exists h v, In h (ph_headers p) /\ host_line ci (h_text h) v /\ fits t ci text v).
Proof. intros t ci text H K. apply host_matches; auto; destruct K as [->|[->| ->]]; discriminate. Qed.
Print Assumptions C45_literal_partial.

(** The same for a file with one pattern among blank lines and comments. *)
Theorem C45_file_partial : forall t ci pre l post text c,
  Forall ignored_line pre -> Forall ignored_line post -> pattern_line l text -> host_cond t ci text = Some c ->
  exists c', host_file_cond t ci (pre ++ l :: post) = Some c' /\ forall e p, match_cond e c' p = match_cond e c p.
Proof.
  intros t ci pre l post text c F1 F2 T H. eexists. split; [apply (file_single t ci pre l post text c); auto; try (eapply Forall_impl; [|eassumption]; apply trim_ignored); apply trim_pattern, T|].
  intros e p. rewrite CondProofs.match_group by discriminate. destruct (match_cond e c p) as [r p'|u]; auto.
  destruct (CondProofs.stops BOOL_OR r); reflexivity.
Qed.
Print Assumptions C45_file_partial.

Definition says (c : option cond) (host : string) : option Z :=
  match c with Some c => answers (match_cond ex_env c (ex_state "/" host)) | None => None end.

(** -exact, which is also the default, means the same as -beg: a name is taken
    for equal to every longer name that starts with it. *)
Theorem C45_exact_refuted :
  (forall ci text, host_cond GENPAT_EXACT ci text = host_cond GENPAT_PREFIX ci text) /\
  exists text v, plain_text text /\ ~ fits GENPAT_EXACT true text v /\
    host_line true (lit "Host: " ++ v) v /\ says (host_cond GENPAT_EXACT true text) ("Host: " ++ string_of_list_ascii v) = Some 1.
Proof.
  split; [intros ci text; unfold host_cond; cbn [host_prefix_regex fst]; reflexivity|]. exists (lit "example.org"), (lit "example.org.evil.net"). split; [|split; [|split]].
  - split; [|intros (c & r & E & W); injection E as <- _; discriminate].
    repeat (apply Forall_cons; [repeat split; discriminate|]). constructor.
  - vm_compute. discriminate.
  - exists (lit "Host:"), [SP]. split; [reflexivity|]. split; [reflexivity|]. split; [repeat constructor|].
    intros (c & r & E & W); injection E as <- _; discriminate.
  - vm_compute. reflexivity.
Qed.
Print Assumptions C45_exact_refuted.

(** '|' is not escaped: a condition for a host matches a request without it. *)
Theorem C45_unescaped_refuted :
  says (host_cond GENPAT_SUFFIX true (lit "a|b")) "X-Header: b" = Some 1 /\
  says (host_cond GENPAT_PREFIX true (lit "a^b")) "Host: a^b" = Some 0.
Proof. split; vm_compute; reflexivity. Qed.
Print Assumptions C45_unescaped_refuted.

(** The second pattern of a file is not taken literally but as an expression for
    the start of the value. *)
Theorem C45_file_refuted :
  let c := host_file_cond GENPAT_SUFFIX true [lit ".example.org"; lit ".example.com"] in
  says c "Host: www.example.org" = Some 1 /\ says c "Host: www.example.com" = Some 0 /\
  says c "Host: Xexample.com.evil.net" = Some 1.
Proof. repeat split; vm_compute; reflexivity. Qed.
Print Assumptions C45_file_refuted.

(** With -case the field name, too, has to be written as "Host". *)
Theorem C45_case_refuted :
  says (host_cond GENPAT_PREFIX false (lit "www")) "host: www" = Some 0 /\
  says (host_cond GENPAT_PREFIX false (lit "www")) "Host: www" = Some 1.
Proof. split; vm_compute; reflexivity. Qed.
Print Assumptions C45_case_refuted.

Example C45_ex : map (says (host_cond GENPAT_SUFFIX true (lit ".example.org")))
  ["Host: www.Example.org"; "host:  .example.org"; "Host: www.example.org.net"; "Host: wwwXexample.org"; "Hostess: www.example.org"]%string
  = [Some 1; Some 1; Some 0; Some 0; Some 0].
Proof. vm_compute. reflexivity. Qed.
Example C45_ex_contain : map (says (host_cond GENPAT_CONTAIN true (lit "(x)*")))
  ["Host: a(X)*b"; "Host: a(x)b"; "Host:(x)*"]%string = [Some 1; Some 0; Some 1].
Proof. vm_compute. reflexivity. Qed.
Example C45_ex_file : ignored_line (lit "  # hosts") /\ ignored_line [SP; LF] /\ pattern_line (SP :: lit "example.org" ++ [SP; LF]) (lit "example.org").
Proof.
  split; [exists (lit "  "), (lit "# hosts"); split; [reflexivity|]; split; [repeat constructor|right; eexists; reflexivity]|].
  split; [exists [], [SP; LF]; split; [reflexivity|]; split; [constructor|left; repeat (apply Forall_cons; [unfold blank_end; tauto|]); constructor]|].
  exists [SP], [SP; LF]. split; [reflexivity|]. split; [repeat constructor|]. split; [repeat (apply Forall_cons; [unfold blank_end; tauto|]); constructor|]. split.
  - do 2 eexists. split; [reflexivity|]. split; [intros [E|E]; discriminate|discriminate].
  - exists "g"%char, (lit "example.or"). split; [reflexivity|]. intros [E|[E|E]]; discriminate.
Qed.
