(** C26: basic authentication. *)
From Coq Require Import Ascii String List ZArith Bool Lia.
From Verif Require Import Bytes ReqModel XpdSpec AuthModel AuthSpec AuthProofs.
Import ListNotations.
Local Open Scope nat_scope.
Local Open Scope string_scope.
Local Open Scope list_scope.

(** Access is granted exactly if the first Authorization field carries the name of
    a user and a password that agrees with the first entry of that user among the
    lines of the file, as the file is at that time; for every file, history of
    the file and request.  Partial: lines below the buffer size and without NUL
    (C26_long_line_refuted), and a modification time that changes with the
    contents. *)
Theorem C26_granted_partial : forall l vs m t ls hs, sound_lib l -> Forall (fun h => length (h_val h) < MAXBUF) hs ->
  timed (vs ++ [FsFile m t]) -> text_of ls t -> Forall proper_line ls ->
  (fst (basic_auth l (runs vs) (FsFile m t) hs) = Some 0%Z <->
   exists es v u p, entries ls es /\ authorization hs v /\ carries l v u p /\ grants l es u p).
Proof. exact granted_file. Qed.
Print Assumptions C26_granted_partial.

(** Whatever is read of the file: access needs an agreeing entry that was read. *)
Theorem C26_granted_entries : forall l pwf fs hs, sound_lib l -> Forall (fun h => length (h_val h) < MAXBUF) hs ->
  (fst (basic_auth l pwf fs hs) = Some 0%Z <->
   exists v u p, authorization hs v /\ carries l v u p /\ grants l (pw_head (pass_file_fill pwf fs)) u p).
Proof. exact auth_granted. Qed.
Print Assumptions C26_granted_entries.

(** The check has a result if the entries are complete.  Partial: see
    C26_unset_refuted. *)
Theorem C26_defined_partial : forall l pwf fs hs, Forall (fun e => sane l (snd e)) (pw_head (pass_file_fill pwf fs)) ->
  exists r, fst (basic_auth l pwf fs hs) = Some r /\ (r = 0 \/ r = 1 \/ r = -1)%Z.
Proof. exact auth_defined. Qed.
Print Assumptions C26_defined_partial.

(** The entries that are read are those of the lines of the file. *)
Theorem C26_file_partial : forall ls t es, text_of ls t -> Forall proper_line ls -> (entries ls es <-> pass_entries t = es).
Proof.
  intros ls t es H P. pose proof (file_entries ls t H P) as E. split; [intros X; symmetry; eapply entries_fun; eauto|intros <-; auto].
Qed.
Print Assumptions C26_file_partial.

(** The scheme is selected by the prefix. *)
Theorem C26_scheme : forall l pass h, sound_lib l -> (auth_match l pass h = Equal <-> verifies l pass h).
Proof. exact match_verifies. Qed.
Print Assumptions C26_scheme.

(** A removed file grants nothing, and an unreadable one leaves what was read. *)
Theorem C26_removed : forall l vs hs, sound_lib l -> Forall (fun h => length (h_val h) < MAXBUF) hs ->
  fst (basic_auth l (runs vs) FsNone hs) <> Some 0%Z.
Proof.
  intros l vs hs Hl F H. apply auth_granted in H as (v & u & p & _ & _ & pre & h & post & E & _); auto.
  destruct pre; discriminate.
Qed.
Print Assumptions C26_removed.
Theorem C26_unreadable : forall l vs hs v, v = FsError \/ v = FsStatError -> snd (basic_auth l (runs vs) v hs) = runs vs.
Proof. intros l vs hs v [->| ->]; unfold basic_auth; destruct (http_request_get_basic_auth l hs); reflexivity. Qed.
Print Assumptions C26_unreadable.

(** An entry made with the apr1 scheme is accepted with its password; its text
    fits the buffer of 38 bytes in which it is built. *)
Theorem C26_apr_roundtrip : forall l pw salt h, apr_md5_encode l pw salt 120 = Some h -> verifies l pw h /\ length h < 38.
Proof. intros l pw salt h H. split; [eapply apr_verifies; eauto|eapply apr_length; eauto]. Qed.
Print Assumptions C26_apr_roundtrip.

(** Credentials between quotation marks are never accepted. *)
Theorem C26_quoted : forall l b w t, lower b = lit "basic" -> Forall space w ->
  get_basic_auth l (b ++ w ++ """"%char :: t) = NotBasic.
Proof.
  intros l b w t B W. destruct (get_basic_auth l (b ++ w ++ """"%char :: t)) eqn:E; auto;
    (exfalso; apply (quoted_never l (b ++ w ++ """"%char :: t)) with b w (""""%char :: t); auto;
     [rewrite E; discriminate|exists """"%char, t; auto]).
Qed.
Print Assumptions C26_quoted.

(** ** Concrete cases *)

(** A library in which base64 drops the newline, crypt appends a star and the
    digests are constant. *)
Definition ex_lib : lib := mkLib (fun s => firstn 16 (s ++ repeat "x"%char 16)) (fun s => firstn 20 (s ++ repeat "x"%char 20))
  (fun s => firstn (length s - 1) s) (fun p h => Some (p ++ lit "*")).
Lemma ex_sound : sound_lib ex_lib.
Proof.
  split; intros s; cbn [sha1 b64 ex_lib].
  - rewrite firstn_length, app_length, repeat_length. unfold SHA_DIGEST_LENGTH. lia.
  - rewrite firstn_length. lia.
Qed.
Definition ex_lines : list bytes := map lit ["# users"; "  alice:secret"; "bob:pw*"; "nonsense"; "alice:other"; "eve:"].
Fixpoint joined (ls : list bytes) : bytes := match ls with [] => [] | l :: ls => l ++ [LF] ++ joined ls end.
Lemma joined_text : forall ls, text_of ls (joined ls).
Proof. induction ls; constructor; auto. Qed.
Definition ask (s : string) : list header := [qualify_header (lit "Host: h"); qualify_header (lit ("Authorization: " ++ s))].
Definition ex_answer (s : string) : option Z := fst (basic_auth ex_lib pwf_init (FsFile (1, 0)%Z (joined ex_lines)) (ask s)).

Example C26_ex : map ex_answer ["Basic alice:secret"; "Basic alice:other"; "basic   bob:pw"; "Basic bob:pw*"; "Basic eve:";
   "Basic # users:"; "Digest alice:secret"; "Basic alice"; "Basic ""alice:secret"""]
  = [Some 0; Some 1; Some 0; Some 0; Some 1; Some 1; Some 1; Some (-1); Some 1]%Z.
Proof. vm_compute. reflexivity. Qed.
Example C26_ex_hypotheses : text_of ex_lines (joined ex_lines) /\ Forall proper_line ex_lines /\
  entries ex_lines [(lit "alice", lit "secret"); (lit "bob", lit "pw*"); (lit "alice", lit "other"); (lit "eve", [])] /\
  timed ([FsNone; FsFile (1, 0)%Z (joined ex_lines)] ++ [FsFile (2, 0)%Z []]).
Proof.
  assert (P : Forall proper_line ex_lines).
  { unfold ex_lines. cbn [map]. repeat (apply Forall_cons; [split; [intros X; repeat (destruct X as [X|X]; [discriminate|]); destruct X|split; [intros X; repeat (destruct X as [X|X]; [discriminate|]); destruct X|cbn [length lit list_ascii_of_string]; unfold MAXBUF; lia]]|]).
    apply Forall_nil. }
  split; [apply joined_text|]. split; [exact P|]. split.
  - apply (C26_file_partial ex_lines (joined ex_lines)); [apply joined_text|exact P|]. vm_compute. reflexivity.
  - split.
    + intros m t t' [H|[H|[H|[]]]] [H'|[H'|[H'|[]]]]; congruence.
    + intros t [H|[H|[H|[]]]]; congruence.
Qed.
Example C26_apr_ex : exists h, apr_md5_encode ex_lib (lit "pw") (lit "saltsalt") 120 = Some h.
Proof. eexists. vm_compute. reflexivity. Qed.

(** ** Where it fails *)

(** What follows the first 4095 bytes of a comment is taken for a line of its own. *)
Theorem C26_long_line_refuted : exists ls, text_of ls (joined ls) /\ (exists r, ls = ["#"%char :: r]) /\
  fst (basic_auth ex_lib pwf_init (FsFile (1, 0)%Z (joined ls)) (ask "Basic eve:x")) = Some 0%Z.
Proof.
  exists ["#"%char :: repeat "-"%char (Z.to_nat 4094) ++ lit "eve:x"]. split; [apply joined_text|].
  split; [eauto|]. vm_compute. reflexivity.
Qed.
Print Assumptions C26_long_line_refuted.

(** A hash made by crypt(3) is itself accepted as the password. *)
Theorem C26_crypt_only_refuted : forall l h, ~ hashed h -> h <> [] -> auth_match l h h = Equal.
Proof.
  intros l h H N. rewrite match_other by auto. destruct (auth_crypt l h h) eqn:C; auto.
  - apply strcmp_eq. auto.
  - apply crypt_def in C. destruct C.
Qed.
Print Assumptions C26_crypt_only_refuted.

(** An apr1 entry with a short salt, and an SHA entry with a short digest, are
    compared with memory outside of the entry. *)
Theorem C26_unset_refuted :
  auth_match ex_lib (lit "pw") (lit "$apr1$abc") = Unset /\ auth_match ex_lib (lit "pw") (lit "{SHA}pw") = Unset.
Proof. split; vm_compute; reflexivity. Qed.
Print Assumptions C26_unset_refuted.

(** A change of the file that leaves its modification time is not seen. *)
Theorem C26_same_time_refuted : exists t t', pass_entries t' = [] /\
  pw_head (pass_file_fill (pass_file_fill pwf_init (FsFile (1, 0)%Z t)) (FsFile (1, 0)%Z t')) = [(lit "a", lit "b")].
Proof. exists (lit "a:b"), []. split; vm_compute; reflexivity. Qed.
Print Assumptions C26_same_time_refuted.
