(** C25: the literal string matchers. *)
From Coq Require Import Ascii String List ZArith Lia Bool.
From Verif Require Import Bytes PatModel PatSpec PatProofs.
Import ListNotations.
Local Open Scope nat_scope.

(** C25.  Exact, prefix and suffix matchers report a match exactly when the subject equals,
    starts with or ends with the pattern. *)
Theorem C25_exact : forall ci p s, exact_exec ci p s = true <-> same ci s p.
Proof. exact exact_iff. Qed.
Print Assumptions C25_exact.

Theorem C25_prefix : forall ci p s, prefix_exec ci p s = true <-> starts_with ci p s.
Proof. exact prefix_iff. Qed.
Print Assumptions C25_prefix.

Theorem C25_suffix : forall ci p s, suffix_exec ci p s = true <-> ends_with ci p s.
Proof. exact suffix_iff. Qed.
Print Assumptions C25_suffix.

(** The substring matcher never reports a match that is not there. *)
Theorem C25_contain_sound : forall ci p s, contain_match ci p s = Some BM_MATCH -> contains ci p s.
Proof. exact contain_sound. Qed.
Print Assumptions C25_contain_sound.

(** It always comes to an answer, if neither string has the byte 255 and the pattern is not empty. *)
Theorem C25_contain_decides_partial : forall ci p s, p <> [] -> ~ In byte_max p -> ~ In byte_max s ->
  contain_match ci p s = Some BM_MATCH \/ contain_match ci p s = Some BM_NOMATCH.
Proof. exact contain_decides. Qed.
Print Assumptions C25_contain_decides_partial.

(** It is exact on the patterns that are not [misleading]. *)
Theorem C25_contain_partial : forall ci p s,
  p <> [] -> ~ In byte_max p -> ~ In byte_max s -> ~ misleading (folded ci p) ->
  (contain_match ci p s = Some BM_MATCH <-> contains ci p s).
Proof. exact contain_iff. Qed.
Print Assumptions C25_contain_partial.

(** In particular on every pattern none of whose proper prefixes is also a suffix. *)
Theorem C25_contain_borderless_partial : forall ci p s,
  p <> [] -> ~ In byte_max p -> ~ In byte_max s ->
  (forall u, u <> [] -> u <> folded ci p -> is_prefix_of u (folded ci p) -> ~ is_suffix_of u (folded ci p)) ->
  (contain_match ci p s = Some BM_MATCH <-> contains ci p s).
Proof.
  intros ci p s NE NM NS H. apply contain_iff; auto. intros (a & x & u & E & NU & PU & _).
  apply (H u NU); auto.
  - intros K. apply (f_equal (@length _)) in E. rewrite <- K, app_length in E. simpl in E. lia.
  - exists (a ++ [x]). rewrite <- app_assoc. exact E.
Qed.
Print Assumptions C25_contain_borderless_partial.

(** On every misleading pattern it misses some occurrence: for these C25 is false. *)
Theorem C25_contain_misses_refuted : forall ci p, ~ In byte_max p -> misleading (folded ci p) ->
  exists s, contains ci p s /\ ~ In byte_max s /\ contain_match ci p s = Some BM_NOMATCH.
Proof. exact contain_misses. Qed.
Print Assumptions C25_contain_misses_refuted.

Theorem C25_contain_refuted :
  contains false (lit "abab") (lit "acabab") /\ contain_match false (lit "abab") (lit "acabab") = Some BM_NOMATCH.
Proof.
  split; [|vm_compute; reflexivity]. exists (lit "ac"), (lit "abab"), []. split; reflexivity.
Qed.
Print Assumptions C25_contain_refuted.

(** A byte 255 in the subject makes it read outside of its table; an empty pattern does so when
    it is compiled. *)
Theorem C25_contain_bounds_refuted :
  contain_match false (lit "ab") (lit "x" ++ [byte_max] ++ lit "ab") = Some BM_OOB /\
  (forall ci s, contain_match ci [] s = None).
Proof. split; [vm_compute; reflexivity|reflexivity]. Qed.
Print Assumptions C25_contain_bounds_refuted.

Example C25_ex_misleading : misleading (lit "abab").
Proof.
  exists (lit "a"), "b"%char, (lit "ab"). split; [reflexivity|]. split; [discriminate|].
  split; [exists (lit "ab"); reflexivity|]. split.
  - exists (lit "b"). split; [discriminate|]. split; [exists (lit "a"); reflexivity|]. split; [discriminate|].
    intros [a H]. discriminate.
  - intros l y r E NR. apply (f_equal (@length _)) in E as L. rewrite !app_length in L. cbn [length] in L. rewrite app_length in L. simpl in L.
    destruct r as [|c r]; [congruence|]. destruct l as [|a l]; simpl in L; [|lia].
    simpl in E. injection E as <- K. discriminate.
Qed.
Example C25_ex_contain : contain_match true (lit "Example") (lit "www.EXAMPLE.org") = Some BM_MATCH /\
  contain_match false (lit "Example") (lit "www.EXAMPLE.org") = Some BM_NOMATCH /\
  contain_match false (lit "aa") (lit "baab") = Some BM_MATCH.
Proof. vm_compute. auto. Qed.
Lemma ex_borderless : ~ misleading (folded true (lit "/api/v1")).
Proof.
  intros (a & x & u & E & NU & (r & PU) & _). vm_compute in E, PU.
  assert (L : length u < 7) by (apply (f_equal (@length _)) in E; rewrite app_length in E; simpl in E; lia).
  do 7 (destruct a as [|? a]; [simpl in E; injection E as; subst; try congruence; simpl in PU; discriminate|
    simpl in E; injection E as ? E]).
  destruct a; discriminate.
Qed.
Example C25_ex_exact : exact_exec true (lit "Foo") (lit "fOO") = true /\ exact_exec false (lit "Foo") (lit "fOO") = false /\
  prefix_exec false (lit "/api") (lit "/api/v1") = true /\ suffix_exec true (lit ".PNG") (lit "x.png") = true /\
  suffix_exec false (lit "abc") (lit "bc") = false.
Proof. vm_compute. auto 6. Qed.
