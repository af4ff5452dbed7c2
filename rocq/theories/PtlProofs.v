(** Which daemon poundctl talks to: proofs about pound.cfg and URLs. *)
From Coq Require Import Ascii String List ZArith Bool Lia.
From Verif Require Import Bytes PtlModel PtlSpec.
Import ListNotations.
Local Open Scope string_scope.
Local Open Scope list_scope.
Local Open Scope nat_scope.

(** ** White space *)

Lemma space_in : forall c, is_space c = true <-> In c [" "; "009"; "010"; "011"; "012"; "013"]%char.
Proof.
  intros c. split.
  - destruct c as [[] [] [] [] [] [] [] []]; vm_compute; intros H; try discriminate H; tauto.
  - intros H. cbn in H. repeat (destruct H as [<-|H]; [reflexivity|]). destruct H.
Qed.
Lemma white_all : forall s, white s -> forallb is_space s = true.
Proof. intros s H. apply forallb_forall. intros c I. apply space_in. revert c I. apply Forall_forall. exact H. Qed.
Lemma not_space : forall c, ~ In c [" "; "009"; "010"; "011"; "012"; "013"]%char -> is_space c = false.
Proof. intros c H. destruct (is_space c) eqn:E; [|reflexivity]. exfalso. apply H, space_in, E. Qed.

(** The text between: it begins and ends with something else *)
Definition solid (x : bytes) : Prop :=
  (exists c y, x = c :: y /\ is_space c = false) /\ (exists y d, x = y ++ [d] /\ is_space d = false).

Lemma trim_edges : forall a x b, white a -> white b -> solid x -> skip_space (trim_end (a ++ x ++ b)) = x.
Proof.
  intros a x b Wa Wb [(c & y & Ex & Sc) (z & d & Ez & Sd)]. unfold trim_end, skip_space.
  assert (E : rev (a ++ x ++ b) = rev b ++ rev (a ++ x)) by (rewrite app_assoc, rev_app_distr; reflexivity).
  rewrite E, span_unique.
  - cbn [snd]. rewrite rev_involutive. rewrite span_unique; [reflexivity|apply white_all, Wa|]. rewrite Ex. exact Sc.
  - apply forallb_forall. intros q Q. apply in_rev in Q. pose proof (white_all b Wb) as K. rewrite forallb_forall in K. exact (K q Q).
  - rewrite Ez, app_assoc, rev_app_distr. cbn. exact Sd.
Qed.
Lemma trim_white : forall s, white s -> skip_space (trim_end s) = [].
Proof.
  intros s W. unfold trim_end, skip_space.
  assert (E : span is_space (rev s) = (rev s, [])).
  { rewrite <- (app_nil_r (rev s)) at 1. apply span_unique; [|exact Logic.I]. apply forallb_forall. intros q Q. apply in_rev in Q.
    pose proof (white_all s W) as K. rewrite forallb_forall in K. exact (K q Q). }
  rewrite E. reflexivity.
Qed.
Lemma trailing : forall r, exists r1 r2, r = r1 ++ r2 /\ white r2 /\ (r1 = [] \/ exists y d, r1 = y ++ [d] /\ is_space d = false).
Proof.
  intros r. induction r as [|c r IH] using rev_ind.
  - exists [], []. split; [reflexivity|]. split; [constructor|left; reflexivity].
  - destruct (is_space c) eqn:E.
    + destruct IH as (r1 & r2 & E1 & W & H). exists r1, (r2 ++ [c]). split; [rewrite E1, app_assoc; reflexivity|]. split; [|exact H].
      apply Forall_app. split; [exact W|]. constructor; [apply space_in, E|constructor].
    + exists (r ++ [c]), []. split; [rewrite app_nil_r; reflexivity|]. split; [constructor|]. right. exists r, c. split; [reflexivity|exact E].
Qed.
Lemma word_solid : forall w, word w -> solid w.
Proof.
  intros w [NE W]. split.
  - destruct w as [|c w]; [congruence|]. exists c, w. split; [reflexivity|]. apply not_space. inversion W; subst; assumption.
  - destruct (exists_last NE) as (y & d & ->). exists y, d. split; [reflexivity|]. apply not_space. apply Forall_app in W. destruct W as [_ W].
    inversion W; subst; assumption.
Qed.
Lemma word_split : forall w r, word w -> r = [] \/ (exists c r', r = c :: r' /\ blank c) -> span not_blank (w ++ r) = (w, r).
Proof.
  intros w r [NE W] R. apply span_unique.
  - apply forallb_forall. intros c I. rewrite Forall_forall in W. specialize (W c I). unfold not_blank.
    destruct (beq c " ") eqn:E1; [exfalso; apply beq_eq in E1; subst; apply W; cbn; tauto|].
    destruct (beq c "009") eqn:E2; [exfalso; apply beq_eq in E2; subst; apply W; cbn; tauto|]. reflexivity.
  - destruct R as [-> |(c & r' & -> & [-> | ->])]; [exact Logic.I|reflexivity|reflexivity].
Qed.

(** ** Keywords *)

Lemma lower_length : forall s, length (lower s) = length s.
Proof. intros s. apply map_length. Qed.
Lemma abbreviates_lower : forall w k, abbreviates w k = abbreviates (lower w) k.
Proof. intros w k. unfold abbreviates, ci_eqb. rewrite lower_length, lower_idem. reflexivity. Qed.
Lemma abbreviates_begins : forall w k, lower k = k -> abbreviates w k = true -> begins_with w k.
Proof.
  intros w k L H. unfold abbreviates in H. apply andb_true_iff in H. destruct H as [_ H]. apply ci_eqb_eq in H.
  exists (skipn (length w) k). rewrite <- H. unfold lower. rewrite <- firstn_map. fold (lower k). rewrite L, firstn_skipn. reflexivity.
Qed.
Lemma keyword_control : forall w, says w (lit "control") -> find_keyword false w = Some true.
Proof. intros w H. unfold find_keyword. rewrite abbreviates_lower, H. reflexivity. Qed.
Lemma keyword_socket : forall w, says w (lit "socket") -> find_keyword true w = Some true.
Proof. intros w H. unfold find_keyword. rewrite abbreviates_lower, H. reflexivity. Qed.
Lemma keyword_end : forall w, says w (lit "end") -> find_keyword true w = Some false.
Proof. intros w H. unfold find_keyword. rewrite (abbreviates_lower w (lit "socket")), (abbreviates_lower w (lit "end")), H. reflexivity. Qed.
Lemma keyword_none : forall (block : bool) w, (forall k, In k (if block then [lit "socket"; lit "end"] else [lit "control"]) -> ~ begins_with w k) ->
  find_keyword block w = None.
Proof.
  intros block w H. assert (G : forall k, lower k = k -> In k (if block then [lit "socket"; lit "end"] else [lit "control"]) -> abbreviates w k = false).
  { intros k L I. destruct (abbreviates w k) eqn:E; [|reflexivity]. exfalso. exact (H k I (abbreviates_begins w k L E)). }
  unfold find_keyword. destruct block.
  - rewrite (G (lit "socket")), (G (lit "end")); [reflexivity|reflexivity|cbn; tauto|reflexivity|cbn; tauto].
  - rewrite (G (lit "control")); [reflexivity|reflexivity|cbn; tauto].
Qed.

Lemma unquote_quotes : forall q n r, quotes q n -> unquote (q ++ """"%char :: r) = Some n.
Proof.
  intros q n r H. induction H as [|c q n A B H IH|c q n A H IH].
  - reflexivity.
  - cbn [app unquote]. apply beq_neq in A. apply beq_neq in B. rewrite A, B, IH. reflexivity.
  - cbn [app]. destruct A as [-> | ->]; cbn - [unquote]; cbn [unquote]; change (beq "\" """") with false; cbv iota; change (beq "\" "\") with true; cbv iota.
    + change (beq """" "\" || beq """" """") with true. cbv iota. rewrite IH. reflexivity.
    + change (beq "\" "\" || beq "\" """") with true. cbv iota. rewrite IH. reflexivity.
Qed.

(** ** Lines *)

Lemma white_lf : forall b, white b -> white (b ++ [LF]).
Proof. intros b W. apply Forall_app. split; [exact W|]. constructor; [cbn; tauto|constructor]. Qed.
Lemma scan_line_lf : forall block l, scan_line block (l ++ [LF]) =
  match skip_space (trim_end (l ++ [LF])) with
  | [] => Go block
  | c :: p =>
      if beq c "#" then Go block
      else let (w, r) := span not_blank (c :: p) in
           match find_keyword block w with
           | Some false => Go false
           | Some true =>
               match skip_space r with
               | d :: q => if beq d """" then Name (unquote q) else Name None
               | [] => if block then Name None else Go true
               end
           | None => Go block
           end
  end.
Proof.
  intros block l. unfold scan_line. rewrite last_last. change (negb (beq LF LF)) with false. cbv iota zeta.
  destruct (skip_space (trim_end (l ++ [LF]))) as [|c p]; reflexivity.
Qed.
Lemma word_hash : forall w k, word w -> says w k -> hd_error k <> Some "#"%char -> exists c y, w = c :: y /\ beq c "#" = false.
Proof.
  intros w k [NE _] S H. destruct w as [|c y]; [congruence|]. exists c, y. split; [reflexivity|]. apply beq_neq. intros ->. apply H. rewrite <- S. reflexivity.
Qed.
Lemma line_alone : forall block k l v, alone k l -> find_keyword block k = Some v -> (forall w, says w k -> find_keyword block w = Some v) ->
  hd_error k <> Some "#"%char -> scan_line block (l ++ [LF]) = if v then (if block then Name None else Go true) else Go false.
Proof.
  intros block k l v (a & w & b & -> & Wa & Wb & W & S) _ K H. rewrite scan_line_lf, <- app_assoc, <- app_assoc.
  rewrite (trim_edges a w (b ++ [LF]) Wa (white_lf b Wb) (word_solid w W)).
  destruct (word_hash w k W S H) as (c & y & E & NH). rewrite E, NH, <- E.
  pose proof (word_split w [] W (or_introl eq_refl)) as SP. rewrite app_nil_r in SP. rewrite SP. rewrite (K w S).
  destruct v; reflexivity.
Qed.
Lemma line_text : forall block k l n, with_text k l n -> (forall w, says w k -> find_keyword block w = Some true) ->
  hd_error k <> Some "#"%char -> scan_line block (l ++ [LF]) = Name (Some n).
Proof.
  intros block k l n (a & w & c & b & q & r & -> & Wa & Wb & Bc & W & S & Q) K H.
  destruct (trailing r) as (r1 & r2 & -> & W2 & R1). rewrite scan_line_lf.
  set (x := w ++ c :: b ++ """"%char :: q ++ """"%char :: r1).
  assert (E : (a ++ w ++ c :: b ++ """"%char :: q ++ """"%char :: r1 ++ r2) ++ [LF] = a ++ x ++ (r2 ++ [LF])).
  { unfold x. repeat (rewrite <- app_assoc; cbn [app]). reflexivity. }
  assert (X : solid x).
  { destruct (word_solid w W) as [(d & y & Ew & Sd) _]. split.
    - exists d, (y ++ c :: b ++ """"%char :: q ++ """"%char :: r1). split; [unfold x; rewrite Ew; reflexivity|exact Sd].
    - destruct R1 as [-> |(y' & d' & -> & Sd')].
      + exists (w ++ c :: b ++ """"%char :: q), """"%char. split; [|reflexivity]. unfold x. rewrite <- app_assoc. cbn [app]. rewrite <- app_assoc. reflexivity.
      + exists (w ++ c :: b ++ """"%char :: q ++ """"%char :: y'), d'. split; [|exact Sd']. unfold x.
        repeat (rewrite <- app_assoc; cbn [app]). reflexivity. }
  rewrite E, (trim_edges a x (r2 ++ [LF]) Wa (white_lf r2 W2) X).
  destruct (word_hash w k W S H) as (d & y & Ew & NH).
  assert (EX : x = d :: (y ++ c :: b ++ """"%char :: q ++ """"%char :: r1)) by (unfold x; rewrite Ew; reflexivity).
  rewrite EX, NH, <- EX. unfold x. rewrite (word_split w _ W); [|right; exists c, (b ++ """"%char :: q ++ """"%char :: r1); split; [reflexivity|exact Bc]].
  rewrite (K w S). unfold skip_space. change (c :: b ++ """"%char :: q ++ """"%char :: r1) with ((c :: b) ++ """"%char :: q ++ """"%char :: r1).
  rewrite span_unique; [|cbn [forallb]; rewrite (white_all b Wb), andb_true_r; destruct Bc as [-> | ->]; reflexivity|reflexivity].
  cbn [snd]. change (beq """" """") with true. cbv iota. rewrite (unquote_quotes q n r1 Q). reflexivity.
Qed.
Lemma line_other : forall (block : bool) l, other (if block then [lit "socket"; lit "end"] else [lit "control"]) l -> scan_line block (l ++ [LF]) = Go block.
Proof.
  intros block l [W|[(a & r & -> & Wa)|(a & w & r & -> & Wa & W & NH & R & K)]]; rewrite scan_line_lf.
  - rewrite (trim_white (l ++ [LF]) (white_lf l W)). reflexivity.
  - destruct (trailing r) as (r1 & r2 & -> & W2 & R1).
    assert (E : (a ++ "#"%char :: r1 ++ r2) ++ [LF] = a ++ ("#"%char :: r1) ++ (r2 ++ [LF])).
    { repeat (rewrite <- app_assoc; cbn [app]). reflexivity. }
    rewrite E, (trim_edges a ("#"%char :: r1) (r2 ++ [LF]) Wa (white_lf r2 W2)); [reflexivity|]. split.
    + exists "#"%char, r1. split; reflexivity.
    + destruct R1 as [-> |(y & d & -> & Sd)]; [exists [], "#"%char; split; reflexivity|]. exists ("#"%char :: y), d. split; [reflexivity|exact Sd].
  - destruct (trailing r) as (r1 & r2 & Er & W2 & R1).
    assert (E : (a ++ w ++ r) ++ [LF] = a ++ (w ++ r1) ++ (r2 ++ [LF])).
    { rewrite Er. repeat (rewrite <- app_assoc; cbn [app]). reflexivity. }
    assert (X : solid (w ++ r1)).
    { destruct (word_solid w W) as [(d & y & Ew & Sd) (y2 & d2 & Ew2 & Sd2)]. split.
      - exists d, (y ++ r1). split; [rewrite Ew; reflexivity|exact Sd].
      - destruct R1 as [-> |(y' & d' & -> & Sd')]; [exists y2, d2; split; [rewrite app_nil_r; exact Ew2|exact Sd2]|].
        exists (w ++ y'), d'. split; [rewrite app_assoc; reflexivity|exact Sd']. }
    rewrite E, (trim_edges a (w ++ r1) (r2 ++ [LF]) Wa (white_lf r2 W2) X).
    destruct w as [|c y] eqn:Ew; [destruct W as [W _]; congruence|]. cbn [app].
    destruct (beq c "#") eqn:H; [reflexivity|].
    change (c :: y ++ r1) with ((c :: y) ++ r1). rewrite <- Ew in *. rewrite (word_split w r1 W).
    + rewrite (keyword_none block w K). reflexivity.
    + destruct R as [-> |(c' & r' & -> & B)].
      * left. symmetry in Er. apply app_eq_nil in Er. exact (proj1 Er).
      * destruct r1 as [|c1 r1]; [left; reflexivity|]. right. injection Er as E1 E2. exists c1, r1. split; [reflexivity|]. rewrite <- E1. exact B.
Qed.

(** ** The file *)

Lemma buffer : Z.of_nat (MAXBUF - 1) = 4095%Z.
Proof. reflexivity. Qed.
Lemma fgets_line : forall l n r, ~ In LF l -> length l < n -> fgets n (l ++ LF :: r) = (l ++ [LF], r).
Proof.
  intros l. induction l as [|c l IH]; intros n r N L; (destruct n as [|n]; [cbn [length] in L; lia|]); cbn [app fgets].
  - reflexivity.
  - destruct (beq c LF) eqn:E; [exfalso; apply N; left; apply beq_eq in E; exact E|].
    rewrite IH; [reflexivity|intros X; apply N; right; exact X|cbn [length] in L; lia].
Qed.
Lemma fgets_fits : forall l r, fits l -> fgets (MAXBUF - 1) (l ++ LF :: r) = (l ++ [LF], r).
Proof. intros l r [N L]. apply fgets_line; [exact N|]. pose proof buffer. lia. Qed.

Lemma scan_S : forall fuel block l r, fits l ->
  scan (S fuel) block (l ++ LF :: r) = match scan_line block (l ++ [LF]) with Name n => n | Go block => scan fuel block r end.
Proof.
  intros fuel block l r F. transitivity (let (line, r) := fgets (MAXBUF - 1) (l ++ LF :: r) in
      match scan_line block line with Name n => n | Go block => scan fuel block r end); [|rewrite (fgets_fits l r F); reflexivity].
  destruct l; reflexivity.
Qed.
Lemma text_cons : forall l ls rest, text_of (l :: ls) ++ rest = l ++ LF :: (text_of ls ++ rest).
Proof. intros l ls rest. unfold text_of. cbn [flat_map]. repeat (rewrite <- app_assoc; cbn [app]). reflexivity. Qed.

Lemma scan_passes : forall b b' ls, passes b b' ls -> Forall fits ls -> forall rest fuel, length (text_of ls ++ rest) <= fuel ->
  exists fuel', length rest <= fuel' /\ scan fuel b (text_of ls ++ rest) = scan fuel' b' rest.
Proof.
  assert (STEP : forall b b1 b' l ls, fits l -> scan_line b (l ++ [LF]) = Go b1 ->
    (forall rest fuel, length (text_of ls ++ rest) <= fuel -> exists fuel', length rest <= fuel' /\ scan fuel b1 (text_of ls ++ rest) = scan fuel' b' rest) ->
    forall rest fuel, length (text_of (l :: ls) ++ rest) <= fuel -> exists fuel', length rest <= fuel' /\ scan fuel b (text_of (l :: ls) ++ rest) = scan fuel' b' rest).
  { intros b b1 b' l ls F E IH rest fuel L. rewrite text_cons in *. destruct fuel as [|fuel]; [exfalso; rewrite app_length in L; cbn [length] in L; lia|].
    destruct (IH rest fuel) as (fuel' & L' & H); [rewrite app_length in L; cbn [length] in L; lia|].
    exists fuel'. split; [exact L'|]. rewrite (scan_S fuel b l _ F), E. exact H. }
  intros b b' ls H. induction H as [b|b l ls O H IH|b l ls O H IH|b l ls O H IH|b l ls O H IH]; intros F.
  - intros rest fuel L. exists fuel. split; [exact L|reflexivity].
  - apply Forall_inv in F as Fl. apply Forall_inv_tail in F. apply (STEP false false); [exact Fl|exact (line_other false l O)|exact (IH F)].
  - apply Forall_inv in F as Fl. apply Forall_inv_tail in F. apply (STEP true true); [exact Fl|exact (line_other true l O)|exact (IH F)].
  - apply Forall_inv in F as Fl. apply Forall_inv_tail in F. apply (STEP false true); [exact Fl| |exact (IH F)].
    exact (line_alone false (lit "control") l true O eq_refl keyword_control ltac:(discriminate)).
  - apply Forall_inv in F as Fl. apply Forall_inv_tail in F. apply (STEP true false); [exact Fl| |exact (IH F)].
    exact (line_alone true (lit "end") l false O eq_refl keyword_end ltac:(discriminate)).
Qed.

Theorem name_found : forall (b : bool) ls l rest n, passes false b ls -> Forall fits (ls ++ [l]) ->
  with_text (if b then lit "socket" else lit "control") l n -> get_socket_name (text_of ls ++ l ++ LF :: rest) = Some n.
Proof.
  intros b ls l rest n P F T. apply Forall_app in F. destruct F as [F Fl]. apply Forall_inv in Fl. unfold get_socket_name.
  destruct (scan_passes false b ls P F (l ++ LF :: rest) _ (le_n _)) as (fuel & L & ->).
  destruct fuel as [|fuel]; [exfalso; rewrite app_length in L; cbn [length] in L; lia|]. rewrite (scan_S fuel b l rest Fl).
  assert (E : scan_line b (l ++ [LF]) = Name (Some n)); [|rewrite E; reflexivity]. destruct b.
  - exact (line_text true (lit "socket") l n T keyword_socket ltac:(discriminate)).
  - exact (line_text false (lit "control") l n T keyword_control ltac:(discriminate)).
Qed.
Theorem name_none : forall b ls, passes false b ls -> Forall fits ls -> get_socket_name (text_of ls) = None.
Proof.
  intros b ls P F. unfold get_socket_name. rewrite <- (app_nil_r (text_of ls)).
  destruct (scan_passes false b ls P F [] _ (le_n _)) as (fuel & L & ->). destruct fuel; reflexivity.
Qed.

(** A line without a newline, or too long *)
Lemma fgets_no_lf : forall l n, ~ In LF l -> ~ In LF (fst (fgets n l)).
Proof.
  intros l. induction l as [|c l IH]; intros n N; (destruct n as [|n]; [intros []|]); cbn [fgets fst]; [intros []|].
  destruct (beq c LF) eqn:E; [exfalso; apply N; left; apply beq_eq in E; exact E|].
  specialize (IH n (fun X => N (or_intror X))). destruct (fgets n l) as [a b]. cbn [fst] in *. intros [X|X]; [|exact (IH X)].
  apply N. left. exact X.
Qed.
Lemma fgets_long : forall n l r, ~ In LF l -> n <= length l -> ~ In LF (fst (fgets n (l ++ r))).
Proof.
  intros n l. revert n. induction l as [|c l IH]; intros n r N L; (destruct n as [|n]; [intros []|]); [cbn [length] in L; lia|]. cbn [app fgets].
  destruct (beq c LF) eqn:E; [exfalso; apply N; left; apply beq_eq in E; exact E|].
  specialize (IH n r (fun X => N (or_intror X))). destruct (fgets n (l ++ r)) as [a b]. cbn [fst] in *. intros [X|X]; [apply N; left; exact X|].
  apply IH; [cbn [length] in L; lia|exact X].
Qed.
Lemma scan_stuck : forall fuel b text, ~ In LF (fst (fgets (MAXBUF - 1) text)) -> scan fuel b text = None.
Proof.
  intros fuel b text N. destruct fuel as [|fuel]; [reflexivity|]. destruct text as [|c text]; [reflexivity|].
  transitivity (let (line, r) := fgets (MAXBUF - 1) (c :: text) in
      match scan_line b line with Name n => n | Go block => scan fuel block r end); [reflexivity|].
  destruct (fgets (MAXBUF - 1) (c :: text)) as [line r]. cbn [fst] in N. unfold scan_line.
  destruct (beq (last line NUL) LF) eqn:E; [|reflexivity]. exfalso. apply beq_eq in E. apply N. rewrite <- E.
  destruct line as [|d line]; [discriminate E|]. destruct (exists_last (l := d :: line)) as (y & z & EZ); [discriminate|]. rewrite EZ, last_last. apply in_or_app. right. left. reflexivity.
Qed.
Theorem newline_missing : forall b ls l, passes false b ls -> Forall fits ls -> ~ In LF l -> get_socket_name (text_of ls ++ l) = None.
Proof.
  intros b ls l P F N. unfold get_socket_name. destruct (scan_passes false b ls P F l _ (le_n _)) as (fuel & L & ->).
  apply scan_stuck, fgets_no_lf, N.
Qed.
Theorem line_too_long : forall b ls l rest, passes false b ls -> Forall fits ls -> ~ In LF l -> (4095 <= Z.of_nat (length l))%Z ->
  get_socket_name (text_of ls ++ l ++ rest) = None.
Proof.
  intros b ls l rest P F N L. unfold get_socket_name. destruct (scan_passes false b ls P F (l ++ rest) _ (le_n _)) as (fuel & _ & ->).
  apply scan_stuck, fgets_long; [exact N|]. pose proof buffer. lia.
Qed.

(** ** URLs *)

Lemma is_not_in : forall cs s, without cs s -> forallb (is_not cs) s = true.
Proof.
  intros cs s W. apply forallb_forall. intros c I. unfold is_not. apply negb_true_iff. destruct (existsb (beq c) (lit cs)) eqn:E; [|reflexivity].
  exfalso. apply existsb_exists in E. destruct E as (d & D & E). apply beq_eq in E. subst d. exact (W c D I).
Qed.
Lemma without_app : forall cs a b, without cs a -> without cs b -> without cs (a ++ b).
Proof. intros cs a b A B c C I. apply in_app_or in I. destruct I as [I|I]; [exact (A c C I)|exact (B c C I)]. Qed.
Lemma without_less : forall cs cs' s, without cs s -> (forall c, In c (lit cs') -> In c (lit cs)) -> without cs' s.
Proof. intros cs cs' s W H c C. apply W, H, C. Qed.

Lemma host_parsed : forall (secure : bool) u p h pt port path, without ":/@[" h -> port_given (if secure then lit "443" else lit "80") pt port -> is_path path ->
  url_parse_host secure u p (h ++ pt ++ path) = mkUrl secure path h u p (Inet h port false).
Proof.
  intros secure u p h pt port path H P Q. unfold url_parse_host.
  assert (PT : without "/" pt).
  { destruct P as [|pn W]; [intros c C []|]. change (":"%char :: pn) with ([":"%char] ++ pn). apply without_app.
    - intros c C [X|[]]. subst c. cbn in C. intuition discriminate.
    - apply (without_less "/@"); [exact W|]. intros c C. cbn in *. tauto. }
  rewrite app_assoc, span_unique.
  2: { apply is_not_in, without_app; [|exact PT]. apply (without_less ":/@["); [exact H|]. intros c C. cbn in *. tauto. }
  2: { destruct Q as [-> |(r & ->)]; [exact Logic.I|reflexivity]. }
  assert (S : span (is_not ":") (h ++ pt) = (h, pt)).
  { apply span_unique; [apply is_not_in, (without_less ":/@["); [exact H|intros c C; cbn in *; tauto]|]. destruct P as [|pn W]; [exact Logic.I|reflexivity]. }
  rewrite S. assert (V : match h ++ pt with c :: _ => beq c "[" && beq (last (h ++ pt) NUL) "]" | [] => false end = false).
  { destruct h as [|c h]; cbn [app].
    - destruct P as [|pn W]; reflexivity.
    - destruct (beq c "[") eqn:E; [exfalso; apply beq_eq in E; subst c; apply (H "["%char); [cbn; tauto|left; reflexivity]|reflexivity]. }
  rewrite V. destruct P as [|pn W]; reflexivity.
Qed.

Theorem url_parsed : forall s u, is_url s u -> url_parse s = Parsed u.
Proof.
  intros s u H. destruct H as [secure cr u p h pt port path CR H P Q AT].
  assert (E : url_parse_creds secure (cr ++ h ++ pt ++ path) = mkUrl secure path h u p (Inet h port false)).
  { assert (PA : without "@" pt).
    { destruct P as [|pn W]; [intros c C []|]. change (":"%char :: pn) with ([":"%char] ++ pn). apply without_app.
      - intros c C [X|[]]. subst c. cbn in C. intuition discriminate.
      - apply (without_less "/@"); [exact W|]. intros c C. cbn in *. tauto. }
    unfold url_parse_creds. destruct CR as [|u U|u p U W].
    - specialize (AT eq_refl). cbn [app]. assert (NA : without "@" (h ++ pt ++ path)).
      { apply without_app; [|apply without_app; [exact PA|exact AT]]. apply (without_less ":/@["); [exact H|]. intros c C. cbn in *. tauto. }
      rewrite <- (host_parsed secure None None h pt port path H P Q). set (str := h ++ pt ++ path) in *.
      destruct (span (is_not ":@") str) as [a [|c rest]] eqn:S; [reflexivity|].
      pose proof (span_app (is_not ":@") str) as A. rewrite S in A. cbn [fst snd] in A.
      pose proof (span_snd_head (is_not ":@") str c rest) as B. rewrite S in B. specialize (B eq_refl).
      assert (C : c = ":"%char \/ c = "@"%char).
      { unfold is_not in B. cbn in B. destruct (beq c ":") eqn:E1; [left; apply beq_eq, E1|]. destruct (beq c "@") eqn:E2; [right; apply beq_eq, E2|]. discriminate B. }
      destruct C as [-> | ->].
      + change (beq ":" ":") with true. cbv iota. assert (SR : span (is_not "@") rest = (rest, [])).
        { rewrite <- (app_nil_r rest) at 1. apply span_unique; [|exact Logic.I]. apply is_not_in. intros d D I. apply (NA d D). rewrite <- A. apply in_or_app. right. right. exact I. }
        rewrite SR. reflexivity.
      + exfalso. apply (NA "@"%char); [left; reflexivity|]. rewrite <- A. apply in_or_app. right. left. reflexivity.
    - rewrite <- app_assoc. cbn [app lit list_ascii_of_string]. rewrite (span_unique (is_not ":@") u); [|apply is_not_in, U|reflexivity].
      change (beq "@" ":") with false. cbv iota. apply host_parsed; assumption.
    - repeat (rewrite <- app_assoc; cbn [app lit list_ascii_of_string]). rewrite (span_unique (is_not ":@") u); [|apply is_not_in, U|reflexivity].
      change (beq ":" ":") with true. cbv iota. rewrite (span_unique (is_not "@") p); [|apply is_not_in, W|reflexivity].
      apply host_parsed; assumption. }
  unfold url_parse. destruct secure.
  - change (lit "https" ++ lit "://" ++ cr ++ h ++ pt ++ path) with (lit "https" ++ ":"%char :: "/"%char :: "/"%char :: (cr ++ h ++ pt ++ path)).
    rewrite span_unique; [|reflexivity|reflexivity]. change (beq "/" "/" && beq "/" "/") with true. cbv iota.
    change (bytes_eqb (lit "https") (lit "http")) with false. change (bytes_eqb (lit "https") (lit "https")) with true. cbv iota. rewrite E. reflexivity.
  - change (lit "http" ++ lit "://" ++ cr ++ h ++ pt ++ path) with (lit "http" ++ ":"%char :: "/"%char :: "/"%char :: (cr ++ h ++ pt ++ path)).
    rewrite span_unique; [|reflexivity|reflexivity]. change (beq "/" "/" && beq "/" "/") with true. cbv iota.
    change (bytes_eqb (lit "http") (lit "http")) with true. cbv iota. rewrite E. reflexivity.
Qed.

Theorem file_parsed : forall s, ~ has_scheme s ->
  url_parse s = if (Z.of_nat (length s) <=? 108)%Z then Parsed (mkUrl false [] (lit "localhost") None None (Unix s)) else Too_long.
Proof.
  intros s H. unfold url_parse. assert (E : Nat.ltb SUN_PATH (length s) = negb (Z.of_nat (length s) <=? 108)%Z).
  { destruct (Nat.ltb_spec SUN_PATH (length s)) as [L|L]; destruct (Z.leb_spec (Z.of_nat (length s)) 108) as [K|K]; try reflexivity; unfold SUN_PATH in L; lia. }
  rewrite E. assert (G : forall a b : parsed, (if negb (Z.of_nat (length s) <=? 108)%Z then b else a) = (if (Z.of_nat (length s) <=? 108)%Z then a else b)) by (intros; destruct (_ <=? _)%Z; reflexivity).
  rewrite G. destruct (span (is_not ":") s) as [a [|c [|s1 [|s2 rest]]]] eqn:S; try reflexivity.
  destruct (beq s1 "/" && beq s2 "/") eqn:B; [|reflexivity]. exfalso. apply H.
  apply andb_true_iff in B. destruct B as [B1 B2]. apply beq_eq in B1. apply beq_eq in B2. subst s1 s2.
  pose proof (span_app (is_not ":") s) as A. rewrite S in A. cbn [fst snd] in A.
  pose proof (span_snd_head (is_not ":") s c ("/" :: "/" :: rest)%char) as C. rewrite S in C. specialize (C eq_refl).
  pose proof (span_fst_all (is_not ":") s) as F. rewrite S in F. cbn [fst] in F.
  assert (c = ":"%char) as ->. { unfold is_not in C. cbn in C. destruct (beq c ":") eqn:EC; [apply beq_eq, EC|discriminate C]. }
  exists a, rest. split; [rewrite <- A; reflexivity|]. intros I. rewrite forallb_forall in F. specialize (F _ I). discriminate F.
Qed.
Theorem scheme_refused : forall a r, ~ In ":"%char a -> a <> lit "http" -> a <> lit "https" -> url_parse (a ++ lit "://" ++ r) = Unsupported.
Proof.
  intros a r N H1 H2. unfold url_parse. change (lit "://" ++ r) with (":"%char :: "/"%char :: "/"%char :: r).
  rewrite span_unique; [| |reflexivity].
  - change (beq "/" "/" && beq "/" "/") with true. cbv iota. apply bytes_eqb_neq in H1. apply bytes_eqb_neq in H2. rewrite H1, H2. reflexivity.
  - apply is_not_in. intros c [<-|[]]. exact N.
Qed.
