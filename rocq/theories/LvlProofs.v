(** Proofs about log formats and levels (C83). *)
From Coq Require Import Ascii String List ZArith Bool Lia.
From Verif Require Import Bytes ClenSpec NumSpec LogModel LvlModel LvlSpec LogProofs.
From Verif Require NumModel NumProofs LexSpec DirModel DirProofs.
Import ListNotations.
Local Open Scope list_scope.
Local Open Scope Z_scope.

Definition holds (x : bytes * list instr) (y : bytes * bytes) : Prop := fst x = fst y /\ accept (http_log_format_compile (snd y)) = Some (snd x).
Definition good (t : table) (fs : list (bytes * bytes)) : Prop := Forall2 holds t fs /\ NoDup (map fst fs) /\ (length t <= 32)%nat.

Lemma forall2_length : forall A B (R : A -> B -> Prop) l m, Forall2 R l m -> length l = length m.
Proof. induction 1; cbn; congruence. Qed.

Lemma find_good : forall t fs n, Forall2 holds t fs ->
  match find_log_prog t n with Some i => exists f, nth_error fs i = Some (n, f) | None => ~ In n (map fst fs) end.
Proof.
  induction 1 as [|[m p] [m' f] t fs [E A] H IH]; cbn [find_log_prog map In fst]; [tauto|]. cbn [fst] in E. subst m'.
  destruct (bytes_eqb m n) eqn:Em; [apply bytes_eqb_eq in Em as ->; exists f; reflexivity|].
  destruct (find_log_prog t n) as [i|]; cbn [option_map]; [destruct IH as [g G]; exists g; exact G|].
  intros [->|K]; [rewrite bytes_eqb_refl in Em; discriminate|auto].
Qed.

Lemma holds_nth : forall t fs i n f, Forall2 holds t fs -> nth_error fs i = Some (n, f) ->
  exists p, nth_error t i = Some (n, p) /\ accept (http_log_format_compile f) = Some p.
Proof.
  intros t fs i n f H; revert i; induction H as [|[m p] [m' g] t fs [E A] H IH]; intros [|i] K; cbn in K; try discriminate.
  - injection K as -> ->. cbn in E, A. subst m. exists p; auto.
  - apply IH; auto.
Qed.

(** The index [l] is the one of a format that [k] stands for *)
Definition ok (fs : list (bytes * bytes)) (k : LexSpec.lexeme) (l : Z) : Prop :=
  exists i n f, l = Z.of_nat i /\ nth_error fs i = Some (n, f) /\ refers fs k f.

Lemma nth_lt : forall A (l : list A) i x, nth_error l i = Some x -> (i < length l)%nat.
Proof. intros A l i x H. apply nth_error_Some. congruence. Qed.

Lemma level_ok : forall t fs k, good t fs -> proper k ->
  match parse_log_level t k with Some l => ok fs k l | None => forall f, ~ refers fs k f end.
Proof.
  intros t fs k (F & N & L) P. pose proof (forall2_length _ _ _ _ _ F) as Len.
  destruct k as [|w|w|w|w|]; cbn [parse_log_level]; try (intros f K; inversion K; fail).
  - cbn in P. unfold NumModel.strtol. rewrite (NumProofs.scan_token w P). pose proof (NumProofs.token_nonneg w P) as NN.
    cbv zeta iota. set (v := NumModel.num_value 10 w) in *.
    destruct (Z_lt_dec v (Z.of_nat (length t))) as [V|V].
    + unfold NumModel.LONG_MAX, NumModel.LONG_MIN, NumModel.INT_MAX, http_log_format_check.
      replace (9223372036854775807 <? v) with false by (symmetry; apply Z.ltb_ge; lia).
      replace (v <? -9223372036854775808) with false by (symmetry; apply Z.ltb_ge; lia).
      cbn [NumModel.at_end negb orb].
      replace (v <? 0) with false by (symmetry; apply Z.ltb_ge; lia).
      replace (2147483647 <? v) with false by (symmetry; apply Z.ltb_ge; lia).
      replace (Z.of_nat (length t) <=? v) with false by (symmetry; apply Z.leb_gt; lia).
      cbn [orb Z.eqb].
      destruct (nth_error fs (Z.to_nat v)) as [[n f]|] eqn:E; [|apply nth_error_None in E; lia].
      exists (Z.to_nat v), n, f. split; [lia|]. split; [exact E|]. econstructor; [|exact E].
      rewrite Z2Nat.id by lia. apply (NumProofs.token_numeral w v P). reflexivity.
    + assert (forall f, ~ refers fs (LexSpec.Number w) f) as No.
      { intros f K. inversion K as [|w' i n f' Nu E]; subst. apply (NumProofs.token_numeral w _ P) in Nu. apply nth_lt in E. fold v in Nu. lia. }
      destruct (NumModel.LONG_MAX <? v); [exact No|]. destruct (v <? NumModel.LONG_MIN); [exact No|].
      destruct (false || negb (NumModel.at_end []) || (v <? 0) || (NumModel.INT_MAX <? v)); [exact No|].
      unfold http_log_format_check. replace (Z.of_nat (length t) <=? v) with true by (symmetry; apply Z.leb_le; lia).
      rewrite orb_true_r. cbn [Z.eqb]. exact No.
  - unfold http_log_format_find. pose proof (find_good t fs w F) as G. destruct (find_log_prog t w) as [i|].
    + replace (Z.of_nat i =? -1) with false by (symmetry; apply Z.eqb_neq; lia). destruct G as [f G]. exists i, w, f. split; [reflexivity|]. split; [exact G|].
      constructor. eapply nth_error_In; eauto.
    + cbn [Z.eqb]. intros f K. inversion K; subst. apply G. apply in_map_iff. exists (w, f); auto.
Qed.

Lemma section_ok : forall t fs ks l k0, good t fs -> Forall proper ks -> ok fs k0 l ->
  match section t l ks with
  | Some l' => ok fs (last ks k0) l' /\ Forall (fun k => exists f, refers fs k f) ks
  | None => ~ Forall (fun k => exists f, refers fs k f) ks
  end.
Proof.
  intros t fs ks; induction ks as [|k ks IH]; intros l k0 G P O; cbn [section]; [split; [exact O|constructor]|].
  inversion P as [|k' ks' P1 P2]; subst. pose proof (level_ok t fs k G P1) as Lv. destruct (parse_log_level t k) as [l1|].
  - specialize (IH l1 k G P2 Lv). destruct (section t l1 ks) as [l2|].
    + destruct IH as [A B]. split.
      * replace (last (k :: ks) k0) with (last ks k); [exact A|]. clear. revert k k0; induction ks as [|x xs IH]; intros k k0; [reflexivity|].
        change (last (k :: x :: xs) k0) with (last (x :: xs) k0). rewrite <- (IH x k0). rewrite <- (IH x k). reflexivity.
      * constructor; auto. destruct Lv as (i & n & f & _ & _ & R). eauto.
    + intros K. inversion K; auto.
  - intros K. inversion K as [|x y [f R]]; subst. exact (Lv f R).
Qed.

Lemma define_good : forall t fs n f t' i, good t fs -> define t n f = Defined t' i -> good t' (fs ++ [(n, f)]).
Proof.
  intros t fs n f t' i (F & N & L) D. pose proof D as D'. apply define_ok in D as (Fn & Ft & (p & Np & Ac) & _ & Le).
  assert (t' = t ++ [(n, p)]) as ->.
  { unfold define in D'. rewrite Fn in D'. destruct (Nat.eqb (length t) MAX_HTTP_LOG_FORMATS); [discriminate|].
    destruct (http_log_format_compile f) as [q d|d|] eqn:C; cbn [accept] in *; try discriminate. rewrite Ac in D'. injection D' as <- <-. reflexivity. }
  pose proof (find_good t fs n F) as G. rewrite Fn in G. split; [|split].
  - apply Forall2_app; [exact F|]. constructor; [split; [reflexivity|exact Ac]|constructor].
  - rewrite map_app. cbn [map fst]. clear - N G. induction (map fst fs) as [|x l IH]; cbn [app]; [constructor; [tauto|constructor]|].
    inversion N; subst. constructor; [rewrite in_app_iff; cbn; intros [K|[K|[]]]; [auto|subst; apply G; left; reflexivity]|apply IH; auto; intros K; apply G; right; exact K].
  - rewrite app_length in *. cbn [length] in *. unfold MAX_HTTP_LOG_FORMATS in Le. destruct Le; [assumption|]. lia.
Qed.

Definition inv (ds : list directive) (c : conf) : Prop :=
  good (formats c) (defined ds) /\ ok (defined ds) (counts ds []) (dfl_level c) /\ length (levels c) = sections ds /\
  forall pre ks post, ds = pre ++ Listen ks :: post -> exists l, nth_error (levels c) (sections pre) = Some l /\ ok (defined pre) (counts pre ks) l.

Lemma canned_good : forall l t fs d ls c, good t fs -> compile_canned (mkC t d ls) l = Read c -> good (formats c) (fs ++ l) /\ dfl_level c = d /\ levels c = ls.
Proof.
  induction l as [|[n f] l IH]; intros t fs d ls c G H; cbn [compile_canned] in H; [injection H as <-; rewrite app_nil_r; auto|].
  unfold parse_log_format in H. cbn [formats dfl_level levels] in H. destruct (define t n f) as [| |t' i|t'|] eqn:D; try discriminate.
  specialize (IH t' (fs ++ [(n, f)]) d ls c (define_good _ _ _ _ _ _ G D) H). rewrite <- app_assoc in IH. exact IH.
Qed.

Lemma start_read : exists c, start = Read c.
Proof. destruct start as [| |c] eqn:E; [vm_compute in E; discriminate|vm_compute in E; discriminate|eauto]. Qed.

Lemma one_one : numeral decimal 10 (lit "1") 1.
Proof. apply (NumProofs.token_numeral (lit "1") 1); [|reflexivity]. split; [discriminate|]. constructor; [exists 1; split; [lia|reflexivity]|constructor]. Qed.

Lemma canned_built_in : canned_log_format = built_in.
Proof. vm_compute. reflexivity. Qed.

Lemma inv_start : forall c, start = Read c -> inv [] c.
Proof.
  intros c H. unfold start in H. apply (canned_good _ [] []) in H as (G & D & L); [|split; [constructor|split; [constructor|cbn; lia]]].
  unfold inv, defined, counts, sections. cbn [flat_map filter length app]. rewrite D, L.
  change (built_in ++ []) with (defined []). unfold defined. cbn [flat_map]. rewrite <- canned_built_in, app_nil_r. cbn [app] in G.
  split; [exact G|]. split; [|split; [reflexivity|intros pre ks post K; destruct pre; discriminate]].
  exists 1%nat, (lit "regular"%string), (lit "%a %r - %>s"%string). split; [reflexivity|]. split; [reflexivity|].
  cbn [last]. apply (by_number _ _ 1%nat (lit "regular"%string) _ one_one). reflexivity.
Qed.

Lemma config_app : forall ds d, config (ds ++ [d]) = match config ds with Read c => parse c d | o => o end.
Proof.
  intros ds d. unfold config. destruct start as [| |c0]; auto. revert c0. induction ds as [|e ds IH]; intros c0; cbn [app parse_all].
  - destruct (parse c0 d); reflexivity.
  - destruct (parse c0 e); auto.
Qed.

Lemma refers_more : forall fs gs k f, refers fs k f -> refers (fs ++ gs) k f.
Proof.
  intros fs gs k f [n g H|w i n g H E]; [constructor; apply in_or_app; auto|]. econstructor; [exact H|]. rewrite nth_error_app1; [exact E|eapply nth_lt; eauto].
Qed.
Lemma ok_more : forall fs gs k l, ok fs k l -> ok (fs ++ gs) k l.
Proof.
  intros fs gs k l (i & n & f & E & N & R). exists i, n, f. split; [exact E|]. split; [rewrite nth_error_app1; [exact N|eapply nth_lt; eauto]|apply refers_more; exact R].
Qed.
Lemma defined_app : forall ds d, defined (ds ++ [d]) = defined ds ++ match d with LogFormat n f => [(n, f)] | _ => [] end.
Proof. intros. unfold defined. rewrite flat_map_app. cbn [flat_map]. rewrite app_nil_r, app_assoc. reflexivity. Qed.
Lemma counts_app : forall ds d, counts (ds ++ [d]) [] = match d with LogLevel k => k | _ => counts ds [] end.
Proof.
  intros. unfold counts. rewrite flat_map_app. cbn [flat_map]. rewrite !app_nil_r. destruct d; rewrite ?app_nil_r; auto. apply last_last.
Qed.
Lemma last_app2 : forall A (a b : list A) d, last (a ++ b) d = last b (last a d).
Proof.
  intros A a b; revert a; induction b as [|x b IH] using rev_ind; intros a d; [rewrite app_nil_r; reflexivity|].
  rewrite app_assoc, !last_last. reflexivity.
Qed.
Lemma counts_section : forall ds ks, counts ds ks = last ks (counts ds []).
Proof. intros. unfold counts. rewrite app_nil_r. apply last_app2. Qed.
Lemma sections_app : forall a b, sections (a ++ b) = (sections a + sections b)%nat.
Proof. intros. unfold sections. rewrite filter_app, app_length. reflexivity. Qed.

Lemma split_end : forall A (l : list A) d pre x post, l ++ [d] = pre ++ x :: post ->
  (pre = l /\ x = d /\ post = []) \/ (exists post', post = post' ++ [d] /\ l = pre ++ x :: post').
Proof.
  intros A l d pre x post H. destruct post as [|y post _] using rev_ind.
  - apply app_inj_tail in H as [-> ->]. auto.
  - right. exists post. rewrite app_comm_cons, app_assoc in H. apply app_inj_tail in H as [-> ->]. auto.
Qed.

Lemma inv_step : forall ds d c c', inv ds c -> proper_all [d] -> parse c d = Read c' -> inv (ds ++ [d]) c'.
Proof.
  intros ds d c c' (G & O & L & S) P H. apply Forall_inv in P. unfold inv. rewrite defined_app, counts_app, sections_app. destruct d as [n f|k|ks]; cbn [parse] in H.
  - unfold parse_log_format in H. destruct (define (formats c) n f) as [| |t' i|t'|] eqn:D; try discriminate. injection H as <-. cbn [formats dfl_level levels].
    split; [eapply define_good; eauto|]. split; [apply ok_more; exact O|]. split; [unfold sections at 2; cbn; lia|].
    intros pre ks post E. apply split_end in E as [(_ & X & _)|(post' & _ & E)]; [discriminate|]. exact (S _ _ _ E).
  - pose proof (level_ok _ _ k G P) as Lv. destruct (parse_log_level (formats c) k) as [l|]; [|discriminate]. injection H as <-. cbn [formats dfl_level levels].
    rewrite app_nil_r. split; [exact G|]. split; [exact Lv|]. split; [unfold sections at 2; cbn; lia|].
    intros pre ks post E. apply split_end in E as [(_ & X & _)|(post' & _ & E)]; [discriminate|]. exact (S _ _ _ E).
  - pose proof (section_ok _ _ ks _ _ G P O) as Sc. destruct (section (formats c) (dfl_level c) ks) as [l|]; [|discriminate]. injection H as <-. cbn [formats dfl_level levels].
    rewrite app_nil_r. split; [exact G|]. split; [exact O|]. split; [rewrite app_length; unfold sections at 2; cbn; lia|].
    intros pre ks' post E. apply split_end in E as [(-> & X & _)|(post' & _ & E)].
    + injection X as ->. exists l. split; [rewrite nth_error_app2 by lia; rewrite L, Nat.sub_diag; reflexivity|]. rewrite counts_section. exact (proj1 Sc).
    + destruct (S _ _ _ E) as (l' & N & K). exists l'. split; [|exact K]. rewrite nth_error_app1; [exact N|eapply nth_lt; eauto].
Qed.

Lemma inv_config : forall ds c, proper_all ds -> config ds = Read c -> inv ds c.
Proof.
  induction ds as [|d ds IH] using rev_ind; intros c P H.
  - unfold config in H. destruct start as [| |c0] eqn:E; try discriminate. cbn in H. injection H as <-. apply inv_start; exact E.
  - apply Forall_app in P as [P1 P2]. rewrite config_app in H. destruct (config ds) as [| |c1]; try discriminate. eapply inv_step; eauto.
Qed.

Lemma logged_ok : forall ds c pre ks post q an, proper_all ds -> config ds = Read c -> ds = pre ++ Listen ks :: post ->
  exists f p, refers (defined pre) (counts pre ks) f /\ accept (http_log_format_compile f) = Some p /\
    logged an c (sections pre) q = match p with [] => None | _ => Some (http_log an p q) end.
Proof.
  intros ds c pre ks post q an P H E. destruct (inv_config ds c P H) as (G & _ & _ & S). destruct (S _ _ _ E) as (l & N & i & n & f & -> & Nf & R).
  assert (nth_error (defined ds) i = Some (n, f)) as Nd.
  { subst ds. unfold defined in *. rewrite flat_map_app, app_assoc. rewrite nth_error_app1; [exact Nf|eapply nth_lt; eauto]. }
  destruct G as (F & _ & _). destruct (holds_nth _ _ _ _ _ F Nd) as (p & Np & A). exists f, p. split; [exact R|]. split; [exact A|].
  unfold logged. rewrite N. unfold http_log_format_check. pose proof (nth_lt _ _ _ _ Np).
  replace (Z.of_nat i <? 0) with false by (symmetry; apply Z.ltb_ge; lia). replace (Z.of_nat (length (formats c)) <=? Z.of_nat i) with false by (symmetry; apply Z.leb_gt; lia).
  cbn [orb Z.eqb]. rewrite Nat2Z.id, Np. destruct p; reflexivity.
Qed.

Lemma names_ok : forall ds c, proper_all ds -> config ds = Read c -> NoDup (map fst (defined ds)) /\ (length (defined ds) <= 32)%nat /\
  Forall (fun x => exists p, accept (http_log_format_compile (snd x)) = Some p) (defined ds).
Proof.
  intros ds c P H. destruct (inv_config ds c P H) as ((F & N & L) & _). rewrite (forall2_length _ _ _ _ _ F) in L. split; [exact N|]. split; [exact L|].
  clear - F. induction F as [|x y t fs [_ A] F IH]; constructor; eauto.
Qed.

Lemma accept_ok : forall ds c, proper_all ds -> config ds = Read c ->
  (forall k, proper k -> ((exists c', config (ds ++ [LogLevel k]) = Read c') <-> exists f, refers (defined ds) k f)) /\
  (forall ks, Forall proper ks -> ((exists c', config (ds ++ [Listen ks]) = Read c') <-> Forall (fun k => exists f, refers (defined ds) k f) ks)).
Proof.
  intros ds c P H. destruct (inv_config ds c P H) as (G & O & _). split.
  - intros k Pk. rewrite config_app, H. cbn [parse]. pose proof (level_ok _ _ k G Pk) as Lv. destruct (parse_log_level (formats c) k) as [l|].
    + split; [intros _; destruct Lv as (i & n & f & _ & _ & R); eauto|eauto].
    + split; [intros [c' K]; discriminate|intros [f R]; destruct (Lv f R)].
  - intros ks Pk. rewrite config_app, H. cbn [parse]. pose proof (section_ok _ _ ks _ _ G Pk O) as Sc. destruct (section (formats c) (dfl_level c) ks) as [l|].
    + split; [intros _; exact (proj2 Sc)|eauto].
    + split; [intros [c' K]; discriminate|intros K; destruct (Sc K)].
Qed.

(** A LogFormat is accepted if its name is new, there is room, and the format compiles. *)
Lemma format_ok : forall ds c n f, proper_all ds -> config ds = Read c ->
  ((exists c', config (ds ++ [LogFormat n f]) = Read c') <->
    ~ In n (map fst (defined ds)) /\ (length (defined ds) < 32)%nat /\ exists p, accept (http_log_format_compile f) = Some p).
Proof.
  intros ds c n f P H. destruct (inv_config ds c P H) as ((F & N & L) & _). rewrite config_app, H. cbn [parse]. unfold parse_log_format, define.
  pose proof (find_good _ _ n F) as G. pose proof (forall2_length _ _ _ _ _ F) as Len. destruct (find_log_prog (formats c) n) as [i|].
  - split; [intros [c' K]; discriminate|]. intros (K & _). exfalso. destruct G as [g G]. apply K. apply nth_error_In in G. apply in_map_iff. exists (n, g); auto.
  - destruct (Nat.eqb_spec (length (formats c)) MAX_HTTP_LOG_FORMATS) as [E|E]; unfold MAX_HTTP_LOG_FORMATS in E.
    + split; [intros [c' K]; discriminate|]. intros (_ & K & _). lia.
    + destruct (http_log_format_compile f) as [p d|d|]; cbn [accept].
      * destruct (last d false); [split; [intros [c' K]; discriminate|intros (_ & _ & q & K); discriminate]|].
        split; [intros _; split; [exact G|]; split; [lia|eauto]|eauto].
      * split; [intros [c' K]; discriminate|intros (_ & _ & q & K); discriminate].
      * split; [intros [c' K]; discriminate|intros (_ & _ & q & K); discriminate].
Qed.

Lemma table_nodup : NoDup (map (fun x => lower (fst x)) facility_table).
Proof. vm_compute. repeat constructor; cbn; let H := fresh in intros H; repeat (destruct H as [H|H]; [discriminate H|]); exact H. Qed.
Lemma table_spec : forall k v, In (k, v) facility_table -> exists name code, In (name, code) facilities /\ k = lit name /\ v = 8 * code.
Proof.
  assert (B : forallb (fun x => existsb (fun y => bytes_eqb (fst x) (lit (fst y)) && (snd x =? 8 * snd y)) facilities) facility_table = true) by (vm_compute; reflexivity).
  intros k v I. rewrite forallb_forall in B. specialize (B _ I). apply existsb_exists in B as ([name code] & J & E). cbn [fst snd] in E.
  apply andb_prop in E as [E1 E2]. apply bytes_eqb_eq in E1. apply Z.eqb_eq in E2. eauto.
Qed.
Lemma spec_table : forall name code, In (name, code) facilities -> In (lit name, 8 * code) facility_table /\ lower (lit name) = lit name /\ lit name <> lit "-"%string.
Proof.
  assert (B : forallb (fun y => existsb (fun x => bytes_eqb (fst x) (lit (fst y)) && (snd x =? 8 * snd y)) facility_table && bytes_eqb (lower (lit (fst y))) (lit (fst y)) &&
    negb (bytes_eqb (lit (fst y)) (lit "-"%string))) facilities = true) by (vm_compute; reflexivity).
  intros name code I. rewrite forallb_forall in B. specialize (B _ I). cbn [fst snd] in B. apply andb_prop in B as [B B3]. apply andb_prop in B as [B1 B2].
  apply existsb_exists in B1 as ([k v] & J & E). cbn [fst snd] in E. apply andb_prop in E as [E1 E2]. apply bytes_eqb_eq in E1. apply Z.eqb_eq in E2. subst.
  split; [exact J|]. split; [apply bytes_eqb_eq; exact B2|]. intros K. rewrite K in B3. discriminate.
Qed.
Lemma facility_ok : forall k n, cfg_assign_log_facility k = Some n <->
  exists w, (k = LexSpec.Ident w \/ k = LexSpec.Number w \/ k = LexSpec.Literal w) /\
    ((w = lit "-"%string /\ n = -1) \/ exists name code, In (name, code) facilities /\ lower w = lit name /\ n = 8 * code).
Proof.
  assert (W : forall w n, (if bytes_eqb w (lit "-"%string) then Some (-1) else DirModel.kw_to_tok facility_table true w) = Some n <->
    ((w = lit "-"%string /\ n = -1) \/ exists name code, In (name, code) facilities /\ lower w = lit name /\ n = 8 * code)).
  { intros w n. destruct (bytes_eqb w (lit "-"%string)) eqn:E.
    - apply bytes_eqb_eq in E as ->. split; [intros [= <-]; auto|]. intros [[_ ->]|(name & code & I & L & _)]; [reflexivity|]. exfalso.
      apply spec_table in I as (_ & _ & N). apply N. symmetry. exact L.
    - rewrite (DirProofs.kw_names Z facility_table w n table_nodup). split.
      + intros (k & I & L). right. apply table_spec in I as (name & code & I & -> & ->). exists name, code. split; [exact I|]. split; [|reflexivity].
        apply spec_table in I as (_ & Lo & _). congruence.
      + intros [[-> _]|(name & code & I & L & ->)]; [rewrite bytes_eqb_refl in E; discriminate|]. apply spec_table in I as (J & Lo & _). exists (lit name). split; [exact J|]. congruence. }
  intros k n. unfold cfg_assign_log_facility. destruct k as [|w|w|w|w|]; cbn [DirModel.unquoted];
    try (split; [discriminate|intros (w' & [K|[K|K]] & _); discriminate]);
    (rewrite W; split; [intros H; exists w; auto|intros (w' & [K|[K|K]] & H); try discriminate K; injection K as <-; exact H]).
Qed.
