(** Proofs about the literal string matchers. *)
From Coq Require Import Ascii String List ZArith Lia Bool Arith.
From Verif Require Import Bytes PatModel PatSpec.
Import ListNotations.
Local Open Scope nat_scope.

(** *** The simple matchers *)
Lemma str_same_iff : forall ci a b, str_same ci a b = true <-> same ci a b.
Proof. intros [] a b; unfold str_same, same; [apply ci_eqb_eq|apply bytes_eqb_eq]. Qed.

Lemma same_length : forall ci a b, same ci a b -> length a = length b.
Proof.
  intros [] a b H; unfold same in H; [|congruence].
  rewrite <- (map_length to_lower a), <- (map_length to_lower b). congruence.
Qed.

Lemma exact_iff : forall ci p s, exact_exec ci p s = true <-> same ci s p.
Proof.
  intros ci p s. unfold exact_exec. destruct (Nat.eqb_spec (length s) (length p)) as [E|E]; simpl.
  - apply str_same_iff.
  - split; [discriminate|]. intros H. apply same_length in H. contradiction.
Qed.

Lemma prefix_iff : forall ci p s, prefix_exec ci p s = true <-> starts_with ci p s.
Proof.
  intros ci p s. unfold prefix_exec, starts_with. rewrite (firstn_all p).
  destruct (Nat.ltb_spec (length s) (length p)) as [L|L].
  - split; [discriminate|]. intros (a & b & -> & H). apply same_length in H. rewrite app_length in L. lia.
  - rewrite str_same_iff. split.
    + intros H. exists (firstn (length p) s), (skipn (length p) s). rewrite firstn_skipn. auto.
    + intros (a & b & -> & H). pose proof (same_length _ _ _ H) as E. rewrite <- E, firstn_app, Nat.sub_diag, firstn_all.
      simpl. rewrite app_nil_r. auto.
Qed.

Lemma suffix_iff : forall ci p s, suffix_exec ci p s = true <-> ends_with ci p s.
Proof.
  intros ci p s. unfold suffix_exec, ends_with. rewrite (firstn_all p).
  destruct (Nat.ltb_spec (length s) (length p)) as [L|L].
  - split; [discriminate|]. intros (a & b & -> & H). apply same_length in H. rewrite app_length in L. lia.
  - rewrite str_same_iff. split.
    + intros H. exists (firstn (length s - length p) s), (skipn (length s - length p) s). rewrite firstn_skipn.
      split; auto. rewrite firstn_all2 in H; auto. rewrite skipn_length. lia.
    + intros (a & b & -> & H). pose proof (same_length _ _ _ H) as E. rewrite app_length, <- E.
      replace (length a + length b - length b) with (length a) by lia.
      rewrite skipn_app, Nat.sub_diag, skipn_all. simpl. rewrite firstn_all. auto.
Qed.

(** *** Case folding *)
Lemma UC_idem : forall ci c, UC ci (UC ci c) = UC ci c.
Proof. intros [] c; [|reflexivity]. destruct c as [[] [] [] [] [] [] [] []]; reflexivity. Qed.
Lemma UC_lower : forall c, to_lower (casemap c) = to_lower c.
Proof. intros c. destruct c as [[] [] [] [] [] [] [] []]; reflexivity. Qed.
Lemma UC_of_lower : forall c, casemap (to_lower c) = casemap c.
Proof. intros c. destruct c as [[] [] [] [] [] [] [] []]; reflexivity. Qed.
Lemma UC_max : forall ci c, UC ci c = byte_max <-> c = byte_max.
Proof.
  intros ci c. split; [|intros ->; destruct ci; reflexivity].
  destruct ci; [|auto]. destruct c as [[] [] [] [] [] [] [] []]; vm_compute; auto; discriminate.
Qed.
Lemma map_UC_same : forall ci a b, map (UC ci) a = map (UC ci) b <-> same ci a b.
Proof.
  intros ci a b. destruct ci; unfold same, UC.
  - split; intros H.
    + apply (f_equal (map to_lower)) in H. rewrite !map_map in H.
      rewrite (map_ext _ to_lower UC_lower) in H. rewrite (map_ext (fun x => to_lower (casemap x)) to_lower UC_lower) in H. auto.
    + apply (f_equal (map casemap)) in H. rewrite !map_map in H.
      rewrite (map_ext (fun x => casemap (to_lower x)) casemap UC_of_lower) in H.
      rewrite (map_ext (fun x => casemap (to_lower x)) casemap UC_of_lower) in H. auto.
  - rewrite !map_id. tauto.
Qed.
Lemma folded_UC : forall ci p, folded ci p = map (UC ci) p.
Proof. intros [] p; unfold folded, UC; [reflexivity|rewrite map_id; auto]. Qed.

Lemma at_map : forall ci s i, at_ (map (UC ci) s) i = UC ci (at_ s i).
Proof.
  intros ci s i. unfold at_. replace NUL with (UC ci NUL) at 1 by (destruct ci; reflexivity). apply map_nth.
Qed.
Lemma at_app_l : forall a b i, i < length a -> at_ (a ++ b) i = at_ a i.
Proof. intros. unfold at_. apply app_nth1. auto. Qed.
Lemma at_app_r : forall a b i, at_ (a ++ b) (length a + i) = at_ b i.
Proof. intros. unfold at_. rewrite app_nth2 by lia. f_equal. lia. Qed.

Lemma list_at_ext : forall a b : bytes, length a = length b -> (forall i, i < length a -> at_ a i = at_ b i) -> a = b.
Proof.
  induction a as [|x a IH]; intros [|y b] L H; simpl in *; try discriminate; auto.
  f_equal; [apply (H 0); lia|]. apply IH; [lia|]. intros i Hi. apply (H (S i)). lia.
Qed.
Lemma at_skipn : forall (s : bytes) n i, at_ (skipn n s) i = at_ s (n + i).
Proof.
  induction s as [|x s IH]; intros n i; destruct n; simpl; auto.
  - unfold at_. simpl. destruct i; auto.
  - rewrite IH. reflexivity.
Qed.
Lemma at_firstn : forall (s : bytes) n i, i < n -> at_ (firstn n s) i = at_ s i.
Proof.
  induction s as [|x s IH]; intros n i H; destruct n; simpl; auto; try lia.
  destruct i; auto. unfold at_ in *. simpl. apply IH. lia.
Qed.

Lemma skipn_skipn : forall (A : Type) (l : list A) m n, skipn m (skipn n l) = skipn (m + n) l.
Proof.
  intros A. induction l as [|x l IH]; intros m n; [rewrite !skipn_nil; auto|].
  destruct n as [|n]; [rewrite Nat.add_0_r; auto|]. rewrite Nat.add_succ_r. simpl. apply IH.
Qed.

(** *** Tables *)
Section Tables.
  Variable P : bytes.
  Let n := length P.

  Definition pref (pos : nat) : Prop := firstn (n - pos) P = skipn pos P.

  Lemma is_prefix_false : forall pos, is_prefix P pos = false <-> pref pos.
  Proof. intros pos. unfold is_prefix, pref. rewrite negb_false_iff, bytes_eqb_eq. tauto. Qed.

  Lemma pref_at : forall pos, pos <= n -> (pref pos <-> forall k, pos + k < n -> at_ P k = at_ P (pos + k)).
  Proof.
    intros pos L. unfold pref. split.
    - intros E k K. rewrite <- at_skipn, <- E. rewrite at_firstn by lia. auto.
    - intros H. apply list_at_ext.
      + rewrite firstn_length, skipn_length. fold n. lia.
      + intros i Hi. rewrite firstn_length in Hi. fold n in Hi. rewrite at_firstn by lia. rewrite at_skipn. apply H. lia.
  Qed.

  Lemma pref_end : pref n.
  Proof. apply pref_at; [lia|]. intros; lia. Qed.

  (** the value of j after the first loop has treated index i *)
  Definition jprop (i v : nat) : Prop :=
    (exists m, i <= m < n /\ ~ pref (m + 1) /\ v = m + 1 /\ (forall m', i <= m' < m -> pref (m' + 1))) \/
    ((forall m, i <= m < n -> pref (m + 1)) /\ v = 1).

  Lemma pass1_spec : forall k j tail, k <= n -> jprop k j ->
    length (good_pass1 P k j tail) = k + length tail /\
    (forall i, k <= i -> nth i (good_pass1 P k j tail) 0 = nth (i - k) tail 0) /\
    (forall i, i < k -> exists v, jprop i v /\ nth i (good_pass1 P k j tail) 0 = v + n - 1 - i).
  Proof.
    induction k as [|i IH]; intros j tail L J; cbn [good_pass1].
    - split; [auto|]. split; [intros i _; rewrite Nat.sub_0_r; auto|intros; lia].
    - set (j' := if is_prefix P (i + 1) then i + 1 else j).
      assert (J' : jprop i j').
      { unfold j'. destruct (is_prefix P (i + 1)) eqn:E.
        - left. exists i. split; [lia|]. split; [|split; [auto|intros; lia]].
          rewrite <- is_prefix_false. congruence.
        - apply is_prefix_false in E. destruct J as [(m & M & N & -> & H)|[H ->]].
          + left. exists m. split; [lia|]. split; [auto|]. split; [auto|]. intros m' K.
            destruct (Nat.eq_dec m' i) as [->|]; [auto|]. apply H. lia.
          + right. split; [|auto]. intros m K. destruct (Nat.eq_dec m i) as [->|]; [auto|]. apply H. lia. }
      destruct (IH j' ((j' + length P - 1 - i) :: tail) ltac:(lia) J') as (A & B & C).
      cbn [length] in A. split; [lia|]. split.
      + intros x Hx. rewrite B by lia. replace (x - i) with (S (x - S i)) by lia. reflexivity.
      + intros x Hx. destruct (Nat.eq_dec x i) as [->|].
        * exists j'. split; auto. rewrite B by lia. rewrite Nat.sub_diag. reflexivity.
        * apply C. lia.
  Qed.

  Lemma suffix_loop_spec : forall pos k i, k + i = pos -> 
    (forall q, q < i -> at_ P (pos - q) = at_ P (n - 1 - q)) ->
    let r := longest_suffix_loop P pos k i in
    i <= r <= pos /\ (forall q, q < r -> at_ P (pos - q) = at_ P (n - 1 - q)) /\
    (r < pos -> at_ P (pos - r) <> at_ P (n - 1 - r)).
  Proof.
    intros pos k. induction k as [|k IH]; intros i E H; cbn [longest_suffix_loop]; cbv zeta.
    - split; [lia|]. split; [auto|lia].
    - fold n. destruct (beq (at_ P (pos - i)) (at_ P (n - 1 - i))) eqn:B.
      + apply beq_eq in B. destruct (IH (S i) ltac:(lia)) as (A1 & A2 & A3).
        { intros q Hq. destruct (Nat.eq_dec q i) as [->|]; [auto|]. apply H. lia. }
        split; [lia|]. auto.
      + apply beq_neq in B. split; [lia|]. auto.
  Qed.

  Definition hit (i j : nat) : Prop :=
    i < n - 1 /\ n - 1 - j <= i /\ (forall k, k < n - 1 - j -> at_ P (i - k) = at_ P (n - 1 - k)) /\
    at_ P (i - (n - 1 - j)) <> at_ P j.

  Lemma suffix_hit : forall i j, i < n - 1 -> j < n ->
    (longest_suffix_length P i = n - 1 - j /\
     at_ P (i - longest_suffix_length P i) <> at_ P (n - 1 - longest_suffix_length P i) <-> hit i j).
  Proof.
    intros i j Hi Hj. unfold longest_suffix_length.
    destruct (suffix_loop_spec i i 0 ltac:(lia) ltac:(intros; lia)) as (A1 & A2 & A3).
    set (r := longest_suffix_loop P i i 0) in *. split.
    - intros [E N]. rewrite E in *. split; [auto|]. split; [lia|]. split; [auto|].
      replace (n - 1 - (n - 1 - j)) with j in N by lia. auto.
    - intros (_ & H1 & H2 & H3). assert (r = n - 1 - j).
      { destruct (lt_eq_lt_dec r (n - 1 - j)) as [[K|K]|K]; [|auto|].
        - exfalso. apply A3; [lia|]. apply H2. auto.
        - exfalso. apply H3. rewrite (A2 _ K). f_equal. lia. }
      split; [auto|]. rewrite H. replace (n - 1 - (n - 1 - j)) with j by lia. auto.
  Qed.

  Lemma set_nth_length : forall l k v, length (set_nth k v l) = length l.
  Proof. induction l; destruct k; simpl; auto. Qed.
  Lemma set_nth_same : forall l k v, k < length l -> nth k (set_nth k v l) 0 = v.
  Proof. induction l; destruct k; simpl; intros; auto; try lia. apply IHl. lia. Qed.
  Lemma set_nth_other : forall l k v i, i <> k -> nth i (set_nth k v l) 0 = nth i l 0.
  Proof. induction l; destruct k; simpl; intros; destruct i; auto; try lia. Qed.

  Lemma pass2_spec : forall m g j, m <= n - 1 -> length g = n -> j < n ->
    let g' := fold_left (good_pass2 P) (seq 0 m) g in
    length g' = n /\
    ((exists i, i < m /\ hit i j /\ nth j g' 0 = n - 1 - i + (n - 1 - j) /\ forall i', i' < m -> hit i' j -> i' <= i) \/
     ((forall i, i < m -> ~ hit i j) /\ nth j g' 0 = nth j g 0)).
  Proof.
    induction m as [|m IH]; intros g j L G J; cbv zeta.
    - simpl. split; auto. right. split; auto. intros; lia.
    - rewrite seq_S, fold_left_app. cbn [fold_left plus].
      destruct (IH g j ltac:(lia) G J) as (A & B). set (g1 := fold_left (good_pass2 P) (seq 0 m) g) in *.
      unfold good_pass2. fold n. set (suf := longest_suffix_length P m).
      pose proof (suffix_hit m j ltac:(lia) J) as SH. fold suf in SH.
      assert (SL : suf <= m).
      { destruct (suffix_loop_spec m m 0 ltac:(lia) ltac:(intros; lia)) as (A1 & _). unfold suf, longest_suffix_length. lia. }
      destruct (beq (at_ P (m - suf)) (at_ P (n - 1 - suf))) eqn:E; cbn [negb].
      + apply beq_eq in E. split; auto. destruct B as [(i & I1 & I2 & I3 & I4)|[B1 B2]].
        * left. exists i. split; [lia|]. split; auto. split; auto. intros i' Hi' Hh.
          destruct (Nat.eq_dec i' m) as [->|]; [|apply I4; auto; lia]. apply SH in Hh. tauto.
        * right. split; auto. intros i Hi Hh. destruct (Nat.eq_dec i m) as [->|]; [apply SH in Hh; tauto|].
          apply (B1 i); auto. lia.
      + apply beq_neq in E. rewrite set_nth_length. split; auto.
        destruct (Nat.eq_dec j (n - 1 - suf)) as [->|N].
        * left. exists m. split; [lia|]. split; [apply SH; split; [lia|auto]|].
          split; [rewrite set_nth_same by lia; lia|]. intros; lia.
        * rewrite set_nth_other by auto. destruct B as [(i & I1 & I2 & I3 & I4)|[B1 B2]].
          -- left. exists i. split; [lia|]. split; auto. split; auto. intros i' Hi' Hh.
             destruct (Nat.eq_dec i' m) as [->|]; [|apply I4; auto; lia]. apply SH in Hh. lia.
          -- right. split; auto. intros i Hi Hh. destruct (Nat.eq_dec i m) as [->|]; [apply SH in Hh; lia|].
             apply (B1 i); auto. lia.
  Qed.

  Lemma good_spec : forall j, j < n ->
    (exists i, hit i j /\ nth j (good_pfx_delta P) 0 = n - 1 - i + (n - 1 - j) /\ forall i', hit i' j -> i' <= i) \/
    ((forall i, ~ hit i j) /\ exists v, jprop j v /\ nth j (good_pfx_delta P) 0 = v + n - 1 - j).
  Proof.
    intros j J. unfold good_pfx_delta.
    assert (J0 : jprop n 1) by (right; split; [intros; lia|auto]).
    destruct (pass1_spec n 1 [] ltac:(lia) J0) as (A & _ & C). simpl in A. rewrite Nat.add_0_r in A.
    fold n. destruct (pass2_spec (n - 1) (good_pass1 P n 1 []) j ltac:(lia) A J) as (_ & [(i & I1 & I2 & I3 & I4)|[B1 B2]]).
    - left. exists i. split; auto. split; auto. intros i' H. apply I4; auto. apply H.
    - right. split.
      + intros i H. apply (B1 i); auto. apply H.
      + destruct (C j J) as (v & V & E). exists v. split; auto. rewrite B2, E. auto.
  Qed.

  Lemma jprop_pos : forall i v, jprop i v -> 1 <= v.
  Proof. intros i v [(m & _ & _ & -> & _)|[_ ->]]; lia. Qed.

  Lemma good_progress : forall j, j < n -> n - j <= nth j (good_pfx_delta P) 0.
  Proof.
    intros j J. destruct (good_spec j J) as [(i & H & -> & _)|[_ (v & V & ->)]].
    - destruct H as (H1 & H2 & _). lia.
    - apply jprop_pos in V. lia.
  Qed.
End Tables.

Lemma bad_fill_spec : forall ci n pat i t x,
  (exists m, m < length pat /\ UC ci (at_ pat m) = x /\ bad_char_fill ci n pat i t x = n - 1 - (i + m) /\
     forall m', m < m' < length pat -> UC ci (at_ pat m') <> x) \/
  ((forall m, m < length pat -> UC ci (at_ pat m) <> x) /\ bad_char_fill ci n pat i t x = t x).
Proof.
  intros ci n. induction pat as [|c pat IH]; intros i t x; cbn [bad_char_fill].
  - right. split; auto. simpl. intros; lia.
  - destruct (IH (S i) (fun x => if beq x (UC ci c) then n - 1 - i else t x) x) as [(m & M & E & V & H)|[H V]].
    + left. exists (S m). simpl. split; [lia|]. split; [exact E|]. split; [rewrite V; f_equal; lia|].
      intros m' K. destruct m' as [|m']; [lia|]. apply (H m'). lia.
    + destruct (beq x (UC ci c)) eqn:B.
      * apply beq_eq in B. left. exists 0. simpl. split; [lia|]. split; [auto|]. split; [rewrite V; f_equal; lia|].
        intros m' K. destruct m' as [|m']; [lia|]. apply (H m'). lia.
      * apply beq_neq in B. right. split; auto. intros m K. destruct m as [|m]; [change (at_ (c :: pat) 0) with c; congruence|].
        apply (H m). simpl in K. lia.
Qed.

(** a shift by less than the bad character delta cannot match *)
Lemma bad_safe : forall ci P x d, (forall k, UC ci (at_ P k) = at_ P k) ->
  d < bad_char_delta ci P x -> d < length P /\ at_ P (length P - 1 - d) <> x.
Proof.
  intros ci P x d HU H. unfold bad_char_delta in H.
  destruct (bad_fill_spec ci (length P) P 0 (fun _ => length P - 1) x) as [(m & M & E & V & N)|[N V]]; rewrite V in H.
  - split; [lia|]. rewrite <- HU. apply N. lia.
  - split; [lia|]. rewrite <- HU. apply N. lia.
Qed.

(** *** The search *)
Section Search.
  Variable P : bytes.
  Variable ci : bool.
  Variable subj : bytes.
  Hypothesis P_ne : P <> [].
  Hypothesis P_up : forall k, UC ci (at_ P k) = at_ P k.
  Let n := length P.
  Let T := map (UC ci) subj.
  Let sp := mkStrstr P ci (bad_char_delta ci P) (good_pfx_delta P).

  Lemma n_pos : 0 < n.
  Proof. unfold n. destruct P; [congruence|simpl; lia]. Qed.
  Lemma T_len : length T = length subj.
  Proof. apply map_length. Qed.

  Definition occ (e : nat) : Prop :=
    n - 1 <= e < length T /\ forall k, k < n -> at_ T (e - k) = at_ P (n - 1 - k).

  Lemma compare_spec : forall k i, k <= i + 1 ->
    match bm_compare sp subj i k with
    | None => forall m, m < k -> at_ T (i - m) = at_ P (k - 1 - m)
    | Some (i', j) => j < k /\ i' = i - (k - 1 - j) /\ at_ T i' <> at_ P j /\
        forall m, m < k - 1 - j -> at_ T (i - m) = at_ P (k - 1 - m)
    end.
  Proof.
    induction k as [|j IH]; intros i L; cbn [bm_compare].
    - intros; lia.
    - cbn [sp_ci sp_pattern sp]. rewrite <- at_map. fold T.
      destruct (beq (at_ T i) (at_ P j)) eqn:B.
      + apply beq_eq in B. destruct j as [|j0].
        * cbn [bm_compare]. intros m M. replace m with 0 by lia. rewrite Nat.sub_0_r. exact B.
        * specialize (IH (i - 1) ltac:(lia)). destruct (bm_compare sp subj (i - 1) (S j0)) as [[i' j]|].
          -- destruct IH as (H1 & H2 & H3 & H4). split; [lia|]. split; [lia|]. split; [auto|].
             intros m M. destruct m as [|m]; [rewrite Nat.sub_0_r; replace (S (S j0) - 1 - 0) with (S j0) by lia; auto|].
             replace (i - S m) with (i - 1 - m) by lia. rewrite H4 by lia. f_equal. lia.
          -- intros m M. destruct m as [|m]; [rewrite Nat.sub_0_r; replace (S (S j0) - 1 - 0) with (S j0) by lia; auto|].
             replace (i - S m) with (i - 1 - m) by lia. rewrite IH by lia. f_equal. lia.
      + apply beq_neq in B. split; [lia|]. split; [lia|]. split; [auto|]. intros; lia.
  Qed.

  Lemma occ_contains : (exists e, occ e) <-> exists a b c, T = a ++ b ++ c /\ b = P.
  Proof.
    split.
    - intros (e & (E1 & E2) & H). exists (firstn (e + 1 - n) T), (firstn n (skipn (e + 1 - n) T)), (skipn n (skipn (e + 1 - n) T)).
      split; [rewrite !firstn_skipn; auto|]. apply list_at_ext.
      + rewrite firstn_length, skipn_length. fold n. lia.
      + intros i Hi. rewrite firstn_length in Hi. rewrite at_firstn by lia. rewrite at_skipn.
        specialize (H (n - 1 - i) ltac:(lia)). replace (e - (n - 1 - i)) with (e + 1 - n + i) in H by lia.
        rewrite H. f_equal. lia.
    - intros (a & b & c & E & ->). pose proof n_pos. exists (length a + n - 1). split.
      + rewrite E, !app_length. fold n. lia.
      + intros k K. rewrite E. replace (length a + n - 1 - k) with (length a + (n - 1 - k)) by lia.
        rewrite at_app_r. apply at_app_l. fold n. lia.
  Qed.

  Lemma contains_fold : (exists e, occ e) <-> exists a b c, subj = a ++ b ++ c /\ map (UC ci) b = P.
  Proof.
    rewrite occ_contains. unfold T. split.
    - intros (a & b & c & E & ->).
      assert (L : length a + n + length c = length subj).
      { rewrite <- (map_length (UC ci) subj), E, !app_length. unfold n. lia. }
      exists (firstn (length a) subj), (firstn n (skipn (length a) subj)), (skipn n (skipn (length a) subj)).
      split; [rewrite !firstn_skipn; auto|].
      rewrite <- firstn_map, <- skipn_map, E, skipn_app, skipn_all, Nat.sub_diag. simpl.
      rewrite firstn_app. unfold n. rewrite firstn_all, Nat.sub_diag. simpl. apply app_nil_r.
    - intros (a & b & c & -> & E). exists (map (UC ci) a), P, (map (UC ci) c). rewrite !map_app, E. auto.
  Qed.

  (** Where no occurrence is lost: either the subject is such, or the pattern *)
  Definition j_ok (j : nat) : Prop :=
    (exists i, hit P i j) \/ ~ pref P (j + 1) \/ (forall m, j <= m < n -> pref P (m + 1)).

  Lemma shift_safe : forall e i j, (forall j, j < n -> j_ok j) ->
    n - 1 <= e < length T -> j < n -> i = e - (n - 1 - j) -> at_ T i <> at_ P j ->
    (forall m, m < n - 1 - j -> at_ T (e - m) = at_ P (n - 1 - m)) ->
    forall x, e <= x < i + Nat.max (bad_char_delta ci P (at_ T i)) (nth j (good_pfx_delta P) 0) -> ~ occ x.
  Proof.
    intros e i j OK E J I N M x X (O1 & O2). pose proof n_pos as NP.
    destruct (Nat.eq_dec x e) as [->|NE].
    { apply N. specialize (O2 (n - 1 - j) ltac:(lia)). rewrite I, O2. f_equal. lia. }
    destruct (Nat.max_spec (bad_char_delta ci P (at_ T i)) (nth j (good_pfx_delta P) 0)) as [[_ V]|[_ V]]; rewrite V in X.
    2:{ destruct (bad_safe ci P (at_ T i) (x - i) P_up ltac:(lia)) as (D1 & D2). apply D2. fold n.
        fold n in D1. rewrite <- (O2 (x - i) D1). f_equal. lia. }
    (* shift d *)
    set (d := x - e). assert (D : 0 < d) by lia.
    destruct (le_lt_dec d j) as [Dj|Dj].
    - (* the suffix occurs again, d to the left *)
      assert (H : hit P (n - 1 - d) j).
      { unfold hit. fold n. split; [lia|]. split; [lia|]. split.
        - intros k K. rewrite <- (M k K). specialize (O2 (d + k) ltac:(lia)).
          replace (n - 1 - (d + k)) with (n - 1 - d - k) in O2 by lia. rewrite <- O2. f_equal. lia.
        - intros K. apply N. rewrite <- K. specialize (O2 (d + (n - 1 - j)) ltac:(lia)).
          replace (n - 1 - d - (n - 1 - j)) with (n - 1 - (d + (n - 1 - j))) by lia. rewrite <- O2. f_equal. lia. }
      destruct (good_spec P j J) as [(i2 & _ & G & Hmax)|[G _]]; [|exact (G _ H)].
      specialize (Hmax _ H). fold n in G, Hmax. rewrite G in X. lia.
    - (* a prefix of the pattern is a suffix of the matched text *)
      destruct (good_spec P j J) as [(i2 & H2 & G & Hmax)|[G (v & V2 & G2)]].
      + destruct H2 as (Q1 & Q2 & _). fold n in G, Q1, Q2. rewrite G in X. lia.
      + fold n in G2. rewrite G2 in X.
        destruct V2 as [(m & M1 & M2 & -> & M3)|[_ ->]]; [|lia].
        fold n in M1. destruct (Nat.eq_dec m j) as [->|NM]; [lia|].
        destruct (OK j J) as [(i3 & H3)|[H3|H3]].
        * exact (G _ H3).
        * apply H3. apply M3. lia.
        * apply M2. apply H3. auto.
  Qed.

  Lemma loop_sound : forall fuel i, n - 1 <= i -> bm_loop fuel sp subj i = BM_MATCH -> exists e, occ e.
  Proof.
    induction fuel as [|fuel IH]; intros i L H; cbn [bm_loop] in H;
      destruct (Nat.ltb_spec i (length subj)) as [B|B]; try discriminate.
    cbn [sp_pattern sp] in H. fold sp in H. fold n in H. pose proof n_pos as NP.
    pose proof (compare_spec n i ltac:(lia)) as C.
    destruct (bm_compare sp subj i n) as [[i' j]|].
    - destruct C as (C1 & C2 & C3 & C4). cbn [sp_ci sp_bad sp_good sp] in H. fold sp in H. cbv zeta in H.
      destruct (beq _ byte_max); [discriminate|]. apply IH in H; [auto|].
      pose proof (good_progress P j C1) as G. fold n in G. lia.
    - exists i. split; [rewrite T_len; lia|]. intros k K. apply C. auto.
  Qed.

  Lemma loop_complete : forall fuel i, (forall j, j < n -> j_ok j) -> n - 1 <= i ->
    (forall e, e < i -> ~ occ e) -> bm_loop fuel sp subj i = BM_NOMATCH -> forall e, ~ occ e.
  Proof.
    induction fuel as [|fuel IH]; intros i OK L NO H; cbn [bm_loop] in H;
      destruct (Nat.ltb_spec i (length subj)) as [B|B]; try discriminate.
    - intros e O. apply (NO e); auto. destruct O as [O _]. rewrite T_len in O. lia.
    - cbn [sp_pattern sp] in H. fold sp in H. fold n in H. pose proof n_pos as NP.
      pose proof (compare_spec n i ltac:(lia)) as C.
      destruct (bm_compare sp subj i n) as [[i' j]|]; [|discriminate].
      destruct C as (C1 & C2 & C3 & C4). cbn [sp_ci sp_bad sp_good sp] in H. fold sp in H. cbv zeta in H.
      destruct (beq _ byte_max); [discriminate|]. rewrite <- at_map in H. fold T in H.
      revert H. apply IH; auto.
      + pose proof (good_progress P j C1) as G. fold n in G. lia.
      + intros e X O. destruct (le_lt_dec i e) as [K|K]; [|apply (NO e); auto].
        apply (shift_safe i i' j OK) with (x := e); auto; [rewrite T_len; lia].
    - intros e O. apply (NO e); auto. destruct O as [O _]. rewrite T_len in O. lia.
  Qed.

  Lemma loop_fuel : forall fuel i, n - 1 <= i -> length subj < fuel + i -> bm_loop fuel sp subj i <> BM_FUEL.
  Proof.
    induction fuel as [|fuel IH]; intros i L F; cbn [bm_loop];
      destruct (Nat.ltb_spec i (length subj)) as [B|B]; try discriminate; try lia.
    cbn [sp_pattern sp]. fold sp. fold n. pose proof n_pos as NP. pose proof (compare_spec n i ltac:(lia)) as C.
    destruct (bm_compare sp subj i n) as [[i' j]|]; [|discriminate].
    destruct C as (C1 & C2 & C3 & C4). cbn [sp_ci sp_bad sp_good sp]. fold sp. cbv zeta.
    destruct (beq _ byte_max); [discriminate|]. pose proof (good_progress P j C1) as G. fold n in G. apply IH; lia.
  Qed.

  Lemma at_in : forall (s : bytes) i, i < length s -> In (at_ s i) s.
  Proof. intros. apply nth_In. auto. Qed.

  Lemma loop_oob : forall fuel i, n - 1 <= i -> ~ In byte_max subj -> bm_loop fuel sp subj i <> BM_OOB.
  Proof.
    induction fuel as [|fuel IH]; intros i L F; cbn [bm_loop];
      destruct (Nat.ltb_spec i (length subj)) as [B|B]; try discriminate.
    cbn [sp_pattern sp]. fold sp. fold n. pose proof n_pos as NP. pose proof (compare_spec n i ltac:(lia)) as C.
    destruct (bm_compare sp subj i n) as [[i' j]|]; [|discriminate].
    destruct C as (C1 & C2 & C3 & C4). cbn [sp_ci sp_bad sp_good sp]. fold sp. cbv zeta.
    destruct (beq (UC ci (at_ subj i')) byte_max) eqn:E.
    - apply beq_eq, UC_max in E. exfalso. apply F. rewrite <- E. apply at_in. lia.
    - pose proof (good_progress P j C1) as G. fold n in G. apply IH; auto. lia.
  Qed.

  Lemma exec_loop : strstr_exec sp subj = bm_loop (S (length subj)) sp subj (n - 1).
  Proof. unfold strstr_exec. cbn [sp_pattern sp]. fold sp n. destruct P; [congruence|reflexivity]. Qed.
End Search.

(** *** Misleading patterns *)
Lemma is_prefix_of_pref : forall P pos, pos <= length P -> (is_prefix_of (skipn pos P) P <-> pref P pos).
Proof.
  intros P pos L. unfold is_prefix_of, pref. split.
  - intros (a & E). rewrite E at 2. rewrite firstn_app, skipn_length. rewrite firstn_all2 by (rewrite skipn_length; lia).
    replace (length P - pos - (length P - pos)) with 0 by lia. rewrite firstn_O, app_nil_r. auto.
  - intros E. exists (skipn (length P - pos) P). rewrite <- E. rewrite firstn_skipn. auto.
Qed.

Lemma at_mid : forall a x u, at_ (a ++ x :: u) (length a) = x.
Proof. intros. rewrite <- (Nat.add_0_r (length a)), at_app_r. reflexivity. Qed.

Lemma skipn_mid : forall (a : bytes) x u, skipn (length a + 1) (a ++ x :: u) = u.
Proof.
  intros. rewrite skipn_app, skipn_all2 by lia. replace (length a + 1 - length a) with 1 by lia. reflexivity.
Qed.

(** [u] again, after another character *)
Lemma hit_split : forall P i a x u, P = a ++ x :: u -> u <> [] ->
  (hit P i (length a) <->
   exists l y r, P = l ++ y :: u ++ r /\ r <> [] /\ y <> x /\ i = length l + length u).
Proof.
  intros P i a x u E NU. assert (L : length P = length a + 1 + length u) by (rewrite E, app_length; simpl; lia).
  assert (U : 0 < length u) by (destruct u; [congruence|simpl; lia]).
  unfold hit. split.
  - intros (H1 & H2 & H3 & H4). exists (firstn (i - length u) P), (at_ P (i - length u)), (skipn (i + 1) P).
    assert (SP : forall k, k <= length P -> k < length P -> skipn k P = at_ P k :: skipn (k + 1) P).
    { intros k _. clear. revert k. induction P as [|c s IH]; intros k K; simpl in *; [lia|].
      destruct k as [|k]; [reflexivity|]. simpl. rewrite IH by lia. reflexivity. }
    split.
    { rewrite <- (firstn_skipn (i - length u) P) at 1. f_equal. rewrite SP by lia. f_equal.
      rewrite <- (firstn_skipn (length u) (skipn (i - length u + 1) P)).
      assert (SK : skipn (length u) (skipn (i - length u + 1) P) = skipn (i + 1) P).
      { rewrite skipn_skipn. f_equal. lia. }
      rewrite SK. f_equal. apply list_at_ext.
      - rewrite firstn_length, skipn_length. lia.
      - intros k K. rewrite firstn_length, skipn_length in K. rewrite at_firstn by lia. rewrite at_skipn.
        specialize (H3 (length u - 1 - k) ltac:(lia)).
        replace (i - (length u - 1 - k)) with (i - length u + 1 + k) in H3 by lia. rewrite H3.
        replace (length P - 1 - (length u - 1 - k)) with (length a + S k) by lia. rewrite E, at_app_r. reflexivity. }
    split. { intros K. apply (f_equal (@length _)) in K. rewrite skipn_length in K. simpl in K. lia. }
    split. { intros K. apply H4. replace (length P - 1 - length a) with (length u) by lia. rewrite K, E. symmetry. apply at_mid. }
    rewrite firstn_length. lia.
  - intros (l & y & r & E2 & NR & NY & ->).
    assert (R : 0 < length r) by (destruct r; [congruence|simpl; lia]).
    assert (L2 : length P = length l + 1 + length u + length r) by (rewrite E2, app_length; simpl; rewrite app_length; lia).
    split; [lia|]. split; [lia|]. split.
    + intros k K. replace (length l + length u - k) with (length l + S (length u - 1 - k)) by lia.
      rewrite E2 at 1. rewrite at_app_r. change (at_ (y :: u ++ r) (S (length u - 1 - k))) with (at_ (u ++ r) (length u - 1 - k)).
      rewrite at_app_l by lia. replace (length P - 1 - k) with (length a + S (length u - 1 - k)) by lia.
      rewrite E, at_app_r. reflexivity.
    + replace (length l + length u - (length P - 1 - length a)) with (length l) by lia.
      rewrite E2 at 1. rewrite at_mid. rewrite E, at_mid. auto.
Qed.

Lemma split_at : forall (P : bytes) j, j < length P -> P = firstn j P ++ at_ P j :: skipn (j + 1) P.
Proof.
  intros P j J. rewrite <- (firstn_skipn j P) at 1. f_equal. revert J. revert j. induction P as [|c s IH]; intros j K; simpl in *; [lia|].
  destruct j as [|j]; [reflexivity|]. simpl. rewrite IH by lia. reflexivity.
Qed.

Lemma not_misleading_ok : forall P, ~ misleading P -> forall j, j < length P -> j_ok P j.
Proof.
  intros P NM j J. destruct (good_spec P j J) as [(i & H & _)|[NH (v & V & _)]]; [left; eauto|].
  right. destruct V as [(m & M1 & M2 & _ & M3)|[H _]]; [|right; auto].
  destruct (Nat.eq_dec m j) as [->|N]; [left; auto|].
  exfalso. apply NM. assert (Em : m + 1 < length P).
  { destruct (Nat.eq_dec (m + 1) (length P)) as [K|K]; [|lia]. exfalso. apply M2. rewrite K. apply pref_end. }
  exists (firstn j P), (at_ P j), (skipn (j + 1) P). pose proof (split_at P j J) as SP.
  assert (NE : skipn (j + 1) P <> []).
  { intros K. apply (f_equal (@length _)) in K. rewrite skipn_length in K. simpl in K. lia. }
  split; [auto|]. split; [auto|].
  split. { apply is_prefix_of_pref; [lia|]. apply M3. lia. }
  split.
  - exists (skipn (m + 1) P). split.
    { intros K. apply (f_equal (@length _)) in K. rewrite skipn_length in K. simpl in K. lia. }
    split. { exists (firstn (m - j) (skipn (j + 1) P)). rewrite <- (firstn_skipn (m - j) (skipn (j + 1) P)) at 1. f_equal.
      rewrite skipn_skipn. f_equal. lia. }
    split. { intros K. apply (f_equal (@length _)) in K. rewrite !skipn_length in K. lia. }
    rewrite is_prefix_of_pref by lia. auto.
  - intros l y r E NR. destruct (ascii_dec y (at_ P j)) as [|NY]; [auto|]. exfalso.
    apply (NH (length l + length (skipn (j + 1) P))).
    replace j with (length (firstn j P)) at 2 by (rewrite firstn_length; lia).
    apply (hit_split P _ _ _ _ SP NE). exists l, y, r. auto.
Qed.

Lemma misleading_index : forall P, misleading P -> exists j m, j < length P /\ j < m < length P /\
  pref P (j + 1) /\ ~ pref P (m + 1) /\ (forall i, ~ hit P i j).
Proof.
  intros P (a & x & u & E & NU & PU & (v & NV & (w & SV) & NE & NP) & R).
  assert (L : length P = length a + 1 + length u) by (rewrite E, app_length; simpl; lia).
  assert (LW : length u = length w + length v) by (rewrite SV, app_length; auto).
  assert (W : 0 < length w) by (destruct w; [simpl in SV; congruence|simpl; lia]).
  assert (V : 0 < length v) by (destruct v; [congruence|simpl; lia]).
  exists (length a), (length a + length w). split; [lia|]. split; [lia|].
  split. { apply is_prefix_of_pref; [lia|]. rewrite E at 1. rewrite skipn_mid. auto. }
  split. { rewrite <- is_prefix_of_pref by lia. rewrite E at 1.
    replace (length a + length w + 1) with (length w + (length a + 1)) by lia.
    rewrite <- skipn_skipn, skipn_mid, SV, skipn_app, skipn_all, Nat.sub_diag. exact NP. }
  intros i H. apply (hit_split P i a x u E NU) in H as (l & y & r & E2 & NR & NY & _). apply NY. eapply R; eauto.
Qed.

(** *** The matcher *)
Lemma up_at : forall ci p k, UC ci (at_ (map (UC ci) p) k) = at_ (map (UC ci) p) k.
Proof. intros. rewrite at_map. apply UC_idem. Qed.

Lemma map_ne : forall ci p, p <> [] -> map (UC ci) p <> [].
Proof. intros ci [|c p] H; [congruence|discriminate]. Qed.

Lemma contain_compiles : forall ci p s, p <> [] -> ~ In byte_max p ->
  contain_match ci p s =
  Some (strstr_exec (mkStrstr (map (UC ci) p) ci (bad_char_delta ci (map (UC ci) p)) (good_pfx_delta (map (UC ci) p))) s).
Proof.
  intros ci p s NE NM. unfold contain_match, strstr_compile.
  destruct (existsb (beq byte_max) (map (UC ci) p)) eqn:E.
  - exfalso. apply existsb_exists in E as (x & I & B). apply beq_eq in B. subst x.
    apply in_map_iff in I as (c & C & I). apply UC_max in C. subst. auto.
  - destruct p; [congruence|]. reflexivity.
Qed.

Lemma contains_up : forall ci p s, (exists a b c, s = a ++ b ++ c /\ map (UC ci) b = map (UC ci) p) <-> contains ci p s.
Proof.
  intros ci p s. unfold contains. split; intros (a & b & c & E & H); exists a, b, c; split; auto; apply map_UC_same; auto.
Qed.

Lemma contain_sound : forall ci p s, contain_match ci p s = Some BM_MATCH -> contains ci p s.
Proof.
  intros ci p s H. destruct (list_eq_dec ascii_dec p []) as [->|NE]; [discriminate|].
  assert (NM : ~ In byte_max p).
  { intros I. unfold contain_match, strstr_compile in H. destruct p as [|c p]; [congruence|].
    destruct (existsb (beq byte_max) (map (UC ci) (c :: p))) eqn:E; [discriminate|].
    rewrite <- not_true_iff_false in E. apply E. apply existsb_exists. exists byte_max. split; [|apply beq_refl].
    apply in_map_iff. exists byte_max. split; auto. apply UC_max. auto. }
  rewrite contain_compiles in H by auto. injection H as H. rewrite (exec_loop (map (UC ci) p) ci s (map_ne ci p NE) (up_at ci p)) in H.
  apply (loop_sound _ ci s (map_ne ci p NE) (up_at ci p)) in H; [|lia].
  apply (contains_fold _ ci s (map_ne ci p NE) (up_at ci p)) in H. apply contains_up. auto.
Qed.

Lemma contain_decides : forall ci p s, p <> [] -> ~ In byte_max p -> ~ In byte_max s ->
  contain_match ci p s = Some BM_MATCH \/ contain_match ci p s = Some BM_NOMATCH.
Proof.
  intros ci p s NE NM NS. rewrite contain_compiles by auto. rewrite (exec_loop (map (UC ci) p) ci s (map_ne ci p NE) (up_at ci p)).
  set (P := map (UC ci) p). assert (NP : P <> []) by (apply map_ne; auto).
  pose proof (loop_fuel P ci s NP (up_at ci p) (S (length s)) (length P - 1) ltac:(lia) ltac:(lia)) as A.
  pose proof (loop_oob P ci s NP (up_at ci p) (S (length s)) (length P - 1) ltac:(lia) NS) as B.
  destruct (bm_loop _ _ _ _); auto; congruence.
Qed.

Lemma contain_iff : forall ci p s, p <> [] -> ~ In byte_max p -> ~ In byte_max s -> ~ misleading (folded ci p) ->
  (contain_match ci p s = Some BM_MATCH <-> contains ci p s).
Proof.
  intros ci p s NE NM NS OK. split; [apply contain_sound|]. intros C.
  destruct (contain_decides ci p s NE NM NS) as [H|H]; [auto|exfalso].
  rewrite contain_compiles in H by auto. rewrite (exec_loop (map (UC ci) p) ci s (map_ne ci p NE) (up_at ci p)) in H. injection H as H.
  apply contains_up in C. apply (contains_fold (map (UC ci) p) ci s (map_ne ci p NE) (up_at ci p)) in C as (e & O). revert O.
  rewrite folded_UC in OK.
  apply (loop_complete (map (UC ci) p) ci s (map_ne ci p NE) (up_at ci p) (S (length s)) (length (map (UC ci) p) - 1)); auto.
  - apply not_misleading_ok. auto.
  - intros x X (O & _). lia.
Qed.

Lemma fresh_char : forall ci x, exists c, c <> NUL /\ UC ci c = c /\ c <> x /\ c <> byte_max.
Proof.
  intros ci x. destruct (ascii_dec x "0"%char) as [->|N].
  - exists "1"%char. split; [discriminate|]. split; [destruct ci; reflexivity|]. split; discriminate.
  - exists "0"%char. split; [discriminate|]. split; [destruct ci; reflexivity|]. split; [congruence|discriminate].
Qed.

Lemma bm_loop_out : forall fuel sp s e, length s <= e -> bm_loop fuel sp s e = BM_NOMATCH.
Proof.
  intros fuel sp s e H. destruct fuel; cbn [bm_loop]; destruct (Nat.ltb_spec e (length s)); auto; lia.
Qed.

(** a subject in which the search misses a misleading pattern *)
Lemma contain_misses : forall ci p, ~ In byte_max p -> misleading (folded ci p) ->
  exists s, contains ci p s /\ ~ In byte_max s /\ contain_match ci p s = Some BM_NOMATCH.
Proof.
  intros ci p NM M. rewrite folded_UC in M. set (P := map (UC ci) p) in *.
  destruct (misleading_index P M) as (j & m & J & JM & PR & NP & NH).
  destruct (fresh_char ci (at_ P j)) as (c & C0 & C1 & C2 & C3).
  set (s := repeat c (j + 1) ++ p).
  assert (NE : p <> []) by (intros ->; unfold P in J; simpl in J; lia).
  assert (NEP : P <> []) by (apply map_ne; auto).
  assert (LP : length P = length p) by apply map_length.
  assert (LS : length s = j + 1 + length P) by (unfold s; rewrite app_length, repeat_length; lia).
  assert (NS : ~ In byte_max s).
  { unfold s. rewrite in_app_iff. intros [I|I]; [|auto]. apply repeat_spec in I. congruence. }
  exists s. split.
  { exists (repeat c (j + 1)), p, []. rewrite app_nil_r. split; [auto|]. apply map_UC_same. auto. }
  split; [auto|]. rewrite contain_compiles by auto. fold P. f_equal.
  rewrite (exec_loop P ci s NEP (up_at ci p)).
  assert (B : Nat.ltb (length P - 1) (length s) = true) by (apply Nat.ltb_lt; lia).
  cbn [bm_loop]. rewrite B. cbn [sp_pattern].
  pose proof (compare_spec P ci s (up_at ci p) (length P) (length P - 1) ltac:(lia)) as CS. fold P in CS.
  set (sp := mkStrstr P ci (bad_char_delta ci P) (good_pfx_delta P)) in *.
  assert (Tj : at_ (map (UC ci) s) j = c).
  { rewrite at_map. unfold s. rewrite at_app_l by (rewrite repeat_length; lia).
    replace (at_ (repeat c (j + 1)) j) with c; [auto|]. unfold at_. symmetry.
    apply (repeat_spec (j + 1)). apply nth_In. rewrite repeat_length. lia. }
  assert (Tk : forall k, k < length P - 1 - j -> at_ (map (UC ci) s) (length P - 1 - k) = at_ P (length P - 1 - k)).
  { intros k K. rewrite at_map. unfold s.
    replace (length P - 1 - k) with (length (repeat c (j + 1)) + (length P - 1 - k - (j + 1))) at 1
      by (rewrite repeat_length; lia).
    rewrite at_app_r, <- at_map. fold P. rewrite (pref_at P (j + 1)) in PR by lia. rewrite PR by lia. f_equal. lia. }
  destruct (bm_compare sp s (length P - 1) (length P)) as [[i' j']|] eqn:E.
  - destruct CS as (K1 & K2 & K3 & K4). assert (j' = j).
    { destruct (lt_eq_lt_dec j' j) as [[K|K]|K]; [|auto|].
      - exfalso. specialize (K4 (length P - 1 - j) ltac:(lia)).
        replace (length P - 1 - (length P - 1 - j)) with j in K4 by lia. congruence.
      - exfalso. apply K3. rewrite K2. specialize (Tk (length P - 1 - j') ltac:(lia)).
        replace (length P - 1 - (length P - 1 - j')) with j' in * by lia. exact Tk. }
    subst j'. assert (i' = j) by lia. subst i'. unfold sp. cbn [sp_ci sp_bad sp_good]. fold sp. cbv zeta.
    rewrite at_map in Tj. rewrite H, Tj. clear H. destruct (beq c byte_max) eqn:E2; [apply beq_eq in E2; congruence|].
    destruct (good_spec P j J) as [(i & H & _)|[_ (v & V & G)]]; [destruct (NH _ H)|].
    assert (VB : j + 2 <= v).
    { destruct V as [(m' & Q1 & Q2 & -> & Q3)|[Q _]].
      - destruct (Nat.eq_dec m' j) as [->|]; [contradiction|]. lia.
      - exfalso. apply NP. apply Q. lia. }
    set (e := j + Nat.max _ _). assert (length s <= e).
    { unfold e. rewrite G. lia. }
    apply bm_loop_out. auto.
  - exfalso. specialize (CS (length P - 1 - j) ltac:(lia)).
    replace (length P - 1 - (length P - 1 - j)) with j in CS by lia. congruence.
Qed.

Lemma contain_oob : forall ci p, contain_match ci [] p = None.
Proof. reflexivity. Qed.
