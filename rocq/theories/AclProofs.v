(** Proofs about access lists and forwarding chains. *)
From Coq Require Import Ascii String List ZArith Lia Bool Arith Permutation ZifyBool ZifyNat.
From Verif Require Import Bytes ClenSpec NumModel NumSpec NumProofs TokSpec AclModel AclSpec.
Import ListNotations.
Local Open Scope nat_scope.

(** *** Masks *)
Definition mb (n : nat) : byte := mask_byte (8 - Z.of_nat (Nat.min n 8)).

Fixpoint mk (n k : nat) : bytes :=
  match k with
  | O => []
  | S k => mb n :: mk (n - 8) k
  end.

Lemma mb_big : forall n, 8 <= n -> mb n = byte_ff.
Proof. intros n H. unfold mb. rewrite Nat.min_r by lia. reflexivity. Qed.

Lemma mk_zero : forall k, mk 0 k = repeat byte_00 k.
Proof. induction k as [|k IH]; simpl; [auto|]. rewrite IH. reflexivity. Qed.

Lemma mk_form : forall i r k, r < 8 -> i < k ->
  repeat byte_ff i ++ [mask_byte (8 - Z.of_nat r)] ++ repeat byte_00 (k - 1 - i) = mk (8 * i + r) k.
Proof.
  induction i as [|i IH]; intros r k Hr Hk.
  - destruct k as [|k]; [lia|]. cbn [repeat app mk]. replace (8 * 0 + r) with r by lia.
    replace (r - 8) with 0 by lia. rewrite mk_zero. unfold mb. rewrite Nat.min_l by lia.
    replace (S k - 1 - 0) with k by lia. reflexivity.
  - destruct k as [|k]; [lia|]. cbn [repeat mk]. rewrite mb_big by lia.
    replace (8 * S i + r - 8) with (8 * i + r) by lia. rewrite <- IH by lia.
    replace (S k - 1 - S i) with (k - 1 - i) by lia. reflexivity.
Qed.

Lemma mk_full : forall k, repeat byte_ff k = mk (8 * k) k.
Proof.
  induction k as [|k IH]; [reflexivity|]. cbn [repeat mk]. rewrite mb_big by lia.
  replace (8 * S k - 8) with (8 * k) by lia. rewrite IH. reflexivity.
Qed.

Lemma netmask_ok : forall n, n <= 128 -> masklen_to_netmask (Z.of_nat n) = Some (mk n 16).
Proof.
  intros n H. unfold masklen_to_netmask, to_int, MAX_INADDR_BYTES.
  assert (E : (Z.of_nat n / 8)%Z = Z.of_nat (n / 8)) by (rewrite Nat2Z.inj_div; auto).
  assert (M : (Z.of_nat n mod 8)%Z = Z.of_nat (n mod 8)) by (rewrite Nat2Z.inj_mod; auto).
  rewrite E, M. pose proof (Nat.div_mod n 8 ltac:(lia)) as D. pose proof (Nat.mod_upper_bound n 8 ltac:(lia)) as U.
  set (i := n / 8) in *. set (r := n mod 8) in *. assert (Hi : i <= 16) by lia.
  rewrite (Z.mod_small (Z.of_nat i)) by lia.
  assert ((Z.of_nat i <? 2147483648)%Z = true) as -> by lia.
  assert ((16 <? Z.of_nat i)%Z = false) as -> by lia. rewrite Nat2Z.id.
  destruct (Nat.eqb_spec i 16) as [Ei|Ei].
  - rewrite Ei in *. assert (r = 0) by lia. rewrite mk_full. do 2 f_equal. lia.
  - f_equal. replace (15 - i) with (16 - 1 - i) by lia. rewrite mk_form by lia. f_equal. lia.
Qed.


Lemma mb_bits : forall n, n <= 8 ->
  mb n = Ascii (Nat.ltb 7 n) (Nat.ltb 6 n) (Nat.ltb 5 n) (Nat.ltb 4 n) (Nat.ltb 3 n) (Nat.ltb 2 n) (Nat.ltb 1 n) (Nat.ltb 0 n).
Proof. intros n H. do 9 (destruct n as [|n]; [reflexivity|]). lia. Qed.

Lemma byte_mask8 : forall n a b, n <= 8 -> (byte_and a (mb n) = byte_and b (mb n) <->
  firstn n (byte_bits a) = firstn n (byte_bits b)).
Proof.
  intros n a b H. rewrite mb_bits by auto.
  destruct a as [a0 a1 a2 a3 a4 a5 a6 a7], b as [b0 b1 b2 b3 b4 b5 b6 b7]. unfold byte_and, byte_bits.
  do 9 (destruct n as [|n];
    [cbn [Nat.ltb Nat.leb firstn]; rewrite ?andb_true_r, ?andb_false_r;
     split; intros K; try reflexivity; injection K; intros; subst; reflexivity|]).
  lia.
Qed.

Lemma byte_bits_length : forall c, length (byte_bits c) = 8.
Proof. intros []; reflexivity. Qed.

Lemma byte_mask : forall n a b, byte_and a (mb n) = byte_and b (mb n) <->
  firstn n (byte_bits a) = firstn n (byte_bits b).
Proof.
  intros n a b. destruct (le_lt_dec n 8) as [H|H]; [apply byte_mask8; auto|].
  rewrite mb_big by lia. rewrite <- (mb_big 8) by lia. rewrite byte_mask8 by lia.
  rewrite !firstn_all2 by (rewrite byte_bits_length; lia). tauto.
Qed.


Lemma app_inj_len : forall (A : Type) (a b c d : list A), length a = length b -> a ++ c = b ++ d -> a = b /\ c = d.
Proof.
  intros A. induction a as [|x a IH]; intros [|y b] c d L H; simpl in *; try discriminate; [auto|].
  injection H as -> H. injection L as L. destruct (IH b c d L H) as [-> ->]. auto.
Qed.

Lemma firstn_app_eq : forall (A : Type) n (x y xs ys : list A), length x = length y ->
  (firstn n (x ++ xs) = firstn n (y ++ ys) <->
   firstn n x = firstn n y /\ firstn (n - length x) xs = firstn (n - length x) ys).
Proof.
  intros A n x y xs ys L. rewrite !firstn_app, <- L. split.
  - intros H. apply app_inj_len in H; auto. rewrite !firstn_length. lia.
  - intros [-> ->]. auto.
Qed.

Lemma same_prefix_cons : forall n a b x y, same_prefix n (a :: x) (b :: y) <->
  firstn n (byte_bits a) = firstn n (byte_bits b) /\ same_prefix (n - 8) x y.
Proof.
  intros n a b x y. unfold same_prefix, bits. cbn [flat_map].
  rewrite firstn_app_eq by (rewrite !byte_bits_length; auto). rewrite byte_bits_length. tauto.
Qed.

Lemma bytes_match : forall addr ap n k, length addr = length ap -> length ap <= k ->
  (cidr_bytes_match (mask_addr addr (mk n k)) (mk n k) ap = true <-> same_prefix n addr ap).
Proof.
  induction addr as [|a addr IH]; intros [|p ap] n k L K; simpl in L; try discriminate.
  - destruct k; simpl; unfold same_prefix; tauto.
  - simpl in K. destruct k as [|k]; [lia|]. cbn [mk mask_addr cidr_bytes_match].
    rewrite andb_true_iff, beq_eq, same_prefix_cons, byte_mask, IH by lia. tauto.
Qed.

(** *** Parsing entries *)
Lemma family_eqb_eq : forall a b, family_eqb a b = true <-> a = b.
Proof. intros [] []; simpl; split; congruence. Qed.

Lemma no_slash_span : forall host rest, ~ In "/"%char host ->
  span (fun c => negb (beq c "/"%char)) (host ++ "/"%char :: rest) = (host, "/"%char :: rest).
Proof.
  intros host rest H. apply span_unique; [|reflexivity]. apply forallb_forall. intros x Hx.
  apply negb_true_iff, beq_neq. intros ->. auto.
Qed.

Lemma no_slash_span_end : forall host, ~ In "/"%char host ->
  span (fun c => negb (beq c "/"%char)) host = (host, []).
Proof.
  intros host H. rewrite <- (app_nil_r host) at 1. apply span_unique; [|exact I]. apply forallb_forall. intros x Hx.
  apply negb_true_iff, beq_neq. intros ->. auto.
Qed.

Lemma strtoul_numeral : forall ds n, numeral decimal 10 ds n -> (n <= ULONG_MAX)%Z ->
  strtoul ds 10 = (false, n, []).
Proof.
  intros ds n H L. apply (numeral_value decimal 10 ds n num_digit_decimal) in H as (H1 & H2 & ->).
  unfold strtoul. replace ds with (ds ++ []) at 1 by apply app_nil_r.
  rewrite scan_plain; auto; [|lia|discriminate].
  destruct (ULONG_MAX <? num_value 10 ds)%Z eqn:E; [lia|auto].
Qed.

Section R.
  Variable resolve : bytes -> option (list sockaddr).
  Hypothesis res_ok : resolver_ok resolve.

  Lemma sa_len : forall sa, sa_ok sa -> sa_family sa <> AF_OTHER -> sockaddr_bytes sa = Z.of_nat (length (sa_addr sa)).
  Proof.
    intros [f a] H N. unfold sockaddr_bytes, sa_ok in *. cbn [sa_family sa_addr] in *.
    destruct f; try congruence; rewrite H; reflexivity.
  Qed.

  Lemma sa_small : forall sa, sa_ok sa -> sa_family sa <> AF_OTHER -> length (sa_addr sa) <= 16.
  Proof.
    intros [f a] H N. unfold sa_ok in *. cbn [sa_family sa_addr] in *. destruct f; try congruence; lia.
  Qed.

  Lemma parse_entry : forall text f addr n, entry resolve text f addr n -> n <= 8 * length addr ->
    parse_cidr resolve text = POk (mkCidr f (Z.of_nat (length addr)) (mask_addr addr (mk n 16)) (mk n 16))
    /\ sa_ok (mkSa f addr) /\ f <> AF_OTHER.
  Proof.
    intros text f addr n (host & l & R & NS & NF & T) L.
    assert (OK : sa_ok (mkSa f addr)) by (apply (res_ok _ _ _ R); simpl; auto).
    split; [|split; [auto|congruence]].
    pose proof (sa_len _ OK NF) as SL. pose proof (sa_small _ OK NF) as SM. cbn [sa_addr] in SL, SM.
    assert (SB : (sockaddr_bytes (mkSa f addr) =? -1)%Z = false) by lia.
    unfold parse_cidr. destruct T as [[-> ->]|(ds & -> & N)].
    - rewrite no_slash_span_end by auto. rewrite R. cbv zeta iota. rewrite SB. cbn [sa_family sa_addr].
      replace (sockaddr_bytes (mkSa f addr) * 8)%Z with (Z.of_nat (8 * length addr)) by lia.
      rewrite netmask_ok by lia. rewrite SL. reflexivity.
    - cbn [app]. rewrite no_slash_span by auto.
      rewrite (strtoul_numeral ds (Z.of_nat n)) by (auto; unfold ULONG_MAX; lia).
      cbn [at_end negb orb]. rewrite R. cbv zeta iota. rewrite SB. cbn [sa_family sa_addr].
      rewrite netmask_ok by lia. rewrite SL. reflexivity.
  Qed.

  Lemma entry_det : forall text f addr n f' addr' n',
    entry resolve text f addr n -> entry resolve text f' addr' n' -> f = f' /\ addr = addr' /\ n = n'.
  Proof.
    intros text f addr n f' addr' n' (h & l & R & NS & NF & T) (h' & l' & R' & NS' & NF' & T').
    assert (S : forall hh ds ds', ~ In "/"%char hh -> hh ++ ["/"%char] ++ ds <> ds' \/ In "/"%char ds').
    { intros hh ds ds' _. destruct (in_dec ascii_dec "/"%char ds'); [auto|]. left. intros <-. apply n0.
      apply in_or_app. right. simpl. auto. }
    destruct T as [[-> ->]|(ds & -> & N)], T' as [[E ->]|(ds' & E & N')].
    - subst h'. rewrite R in R'. injection R' as -> ->. auto.
    - destruct (S h' ds' h NS') as [K|K]; [congruence|contradiction].
    - destruct (S h ds h' NS) as [K|K]; [congruence|contradiction].
    - assert (h = h' /\ ds = ds') as [-> ->].
      { pose proof (no_slash_span h ds NS) as P. pose proof (no_slash_span h' ds' NS') as P'.
        cbn [app] in E. rewrite E in P. rewrite P in P'. injection P' as -> ->. auto. }
      rewrite R in R'. injection R' as -> ->. split; [auto|]. split; [auto|].
      apply (numeral_value decimal 10 ds' _ num_digit_decimal) in N, N'. lia.
  Qed.

  Lemma entry_match : forall text f addr n sa, entry resolve text f addr n -> n <= 8 * length addr -> sa_ok sa ->
    exists c, parse_cidr resolve text = POk c /\
      (family_eqb (c_family c) (sa_family sa) && cidr_match c (sa_addr sa) (sockaddr_bytes sa) = true <->
       f = sa_family sa /\ same_prefix n addr (sa_addr sa)).
  Proof.
    intros text f addr n sa E L OK. destruct (parse_entry _ _ _ _ E L) as (P & OKa & NF).
    eexists. split; [exact P|]. cbn [c_family c_len]. rewrite andb_true_iff, family_eqb_eq.
    split; intros [-> H]; (split; [reflexivity|]).
    - unfold cidr_match in H. cbn [c_len c_addr c_mask] in H.
      assert (LE : length addr = length (sa_addr sa)).
      { unfold sa_ok in OK, OKa. cbn [sa_family sa_addr] in OKa. destruct (sa_family sa); congruence. }
      rewrite (sa_len sa OK NF), <- LE, Z.eqb_refl in H. apply bytes_match in H; auto.
      pose proof (sa_small sa OK NF). lia.
    - unfold cidr_match. cbn [c_len c_addr c_mask].
      assert (LE : length addr = length (sa_addr sa)).
      { unfold sa_ok in OK, OKa. cbn [sa_family sa_addr] in OKa. destruct (sa_family sa); congruence. }
      rewrite (sa_len sa OK NF), <- LE, Z.eqb_refl. apply bytes_match; auto.
      pose proof (sa_small sa OK NF). lia.
  Qed.

  Lemma parse_acl_ok : forall es, Forall (proper_entry resolve) es -> exists acl, parse_acl resolve es = POk acl.
  Proof.
    induction es as [|e es IH]; intros H; [eexists; reflexivity|]. inversion H as [|x y H1 H2]; subst.
    destruct H1 as (f & addr & n & E & L). destruct (parse_entry _ _ _ _ E L) as (P & _).
    destruct (IH H2) as [acl A]. cbn [parse_acl]. rewrite P, A. eauto.
  Qed.

  Lemma acl_exists : forall es acl sa, Forall (proper_entry resolve) es -> parse_acl resolve es = POk acl -> sa_ok sa ->
    (existsb (fun c => family_eqb (c_family c) (sa_family sa) && cidr_match c (sa_addr sa) (sockaddr_bytes sa)) acl = true <->
     exists e addr n, In e es /\ entry resolve e (sa_family sa) addr n /\ same_prefix n addr (sa_addr sa)).
  Proof.
    induction es as [|e es IH]; intros acl sa H P OK.
    - injection P as <-. simpl. split; [discriminate|]. intros (e & a & n & [] & _).
    - inversion H as [|x y H1 H2]; subst. destruct H1 as (f & addr & n & E & L).
      destruct (entry_match _ _ _ _ sa E L OK) as (c & Pc & M). cbn [parse_acl] in P. rewrite Pc in P.
      destruct (parse_acl resolve es) as [| |acl'] eqn:Pa; try discriminate. injection P as <-.
      cbn [existsb]. rewrite orb_true_iff, (IH acl' sa H2 eq_refl OK), M. split.
      + intros [[-> S]|(e' & a' & n' & I & E' & S)].
        * exists e, addr, n. split; [left; auto|]. auto.
        * exists e', a', n'. split; [right; auto|]. auto.
      + intros (e' & a' & n' & [<-|I] & E' & S).
        * left. destruct (entry_det _ _ _ _ _ _ _ E E') as (-> & -> & ->). auto.
        * right. exists e', a', n'. auto.
  Qed.

  Lemma acl_spec : forall es acl sa, Forall (proper_entry resolve) es -> parse_acl resolve es = POk acl -> sa_ok sa ->
    (acl_match acl sa = 0%Z <->
     exists e addr n, In e es /\ entry resolve e (sa_family sa) addr n /\ same_prefix n addr (sa_addr sa)).
  Proof.
    intros es acl sa H P OK. rewrite <- (acl_exists es acl sa H P OK). unfold acl_match.
    destruct (sockaddr_bytes sa =? -1)%Z eqn:B.
    - split; [discriminate|]. intros K. exfalso. apply (acl_exists es acl sa H P OK) in K.
      destruct K as (e & a & n & _ & (h & l & R & _ & NF & _) & _). apply NF.
      unfold sockaddr_bytes in B. destruct (sa_family sa); [discriminate|discriminate|auto].
    - destruct (existsb _ acl); split; auto; discriminate.
  Qed.

  Lemma acl_order : forall es es' acl acl' sa, Permutation es es' -> Forall (proper_entry resolve) es ->
    parse_acl resolve es = POk acl -> parse_acl resolve es' = POk acl' -> sa_ok sa ->
    acl_match acl sa = acl_match acl' sa.
  Proof.
    intros es es' acl acl' sa P H E E' OK.
    assert (H' : Forall (proper_entry resolve) es') by (eapply Permutation_Forall; eauto).
    assert (K : acl_match acl sa = 0%Z <-> acl_match acl' sa = 0%Z).
    { rewrite (acl_spec es acl sa), (acl_spec es' acl' sa) by auto. split; intros (e & a & n & I & R); exists e, a, n;
        (split; [|auto]); [eapply Permutation_in; eauto|eapply Permutation_in; [apply Permutation_sym|]; eauto]. }
    unfold acl_match in *. destruct (sockaddr_bytes sa =? -1)%Z; auto.
    destruct (existsb _ acl), (existsb _ acl'); auto; exfalso; destruct K as [K1 K2]; [specialize (K1 eq_refl)|specialize (K2 eq_refl)]; discriminate.
  Qed.
End R.

(** *** Named lists *)
Lemma named_lookup : forall l name acl, NoDup (map fst l) ->
  (acl_by_name l name = Some acl <-> In (name, acl) l).
Proof.
  induction l as [|[n a] l IH]; intros name acl N; unfold acl_by_name; simpl.
  - split; [discriminate|tauto].
  - inversion N as [|x y N1 N2]; subst. destruct (bytes_eqb n name) eqn:E.
    + apply bytes_eqb_eq in E. subst n. simpl. split; [intros [= <-]; auto|].
      intros [H|H]; [congruence|]. exfalso. apply N1. apply (in_map fst) in H. auto.
    + apply bytes_eqb_neq in E. specialize (IH name acl N2). unfold acl_by_name in IH. rewrite IH.
      split; [auto|]. intros [H|H]; [congruence|auto].
Qed.

Lemma named_absent : forall l name, acl_by_name l name = None <-> ~ In name (map fst l).
Proof.
  induction l as [|[n a] l IH]; intros name; unfold acl_by_name; simpl; [tauto|].
  destruct (bytes_eqb n name) eqn:E.
  - apply bytes_eqb_eq in E. simpl. split; [discriminate|]. tauto.
  - apply bytes_eqb_neq in E. specialize (IH name). unfold acl_by_name in IH. rewrite IH. tauto.
Qed.

Lemma NoDup_snoc : forall (A : Type) (l : list A) x, NoDup l -> ~ In x l -> NoDup (l ++ [x]).
Proof.
  intros A l x N H. induction N as [|y l Hy N IH]; simpl; [repeat constructor; auto|].
  constructor.
  - rewrite in_app_iff. simpl. intros [K|[K|[]]]; [contradiction|]. subst. apply H. left. auto.
  - apply IH. intros K. apply H. right. auto.
Qed.

Lemma add_named_ok : forall l name acl l', NoDup (map fst l) -> add_named_acl l name acl = Some l' ->
  l' = l ++ [(name, acl)] /\ NoDup (map fst l').
Proof.
  intros l name acl l' N H. unfold add_named_acl in H. destruct (acl_by_name l name) eqn:E; [discriminate|].
  injection H as <-. split; auto. rewrite map_app. apply NoDup_snoc; auto. apply named_absent. auto.
Qed.

(** *** Forwarding chains *)
Lemma is_space_white : forall c, is_space c = true <-> white c.
Proof.
  intros c. unfold white. split.
  - intros H. destruct c as [[] [] [] [] [] [] [] []]; vm_compute in H; try discriminate; vm_compute; tauto.
  - simpl. intros [<-|[<-|[<-|[<-|[<-|[<-|[]]]]]]]; reflexivity.
Qed.

Definition comma : byte := ","%char.

Lemma elements_nonempty : forall s, elements s <> [].
Proof. destruct s as [|c s]; simpl; [discriminate|]. destruct (beq c _); [discriminate|]. destruct (elements s); discriminate. Qed.

Lemma elements_app : forall a b, elements (a ++ comma :: b) = elements a ++ elements b.
Proof.
  induction a as [|c a IH]; intros b.
  - reflexivity.
  - cbn [app elements]. rewrite IH. destruct (beq c ","%char); [reflexivity|].
    pose proof (elements_nonempty a). destruct (elements a) as [|e es]; [congruence|]. reflexivity.
Qed.

Lemma elements_plain : forall e, ~ In comma e -> elements e = [e].
Proof.
  induction e as [|c e IH]; intros H; [reflexivity|]. cbn [elements].
  destruct (beq c ","%char) eqn:E.
  - apply beq_eq in E. exfalso. apply H. left. auto.
  - rewrite IH; [auto|]. intros K. apply H. right. auto.
Qed.

Definition word (e : bytes) : bytes :=
  fst (span (fun c => negb (is_space c)) (snd (span is_space e))).

Lemma word_first : forall e, first_word e (word e).
Proof.
  intros e. unfold word. set (b := snd (span is_space e)).
  pose proof (span_app is_space e) as A. pose proof (span_fst_all is_space e) as W.
  pose proof (span_app (fun c => negb (is_space c)) b) as B.
  pose proof (span_fst_all (fun c => negb (is_space c)) b) as V.
  pose proof (span_snd_head (fun c => negb (is_space c)) b) as Hd.
  pose proof (span_snd_head is_space e) as He. fold b in A, He.
  exists (fst (span is_space e)), (snd (span (fun c => negb (is_space c)) b)).
  split; [rewrite B; auto|]. split.
  { apply Forall_forall. intros x Hx. apply is_space_white. rewrite forallb_forall in W. auto. }
  split.
  { apply Forall_forall. intros x Hx. rewrite <- is_space_white. rewrite forallb_forall in V.
    apply V in Hx. apply negb_true_iff in Hx. congruence. }
  split.
  - intros E. rewrite E in B. simpl in B. destruct b as [|c b']; [auto|].
    exfalso. specialize (He c b' eq_refl). specialize (Hd c b' B). rewrite He in Hd. discriminate.
  - destruct (snd (span (fun c => negb (is_space c)) b)) as [|c r']; [auto|]. right. exists c, r'.
    split; auto. apply is_space_white. specialize (Hd c r' eq_refl). apply negb_false_iff in Hd. auto.
Qed.

Lemma first_word_fun : forall e w, first_word e w -> w = word e.
Proof.
  intros e w (l & r & -> & Hl & Hw & Hwr & Hr). unfold word.
  assert (Wl : forallb is_space l = true).
  { apply forallb_forall. intros x Hx. apply is_space_white. rewrite Forall_forall in Hl. auto. }
  assert (Ww : forallb (fun c => negb (is_space c)) w = true).
  { apply forallb_forall. intros x Hx. rewrite Forall_forall in Hw. specialize (Hw x Hx).
    rewrite <- is_space_white in Hw. destruct (is_space x); auto. }
  rewrite (span_unique is_space l (w ++ r)).
  - cbn [snd]. rewrite (span_unique (fun c => negb (is_space c)) w r); auto.
    destruct r as [|c r]; auto. destruct Hr as [Hr|(c' & r' & Hr & Hc)]; [discriminate|].
    injection Hr as -> ->. apply is_space_white in Hc. rewrite Hc. auto.
  - auto.
  - destruct w as [|c w]; [rewrite Hwr by auto; exact I|]. simpl. apply Forall_inv in Hw.
    rewrite <- is_space_white in Hw. destruct (is_space c); auto. congruence.
Qed.

Lemma chain_words : forall hdr ws, chain hdr ws <-> ws = map word (elements hdr).
Proof.
  intros hdr ws. unfold chain. generalize (elements hdr). intros es. split.
  - intros H. induction H as [|e w es ws H1 H2 IH]; [auto|]. simpl. rewrite IH, (first_word_fun _ _ H1). auto.
  - intros ->. induction es as [|e es IH]; constructor; auto. apply word_first.
Qed.

(** One round: back to the last comma *)
Lemma back_plain : forall r txt, ~ In comma r -> back_to_comma r txt = ([], rev r ++ txt).
Proof.
  induction r as [|c r IH]; intros txt H; [reflexivity|].
  destruct r as [|d r]; [reflexivity|]. cbn [back_to_comma].
  destruct (beq c ","%char) eqn:E.
  - apply beq_eq in E. exfalso. apply H. left. auto.
  - change (back_to_comma (d :: r) (c :: txt) = ([], rev (c :: d :: r) ++ txt)). rewrite IH.
    + cbn [rev]. rewrite <- !app_assoc. reflexivity.
    + intros K. apply H. right. auto.
Qed.

Lemma back_comma : forall e s txt, ~ In comma e ->
  back_to_comma (e ++ comma :: s) txt = (s, comma :: rev e ++ txt).
Proof.
  induction e as [|c e IH]; intros s txt H.
  - simpl. destruct s; reflexivity.
  - cbn [app]. assert (Hc : beq c ","%char = false) by (apply beq_neq; intros ->; apply H; left; reflexivity).
    destruct (e ++ comma :: s) as [|d r] eqn:Er; [destruct e; discriminate|].
    cbn [back_to_comma]. rewrite Hc. change (back_to_comma (d :: r) (c :: txt) = (s, comma :: rev (c :: e) ++ txt)).
    rewrite <- Er, IH by (intros K; apply H; right; auto). cbn [rev]. rewrite <- app_assoc. reflexivity.
Qed.

Lemma fwd_word_comma : forall e, fwd_word (comma :: e) = word e.
Proof. reflexivity. Qed.
Lemma fwd_word_plain : forall e, ~ In comma e -> fwd_word e = word e.
Proof.
  intros [|c e] H; [reflexivity|]. unfold fwd_word, word.
  destruct (beq c ","%char) eqn:E; [|auto]. apply beq_eq in E. exfalso. apply H. left. auto.
Qed.

(** Split at the last comma *)
Lemma last_comma : forall s, ~ In comma s \/ exists a e, s = a ++ comma :: e /\ ~ In comma e.
Proof.
  induction s as [|c s IH]; [left; auto|].
  destruct IH as [H|(a & e & -> & H)].
  - destruct (ascii_dec c comma) as [->|N].
    + right. exists [], s. auto.
    + left. simpl. intros [K|K]; auto.
  - right. exists (c :: a), e. auto.
Qed.

Section F.
  Variable resolve : bytes -> option (list sockaddr).
  Hypothesis no_empty : resolve [] = None.
  Variable acl : list cidr.

  (** The scan of the words from the right. *)
  Fixpoint pick (rws : list bytes) : option bytes :=
    match rws with
    | [] => None
    | w :: rws =>
        if (acl_match_ip resolve acl w =? 0)%Z then Some w
        else if (acl_match_ip resolve acl w =? 1)%Z then pick rws else None
    end.

  Lemma pick_empty_tail : forall l, pick (l ++ [[]]) = pick l.
  Proof.
    induction l as [|w l IH]; cbn [app pick].
    - unfold acl_match_ip. rewrite no_empty. reflexivity.
    - rewrite IH. reflexivity.
  Qed.

  Lemma scan_pick : forall fuel s, length s < fuel ->
    scan_loop resolve fuel acl (rev s) = pick (map word (rev (elements s))).
  Proof.
    induction fuel as [|fuel IH]; intros s L; [lia|]. cbn [scan_loop].
    destruct (list_eq_dec ascii_dec s []) as [->|N].
    { simpl. unfold acl_match_ip. change (word []) with (@nil ascii). rewrite no_empty. reflexivity. }
    assert (RN : forall A (x y : A), match rev s with [] => x | _ => y end = y).
    { intros A x y. destruct (rev s) eqn:E; auto. apply (f_equal (@rev _)) in E. rewrite rev_involutive in E. simpl in E. congruence. }
    rewrite RN. destruct (last_comma s) as [H|(a & e & Es & H)].
    - rewrite back_plain by (rewrite <- in_rev; auto). rewrite rev_involutive, app_nil_r.
      cbv zeta. rewrite fwd_word_plain by auto. rewrite (elements_plain s H). cbn [rev app map pick].
      destruct (acl_match_ip resolve acl (word s) =? 0)%Z; auto.
      destruct (acl_match_ip resolve acl (word s) =? 1)%Z; auto. destruct fuel; reflexivity.
    - assert (R : rev s = rev e ++ comma :: rev a).
      { subst s. rewrite rev_app_distr. simpl. rewrite <- app_assoc. reflexivity. }
      rewrite R, back_comma by (rewrite <- in_rev; auto). rewrite rev_involutive, app_nil_r.
      cbv zeta. rewrite fwd_word_comma. rewrite Es, elements_app, (elements_plain e H), rev_app_distr.
      cbn [rev app map pick]. rewrite IH; [auto|]. subst s. rewrite app_length in L. simpl in L. lia.
  Qed.

  Lemma match_ip_trusted : forall w, acl_match_ip resolve acl w = 1%Z <-> trusted resolve acl w.
  Proof.
    intros w. unfold acl_match_ip, trusted. destruct (resolve w) as [l|].
    - destruct (existsb _ l) eqn:E.
      + apply existsb_exists in E as (sa & I & M). split; auto. intros _. exists l, sa. split; auto. split; auto. lia.
      + split; [discriminate|]. intros (l' & sa & [= <-] & I & M). exfalso.
        assert (existsb (fun sa => (acl_match acl sa =? 0)%Z) l = true); [|congruence].
        apply existsb_exists. exists sa. split; auto. lia.
    - split; [discriminate|]. intros (l & sa & K & _). discriminate.
  Qed.

  Lemma match_ip_untrusted : forall w, acl_match_ip resolve acl w = 0%Z <-> untrusted resolve acl w.
  Proof.
    intros w. unfold acl_match_ip, untrusted. destruct (resolve w) as [l|].
    - destruct (existsb _ l) eqn:E.
      + apply existsb_exists in E as (sa & I & M). split; [discriminate|]. intros (l' & [= <-] & K). exfalso. apply (K sa I). lia.
      + split; auto. intros _. exists l. split; auto. intros sa I K.
        assert (existsb (fun sa => (acl_match acl sa =? 0)%Z) l = true); [|congruence].
        apply existsb_exists. exists sa. split; auto. lia.
    - split; [discriminate|]. intros (l & K & _). discriminate.
  Qed.

  Lemma match_ip_cases : forall w,
    (acl_match_ip resolve acl w = 1%Z \/ acl_match_ip resolve acl w = 0%Z) \/
    (acl_match_ip resolve acl w = (-1)%Z /\ malformed resolve w).
  Proof.
    intros w. unfold acl_match_ip, malformed. destruct (resolve w) as [l|]; [|auto]. destruct (existsb _ l); auto.
  Qed.

  Lemma pick_some : forall l w, pick l = Some w <->
    exists a b, l = a ++ w :: b /\ Forall (trusted resolve acl) a /\ untrusted resolve acl w.
  Proof.
    induction l as [|x l IH]; intros w; cbn [pick].
    - split; [discriminate|]. intros (a & b & K & _). destruct a; discriminate.
    - destruct (match_ip_cases x) as [[E|E]|[E M]]; rewrite E; cbn [Z.eqb].
      + rewrite IH. split.
        * intros (a & b & -> & F & U). exists (x :: a), b. split; auto. split; auto. constructor; auto. apply match_ip_trusted; auto.
        * intros (a & b & K & F & U). destruct a as [|y a].
          -- simpl in K. injection K as -> ->. apply match_ip_untrusted in U. congruence.
          -- simpl in K. injection K as -> ->. inversion F; subst. exists a, b. auto.
      + split.
        * intros [= <-]. exists [], l. split; auto. split; [constructor|]. apply match_ip_untrusted; auto.
        * intros (a & b & K & F & U). destruct a as [|y a]; [simpl in K; congruence|].
          simpl in K. injection K as -> ->. inversion F as [|? ? T _]; subst. apply match_ip_trusted in T. congruence.
      + split; [discriminate|]. intros (a & b & K & F & U). destruct a as [|y a]; simpl in K; injection K as -> ->.
        * apply match_ip_untrusted in U. congruence.
        * inversion F as [|? ? T _]; subst. apply match_ip_trusted in T. congruence.
  Qed.

  Lemma pick_none : forall l, pick l = None <->
    Forall (trusted resolve acl) l \/
    exists a w b, l = a ++ w :: b /\ Forall (trusted resolve acl) a /\ malformed resolve w.
  Proof.
    induction l as [|x l IH]; cbn [pick].
    - split; auto.
    - destruct (match_ip_cases x) as [[E|E]|[E M]]; rewrite E; cbn [Z.eqb].
      + assert (T : trusted resolve acl x) by (apply match_ip_trusted; auto). rewrite IH. split.
        * intros [F|(a & w & b & -> & F & U)]; [left; constructor; auto|right].
          exists (x :: a), w, b. split; auto.
        * intros [F|(a & w & b & K & F & U)]; [left; inversion F; auto|].
          destruct a as [|y a]; simpl in K; injection K as -> ->.
          -- destruct T as (l' & sa & T & _). unfold malformed in U. congruence.
          -- right. inversion F; subst. exists a, w, b. auto.
      + assert (T : untrusted resolve acl x) by (apply match_ip_untrusted; auto). split; [discriminate|].
        intros [F|(a & w & b & K & F & U)].
        * inversion F as [|? ? T' _]; subst. apply match_ip_trusted in T'. congruence.
        * destruct a as [|y a]; simpl in K; injection K as -> ->.
          -- destruct T as (l' & T & _). unfold malformed in U. congruence.
          -- inversion F as [|? ? T' _]; subst. apply match_ip_trusted in T'. congruence.
      + split; auto. intros _. right. exists [], x, l. auto.
  Qed.

  Lemma scan_words : forall hdr ws, chain hdr ws ->
    scan_forwarded_header resolve (Some hdr) (Some acl) = pick (rev ws).
  Proof.
    intros hdr ws C. apply chain_words in C as ->. unfold scan_forwarded_header.
    rewrite scan_pick by lia. rewrite map_rev. reflexivity.
  Qed.

  Lemma scan_some : forall hdr ws w, chain hdr ws ->
    (scan_forwarded_header resolve (Some hdr) (Some acl) = Some w <->
     exists a b, ws = a ++ w :: b /\ untrusted resolve acl w /\ Forall (trusted resolve acl) b).
  Proof.
    intros hdr ws w C. rewrite (scan_words hdr ws C), pick_some. split.
    - intros (a & b & E & F & U). exists (rev b), (rev a). split; [|split; [auto|apply Forall_rev; auto]].
      apply (f_equal (@rev _)) in E. rewrite rev_involutive, rev_app_distr in E. simpl in E. rewrite <- app_assoc in E. auto.
    - intros (a & b & -> & U & F). exists (rev b), (rev a). split; [|split; [apply Forall_rev; auto|auto]].
      rewrite rev_app_distr. simpl. rewrite <- app_assoc. reflexivity.
  Qed.

  Lemma scan_none : forall hdr ws, chain hdr ws ->
    (scan_forwarded_header resolve (Some hdr) (Some acl) = None <->
     Forall (trusted resolve acl) ws \/
     exists a w b, ws = a ++ w :: b /\ malformed resolve w /\ Forall (trusted resolve acl) b).
  Proof.
    intros hdr ws C. rewrite (scan_words hdr ws C), pick_none. split.
    - intros [F|(a & w & b & E & F & U)].
      + left. apply Forall_rev in F. rewrite rev_involutive in F. auto.
      + right. exists (rev b), w, (rev a). split; [|split; [auto|apply Forall_rev; auto]].
        apply (f_equal (@rev _)) in E. rewrite rev_involutive, rev_app_distr in E. simpl in E. rewrite <- app_assoc in E. auto.
    - intros [F|(a & w & b & -> & U & F)].
      + left. apply Forall_rev. auto.
      + right. exists (rev b), w, (rev a). split; [|split; [apply Forall_rev; auto|auto]].
        rewrite rev_app_distr. simpl. rewrite <- app_assoc. reflexivity.
  Qed.
End F.

(** *** Several fields *)
Lemma word_space : forall e, word (" "%char :: e) = word e.
Proof.
  intros e. unfold word. cbn [span]. change (is_space " "%char) with true. cbv iota.
  destruct (span is_space e). reflexivity.
Qed.

Lemma elements_words_space : forall s, map word (elements (" "%char :: s)) = map word (elements s).
Proof.
  intros s. cbn [elements]. change (beq " "%char ","%char) with false. cbv iota.
  pose proof (elements_nonempty s). destruct (elements s); [congruence|].
  cbn [map]. rewrite word_space. reflexivity.
Qed.

Lemma join_words : forall v vs, vs <> [] ->
  map word (elements (join_values (v :: vs))) =
  (match v with [] => [] | _ => map word (elements v) end) ++ map word (elements (join_values vs)).
Proof.
  intros v vs H. destruct vs as [|u vs]; [congruence|].
  change (join_values (v :: u :: vs)) with
    (v ++ (match v with [] => [] | _ => lit ", " end) ++ join_values (u :: vs)).
  destruct v as [|c v]; [reflexivity|].
  change (lit ", ") with [comma; " "%char]. cbn [app].
  change (c :: v ++ comma :: " "%char :: join_values (u :: vs)) with ((c :: v) ++ comma :: (" "%char :: join_values (u :: vs))).
  rewrite elements_app, map_app, elements_words_space. reflexivity.
Qed.

Lemma fields_join : forall vs ws, fields_chain vs ws -> chain (join_values vs) ws.
Proof.
  intros vs ws H. induction H as [v ws H|vs ws N H IH|v vs ws ws' Nv N C H IH]; [auto| |].
  - apply chain_words. rewrite join_words by auto. apply chain_words in IH. auto.
  - apply chain_words. rewrite join_words by auto. apply chain_words in IH, C. subst.
    destruct v; [congruence|auto].
Qed.

Lemma chain_exists : forall hdr, exists ws, chain hdr ws.
Proof. intros hdr. eexists. apply chain_words. reflexivity. Qed.

Lemma chain_unique : forall hdr a b, chain hdr a -> chain hdr b -> a = b.
Proof. intros hdr a b A B. apply chain_words in A, B. congruence. Qed.

(** *** Entries that are refused *)
Lemma strtoul_loose : forall m n, strtoul m 10 = (false, n, []) -> loose_mask m.
Proof.
  intros m n H. unfold strtoul in H. destruct (scan_number 10 m) as [[[neg v] rest]|] eqn:E; [|left; congruence].
  assert (R : rest = []) by (destruct (ULONG_MAX <? v)%Z; congruence). clear H. subst rest. right.
  unfold scan_number in E. pose proof (span_app is_space m) as A. pose proof (span_fst_all is_space m) as W.
  destruct (span is_space m) as [sp s1]. cbn [fst snd] in *. subst m.
  assert (K : exists sg s2, s1 = sg ++ s2 /\ (sg = [] \/ sg = ["+"%char] \/ sg = ["-"%char]) /\
     exists b, match span (num_digit 10) s2 with (ds, r) =>
      match ds with [] => None | _ => Some (b, num_value 10 ds, r) end end = Some (neg, v, [])).
  { destruct s1 as [|c r]. { exists [], []. eauto. }
    destruct (beq c "-"%char) eqn:C in E.
    { apply beq_eq in C. subst. exists ["-"%char], r. eauto 8. }
    destruct (beq c "+"%char) eqn:C' in E.
    { apply beq_eq in C'. subst. exists ["+"%char], r. eauto 8. }
    exists [], (c :: r). eauto 8. }
  destruct K as (sg & s2 & -> & S & b & K).
  pose proof (span_app (num_digit 10) s2) as A. pose proof (span_fst_all (num_digit 10) s2) as D.
  destruct (span (num_digit 10) s2) as [ds r]. cbn [fst snd] in *. destruct ds as [|d ds]; [discriminate|].
  assert (r = []) by congruence. subst r. rewrite app_nil_r in A. subst s2.
  exists sp, sg, (d :: ds). split; [auto|]. split; [|split; [auto|split; [discriminate|]]].
  - apply Forall_forall. intros c Hc. apply is_space_white. rewrite forallb_forall in W. auto.
  - apply Forall_forall. intros c Hc. exists (code c - 48)%Z. apply num_digit_decimal.
    rewrite forallb_forall in D. auto.
Qed.

Lemma parse_cidr_loose : forall resolve t c, parse_cidr resolve t = POk c -> loose_entry resolve t.
Proof.
  intros resolve t c H. unfold parse_cidr in H.
  pose proof (span_app (fun c => negb (beq c "/"%char)) t) as A.
  pose proof (span_fst_all (fun c => negb (beq c "/"%char)) t) as W.
  pose proof (span_snd_head (fun c => negb (beq c "/"%char)) t) as S.
  destruct (span (fun c => negb (beq c "/"%char)) t) as [host tail]. cbn [fst snd] in *. subst t.
  assert (NS : ~ In "/"%char host).
  { intros I. rewrite forallb_forall in W. apply W in I. discriminate. }
  destruct (match tail with [] => Some None | _ :: mask => let '(e, n, p) := strtoul mask 10 in
     if e || negb (at_end p) then None else Some (Some n) end) as [mask|] eqn:M; [|discriminate].
  destruct (resolve host) as [[|sa l]|] eqn:R; try discriminate. cbv zeta in H.
  exists host, sa, l. split; [auto|]. split.
  { intros F. unfold sockaddr_bytes in H. rewrite F in H. discriminate. }
  split; [auto|]. destruct tail as [|x m]; [left; apply app_nil_r|]. right.
  specialize (S x m eq_refl). apply negb_false_iff, beq_eq in S. subst x.
  exists m. split; [reflexivity|]. destruct (strtoul m 10) as [[e n] p] eqn:T.
  destruct e; [discriminate|]. destruct p as [|y p]; [|discriminate]. eapply strtoul_loose; eauto.
Qed.

Lemma parse_acl_loose : forall resolve ts acl, parse_acl resolve ts = POk acl -> Forall (loose_entry resolve) ts.
Proof.
  induction ts as [|t ts IH]; intros acl H; [constructor|]. cbn [parse_acl] in H.
  destruct (parse_cidr resolve t) as [| |c] eqn:E; try discriminate.
  destruct (parse_acl resolve ts) as [| |a] eqn:F; try discriminate.
  constructor; [eapply parse_cidr_loose; eauto|eapply IH; eauto].
Qed.
