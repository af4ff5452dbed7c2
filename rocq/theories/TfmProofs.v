(** printf of templates: numbers, fields and conversions. *)
From Coq Require Import Ascii String List ZArith Bool Lia.
From Coq Require Import ZifyBool ZifyNat.
From Verif Require Import Bytes TevModel TevSpec TevProofs TfmModel TfmSpec.
From Verif Require JsonModel ClenSpec LogSpec MetProofs LogModel LogProofs.
Import ListNotations.
Local Open Scope string_scope.
Local Open Scope list_scope.
Local Open Scope Z_scope.

(** ** Digits *)

Section Digits.
  Variable alphabet : bytes.
  Let base := Z.of_nat (length alphabet).
  Hypothesis base2 : 2 <= base.
  Hypothesis zero_first : hd_error alphabet = Some "0"%char.

  Lemma digit_is : forall c d, ClenSpec.digit_of alphabet c d -> 0 <= d < base /\ digit alphabet d = c.
  Proof.
    intros c d [P H]. assert (L : (Z.to_nat d < length alphabet)%nat) by (apply nth_error_Some; rewrite H; discriminate).
    split; [unfold base; lia|]. unfold digit. apply nth_error_nth. exact H.
  Qed.
  Lemma numeral_positive : forall ds n, ClenSpec.numeral (ClenSpec.digit_of alphabet) base ds n -> 0 <= n /\ ds <> [].
  Proof.
    intros ds n H. induction H as [c d D|s v c d H [IH1 IH2] D]; apply digit_is in D as [D _].
    - split; [lia|discriminate].
    - split; [nia|destruct s; discriminate].
  Qed.
  Lemma numeral_zero : forall ds n, ClenSpec.numeral (ClenSpec.digit_of alphabet) base ds n -> n = 0 -> hd_error ds = Some "0"%char.
  Proof.
    intros ds n H. induction H as [c d D|s v c d H IH D]; intros E.
    - subst d. destruct D as [_ D]. cbn [hd_error]. rewrite <- zero_first. destruct alphabet; [discriminate D|exact (eq_sym D)].
    - apply digit_is in D as [D _]. destruct (numeral_positive s v H) as [P NE]. assert (V : v = 0) by nia.
      specialize (IH V). destruct s; [discriminate IH|exact IH].
  Qed.
  Lemma digits_shortest : forall ds n, ClenSpec.numeral (ClenSpec.digit_of alphabet) base ds n ->
    (hd_error ds = Some "0"%char -> ds = ["0"%char]) ->
    forall fuel acc, n < 2 ^ Z.of_nat fuel -> fuel <> O -> digits alphabet base fuel n acc = ds ++ acc.
  Proof.
    intros ds n H. induction H as [c d D|s v c d H IH D]; intros Z fuel acc L NF; apply digit_is in D as [D E];
      (destruct fuel as [|fuel]; [congruence|]); cbn [digits]; cbv zeta.
    - rewrite Z.mod_small by lia. destruct (Z.ltb_spec d base); [|lia]. rewrite E. reflexivity.
    - destruct (numeral_positive s v H) as [P NE].
      assert (M : (base * v + d) mod base = d) by (rewrite Z.mul_comm, Z.add_comm, Z_mod_plus_full; apply Z.mod_small; lia).
      assert (Q : (base * v + d) / base = v) by (rewrite Z.mul_comm, Z.div_add_l, Z.div_small by lia; lia).
      rewrite M, E. assert (NZ : v <> 0).
      { intros V. pose proof (numeral_zero s v H V) as HD. destruct s as [|a s]; [congruence|]. specialize (Z HD).
        injection Z as _ Z. destruct s; discriminate. }
      destruct (Z.ltb_spec (base * v + d) base); [nia|]. rewrite Q. rewrite <- app_assoc. apply IH.
      + intros HD. exfalso. destruct s as [|a s]; [congruence|]. specialize (Z HD). injection Z as _ Z. destruct s; discriminate.
      + rewrite Nat2Z.inj_succ, Z.pow_succ_r in L by lia. nia.
      + intros ->. cbn in L. nia.
  Qed.
  Lemma in_base_is : forall n ds, shortest alphabet n ds -> in_base alphabet n = ds.
  Proof.
    intros n ds [H Z]. unfold in_base. fold base. pose proof (numeral_positive ds n H) as [P _].
    rewrite (digits_shortest ds n H Z), app_nil_r; [reflexivity| |congruence].
    destruct (Z.eq_dec n 0) as [->|]; [reflexivity|]. rewrite Nat2Z.inj_succ, Z2Nat.id by apply Z.log2_nonneg. apply Z.log2_spec. lia.
  Qed.
End Digits.

Definition alphabets : list bytes := [octal; decimal; lower_hex; upper_hex].
Lemma in_base_all : forall a n ds, In a alphabets -> shortest a n ds -> in_base a n = ds /\ 0 <= n /\ ds <> [].
Proof.
  intros a n ds I H. assert (B : 2 <= Z.of_nat (length a)) by (repeat destruct I as [<-|I]; try destruct I; cbn; lia).
  assert (Z0 : hd_error a = Some "0"%char) by (repeat destruct I as [<-|I]; try destruct I; reflexivity).
  split; [exact (in_base_is a B Z0 n ds H)|exact (numeral_positive a B ds n (proj1 H))].
Qed.

(** ** Numbers in a format *)

Lemma value_grows : forall s n, 0 <= n -> Forall (fun c => 48 <= code c <= 57) s -> n <= LogSpec.value s n.
Proof.
  intros s. induction s as [|c s IH]; intros n P H; cbn [LogSpec.value]; [lia|].
  inversion H as [|c0 s0 HC HS E]. subst. specialize (IH (10 * n + (code c - 48)) ltac:(lia) HS). lia.
Qed.
Lemma digit_range : forall c, 48 <= code c <= 57 -> is_digit c = true.
Proof. intros c H. unfold is_digit. lia. Qed.
Lemma get_num_value : forall s n r, Forall (fun c => 48 <= code c <= 57) s -> 0 <= n -> LogSpec.value s n < 2 ^ 32 ->
  match r with c :: _ => is_digit c = false | [] => True end -> get_num_from n (s ++ r) = (LogSpec.value s n, r).
Proof.
  intros s. induction s as [|c s IH]; intros n r H P L R.
  - cbn [app LogSpec.value]. destruct r as [|c r]; [reflexivity|]. cbn [get_num_from]. rewrite R. reflexivity.
  - inversion H as [|c0 s0 HC HS E]. subst. cbn [app get_num_from LogSpec.value] in *. rewrite (digit_range c HC).
    assert (G := value_grows s (10 * n + (code c - 48)) ltac:(lia) HS).
    replace (uint (n * 10 + (code c - 48))) with (10 * n + (code c - 48)) by (unfold uint; rewrite Z.mod_small by lia; lia).
    apply IH; auto. lia.
Qed.
Lemma get_num_is : forall t n r, decimal_number t n -> n < 2 ^ 32 ->
  match r with c :: _ => is_digit c = false | [] => True end -> get_num (t ++ r) = (n, r).
Proof.
  intros t n r H L R. destruct (MetProofs.numeral_value t n H) as (NE & DS & V). unfold get_num.
  rewrite (get_num_value t 0 r DS ltac:(lia)), V; [reflexivity|lia|exact R].
Qed.
Lemma decimal_first : forall t n, decimal_number t n -> 0 <= n /\ exists c t', t = c :: t' /\ is_digit c = true /\ In c decimal.
Proof.
  intros t n H. split; [apply (numeral_positive decimal ltac:(cbn; lia) t n H)|].
  assert (Q : forall s m, decimal_number s m -> exists c s', s = c :: s' /\ exists d, ClenSpec.digit_of decimal c d).
  { intros s m K. induction K as [c d D|s v c d K IH D]; [eexists; eexists; split; [reflexivity|exists d; exact D]|].
    destruct IH as (c0 & s' & -> & D'). eexists; eexists; split; [reflexivity|exact D']. }
  destruct (Q t n H) as (c & t' & -> & d & D). exists c, t'. split; [reflexivity|]. split.
  - apply MetProofs.decimal_code in D. apply digit_range. lia.
  - destruct D as [_ D]. exact (nth_error_In _ _ D).
Qed.

(** ** Flags *)

Definition add_flag (f : flags) (c : byte) : flags :=
  if beq c "#" then mkFlags true (zero f) (left f) (space f) (sign f)
  else if beq c "0" then mkFlags (alt f) true (left f) (space f) (sign f)
  else if beq c "-" then mkFlags (alt f) (zero f) true (space f) (sign f)
  else if beq c " " then mkFlags (alt f) (zero f) (left f) true (sign f)
  else mkFlags (alt f) (zero f) (left f) (space f) true.
Definition read_flags (f : flags) (fs : bytes) : flags := fold_left add_flag fs f.
Definition no_flags' : flags := mkFlags false false false false false.

Lemma read_flags_are : forall fs f, is_flags fs ->
  (alt (read_flags f fs) = true <-> alt f = true \/ In "#"%char fs)
  /\ (zero (read_flags f fs) = true <-> zero f = true \/ In "0"%char fs)
  /\ (left (read_flags f fs) = true <-> left f = true \/ In "-"%char fs)
  /\ (space (read_flags f fs) = true <-> space f = true \/ In " "%char fs)
  /\ (sign (read_flags f fs) = true <-> sign f = true \/ In "+"%char fs).
Proof.
  intros fs. induction fs as [|c fs IH]; intros f H.
  - unfold read_flags. cbn [fold_left In]. repeat (split; [tauto|]). tauto.
  - inversion H as [|c0 fs0 HC HS E]. subst. specialize (IH (add_flag f c) HS).
    change (read_flags f (c :: fs)) with (read_flags (add_flag f c) fs).
    destruct IH as (H1 & H2 & H3 & H4 & H5). rewrite H1, H2, H3, H4, H5. cbn [In].
    destruct HC as [<-|[<-|[<-|[<-|[<-|[]]]]]]; unfold add_flag; cbn; intuition congruence.
Qed.
Lemma flag_false : forall (b : bool) (P : Prop), (b = true <-> P) -> ~ P -> b = false.
Proof. intros [|] P H Q; [exfalso; apply Q; apply H; reflexivity|reflexivity]. Qed.

(** What the flags of a state are *)
Definition reads (fs : bytes) (f : flags) : Prop :=
  (alt f = true <-> In "#"%char fs) /\ (zero f = true <-> In "0"%char fs) /\ (left f = true <-> In "-"%char fs)
  /\ (space f = true <-> In " "%char fs) /\ (sign f = true <-> In "+"%char fs).
Lemma read_flags_reads : forall fs, is_flags fs -> reads fs (read_flags no_flags' fs).
Proof.
  intros fs H. destruct (read_flags_are fs no_flags' H) as (H1 & H2 & H3 & H4 & H5). unfold reads.
  rewrite H1, H2, H3, H4, H5. cbn. intuition discriminate.
Qed.

(** ** Fields *)

Lemma size_pos : forall s, 0 <= size s.
Proof. intros s. unfold size. lia. Qed.
Lemma size_all : forall s, firstn (Z.to_nat (size s)) s = s.
Proof. intros s. unfold size. rewrite Nat2Z.id. apply firstn_all. Qed.
Lemma lacks_fill : forall c t w k, lacks t w k -> size t <= w -> fill c (w - size t) = repeat c k.
Proof. intros c t w k H L. unfold fill. f_equal. unfold lacks, size in *. lia. Qed.
Lemma lacks_none : forall t w k, lacks t w k -> w <= size t -> k = O.
Proof. intros t w k H L. unfold lacks, size in *. lia. Qed.

Lemma field_spaces : forall fs f w first t o, in_field fs w t o -> 0 <= w -> (left f = true <-> In "-"%char fs) -> zero f = false ->
  field f w first t (size t) = o.
Proof.
  intros fs f w first t o (k & L & H) P HL HZ. unfold field. cbv zeta. rewrite size_all, HZ.
  destruct ((0 <? w) && (size t <? w)) eqn:E.
  - rewrite (lacks_fill " " t w k L ltac:(lia)). destruct H as [[M ->]|[M ->]].
    + apply HL in M. rewrite M. reflexivity.
    + rewrite (flag_false _ _ HL M). reflexivity.
  - pose proof (size_pos t). rewrite (lacks_none t w k L ltac:(lia)) in H. cbn [repeat app] in H.
    rewrite app_nil_r in H. destruct H as [[_ ->]|[_ ->]]; reflexivity.
Qed.
Lemma field_zeros : forall f w prefix ds k, lacks (prefix ++ ds) w k -> 0 <= w -> left f = false -> zero f = true ->
  field f w (length prefix) (prefix ++ ds) (size (prefix ++ ds)) = prefix ++ repeat "0"%char k ++ ds.
Proof.
  intros f w prefix ds k L P HL HZ. unfold field. cbv zeta. rewrite size_all, HL, HZ.
  destruct ((0 <? w) && (size (prefix ++ ds) <? w)) eqn:E.
  - rewrite (lacks_fill "0" (prefix ++ ds) w k L ltac:(lia)). rewrite firstn_app, skipn_app, Nat.sub_diag, firstn_all, skipn_all.
    cbn [firstn skipn app]. rewrite app_nil_r. reflexivity.
  - pose proof (size_pos (prefix ++ ds)). rewrite (lacks_none _ w k L ltac:(lia)). reflexivity.
Qed.

Definition given (p : option Z) : Z := match p with Some p => p | None => 0 end.
Lemma zeros_are : forall slots p room ds k, 0 < p <= 60 -> 0 <= slots <= 2 -> 64 <= room -> lacks ds p k ->
  with_zeros slots p room ds = Val (repeat "0"%char k ++ ds).
Proof.
  intros slots p room ds k P S R L. unfold with_zeros. destruct ((0 <? p) && (size ds <? p)) eqn:E.
  - destruct (Z.leb_spec (slots + p + 1) room); [|lia]. rewrite (lacks_fill "0" ds p k L ltac:(lia)). reflexivity.
  - rewrite (lacks_none ds p k L ltac:(lia)). reflexivity.
Qed.
Lemma number_field : forall fs f w p prefix ds o slots room, number_in_field fs w p prefix ds o -> moderate p -> reads fs f ->
  0 <= w -> 0 <= slots <= 2 -> 64 <= room ->
  exists str, with_zeros slots (given p) room ds = Val str
    /\ field (settle f (given p)) w (length prefix) (prefix ++ str) (size (prefix ++ str)) = o.
Proof.
  intros fs f w p prefix ds o slots room H M (RA & RZ & RL & RS & RP) W SL R. destruct p as [p|]; cbn [number_in_field given] in *.
  - destruct H as (k & L & H). specialize (M p eq_refl). exists (repeat "0"%char k ++ ds). split; [exact (zeros_are slots p room ds k M SL R L)|].
    apply (field_spaces fs); auto. cbn [zero settle]. destruct (Z.ltb_spec 0 p); [|lia]. cbn. apply andb_false_r.
  - exists ds. split; [reflexivity|]. destruct H as [(Z & NL & k & L & ->)|(Z & H)].
    + apply field_zeros; [exact L|exact W|exact (flag_false _ _ RL NL)|]. cbn [zero settle]. rewrite (flag_false _ _ RL NL).
      apply RZ in Z. rewrite Z. reflexivity.
    + apply (field_spaces fs); auto. cbn [zero settle left]. destruct Z as [Z|Z].
      * rewrite (flag_false _ _ RZ Z). reflexivity.
      * apply RL in Z. rewrite Z. apply andb_false_r.
Qed.

(** ** Conversions *)

Section Convs.
  Variable N : JsonModel.numbers.
  Variable A : arith N.
  Variable F : float_format N.
  Notation jv := (JsonModel.jv N).
  Notation convert := (convert N A F).

  Lemma fmt_ld_shortest : forall z s, 0 <= z -> shortest decimal z s -> LogModel.fmt_ld z = s.
  Proof.
    intros z s P [H Z]. apply LogProofs.decimal_fmt; [exact P|]. destruct (MetProofs.numeral_value s z H) as (NE & DS & V).
    split; [exact NE|]. split; [exact DS|]. split; [exact V|]. intros L HD. specialize (Z HD). subst s. cbn in L. lia.
  Qed.
  Lemma fmt_ld_negative : forall z, z < 0 -> LogModel.fmt_ld z = "-"%char :: LogModel.fmt_ld (- z).
  Proof.
    intros z H. unfold LogModel.fmt_ld. destruct (Z.ltb_spec z 0); [|lia]. destruct (Z.ltb_spec (- z) 0); [lia|]. reflexivity.
  Qed.
  Lemma text_cast : forall v t, text_of N A v t -> json_cast_to_string N A v = Val t.
  Proof.
    intros v t [->|[(-> & ->)|[(d & -> & ->)|[(d & z & s & -> & L & P & H & ->)|(d & z & s & -> & L & P & H & ->)]]]]; try reflexivity.
    - cbn [json_cast_to_string]. unfold long. rewrite L. cbn [andthen]. rewrite (fmt_ld_shortest z s P H). reflexivity.
    - cbn [json_cast_to_string]. unfold long. rewrite L. cbn [andthen]. rewrite (fmt_ld_negative z P), (fmt_ld_shortest (- z) s ltac:(lia) H). reflexivity.
  Qed.

  Lemma string_field : forall fs f w t o, in_field fs w t o -> reads fs f -> 0 <= w < 2 ^ 32 - 1 -> size t < 2 ^ 32 - 1 ->
    (if w =? 0 then Val t
     else let w := if w <? size t then size t else w in
          if uint (w + 1) =? 0 then Undef else Val (if left f then t ++ fill " " (w - size t) else fill " " (w - size t) ++ t)) = Val o.
  Proof.
    intros fs f w t o (k & L & H) (_ & _ & RL & _ & _) W ST. pose proof (size_pos t). destruct (Z.eqb_spec w 0) as [->|NW].
    - rewrite (lacks_none t 0 k L ltac:(lia)) in H. cbn [repeat app] in H. rewrite app_nil_r in H.
      destruct H as [[_ ->]|[_ ->]]; reflexivity.
    - cbv zeta. assert (U : forall x, 0 < x < 2 ^ 32 -> (uint x =? 0) = false).
      { intros x X. unfold uint. rewrite Z.mod_small by lia. lia. }
      destruct (Z.ltb_spec w (size t)).
      + rewrite U by lia. rewrite Z.sub_diag. cbn [fill Z.to_nat repeat app]. rewrite (lacks_none t w k L ltac:(lia)) in H. cbn [repeat app] in H.
        unfold fill. cbn [Z.to_nat repeat]. rewrite app_nil_r in *. cbn [app]. destruct (left f); destruct H as [[_ ->]|[_ ->]]; reflexivity.
      + rewrite U by lia. rewrite (lacks_fill " " t w k L ltac:(lia)). destruct H as [[M ->]|[M ->]].
        * apply RL in M. rewrite M. reflexivity.
        * rewrite (flag_false _ _ RL M). reflexivity.
  Qed.

  Definition small_or_none (r : Z) : Prop := r = 0 \/ 64 <= r.
  Lemma room_small_big : forall r, small_or_none r -> 64 <= room_small r.
  Proof. intros r [->|H]; unfold room_small; [cbn; lia|]. destruct (Z.eqb_spec r 0); lia. Qed.
  Lemma room_for_big : forall fuel n r, small_or_none r -> small_or_none (room_for fuel n r).
  Proof.
    intros fuel. induction fuel as [|fuel IH]; intros n r H; [exact H|]. cbn [room_for]. destruct (r <=? n); [|exact H].
    apply IH. right. destruct (Z.eqb_spec r 0); [lia|]. destruct H as [H|H]; [lia|].
    assert (0 <= (r + 1) / 2) by (apply Z.div_pos; lia). lia.
  Qed.

  Lemma conv_s_none : forall fs f w t o, in_field fs w t o -> reads fs f -> 0 <= w < 2 ^ 32 - 1 -> fits t -> conv_s f w 0 t = Val o.
  Proof.
    intros fs f w t o H R W FT. unfold conv_s. cbn [Z.ltb Z.compare andb]. cbv zeta. rewrite size_all. exact (string_field fs f w t o H R W FT).
  Qed.
  Lemma conv_s_some : forall fs f w p t1 t2 o, in_field fs w t1 o -> reads fs f -> 0 <= w < 2 ^ 32 - 1 -> fits (t1 ++ t2) -> 0 < p ->
    (Z.of_nat (length t1) = p \/ (Z.of_nat (length t1) < p /\ t2 = [])) -> conv_s f w p (t1 ++ t2) = Val o.
  Proof.
    intros fs f w p t1 t2 o H R W FT P C. unfold fits in FT. rewrite app_length in FT. unfold conv_s.
    assert (E : (if (0 <? p) && (p <? size (t1 ++ t2)) then p else size (t1 ++ t2)) = size t1).
    { unfold size. rewrite app_length. destruct C as [C|[C ->]]; [|cbn [length]]; destruct (_ && _) eqn:E; lia. }
    rewrite E. cbv zeta. assert (T : firstn (Z.to_nat (size t1)) (t1 ++ t2) = t1).
    { unfold size. rewrite Nat2Z.id, firstn_app, Nat.sub_diag, firstn_all. cbn [firstn]. apply app_nil_r. }
    rewrite T. apply (string_field fs f w t1 o H R W). unfold size. lia.
  Qed.

  Lemma conv_d_is : forall fs f w p z prefix ds o room, - 2 ^ 63 < z -> moderate p -> signed fs z prefix ->
    shortest decimal (Z.abs z) ds -> number_in_field fs w p prefix ds o -> reads fs f -> 0 <= w -> 64 <= room ->
    conv_d f w (given p) room z = Val o.
  Proof.
    intros fs f w p z prefix ds o room LZ M SG SH NF R W RM. unfold conv_d. destruct (Z.eqb_spec z (- 2 ^ 63)); [lia|].
    destruct (in_base_all decimal _ _ (or_intror (or_introl eq_refl)) SH) as [E _]. unfold decimal in E. rewrite E.
    destruct (number_field fs f w p prefix ds o 1 room NF M R W ltac:(lia) RM) as (str & E1 & E2). rewrite E1. cbn [andthen]. cbv zeta.
    assert (P : (if sign (settle f (given p)) then [if z <? 0 then "-"%char else "+"%char]
                else if space (settle f (given p)) then [if z <? 0 then "-"%char else " "%char]
                else if z <? 0 then ["-"%char] else []) = prefix).
    { destruct R as (_ & _ & _ & RS & RP). cbn [sign space settle]. destruct SG as [(L & ->)|[(L & I & ->)|[(L & I & J & ->)|(L & I & J & ->)]]].
      - destruct (Z.ltb_spec z 0); [|lia]. destruct (sign f); [reflexivity|]. destruct (space f && negb false); reflexivity.
      - destruct (Z.ltb_spec z 0); [lia|]. apply RP in I. rewrite I. reflexivity.
      - destruct (Z.ltb_spec z 0); [lia|]. rewrite (flag_false _ _ RP I). apply RS in J. rewrite J. reflexivity.
      - destruct (Z.ltb_spec z 0); [lia|]. rewrite (flag_false _ _ RP I), (flag_false _ _ RS J). reflexivity. }
    rewrite P, E2. reflexivity.
  Qed.
  Lemma conv_u_is : forall fs f w p z ds o room, - 2 ^ 63 < z < 2 ^ 63 -> moderate p ->
    shortest decimal (if z <? 0 then 2 ^ 64 + z else z) ds -> number_in_field fs w p [] ds o -> reads fs f -> 0 <= w -> 64 <= room ->
    conv_u f w (given p) room z = Val o.
  Proof.
    intros fs f w p z ds o room LZ M SH NF R W RM. unfold conv_u.
    assert (U : ulong z = if z <? 0 then 2 ^ 64 + z else z).
    { unfold ulong. destruct (Z.ltb_spec z 0); [|apply Z.mod_small; lia]. symmetry. apply (Z.mod_unique _ _ (-1)); lia. }
    rewrite U. destruct (in_base_all decimal _ _ (or_intror (or_introl eq_refl)) SH) as [E _]. unfold decimal in E. rewrite E.
    destruct (number_field fs f w p [] ds o 0 room NF M R W ltac:(lia) RM) as (str & E1 & E2). rewrite E1. cbn [andthen].
    cbn [app length] in E2. rewrite E2. reflexivity.
  Qed.
  Lemma conv_x_is : forall fs f w p c z prefix ds o room, In c (lit "xX") -> 0 < z < 2 ^ 32 -> moderate p ->
    prefixed fs ["0"%char; c] prefix -> shortest (if beq c "x" then lower_hex else upper_hex) z ds ->
    number_in_field fs w p prefix ds o -> reads fs f -> 0 <= w -> 64 <= room -> conv_x c f w (given p) room z = Val o.
  Proof.
    intros fs f w p c z prefix ds o room IC LZ M PX SH NF R W RM. unfold conv_x. cbv zeta.
    assert (U : uint z = z) by (apply Z.mod_small; lia). rewrite U.
    assert (IA : In (if beq c "x" then lower_hex else upper_hex) alphabets) by (destruct (beq c "x"); cbn; tauto).
    destruct (in_base_all _ _ _ IA SH) as [E _]. unfold lower_hex, upper_hex in E. rewrite E.
    destruct (number_field fs f w p prefix ds o 2 room NF M R W ltac:(lia) RM) as (str & E1 & E2). rewrite E1. cbn [andthen].
    change (alt (settle f (given p))) with (alt f).
    destruct PX as [(I & ->)|(I & ->)].
    - apply (proj1 R) in I. rewrite I. cbn [app length] in E2. rewrite E2. reflexivity.
    - rewrite (flag_false _ _ (proj1 R) I). cbn [app length] in E2. rewrite E2. reflexivity.
  Qed.
  Lemma octal_first : forall z ds, 0 < z -> shortest octal z ds -> match ds with c :: _ => beq c "0" = false | [] => False end.
  Proof.
    intros z ds P [H Z]. destruct (numeral_positive octal ltac:(cbn; lia) ds z H) as [_ NE]. destruct ds as [|c ds]; [congruence|].
    destruct (beq c "0") eqn:E; [|reflexivity]. apply beq_eq in E. subst c. specialize (Z eq_refl). injection Z as ->.
    assert (Q : z = 0); [|lia]. inversion H as [c d D E1 E2|s v c d H1 D E1 E2].
    - subst. destruct D as [D1 D2]. destruct (Z.to_nat z) as [|n] eqn:EN; [lia|]. exfalso. clear - D2. do 7 (destruct n as [|n]; [discriminate D2|]).
      cbn in D2. destruct n; discriminate D2.
    - destruct s as [|a [|b s]]; [inversion H1 as [|s0 v0 c0 d0 H2 D2 E3]; destruct s0; discriminate|discriminate E1|discriminate E1].
  Qed.
  Lemma conv_o_is : forall fs f w z ds0 ds o room, 0 <= z < 2 ^ 63 -> shortest octal z ds0 ->
    ds = (if alt f && negb (match ds0 with c :: _ => beq c "0" | [] => false end) then "0"%char :: ds0 else ds0) ->
    number_in_field fs w None [] ds o -> reads fs f -> 0 <= w -> conv_o f w 0 room z = Val o.
  Proof.
    intros fs f w z ds0 ds o room LZ SH -> NF R W. unfold conv_o. cbv zeta.
    assert (U : ulong z = z) by (apply Z.mod_small; lia). rewrite U.
    destruct (in_base_all octal _ _ (or_introl eq_refl) SH) as [E _]. unfold octal in E. rewrite E.
    unfold with_zeros. cbn [Z.ltb Z.compare andb andthen]. change (alt (settle f 0)) with (alt f).
    destruct (number_field fs f w None [] _ o 0 64 NF ltac:(intros x X; discriminate X) R W ltac:(lia) ltac:(lia)) as (str & E1 & E2).
    cbn [given] in E1. unfold with_zeros in E1. cbn [Z.ltb Z.compare andb] in E1. injection E1 as <-. cbn [given app length] in E2.
    destruct (alt f && _).
    - assert (SZ : size ds0 + 1 = size ("0"%char :: ds0)) by (unfold size; cbn [length]; lia). rewrite SZ, E2. reflexivity.
    - rewrite E2. reflexivity.
  Qed.
  Lemma effective_settle : forall fs f g p, reads fs g -> effective fs f -> (zero f = true -> p = None \/ p = Some 0) ->
    settle g (given p) = f.
  Proof.
    intros fs f g p (R1 & R2 & R3 & R4 & R5) (H1 & H2 & H3 & H4 & H5) Z.
    assert (Q : forall b1 b2 : bool, (b1 = true <-> b2 = true) -> b1 = b2) by (intros [|] [|]; intuition congruence).
    unfold settle. destruct f as [a z l sp sg]. cbn [alt zero left space sign] in *. f_equal; apply Q.
    - tauto.
    - rewrite H2, andb_true_iff, negb_true_iff, orb_false_iff, R2. split.
      + intros (Z0 & _ & L). split; [exact Z0|]. intros I. apply R3 in I. congruence.
      + intros (Z0 & L). split; [exact Z0|]. split; [|exact (flag_false _ _ R3 L)].
        destruct (Z (proj2 H2 (conj Z0 L))) as [->| ->]; reflexivity.
    - tauto.
    - rewrite H4, andb_true_iff, negb_true_iff, R4. split; intros [S0 S1]; (split; [exact S0|]).
      + intros I. apply R5 in I. congruence.
      + exact (flag_false _ _ R5 S1).
    - tauto.
  Qed.

  Definition given_any (p : option Z) : bool := match p with Some _ => true | None => false end.
  Lemma arg_integer_is : forall args n v z, va_arg_n N args n = Val v -> has_integer N A v z -> arg_integer N A args n = Val z.
  Proof.
    intros args n v z E (d & HD & L & _). unfold arg_integer. rewrite E. cbn [andthen].
    destruct HD as [->| ->]; unfold long; rewrite L; reflexivity.
  Qed.

  Lemma convert_ok : forall fs w p c v o args r s, converts N A F fs w p c v o -> reads fs (fl s) -> width s = w ->
    prec s = given p -> has_prec s = given_any p -> altpos s = false -> va_arg_n N args (next s) = Val v ->
    0 <= w < 2 ^ 32 - 1 -> small_or_none (room s) ->
    exists room', small_or_none room' /\ convert args c r s = Val (go Copy r (set_room room' (emit o (set_next (next s + 1) s)))).
  Proof.
    intros fs w p c v o args r s H R EW EP EH EA EV W RM. pose proof (room_small_big _ RM) as RB.
    unfold TfmModel.convert. rewrite EA. cbv zeta.
    change (fl (set_next (next s + 1) s)) with (fl s). change (width (set_next (next s + 1) s)) with (width s).
    change (prec (set_next (next s + 1) s)) with (prec s). change (room (set_next (next s + 1) s)) with (room s).
    change (has_prec (set_next (next s + 1) s)) with (has_prec s). rewrite EW, EP, EH.
    destruct H as [fs w v t o HT FT HF|fs w p v t t1 t2 o HT FT -> HP HL HF|fs w p c v z prefix ds o HC HI HM HS HD HF
                  |fs w p v z ds o HI HM HD HF|fs w p c v z prefix ds o HC HI HZ HM HX HD HF|fs w v z prefix ds o HI HZ HX HD HF
                  |fs w v o HI HF|fs w p c v d f HC HN HE HW HZ|fs w p v o HJ].
    - exists (room s). split; [exact RM|]. change (beq "s" "s") with true. cbv iota. unfold arg_string. rewrite EV. cbn [andthen].
      rewrite (text_cast v t HT). cbn [andthen given]. rewrite (conv_s_none fs _ w t o HF R W FT). reflexivity.
    - exists (room s). split; [exact RM|]. change (beq "s" "s") with true. cbv iota. unfold arg_string. rewrite EV. cbn [andthen].
      rewrite (text_cast v _ HT). cbn [andthen given]. rewrite (conv_s_some fs _ w p t1 t2 o HF R W FT HP HL). reflexivity.
    - exists (room_small (room s)). split; [right; exact RB|].
      assert (C : beq c "s" = false /\ beq c "i" || beq c "d" = true) by (destruct HC as [<-|[<-|[]]]; split; reflexivity).
      destruct C as [C1 C2]. rewrite C1, C2. rewrite (arg_integer_is _ _ v z EV HI). cbn [andthen]. destruct HI as (d & _ & _ & B).
      rewrite (conv_d_is fs _ w p z prefix ds o _ (proj1 B) HM HS HD HF R (proj1 W) RB). reflexivity.
    - exists (room_small (room s)). split; [right; exact RB|]. change (beq "u" "s") with false. change (beq "u" "i" || beq "u" "d") with false.
      change (beq "u" "u") with true. cbv iota. rewrite (arg_integer_is _ _ v z EV HI). cbn [andthen]. destruct HI as (d & _ & _ & B).
      rewrite (conv_u_is fs _ w p z ds o _ B HM HD HF R (proj1 W) RB). reflexivity.
    - exists (room_small (room s)). split; [right; exact RB|].
      assert (C : beq c "s" = false /\ beq c "i" || beq c "d" = false /\ beq c "u" = false /\ beq c "x" || beq c "X" = true)
        by (destruct HC as [<-|[<-|[]]]; repeat split; reflexivity).
      destruct C as (C1 & C2 & C3 & C4). rewrite C1, C2, C3, C4. rewrite (arg_integer_is _ _ v z EV HI). cbn [andthen].
      rewrite (conv_x_is fs _ w p c z prefix ds o _ HC HZ HM HX HD HF R (proj1 W) RB). reflexivity.
    - exists (room_small (room s)). split; [right; exact RB|].
      change (beq "o" "s") with false. change (beq "o" "i" || beq "o" "d") with false. change (beq "o" "u") with false.
      change (beq "o" "x" || beq "o" "X") with false. change (beq "o" "o") with true. cbv iota.
      rewrite (arg_integer_is _ _ v z EV HI). cbn [andthen given]. destruct HI as (d & _ & _ & B).
      rewrite (conv_o_is fs (fl s) w z ds (prefix ++ ds) o _ ltac:(lia) HD); [reflexivity| |exact HF|exact R|exact (proj1 W)].
      pose proof (octal_first z ds HZ HD) as O. destruct ds as [|c0 ds]; [destruct O|]. rewrite O. cbn [negb]. rewrite andb_true_r.
      destruct HX as [(I & ->)|(I & ->)].
      + apply (proj1 R) in I. rewrite I. reflexivity.
      + rewrite (flag_false _ _ (proj1 R) I). reflexivity.
    - exists (room_small (room s)). split; [right; exact RB|].
      change (beq "o" "s") with false. change (beq "o" "i" || beq "o" "d") with false. change (beq "o" "u") with false.
      change (beq "o" "x" || beq "o" "X") with false. change (beq "o" "o") with true. cbv iota.
      rewrite (arg_integer_is _ _ v 0 EV HI). cbn [andthen given].
      rewrite (conv_o_is fs (fl s) w 0 (lit "0") (lit "0") o _ ltac:(lia)); [reflexivity| | |exact HF|exact R|exact (proj1 W)].
      + split; [|intros _; reflexivity]. apply ClenSpec.num_one. split; [lia|reflexivity].
      + change (beq "0" "0") with true. cbn. rewrite andb_false_r. reflexivity.
    - set (o := F f w p c d). exists (room_for (S (length o)) (size o) (room s)). split; [apply room_for_big; exact RM|].
      assert (C : beq c "s" = false /\ beq c "i" || beq c "d" = false /\ beq c "u" = false /\ beq c "x" || beq c "X" = false
                  /\ beq c "o" = false /\ existsb (beq c) (lit "eEfFgG") = true)
        by (destruct HC as [<-|[<-|[<-|[<-|[<-|[<-|[]]]]]]]; repeat split; reflexivity).
      destruct C as (C1 & C2 & C3 & C4 & C5 & C6). rewrite C1, C2, C3, C4, C5, C6.
      assert (AN : arg_number N args (next s) = Val d).
      { unfold arg_number. rewrite EV. cbn [andthen]. destruct HN as [->| ->]; reflexivity. }
      rewrite AN. cbn [andthen].
      assert (CF : conv_f N F c (fl s) w (given p) (given_any p) d = o).
      { unfold conv_f, o. rewrite (effective_settle fs f (fl s) p R HE HZ). destruct p as [p|]; cbn [given_any given]; [reflexivity|].
        rewrite (HW eq_refl). reflexivity. }
      rewrite CF. reflexivity.
    - exists (room s). split; [exact RM|].
      change (beq "v" "s") with false. change (beq "v" "i" || beq "v" "d") with false. change (beq "v" "u") with false.
      change (beq "v" "x" || beq "v" "X") with false. change (beq "v" "o") with false. change (existsb (beq "v") (lit "eEfFgG")) with false.
      change (beq "v" "v") with true. cbv iota. rewrite EV. cbn [andthen].
      pose proof (json_format N v o HJ 0%nat) as E. rewrite E. reflexivity.
  Qed.
End Convs.
