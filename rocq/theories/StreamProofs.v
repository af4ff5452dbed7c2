From Coq Require Import Ascii String List ZArith Lia Bool.
From Coq Require Import ZifyBool ZifyNat ZifyN.
From Verif Require Import Bytes ClenModel ClenSpec ClenProofs StreamModel StreamSpec.
Import ListNotations.
Open Scope Z_scope.

Lemma text_model : forall c,
  text_byte c <-> negb (is_cntrl c) || beq c TAB = true.
Proof.
  intros c. unfold text_byte, is_cntrl.
  rewrite orb_true_iff, beq_eq, negb_true_iff. unfold TAB.
  split.
  - intros [H|H]; [right; exact H|left; lia].
  - intros [H|H]; [right; lia|left; exact H].
Qed.

Lemma text_byte_neq : forall c, text_byte c -> c <> NUL /\ c <> CR /\ c <> LF.
Proof.
  intros c H. repeat split; intros ->; destruct H as [H|H];
    try discriminate; vm_compute in H; destruct H as [H _]; apply H; reflexivity.
Qed.

Lemma cstr_of_text : forall l r, text l -> cstr_of (l ++ NUL :: r) = l.
Proof.
  intros l r H. induction H as [|c l Hc H IH]; simpl; [reflexivity|].
  destruct (text_byte_neq c Hc) as [Hn _]. apply beq_neq in Hn. rewrite Hn, IH.
  reflexivity.
Qed.

Lemma cstr_of_text_all : forall l, text l -> cstr_of l = l.
Proof.
  intros l H. induction H as [|c l Hc H IH]; simpl; [reflexivity|].
  destruct (text_byte_neq c Hc) as [Hn _]. apply beq_neq in Hn. rewrite Hn, IH.
  reflexivity.
Qed.

Lemma drain_bytes : forall bs, drain_eol (map RByte bs) = map RByte (after_first_LF bs).
Proof.
  induction bs as [|c bs IH]; simpl; [reflexivity|].
  unfold beq, LF. destruct (Ascii.eqb c "010"%char); [reflexivity|exact IH].
Qed.

Lemma after_first_LF_text : forall l s, text l -> after_first_LF (l ++ s) = after_first_LF s.
Proof.
  intros l s H. induction H as [|c l Hc H IH]; simpl; [reflexivity|].
  destruct (text_byte_neq c Hc) as [_ [_ Hn]]. apply beq_neq in Hn.
  unfold beq, LF in Hn. rewrite Hn. exact IH.
Qed.

Definition outcome_ok (size : Z) (s : bytes) (st : copy_status) (line rest : bytes) : Prop :=
  rest = after_first_LF s /\
  match st with
  | COPY_OK => line_ok size s line rest
  | COPY_EOF => s = []
  | COPY_TOO_LONG => line_too_long size s
  | COPY_BAD_DATA => line_bad size s
  | _ => False
  end.

Lemma text_snoc : forall l c, text l -> text_byte c -> text (l ++ [c]).
Proof. intros l c H Hc. apply Forall_app. split; [exact H|]. constructor; auto. Qed.

Lemma get_line_loop_sound : forall bs size i l,
  i = Z.of_nat (length l) -> text l -> i <= size - 1 ->
  exists st cells rest,
    get_line_loop size i false (rev l) (map RByte bs) = (st, cells, map RByte rest) /\
    outcome_ok size (l ++ bs) st (cstr_of cells) rest.
Proof.
  induction bs as [|c bs IH]; intros size i l Hi Hl Hle; cbn [map get_line_loop].
  - destruct (i <? size - 1) eqn:Elt.
    + destruct (i =? 0) eqn:E0; eexists; eexists; exists []; (split; [reflexivity|]);
        rewrite rev_involutive, app_nil_r; (split; [|]).
      * rewrite <- (app_nil_r l). now rewrite after_first_LF_text.
      * destruct l; [reflexivity|simpl in Hi; lia].
      * rewrite <- (app_nil_r l). now rewrite after_first_LF_text.
      * rewrite cstr_of_text_all by exact Hl. apply line_at_eof; [exact Hl| |lia].
        destruct l; [simpl in Hi; lia|discriminate].
    + eexists; eexists; exists []; split; [reflexivity|]. split.
      * now rewrite after_first_LF_text.
      * exists l, []. rewrite app_nil_r. repeat split; [lia|]. left. exact Hl.
  - destruct (i <? size - 1) eqn:Elt.
    2:{ change (RByte c :: map RByte bs) with (map RByte (c :: bs)). rewrite drain_bytes.
        eexists; eexists; eexists; split; [reflexivity|]. split.
        - now rewrite after_first_LF_text.
        - exists l, (c :: bs). repeat split; [lia|]. left. exact Hl. }
    destruct (negb (is_cntrl c) || beq c TAB) eqn:Et.
    + apply text_model in Et.
      destruct (IH size (i + 1) (l ++ [c])) as [st [cells [rest [H1 H2]]]].
      { rewrite app_length. simpl. lia. }
      { now apply text_snoc. }
      { lia. }
      rewrite rev_app_distr in H1. simpl in H1. rewrite <- app_assoc in H2. simpl in H2.
      exists st, cells, rest. auto.
    + assert (Hnt : ~ text_byte c) by (intro H; apply text_model in H; congruence).
      destruct (beq c CR) eqn:Ecr.
      * (* CR seen *)
        apply beq_eq in Ecr. subst c. clear IH.
        destruct bs as [|d bs]; cbn [map get_line_loop].
        -- destruct (i + 1 <? size - 1) eqn:E1.
           ++ destruct (i + 1 =? 0) eqn:E2; [lia|].
              eexists; eexists; exists []. split; [reflexivity|].
              split; [now rewrite after_first_LF_text|].
              cbn [rev]. rewrite rev_involutive.
              rewrite cstr_of_text by exact Hl.
              apply line_at_eof_cr; [exact Hl|lia].
           ++ eexists; eexists; exists []. split; [reflexivity|].
              split; [now rewrite after_first_LF_text|].
              exists (l ++ [CR]), []. rewrite app_nil_r. repeat split.
              ** rewrite app_length; simpl; lia.
              ** right. exists l. auto.
        -- destruct (i + 1 <? size - 1) eqn:E1.
           ++ destruct (beq d LF) eqn:Ed; cbn [negb].
              ** apply beq_eq in Ed. subst d.
                 eexists; eexists; eexists. split; [reflexivity|].
                 split; [now rewrite after_first_LF_text|].
                 cbn [rev]. rewrite rev_involutive, cstr_of_text by exact Hl.
                 change (l ++ CR :: LF :: bs) with (l ++ [CR; LF] ++ bs).
                 apply line_terminated; [exact Hl|right; reflexivity|simpl; lia].
              ** rewrite drain_bytes.
                 eexists; eexists; eexists. split; [reflexivity|].
                 apply beq_neq in Ed.
                 split.
                 --- rewrite after_first_LF_text by exact Hl. simpl.
                     apply beq_neq in Ed. unfold beq, LF in Ed. rewrite Ed. reflexivity.
                 --- apply bad_cr; [exact Hl|exact Ed|lia].
           ++ change (RByte d :: map RByte bs) with (map RByte (d :: bs)).
              rewrite drain_bytes.
              eexists; eexists; eexists. split; [reflexivity|].
              split; [now rewrite after_first_LF_text|].
              exists (l ++ [CR]), (d :: bs). repeat split.
              ** rewrite <- app_assoc. reflexivity.
              ** rewrite app_length; simpl; lia.
              ** right. exists l. auto.
      * destruct (beq c LF) eqn:Elf.
        -- apply beq_eq in Elf. subst c.
           eexists; eexists; eexists. split; [reflexivity|].
           split; [now rewrite after_first_LF_text|].
           rewrite rev_involutive, cstr_of_text_all by exact Hl.
           change (l ++ LF :: bs) with (l ++ [LF] ++ bs).
           apply line_terminated; [exact Hl|left; reflexivity|simpl; lia].
        -- rewrite drain_bytes.
           eexists; eexists; eexists. split; [reflexivity|].
           apply beq_neq in Ecr. apply beq_neq in Elf.
           split.
           ++ rewrite after_first_LF_text by exact Hl. simpl.
              apply beq_neq in Elf. unfold beq, LF in Elf. rewrite Elf. reflexivity.
           ++ apply bad_control; auto. lia.
Qed.

Lemma get_line_sound : forall size bs, 1 <= size ->
  exists st line rest,
    get_line size (map RByte bs) = (st, line, map RByte rest) /\
    outcome_ok size bs st line rest.
Proof.
  intros size bs Hs. unfold get_line.
  destruct (get_line_loop_sound bs size 0 []) as [st [cells [rest [H1 H2]]]];
    [reflexivity|constructor|lia|].
  simpl in H1. rewrite H1. exists st, (cstr_of cells), rest. auto.
Qed.

(** The four outcomes exclude each other, so the status is determined by the
    specification. *)

Lemma text_prefix_inv : forall l x r l' y r',
  text l -> text l' -> ~ text_byte x -> ~ text_byte y ->
  l ++ x :: r = l' ++ y :: r' -> l = l' /\ x = y /\ r = r'.
Proof.
  induction l as [|a l IH]; intros x r l' y r' Hl Hl' Hx Hy H.
  - destruct l' as [|b l']; simpl in H.
    + injection H as -> ->. auto.
    + injection H as -> _. inversion Hl'; subst. contradiction.
  - destruct l' as [|b l']; simpl in H.
    + injection H as -> _. inversion Hl; subst. contradiction.
    + injection H as -> H. inversion Hl; subst. inversion Hl'; subst.
      destruct (IH x r l' y r' H3 H5 Hx Hy H) as [-> [-> ->]]. auto.
Qed.

Lemma not_text_CR : ~ text_byte CR.
Proof. intros H. apply text_byte_neq in H. destruct H as [_ [H _]]. congruence. Qed.
Lemma not_text_LF : ~ text_byte LF.
Proof. intros H. apply text_byte_neq in H. destruct H as [_ [_ H]]. congruence. Qed.

Lemma get_line_loop_text : forall l size i acc src,
  text l -> i + Z.of_nat (length l) <= size - 1 ->
  get_line_loop size i false acc (map RByte l ++ src) =
  get_line_loop size (i + Z.of_nat (length l)) false (rev l ++ acc) src.
Proof.
  induction l as [|c l IH]; intros size i acc src Hl Hle.
  - simpl. replace (i + 0) with i by lia. reflexivity.
  - inversion Hl; subst. cbn [map app get_line_loop].
    cbn [length] in Hle.
    destruct (i <? size - 1) eqn:E; [|lia].
    assert (Ht : negb (is_cntrl c) || beq c TAB = true) by (now apply text_model).
    rewrite Ht. rewrite IH by (auto; lia). simpl. rewrite <- app_assoc. simpl.
    f_equal. lia.
Qed.

Lemma get_line_complete_ev : forall size l e src,
  text l -> eol e -> Z.of_nat (length l + length e) < size ->
  get_line size (map RByte (l ++ e) ++ src) = (COPY_OK, l, src).
Proof.
  intros size l e src Hl He Hlen. unfold get_line.
  rewrite map_app, <- app_assoc.
  destruct He as [-> | ->]; cbn [length] in Hlen.
  - rewrite get_line_loop_text by (auto; lia). cbn [map app get_line_loop].
    destruct (0 + Z.of_nat (length l) <? size - 1) eqn:E; [|lia].
    simpl. rewrite app_nil_r, rev_involutive, cstr_of_text_all by exact Hl. reflexivity.
  - rewrite get_line_loop_text by (auto; lia). cbn [map app get_line_loop].
    destruct (0 + Z.of_nat (length l) <? size - 1) eqn:E; [|lia].
    destruct (0 + Z.of_nat (length l) + 1 <? size - 1) eqn:E1; [|lia].
    simpl. rewrite app_nil_r, rev_involutive, cstr_of_text by exact Hl. reflexivity.
Qed.

Lemma get_line_complete : forall size s l rest,
  line_ok size s l rest ->
  get_line size (map RByte s) = (COPY_OK, l, map RByte rest).
Proof.
  intros size s l rest H. destruct H as [l e rest Hl He Hlen|l Hl Hne Hlen|l Hl Hlen].
  - rewrite app_assoc, map_app. now apply get_line_complete_ev.
  - unfold get_line. rewrite <- (app_nil_r (map RByte l)).
    rewrite get_line_loop_text by (auto; lia). cbn [get_line_loop].
    destruct (0 + Z.of_nat (length l) <? size - 1) eqn:E; [|lia].
    destruct (0 + Z.of_nat (length l) =? 0) eqn:E0.
    { destruct l; [congruence|simpl in E0; lia]. }
    rewrite app_nil_r, rev_involutive, cstr_of_text_all by exact Hl. reflexivity.
  - unfold get_line. rewrite map_app, get_line_loop_text by (auto; lia).
    cbn [map get_line_loop].
    destruct (0 + Z.of_nat (length l) <? size - 1) eqn:E; [|lia].
    destruct (0 + Z.of_nat (length l) + 1 <? size - 1) eqn:E1; [|lia].
    simpl. match goal with |- context [?a =? 0] => destruct (a =? 0) eqn:E0; [lia|] end.
    rewrite app_nil_r. rewrite rev_involutive, cstr_of_text by exact Hl. reflexivity.
Qed.

Lemma line_ok_fun : forall size s l1 r1 l2 r2,
  line_ok size s l1 r1 -> line_ok size s l2 r2 -> l1 = l2 /\ r1 = r2.
Proof.
  intros size s l1 r1 l2 r2 H1 H2.
  apply get_line_complete in H1. apply get_line_complete in H2.
  rewrite H1 in H2. injection H2 as H H'. split; [exact H|].
  clear -H'. revert r2 H'. induction r1 as [|a r1 IH]; destruct r2; simpl; intros H;
    try discriminate; [reflexivity|]. injection H as -> H. f_equal. auto.
Qed.

Lemma get_line_ok_iff : forall size bs l rest, 1 <= size ->
  (get_line size (map RByte bs) = (COPY_OK, l, map RByte rest) <-> line_ok size bs l rest).
Proof.
  intros size bs l rest Hs. split; [|apply get_line_complete].
  intros H. destruct (get_line_sound size bs Hs) as [st [l' [r' [H1 H2]]]].
  rewrite H1 in H. injection H as -> -> Hr.
  assert (r' = rest).
  { clear -Hr. revert rest Hr. induction r' as [|a r1 IH]; destruct rest; simpl; intros H;
      try discriminate; [reflexivity|]. injection H as -> H. f_equal. auto. }
  subst r'. exact (proj2 H2).
Qed.

(** *** Block copies *)

Definition all_ok (w : list bool) : Prop := Forall (fun b => b = true) w.

Lemma bio_write_ok : forall data st, all_ok (c_wr st) ->
  exists w, all_ok w /\ bio_write data st =
    (true, mkC (c_src st) (c_plan st) w (c_out st ++ data) (c_cnt st)).
Proof.
  intros data st H. unfold bio_write. destruct (c_wr st) as [|[] w] eqn:E.
  - exists []. split; [constructor|reflexivity].
  - exists w. inversion H; subst. split; [assumption|reflexivity].
  - inversion H; subst. discriminate.
Qed.

Lemma take_bytes_app : forall n bs src,
  (n <= length bs)%nat ->
  take_bytes n (map RByte bs ++ src) = (firstn n bs, map RByte (skipn n bs) ++ src).
Proof.
  induction n as [|n IH]; intros bs src H.
  - simpl. destruct (map RByte bs ++ src); reflexivity.
  - destruct bs as [|c bs]; [simpl in H; lia|]. simpl.
    rewrite IH by (simpl in H; lia). reflexivity.
Qed.

Definition emit (no_write : bool) (out data : bytes) : bytes :=
  if no_write then out else out ++ data.

Lemma emit_app : forall nw o a b, emit nw (emit nw o a) b = emit nw o (a ++ b).
Proof. intros [] o a b; simpl; [reflexivity|]. now rewrite app_assoc. Qed.

Lemma emit_nil : forall nw o, emit nw o [] = o.
Proof. intros [] o; simpl; [reflexivity|]. apply app_nil_r. Qed.

Lemma copy_bin_loop_ok : forall fuel nw data src plan w out cnt,
  all_ok w ->
  (length plan + length data < fuel)%nat ->
  exists plan' w',
    all_ok w' /\ (length plan' <= length plan)%nat /\
    copy_bin_loop fuel (Z.of_nat (length data)) nw (mkC (map RByte data ++ src) plan w out cnt)
    = Some (COPY_OK, mkC src plan' w' (emit nw out data) (cnt + Z.of_nat (length data))).
Proof.
  induction fuel as [|fuel IH]; intros nw data src plan w out cnt Hw Hf; [lia|].
  cbn [copy_bin_loop].
  destruct (0 <? Z.of_nat (length data)) eqn:Epos.
  2:{ destruct data as [|c data]; [|simpl in Epos; lia]. simpl.
      destruct nw; simpl.
      - exists plan, w. split; [exact Hw|]. split; [lia|]. do 3 f_equal. lia.
      - destruct (bio_write_ok [] (mkC src plan w out cnt) Hw) as [w' [Hw' E]].
        rewrite E. exists plan, w'. split; [exact Hw'|]. split; [lia|].
        simpl. do 3 f_equal. lia. }
  remember (Z.of_nat (length data)) as cont eqn:Hcont.
  set (req := if MAXBUF <? cont then MAXBUF else cont).
  assert (Hreq : 1 <= req <= cont).
  { unfold req, MAXBUF. destruct (4096 <? cont) eqn:E; lia. }
  assert (Step : forall lim p, 1 <= lim <= cont -> (length p <= length plan)%nat ->
    (length p + length data <= fuel)%nat ->
    exists plan' w', all_ok w' /\ (length plan' <= length plan)%nat /\
     match map RByte data ++ src with
     | [] => Some (COPY_EOF, mkC [] p w out cnt)
     | RErr :: s => Some (COPY_READ_ERR, mkC s p w out cnt)
     | RRetry :: s => copy_bin_loop fuel cont nw (mkC s p w out cnt)
     | RByte _ :: _ =>
        let '(buf, s) := take_bytes (Z.to_nat lim) (map RByte data ++ src) in
        let res := Z.of_nat (length buf) in
        let st1 := mkC s p w out cnt in
        let '(ok, st2) := if nw then (true, st1) else bio_write buf st1 in
        if ok then
          copy_bin_loop fuel (cont - res) nw
            (mkC (c_src st2) (c_plan st2) (c_wr st2) (c_out st2) (c_cnt st2 + res))
        else Some (COPY_WRITE_ERR, st2)
     end = Some (COPY_OK, mkC src plan' w' (emit nw out data) (cnt + cont))).
  { intros lim p Hlim Hp Hfp.
    assert (Hn : (Z.to_nat lim <= length data)%nat) by lia.
    assert (Hhd : exists c0 tl, map RByte data ++ src = RByte c0 :: tl).
    { destruct data as [|c0 data0]; [simpl in *; lia|]. simpl. eauto. }
    destruct Hhd as [c0 [tl Hhd]]. rewrite Hhd. cbv iota. rewrite <- Hhd.
    rewrite take_bytes_app by exact Hn.
    set (n := Z.to_nat lim) in *.
    assert (Hl1 : length (firstn n data) = n) by (apply firstn_length_le; exact Hn).
    assert (Hl2 : length (skipn n data) = (length data - n)%nat) by apply skipn_length.
    rewrite Hl1.
    assert (Hw2 : exists w2, all_ok w2 /\
      (if nw then (true, mkC (map RByte (skipn n data) ++ src) p w out cnt)
       else bio_write (firstn n data) (mkC (map RByte (skipn n data) ++ src) p w out cnt))
      = (true, mkC (map RByte (skipn n data) ++ src) p w2 (emit nw out (firstn n data)) cnt)).
    { destruct nw.
      - exists w. split; [exact Hw|reflexivity].
      - destruct (bio_write_ok (firstn n data) (mkC (map RByte (skipn n data) ++ src) p w out cnt) Hw)
          as [w2 [Hw2 E]]. exists w2. split; [exact Hw2|exact E]. }
    destruct Hw2 as [w2 [Hw2 E]]. cbv zeta. rewrite E. cbn [c_src c_plan c_wr c_out c_cnt].
    replace (cont - Z.of_nat n) with (Z.of_nat (length (skipn n data))) by lia.
    destruct (IH nw (skipn n data) src p w2 (emit nw out (firstn n data)) (cnt + Z.of_nat n) Hw2)
      as [p' [w' [Hw' [Hp' E']]]].
    { lia. }
    exists p', w'. split; [exact Hw'|]. split; [lia|]. rewrite E'.
    rewrite emit_app, firstn_skipn. do 3 f_equal. lia. }
  cbn [c_plan c_src c_wr c_out c_cnt].
  destruct plan as [|[k|] plan].
  - apply (Step req []); [lia|simpl; lia|simpl in *; lia].
  - destruct (Step (Z.min req (Z.max 1 (Z.of_nat k))) plan) as [p' [w' [H1 [H2 H3]]]];
      [lia|simpl; lia|simpl in Hf; lia|].
    exists p', w'. split; [exact H1|]. split; [exact H2|]. exact H3.
  - destruct (IH nw data src plan w out cnt Hw) as [p' [w' [H1 [H2 H3]]]]; [simpl in Hf; lia|].
    exists p', w'. split; [exact H1|]. split; [simpl; lia|]. rewrite Hcont. exact H3.
Qed.

Lemma copy_bin_ok : forall nw data src plan w out cnt,
  all_ok w ->
  exists plan' w',
    all_ok w' /\
    copy_bin (Z.of_nat (length data)) nw (mkC (map RByte data ++ src) plan w out cnt)
    = Some (COPY_OK, mkC src plan' w' (emit nw out data) (cnt + Z.of_nat (length data))).
Proof.
  intros nw data src plan w out cnt Hw. unfold copy_bin. cbn [c_plan c_src].
  destruct (copy_bin_loop_ok (S (length plan + length (map RByte data ++ src)))
              nw data src plan w out cnt Hw) as [p [w' [H1 [_ H2]]]].
  { rewrite app_length, map_length. lia. }
  exists p, w'. auto.
Qed.

(** General behaviour on byte-only sources: soundness. *)

Definition bsrc (st : cstate) (bs : bytes) : Prop := c_src st = map RByte bs.

Lemma take_bytes_bytes : forall n bs, exists k,
  (k <= n)%nat /\ (k <= length bs)%nat /\ (bs <> [] -> (0 < n)%nat -> (0 < k)%nat) /\
  take_bytes n (map RByte bs) = (firstn k bs, map RByte (skipn k bs)).
Proof.
  intros n bs. exists (Nat.min n (length bs)). repeat split; try lia.
  - intros Hne Hn. destruct bs; [congruence|]. simpl. lia.
  - revert bs. induction n as [|n IH]; intros bs.
    + simpl. destruct bs; reflexivity.
    + destruct bs as [|c bs]; simpl; [reflexivity|].
      rewrite IH. reflexivity.
Qed.

Lemma bio_write_src : forall data st ok st',
  bio_write data st = (ok, st') ->
  c_src st' = c_src st /\ c_plan st' = c_plan st /\ c_cnt st' = c_cnt st /\
  (ok = true -> c_out st' = c_out st ++ data) /\
  (ok = false -> c_out st' = c_out st).
Proof.
  intros data st ok st' H. unfold bio_write in H.
  destruct (c_wr st) as [|[] w]; injection H as <- <-; simpl; repeat split; congruence.
Qed.

(** Everything that a block copy can do on a byte-only source: it moves a
    prefix of the source of at most the requested length; on success exactly
    that length. *)
Lemma copy_bin_loop_sound : forall fuel nw cont st bs,
  0 <= cont -> bsrc st bs -> (length (c_plan st) + length bs < fuel)%nat ->
  exists res st' data rest,
    copy_bin_loop fuel cont nw st = Some (res, st') /\
    bs = data ++ rest /\ bsrc st' rest /\
    Z.of_nat (length data) <= cont /\
    (res = COPY_OK -> Z.of_nat (length data) = cont /\
        c_out st' = emit nw (c_out st) data /\
        c_cnt st' = c_cnt st + Z.of_nat (length data)) /\
    (exists n, c_out st' = emit nw (c_out st) (firstn n data)) /\
    c_cnt st <= c_cnt st' <= c_cnt st + Z.of_nat (length data).
Proof.
  induction fuel as [|fuel IH]; intros nw cont st bs Hc Hb Hf; [lia|].
  cbn [copy_bin_loop].
  destruct (0 <? cont) eqn:Epos.
  2:{ destruct nw.
      - exists COPY_OK, st, [], bs.
        assert (cont = 0) by lia. subst cont.
        repeat split; simpl; auto; try lia. exists 0%nat. reflexivity.
      - destruct (bio_write [] st) as [ok st'] eqn:E.
        apply bio_write_src in E. destruct E as [E1 [E2 [E3 [E4 E5]]]].
        exists (if ok then COPY_OK else COPY_WRITE_ERR), st', [], bs.
        assert (cont = 0) by lia. subst cont.
        repeat split; simpl; try lia.
        + unfold bsrc. congruence.
        + destruct ok; [|discriminate]. rewrite E4 by reflexivity. reflexivity.
        + exists 0%nat. simpl. rewrite app_nil_r. destruct ok; [rewrite E4 by reflexivity; apply app_nil_r|apply E5; reflexivity]. }
  set (req := if MAXBUF <? cont then MAXBUF else cont).
  assert (Hreq : 1 <= req <= cont).
  { unfold req, MAXBUF. destruct (4096 <? cont) eqn:E; lia. }
  assert (Step : forall lim p, 1 <= lim <= cont -> (length p + length bs <= fuel)%nat ->
    exists res st' data rest,
     match c_src st with
     | [] => Some (COPY_EOF, mkC [] p (c_wr st) (c_out st) (c_cnt st))
     | RErr :: s => Some (COPY_READ_ERR, mkC s p (c_wr st) (c_out st) (c_cnt st))
     | RRetry :: s => copy_bin_loop fuel cont nw (mkC s p (c_wr st) (c_out st) (c_cnt st))
     | RByte _ :: _ =>
        let '(buf, s) := take_bytes (Z.to_nat lim) (c_src st) in
        let res := Z.of_nat (length buf) in
        let st1 := mkC s p (c_wr st) (c_out st) (c_cnt st) in
        let '(ok, st2) := if nw then (true, st1) else bio_write buf st1 in
        if ok then
          copy_bin_loop fuel (cont - res) nw
            (mkC (c_src st2) (c_plan st2) (c_wr st2) (c_out st2) (c_cnt st2 + res))
        else Some (COPY_WRITE_ERR, st2)
     end = Some (res, st') /\
    bs = data ++ rest /\ bsrc st' rest /\
    Z.of_nat (length data) <= cont /\
    (res = COPY_OK -> Z.of_nat (length data) = cont /\
        c_out st' = emit nw (c_out st) data /\
        c_cnt st' = c_cnt st + Z.of_nat (length data)) /\
    (exists n, c_out st' = emit nw (c_out st) (firstn n data)) /\
    c_cnt st <= c_cnt st' <= c_cnt st + Z.of_nat (length data)).
  { intros lim p Hlim Hp. unfold bsrc in Hb. rewrite Hb.
    destruct bs as [|c0 bs0] eqn:Ebs.
    - simpl. exists COPY_EOF. eexists. exists [], [].
      split; [reflexivity|]. repeat split; try discriminate; simpl; try lia.
      exists 0%nat. simpl. now rewrite emit_nil.
    - cbn [map]. change (RByte c0 :: map RByte bs0) with (map RByte (c0 :: bs0)).
      rewrite <- Ebs in *.
      destruct (take_bytes_bytes (Z.to_nat lim) bs) as [k [Hk1 [Hk2 [Hk3 E]]]].
      rewrite E. cbv zeta.
      assert (Hk : (0 < k)%nat) by (apply Hk3; [congruence|lia]).
      assert (Hl1 : length (firstn k bs) = k) by (apply firstn_length_le; exact Hk2).
      rewrite Hl1.
      set (st1 := mkC (map RByte (skipn k bs)) p (c_wr st) (c_out st) (c_cnt st)).
      assert (Hwr : exists ok st2, (if nw then (true, st1) else bio_write (firstn k bs) st1) = (ok, st2)
        /\ c_src st2 = map RByte (skipn k bs) /\ c_plan st2 = p /\ c_cnt st2 = c_cnt st
        /\ (ok = true -> c_out st2 = emit nw (c_out st) (firstn k bs))
        /\ (ok = false -> c_out st2 = c_out st)).
      { destruct nw.
        - exists true, st1. repeat split; auto; try discriminate.
        - destruct (bio_write (firstn k bs) st1) as [ok st2] eqn:Ew.
          apply bio_write_src in Ew. destruct Ew as [E1 [E2 [E3 [E4 E5]]]].
          exists ok, st2. subst st1. simpl in *. repeat split; auto. }
      destruct Hwr as [ok [st2 [Ew [Es [Ep [Ec [Eo1 Eo2]]]]]]]. rewrite Ew.
      destruct ok.
      + destruct (IH nw (cont - Z.of_nat k)
           (mkC (c_src st2) (c_plan st2) (c_wr st2) (c_out st2) (c_cnt st2 + Z.of_nat k))
           (skipn k bs)) as [res [st' [data [rest [H1 [H2 [H3 [H4 [H5 [H6 H7]]]]]]]]]].
        { lia. } { unfold bsrc. simpl. exact Es. } { simpl. rewrite Ep, skipn_length. lia. }
        exists res, st', (firstn k bs ++ data), rest.
        split; [exact H1|]. simpl in *.
        split; [rewrite <- app_assoc, <- H2; symmetry; apply firstn_skipn|].
        split; [exact H3|].
        rewrite app_length, Hl1.
        split; [lia|].
        split.
        { intros Hr. destruct (H5 Hr) as [K1 [K2 K3]]. repeat split; [lia| |lia].
          rewrite K2, Eo1 by reflexivity. apply emit_app. }
        split.
        { destruct H6 as [n Hn]. exists (k + n)%nat.
          rewrite Hn, Eo1 by reflexivity. rewrite emit_app. f_equal.
          rewrite firstn_app, Hl1. replace (k + n - k)%nat with n by lia. f_equal.
          symmetry. rewrite firstn_all2; [reflexivity|]. rewrite Hl1. lia. }
        lia.
      + exists COPY_WRITE_ERR, st2, (firstn k bs), (skipn k bs).
        split; [reflexivity|]. rewrite Hl1.
        split; [symmetry; apply firstn_skipn|].
        split; [exact Es|]. split; [lia|]. split; [discriminate|].
        split; [exists 0%nat; rewrite emit_nil; apply Eo2; reflexivity|lia]. }
  destruct (c_plan st) as [|[k|] plan] eqn:Eplan.
  - apply Step; [lia|simpl in *; lia].
  - apply Step; [lia|simpl in *; lia].
  - destruct (IH nw cont (mkC (c_src st) plan (c_wr st) (c_out st) (c_cnt st)) bs Hc) as
      [res [st' [data [rest H]]]].
    + exact Hb.
    + simpl in *. lia.
    + exists res, st', data, rest. exact H.
Qed.

Lemma copy_bin_sound : forall nw cont st bs,
  0 <= cont -> bsrc st bs ->
  exists res st' data rest,
    copy_bin cont nw st = Some (res, st') /\
    bs = data ++ rest /\ bsrc st' rest /\
    Z.of_nat (length data) <= cont /\
    (res = COPY_OK -> Z.of_nat (length data) = cont /\
        c_out st' = emit nw (c_out st) data /\
        c_cnt st' = c_cnt st + Z.of_nat (length data)) /\
    (exists n, c_out st' = emit nw (c_out st) (firstn n data)) /\
    c_cnt st <= c_cnt st' <= c_cnt st + Z.of_nat (length data).
Proof.
  intros nw cont st bs Hc Hb. unfold copy_bin. apply copy_bin_loop_sound; auto.
  unfold bsrc in Hb. rewrite Hb, map_length. lia.
Qed.

Lemma put_line_spec : forall nw line st ok st',
  put_line nw line st = (ok, st') ->
  c_src st' = c_src st /\ c_cnt st' = c_cnt st /\
  (ok = true -> c_out st' = emit nw (c_out st) (line ++ CRLF)).
Proof.
  intros nw line st ok st' H. unfold put_line in H. destruct nw.
  - injection H as <- <-. auto.
  - apply bio_write_src in H. destruct H as [H1 [H2 [H3 [H4 H5]]]]. auto.
Qed.

(** Lines delivered from byte-only sources, in a form convenient below. *)
Lemma get_line_cases : forall st bs,
  bsrc st bs ->
  exists res line rest,
    get_line MAXBUF (c_src st) = (res, line, map RByte rest) /\
    outcome_ok MAXBUF bs res line rest /\ (length rest <= length bs)%nat /\
    (bs <> [] -> (length rest < length bs)%nat).
Proof.
  intros st bs Hb. unfold bsrc in Hb. rewrite Hb.
  destruct (get_line_sound MAXBUF bs) as [res [line [rest [H1 H2]]]]; [unfold MAXBUF; lia|].
  exists res, line, rest. split; [exact H1|]. split; [exact H2|].
  destruct H2 as [-> _].
  assert (H : forall s, (length (after_first_LF s) <= length s)%nat /\
     (s <> [] -> (length (after_first_LF s) < length s)%nat)).
  { induction s as [|c s [IH1 IH2]]; simpl; [split; [lia|congruence]|].
    destruct (Ascii.eqb c "010"); split; intros; lia. }
  apply H.
Qed.

Lemma line_ok_nonempty_input : forall size s l r, line_ok size s l r -> s <> [].
Proof.
  intros size s l r H. destruct H as [l e rest Hl He Hlen|l Hl Hne Hlen|l Hl Hlen].
  - destruct He as [-> | ->]; destruct l; discriminate.
  - exact Hne.
  - destruct l; discriminate.
Qed.

Lemma trailer_nonempty : forall lim t o r, trailer lim t o r -> t <> [].
Proof.
  intros lim t o r H. inversion H as [e rest He|Hx|l e t' o' rest Hl Hne He]; subst.
  - destruct He as [-> | ->]; discriminate.
  - discriminate.
  - destruct l; [congruence|discriminate].
Qed.

(** A line that ends at end of file leaves nothing to read. *)
Lemma line_ok_cases : forall size s l r,
  line_ok size s l r ->
  (exists e, s = l ++ e ++ r /\ text l /\ eol e /\ Z.of_nat (length l + length e) < size) \/ r = [].
Proof.
  intros size s l r H. destruct H as [l e rest Hl He Hlen|l Hl Hne Hlen|l Hl Hlen]; auto.
  left. exists e. auto.
Qed.

Lemma copy_trailers_sound : forall fuel nw st bs res st',
  bsrc st bs -> copy_trailers fuel nw st = (res, st') -> res = CR_OK ->
  exists o rest,
    trailer MAXBUF bs o rest /\ bsrc st' rest /\
    c_out st' = emit nw (c_out st) o /\ c_cnt st' = c_cnt st.
Proof.
  induction fuel as [|fuel IH]; intros nw st bs res st' Hb H Hres; simpl in H;
    [injection H as <- <-; discriminate|].
  destruct (get_line_cases st bs Hb) as [rs [line [rest [E [[Hrest Hout] Hlen]]]]].
  rewrite E in H.
  destruct rs; try (injection H as <- <-; discriminate).
  destruct (put_line nw line (set_src st (map RByte rest))) as [ok st1] eqn:Ep.
  apply put_line_spec in Ep. simpl in Ep. destruct Ep as [P1 [P2 P3]].
  destruct ok; [|injection H as <- <-; discriminate]. cbn [negb] in H.
  specialize (P3 eq_refl).
  destruct line as [|c line].
  - simpl in P3.
    assert (Htr : trailer MAXBUF bs CRLF rest).
    { inversion Hout as [l e r Hl He Hle Hbs|l Hl Hne Hle|l Hl Hle Hbs]; subst; simpl in *.
      - apply tr_end. exact He.
      - congruence.
      - apply tr_end_eof. }
    exists CRLF, rest. split; [exact Htr|].
    destruct nw.
    + injection H as <- <-. repeat split; auto.
    + destruct (bio_write [] st1) as [ok st2] eqn:Ew.
      apply bio_write_src in Ew. destruct Ew as [W1 [W2 [W3 [W4 W5]]]].
      destruct ok; [|injection H as <- <-; discriminate]. injection H as <- <-.
      specialize (W4 eq_refl). rewrite app_nil_r in W4. unfold bsrc.
      repeat split; congruence.
  - assert (Hb1 : bsrc st1 rest) by exact P1.
    destruct (IH nw st1 rest res st' Hb1 H Hres) as [o [rest' [Ht [Hr [Ho Hc]]]]].
    exists ((c :: line) ++ CRLF ++ o), rest'.
    split.
    + assert (Hrn : rest <> []) by (eapply trailer_nonempty; exact Ht).
      destruct (line_ok_cases _ _ _ _ Hout) as [[e [Hs [Hl [He Hle]]]]|?]; [|contradiction].
      rewrite Hs. apply tr_line; auto. discriminate.
    + split; [exact Hr|]. split; [|congruence].
      rewrite Ho, P3, emit_app, <- app_assoc. reflexivity.
Qed.

Lemma chunked_nonempty : forall lim junk s o p z r, chunked lim junk s o p z r -> s <> [].
Proof.
  intros lim junk s o p z r H. inversion H as [l e t o' rest Hl Hc He|l e n data j e' s' o' pay sizes rest Hl Hc Hn He]; subst.
  - destruct He as [-> | ->]; destruct l; discriminate.
  - destruct He as [-> | ->]; destruct l; discriminate.
Qed.

Lemma copy_chunks_loop_sound : forall fuel tot nw max st bs res st',
  bsrc st bs -> 0 <= tot ->
  copy_chunks_loop fuel false tot nw max st = (res, st') -> res = CR_OK ->
  exists o pay sizes rest,
    chunked MAXBUF lenient bs o pay sizes rest /\
    bsrc st' rest /\ c_out st' = emit nw (c_out st) o /\
    c_cnt st' = c_cnt st + Z.of_nat (length pay) /\
    tot + sum sizes <= CONTENT_LENGTH_MAX /\
    (0 < max -> tot + sum sizes <= max).
Proof.
  induction fuel as [|fuel IH]; intros tot nw max st bs res st' Hb Htot H Hres;
    cbn [copy_chunks_loop] in H; [injection H as <- <-; discriminate|].
  destruct (get_line_cases st bs Hb) as [rs [line [rest [E [[Hrest Hout] Hlen]]]]].
  rewrite E in H.
  destruct rs; try (injection H as <- <-; discriminate).
  cbv zeta in H.
  destruct (get_content_length line CL_CHUNK =? NO_CONTENT_LENGTH) eqn:En;
    [injection H as <- <-; discriminate|].
  set (n := get_content_length line CL_CHUNK) in *.
  assert (Hcs : chunk_size_line line n).
  { apply chunk_length_iff. split; [reflexivity|lia]. }
  pose proof (chunk_length_bounds line n eq_refl ltac:(lia)) as Hnb.
  destruct (put_line nw line (set_src st (map RByte rest))) as [ok st1] eqn:Ep.
  apply put_line_spec in Ep. simpl in Ep. destruct Ep as [P1 [P2 P3]].
  destruct ok; [|injection H as <- <-; discriminate]. cbn [negb] in H.
  specialize (P3 eq_refl).
  unfold add_size in H.
  destruct (tot + n <=? CONTENT_LENGTH_MAX) eqn:Eov; [|injection H as <- <-; discriminate].
  destruct ((0 <? max) && (max <? tot + n)) eqn:Emax; [injection H as <- <-; discriminate|].
  assert (Hline : exists e, bs = line ++ e ++ rest /\ text line /\ eol e /\
            Z.of_nat (length line + length e) < MAXBUF \/ rest = []).
  { destruct (line_ok_cases _ _ _ _ Hout) as [[e He]|He]; [exists e; auto|exists []; auto]. }
  destruct Hline as [e Hline].
  destruct (0 <? n) eqn:Epos.
  - destruct (copy_bin_sound nw n st1 rest) as [cr [st2 [data [rest2 [B1 [B2 [B3 [B4 [B5 [B6 B7]]]]]]]]]];
      [lia|exact P1|].
    rewrite B1 in H.
    destruct cr; try (injection H as <- <-; discriminate).
    destruct (B5 eq_refl) as [B51 [B52 B53]].
    destruct (get_line_cases st2 rest2 B3) as [rs2 [line2 [rest3 [E2 [[Hrest2 Hout2] Hlen2]]]]].
    rewrite E2 in H.
    destruct rs2; try (injection H as <- <-; discriminate).
    destruct (put_line nw line2 (set_src st2 (map RByte rest3))) as [ok3 st3] eqn:Ep3.
    apply put_line_spec in Ep3. simpl in Ep3. destruct Ep3 as [Q1 [Q2 Q3]].
    destruct ok3; [|injection H as <- <-; discriminate]. cbn [negb] in H.
    specialize (Q3 eq_refl).
    destruct (IH (tot + n) nw max st3 rest3 res st' Q1 ltac:(lia) H Hres)
      as [o [pay [sizes [rest4 [C1 [C2 [C3 [C4 [C5 C6]]]]]]]]].
    assert (Hr3 : rest3 <> []) by (eapply chunked_nonempty; exact C1).
    destruct (line_ok_cases _ _ _ _ Hout2) as [[e2 [Hs2 [Ht2 [He2 Hl2]]]]|?]; [|contradiction].
    assert (Hr1 : rest <> []).
    { rewrite B2. intro Hx. apply app_eq_nil in Hx. destruct Hx as [_ Hx]. subst rest2.
      destruct line2; [destruct He2 as [-> | ->]; discriminate|discriminate]. }
    destruct Hline as [[Hs1 [Ht1 [He1 Hl1]]]|?]; [|contradiction].
    exists (line ++ CRLF ++ data ++ line2 ++ CRLF ++ o), (data ++ pay), (n :: sizes), rest4.
    split.
    { rewrite Hs1, B2, Hs2. apply ck_chunk; auto; try lia. exact I. }
    split; [exact C2|].
    split.
    { rewrite C3, Q3, B52, P3, !emit_app, <- !app_assoc. reflexivity. }
    split; [rewrite C4, Q2, B53, P2, app_length; simpl; lia|].
    simpl. split; [lia|]. intros Hm. specialize (C6 Hm). lia.
  - assert (Hn0 : n = 0) by lia. rewrite Hn0 in *.
    destruct (copy_trailers_sound fuel nw st1 rest res st' P1 H Hres)
      as [o [rest2 [T1 [T2 [T3 T4]]]]].
    assert (Hr1 : rest <> []) by (eapply trailer_nonempty; exact T1).
    destruct Hline as [[Hs1 [Ht1 [He1 Hl1]]]|?]; [|contradiction].
    exists (line ++ CRLF ++ o), [], [], rest2.
    split; [rewrite Hs1; apply ck_last; auto|].
    split; [exact T2|].
    split; [rewrite T3, P3, emit_app, <- app_assoc; reflexivity|].
    split; [simpl; lia|]. simpl. split; [lia|]. intros Hm. lia.
Qed.

(** *** Completeness *)

Lemma put_line_ok : forall nw line st, all_ok (c_wr st) ->
  exists w, all_ok w /\ put_line nw line st =
    (true, mkC (c_src st) (c_plan st) w (emit nw (c_out st) (line ++ CRLF)) (c_cnt st)).
Proof.
  intros nw line st H. unfold put_line. destruct nw.
  - exists (c_wr st). destruct st; simpl in *. auto.
  - apply bio_write_ok. exact H.
Qed.

Lemma get_line_eof_cr : get_line MAXBUF (map RByte ["013"%char]) = (COPY_OK, [], []).
Proof. reflexivity. Qed.

Lemma flush_ok : forall (nw : bool) st, all_ok (c_wr st) ->
  exists w, all_ok w /\ (if nw then (true, st) else bio_write [] st) =
    (true, mkC (c_src st) (c_plan st) w (c_out st) (c_cnt st)).
Proof.
  intros nw st H. destruct nw.
  - exists (c_wr st). destruct st; simpl in *; auto.
  - destruct (bio_write_ok [] st H) as [w [H1 H2]]. exists w. split; [exact H1|].
    rewrite H2, app_nil_r. reflexivity.
Qed.

Lemma copy_trailers_complete : forall t o rest, trailer MAXBUF t o rest ->
  forall fuel nw plan w out cnt, all_ok w -> (length t < fuel)%nat ->
  exists w', all_ok w' /\
    copy_trailers fuel nw (mkC (map RByte t) plan w out cnt) =
    (CR_OK, mkC (map RByte rest) plan w' (emit nw out o) cnt).
Proof.
  intros t o rest H. induction H as [e rest He| |l e t o rest Hl Hne He Hlim H IH];
    intros fuel nw plan w out cnt Hw Hf; (destruct fuel as [|fuel]; [lia|]); cbn [copy_trailers c_src].
  - change (map RByte (e ++ rest)) with (map RByte ([] ++ e ++ rest)).
    rewrite (get_line_complete MAXBUF _ [] rest)
      by (apply line_terminated; [constructor|exact He|destruct He as [-> | ->]; simpl; unfold MAXBUF; lia]).
    destruct (put_line_ok nw [] (set_src (mkC (map RByte ([] ++ e ++ rest)) plan w out cnt) (map RByte rest)) Hw)
      as [w1 [Hw1 E1]]. rewrite E1. cbn [negb].
    match goal with |- context [mkC ?a ?b ?c ?d ?f] =>
      destruct (flush_ok nw (mkC a b c d f) Hw1) as [w2 [Hw2 E2]] end.
    rewrite E2. exists w2. auto.
  - rewrite get_line_eof_cr.
    destruct (put_line_ok nw [] (set_src (mkC (map RByte ["013"%char]) plan w out cnt) []) Hw)
      as [w1 [Hw1 E1]]. rewrite E1. cbn [negb].
    match goal with |- context [mkC ?a ?b ?c ?d ?f] =>
      destruct (flush_ok nw (mkC a b c d f) Hw1) as [w2 [Hw2 E2]] end.
    rewrite E2. exists w2. auto.
  - rewrite (get_line_complete MAXBUF _ l t) by (apply line_terminated; auto).
    destruct (put_line_ok nw l (set_src (mkC (map RByte (l ++ e ++ t)) plan w out cnt) (map RByte t)) Hw)
      as [w1 [Hw1 E1]]. rewrite E1. cbn [negb].
    destruct l as [|c l]; [congruence|].
    cbn [set_src c_src c_plan c_out c_cnt].
    destruct (IH fuel nw plan w1 (emit nw out ((c :: l) ++ CRLF)) cnt Hw1) as [w2 [Hw2 E2]].
    { rewrite !app_length in Hf. simpl in Hf. lia. }
    rewrite E2. exists w2. split; [exact Hw2|].
    rewrite emit_app, <- app_assoc. reflexivity.
Qed.

Lemma chunked_sum_nonneg : forall lim junk s o p z r, chunked lim junk s o p z r -> 0 <= sum z.
Proof.
  intros lim junk s o p z r H. induction H as [|l e n data j e' s o pay sizes rest Hl Hc Hn He Hll Hd Hj1 Hj2 He' Hl' H IH];
    simpl; lia.
Qed.

Lemma copy_chunks_loop_complete : forall s o pay sizes rest,
  chunked MAXBUF lenient s o pay sizes rest ->
  forall fuel tot nw max plan w out cnt wraps,
  all_ok w -> (length s < fuel)%nat -> 0 <= tot ->
  tot + sum sizes <= CONTENT_LENGTH_MAX -> (0 < max -> tot + sum sizes <= max) ->
  exists plan' w', all_ok w' /\
    copy_chunks_loop fuel wraps tot nw max (mkC (map RByte s) plan w out cnt) =
    (CR_OK, mkC (map RByte rest) plan' w' (emit nw out o) (cnt + Z.of_nat (length pay))).
Proof.
  intros s o pay sizes rest H.
  induction H as [l e t o rest Hl Hc He Hlim Ht
                 |l e n data j e' s o pay sizes rest Hl Hc Hn He Hll Hd Hj1 Hj2 He' Hl' H IH];
    intros fuel tot nw max plan w out cnt wraps Hw Hf Htot Hov Hmax;
    (destruct fuel as [|fuel]; [lia|]); cbn [copy_chunks_loop c_src].
  - rewrite (get_line_complete MAXBUF _ l t) by (apply line_terminated; auto).
    apply chunk_length_iff in Hc. destruct Hc as [Hc _]. rewrite Hc. cbv zeta.
    change (0 =? NO_CONTENT_LENGTH) with false. cbv iota.
    destruct (put_line_ok nw l (set_src (mkC (map RByte (l ++ e ++ t)) plan w out cnt) (map RByte t)) Hw)
      as [w1 [Hw1 E1]]. rewrite E1. cbn [negb].
    simpl sum in *. unfold add_size.
    destruct (tot + 0 <=? CONTENT_LENGTH_MAX) eqn:E; [|lia].
    destruct ((0 <? max) && (max <? tot + 0)) eqn:E2; [lia|].
    change (0 <? 0) with false. cbv iota. cbn [set_src c_src c_plan c_out c_cnt].
    destruct (copy_trailers_complete t o rest Ht fuel nw plan w1 (emit nw out (l ++ CRLF)) cnt Hw1)
      as [w2 [Hw2 E3]].
    { rewrite !app_length in Hf. destruct He as [-> | ->]; simpl in Hf; lia. }
    rewrite E3. exists plan, w2. split; [exact Hw2|].
    rewrite emit_app, <- app_assoc. do 2 f_equal. simpl. lia.
  - rewrite (get_line_complete MAXBUF _ l (data ++ j ++ e' ++ s)) by (apply line_terminated; auto).
    pose proof Hc as Hc'. apply chunk_length_iff in Hc. destruct Hc as [Hc Hc2]. rewrite Hc. cbv zeta.
    destruct (n =? NO_CONTENT_LENGTH) eqn:En; [lia|].
    destruct (put_line_ok nw l (set_src (mkC (map RByte (l ++ e ++ data ++ j ++ e' ++ s)) plan w out cnt)
       (map RByte (data ++ j ++ e' ++ s))) Hw)
      as [w1 [Hw1 E1]]. rewrite E1. cbn [negb].
    pose proof (chunked_sum_nonneg _ _ _ _ _ _ _ H) as Hnn. simpl sum in Hov, Hmax.
    unfold add_size.
    destruct (tot + n <=? CONTENT_LENGTH_MAX) eqn:E; [|lia].
    destruct ((0 <? max) && (max <? tot + n)) eqn:E2.
    { exfalso. apply andb_true_iff in E2. destruct E2 as [E2 E3].
      assert (Hm : 0 < max) by lia. specialize (Hmax Hm). lia. }
    destruct (0 <? n) eqn:E3; [|lia].
    cbn [set_src c_src c_plan c_out c_cnt].
    rewrite map_app.
    destruct (copy_bin_ok nw data (map RByte (j ++ e' ++ s)) plan w1 (emit nw out (l ++ CRLF)) cnt Hw1)
      as [plan2 [w2 [Hw2 E4]]].
    rewrite Hd in E4. rewrite E4. cbn [c_src].
    rewrite (get_line_complete MAXBUF _ j s) by (apply line_terminated; auto).
    destruct (put_line_ok nw j (set_src (mkC (map RByte (j ++ e' ++ s)) plan2 w2
        (emit nw (emit nw out (l ++ CRLF)) data) (cnt + n)) (map RByte s)) Hw2)
      as [w3 [Hw3 E5]]. rewrite E5. cbn [negb set_src c_src c_plan c_out c_cnt].
    destruct (IH fuel (tot + n) nw max plan2 w3
       (emit nw (emit nw (emit nw out (l ++ CRLF)) data) (j ++ CRLF)) (cnt + n) wraps Hw3)
      as [plan3 [w4 [Hw4 E6]]].
    { rewrite !app_length in Hf. destruct He as [-> | ->]; simpl in Hf; lia. }
    { lia. } { lia. } { intros Hm. specialize (Hmax Hm). lia. }
    rewrite E6. exists plan3, w4. split; [exact Hw4|].
    rewrite !emit_app, <- !app_assoc. do 2 f_equal. rewrite app_length. lia.
Qed.

(** *** Fuel never runs out on byte-only sources *)

Lemma copy_trailers_fuel : forall fuel nw st bs,
  bsrc st bs -> (length bs < fuel)%nat -> fst (copy_trailers fuel nw st) <> CR_FUEL.
Proof.
  induction fuel as [|fuel IH]; intros nw st bs Hb Hf; [lia|]. cbn [copy_trailers].
  destruct (get_line_cases st bs Hb) as [rs [line [rest [E [[Hrest Hout] [Hlen Hlt]]]]]].
  rewrite E. destruct rs; try (simpl; discriminate).
  destruct (put_line nw line (set_src st (map RByte rest))) as [ok st1] eqn:Ep.
  apply put_line_spec in Ep. simpl in Ep. destruct Ep as [P1 _].
  destruct ok; [|simpl; discriminate]. cbn [negb].
  destruct line as [|c line].
  - destruct nw; [simpl; discriminate|]. destruct (bio_write [] st1) as [[] ?]; simpl; discriminate.
  - apply (IH nw st1 rest P1).
    assert (bs <> []) by (eapply line_ok_nonempty_input; exact Hout).
    specialize (Hlt H). lia.
Qed.

Lemma copy_chunks_loop_fuel : forall fuel wraps tot nw max st bs,
  bsrc st bs -> (length bs < fuel)%nat ->
  fst (copy_chunks_loop fuel wraps tot nw max st) <> CR_FUEL.
Proof.
  induction fuel as [|fuel IH]; intros wraps tot nw max st bs Hb Hf; [lia|].
  cbn [copy_chunks_loop].
  destruct (get_line_cases st bs Hb) as [rs [line [rest [E [[Hrest Hout] [Hlen Hlt]]]]]].
  rewrite E. destruct rs; try (simpl; discriminate). cbv zeta.
  assert (Hne : bs <> []) by (eapply line_ok_nonempty_input; exact Hout).
  specialize (Hlt Hne).
  destruct (get_content_length line CL_CHUNK =? NO_CONTENT_LENGTH) eqn:En; [simpl; discriminate|].
  pose proof (chunk_length_bounds line _ eq_refl ltac:(lia)) as Hnb.
  destruct (put_line nw line (set_src st (map RByte rest))) as [ok st1] eqn:Ep.
  apply put_line_spec in Ep. simpl in Ep. destruct Ep as [P1 _].
  destruct ok; [|simpl; discriminate]. cbn [negb].
  destruct (add_size wraps tot (get_content_length line CL_CHUNK)) as [tot'|]; [|simpl; discriminate].
  destruct ((0 <? max) && (max <? tot')); [simpl; discriminate|].
  destruct (0 <? get_content_length line CL_CHUNK) eqn:Epos.
  - destruct (copy_bin_sound nw (get_content_length line CL_CHUNK) st1 rest) as
      [cr [st2 [data [rest2 [B1 [B2 [B3 [B4 _]]]]]]]]; [lia|exact P1|].
    rewrite B1. destruct cr; try (simpl; discriminate).
    destruct (get_line_cases st2 rest2 B3) as [rs2 [line2 [rest3 [E2 [_ [Hlen2 _]]]]]].
    rewrite E2. destruct rs2; try (simpl; discriminate).
    destruct (put_line nw line2 (set_src st2 (map RByte rest3))) as [ok3 st3] eqn:Ep3.
    apply put_line_spec in Ep3. simpl in Ep3. destruct Ep3 as [Q1 _].
    destruct ok3; [|simpl; discriminate]. cbn [negb].
    apply (IH wraps tot' nw max st3 rest3 Q1).
    rewrite B2, app_length in Hlt. rewrite B2, app_length in Hlen. lia.
  - apply copy_trailers_fuel with (bs := rest); [exact P1|lia].
Qed.

(** *** The limit bounds what is forwarded, whatever the outcome *)

Lemma copy_trailers_cnt : forall fuel nw st, c_cnt (snd (copy_trailers fuel nw st)) = c_cnt st.
Proof.
  induction fuel as [|fuel IH]; intros nw st; cbn [copy_trailers]; [reflexivity|].
  destruct (get_line MAXBUF (c_src st)) as [[rs line] src'].
  destruct rs; try reflexivity.
  destruct (put_line nw line (set_src st src')) as [ok st1] eqn:Ep.
  apply put_line_spec in Ep. destruct Ep as [_ [P2 _]]. simpl in P2.
  destruct ok; [|exact P2]. cbn [negb].
  destruct line as [|c line].
  - destruct nw; [exact P2|]. destruct (bio_write [] st1) as [ok st2] eqn:Ew.
    apply bio_write_src in Ew. destruct Ew as [_ [_ [W3 _]]].
    simpl. congruence.
  - rewrite IH. exact P2.
Qed.

Lemma copy_chunks_loop_count : forall fuel tot nw max st bs,
  bsrc st bs -> 0 <= tot -> 0 < max -> tot <= max ->
  let st' := snd (copy_chunks_loop fuel false tot nw max st) in
  c_cnt st <= c_cnt st' <= c_cnt st + (max - tot).
Proof.
  induction fuel as [|fuel IH]; intros tot nw max st bs Hb Htot Hmax Hle;
    cbn [copy_chunks_loop]; [simpl; lia|].
  destruct (get_line_cases st bs Hb) as [rs [line [rest [E [[Hrest Hout] [Hlen Hlt]]]]]].
  rewrite E. destruct rs; try (simpl; lia). cbv zeta.
  destruct (get_content_length line CL_CHUNK =? NO_CONTENT_LENGTH) eqn:En; [simpl; lia|].
  pose proof (chunk_length_bounds line _ eq_refl ltac:(lia)) as Hnb.
  set (n := get_content_length line CL_CHUNK) in *.
  destruct (put_line nw line (set_src st (map RByte rest))) as [ok st1] eqn:Ep.
  apply put_line_spec in Ep. simpl in Ep. destruct Ep as [P1 [P2 _]].
  destruct ok; cbn [negb]; [|simpl; lia].
  unfold add_size.
  destruct (tot + n <=? CONTENT_LENGTH_MAX) eqn:Eov; [|simpl; lia].
  destruct ((0 <? max) && (max <? tot + n)) eqn:Em; [simpl; lia|].
  destruct (0 <? n) eqn:Epos.
  - destruct (copy_bin_sound nw n st1 rest) as
      [cr [st2 [data [rest2 [B1 [B2 [B3 [B4 [B5 [B6 B7]]]]]]]]]]; [lia|exact P1|].
    rewrite B1. destruct cr; try (simpl; lia).
    destruct (get_line_cases st2 rest2 B3) as [rs2 [line2 [rest3 [E2 [_ [Hlen2 _]]]]]].
    rewrite E2. destruct rs2; try (simpl; lia).
    destruct (put_line nw line2 (set_src st2 (map RByte rest3))) as [ok3 st3] eqn:Ep3.
    apply put_line_spec in Ep3. simpl in Ep3. destruct Ep3 as [Q1 [Q2 _]].
    destruct ok3; cbn [negb]; [|simpl; lia].
    pose proof (IH (tot + n) nw max st3 rest3 Q1 ltac:(lia) Hmax ltac:(lia)) as K.
    cbv zeta in K. lia.
  - rewrite copy_trailers_cnt. lia.
Qed.

(** *** Statements used in StreamProps *)

Lemma copy_chunks_sound : forall nw max st bs st',
  bsrc st bs ->
  copy_chunks false nw max st = (CR_OK, st') ->
  exists o pay sizes rest,
    chunked MAXBUF lenient bs o pay sizes rest /\
    bsrc st' rest /\ c_out st' = emit nw (c_out st) o /\
    c_cnt st' = c_cnt st + Z.of_nat (length pay) /\
    sum sizes <= CONTENT_LENGTH_MAX /\ (0 < max -> sum sizes <= max).
Proof.
  intros nw max st bs st' Hb H.
  destruct (copy_chunks_loop_sound _ 0 nw max st bs CR_OK st' Hb (Z.le_refl 0) H eq_refl)
    as [o [pay [sizes [rest K]]]].
  exists o, pay, sizes, rest. exact K.
Qed.

Lemma copy_chunks_complete : forall wraps nw max bs o pay sizes rest plan w out cnt,
  chunked MAXBUF lenient bs o pay sizes rest -> all_ok w ->
  sum sizes <= CONTENT_LENGTH_MAX -> (0 < max -> sum sizes <= max) ->
  exists plan' w', all_ok w' /\
    copy_chunks wraps nw max (mkC (map RByte bs) plan w out cnt) =
    (CR_OK, mkC (map RByte rest) plan' w' (emit nw out o) (cnt + Z.of_nat (length pay))).
Proof.
  intros wraps nw max bs o pay sizes rest plan w out cnt H Hw Hs Hm. unfold copy_chunks.
  apply copy_chunks_loop_complete with (1 := H); auto; [|lia].
  simpl. rewrite map_length. lia.
Qed.

Lemma copy_chunks_fuel : forall wraps nw max st bs,
  bsrc st bs -> fst (copy_chunks wraps nw max st) <> CR_FUEL.
Proof.
  intros wraps nw max st bs Hb. unfold copy_chunks.
  apply copy_chunks_loop_fuel with (bs := bs); [exact Hb|].
  unfold bsrc in Hb. rewrite Hb, map_length. lia.
Qed.

Lemma copy_chunks_count : forall nw max st bs,
  bsrc st bs -> 0 < max ->
  c_cnt st <= c_cnt (snd (copy_chunks false nw max st)) <= c_cnt st + max.
Proof.
  intros nw max st bs Hb Hm. unfold copy_chunks.
  pose proof (copy_chunks_loop_count (S (S (length (c_src st)))) 0 nw max st bs Hb
                (Z.le_refl 0) Hm ltac:(lia)) as K. cbv zeta in K. lia.
Qed.

Lemma get_line_status : forall size bs, 1 <= size ->
  exists st line rest,
    get_line size (map RByte bs) = (st, line, map RByte rest) /\
    rest = after_first_LF bs /\
    match st with
    | COPY_OK => line_ok size bs line rest
    | COPY_EOF => bs = []
    | COPY_TOO_LONG => line_too_long size bs
    | COPY_BAD_DATA => line_bad size bs
    | COPY_READ_ERR => False
    | COPY_WRITE_ERR => False
    end.
Proof.
  intros size bs Hs. destruct (get_line_sound size bs Hs) as [st [line [rest [H1 [H2 H3]]]]].
  exists st, line, rest. split; [exact H1|]. split; [exact H2|]. destruct st; auto.
Qed.

Lemma line_ok_safe : forall size s l rest, line_ok size s l rest ->
  Forall (fun c => c <> NUL /\ c <> CR /\ c <> LF /\ (is_cntrl c = true -> c = TAB)) l /\
  Z.of_nat (length l) + 1 < size.
Proof.
  intros size s l rest H.
  assert (K : text l -> Forall (fun c => c <> NUL /\ c <> CR /\ c <> LF /\ (is_cntrl c = true -> c = TAB)) l).
  { intros Ht. eapply Forall_impl; [|exact Ht]. intros c Hc.
    destruct (text_byte_neq c Hc) as [H1 [H2 H3]]. repeat split; auto.
    intros H4. apply text_model in Hc. rewrite H4 in Hc. simpl in Hc. now apply beq_eq. }
  destruct H as [l e rest Hl He Hlen|l Hl Hne Hlen|l Hl Hlen]; split; auto; try lia.
  destruct He as [-> | ->]; simpl in Hlen; lia.
Qed.
