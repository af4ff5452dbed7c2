(** printf of templates: the format. *)
From Coq Require Import Ascii String List ZArith Bool Lia.
From Coq Require Import ZifyBool ZifyNat.
From Verif Require Import Bytes TevModel TevSpec TfmModel TfmSpec TfmProofs.
From Verif Require JsonModel ClenSpec.
Import ListNotations.
Local Open Scope string_scope.
Local Open Scope list_scope.
Local Open Scope Z_scope.

Section Proofs.
  Variable N : JsonModel.numbers.
  Variable A : arith N.
  Variable F : float_format N.
  Notation jv := (JsonModel.jv N).
  Notation step := (step N A F).
  Notation loop := (loop N A F).

  (** ** The turns of the loop are enough *)

  Definition rank (q : format_state) : nat :=
    match q with Pos => 7 | Flags => 6 | Width => 5 | Width_arg => 4 | Prec => 3 | Prec_arg => 2 | Conv => 1 | Copy => 0 end.
  Definition left_to_do (s : st) : nat := (8 * length (rest s) + rank (state s))%nat.

  Lemma get_num_shorter : forall s n, (length (snd (get_num_from n s)) <= length s)%nat.
  Proof.
    intros s. induction s as [|c s IH]; intros n; cbn [get_num_from]; [cbn; lia|].
    destruct (is_digit c); [|cbn; lia]. specialize (IH (uint (n * 10 + (code c - 48)))). cbn [length]. lia.
  Qed.
  Lemma arg_ends : forall args n (B : Type) (k : jv -> ev B), (forall v, k v <> Deep) -> andthen (va_arg_n N args n) k <> Deep.
  Proof.
    intros args n B k H. unfold va_arg_n. destruct (n =? 0); [discriminate|]. destruct args as [|a args]; [discriminate|].
    destruct (n <=? _); [|discriminate]. destruct (nth_error _ _); [apply H|discriminate].
  Qed.
  Lemma long_not_deep : forall d, long N A d <> Deep.
  Proof. intros d. unfold long. destruct (to_long A d); discriminate. Qed.
  Lemma arg_integer_not_deep : forall args n, arg_integer N A args n <> Deep.
  Proof. intros args n. apply arg_ends. intros [| | | | | |]; try discriminate; apply long_not_deep. Qed.
  Lemma arg_number_not_deep : forall args n, arg_number N args n <> Deep.
  Proof. intros args n. apply arg_ends. intros [| | | | | |]; discriminate. Qed.
  Lemma arg_string_not_deep : forall args n, arg_string N A args n <> Deep.
  Proof.
    intros args n. apply arg_ends. intros v. destruct v as [|b|d|d|s|l|l]; try discriminate. cbn [json_cast_to_string].
    pose proof (long_not_deep d) as L. destruct (long N A d); [discriminate|discriminate|discriminate|congruence].
  Qed.
  Lemma andthen_not_deep : forall (X Y : Type) (o : ev X) (k : X -> ev Y), o <> Deep -> (forall x, k x <> Deep) -> andthen o k <> Deep.
  Proof. intros X Y o k H K. destruct o; cbn [andthen]; [apply K|discriminate|discriminate|congruence]. Qed.
  Lemma with_zeros_not_deep : forall a b c d, with_zeros a b c d <> Deep.
  Proof. intros a b c d. unfold with_zeros. destruct (_ && _); [destruct (_ <=? _)|]; discriminate. Qed.

  (** A turn does not cut off, and leaves less to do *)
  Definition progresses (m : nat) (o : ev st) : Prop := o <> Deep /\ forall s, o = Val s -> (left_to_do s < m)%nat.
  Lemma progresses_then : forall (X : Type) m (o : ev X) (k : X -> ev st), o <> Deep -> (forall x, progresses m (k x)) -> progresses m (andthen o k).
  Proof.
    intros X m o k H K. destruct o as [x|c| |]; cbn [andthen]; [apply K|split; [|intros s E]; discriminate|split; [|intros s E]; discriminate|congruence].
  Qed.
  Lemma progresses_val : forall m s, (left_to_do s < m)%nat -> progresses m (Val s).
  Proof. intros m s H. split; [discriminate|]. intros s' E. injection E as <-. exact H. Qed.
  Lemma progresses_undef : forall m, progresses m Undef.
  Proof. intros m. split; [|intros s E]; discriminate. Qed.

  Lemma convert_progresses : forall args c r s m, (8 * length r < m)%nat -> progresses m (convert N A F args c r s).
  Proof.
    intros args c r s m L. unfold convert. cbv zeta.
    assert (G : forall s' ro o, progresses m (Val (go Copy r (set_room ro (emit o s'))))).
    { intros s' ro o. apply progresses_val. unfold left_to_do. cbn [go rest state rank]. lia. }
    repeat match goal with |- progresses _ (if ?b then _ else _) => destruct b end;
      try (apply G);
      try (apply progresses_then; [apply arg_integer_not_deep|intros num]; apply progresses_then; [|intros o; apply G]).
    - apply progresses_then; [apply arg_string_not_deep|intros str]. apply progresses_then; [|intros o; apply G].
      unfold conv_s. cbv zeta. destruct (_ =? 0); [discriminate|]. destruct (uint _ =? 0); discriminate.
    - unfold conv_d. cbv zeta. destruct (_ =? _); [discriminate|]. apply andthen_not_deep; [apply with_zeros_not_deep|discriminate].
    - unfold conv_u. cbv zeta. apply andthen_not_deep; [apply with_zeros_not_deep|discriminate].
    - unfold conv_x. cbv zeta. apply andthen_not_deep; [apply with_zeros_not_deep|discriminate].
    - unfold conv_o. cbv zeta. apply andthen_not_deep; [apply with_zeros_not_deep|discriminate].
    - apply progresses_then; [apply arg_number_not_deep|intros d; apply G].
    - apply progresses_then; [|intros d; apply G]. intros Y.
      apply (arg_ends args (if altpos s then argnum s else next s) jv Val ltac:(discriminate)). rewrite Y. reflexivity.
  Qed.
  Lemma take_width_progresses : forall num s m, (left_to_do s < m)%nat -> progresses m (take_width num s).
  Proof.
    intros num s m L. unfold take_width. destruct (_ =? _); [apply progresses_undef|]. cbv zeta. apply progresses_val.
    destruct (num <? 0); exact L.
  Qed.
  Lemma take_prec_progresses : forall num s m, (left_to_do s < m)%nat -> progresses m (Val (take_prec num s)).
  Proof. intros num s m L. apply progresses_val. unfold take_prec. destruct (0 <? num); exact L. Qed.

  Lemma step_progresses : forall args s c r, rest s = c :: r -> progresses (left_to_do s) (step args s c r).
  Proof.
    intros args s c r E.
    assert (M : left_to_do s = (8 * S (length r) + rank (state s))%nat) by (unfold left_to_do; rewrite E; reflexivity).
    assert (V : forall q r' s', (8 * length r' + rank q < left_to_do s)%nat -> progresses (left_to_do s) (Val (go q r' s'))).
    { intros q r' s' L. apply progresses_val. exact L. }
    assert (NR : forall n d r', get_num (c :: r) = (n, d :: r') -> (length r' <= length r)%nat).
    { intros n d r' H. pose proof (get_num_shorter (c :: r) 0) as L. unfold get_num in H. rewrite H in L. cbn [snd length] in L. lia. }
    unfold TfmModel.step. cbv zeta. destruct (state s) eqn:ES; cbn [rank] in M.
    - destruct (beq c "%").
      + apply progresses_val. unfold left_to_do at 1. cbn [begin_conv rest state rank]. lia.
      + apply progresses_val. unfold left_to_do at 1. cbn [go rest state rank]. lia.
    - destruct (beq c "%"); [apply V; cbn [rank]; lia|]. destruct (is_digit c); [|apply V; cbn [rank length]; lia].
      destruct (get_num (c :: r)) as [n [|d r']] eqn:EN; [apply V; cbn [rank length]; lia|]. specialize (NR n d r' eq_refl).
      destruct (beq d "$"); apply V; cbn [rank length]; lia.
    - repeat match goal with |- progresses _ (if ?b then _ else _) => destruct b end; apply V; cbn [rank length]; lia.
    - destruct (is_digit c) eqn:D.
      + destruct (get_num (c :: r)) as [w r'] eqn:EN. apply V. pose proof (get_num_shorter (c :: r) 0) as L. unfold get_num in EN.
        rewrite EN in L. cbn [snd length] in L. cbn [rank]. lia.
      + destruct (beq c "*"); apply V; cbn [rank length]; lia.
    - assert (OWN : progresses (left_to_do s) (let! num <- arg_integer N A args (next s); take_width num (go Prec (c :: r) (set_next (next s + 1) s)))).
      { apply progresses_then; [apply arg_integer_not_deep|intros num]. apply take_width_progresses. unfold left_to_do at 1. cbn [go rest state rank length]. lia. }
      destruct (is_digit c); [|exact OWN]. destruct (get_num (c :: r)) as [n [|d r']] eqn:EN; [exact OWN|]. specialize (NR n d r' eq_refl).
      destruct (beq d "$"); [|exact OWN].
      apply progresses_then; [apply arg_integer_not_deep|intros num]. apply take_width_progresses. unfold left_to_do at 1. cbn [go rest state rank length]. lia.
    - destruct (beq c "."); [|apply V; cbn [rank length]; lia]. destruct r as [|d r']; [apply V; cbn [rank length]; lia|].
      destruct (is_digit d).
      + destruct (get_num (d :: r')) as [p r''] eqn:EN. apply V. pose proof (get_num_shorter (d :: r') 0) as L. unfold get_num in EN.
        rewrite EN in L. cbn [snd length] in L. cbn [rank length] in *. lia.
      + destruct (beq d "*"); apply V; cbn [rank length] in *; lia.
    - assert (OWN : progresses (left_to_do s) (let! num <- arg_integer N A args (next s); Val (take_prec num (go Conv (c :: r) s)))).
      { apply progresses_then; [apply arg_integer_not_deep|intros num]. apply take_prec_progresses. unfold left_to_do at 1. cbn [go rest state rank length]. lia. }
      destruct (is_digit c); [|exact OWN]. destruct (get_num (c :: r)) as [n [|d r']] eqn:EN; [exact OWN|]. specialize (NR n d r' eq_refl).
      destruct (beq d "$"); [|exact OWN].
      apply progresses_then; [apply arg_integer_not_deep|intros num]. apply take_prec_progresses. unfold left_to_do at 1. cbn [go rest state rank length]. lia.
    - apply convert_progresses. lia.
  Qed.

  Lemma loop_enough : forall fuel args s, (left_to_do s < fuel)%nat -> loop fuel args s <> Deep.
  Proof.
    intros fuel. induction fuel as [|fuel IH]; intros args s L; [lia|]. cbn [TfmModel.loop]. destruct (rest s) as [|c r] eqn:E; [discriminate|].
    destruct (step_progresses args s c r E) as [ND P]. destruct (step args s c r) as [s'|x| |]; cbn [andthen]; try discriminate; [|congruence].
    apply IH. specialize (P s' eq_refl). lia.
  Qed.
  Lemma loop_more : forall fuel args s k, loop fuel args s <> Deep -> loop (fuel + k) args s = loop fuel args s.
  Proof.
    intros fuel. induction fuel as [|fuel IH]; intros args s k H; [contradiction H; reflexivity|]. cbn [TfmModel.loop plus Nat.add] in *.
    destruct (rest s) as [|c r]; [reflexivity|]. destruct (step args s c r); cbn [andthen] in *; try reflexivity. apply IH, H.
  Qed.

  (** The result of a run, whatever the fuel *)
  Definition gives (args : list jv) (s : st) (o : ev bytes) : Prop := exists n, forall fuel, (n <= fuel)%nat -> loop fuel args s = o.
  Lemma gives_printf : forall f args o, gives args (init f) o -> func_printf N A F (JsonModel.JString N f :: args) = o.
  Proof.
    intros f args o (n & H). cbn [func_printf]. set (k := S (8 * length f)).
    assert (E : loop k args (init f) <> Deep).
    { apply loop_enough. unfold left_to_do, k. cbn [init rest state rank]. lia. }
    rewrite <- (H (k + n)%nat ltac:(lia)). symmetry. exact (loop_more k args (init f) n E).
  Qed.
  Lemma printf_ends : forall args, func_printf N A F args <> Deep.
  Proof.
    intros [|[| | | |f| |] args]; try discriminate. cbn [func_printf]. apply loop_enough. unfold left_to_do. cbn [init rest state rank]. lia.
  Qed.
  Lemma gives_step : forall args s c r s' o, rest s = c :: r -> step args s c r = Val s' -> gives args s' o -> gives args s o.
  Proof.
    intros args s c r s' o E ES (n & H). exists (S n). intros [|fuel] L; [lia|]. cbn [TfmModel.loop]. rewrite E, ES. cbn [andthen]. apply H. lia.
  Qed.
  Lemma gives_stop : forall args s c r x, rest s = c :: r -> step args s c r = Stop x -> gives args s (Stop x).
  Proof. intros args s c r x E ES. exists 1%nat. intros [|fuel] L; [lia|]. cbn [TfmModel.loop]. rewrite E, ES. reflexivity. Qed.
  Lemma gives_end : forall args s, rest s = [] -> gives args s (Val (out s)).
  Proof. intros args s E. exists 1%nat. intros [|fuel] L; [lia|]. cbn [TfmModel.loop]. rewrite E. reflexivity. Qed.

  (** ** Reading a conversion *)

  Definition letters : bytes := lit "sdiuxXoeEfFgGv".
  Definition between : bytes := lit "#0- +*.123456789".
  Lemma letter_facts : forall c, In c letters -> is_digit c = false /\ c <> "$"%char /\ beq c "%" = false /\ beq c "*" = false
    /\ beq c "." = false /\ ~ In c (lit "#0- +").
  Proof.
    intros c H. cbn in H. repeat (destruct H as [<-|H];
      [split; [reflexivity|split; [discriminate|split; [reflexivity|split; [reflexivity|split; [reflexivity|]]]]];
       cbn; intros I; repeat (destruct I as [I|I]; [discriminate I|]); destruct I|]). destruct H.
  Qed.
  Lemma between_facts : forall c, In c between -> c <> "$"%char /\ beq c "%" = false.
  Proof. intros c H. cbn in H. repeat (destruct H as [<-|H]; [split; [discriminate|reflexivity]|]). destruct H. Qed.
  Lemma digits_between : forall t n, decimal_number t n -> Forall (fun c => In c between) t.
  Proof.
    intros t n H. assert (D : forall c d, ClenSpec.digit_of decimal c d -> In c between).
    { intros c d [_ D]. apply nth_error_In in D. cbn in D. cbn. tauto. }
    induction H as [c d HD|s v c d H IH HD].
    - constructor; [exact (D c d HD)|constructor].
    - apply Forall_app. split; [exact IH|]. constructor; [exact (D c d HD)|constructor].
  Qed.
  Lemma flags_between : forall fs, is_flags fs -> Forall (fun c => In c between) fs.
  Proof. intros fs H. eapply Forall_impl; [|exact H]. intros c I. cbn in I. cbn. tauto. Qed.
  Lemma width_between : forall wt args w args', takes_width N A wt args w args' -> Forall (fun c => In c between) wt.
  Proof.
    intros wt args w args' H. destruct H as [args|t w args D _ _|v w args _ _]; [constructor|exact (digits_between t w D)|].
    constructor; [cbn; tauto|constructor].
  Qed.
  Lemma precision_between : forall pt p, gives_precision pt p -> Forall (fun c => In c between) pt.
  Proof. intros pt p H. destruct H as [|t p D _]; [constructor|]. constructor; [cbn; tauto|exact (digits_between t p D)]. Qed.

  Lemma no_dollar : forall a n c f, Forall (fun x => In x between) a -> is_digit c = false -> c <> "$"%char ->
    exists d r, snd (get_num_from n (a ++ c :: f)) = d :: r /\ beq d "$" = false.
  Proof.
    intros a. induction a as [|x a IH]; intros n c f H D ND; cbn [app get_num_from].
    - rewrite D. exists c, f. split; [reflexivity|]. destruct (beq c "$") eqn:E; [apply beq_eq in E; congruence|reflexivity].
    - inversion H as [|x0 a0 HX HA E]. subst. destruct (is_digit x); [apply IH; assumption|].
      exists x, (a ++ c :: f). split; [reflexivity|]. destruct (beq x "$") eqn:E; [apply beq_eq in E; destruct (between_facts x HX); congruence|reflexivity].
  Qed.
  Lemma no_position : forall a c f args s o, Forall (fun x => In x between) a -> is_digit c = false -> c <> "$"%char -> beq c "%" = false ->
    gives args (go Flags (a ++ c :: f) s) o -> gives args (go Pos (a ++ c :: f) s) o.
  Proof.
    intros a c f args s o H D ND NP G. destruct (no_dollar a 0 c f H D ND) as (d & r & E & B).
    assert (X : exists x y, a ++ c :: f = x :: y /\ beq x "%" = false).
    { destruct a as [|x a]; [exists c, f; split; [reflexivity|exact NP]|]. exists x, (a ++ c :: f). split; [reflexivity|].
      inversion H as [|x0 a0 HX HA E0]. subst. apply (between_facts x HX). }
    destruct X as (x & y & EX & BX). rewrite EX in *. eapply gives_step; [reflexivity| |exact G].
    unfold TfmModel.step. cbn [state go]. rewrite BX. destruct (is_digit x); [|reflexivity]. fold (get_num (x :: y)) in E.
    destruct (get_num (x :: y)) as [n t]. cbn [snd] in E. rewrite E, B. reflexivity.
  Qed.

  Lemma flags_read : forall fs c r args s o, is_flags fs -> ~ In c (lit "#0- +") ->
    gives args (go Width (c :: r) (set_fl (read_flags (fl s) fs) s)) o -> gives args (go Flags (fs ++ c :: r) s) o.
  Proof.
    intros fs. induction fs as [|x fs IH]; intros c r args s o H NI G.
    - cbn [app]. eapply gives_step; [reflexivity| |exact G].
      assert (B : forall y, In y (lit "#0- +") -> beq c y = false).
      { intros y I. destruct (beq c y) eqn:E; [apply beq_eq in E; subst; contradiction|reflexivity]. }
      unfold TfmModel.step. cbn [state go]. rewrite !B by (cbn; tauto). unfold read_flags. cbn [fold_left]. destruct s; reflexivity.
    - inversion H as [|x0 fs0 HX HS E]. subst. cbn [app].
      apply gives_step with (c := x) (r := fs ++ c :: r) (s' := go Flags (fs ++ c :: r) (set_fl (add_flag (fl s) x) s)).
      + reflexivity.
      + destruct HX as [<-|[<-|[<-|[<-|[<-|[]]]]]]; reflexivity.
      + apply IH; [exact HS|exact NI|]. exact G.
  Qed.

  (** The arguments from the [i]-th on *)
  Definition from (all : list jv) (i : Z) (args : list jv) : Prop := 1 <= i /\ i - 1 <= Z.of_nat (length all) /\ skipn (Z.to_nat (i - 1)) all = args.
  Lemma skipn_next : forall n (l : list jv) v r, skipn n l = v :: r -> skipn (S n) l = r.
  Proof.
    intros n. induction n as [|n IH]; intros [|a l] v r E; try discriminate E; [injection E as _ <-; reflexivity|].
    exact (IH l v r E).
  Qed.
  Lemma from_next : forall all i v args, from all i (v :: args) -> va_arg_n N all i = Val v /\ from all (i + 1) args.
  Proof.
    intros all i v args (L & U & E). assert (NE : nth_error all (Z.to_nat (i - 1)) = Some v).
    { rewrite <- (firstn_skipn (Z.to_nat (i - 1)) all), E. rewrite nth_error_app2; rewrite firstn_length; [|lia].
      replace (Z.to_nat (i - 1) - Nat.min (Z.to_nat (i - 1)) (length all))%nat with O by lia. reflexivity. }
    assert (B : (Z.to_nat (i - 1) < length all)%nat) by (apply nth_error_Some; rewrite NE; discriminate).
    split.
    - unfold va_arg_n. destruct (Z.eqb_spec i 0); [lia|]. destruct all as [|a all]; [cbn in B; lia|].
      destruct (Z.leb_spec i (Z.of_nat (length (a :: all)))); [|lia]. rewrite NE. reflexivity.
    - split; [lia|]. split; [lia|]. replace (Z.to_nat (i + 1 - 1)) with (S (Z.to_nat (i - 1))) by lia.
      exact (skipn_next (Z.to_nat (i - 1)) all v args E).
  Qed.
  Lemma from_end : forall all i, from all i [] -> all <> [] -> va_arg_n N all i = Stop Requested.
  Proof.
    intros all i (L & U & E) NE. assert (K : length (skipn (Z.to_nat (i - 1)) all) = O) by (rewrite E; reflexivity). rewrite skipn_length in K.
    unfold va_arg_n. destruct (Z.eqb_spec i 0); [lia|]. destruct all as [|a all]; [congruence|].
    destruct (Z.leb_spec i (Z.of_nat (length (a :: all)))); [lia|reflexivity].
  Qed.

  Lemma width_read : forall wt rem w rem' c r all s, takes_width N A wt rem w rem' -> is_digit c = false -> beq c "*" = false ->
    from all (next s) rem -> width s = 0 ->
    0 <= w < 2 ^ 32 - 1 /\ exists i, from all i rem' /\
      forall o, gives all (go Prec (c :: r) (set_width w (set_next i s))) o -> gives all (go Width (wt ++ c :: r) s) o.
  Proof.
    intros wt rem w rem' c r all s H D NS FR W0. destruct H as [args|t w args DN HD L|v w args HI B].
    - split; [lia|]. exists (next s). split; [exact FR|]. intros o G. cbn [app]. eapply gives_step; [reflexivity| |exact G].
      unfold TfmModel.step. cbn [state go]. rewrite D, NS. destruct s. cbn in W0. subst. reflexivity.
    - destruct (decimal_first t w DN) as (P & c0 & t' & -> & D0 & _). split; [lia|]. exists (next s). split; [exact FR|]. intros o G. cbn [app].
      eapply gives_step; [reflexivity| |exact G]. unfold TfmModel.step. cbn [state go]. rewrite D0.
      change (c0 :: t' ++ c :: r) with ((c0 :: t') ++ c :: r). rewrite (get_num_is (c0 :: t') w (c :: r) DN ltac:(lia) D). destruct s. reflexivity.
    - split; [lia|]. exists (next s + 1). destruct (from_next all (next s) v args FR) as [EV FN]. split; [exact FN|]. intros o G.
      change (lit "*" ++ c :: r) with ("*"%char :: c :: r). eapply gives_step; [reflexivity|reflexivity|].
      eapply gives_step; [reflexivity| |exact G]. unfold TfmModel.step. cbn [state go]. rewrite D.
      change (next (go Width_arg (c :: r) (go Width ("*"%char :: c :: r) s))) with (next s).
      rewrite (arg_integer_is N A all (next s) v w EV HI). cbn [andthen]. unfold take_width.
      destruct (Z.eqb_spec w (- 2 ^ 63)); [lia|]. destruct (Z.ltb_spec w 0); [lia|].
      assert (U : uint (Z.abs w) = w) by (unfold uint; rewrite Z.abs_eq by lia; apply Z.mod_small; lia). rewrite U. destruct s. reflexivity.
  Qed.

  Lemma precision_read : forall pt p c r all s o, gives_precision pt p -> is_digit c = false -> beq c "." = false ->
    prec s = 0 -> has_prec s = false ->
    gives all (go Conv (c :: r) (set_prec (given p) (if given_any p then set_has_prec s else s))) o -> gives all (go Prec (pt ++ c :: r) s) o.
  Proof.
    intros pt p c r all s o H D ND P0 H0 G. destruct H as [|t p DN L].
    - cbn [app]. eapply gives_step; [reflexivity| |exact G]. unfold TfmModel.step. cbn [state go]. rewrite ND. destruct s. cbn in P0. subst. reflexivity.
    - destruct (decimal_first t p DN) as (P & c0 & t' & -> & D0 & _). cbn [app]. eapply gives_step; [reflexivity| |exact G].
      unfold TfmModel.step. cbn [state go]. change (beq "." ".") with true. cbv iota. rewrite D0.
      change (c0 :: t' ++ c :: r) with ((c0 :: t') ++ c :: r). rewrite (get_num_is (c0 :: t') p (c :: r) DN ltac:(lia) D). destruct s. reflexivity.
  Qed.

  Lemma takes_letter : forall wt rem w rem' pt p c f, takes_width N A wt rem w rem' -> gives_precision pt p -> In c letters ->
    exists x y, wt ++ pt ++ c :: f = x :: y /\ ~ In x (lit "#0- +").
  Proof.
    intros wt rem w rem' pt p c f HW HP HC.
    assert (DG : forall t n, decimal_number t n -> hd_error t <> Some "0"%char -> exists x y, t = x :: y /\ ~ In x (lit "#0- +")).
    { intros t n H HD. destruct (decimal_first t n H) as (_ & x & y & -> & _ & I). exists x, y. split; [reflexivity|]. intros J.
      cbn in J. repeat (destruct J as [<-|J]; [first [contradiction HD; reflexivity|cbn in I; repeat (destruct I as [I|I]; [discriminate I|]); destruct I]|]).
      destruct J. }
    destruct HW as [args|t w args DN HD L|v w args HI B].
    - destruct HP as [|t p DN L].
      + exists c, f. split; [reflexivity|]. apply (letter_facts c HC).
      + exists "."%char, (t ++ c :: f). split; [reflexivity|]. cbn. intros I. repeat (destruct I as [I|I]; [discriminate I|]). destruct I.
    - destruct (DG t w DN HD) as (x & y & -> & NI). exists x, (y ++ pt ++ c :: f). split; [reflexivity|exact NI].
    - exists "*"%char, (pt ++ c :: f). split; [reflexivity|]. cbn. intros I. repeat (destruct I as [I|I]; [discriminate I|]). destruct I.
  Qed.

  Lemma conv_reached : forall fs wt pt c f rem w rem' p all s, is_flags fs -> takes_width N A wt rem w rem' -> gives_precision pt p ->
    In c letters -> state s = Copy -> rest s = "%"%char :: fs ++ wt ++ pt ++ c :: f -> from all (next s) rem ->
    exists s', state s' = Conv /\ rest s' = c :: f /\ reads fs (fl s') /\ width s' = w /\ prec s' = given p /\ has_prec s' = given_any p
      /\ altpos s' = false /\ from all (next s') rem' /\ room s' = room s /\ out s' = out s /\ 0 <= w < 2 ^ 32 - 1
      /\ forall o, gives all s' o -> gives all s o.
  Proof.
    intros fs wt pt c f rem w rem' p all s HF HW HP HC ES ER FR. destruct (letter_facts c HC) as (L1 & L2 & L3 & L4 & L5 & L6).
    set (s1 := begin_conv (fs ++ wt ++ pt ++ c :: f) s). set (s2 := set_fl (read_flags no_flags' fs) s1).
    assert (X : exists x y, pt ++ c :: f = x :: y /\ is_digit x = false /\ beq x "*" = false).
    { destruct HP as [|t p DN L]; [exists c, f; repeat split; assumption|]. exists "."%char, (t ++ c :: f). repeat split. }
    destruct X as (x & y & EX & X1 & X2).
    destruct (width_read wt rem w rem' x y all s2 HW X1 X2 FR eq_refl) as (B & i & FI & GW).
    set (s3 := set_width w (set_next i s2)).
    exists (go Conv (c :: f) (set_prec (given p) (if given_any p then set_has_prec s3 else s3))).
    split; [reflexivity|]. split; [reflexivity|]. split.
    { destruct (given_any p); exact (read_flags_reads fs HF). }
    split; [destruct (given_any p); reflexivity|]. split; [destruct (given_any p); reflexivity|].
    split; [destruct p; reflexivity|]. split; [destruct (given_any p); reflexivity|]. split; [destruct (given_any p); exact FI|].
    split; [destruct (given_any p); reflexivity|]. split; [destruct (given_any p); reflexivity|]. split; [exact B|]. intros o G.
    apply gives_step with (c := "%"%char) (r := fs ++ wt ++ pt ++ c :: f) (s' := s1); [exact ER| |].
    { unfold TfmModel.step. rewrite ES. reflexivity. }
    assert (EA : fs ++ wt ++ pt ++ c :: f = (fs ++ wt ++ pt) ++ c :: f) by (rewrite <- !app_assoc; reflexivity).
    change s1 with (go Pos (fs ++ wt ++ pt ++ c :: f) s1). rewrite EA. apply no_position; [|exact L1|exact L2|exact L3|].
    { apply Forall_app. split; [exact (flags_between fs HF)|]. apply Forall_app. split; [exact (width_between _ _ _ _ HW)|exact (precision_between _ _ HP)]. }
    rewrite <- EA. destruct (takes_letter wt rem w rem' pt p c f HW HP HC) as (a & b & E & NI). rewrite E. apply flags_read; [exact HF|exact NI|].
    rewrite <- E. change (set_fl (read_flags (fl s1) fs) s1) with s2. rewrite EX. apply GW. fold s3. rewrite <- EX.
    apply (precision_read pt p c f all s3 o HP L1 L5 eq_refl eq_refl G).
  Qed.

  Lemma converts_letter : forall fs w p c v o, converts N A F fs w p c v o -> In c letters.
  Proof.
    intros fs w p c v o H. destruct H as [| |fs w p c v z prefix ds o HC|fs w p v z ds o|fs w p c v z prefix ds o HC| | |fs w p c v d f HC|]; try (cbn; tauto);
      cbn in HC; cbn; tauto.
  Qed.

  Lemma formats_gives : forall f rem o, formats N A F f rem o -> forall all s, state s = Copy -> rest s = f -> from all (next s) rem ->
    small_or_none (room s) -> gives all s (Val (out s ++ o)).
  Proof.
    intros f rem o H. induction H as [args|c f args o NC H IH|f args o H IH|fs wt pt c f args w v args' p o o' HF HW HP HC H IH];
      intros all s ES ER FR RM.
    - rewrite app_nil_r. apply gives_end. exact ER.
    - apply gives_step with (c := c) (r := f) (s' := go Copy f (emit [c] s)); [exact ER| |].
      + unfold TfmModel.step. rewrite ES. destruct (beq c "%") eqn:E; [apply beq_eq in E; congruence|reflexivity].
      + change (c :: o) with ([c] ++ o). rewrite app_assoc. apply (IH all (go Copy f (emit [c] s))); auto.
    - apply gives_step with (c := "%"%char) (r := "%"%char :: f) (s' := begin_conv ("%"%char :: f) s); [exact ER| |].
      { unfold TfmModel.step. rewrite ES. reflexivity. }
      eapply gives_step; [reflexivity|reflexivity|]. change (lit "%" ++ o) with (["%"%char] ++ o). rewrite app_assoc.
      apply (IH all (go Copy f (emit ["%"%char] (begin_conv ("%"%char :: f) s)))); auto.
    - destruct (conv_reached fs wt pt c f args w (v :: args') p all s HF HW HP (converts_letter _ _ _ _ _ _ HC) ES ER FR)
        as (s' & S1 & S2 & S3 & S4 & S5 & S6 & S7 & S8 & S9 & S10 & B & G).
      destruct (from_next all (next s') v args' S8) as [EV FN].
      destruct (convert_ok N A F fs w p c v o all f s' HC S3 S4 S5 S6 S7 EV B ltac:(rewrite S9; exact RM)) as (room' & RM' & EC).
      apply G. eapply gives_step; [exact S2|unfold TfmModel.step; rewrite S1; exact EC|].
      rewrite app_assoc, <- S10. apply (IH all (go Copy f (set_room room' (emit o (set_next (next s' + 1) s'))))); auto.
  Qed.

  Lemma not_number : forall (v : jv) args n (X : Type) (k k' : JsonModel.dbl N -> ev X), va_arg_n N args n = Val v -> no_number N v ->
    (let! v <- va_arg_n N args n; match v with JsonModel.JInteger _ d => k d | JsonModel.JNumber _ d => k' d | _ => Stop Mismatch end) = Stop Mismatch.
  Proof.
    intros v args n X k k' E NV. rewrite E. cbn [andthen]. destruct v as [|b|d|d|s|l|l]; try reflexivity; exfalso; apply (NV d); [left|right]; reflexivity.
  Qed.

  (** A conversion for which the argument is not found, or is not a number *)
  Lemma convert_fails : forall c r all s x, In c letters -> altpos s = false ->
    (va_arg_n N all (next s) = Stop x \/ (takes_number c /\ exists v, va_arg_n N all (next s) = Val v /\ no_number N v /\ x = Mismatch)) ->
    convert N A F all c r s = Stop x.
  Proof.
    intros c r all s x HC EA H.
    assert (AI : (va_arg_n N all (next s) = Stop x \/ exists v, va_arg_n N all (next s) = Val v /\ no_number N v /\ x = Mismatch) ->
      arg_integer N A all (next s) = Stop x /\ arg_number N all (next s) = Stop x).
    { intros [E|(v & E & NV & ->)].
      - unfold arg_integer, arg_number. rewrite E. split; reflexivity.
      - split; [exact (not_number v all (next s) Z _ _ E NV)|exact (not_number v all (next s) _ _ _ E NV)]. }
    unfold convert. rewrite EA. cbv zeta. cbn in HC.
    destruct HC as [<-|[<-|[<-|[<-|[<-|[<-|[<-|[<-|[<-|[<-|[<-|[<-|[<-|[<-|[]]]]]]]]]]]]]]];
      repeat match goal with |- context [beq ?a ?b || beq ?a' ?b'] => change (beq a b || beq a' b') with true || change (beq a b || beq a' b') with false end;
      repeat match goal with |- context [beq ?a ?b] => change (beq a b) with true || change (beq a b) with false end;
      repeat match goal with |- context [existsb ?a ?b] => change (existsb a b) with true || change (existsb a b) with false end; cbv iota.
    - destruct H as [E|(T & _)]; [|exfalso; cbn in T; repeat (destruct T as [T|T]; [discriminate T|]); destruct T].
      unfold arg_string. rewrite E. reflexivity.
    - rewrite (proj1 (AI ltac:(tauto))). reflexivity.
    - rewrite (proj1 (AI ltac:(tauto))). reflexivity.
    - rewrite (proj1 (AI ltac:(tauto))). reflexivity.
    - rewrite (proj1 (AI ltac:(tauto))). reflexivity.
    - rewrite (proj1 (AI ltac:(tauto))). reflexivity.
    - rewrite (proj1 (AI ltac:(tauto))). reflexivity.
    - rewrite (proj2 (AI ltac:(tauto))). reflexivity.
    - rewrite (proj2 (AI ltac:(tauto))). reflexivity.
    - rewrite (proj2 (AI ltac:(tauto))). reflexivity.
    - rewrite (proj2 (AI ltac:(tauto))). reflexivity.
    - rewrite (proj2 (AI ltac:(tauto))). reflexivity.
    - rewrite (proj2 (AI ltac:(tauto))). reflexivity.
    - destruct H as [E|(T & _)]; [|exfalso; cbn in T; repeat (destruct T as [T|T]; [discriminate T|]); destruct T].
      rewrite E. reflexivity.
  Qed.

  Lemma star_reached : forall fs c f all s, is_flags fs -> ~ In c decimal -> state s = Copy -> rest s = "%"%char :: fs ++ "*"%char :: c :: f ->
    exists s', state s' = Width_arg /\ rest s' = c :: f /\ next s' = next s /\ is_digit c = false /\ forall o, gives all s' o -> gives all s o.
  Proof.
    intros fs c f all s HF NC ES ER. set (s1 := begin_conv (fs ++ "*"%char :: c :: f) s).
    assert (D : is_digit c = false).
    { destruct (is_digit c) eqn:E; [|reflexivity]. exfalso. apply NC. clear - E. destruct c as [[|] [|] [|] [|] [|] [|] [|] [|]]; vm_compute in E; try discriminate E; vm_compute; tauto. }
    exists (go Width_arg (c :: f) (set_fl (read_flags no_flags' fs) s1)).
    split; [reflexivity|]. split; [reflexivity|]. split; [reflexivity|]. split; [exact D|]. intros o G.
    apply gives_step with (c := "%"%char) (r := fs ++ "*"%char :: c :: f) (s' := s1); [exact ER| |].
    { unfold TfmModel.step. rewrite ES. reflexivity. }
    change s1 with (go Pos (fs ++ "*"%char :: c :: f) s1). apply no_position; [exact (flags_between fs HF)|reflexivity|discriminate|reflexivity|].
    apply flags_read; [exact HF|cbn; intros I; repeat (destruct I as [I|I]; [discriminate I|]); destruct I|].
    eapply gives_step; [reflexivity|reflexivity|]. exact G.
  Qed.
  Lemma star_fails : forall c f all s x, state s = Width_arg -> rest s = c :: f -> is_digit c = false ->
    arg_integer N A all (next s) = Stop x -> gives all s (Stop x).
  Proof.
    intros c f all s x ES ER D E. eapply gives_stop; [exact ER|]. unfold TfmModel.step. rewrite ES. cbv zeta. rewrite D, E. reflexivity.
  Qed.

  Lemma errs_gives : forall f rem x, errs N A F f rem x -> forall all s, all <> [] -> state s = Copy -> rest s = f -> from all (next s) rem ->
    small_or_none (room s) -> gives all s (Stop x).
  Proof.
    intros f rem x H. induction H as [c f args x NC H IH|f args x H IH|fs wt pt c f args w v args' p o x HF HW HP HC H IH
      |fs c f HF NC|fs c f v args HF NC NV|fs wt pt c f args w p HF HW HP HC|fs wt pt c f args w v args' p HF HW HP HC NV];
      intros all s NE ES ER FR RM.
    - apply gives_step with (c := c) (r := f) (s' := go Copy f (emit [c] s)); [exact ER| |].
      + unfold TfmModel.step. rewrite ES. destruct (beq c "%") eqn:E; [apply beq_eq in E; congruence|reflexivity].
      + apply (IH all (go Copy f (emit [c] s))); auto.
    - apply gives_step with (c := "%"%char) (r := "%"%char :: f) (s' := begin_conv ("%"%char :: f) s); [exact ER| |].
      { unfold TfmModel.step. rewrite ES. reflexivity. }
      eapply gives_step; [reflexivity|reflexivity|].
      apply (IH all (go Copy f (emit ["%"%char] (begin_conv ("%"%char :: f) s)))); auto.
    - destruct (conv_reached fs wt pt c f args w (v :: args') p all s HF HW HP (converts_letter _ _ _ _ _ _ HC) ES ER FR)
        as (s' & S1 & S2 & S3 & S4 & S5 & S6 & S7 & S8 & S9 & S10 & B & G).
      destruct (from_next all (next s') v args' S8) as [EV FN].
      destruct (convert_ok N A F fs w p c v o all f s' HC S3 S4 S5 S6 S7 EV B ltac:(rewrite S9; exact RM)) as (room' & RM' & EC).
      apply G. eapply gives_step; [exact S2|unfold TfmModel.step; rewrite S1; exact EC|].
      apply (IH all (go Copy f (set_room room' (emit o (set_next (next s' + 1) s'))))); auto.
    - destruct (star_reached fs c f all s HF NC ES ER) as (s' & S1 & S2 & S3 & D & G). apply G. apply (star_fails c f all s' Requested S1 S2 D).
      unfold arg_integer. rewrite S3, (from_end all (next s) FR NE). reflexivity.
    - destruct (star_reached fs c f all s HF NC ES ER) as (s' & S1 & S2 & S3 & D & G). apply G. apply (star_fails c f all s' Mismatch S1 S2 D).
      rewrite S3. destruct (from_next all (next s) v args FR) as [EV _]. exact (not_number v all (next s) Z _ _ EV NV).
    - assert (IC : In c letters) by (destruct HC as [->|[->|HC]]; [cbn; tauto|cbn; tauto|unfold takes_number in HC; cbn in HC; cbn; tauto]).
      destruct (conv_reached fs wt pt c f args w [] p all s HF HW HP IC ES ER FR) as (s' & S1 & S2 & S3 & S4 & S5 & S6 & S7 & S8 & S9 & S10 & B & G).
      apply G. eapply gives_stop; [exact S2|]. unfold TfmModel.step. rewrite S1. apply convert_fails; [exact IC|exact S7|].
      left. exact (from_end all (next s') S8 NE).
    - assert (IC : In c letters) by (unfold takes_number in HC; cbn in HC; cbn; tauto).
      destruct (conv_reached fs wt pt c f args w (v :: args') p all s HF HW HP IC ES ER FR) as (s' & S1 & S2 & S3 & S4 & S5 & S6 & S7 & S8 & S9 & S10 & B & G).
      apply G. eapply gives_stop; [exact S2|]. unfold TfmModel.step. rewrite S1. apply convert_fails; [exact IC|exact S7|].
      right. split; [exact HC|]. exists v. split; [exact (proj1 (from_next all (next s') v args' S8))|]. split; [exact NV|reflexivity].
  Qed.

  Lemma printf_outputs : forall f args o, formats N A F f args o -> func_printf N A F (JsonModel.JString N f :: args) = Val o.
  Proof.
    intros f args o H. apply gives_printf. apply (formats_gives f args o H args (init f)); [reflexivity|reflexivity| |left; reflexivity].
    split; [cbn; lia|]. split; [cbn; lia|]. reflexivity.
  Qed.
  Lemma printf_errs : forall f args x, errs N A F f args x -> args <> [] -> func_printf N A F (JsonModel.JString N f :: args) = Stop x.
  Proof.
    intros f args x H NE. apply gives_printf. apply (errs_gives f args x H args (init f)); [exact NE|reflexivity|reflexivity| |left; reflexivity].
    split; [cbn; lia|]. split; [cbn; lia|]. reflexivity.
  Qed.
End Proofs.
