From Coq Require Import Ascii String List ZArith Bool Lia ZifyBool ZifyNat.
From Verif Require Import Bytes ClenModel ClenSpec ClenProofs ReqModel UrlModel UrlProofs NumModel NumSpec NumProofs XpdModel XpdSpec.
Import ListNotations.
Open Scope Z_scope.

Local Arguments firstn : simpl never.
Local Arguments skipn : simpl never.

(** ** Fuel *)

Lemma span_suffix : forall p s, exists pre, s = pre ++ snd (span p s).
Proof. intros p s. exists (fst (span p s)). symmetry. apply span_app. Qed.

Lemma span_eq : forall p s a b, span p s = (a, b) -> s = a ++ b.
Proof. intros p s a b H. pose proof (span_app p s) as K. rewrite H in K. auto. Qed.

Lemma scan_suffix : forall base s neg v rest, scan_number base s = Some (neg, v, rest) ->
  exists pre, pre <> [] /\ s = pre ++ rest.
Proof.
  intros base s neg v rest H. unfold scan_number in H.
  destruct (span_suffix is_space s) as [p1 H1].
  set (s1 := snd (span is_space s)) in *. clearbody s1.
  assert (K : exists sgn s2 b, s1 = sgn ++ s2 /\
     match span (num_digit base) s2 with (ds, r) =>
      match ds with [] => None | _ => Some (b, num_value base ds, r) end end = Some (neg, v, rest)).
  { destruct s1 as [|c r].
    - exists [], [], false. auto.
    - destruct (beq c "-"%char).
      + exists [c], r, true. auto.
      + destruct (beq c "+"%char).
        * exists [c], r, false. auto.
        * exists [], (c :: r), false. auto. }
  destruct K as (sgn & s2 & b & H2 & H3).
  destruct (span (num_digit base) s2) as [ds r] eqn:E. apply span_eq in E.
  destruct ds as [|d ds]; [discriminate|]. injection H3 as -> ? ->. subst.
  exists (p1 ++ sgn ++ d :: ds). split; [destruct p1; [destruct sgn|]; discriminate|].
  rewrite <- !app_assoc. reflexivity.
Qed.

Lemma strtoul_suffix : forall s base e v rest, strtoul s base = (e, v, rest) -> exists pre, s = pre ++ rest.
Proof.
  intros s base e v rest H. unfold strtoul in H.
  destruct (scan_number base s) as [[[neg w] r]|] eqn:E.
  - apply scan_suffix in E as (pre & _ & E). exists pre.
    destruct (ULONG_MAX <? w); injection H as _ _ <-; auto.
  - injection H as _ _ <-. exists []. auto.
Qed.

Definition consumes (str str' : bytes) : Prop := exists pre, pre <> [] /\ str = pre ++ str'.

Lemma consumes_skip : forall n s, (0 < n)%nat -> s <> [] -> consumes s (skipn n s).
Proof.
  intros n s Hn Hs. exists (firstn n s). split; [|symmetry; apply firstn_skipn].
  destruct n; [lia|]. destruct s; [congruence|]. rewrite firstn_cons. discriminate.
Qed.

Lemma consumes_suffix : forall s s' pre s'', consumes s s' -> s' = pre ++ s'' -> consumes s s''.
Proof.
  intros s s' pre s'' (p & Hp & ->) ->. exists (p ++ pre). split; [destruct p; [congruence|discriminate]|].
  apply app_assoc.
Qed.

Lemma skipn_suffix : forall n (s : bytes), exists pre, s = pre ++ skipn n s.
Proof. intros n s. exists (firstn n s). symmetry. apply firstn_skipn. Qed.

Lemma ref_consumes : forall c0 str brace r ph out r' str' ph', str <> [] ->
  expand_ref c0 str brace r ph = T_NEXT out r' str' ph' -> consumes str str' /\ ph' = ph.
Proof.
  intros c0 str brace r ph out r' str' ph' Hs H. unfold expand_ref in H.
  assert (Hc : consumes str (skipn (if brace then 2 else 1) str))
    by (apply consumes_skip; auto; destruct brace; lia).
  destruct (strtoul (skipn (if brace then 2 else 1) str) 10) as [[e g] p] eqn:E.
  apply strtoul_suffix in E as [p1 E].
  pose proof (consumes_suffix _ _ _ _ Hc E) as Hp.
  destruct e; [injection H as _ _ <- <-; split; auto; apply consumes_skip; auto; lia|].
  destruct (beq c0 DOLLAR && starts LPAREN p) eqn:E1.
  - destruct (strtoul (skipn 1 p) 10) as [[e2 v] q] eqn:E2.
    apply strtoul_suffix in E2 as [p2 E2].
    destruct (skipn_suffix 1 p) as [p3 E3].
    assert (Hq : consumes str q).
    { apply (consumes_suffix _ _ (p3 ++ p2) _ Hp). rewrite <- app_assoc, <- E2. auto. }
    destruct (e2 || negb (starts RPAREN q)); [injection H as _ _ <- <-; auto|].
    destruct ((ulong_to_long v <? 0) || (Z.of_nat SMQ_SIZE <=? ulong_to_long v)); [injection H as _ _ <- <-; auto|].
    destruct (skipn_suffix 1 q) as [p4 E4].
    assert (Hq1 : consumes str (skipn 1 q)) by (eapply consumes_suffix; eauto).
    destruct (brace && negb (starts RBRACE (skipn 1 q))); [injection H as _ _ <- <-; auto|].
    assert (Hq2 : consumes str (if brace then skipn 1 (skipn 1 q) else skipn 1 q)).
    { destruct brace; auto. destruct (skipn_suffix 1 (skipn 1 q)) as [p5 E5]. eapply consumes_suffix; eauto. }
    destruct (group_text _ _); try discriminate; injection H as _ _ <- <-; auto.
  - destruct (brace && negb (starts RBRACE p)); [injection H as _ _ <- <-; auto|].
    assert (Hq2 : consumes str (if brace then skipn 1 p else p)).
    { destruct brace; auto. destruct (skipn_suffix 1 p) as [p5 E5]. eapply consumes_suffix; eauto. }
    destruct (group_text _ _); try discriminate; injection H as _ _ <- <-; auto.
Qed.

Lemma acc_consumes : forall str r ph out r' str' ph', str <> [] ->
  expand_acc str r ph = T_NEXT out r' str' ph' -> consumes str str'.
Proof.
  intros str r ph out r' str' ph' Hs H. unfold expand_acc in H.
  assert (Hc : consumes str (skipn 2 str)) by (apply consumes_skip; auto; lia).
  destruct (span (fun c => negb (beq c RBRACK)) (skipn 2 str)) as [text q] eqn:E. apply span_eq in E.
  destruct q as [|c rest]; [injection H as _ _ <- _; auto|].
  assert (Hr : consumes str rest).
  { apply (consumes_suffix _ _ (text ++ [c]) _ Hc). rewrite <- app_assoc. auto. }
  destruct (find_accessor text); [injection H as _ _ <- _; auto| |discriminate].
  destruct (accessor_call a arg ph) as [v ph1]. destruct v; try discriminate; injection H as _ _ <- _; auto.
Qed.

Lemma turn_consumes : forall acc str r ph out r' str' ph', str <> [] ->
  expand_turn acc str r ph = T_NEXT out r' str' ph' -> consumes str str'.
Proof.
  intros acc str r ph out r' str' ph' Hs H. unfold expand_turn in H.
  destruct str as [|c0 [|c1 s]]; [congruence|discriminate|].
  destruct (beq c0 DOLLAR && (beq c1 DOLLAR || beq c1 PERCENT)).
  { injection H as _ _ <- _. exists [c0; c1]. split; [discriminate|auto]. }
  destruct (beq c0 PERCENT && is_xdigit c1 && _).
  { injection H as _ _ <- _. apply consumes_skip; [lia|discriminate]. }
  destruct (acc && beq c0 PERCENT && beq c1 LBRACK).
  { eapply acc_consumes; eauto. }
  destruct (beq c1 LBRACE); [eapply ref_consumes; eauto|].
  destruct (is_digit c1); [eapply ref_consumes; eauto|].
  injection H as _ _ <- _. exists [c0]. split; [discriminate|auto].
Qed.

Lemma consumes_length : forall s s', consumes s s' -> (length s' < length s)%nat.
Proof. intros s s' (p & Hp & ->). rewrite app_length. destruct p; [congruence|simpl; lia]. Qed.

Lemma loop_fuel : forall acc f1 f2 str r ph, (length str <= f1)%nat -> (length str <= f2)%nat ->
  expand_loop f1 acc str r ph = expand_loop f2 acc str r ph /\ expand_loop f1 acc str r ph <> XFuel.
Proof.
  intros acc f1. induction f1 as [|f1 IH]; intros f2 str r ph H1 H2.
  - destruct str; [|simpl in H1; lia]. destruct f2; split; try reflexivity; discriminate.
  - destruct str as [|c str]; [destruct f2; split; try reflexivity; discriminate|].
    destruct f2 as [|f2]; [simpl in H2; lia|].
    cbn [expand_loop].
    destruct (span (fun c => negb (special c)) (c :: str)) as [plain rest] eqn:E.
    destruct rest as [|d rest]; [split; [reflexivity|discriminate]|].
    destruct (expand_turn acc (d :: rest) r ph) as [out r' str' ph'|u] eqn:Et; [|split; [reflexivity|discriminate]].
    apply turn_consumes in Et; [|discriminate]. apply consumes_length in Et.
    apply span_eq in E. assert (HL : length (c :: str) = length (plain ++ d :: rest)) by (rewrite E; auto).
    rewrite app_length in HL. simpl in H1, H2, HL, Et.
    destruct (IH f2 str' r' ph') as [K1 K2]; [lia|lia|]. rewrite <- K1.
    split; [reflexivity|]. destruct (expand_loop f1 acc str' r' ph'); congruence.
Qed.

(** The loop without fuel. *)
Definition E (acc : bool) (str : bytes) (r : Z) (ph : phttp) : xres := expand_loop (length str) acc str r ph.

Definition prepend (b : bytes) (x : xres) : xres :=
  match x with XDone out r p => XDone (b ++ out) r p | x => x end.

Lemma E_nil : forall acc r ph, E acc [] r ph = XDone [] r ph.
Proof. reflexivity. Qed.

Lemma E_plain : forall acc c t r ph, special c = false -> E acc (c :: t) r ph = prepend [c] (E acc t r ph).
Proof.
  intros acc c t r ph H. unfold E. cbn [length].
  destruct (loop_fuel acc (S (length t)) (length t) t r ph) as [K _]; [lia|lia|]. rewrite <- K.
  cbn [expand_loop span]. rewrite H. cbn [negb].
  destruct t as [|d t]; [reflexivity|].
  destruct (span (fun c => negb (special c)) (d :: t)) as [plain rest].
  destruct rest as [|x rest]; [reflexivity|].
  destruct (expand_turn acc (x :: rest) r ph); [|reflexivity].
  destruct (expand_loop (length (d :: t)) acc str result p); reflexivity.
Qed.

Lemma E_special : forall acc c t r ph, special c = true ->
  E acc (c :: t) r ph =
  match expand_turn acc (c :: t) r ph with
  | T_UB u => XUndef u
  | T_NEXT out r' str' ph' => prepend out (E acc str' r' ph')
  end.
Proof.
  intros acc c t r ph H. unfold E. cbn [length expand_loop span]. rewrite H. cbn [negb].
  destruct (expand_turn acc (c :: t) r ph) eqn:Et; [|reflexivity].
  apply turn_consumes in Et; [|discriminate]. apply consumes_length in Et. simpl in Et.
  destruct (loop_fuel acc (length t) (length str) str result p) as [K _]; [lia|lia|]. rewrite K.
  destruct (expand_loop (length str) acc str result p); reflexivity.
Qed.

Lemma E_never_out : forall acc str r ph, E acc str r ph <> XFuel.
Proof. intros acc str r ph. apply (loop_fuel acc (length str) (length str)); lia. Qed.

(** ** The accessors *)

Lemma same_refl : forall p, same p p.
Proof. intros p. unfold same, same_req. repeat split; auto. Qed.
Lemma same_trans : forall p q r, same p q -> same q r -> same p r.
Proof.
  intros p q r (A1 & A2 & A3 & A4 & A5 & A6 & A7 & A8 & A9 & A10) (B1 & B2 & B3 & B4 & B5 & B6 & B7 & B8 & B9 & B10).
  unfold same, same_req. repeat split; congruence.
Qed.

Lemma split_idem : forall r, http_request_split (http_request_split r) = http_request_split r.
Proof.
  intros r. pose proof (split_false r) as H.
  unfold http_request_split at 1. rewrite H. reflexivity.
Qed.

Lemma split_keeps : forall r, let r' := http_request_split r in
  r_url r' = r_url r /\ r_method r' = r_method r /\ r_version r' = r_version r /\ r_request r' = r_request r /\
  r_orig r' = r_orig r.
Proof.
  intros r. cbv zeta. unfold http_request_split. destruct (r_split r); [|auto].
  destruct (find_qmark _ _); repeat split; reflexivity.
Qed.

Lemma same_split : forall r, same_req r (http_request_split r).
Proof.
  intros r. destruct (split_keeps r) as (A & B & C & D & F). unfold same_req. repeat split; auto.
  - unfold http_request_get_path. rewrite split_idem. reflexivity.
  - unfold http_request_get_query. rewrite split_idem. reflexivity.
  - intros n. unfold http_request_get_query_param_value, http_request_get_query_param. rewrite split_idem. reflexivity.
Qed.

Definition load (r : req) : req :=
  let r := http_request_split r in match r_params r with [] => http_request_parse_query r | _ => r end.

Lemma param_load : forall r n, http_request_get_query_param_value r n = (option_map snd (find_param (r_params (load r)) n), load r).
Proof. reflexivity. Qed.

Lemma load_split : forall r, r_split (load r) = false.
Proof.
  intros r. unfold load. pose proof (split_false r) as H. destruct (r_params (http_request_split r)); auto.
  unfold http_request_parse_query, http_request_get_query. rewrite split_idem.
  destruct (r_query (http_request_split r)); auto.
Qed.

Lemma unsplit : forall r, r_split r = false -> http_request_split r = r.
Proof. intros r H. unfold http_request_split. rewrite H. reflexivity. Qed.

Lemma load_fields : forall r, let r' := load r in let s := http_request_split r in
  r_url r' = r_url s /\ r_method r' = r_method s /\ r_version r' = r_version s /\ r_request r' = r_request s /\
  r_orig r' = r_orig s /\ r_path r' = r_path s /\ r_query r' = r_query s.
Proof.
  intros r. cbv zeta. unfold load. destruct (r_params (http_request_split r)); [|repeat split].
  unfold http_request_parse_query, http_request_get_query. rewrite split_idem.
  destruct (r_query (http_request_split r)) eqn:E; rewrite ?E; repeat split; auto.
Qed.

Lemma load_idem : forall r, r_params (load (load r)) = r_params (load r).
Proof.
  intros r. unfold load at 1. rewrite (unsplit _ (load_split r)).
  destruct (r_params (load r)) eqn:E; [|rewrite E; reflexivity].
  unfold http_request_parse_query, http_request_get_query. rewrite (unsplit _ (load_split r)).
  destruct (r_query (load r)) as [q|] eqn:Eq; [|auto]. cbn [r_params]. rewrite E. simpl app.
  unfold load in E, Eq. destruct (r_params (http_request_split r)) eqn:Es; [|rewrite Es in E; discriminate].
  unfold http_request_parse_query, http_request_get_query in E, Eq. rewrite split_idem in E, Eq.
  destruct (r_query (http_request_split r)) as [q'|] eqn:E'; [|congruence].
  cbn [r_params r_query] in E, Eq. rewrite Es in E. simpl in E. congruence.
Qed.

Lemma same_load : forall r, same_req r (load r).
Proof.
  intros r. destruct (load_fields r) as (A & B & C & D & F & G & H).
  destruct (split_keeps r) as (A' & B' & C' & D' & F'). cbv zeta in *.
  unfold same_req. repeat split; try congruence.
  - unfold http_request_get_path. rewrite (unsplit _ (load_split r)). auto.
  - unfold http_request_get_query. rewrite (unsplit _ (load_split r)). auto.
  - intros n. rewrite !param_load, load_idem. reflexivity.
Qed.

Lemma name_eqb_iff : forall h n, name_eqb h n = true <-> lower (h_name h) = lower n.
Proof.
  intros h n. unfold name_eqb. rewrite andb_true_iff, ci_eqb_eq, Nat.eqb_eq. split; [tauto|]. intros H.
  split; [|auto]. apply (f_equal (@length _)) in H. unfold lower in H. rewrite !map_length in H. auto.
Qed.

Lemma locate_some : forall hs n h, http_header_list_locate_name hs n = Some h -> first_field hs n (h_val h).
Proof.
  induction hs as [|x hs IH]; intros n h H; [discriminate|]. cbn [http_header_list_locate_name] in H.
  destruct (name_eqb x n) eqn:E.
  - injection H as ->. exists [], h, hs. apply name_eqb_iff in E. auto.
  - destruct (IH n h H) as (pre & y & post & -> & A & B & C). exists (x :: pre), y, post. repeat split; auto.
    constructor; auto. intros K. apply name_eqb_iff in K. congruence.
Qed.

Lemma locate_none : forall hs n, http_header_list_locate_name hs n = None -> no_field hs n.
Proof.
  induction hs as [|x hs IH]; intros n H; [constructor|]. cbn [http_header_list_locate_name] in H.
  destruct (name_eqb x n) eqn:E; [discriminate|]. constructor; [|apply IH; auto].
  intros K. apply name_eqb_iff in K. congruence.
Qed.

Lemma locate_first : forall hs n v, first_field hs n v ->
  exists h, http_header_list_locate_name hs n = Some h /\ h_val h = v.
Proof.
  intros hs n v (pre & h & post & -> & A & B & C). exists h. split; auto.
  induction pre as [|x pre IH]; cbn [app http_header_list_locate_name].
  - rewrite (proj2 (name_eqb_iff h n) A). reflexivity.
  - inversion C as [|y l H1 H2]; subst. destruct (name_eqb x n) eqn:E; [apply name_eqb_iff in E; congruence|]. auto.
Qed.

Lemma locate_absent : forall hs n, no_field hs n -> http_header_list_locate_name hs n = None.
Proof.
  intros hs n H. induction H as [|x hs Hx H IH]; [reflexivity|]. cbn [http_header_list_locate_name].
  destruct (name_eqb x n) eqn:E; [apply name_eqb_iff in E; congruence|]. auto.
Qed.

Lemma span_host : forall v h q, host_port v h q -> span not_colon v = (h, q).
Proof.
  intros v h q (-> & H1 & H2). apply span_unique.
  - apply forallb_forall. intros x Hx. unfold not_colon. apply negb_true_iff, beq_neq. intros ->. auto.
  - destruct H2 as [->|[p ->]]; [exact I|]. reflexivity.
Qed.

Definition acc_out (x : option bytes) : accval := match x with Some v => AV_VALUE v | None => AV_NOT_FOUND end.

Lemma acc_call_is : forall a arg p o, acc_is p a arg o ->
  exists p', same p p' /\
  (accessor_call a arg p = (acc_out o, p') \/
   (o = None /\ accessor_call a arg p = (AV_NULL, p')) \/
   (o = None /\ (a = ACC_PATH \/ a = ACC_QUERY) /\ accessor_call a arg p = (AV_UNSET, p'))).
Proof.
  intros a arg p o H. destruct H.
  - exists p. split; [apply same_refl|]. left. reflexivity.
  - exists (with_req p (http_request_split (ph_req p))).
    split; [repeat split; try apply (same_split (ph_req p))|].
    unfold accessor_call, http_request_get_path. cbn [fst].
    destruct (r_path (http_request_split (ph_req p))); [left; reflexivity|right; right; auto].
  - exists (with_req p (http_request_split (ph_req p))).
    split; [repeat split; try apply (same_split (ph_req p))|].
    unfold accessor_call, http_request_get_query. cbn [fst].
    destruct (r_query (http_request_split (ph_req p))); [left; reflexivity|right; right; auto].
  - exists (with_req p (load (ph_req p))).
    split; [repeat split; try apply (same_load (ph_req p))|]. left.
    unfold accessor_call. rewrite param_load in *. cbn [fst] in H. rewrite H. reflexivity.
  - exists (with_req p (load (ph_req p))).
    split; [repeat split; try apply (same_load (ph_req p))|].
    unfold accessor_call. rewrite param_load in *. cbn [fst] in H. rewrite H.
    destruct v as [[v|]|]; [destruct (H0 v); auto|right; left; auto|left; auto].
  - exists p. split; [apply same_refl|]. left. destruct (locate_first _ _ _ H) as (h & H1 & H2).
    cbn [accessor_call]. rewrite H1, H2. reflexivity.
  - exists p. split; [apply same_refl|]. left. cbn [accessor_call]. rewrite (locate_absent _ _ H). reflexivity.
  - exists p. split; [apply same_refl|]. left. destruct (locate_first _ _ _ H) as (x & H1 & H2).
    cbn [accessor_call]. rewrite H1, H2, (span_host _ _ _ H0). reflexivity.
  - exists p. split; [apply same_refl|]. left. cbn [accessor_call]. rewrite (locate_absent _ _ H). reflexivity.
  - exists p. split; [apply same_refl|]. left. destruct (locate_first _ _ _ H) as (x & H1 & H2).
    cbn [accessor_call]. rewrite H1, H2, (span_host _ _ _ H0). reflexivity.
  - exists p. split; [apply same_refl|]. left. cbn [accessor_call]. rewrite (locate_absent _ _ H). reflexivity.
Qed.

Lemma acc_call_same : forall a arg p v p', accessor_call a arg p = (v, p') -> same p p'.
Proof.
  intros a arg p v p' H. destruct a; cbn [accessor_call] in H;
    try (injection H as _ <-; apply same_refl).
  - unfold http_request_get_path in H. injection H as _ <-. repeat split; try apply (same_split (ph_req p)).
  - unfold http_request_get_query in H. injection H as _ <-. repeat split; try apply (same_split (ph_req p)).
  - rewrite param_load in H. injection H as _ <-. repeat split; try apply (same_load (ph_req p)).
Qed.

(** The name of an accessor. *)
Lemma acc_name_found : forall name a b, acc_name name a b -> find_acc_name accessors (lit name) = Some (a, b).
Proof. intros name a b H. destruct H; reflexivity. Qed.

Lemma acc_name_word : forall name a b, acc_name name a b ->
  forallb (fun c => negb (isws c)) (lit name) = true /\ exists c t, lit name = c :: t /\ isws c = false.
Proof. intros name a b H. destruct H; (split; [reflexivity|]); eexists; eexists; split; reflexivity. Qed.

Lemma blank_space : forall c, blank c -> is_space c = true.
Proof. intros c [->| ->]; reflexivity. Qed.

Lemma span_true : forall p a b, forallb p a = true -> (forall c r, b = c :: r -> p c = false) -> span p (a ++ b) = (a, b).
Proof. intros p a b H1 H2. apply span_unique; auto. destruct b; [exact I|]. apply (H2 _ _ eq_refl). Qed.

Lemma find_acc_text : forall text a arg, acc_text text a arg -> find_accessor text = F_ACC a arg.
Proof.
  intros text a arg H. destruct H as [w1 w2 name a H1 H2 Hn | w1 w2 name a arg H1 H2 Hw Hn Ha Hh Hl].
  - destruct (acc_name_word _ _ _ Hn) as (W & c & t & Ec & Wc).
    unfold find_accessor. rewrite (span_true isws w1 (lit name ++ w2)).
    2:{ apply Forall_blank; auto. }
    2:{ rewrite Ec. intros d r K. injection K as <- _. auto. }
    cbn [snd]. rewrite Ec in *. cbn [app]. change (c :: t ++ w2) with ((c :: t) ++ w2).
    rewrite (span_true _ (c :: t) w2).
    2:{ auto. }
    2:{ intros d r ->. apply Forall_inv in H2. apply isws_blank in H2. rewrite H2. reflexivity. }
    rewrite <- Ec, (acc_name_found _ _ _ Hn).
    replace (snd (span is_space w2)) with ([] : bytes); [reflexivity|].
    rewrite <- (app_nil_r w2) at 1. rewrite (span_true is_space w2 []); [reflexivity| |discriminate].
    apply forallb_forall. intros x Hx. apply blank_space. rewrite Forall_forall in H2. auto.
  - destruct (acc_name_word _ _ _ Hn) as (W & c & t & Ec & Wc).
    unfold find_accessor. rewrite (span_true isws w1 (lit name ++ w2 ++ arg)).
    2:{ apply Forall_blank; auto. }
    2:{ rewrite Ec. intros d r K. injection K as <- _. auto. }
    cbn [snd]. rewrite Ec in *. cbn [app]. change (c :: t ++ w2 ++ arg) with ((c :: t) ++ w2 ++ arg).
    rewrite (span_true _ (c :: t) (w2 ++ arg)).
    2:{ auto. }
    2:{ intros d r K. destruct w2 as [|x w2]; [congruence|]. injection K as <- _.
        apply Forall_inv in H2. apply isws_blank in H2. rewrite H2. reflexivity. }
    rewrite <- Ec, (acc_name_found _ _ _ Hn). destruct w2 as [|x w2]; [congruence|]. cbn [app].
    rewrite (span_true is_space w2 arg).
    2:{ apply forallb_forall. intros y Hy. apply blank_space. rewrite Forall_forall in H2. apply H2. right; auto. }
    2:{ intros d r ->. auto. }
    cbn [snd]. destruct arg as [|d arg]; [congruence|]. rewrite Hl. reflexivity.
Qed.

Lemma acc_name_all : forall word a b, find_acc_name accessors word = Some (a, b) -> exists name, acc_name name a b /\ word = lit name.
Proof.
  intros word a b H. unfold accessors in H.
  repeat match type of H with
    | find_acc_name (_ :: _) _ = _ => cbn [find_acc_name] in H
    | (if ?c then _ else _) = _ => let C := fresh "C" in destruct c eqn:C;
        [injection H as <- <-; apply andb_true_iff in C as [_ C]; apply bytes_eqb_eq in C; subst; eexists; split; [constructor|reflexivity]|]
    end.
  discriminate.
Qed.

Lemma find_acc_unknown : forall text, no_accessor text -> find_accessor text = F_NONE.
Proof.
  intros text (w & word & rest & -> & Hw & Hword & Hr & Hn).
  assert (R : forall c r, rest = c :: r -> isws c = true).
  { intros c r E. destruct Hr as [->|(_ & d & r' & -> & B)]; [discriminate|]. injection E as -> _. apply isws_blank in B. auto. }
  assert (W : forall c, In c word -> isws c = false).
  { intros c Hc. destruct (isws c) eqn:E; auto. rewrite Forall_forall in Hword. destruct (Hword c Hc). apply isws_blank; auto. }
  assert (N : find_acc_name accessors word = None).
  { destruct (find_acc_name accessors word) as [[a b]|] eqn:E; auto. destruct (acc_name_all _ _ _ E) as (name & K & ->).
    destruct (Hn _ _ _ K eq_refl). }
  unfold find_accessor. destruct word as [|c word].
  - destruct Hr as [->|[Hr _]]; [|congruence]. cbn [app]. rewrite (span_true isws w []); [reflexivity| |discriminate].
    apply Forall_blank; auto.
  - rewrite (span_true isws w ((c :: word) ++ rest)).
    2:{ apply Forall_blank; auto. }
    2:{ intros d r E. injection E as <- _. apply W. left; auto. }
    cbn [snd app]. change (c :: word ++ rest) with ((c :: word) ++ rest). rewrite (span_true _ (c :: word) rest).
    2:{ apply forallb_forall. intros x Hx. rewrite (W x Hx). reflexivity. }
    2:{ intros d r E. rewrite (R _ _ E). reflexivity. }
    rewrite N. reflexivity.
Qed.

(** ** Groups *)

Lemma group_text_is : forall m n text, group_is m n text -> group_text m n = G_TEXT text.
Proof.
  intros m n text (subj & so & eo & H1 & H2 & H3 & H4). unfold group_text. rewrite H1.
  assert (HL : (Z.to_nat n < length (sm_matchv m))%nat) by (apply nth_error_Some; congruence).
  replace (n <=? Z.of_nat (length (sm_matchv m))) with true by lia. rewrite H3.
  destruct H4 as [[-> ->]|(a & b & -> & -> & ->)]; [rewrite Z.eqb_refl; reflexivity|].
  destruct text as [|c text].
  { simpl length. replace (_ =? _) with true by lia. reflexivity. }
  rewrite !app_length. cbn [length app].
  replace (_ =? _) with false by lia.
  replace (_ && _) with true by lia. f_equal.
  replace (Z.to_nat (Z.of_nat (length a) + Z.of_nat (S (length text)) - Z.of_nat (length a))) with (length (c :: text)) by (simpl; lia).
  rewrite Nat2Z.id. rewrite skipn_app, skipn_all, Nat.sub_diag.
  change (skipn 0 (c :: text ++ b)) with ((c :: text) ++ b). cbn [app].
  change (c :: text ++ b) with ((c :: text) ++ b).
  rewrite firstn_app, firstn_all, Nat.sub_diag. change (firstn 0 b) with (@nil ascii). apply app_nil_r.
Qed.

Lemma group_text_missing : forall m n, 0 <= n -> group_missing m n ->
  (sm_subject m <> None -> n <> Z.of_nat (length (sm_matchv m))) -> group_text m n = G_NONE.
Proof.
  intros m n Hn [H|H] K; unfold group_text.
  - rewrite H. reflexivity.
  - destruct (sm_subject m); [|reflexivity]. assert (n <> Z.of_nat (length (sm_matchv m))) by (apply K; discriminate).
    replace (n <=? Z.of_nat (length (sm_matchv m))) with false by lia. reflexivity.
Qed.

(** ** One turn *)

Lemma num_digits : forall ds n, num ds n -> ds <> [] /\ forallb (num_digit 10) ds = true /\ n = num_value 10 ds /\ 0 <= n <= ULONG_MAX.
Proof.
  intros ds n [H1 H2]. apply (numeral_value decimal 10 ds n num_digit_decimal) in H1 as (A & B & C).
  repeat split; auto. subst. apply num_value_nonneg; auto. lia.
Qed.

Lemma num_digit_is : forall c, num_digit 10 c = is_digit c.
Proof. intros c. unfold num_digit, is_digit. lia. Qed.

Lemma strtoul_num : forall ds n rest, num ds n -> (forall c r, rest = c :: r -> is_digit c = false) ->
  strtoul (ds ++ rest) 10 = (false, n, rest).
Proof.
  intros ds n rest H Hr. apply num_digits in H as (A & B & C & D). unfold strtoul.
  rewrite scan_plain; auto; [|lia|].
  - replace (ULONG_MAX <? num_value 10 ds) with false by lia. subst. reflexivity.
  - intros c r K. rewrite num_digit_is. eauto.
Qed.

Lemma num_head : forall ds n, num ds n -> exists c t, ds = c :: t /\ is_digit c = true.
Proof.
  intros ds n H. apply num_digits in H as (A & B & _). destruct ds as [|c t]; [congruence|].
  exists c, t. split; auto. simpl in B. apply andb_true_iff in B as [B _]. rewrite <- num_digit_is. auto.
Qed.

Lemma decimal_is : forall c, (exists d, decimal c d) <-> is_digit c = true.
Proof.
  intros c. rewrite <- num_digit_is. split.
  - intros [d H]. apply num_digit_decimal in H. tauto.
  - intros H. exists (code c - 48). apply num_digit_decimal. auto.
Qed.

Lemma hex_is : forall c, hexdigit c <-> is_xdigit c = true.
Proof.
  intros c. unfold hexdigit. split.
  - intros [d H]. apply hexadecimal_model in H.
    destruct c as [[] [] [] [] [] [] [] []]; vm_compute in H; try discriminate; reflexivity.
  - intros H. assert (K : exists d, clen_digit 16 c = Some d).
    { destruct c as [[] [] [] [] [] [] [] []]; vm_compute in H; try discriminate; eexists; reflexivity. }
    destruct K as [d K]. exists d. apply hexadecimal_model. auto.
Qed.

Lemma upto_app : forall a b, upto (a ++ b) b = a.
Proof.
  intros a b. unfold upto. rewrite app_length. replace (length a + length b - length b)%nat with (length a) by lia.
  rewrite firstn_app, firstn_all, Nat.sub_diag. change (firstn 0 b) with (@nil ascii). apply app_nil_r.
Qed.

(** What a reference does, whatever its form. *)
Definition ref_turn (str rest : bytes) (m : nat) (n : Z) (r : Z) (ph : phttp) : turn :=
  match group_text (submatch_queue_get (ph_smq ph) m) n with
  | G_TEXT b => T_NEXT b (count r) rest ph
  | G_NONE => T_NEXT (upto str rest) (-1) rest ph
  | G_UB u => T_UB u
  end.

Lemma digit_chars : is_digit "("%char = false /\ is_digit ")"%char = false /\ is_digit "}"%char = false.
Proof. repeat split. Qed.

Ltac nodig := let c := fresh in let r := fresh in let K := fresh in
  intros c r K; injection K as <- _; reflexivity.

Lemma digit_ne : forall c, is_digit c = true -> beq c DOLLAR = false /\ beq c PERCENT = false /\ beq c LBRACE = false /\ beq c LBRACK = false.
Proof. intros c H. destruct c as [[] [] [] [] [] [] [] []]; vm_compute in H; try discriminate; repeat split. Qed.

Lemma digit_xdigit : forall c, is_digit c = true -> is_xdigit c = true.
Proof. intros c H. unfold is_xdigit. rewrite H. reflexivity. Qed.

Lemma turn_ref : forall ds n t r ph, num ds n ->
  ~ begins (fun c => (exists d, decimal c d) \/ c = "("%char) t ->
  expand_turn true ("$"%char :: ds ++ t) r ph = ref_turn ("$"%char :: ds ++ t) t 0 n r ph.
Proof.
  intros ds n t r ph H Ht. destruct (num_head _ _ H) as (c & ds' & Ed & Hc).
  destruct (digit_ne c Hc) as (K1 & K2 & K3 & K4).
  assert (Hr : forall x y, t = x :: y -> is_digit x = false).
  { intros x y Et. destruct (is_digit x) eqn:Ex; auto. exfalso. apply Ht. exists x, y. split; auto. left. apply decimal_is. auto. }
  assert (Hs : starts LPAREN t = false).
  { destruct t as [|x y]; [reflexivity|]. cbn [starts]. apply beq_neq. intros ->. apply Ht. exists LPAREN, y. auto. }
  subst ds. unfold expand_turn. cbn [app]. rewrite K1, K2, K3, K4, Hc.
  change (beq "$"%char DOLLAR) with true. change (beq "$"%char PERCENT) with false. cbn [andb orb].
  unfold expand_ref. change (skipn 1 ("$"%char :: c :: ds' ++ t)) with ((c :: ds') ++ t).
  rewrite (strtoul_num _ _ _ H Hr). rewrite Hs. change (beq "$"%char DOLLAR) with true. cbn [andb]. cbv iota.
  reflexivity.
Qed.

Lemma small_long : forall m, (m < 8)%nat -> ulong_to_long (Z.of_nat m) = Z.of_nat m.
Proof. intros m H. unfold ulong_to_long, LONG_MAX. destruct (Z.ltb_spec 9223372036854775807 (Z.of_nat m)); lia. Qed.

Lemma turn_ref_of : forall ds n es m t r ph, num ds n -> num es (Z.of_nat m) -> (m < 8)%nat ->
  let str := "$"%char :: ds ++ "("%char :: es ++ ")"%char :: t in
  expand_turn true str r ph = ref_turn str t m n r ph.
Proof.
  intros ds n es m t r ph H He Hm str. destruct (num_head _ _ H) as (c & ds' & Ed & Hc).
  destruct (digit_ne c Hc) as (K1 & K2 & K3 & K4).
  subst ds. unfold expand_turn, str. cbn [app]. rewrite K1, K2, K3, K4, Hc.
  change (beq "$"%char DOLLAR) with true. change (beq "$"%char PERCENT) with false. cbn [andb orb].
  unfold expand_ref.
  change (skipn 1 ("$"%char :: c :: ds' ++ "("%char :: es ++ ")"%char :: t)) with ((c :: ds') ++ "("%char :: es ++ ")"%char :: t).
  rewrite (strtoul_num _ _ _ H) by nodig. change (starts LPAREN ("("%char :: es ++ ")"%char :: t)) with true.
  change (beq "$"%char DOLLAR) with true. cbn [andb]. cbv iota.
  change (skipn 1 ("("%char :: es ++ ")"%char :: t)) with (es ++ ")"%char :: t).
  rewrite (strtoul_num _ _ _ He) by nodig. change (starts RPAREN (")"%char :: t)) with true.
  rewrite (small_long m Hm). cbn [orb negb].
  replace ((Z.of_nat m <? 0) || (Z.of_nat SMQ_SIZE <=? Z.of_nat m)) with false by (unfold SMQ_SIZE; lia).
  cbv iota. rewrite Nat2Z.id. change (skipn 1 (")"%char :: t)) with t.
  reflexivity.
Qed.

Lemma turn_bref : forall c0 ds n t r ph, num ds n -> c0 = "$"%char \/ c0 = "%"%char ->
  let str := c0 :: "{"%char :: ds ++ "}"%char :: t in
  expand_turn true str r ph = ref_turn str t (if beq c0 DOLLAR then 0 else 1) n r ph.
Proof.
  intros c0 ds n t r ph H Hc str.
  assert (K : expand_turn true str r ph = expand_ref c0 str true r ph).
  { unfold expand_turn, str. destruct (ds ++ "}"%char :: t) eqn:Ee; [destruct ds; discriminate|].
    destruct Hc as [->| ->]; reflexivity. }
  rewrite K. unfold expand_ref, str. change (skipn 2 (c0 :: "{"%char :: ds ++ "}"%char :: t)) with (ds ++ "}"%char :: t).
  rewrite (strtoul_num _ _ _ H) by nodig. change (starts LPAREN ("}"%char :: t)) with false.
  rewrite andb_false_r. cbv iota zeta. change (starts RBRACE ("}"%char :: t)) with true. cbn [andb negb].
  change (skipn 1 ("}"%char :: t)) with t. destruct Hc as [->| ->]; reflexivity.
Qed.

Lemma turn_bref_of : forall ds n es m t r ph, num ds n -> num es (Z.of_nat m) -> (m < 8)%nat ->
  let str := "$"%char :: "{"%char :: ds ++ "("%char :: es ++ ")"%char :: "}"%char :: t in
  expand_turn true str r ph = ref_turn str t m n r ph.
Proof.
  intros ds n es m t r ph H He Hm str.
  assert (K : expand_turn true str r ph = expand_ref "$"%char str true r ph).
  { unfold expand_turn, str. destruct (ds ++ _) eqn:Ee; [destruct ds; discriminate|]. reflexivity. }
  rewrite K. unfold expand_ref, str.
  change (skipn 2 ("$"%char :: "{"%char :: ds ++ "("%char :: es ++ ")"%char :: "}"%char :: t)) with (ds ++ "("%char :: es ++ ")"%char :: "}"%char :: t).
  rewrite (strtoul_num _ _ _ H) by nodig. change (starts LPAREN ("("%char :: es ++ ")"%char :: "}"%char :: t)) with true.
  change (beq "$"%char DOLLAR) with true. cbn [andb]. cbv iota.
  change (skipn 1 ("("%char :: es ++ ")"%char :: "}"%char :: t)) with (es ++ ")"%char :: "}"%char :: t).
  rewrite (strtoul_num _ _ _ He) by nodig. change (starts RPAREN (")"%char :: "}"%char :: t)) with true.
  rewrite (small_long m Hm). cbn [orb negb].
  replace ((Z.of_nat m <? 0) || (Z.of_nat SMQ_SIZE <=? Z.of_nat m)) with false by (unfold SMQ_SIZE; lia).
  cbv iota. rewrite Nat2Z.id. change (skipn 1 (")"%char :: "}"%char :: t)) with ("}"%char :: t).
  change (starts RBRACE ("}"%char :: t)) with true. reflexivity.
Qed.

Lemma turn_old : forall c n t r ph, decimal c n -> ~ begins hexdigit t ->
  expand_turn true ("%"%char :: c :: t) r ph = ref_turn ("%"%char :: c :: t) t 1 n r ph.
Proof.
  intros c n t r ph H Ht.
  assert (Hc : is_digit c = true) by (apply decimal_is; eauto).
  destruct (digit_ne c Hc) as (K1 & K2 & K3 & K4).
  assert (Hx : match t with [] => false | c2 :: _ => is_xdigit c2 end = false).
  { destruct t as [|x y]; auto. destruct (is_xdigit x) eqn:Ex; auto. exfalso. apply Ht. exists x, y. split; auto. apply hex_is; auto. }
  assert (Hr : forall x y, t = x :: y -> is_digit x = false).
  { intros x y ->. destruct (is_digit x) eqn:Ex; auto. apply digit_xdigit in Ex. congruence. }
  assert (Hn : num [c] n).
  { split; [constructor; auto|]. apply num_digit_decimal in H as [H ->]. unfold num_digit in H. lia. }
  unfold expand_turn. rewrite K1, K2, K3, K4, Hc, Hx. change (beq "%"%char DOLLAR) with false. rewrite andb_false_r. cbn [andb].
  rewrite andb_false_r. cbv iota.
  unfold expand_ref. change (skipn 1 ("%"%char :: c :: t)) with ([c] ++ t).
  rewrite (strtoul_num _ _ _ Hn Hr). reflexivity.
Qed.

Lemma turn_acc : forall text a arg t r ph, acc_text text a arg -> ~ In "]"%char text ->
  expand_turn true ("%"%char :: "["%char :: text ++ "]"%char :: t) r ph =
  match accessor_call a arg ph with
  | (AV_VALUE v, ph) => T_NEXT v (count r) t ph
  | (AV_UNSET, ph) => T_UB UB_UNSET
  | (AV_NOT_FOUND, ph) | (AV_NULL, ph) => T_NEXT [] r t ph
  end.
Proof.
  intros text a arg t r ph H Hn.
  assert (K : expand_turn true ("%"%char :: "["%char :: text ++ "]"%char :: t) r ph =
              expand_acc ("%"%char :: "["%char :: text ++ "]"%char :: t) r ph).
  { unfold expand_turn. destruct (text ++ _) eqn:Ee; [destruct text; discriminate|]. reflexivity. }
  rewrite K. unfold expand_acc.
  change (skipn 2 ("%"%char :: "["%char :: text ++ "]"%char :: t)) with (text ++ "]"%char :: t).
  rewrite (span_true _ text ("]"%char :: t)).
  - rewrite (find_acc_text _ _ _ H). destruct (accessor_call a arg ph) as [[] p]; reflexivity.
  - apply forallb_forall. intros x Hx. apply negb_true_iff, beq_neq. intros ->. auto.
  - intros x y Q. injection Q as <- _. reflexivity.
Qed.

(** ** Expansion of a template *)

Lemma same_group : forall p p' m, same p p' -> submatch_queue_get (ph_smq p') m = submatch_queue_get (ph_smq p) m.
Proof. intros p p' m (_ & H & _). rewrite H. reflexivity. Qed.

Lemma same_acc : forall p p' a arg o, same p p' -> acc_is p a arg o -> acc_is p' a arg o.
Proof.
  intros p p' a arg o (H1 & H2 & H3 & H4 & H5 & H6 & H7 & H8 & H9 & H10) H. destruct H.
  - unfold http_request_get_url. rewrite <- H3. apply ai_url.
  - rewrite <- H8. constructor.
  - rewrite <- H9. constructor.
  - constructor. rewrite H10. auto.
  - apply ai_no_param with v; [|auto]. rewrite H10. auto.
  - constructor. rewrite H1. auto.
  - constructor. rewrite H1. auto.
  - eapply ai_host; eauto. rewrite H1. auto.
  - constructor. rewrite H1. auto.
  - eapply ai_port; eauto. rewrite H1. auto.
  - constructor. rewrite H1. auto.
Qed.

Lemma same_sym : forall p q, same p q -> same q p.
Proof.
  intros p q (H1 & H2 & H3 & H4 & H5 & H6 & H7 & H8 & H9 & H10).
  unfold same, same_req. repeat split; auto.
Qed.

Lemma same_stands : forall p p' x b n, same p p' -> stands p x b n -> stands p' x b n.
Proof.
  intros p p' x b n S H. destruct H.
  - constructor.
  - constructor. rewrite (same_group _ _ _ S). auto.
  - constructor. eapply same_acc; eauto.
  - constructor. eapply same_acc; eauto.
Qed.

Lemma same_renders : forall p p' xs b n, same p p' -> renders p xs b n -> renders p' xs b n.
Proof. intros p p' xs b n S H. induction H; constructor; auto. eapply same_stands; eauto. Qed.

Lemma same_missing : forall p p' x, same p p' -> missing p x -> missing p' x.
Proof. intros p p' x S (n & m & -> & H). exists n, m. split; auto. rewrite (same_group _ _ _ S). auto. Qed.

Lemma same_tame : forall p p' x, same p p' -> tame p x -> tame p' x.
Proof.
  intros p p' x S H. destruct x; cbn [tame] in *; auto.
  - rewrite (same_group _ _ _ S). auto.
  - destruct H as [A B]. split; intros -> K; [apply A|apply B]; auto; eapply same_acc; eauto; apply same_sym; auto.
Qed.

Lemma missing_not_stands : forall p x b n, missing p x -> ~ stands p x b n.
Proof.
  intros p x b n (k & m & -> & H) K. inversion K as [|k' m' t G| |]; subst.
  destruct G as (subj & so & eo & G1 & G2 & G3 & _). destruct H as [H|H]; [congruence|].
  assert (Z.to_nat k < length (sm_matchv (submatch_queue_get (ph_smq p) m)))%nat by (apply nth_error_Some; congruence). lia.
Qed.

(** The outcome for a readable template: either all of its references exist and
    the text is their rendering, or one is missing and the result is -1. *)
Definition good (t : bytes) (xs : list piece) (p : phttp) (r : Z) : Prop :=
  exists out r' p', E true t r p = XDone out r' p' /\ same p p' /\
    (r = -1 -> r' = -1) /\
    (forall b k, renders p xs b k -> 0 <= r -> out = b /\ r' = r + k) /\
    (Exists (missing p) xs -> r' = -1).

Lemma stands_fun : forall p x b n b' n', stands p x b n -> stands p x b' n' ->
  match x with PAcc _ _ => True | _ => b = b' /\ n = n' end.
Proof.
  intros p x b n b' n' H K. destruct x; auto; inversion H; inversion K; subst; auto.
  match goal with A : group_is _ _ b, B : group_is _ _ b' |- _ => apply group_text_is in A; apply group_text_is in B; split; congruence end.
Qed.

Lemma count_pos : forall r, 0 <= r -> count r = r + 1.
Proof. intros r H. unfold count. replace (0 <=? r) with true by lia. reflexivity. Qed.
Lemma count_neg : count (-1) = -1.
Proof. reflexivity. Qed.

(** A piece that is copied. *)
Lemma good_copy : forall pre cs t xs p r, length pre <> 0%nat ->
  E true (pre ++ t) r p = prepend cs (E true t r p) ->
  good t xs p r -> good (pre ++ t) (map PByte cs ++ xs) p r.
Proof.
  intros pre cs t xs p r Hl HE (out & r' & p' & H1 & H2 & H3 & H4 & H5).
  exists (cs ++ out), r', p'. rewrite HE, H1. refine (conj eq_refl (conj H2 (conj H3 (conj _ _)))).
  - intros b k Hb Hr. clear HE H1 Hl. assert (K : exists b', renders p xs b' k /\ b = cs ++ b').
    { revert b k Hb. induction cs as [|c cs IH]; intros b k Hb; [exists b; auto|].
      cbn [map app] in Hb. inversion Hb as [|x xs' b1 n1 bs k1 S1 S2]; subst.
      inversion S1; subst. destruct (IH _ _ S2) as (b' & B1 & B2). exists b'. split; [auto|]. subst. reflexivity. }
    destruct K as (b' & K1 & ->). destruct (H4 _ _ K1 Hr) as [-> ->]. auto.
  - intros K. apply H5. apply Exists_app in K as [K|K]; auto. exfalso.
    clear -K. induction cs as [|c cs IH]; cbn [map] in K; inversion K; subst; auto.
    match goal with H : missing _ (PByte _) |- _ => destruct H as (? & ? & ? & _); discriminate end.
Qed.

Lemma special_of : forall c, special c = true <-> c = "$"%char \/ c = "%"%char.
Proof. intros c. unfold special. rewrite orb_true_iff, !beq_eq. reflexivity. Qed.

(** A reference. *)
Lemma good_ref : forall c0 str0 t n m xs p r, special c0 = true -> 0 <= n -> (-1 <= r) ->
  expand_turn true (c0 :: str0) r p = ref_turn (c0 :: str0) t m n r p ->
  sound_queue (ph_smq p) -> Forall (tame p) (PRef n m :: xs) ->
  (forall p' r, same p p' -> -1 <= r -> good t xs p' r) ->
  good (c0 :: str0) (PRef n m :: xs) p r.
Proof.
  intros c0 str0 t n m xs p r Hc Hn Hr HT HS Htame IH.
  pose proof (Forall_inv Htame) as Ht. cbn [tame] in Ht.
  unfold good. rewrite (E_special true c0 str0 r p Hc), HT. unfold ref_turn.
  set (sm := submatch_queue_get (ph_smq p) m) in *.
  destruct (group_text sm n) eqn:Eg.
  - (* missing *)
    destruct (IH p (-1) (same_refl p)) as (out & r' & p' & H1 & H2 & H3 & H4 & H5); [lia|].
    rewrite H1. exists (upto (c0 :: str0) t ++ out), r', p'. rewrite (H3 eq_refl) in *. refine (conj eq_refl (conj H2 (conj (fun _ => eq_refl) (conj _ (fun _ => eq_refl))))).
    intros b k Hb Hr0. exfalso. inversion Hb as [|x xs' b1 n1 bs k1 S1 S2]; subst. inversion S1; subst.
    match goal with A : group_is _ _ _ |- _ => apply group_text_is in A; fold sm in A; congruence end.
  - (* present *)
    destruct (IH p (count r) (same_refl p)) as (out & r' & p' & H1 & H2 & H3 & H4 & H5); [unfold count; destruct (0 <=? r); lia|].
    rewrite H1. exists (b ++ out), r', p'. refine (conj eq_refl (conj H2 (conj _ (conj _ _)))).
    + intros ->. apply H3. reflexivity.
    + intros b0 k0 H H0. inversion H as [|x xs' b1 n1 bs k1 S1 S2]; subst. inversion S1; subst.
      match goal with A : group_is _ _ _ |- _ => apply group_text_is in A; fold sm in A; rewrite Eg in A; injection A as <- end.
      rewrite (count_pos r H0) in H4. destruct (H4 _ _ S2) as [-> ->]; [lia|]. split; [reflexivity|lia].
    + intros K. inversion K as [x l M|x l M]; subst; [|auto]. exfalso.
      destruct M as (n' & m' & Q & M). injection Q as <- <-. fold sm in M.
      rewrite (group_text_missing sm n Hn M Ht) in Eg. discriminate.
  - (* undefined *)
    exfalso. unfold group_text in Eg. destruct (sm_subject sm) as [subj|] eqn:Es; [|discriminate].
    destruct (n <=? Z.of_nat (length (sm_matchv sm))) eqn:El; [|discriminate].
    destruct (nth_error (sm_matchv sm) (Z.to_nat n)) as [[so eo]|] eqn:En.
    + apply nth_error_In in En. destruct (so =? eo) eqn:Ee; [discriminate|].
      assert (Hm : sound_match sm).
      { unfold sm, submatch_queue_get. unfold sound_queue in HS. rewrite Forall_forall in HS.
        destruct (nth_in_or_default ((smq_cur (ph_smq p) + SMQ_SIZE - m) mod SMQ_SIZE) (smq_sm (ph_smq p)) sm_empty) as [K| ->]; auto.
        intros ? ? ? K. discriminate. }
      destruct (Hm _ _ _ Es En) as [->|K]; [lia|].
      replace ((0 <=? so) && (so <=? eo) && (eo <=? Z.of_nat (length subj))) with true in Eg by lia. discriminate.
    + apply nth_error_None in En. apply Ht; [discriminate|]. lia.
Qed.

Lemma good_acc : forall str0 t a arg xs p r, -1 <= r ->
  expand_turn true ("%"%char :: str0) r p =
  match accessor_call a arg p with
  | (AV_VALUE v, ph) => T_NEXT v (count r) t ph
  | (AV_UNSET, ph) => T_UB UB_UNSET
  | (AV_NOT_FOUND, ph) | (AV_NULL, ph) => T_NEXT [] r t ph
  end ->
  Forall (tame p) (PAcc a arg :: xs) ->
  (a = ACC_PATH \/ a = ACC_QUERY -> arg = []) ->
  (forall p' r, same p p' -> -1 <= r -> good t xs p' r) ->
  good ("%"%char :: str0) (PAcc a arg :: xs) p r.
Proof.
  intros str0 t a arg xs p r Hr HT Htame Harg IH.
  pose proof (Forall_inv Htame) as [Ht1 Ht2].
  unfold good. rewrite (E_special true "%"%char str0 r p eq_refl), HT.
  destruct (accessor_call a arg p) as [v p1] eqn:Ec.
  pose proof (acc_call_same _ _ _ _ _ Ec) as S1.
  assert (Hex : Exists (missing p) (PAcc a arg :: xs) -> Exists (missing p1) xs).
  { intros K. inversion K as [x l M|x l M]; subst; [destruct M as (? & ? & ? & _); discriminate|].
    clear -M S1. induction M; [constructor; eapply same_missing; eauto|right; auto]. }
  assert (Hacc : forall o, acc_is p a arg o -> (o = None /\ (v = AV_NOT_FOUND \/ v = AV_NULL \/ v = AV_UNSET)) \/
                 (exists x, o = Some x /\ v = AV_VALUE x)).
  { intros o Ho. destruct (acc_call_is _ _ _ _ Ho) as (p2 & _ & [K|[[-> K]|(-> & _ & K)]]); rewrite Ec in K; injection K as -> _.
    - destruct o; [right; eauto|left; auto].
    - left. auto.
    - left. auto. }
  assert (Hnone : v <> AV_UNSET -> (forall x, v <> AV_VALUE x) ->
     match v with AV_VALUE v => T_NEXT v (count r) t p1 | AV_UNSET => T_UB UB_UNSET | _ => T_NEXT [] r t p1 end = T_NEXT [] r t p1 ->
     exists out r' p', prepend [] (E true t r p1) = XDone out r' p' /\ same p p' /\ (r = -1 -> r' = -1) /\
     (forall b k, renders p (PAcc a arg :: xs) b k -> 0 <= r -> out = b /\ r' = r + k) /\
     (Exists (missing p) (PAcc a arg :: xs) -> r' = -1)).
  { intros V1 V2 _. destruct (IH p1 r S1 Hr) as (out & r' & p' & H1 & H2 & H3 & H4 & H5). rewrite H1.
    exists out, r', p'. refine (conj eq_refl (conj (same_trans _ _ _ S1 H2) (conj H3 (conj _ _)))).
    2:{ intros K. auto. }
    - intros b k H H0. apply (same_renders _ p1) in H; auto. inversion H as [|x xs' b1 n1 bs k1 T1 T2]; subst. inversion T1; subst.
      + match goal with A : acc_is _ _ _ _ |- _ => apply (same_acc _ p) in A; [|apply same_sym; auto];
          destruct (Hacc _ A) as [[? _]|(x & ? & ?)]; [discriminate|destruct (V2 x); auto] end.
      + destruct (H4 _ _ T2 H0) as [-> ->]. split; [reflexivity|lia]. }
  destruct v as [|v| |].
  - apply Hnone; [discriminate|discriminate|reflexivity].
  - destruct (IH p1 (count r) S1) as (out & r' & p' & H1 & H2 & H3 & H4 & H5); [unfold count; destruct (0 <=? r); lia|].
    rewrite H1. exists (v ++ out), r', p'. refine (conj eq_refl (conj (same_trans _ _ _ S1 H2) (conj _ (conj _ _)))).
    3:{ intros K. auto. }
    + intros ->. apply H3. reflexivity.
    + intros b k H H0. inversion H as [|x xs' b1 n1 bs k1 T1 T2]; subst. apply (same_renders _ p1) in T2; auto.
      rewrite (count_pos r H0) in H4. destruct (H4 _ _ T2) as [-> ->]; [lia|].
      inversion T1; subst; match goal with A : acc_is _ _ _ _ |- _ => destruct (Hacc _ A) as [[? [?|[?|?]]]|(x & ? & ?)]; try discriminate end.
      split; [congruence|lia].
  - apply Hnone; [discriminate|discriminate|reflexivity].
  - exfalso. destruct a; cbn [accessor_call] in Ec; try discriminate.
    + destruct (http_request_get_path (ph_req p)) as [[y|] q] eqn:Eq; [discriminate|].
      rewrite Harg in * by auto. apply Ht1; auto.
      replace None with (fst (http_request_get_path (ph_req p))) by (rewrite Eq; auto). constructor.
    + destruct (http_request_get_query (ph_req p)) as [[y|] q] eqn:Eq; [discriminate|].
      rewrite Harg in * by auto. apply Ht2; auto.
      replace None with (fst (http_request_get_query (ph_req p))) by (rewrite Eq; auto). constructor.
    + rewrite param_load in Ec. destruct (option_map snd _) as [[|]|]; discriminate.
    + destruct (http_header_list_locate_name _ _); discriminate.
    + destruct (http_header_list_locate_name _ _); discriminate.
    + destruct (http_header_list_locate_name _ _); discriminate.
Qed.

Lemma turn_unknown : forall text t r ph, no_accessor text -> ~ In "]"%char text ->
  expand_turn true ("%"%char :: "["%char :: text ++ "]"%char :: t) r ph =
  T_NEXT ("%"%char :: "["%char :: text ++ ["]"%char]) r t ph.
Proof.
  intros text t r ph H Hn.
  assert (K : expand_turn true ("%"%char :: "["%char :: text ++ "]"%char :: t) r ph =
              expand_acc ("%"%char :: "["%char :: text ++ "]"%char :: t) r ph).
  { unfold expand_turn. destruct (text ++ _) eqn:Ee; [destruct text; discriminate|]. reflexivity. }
  rewrite K. unfold expand_acc.
  change (skipn 2 ("%"%char :: "["%char :: text ++ "]"%char :: t)) with (text ++ "]"%char :: t).
  rewrite (span_true _ text ("]"%char :: t)).
  - rewrite (find_acc_unknown _ H).
    replace (firstn (2 + length text + 1) ("%"%char :: "["%char :: text ++ "]"%char :: t)) with ("%"%char :: "["%char :: text ++ ["]"%char]); [reflexivity|].
    change (2 + length text + 1)%nat with (S (S (length text + 1))). rewrite !firstn_cons.
    rewrite firstn_app, firstn_all2 by lia. replace (length text + 1 - length text)%nat with 1%nat by lia. reflexivity.
  - apply forallb_forall. intros x Hx. apply negb_true_iff, beq_neq. intros ->. auto.
  - intros x y Q. injection Q as <- _. reflexivity.
Qed.

Lemma acc_text_arg : forall text a arg, acc_text text a arg -> a = ACC_PATH \/ a = ACC_QUERY -> arg = [].
Proof. intros text a arg H K. destruct H as [|? ? ? ? ? ? ? ? Hn]; auto. inversion Hn; subst; destruct K; discriminate. Qed.

Lemma num_nonneg : forall ds n, num ds n -> 0 <= n.
Proof. intros ds n H. apply num_digits in H. lia. Qed.

Lemma same_sound : forall p p', same p p' -> sound_queue (ph_smq p) -> sound_queue (ph_smq p').
Proof. intros p p' (_ & H & _) K. rewrite H. auto. Qed.

Lemma expand_good : forall t xs, reads t xs -> forall p r, -1 <= r -> sound_queue (ph_smq p) -> Forall (tame p) xs ->
  good t xs p r.
Proof.
  intros t xs H. induction H; intros p r Hr HS Ht;
    try (assert (IH : forall p' r, same p p' -> -1 <= r -> good t ps p' r)
          by (intros p' r' S' Hr'; apply IHreads; [auto|eapply same_sound; eauto|];
              apply Forall_inv_tail in Ht; eapply Forall_impl; [|exact Ht]; intros; eapply same_tame; eauto)).
  - exists [], r, p. rewrite E_nil. repeat split; auto; try apply same_refl.
    + inversion H; auto.
    + inversion H; subst. lia.
    + intros K. inversion K.
  - apply (good_copy [c] [c]); [discriminate| |apply IH; [apply same_refl|auto]].
    cbn [app]. apply E_plain. destruct (special c) eqn:Es; auto. apply special_of in Es as [->| ->]; congruence.
  - apply (good_copy ["$"%char; "$"%char] ["$"%char]); [discriminate| |apply IH; [apply same_refl|auto]].
    cbn [app]. rewrite E_special by reflexivity. reflexivity.
  - apply (good_copy ["%"%char; h1; h2] ["%"%char; h1; h2]); [discriminate| |].
    + cbn [app]. rewrite E_special by reflexivity. apply hex_is in H, H0. unfold expand_turn.
      change (beq "%"%char DOLLAR) with false. change (beq "%"%char PERCENT) with true. rewrite H, H0. reflexivity.
    + apply IHreads; auto. apply Forall_inv_tail in Ht. apply Forall_inv_tail in Ht. apply Forall_inv_tail in Ht. auto.
  - apply (good_ref _ _ t); auto; [eapply num_nonneg; eauto|apply turn_ref; auto].
  - apply (good_ref _ _ t); auto; [eapply num_nonneg; eauto|apply turn_ref_of; auto].
  - apply (good_ref _ _ t); auto; [eapply num_nonneg; eauto|]. apply (turn_bref "$"%char); auto.
  - apply (good_ref _ _ t); auto; [eapply num_nonneg; eauto|apply turn_bref_of; auto].
  - apply (good_ref _ _ t); auto; [|apply turn_old; auto]. destruct H; auto.
  - apply (good_ref _ _ t); auto; [eapply num_nonneg; eauto|]. apply (turn_bref "%"%char); auto.
  - apply (good_acc _ t); auto; [apply turn_acc; auto|]. eapply acc_text_arg; eauto.
  - replace ("%"%char :: "["%char :: text ++ "]"%char :: t) with (("%"%char :: "["%char :: text ++ ["]"%char]) ++ t)
      by (cbn [app]; rewrite <- app_assoc; reflexivity).
    apply (good_copy ("%"%char :: "["%char :: text ++ ["]"%char]) ("%"%char :: "["%char :: text ++ ["]"%char])); [discriminate| |].
    + cbn [app]. rewrite E_special by reflexivity. rewrite <- app_assoc. cbn [app]. rewrite turn_unknown; auto.
    + apply IHreads; auto. apply Forall_app in Ht as [_ Ht]. auto.
Qed.

Lemma renders_nonneg : forall p xs b k, renders p xs b k -> 0 <= k.
Proof. intros p xs b k H. induction H; [lia|]. destruct H; lia. Qed.

Lemma expand_string_renders : forall t xs p b k, reads t xs -> sound_queue (ph_smq p) -> Forall (tame p) xs ->
  renders p xs b k -> exists p', expand_string t p = SOk b p' /\ same p p'.
Proof.
  intros t xs p b k H1 H2 H3 H4.
  destruct (expand_good t xs H1 p 0 ltac:(lia) H2 H3) as (out & r' & p' & A & B & C & D & F).
  destruct (D b k H4) as [-> ->]; [lia|]. exists p'. split; auto.
  unfold expand_string, expand_string_to_buffer. unfold E in A. rewrite A.
  pose proof (renders_nonneg _ _ _ _ H4). replace (0 + k =? -1) with false by lia. reflexivity.
Qed.

Lemma expand_string_missing : forall t xs p, reads t xs -> sound_queue (ph_smq p) -> Forall (tame p) xs ->
  Exists (missing p) xs -> exists p', expand_string t p = SNull p' /\ same p p'.
Proof.
  intros t xs p H1 H2 H3 H4.
  destruct (expand_good t xs H1 p 0 ltac:(lia) H2 H3) as (out & r' & p' & A & B & C & D & F).
  rewrite (F H4) in A. exists p'. split; auto.
  unfold expand_string, expand_string_to_buffer. unfold E in A. rewrite A. reflexivity.
Qed.

Lemma expand_url_renders : forall t xs p b k has_uri, reads t xs -> sound_queue (ph_smq p) -> Forall (tame p) xs ->
  renders p xs b k ->
  exists p', expand_url t p has_uri = SOk (if has_uri || (0 <? k) then b else b ++ r_url (ph_req p)) p' /\ same p p'.
Proof.
  intros t xs p b k has_uri H1 H2 H3 H4.
  destruct (expand_good t xs H1 p 0 ltac:(lia) H2 H3) as (out & r' & p' & A & B & C & D & F).
  destruct (D b k H4) as [-> ->]; [lia|]. exists p'. split; auto.
  unfold expand_url, expand_string_to_buffer. unfold E in A. rewrite A.
  pose proof (renders_nonneg _ _ _ _ H4) as Hk. replace (0 + k =? -1) with false by lia.
  replace (0 + k) with k by lia. destruct B as (_ & _ & B & _). rewrite B.
  destruct has_uri, (Z.eqb_spec k 0), (Z.ltb_spec 0 k); try lia; reflexivity.
Qed.

(** ** Undefined behaviour *)

Lemma cause_suffix : forall pre t p p' u, same p p' -> cause t p' u -> cause (pre ++ t) p u.
Proof.
  intros pre t p p' u S H. destruct u; cbn [cause] in *; auto.
  - destruct H as (a & c & -> & H). exists (pre ++ a), c. rewrite app_assoc. auto.
  - destruct H as (a & c & body & m & -> & H1 & H2 & H3 & k & rest & H4 & H5).
    exists (pre ++ a), c, body, m. rewrite (same_group _ _ m S) in *. rewrite <- app_assoc. repeat split; auto.
    exists k, rest. auto.
  - destruct H as [(a & b & ->) H]. split; [exists (pre ++ a), b; rewrite <- !app_assoc; auto|].
    destruct S as (_ & _ & _ & _ & _ & _ & _ & S1 & S2 & _). rewrite S1, S2 in H. auto.
  - destruct H as (text & c & (a & b & ->) & H). exists text, c. split; auto. exists (pre ++ a), b. rewrite <- !app_assoc. auto.
Qed.

Lemma sound_get : forall q m, sound_queue q -> sound_match (submatch_queue_get q m).
Proof.
  intros q m H. unfold submatch_queue_get. unfold sound_queue in H. rewrite Forall_forall in H.
  destruct (nth_in_or_default ((smq_cur q + SMQ_SIZE - m) mod SMQ_SIZE) (smq_sm q) sm_empty) as [K| ->]; auto.
  intros ? ? ? K. discriminate.
Qed.

Lemma group_ub : forall sm n u, sound_match sm -> 0 <= n -> group_text sm n = G_UB u ->
  u = UB_GROUP /\ n = Z.of_nat (length (sm_matchv sm)) /\ sm_subject sm <> None.
Proof.
  intros sm n u Hm Hn Eg. unfold group_text in Eg. destruct (sm_subject sm) as [subj|] eqn:Es; [|discriminate].
  destruct (n <=? Z.of_nat (length (sm_matchv sm))) eqn:El; [|discriminate].
  destruct (nth_error (sm_matchv sm) (Z.to_nat n)) as [[so eo]|] eqn:En.
  - apply nth_error_In in En. destruct (so =? eo) eqn:Ee; [discriminate|].
    destruct (Hm _ _ _ Es En) as [->|K]; [lia|].
    replace ((0 <=? so) && (so <=? eo) && (eo <=? Z.of_nat (length subj))) with true in Eg by lia. discriminate.
  - apply nth_error_None in En. injection Eg as <-. repeat split; [lia|discriminate].
Qed.

Lemma strtoul_nonneg : forall s e v rest, strtoul s 10 = (e, v, rest) -> 0 <= v.
Proof.
  intros s e v rest H. unfold strtoul in H. destruct (scan_number 10 s) as [[[neg w] r]|] eqn:Es.
  - destruct (ULONG_MAX <? w) eqn:El.
    + injection H as _ <- _. unfold ULONG_MAX. lia.
    + injection H as _ <- _. destruct neg; [apply Z.mod_pos_bound; unfold ULONG_MAX; lia|].
      unfold scan_number in Es.
      set (s1 := snd (span is_space s)) in *. clearbody s1.
      assert (K : exists s2 b, match span (num_digit 10) s2 with (ds, r) =>
        match ds with [] => None | _ => Some (b, num_value 10 ds, r) end end = Some (false, w, r)).
      { destruct s1 as [|c t]; [exists [], false; auto|].
        destruct (beq c "-"%char); [exists t, true; auto|]. destruct (beq c "+"%char); [exists t, false; auto|exists (c :: t), false; auto]. }
      destruct K as (s2 & b & K). pose proof (span_fst_all (num_digit 10) s2) as Hd.
      destruct (span (num_digit 10) s2) as [ds r2]. cbn [fst] in Hd. destruct ds as [|d ds]; [discriminate|]. injection K as _ <- _.
      apply num_value_nonneg; [lia|auto].
  - injection H as _ <- _. lia.
Qed.

Lemma ref_ub : forall c0 body brace r ph u, sound_queue (ph_smq ph) -> c0 = "$"%char \/ c0 = "%"%char ->
  expand_ref c0 (c0 :: body) brace r ph = T_UB u -> u = UB_GROUP /\ cause (c0 :: body) ph UB_GROUP.
Proof.
  intros c0 body brace r ph u HS Hc H. unfold expand_ref in H.
  assert (Hb : skipn (if brace then 2 else 1) (c0 :: body) = skipn (if brace then 1 else 0) body) by (destruct brace; reflexivity).
  rewrite Hb in H.
  destruct (strtoul (skipn (if brace then 1 else 0) body) 10) as [[e g] p] eqn:Es. pose proof (strtoul_nonneg _ _ _ _ Es) as Hg.
  destruct e; [discriminate|].
  assert (fin : forall m p, (m < 8)%nat ->
    match group_text (submatch_queue_get (ph_smq ph) m) g with
      | G_TEXT b => T_NEXT b (count r) p ph | G_NONE => T_NEXT (upto (c0 :: body) p) (-1) p ph | G_UB u => T_UB u end = T_UB u ->
    u = UB_GROUP /\ cause (c0 :: body) ph UB_GROUP).
  { intros m q Hm K. destruct (group_text (submatch_queue_get (ph_smq ph) m) g) eqn:Eg; try discriminate.
    injection K as ->. apply group_ub in Eg as (-> & K2 & K3); [|apply sound_get; auto|auto].
    split; auto. exists [], c0, body, m. repeat split; auto.
    exists (if brace then 1 else 0)%nat, p. split; [rewrite Es; f_equal; f_equal; auto|destruct brace; lia]. }
  destruct (beq c0 DOLLAR && starts LPAREN p).
  - destruct (strtoul (skipn 1 p) 10) as [[e2 v] q].
    destruct (e2 || negb (starts RPAREN q)); [discriminate|].
    destruct ((ulong_to_long v <? 0) || (Z.of_nat SMQ_SIZE <=? ulong_to_long v)) eqn:Ev; [discriminate|].
    destruct (brace && negb (starts RBRACE (skipn 1 q))); [discriminate|].
    eapply fin; [|exact H]. unfold SMQ_SIZE in Ev. lia.
  - destruct (brace && negb (starts RBRACE p)); [discriminate|].
    eapply fin; [|exact H]. destruct (beq c0 DOLLAR); lia.
Qed.

Lemma find_acc_loop : forall text, find_accessor text = F_LOOP -> exists t c, text = t ++ [c] /\ is_space c = true.
Proof.
  intros text H. unfold find_accessor in H. destruct (span_suffix isws text) as [p1 E1].
  destruct (snd (span isws text)) as [|c0 t0] eqn:E0; [discriminate|].
  destruct (span (fun c => negb (isws c)) (c0 :: t0)) as [name rest] eqn:E2. apply span_eq in E2.
  destruct (find_acc_name accessors name) as [[a []]|]; [| |discriminate].
  - destruct rest as [|x rest']; [discriminate|]. destruct (span_suffix is_space rest') as [p2 E3].
    destruct (snd (span is_space rest')) as [|y arg] eqn:E4; [discriminate|].
    destruct (is_space (last (y :: arg) NUL)) eqn:El; [|discriminate].
    exists (p1 ++ name ++ x :: p2 ++ removelast (y :: arg)), (last (y :: arg) NUL). split; auto.
    rewrite <- !app_assoc. cbn [app]. rewrite <- !app_assoc.
    rewrite <- (app_removelast_last NUL) by discriminate. rewrite <- E3. rewrite <- E2. auto.
  - destruct (snd (span is_space rest)); discriminate.
Qed.

Lemma acc_ub : forall str0 r ph u, expand_acc ("%"%char :: "["%char :: str0) r ph = T_UB u ->
  cause ("%"%char :: "["%char :: str0) ph u.
Proof.
  intros str0 r ph u H. unfold expand_acc in H.
  change (skipn 2 ("%"%char :: "["%char :: str0)) with str0 in H.
  pose proof (span_snd_head (fun c => negb (beq c RBRACK)) str0) as Hd.
  destruct (span (fun c => negb (beq c RBRACK)) str0) as [text q] eqn:Es. apply span_eq in Es. cbn [snd] in Hd.
  destruct q as [|c rest]; [discriminate|].
  assert (c = "]"%char) as -> by (specialize (Hd _ _ eq_refl); apply negb_false_iff, beq_eq in Hd; auto).
  destruct (find_accessor text) eqn:Ef; [discriminate| |].
  - destruct (accessor_call a arg ph) as [v ph1] eqn:Ec. destruct v; try discriminate. injection H as <-. cbn [cause].
    split; [exists [], str0; auto|].
    destruct a; cbn [accessor_call] in Ec; try discriminate.
    + left. destruct (http_request_get_path (ph_req ph)) as [[]]; [discriminate|reflexivity].
    + right. destruct (http_request_get_query (ph_req ph)) as [[]]; [discriminate|reflexivity].
    + rewrite param_load in Ec. destruct (option_map snd _) as [[|]|]; discriminate.
    + destruct (http_header_list_locate_name _ _); discriminate.
    + destruct (http_header_list_locate_name _ _); discriminate.
    + destruct (http_header_list_locate_name _ _); discriminate.
  - injection H as <-. apply find_acc_loop in Ef as (t & c & -> & Hs). exists t, c. split; auto.
    exists [], rest. rewrite Es. cbn [app lit list_ascii_of_string]. rewrite <- !app_assoc. reflexivity.
Qed.

Lemma turn_ub : forall c0 str0 r ph u, sound_queue (ph_smq ph) -> c0 = "$"%char \/ c0 = "%"%char ->
  expand_turn true (c0 :: str0) r ph = T_UB u -> cause (c0 :: str0) ph u.
Proof.
  intros c0 str0 r ph u HS Hc H. unfold expand_turn in H.
  destruct str0 as [|c1 s].
  { injection H as <-. exists [], c0. auto. }
  destruct (beq c0 DOLLAR && (beq c1 DOLLAR || beq c1 PERCENT)); [discriminate|].
  destruct (beq c0 PERCENT && is_xdigit c1 && _); [discriminate|].
  destruct (true && beq c0 PERCENT && beq c1 LBRACK) eqn:Eb.
  { apply andb_true_iff in Eb as [Eb E2]. apply beq_eq in Eb, E2. subst. apply (acc_ub s r); auto. }
  destruct (beq c1 LBRACE); [apply ref_ub in H as [-> H]; auto|].
  destruct (is_digit c1); [apply ref_ub in H as [-> H]; auto|discriminate].
Qed.

Lemma turn_same : forall c0 str0 r ph out r' str' ph', 
  expand_turn true (c0 :: str0) r ph = T_NEXT out r' str' ph' -> same ph ph'.
Proof.
  intros c0 str0 r ph out r' str' ph' H. unfold expand_turn in H. destruct str0 as [|c1 s]; [discriminate|].
  destruct (beq c0 DOLLAR && (beq c1 DOLLAR || beq c1 PERCENT)); [injection H as _ _ _ <-; apply same_refl|].
  destruct (beq c0 PERCENT && is_xdigit c1 && _); [injection H as _ _ _ <-; apply same_refl|].
  destruct (true && beq c0 PERCENT && beq c1 LBRACK).
  { unfold expand_acc in H. destruct (span _ _) as [text q]. destruct q; [injection H as _ _ _ <-; apply same_refl|].
    destruct (find_accessor text); [injection H as _ _ _ <-; apply same_refl| |discriminate].
    destruct (accessor_call a0 arg ph) as [v p1] eqn:Ec. apply acc_call_same in Ec.
    destruct v; try discriminate; injection H as _ _ _ <-; auto. }
  destruct (beq c1 LBRACE); [apply ref_consumes in H as [_ ->]; [apply same_refl|discriminate]|].
  destruct (is_digit c1); [apply ref_consumes in H as [_ ->]; [apply same_refl|discriminate]|].
  injection H as _ _ _ <-. apply same_refl.
Qed.

Lemma E_undef : forall n t, (length t <= n)%nat -> forall r p u, sound_queue (ph_smq p) ->
  E true t r p = XUndef u -> cause t p u.
Proof.
  induction n as [|n IH]; intros t Hl r p u HS H.
  - destruct t; [rewrite E_nil in H; discriminate|simpl in Hl; lia].
  - destruct t as [|c t]; [rewrite E_nil in H; discriminate|]. simpl in Hl. destruct (special c) eqn:Ec.
    + rewrite E_special in H by auto. destruct (expand_turn true (c :: t) r p) eqn:Et.
      * assert (S1 := turn_same _ _ _ _ _ _ _ _ Et). apply turn_consumes in Et; [|discriminate].
        pose proof (consumes_length _ _ Et) as Hlt. simpl in Hlt. destruct Et as (pre & _ & ->).
        destruct (E true str result p0) eqn:EE; try discriminate. injection H as ->.
        apply (cause_suffix pre _ _ p0); auto. apply (IH str) in EE; auto; [lia|eapply same_sound; eauto].
      * injection H as ->. apply (turn_ub c t r); auto. apply special_of; auto.
    + rewrite E_plain in H by auto. destruct (E true t r p) eqn:EE; try discriminate. injection H as ->.
      apply (cause_suffix [c] _ _ p); [apply same_refl|]. apply (IH t) in EE; auto. lia.
Qed.

Lemma expand_undef : forall t p u, sound_queue (ph_smq p) -> expand_string t p = SUndef u -> cause t p u.
Proof.
  intros t p u HS H. unfold expand_string, expand_string_to_buffer in H.
  destruct (expand_loop (length t) true t 0 p) eqn:E1.
  - destruct (result =? -1); discriminate.
  - injection H as ->. apply (E_undef (length t) t) with (r := 0); auto.
  - discriminate.
Qed.

(** ** The queue of matches *)

Lemma sm_set_length : forall l n s, length (sm_set l n s) = length l.
Proof. induction l as [|x l IH]; intros [|n] s; simpl; auto. Qed.
Lemma sm_set_same : forall l n s d, (n < length l)%nat -> nth n (sm_set l n s) d = s.
Proof. induction l as [|x l IH]; intros [|n] s d H; simpl in *; try lia; auto. apply IH. lia. Qed.
Lemma sm_set_other : forall l n k s d, n <> k -> nth k (sm_set l n s) d = nth k l d.
Proof. induction l as [|x l IH]; intros [|n] [|k] s d H; simpl; try congruence; auto. Qed.

Lemma pushed_top : forall q m, length (smq_sm q) = SMQ_SIZE -> submatch_queue_get (pushed q m) 0 = m.
Proof.
  intros q m L. unfold submatch_queue_get, pushed. set (q' := submatch_queue_push q).
  assert (L' : length (smq_sm q') = SMQ_SIZE) by (unfold q', submatch_queue_push, submatch_queue_put; cbn [smq_sm]; rewrite sm_set_length; auto).
  unfold submatch_queue_put. cbn [smq_cur smq_sm]. apply sm_set_same. rewrite L'. apply Nat.mod_upper_bound. discriminate.
Qed.

Definition qok (q : smqueue) (h : list submatch) : Prop :=
  (smq_cur q < 8)%nat /\ length (smq_sm q) = 8%nat /\
  forall n, (n < 8)%nat -> submatch_queue_get q n = nth n h sm_empty.

Lemma get_index : forall cur n, (cur < 8)%nat -> (n < 8)%nat ->
  ((cur + 8 - n) mod 8 = if n <=? cur then cur - n else cur + 8 - n)%nat.
Proof.
  intros cur n H1 H2. destruct (Nat.leb_spec n cur).
  - replace (cur + 8 - n)%nat with (cur - n + 1 * 8)%nat by lia. rewrite Nat.mod_add by lia. apply Nat.mod_small. lia.
  - apply Nat.mod_small. lia.
Qed.

Lemma pushed_ok : forall q h m, qok q h -> qok (pushed q m) (m :: h).
Proof.
  intros q h m (H1 & H2 & H3).
  assert (Hc : smq_cur (pushed q m) = ((smq_cur q + 1) mod 8)%nat) by reflexivity.
  assert (Hb : (smq_cur (pushed q m) < 8)%nat) by (rewrite Hc; apply Nat.mod_upper_bound; lia).
  assert (Hs : smq_sm (pushed q m) = sm_set (sm_set (smq_sm q) ((smq_cur (pushed q m) + 8 - 0) mod 8) sm_empty) ((smq_cur (pushed q m) + 8 - 0) mod 8) m) by reflexivity.
  set (i := ((smq_cur (pushed q m) + 8 - 0) mod 8)%nat) in *.
  assert (Hi : i = smq_cur (pushed q m)).
  { unfold i. rewrite get_index by lia. destruct (Nat.leb_spec 0 (smq_cur (pushed q m))); lia. }
  split; [auto|]. split; [rewrite Hs, !sm_set_length; auto|].
  intros n Hn. unfold submatch_queue_get, SMQ_SIZE. rewrite Hs. destruct n as [|n].
  - fold i. apply sm_set_same. rewrite sm_set_length, Hi. lia.
  - assert (Hne : i <> ((smq_cur (pushed q m) + 8 - S n) mod 8)%nat).
    { rewrite get_index by lia. destruct (Nat.leb_spec (S n) (smq_cur (pushed q m))); lia. }
    rewrite !sm_set_other by auto. cbn [nth].
    rewrite <- H3 by lia. unfold submatch_queue_get, SMQ_SIZE. f_equal. rewrite Hc, !get_index by lia.
    clear -H1 Hn. destruct (Nat.eq_dec (smq_cur q) 7) as [->|K].
    + change ((7 + 1) mod 8)%nat with 0%nat. destruct (Nat.leb_spec (S n) 0); destruct (Nat.leb_spec n 7); lia.
    + rewrite Nat.mod_small by lia. destruct (Nat.leb_spec (S n) (smq_cur q + 1)); destruct (Nat.leb_spec n (smq_cur q)); lia.
Qed.

Lemma init_ok : qok smq_init [].
Proof.
  repeat split; [simpl; lia|]. intros n Hn. unfold submatch_queue_get. cbn [smq_sm smq_init].
  destruct (nth_in_or_default ((smq_cur smq_init + SMQ_SIZE - n) mod SMQ_SIZE) (repeat sm_empty SMQ_SIZE) sm_empty) as [K| ->].
  - apply repeat_spec in K. rewrite K. destruct n; reflexivity.
  - destruct n; reflexivity.
Qed.

Lemma recent : forall ms n, (n < 8)%nat ->
  submatch_queue_get (fold_left pushed ms smq_init) n = nth n (rev ms) sm_empty.
Proof.
  intros ms. assert (K : forall ms q h, qok q h -> qok (fold_left pushed ms q) (rev ms ++ h)).
  { clear ms. induction ms as [|m ms IH]; intros q h H; [auto|]. cbn [fold_left rev].
    rewrite <- app_assoc. cbn [app]. apply IH. apply pushed_ok. auto. }
  intros n Hn. specialize (K ms smq_init [] init_ok). rewrite app_nil_r in K. apply K. auto.
Qed.

(** ** The redirect reply *)

Lemma safe_char_spec : forall c, safe_char c = true -> alnum c \/ mark c.
Proof.
  intros c H. unfold safe_char in H. apply orb_true_iff in H as [H|H].
  - left. unfold alnum, digit_of.
    destruct c as [[] [] [] [] [] [] [] []]; vm_compute in H; try discriminate;
    (match goal with |- exists d, 0 <= d /\ nth_error ?l _ = Some ?c =>
       let c' := eval vm_compute in c in let l' := eval vm_compute in l in
       let rec find l n := match l with c' :: _ => exists n | _ :: ?t => find t (n + 1) end in find l' 0
     end; split; [vm_compute; discriminate|vm_compute; reflexivity]).
  - right. apply existsb_exists in H as (x & Hx & Hb). apply beq_eq in Hb. subst. exact Hx.
Qed.

Lemma safe_app : forall a b, safe a -> safe b -> safe (a ++ b).
Proof. intros a b H K. induction H; cbn [app]; [auto|apply sf_char; auto|apply sf_esc; auto]. Qed.

Lemma hexdig_ok : forall n, hexdigit (hexdig n).
Proof.
  intros n. apply hex_is. unfold hexdig.
  destruct (nth_in_or_default (Z.to_nat n) (lit "0123456789abcdef"%string) "0"%char) as [K| ->]; [|reflexivity].
  revert K. generalize (nth (Z.to_nat n) (lit "0123456789abcdef"%string) "0"%char). intros c K.
  cbn [In lit list_ascii_of_string] in K. repeat (destruct K as [<-|K]; [reflexivity|]). destruct K.
Qed.

Lemma alnum_hex : forall c, hexdigit c -> alnum c.
Proof.
  intros c H. assert (K : is_alnum c = true).
  { apply hex_is in H. destruct c as [[] [] [] [] [] [] [] []]; vm_compute in H; try discriminate; reflexivity. }
  destruct (safe_char_spec c) as [|M]; auto; [unfold safe_char; rewrite K; auto|].
  unfold mark in M. cbn [In lit list_ascii_of_string] in M. apply hex_is in H.
  repeat (destruct M as [<-|M]; [discriminate|]). destruct M.
Qed.

Lemma hex_digits_all : forall k n acc, Forall hexdigit acc -> Forall hexdigit (hex_digits k n acc) /\ length (hex_digits k n acc) = (k + length acc)%nat.
Proof.
  induction k as [|k IH]; intros n acc H; cbn [hex_digits]; [auto|].
  destruct (IH (n / 16) (hexdig (n mod 16) :: acc)) as [A B]; [constructor; auto; apply hexdig_ok|].
  split; auto. rewrite B. simpl. lia.
Qed.

Lemma esc_safe : forall hs, Forall hexdigit hs -> (2 <= length hs)%nat -> safe (PERCENT :: hs).
Proof.
  intros hs H Hl. destruct hs as [|h1 [|h2 hs]]; simpl in Hl; try lia.
  inversion H as [|? ? A B]; subst. inversion B as [|? ? C D]; subst.
  apply sf_esc; auto. clear -D. induction D; constructor; auto. left. apply alnum_hex. auto.
Qed.

Lemma safe_url_safe : forall u, safe (safe_url u).
Proof.
  induction u as [|c u IH]; [constructor|]. unfold safe_url. cbn [flat_map]. apply safe_app; [|exact IH].
  destruct (safe_char c) eqn:Es; [apply safe_char_spec in Es; constructor; auto; constructor|].
  apply esc_safe; unfold percent_02x; destruct (scode c <? 0); try (apply hex_digits_all; constructor);
  rewrite (proj2 (hex_digits_all _ _ [] (Forall_nil _))); simpl; lia.
Qed.

Lemma safe_chars : forall u, safe u -> Forall (fun c => alnum c \/ mark c \/ c = "%"%char) u.
Proof.
  intros u H. induction H as [|c u [H1|H1] H2 IH|h1 h2 u H1 H2 H3 IH].
  - constructor.
  - constructor; auto.
  - constructor; auto.
  - constructor; [auto|]. constructor; [left; apply alnum_hex; auto|]. constructor; [left; apply alnum_hex; auto|auto].
Qed.

Lemma alnum_is : forall c, alnum c -> is_alnum c = true.
Proof.
  intros c (d & H1 & H2). apply nth_error_In in H2. cbn [In lit list_ascii_of_string] in H2.
  destruct c as [[] [] [] [] [] [] [] []]; try reflexivity; exfalso;
  cbv in H2; repeat (destruct H2 as [H2|H2]; [discriminate|]); exact H2.
Qed.

Lemma hexdig_value : forall d, 0 <= d < 16 -> hexadecimal (hexdig d) d.
Proof.
  intros d H. left. split; [lia|]. unfold hexdig.
  assert (K : (Z.to_nat d < 16)%nat) by lia. generalize dependent (Z.to_nat d). intros k K.
  do 16 (destruct k as [|k]; [reflexivity|]). lia.
Qed.

Lemma safe_url_decodes : forall u, Forall (fun c => code c < 128) u -> decodes (safe_url u) u.
Proof.
  intros u H. induction H as [|c u Hc Hu IH]; [constructor|].
  unfold safe_url. cbn [flat_map]. fold (safe_url u). destruct (safe_char c) eqn:Es.
  - cbn [app]. constructor; auto. intros ->. discriminate.
  - unfold percent_02x, scode. replace (code c <? 128) with true by lia. pose proof (code_range c).
    replace (code c <? 0) with false by lia. cbn [hex_digits app].
    apply dc_esc with (d1 := (code c / 16) mod 16) (d2 := code c mod 16); auto.
    + apply hexdig_value. apply Z.mod_pos_bound. lia.
    + apply hexdig_value. apply Z.mod_pos_bound. lia.
    + rewrite (Z.mod_small (code c / 16) 16).
      2:{ split; [apply Z.div_pos; lia|apply Z.div_lt_upper_bound; lia]. }
      rewrite <- Z.div_mod; [reflexivity|lia].
Qed.

Lemma redirect_form : forall code url has_uri p c reason loc body,
  redirect_response code url has_uri p = R_REPLY c reason loc body ->
  c = code /\ In code [301; 302; 303; 307; 308] /\
  exists u, safe u /\ loc = lit "Location: " ++ u ++ CRLF /\
    body = lit "<html><head><title>Redirect</title></head><body><h1>Redirect</h1><p>You should go to <a href=" ++
      [ascii_of_N 34] ++ u ++ [ascii_of_N 34; ">"%char] ++ u ++ lit "</a></p></body></html>".
Proof.
  intros code url has_uri p c reason loc body H. unfold redirect_response in H.
  destruct (redirect_reason code) eqn:Er; [|discriminate].
  destruct (expand_url url p has_uri) as [x ?|?|?]; [|discriminate|discriminate].
  injection H as <- <- <- <-. split; auto. split.
  - unfold redirect_reason in Er. cbn [In].
    destruct (Z.eqb_spec code 301); [auto|]. destruct (Z.eqb_spec code 302); [auto|]. destruct (Z.eqb_spec code 303); [auto|].
    destruct (Z.eqb_spec code 307); [auto|]. destruct (Z.eqb_spec code 308); [auto 6|discriminate].
  - exists (safe_url x). split; [apply safe_url_safe|]. auto.
Qed.

Lemma redirect_answers : forall code url has_uri p t, In code [301; 302; 303; 307; 308] ->
  (exists p', expand_url url p has_uri = SOk t p') ->
  exists reason, redirect_response code url has_uri p =
    R_REPLY code reason (lit "Location: " ++ safe_url t ++ CRLF) (redirect_body (safe_url t)).
Proof.
  intros code url has_uri p t H (p' & K). unfold redirect_response. rewrite K.
  cbn [In] in H. destruct H as [<-|[<-|[<-|[<-|[<-|[]]]]]]; eexists; reflexivity.
Qed.
