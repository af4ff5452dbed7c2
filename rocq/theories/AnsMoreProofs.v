(** Lemmas about AnsModel: answers of the daemon, what success means, and that reading ends. *)
From Coq Require Import Ascii String List ZArith Bool Lia.
From Verif Require Import Bytes ClenSpec TokSpec ReqSpec FrameSpec RespSpec NumSpec StreamModel NumModel NumProofs HdrProofs JsonModel JsonSpec AnsModel AnsSpec AnsProofs.
From Verif Require LogModel ReplyModel ReplySpec ReplyProofs JsonProps CtlModel.
Import ListNotations.
Local Open Scope string_scope.
Local Open Scope list_scope.
Local Open Scope Z_scope.

(** ** Replies of the daemon *)
Lemma digits_length : forall fuel n acc, (length (LogModel.digits fuel n acc) <= fuel + length acc)%nat.
Proof.
  induction fuel as [|fuel IH]; intros n acc; cbn [LogModel.digits]; [lia|]. destruct (n <? 10); [cbn [length]; lia|].
  specialize (IH (n / 10) (ascii_of_N (Z.to_N (48 + n mod 10)) :: acc)). cbn [length] in IH. lia.
Qed.

Lemma fmt_length : forall n, 0 <= n <= INT_MAX -> Z.of_nat (length (LogModel.fmt_ld n)) <= 40.
Proof.
  intros n H. unfold LogModel.fmt_ld. destruct (Z.ltb_spec n 0); [lia|]. pose proof (digits_length (S (Z.to_nat (Z.log2 n))) n []) as D. cbn [length] in D.
  assert (Z.log2 n <= 31) by (transitivity (Z.log2 INT_MAX); [apply Z.log2_le_mono; lia|vm_compute; discriminate]). pose proof (Z.log2_nonneg n). lia.
Qed.

Lemma fmt_token : forall n, 0 <= n -> number_token (LogModel.fmt_ld n) /\ numeral decimal 10 (LogModel.fmt_ld n) n.
Proof.
  intros n H. pose proof (ReplyProofs.fmt_numeral n H) as F. split; [|exact F]. destruct (ReplyProofs.numeral_chars _ _ F) as [C E]. split; assumption.
Qed.

Lemma fit_const : forall t, forallb (fun c => negb (beq c CR || beq c LF || beq c NUL)) t = true -> Z.of_nat (length t) <= 4093 -> fit t.
Proof.
  intros t H L. rewrite forallb_forall in H.
  assert (X : forall c, beq c CR || beq c LF || beq c NUL = true -> ~ In c t) by (intros c E I; apply H in I; rewrite E in I; discriminate).
  split; [apply X; reflexivity|]. split; [apply X; reflexivity|]. split; [apply X; reflexivity|exact L].
Qed.

Lemma fit_app : forall a b, fit a -> fit b -> Z.of_nat (length a) + Z.of_nat (length b) <= 4093 -> fit (a ++ b).
Proof.
  intros a b (A1 & A2 & A3 & _) (B1 & B2 & B3 & _) L. split; [|split; [|split]]; try (intros I; apply in_app_or in I; tauto). rewrite app_length. lia.
Qed.

Lemma fit_digits : forall n, 0 <= n <= INT_MAX -> fit (LogModel.fmt_ld n).
Proof.
  intros n H. pose proof (fmt_length n H) as L. destruct (fmt_token n ltac:(lia)) as [[_ T] _]. rewrite Forall_forall in T.
  assert (X : forall c, num_digit 10 c = false -> ~ In c (LogModel.fmt_ld n)).
  { intros c E I. apply T in I as [d D]. apply num_digit_decimal in D as [D _]. congruence. }
  split; [apply X; reflexivity|]. split; [apply X; reflexivity|]. split; [apply X; reflexivity|lia].
Qed.

Definition reply_fields (str : bytes) : list field :=
  [(lit "Content-Type", lit "application/json"); (lit "Content-Length", LogModel.fmt_ld (Z.of_nat (length str))); (lit "Connection", lit "close")].

Lemma json_answer : forall str, Z.of_nat (length str) <= INT_MAX ->
  answer (concat (ReplyModel.json_reply str)) (lit "HTTP/1.1 200 OK") 1 200 (reply_fields str) (str ++ []) /\ json_fields 1 (reply_fields str) str [].
Proof.
  intros str L. set (n := LogModel.fmt_ld (Z.of_nat (length str))).
  assert (FD : fit n) by (apply fit_digits; lia). assert (LN : Z.of_nat (length n) <= 40) by (apply fmt_length; lia).
  destruct (fmt_token (Z.of_nat (length str)) ltac:(lia)) as [TK NM]. fold n in TK, NM. split.
  - exists [lit "Content-Type: application/json"; lit "Content-Length: " ++ n; lit "Connection: close"]. split; [|split; [|split; [|split]]].
    + unfold ReplyModel.json_reply, head_text. cbn [concat map]. fold n. change (LogModel.fmt_ld 200) with (lit "200"). rewrite !app_nil_r, <- !app_assoc. reflexivity.
    + apply fit_const; [reflexivity|vm_compute; discriminate].
    + constructor; [apply fit_const; [reflexivity|vm_compute; discriminate]|]. constructor; [|constructor; [|constructor]].
      * apply fit_app; [apply fit_const; [reflexivity|vm_compute; discriminate]|exact FD|]. change (Z.of_nat (length (lit "Content-Length: "))) with 16. lia.
      * apply fit_const; [reflexivity|vm_compute; discriminate].
    + apply (ReplyProofs.status_ok 1 200 (lit "OK")); [auto|left; reflexivity].
    + unfold reply_fields. fold n.
      constructor; [exists [SP]; split; [reflexivity|]; split; [discriminate|]; split; [apply hname_all; reflexivity|]; split; [repeat constructor|intros c u E; injection E as <- _; intros [X|X]; discriminate X]|].
      constructor; [exists [SP]; split; [reflexivity|]; split; [discriminate|]; split; [apply hname_all; reflexivity|]; split; [repeat constructor|]|].
      { cbn [snd]. intros c u E. destruct TK as [_ TK]. rewrite E in TK. inversion TK as [|x q [d D]]; subst. apply num_digit_decimal in D as [D _]. intros [-> | ->]; discriminate D. }
      constructor; [exists [SP]; split; [reflexivity|]; split; [discriminate|]; split; [apply hname_all; reflexivity|]; split; [repeat constructor|intros c u E; injection E as <- _; intros [X|X]; discriminate X]|constructor].
  - split; [constructor; [reflexivity|constructor]|]. left. exists n. split; [reflexivity|]. split; assumption.
Qed.

Lemma read_reply : forall N v i, good N 0 v -> ~ In NUL (json_value_format N (mkFormat i 0) v 0) ->
  Z.of_nat (length (json_value_format N (mkFormat i 0) v 0)) <= INT_MAX ->
  read_response N (concat (ReplyModel.json_reply (json_value_format N (mkFormat i 0) v 0))) = Got (as_read N v).
Proof.
  intros N v i G NN L. set (str := json_value_format N (mkFormat i 0) v 0) in *. destruct (json_answer str L) as [A F].
  rewrite (read_json N _ _ 1 _ str [] A F NN L). pose proof (JsonProps.C33_roundtrip_partial N (mkFormat i 0) v 0%nat [] G Logic.I) as R.
  rewrite app_nil_r in R. unfold str. rewrite R. reflexivity.
Qed.

Lemma error_reply : forall N e pages code phrase, In (code, phrase) ReplySpec.phrases -> code <> 200 -> e = ReplyModel.http_status_to_pound code ->
  read_response N (concat (ReplyModel.err_reply 1 e pages)) = Fails (Status (lit phrase)).
Proof.
  intros N e pages cd phrase I NC ->. destruct (ReplyProofs.to_pound cd phrase I) as (R & C & P & _ & AC).
  unfold ReplyModel.err_reply. set (h := ReplyModel.status_entry (ReplyModel.clamp_err (ReplyModel.http_status_to_pound cd))).
  assert (EH : ReplyModel.clamp_err (ReplyModel.http_status_to_pound cd) = ReplyModel.http_status_to_pound cd).
  { unfold ReplyModel.clamp_err, ReplyModel.HTTP_STATUS_MAX. destruct (Z.leb_spec 0 (ReplyModel.http_status_to_pound cd)); [|lia].
    destruct (Z.ltb_spec (ReplyModel.http_status_to_pound cd) 11); [reflexivity|lia]. }
  unfold h. rewrite EH. clear h EH. rewrite C, P.
  rewrite (ReplyProofs.reply_text 1 cd (lit phrase) (Some ReplyModel.err_headers) (lit "text/html") _ ReplyProofs.err_fields (or_intror eq_refl) ReplyProofs.err_headers_texts).
  assert (X : forall s, read_response N ((lit "HTTP/1." ++ LogModel.fmt_ld 1 ++ [SP] ++ LogModel.fmt_ld cd ++ [SP] ++ lit phrase) ++ CRLF ++ s) = Fails (Status (lit phrase))); [|apply X].
  intros s. apply (read_status N _ 1 cd); [| | |exact NC].
  - clear - I. cbn [ReplySpec.phrases In] in I. repeat destruct I as [[= <- <-]|I]; try destruct I; (apply fit_const; [reflexivity|vm_compute; discriminate]).
  - apply ReplyProofs.status_ok; [auto|exact AC].
  - assert (D : exists a b c x y z, LogModel.fmt_ld cd = [a; b; c] /\ decimal a x /\ decimal b y /\ decimal c z).
    { assert (Y : forall a b c, forallb (num_digit 10) [a; b; c] = true -> LogModel.fmt_ld cd = [a; b; c] -> exists a b c x y z, LogModel.fmt_ld cd = [a; b; c] /\ decimal a x /\ decimal b y /\ decimal c z).
      { intros a b c H E. cbn [forallb] in H. rewrite !andb_true_iff in H. destruct H as (Ha & Hb & Hc & _).
        exists a, b, c, (code a - 48), (code b - 48), (code c - 48). split; [exact E|]. split; [|split]; apply num_digit_decimal; auto. }
      clear - I Y. cbn [ReplySpec.phrases In] in I. repeat destruct I as [[= <- <-]|I]; try destruct I; (eapply Y; [|vm_compute; reflexivity]; reflexivity). }
    destruct D as (a & b & c & x & y & z & E & Da & Db & Dc). exists (lit "HTTP/1." ++ ["1"%char] ++ [SP]), a, b, c, x, y, z, [SP]. split; [|split; [|split; [exact Da|split; [exact Db|split; [exact Dc|split]]]]].
    + rewrite E. reflexivity.
    + exists "1"%char, [SP]. split; [reflexivity|]. constructor; [left; reflexivity|constructor].
    + constructor; [reflexivity|constructor].
    + clear - I. cbn [ReplySpec.phrases In] in I. repeat destruct I as [[= <- <-]|I]; try destruct I; discriminate.
Qed.

(** ** Reading ends *)
Lemma gets_split : forall s n l r, gets n s = (l, r) -> s = l ++ r.
Proof.
  induction s as [|c s IH]; intros n l r H; cbn [gets] in H; [injection H as <- <-; reflexivity|].
  destruct (n <=? 0); [injection H as <- <-; reflexivity|]. destruct (beq c LF); [injection H as <- <-; reflexivity|].
  destruct (gets (n - 1) s) as [l' r'] eqn:E. injection H as <- <-. cbn [app]. f_equal. eapply IH, E.
Qed.

Lemma drop_split : forall c l, exists t, l = drop_last c l ++ t.
Proof.
  intros c l. unfold drop_last. destruct (rev l) as [|x m] eqn:E; [exists []; symmetry; apply app_nil_r|].
  destruct (beq x c); [|exists []; symmetry; apply app_nil_r]. exists [x]. rewrite <- (rev_involutive l), E. reflexivity.
Qed.

Lemma xgets_split : forall s l r, xgets s = (l, r) -> exists t, s = l ++ t ++ r.
Proof.
  intros s l r H. unfold xgets in H. destruct (gets (MAXBUF - 1) s) as [g r'] eqn:E. injection H as <- <-. apply gets_split in E.
  destruct (drop_split LF g) as (t1 & E1). destruct (drop_split CR (drop_last LF g)) as (t2 & E2). exists (t2 ++ t1).
  rewrite E, E1 at 1. rewrite E2 at 1. rewrite <- !app_assoc. reflexivity.
Qed.

Lemma header_line_ends : forall st b, header_line st b <> Stuck /\ header_line st b <> Unset.
Proof.
  intros st b. unfold header_line. destruct (header_value (lit "Content-Length") b) as [v|].
  - destruct (strtol v 10) as [[e n] p]. destruct (e || negb (at_end p)); split; discriminate.
  - destruct (header_value (lit "Content-Type") b) as [v|]; [destruct (bytes_eqb _ _); split; discriminate|].
    destruct (header_value (lit "Connection") b); split; discriminate.
Qed.

Lemma header_lines_ends : forall fuel st s, (length s < fuel)%nat -> header_lines fuel st s <> Stuck.
Proof.
  induction fuel as [|fuel IH]; intros st s L; [lia|]. cbn [header_lines]. destruct (xgets s) as [l r] eqn:E. destruct l as [|c l]; [discriminate|].
  apply xgets_split in E as (t & E). destruct (header_line_ends st (cstr_of (c :: l))) as [A _].
  destruct (header_line st (cstr_of (c :: l))) as [st'|cm| |]; try discriminate; [|congruence].
  apply IH. rewrite E in L. cbn [app length] in L. rewrite !app_length in L. lia.
Qed.

Lemma read_ends : forall N s, stops_within N -> read_response N s <> Stuck.
Proof.
  intros N s SW. unfold read_response. destruct (xgets s) as [l r].
  destruct (response_line (cstr_of l)) as [[[c t] v]|cm| |] eqn:E; try discriminate.
  - destruct (negb (c =? 200)); [discriminate|]. pose proof (header_lines_ends (S (length r)) (mkState (-1) false) r ltac:(lia)) as H.
    destruct (header_lines _ _ r) as [[st body]|cm| |]; try discriminate; [|congruence]. unfold content.
    assert (P : forall x, match json_parse_string N x with POk _ v _ => Got v | PErr _ e => Fails (Bad_json e) | PCrash _ => Unset | PFuel _ => Stuck end <> Stuck).
    { intros x. pose proof (JsonProps.C33_total N x SW). destruct (json_parse_string N x); congruence. }
    destruct (negb (clen st =? -1)); [|destruct (close st || (v =? 0)); [apply P|discriminate]].
    destruct (clen st <? 0); [discriminate|]. destruct (INT_MAX <? clen st); [discriminate|]. destruct (Z.of_nat (length body) <? clen st); [discriminate|apply P].
  - unfold response_line in E. destruct (after_prefix _ _) as [[|v p]|]; try discriminate E. destruct (negb _); [discriminate E|]. destruct (negb _); [discriminate E|].
    destruct (strtol _ 10) as [[q n] e]. destruct (_ || _); discriminate E.
Qed.

(** ** What a value means *)
Lemma cstr_prefix : forall s, exists t, s = cstr_of s ++ t.
Proof. induction s as [|c s (t & E)]; [exists []; reflexivity|]. cbn [cstr_of]. destruct (beq c NUL); [exists (c :: s); reflexivity|]. exists t. cbn [app]. f_equal. exact E. Qed.

Lemma header_lines_split : forall fuel st s st' r, header_lines fuel st s = Got (st', r) -> exists p, s = p ++ r.
Proof.
  induction fuel as [|fuel IH]; intros st s st' r H; [discriminate|]. cbn [header_lines] in H. destruct (xgets s) as [l q] eqn:E.
  apply xgets_split in E as (t & E). destruct l as [|c l]; [injection H as _ <-; exists t; exact E|].
  destruct (header_line st (cstr_of (c :: l))) as [st1|cm| |]; try discriminate. destruct (IH _ _ _ _ H) as (p & ->). exists ((c :: l) ++ t ++ p).
  rewrite E, <- !app_assoc. reflexivity.
Qed.

Lemma content_split : forall st v s t, content st v s = Got t -> exists b, s = t ++ b.
Proof.
  intros st v s t H. unfold content in H. destruct (negb (clen st =? -1)).
  - destruct (clen st <? 0); [discriminate|]. destruct (INT_MAX <? clen st); [discriminate|]. destruct (Z.of_nat (length s) <? clen st); [discriminate|].
    injection H as <-. destruct (cstr_prefix (firstn (Z.to_nat (clen st)) s)) as (q & E). exists (q ++ skipn (Z.to_nat (clen st)) s).
    rewrite app_assoc, <- E. symmetry. apply firstn_skipn.
  - destruct (close st || (v =? 0)); [|discriminate]. injection H as <-. apply cstr_prefix.
Qed.

Lemma success : forall N s v, read_response N s = Got v ->
  (exists dv sp rest, s = lit "HTTP/1." ++ [dv] ++ sp ++ lit "200" ++ rest /\ (dv = "0"%char \/ dv = "1"%char) /\ sp <> [] /\ Forall (fun c => is_space c = true) sp) /\
  exists a body b rest, s = a ++ body ++ b /\ json_parse_string N body = POk N v rest.
Proof.
  intros N s v H. unfold read_response in H. destruct (xgets s) as [l r] eqn:E. apply xgets_split in E as (t & E).
  destruct (response_line (cstr_of l)) as [[[c tx] ver]|cm| |] eqn:R; try discriminate.
  destruct (Z.eqb_spec c 200) as [-> |]; [|discriminate]. cbn [negb] in H.
  destruct (header_lines _ _ r) as [[st body]|cm| |] eqn:HL; try discriminate. apply header_lines_split in HL as (p & HL).
  destruct (content st ver body) as [text|cm| |] eqn:C; try discriminate. apply content_split in C as (b & C).
  split.
  - destruct (cstr_prefix l) as (u & U). unfold response_line in R. destruct (after_prefix (lit "HTTP/1.") (cstr_of l)) as [[|dv q]|] eqn:P; try discriminate.
    apply prefix_split in P. destruct ((code dv - 48 =? 0) || (code dv - 48 =? 1)) eqn:V; [|discriminate]. cbn [negb] in R.
    destruct (head_space q) eqn:HS; [|discriminate]. cbn [negb] in R. pose proof (span_app is_space q) as SA. pose proof (span_fst_all is_space q) as SF.
    pose proof (span_snd_head is_space q) as SH. set (q2 := snd (span is_space q)) in *.
    destruct (strtol q2 10) as [[e n] rest] eqn:ST. destruct (n <=? 0) eqn:LE; [discriminate|].
    destruct (Nat.eqb_spec (length q2) (length rest + 3)) as [EL|]; [|discriminate]. cbn [orb negb] in R. injection R as -> _ _.
    assert (Q : q2 = lit "200" ++ rest).
    { destruct (strtol_rest _ _ _ _ ST) as (z & Z). assert (LZ : length z = 3%nat) by (rewrite Z, app_length in EL; lia).
      unfold strtol in ST. destruct (scan_number 10 q2) as [[[neg w] r2]|] eqn:SN; [|discriminate ST].
      assert (W : (if neg then - w else w) = 200 /\ r2 = rest).
      { destruct (LONG_MAX <? _) eqn:X1; [injection ST as _ A _; unfold LONG_MAX in A; lia|]. destruct (_ <? LONG_MIN); [injection ST as _ A _; unfold LONG_MIN in A; lia|]. injection ST as _ A B. auto. }
      destruct W as [W ->]. unfold scan_number in SN.
      assert (S1 : snd (span is_space q2) = q2).
      { destruct q2 as [|x q3] eqn:Q2; [reflexivity|]. cbn [span]. rewrite (SH x q3 eq_refl). reflexivity. }
      rewrite S1 in SN. cbv zeta in SN. destruct z as [|z1 [|z2 [|z3 [|]]]]; try discriminate LZ. rewrite Z in SN. cbn [app] in SN.
      assert (TAIL : forall s2 : bytes, (let (ds, r3) := span (num_digit 10) s2 in match ds with [] => None | _ => Some (neg, num_value 10 ds, r3) end) = Some (neg, w, rest) ->
        forall pre, s2 = pre ++ rest -> w = num_value 10 pre /\ forallb (num_digit 10) pre = true).
      { intros s2 H2 pre E2. pose proof (span_app (num_digit 10) s2) as X. pose proof (span_fst_all (num_digit 10) s2) as Y. destruct (span (num_digit 10) s2) as [ds r3].
        cbn [fst snd] in X, Y. destruct ds as [|d ds]; [discriminate|]. injection H2 as <- ->. rewrite E2 in X. apply app_inv_tail in X. rewrite <- X. auto. }
      assert (DC : forall c, num_digit 10 c = true -> 0 <= code c - 48 <= 9) by (intros c0 D; unfold num_digit in D; lia).
      assert (SG : forall neg', w = num_value 10 [z2; z3] /\ forallb (num_digit 10) [z2; z3] = true -> (if neg' : bool then - w else w) = 200 -> False).
      { intros neg' [Ew F] X. cbn [forallb] in F. rewrite !andb_true_iff in F. destruct F as (F2 & F3 & _). apply DC in F2, F3. unfold num_value in Ew. cbn [fold_left] in Ew. destruct neg'; lia. }
      destruct (beq z1 "-"%char) eqn:B1.
      { destruct (span (num_digit 10) (z2 :: z3 :: rest)) as [ds r3] eqn:SP2. exfalso. apply (SG neg); [|exact W]. apply (TAIL (z2 :: z3 :: rest)); [|reflexivity].
        rewrite SP2. destruct ds; [discriminate|]. injection SN as <- <- <-. reflexivity. }
      destruct (beq z1 "+"%char) eqn:B2.
      { destruct (span (num_digit 10) (z2 :: z3 :: rest)) as [ds r3] eqn:SP2. exfalso. apply (SG neg); [|exact W]. apply (TAIL (z2 :: z3 :: rest)); [|reflexivity].
        rewrite SP2. destruct ds; [discriminate|]. injection SN as <- <- <-. reflexivity. }
      assert (neg = false) as ->.
      { destruct (span (num_digit 10) (z1 :: z2 :: z3 :: rest)) as [ds r3]. destruct ds; [discriminate|]. injection SN as <- _ _. reflexivity. }
      destruct (TAIL (z1 :: z2 :: z3 :: rest)) with (pre := [z1; z2; z3]) as [Ew F]; [|reflexivity|].
      { destruct (span (num_digit 10) (z1 :: z2 :: z3 :: rest)) as [ds r3]. exact SN. }
      cbn [forallb] in F. rewrite !andb_true_iff in F. destruct F as (F1 & F2 & F3 & _). apply DC in F1, F2, F3. unfold num_value in Ew. cbn [fold_left] in Ew.
      assert (z1 = "2"%char) as -> by (apply code_inj; change (code "2"%char) with 50; lia).
      assert (z2 = "0"%char) as -> by (apply code_inj; change (code "0"%char) with 48; lia).
      assert (z3 = "0"%char) as -> by (apply code_inj; change (code "0"%char) with 48; lia). exact Z. }
    exists dv, (fst (span is_space q)), (rest ++ u ++ t ++ r). split; [|split; [|split]].
    + rewrite E. transitivity ((cstr_of l ++ u) ++ t ++ r); [f_equal; exact U|]. rewrite P. transitivity ((lit "HTTP/1." ++ dv :: (fst (span is_space q) ++ q2)) ++ u ++ t ++ r); [rewrite SA, <- !app_assoc; reflexivity|].
      rewrite Q, <- !app_assoc. cbn [app]. rewrite <- !app_assoc. reflexivity.
    + rewrite orb_true_iff, !Z.eqb_eq in V. destruct V as [V|V]; [left|right]; apply code_inj; [change (code "0"%char) with 48|change (code "1"%char) with 49]; lia.
    + intros Z. rewrite Z in SA. cbn [app] in SA. rewrite SA in SH. destruct q as [|x q]; [discriminate HS|]. specialize (SH x q eq_refl). cbn [head_space] in HS. congruence.
    + apply Forall_forall. rewrite forallb_forall in SF. exact SF.
  - destruct (json_parse_string N text) as [v' rest|e| |] eqn:J; try discriminate. injection H as ->. exists (l ++ t ++ p), text, b, rest. split; [|exact J].
    rewrite E, HL, C, <- !app_assoc. reflexivity.
Qed.
