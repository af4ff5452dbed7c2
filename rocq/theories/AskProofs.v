(** What poundctl asks for: proofs. *)
From Coq Require Import Ascii String List ZArith Bool Lia ZifyBool ZifyNat.
From Verif Require Import Bytes ClenSpec NumSpec NumModel NumProofs StreamSpec AskModel AskSpec.
From Verif Require PtlModel StreamModel ReqModel ReqSpec ReqProofs HdrProofs HeadProofs CtlModel CtlSpec CtlProofs CtlRouteProofs CtlProps AuthModel AuthSpec AuthProofs.
Import ListNotations.
Local Open Scope string_scope.
Local Open Scope list_scope.
Local Open Scope Z_scope.

(** ** base64 *)

Lemma code_range : forall c, 0 <= code c < 256.
Proof. intros c. destruct c as [[] [] [] [] [] [] [] []]; vm_compute; split; congruence. Qed.
Lemma sextet_bits : forall v, 0 <= v < 64 -> six_bits (sextet v) v.
Proof.
  intros v H. split; [lia|]. unfold sextet. change (lit "ABCDEFGHIJKLMNOPQRSTUVWXYZabcdefghijklmnopqrstuvwxyz0123456789+/") with alphabet.
  apply nth_error_nth'. change (length alphabet) with (Z.to_nat 64). lia.
Qed.
Lemma encode_base64 : forall n s, (length s <= n)%nat -> base64 s (encode_block s).
Proof.
  intros n. induction n as [|n IH]; intros s L.
  - destruct s as [|a s]; [apply b_nil|cbn [length] in L; lia].
  - destruct s as [|a [|b [|c s]]]; [apply b_nil| | |].
    + pose proof (code_range a) as A. cbn [encode_block].
      apply (b_one a _ _ (code a * 65536 / 262144) (code a * 65536 / 4096 mod 64)).
      * apply sextet_bits. split; [apply Z.div_pos; lia|apply Z.div_lt_upper_bound; lia].
      * apply sextet_bits. apply Z.mod_pos_bound. lia.
      * replace (code a * 65536 / 262144) with (code a * 65536 / 4096 / 64) by (rewrite Z.div_div by lia; reflexivity).
        replace (code a * 16) with (code a * 65536 / 4096) by (replace (code a * 65536) with (code a * 16 * 4096) by lia; apply Z.div_mul; lia).
        pose proof (Z.div_mod (code a * 65536 / 4096) 64). lia.
    + pose proof (code_range a) as A. pose proof (code_range b) as B. cbn [encode_block]. set (m := code a * 65536 + code b * 256).
      apply (b_two a b _ _ _ (m / 262144) (m / 4096 mod 64) (m / 64 mod 64)).
      * apply sextet_bits. unfold m. split; [apply Z.div_pos; lia|apply Z.div_lt_upper_bound; lia].
      * apply sextet_bits. apply Z.mod_pos_bound. lia.
      * apply sextet_bits. apply Z.mod_pos_bound. lia.
      * replace (m / 262144) with (m / 64 / 64 / 64) by (rewrite !Z.div_div by lia; reflexivity).
        replace (m / 4096) with (m / 64 / 64) by (rewrite !Z.div_div by lia; reflexivity).
        replace ((code a * 256 + code b) * 4) with (m / 64) by (unfold m; replace (code a * 65536 + code b * 256) with ((code a * 256 + code b) * 4 * 64) by lia; apply Z.div_mul; lia).
        pose proof (Z.div_mod (m / 64) 64). pose proof (Z.div_mod (m / 64 / 64) 64). lia.
    + pose proof (code_range a) as A. pose proof (code_range b) as B. pose proof (code_range c) as C. cbn [encode_block]. set (m := code a * 65536 + code b * 256 + code c).
      apply (b_three a b c _ _ _ _ (m / 262144) (m / 4096 mod 64) (m / 64 mod 64) (m mod 64)).
      * apply sextet_bits. unfold m. split; [apply Z.div_pos; lia|apply Z.div_lt_upper_bound; lia].
      * apply sextet_bits. apply Z.mod_pos_bound. lia.
      * apply sextet_bits. apply Z.mod_pos_bound. lia.
      * apply sextet_bits. apply Z.mod_pos_bound. lia.
      * replace (m / 262144) with (m / 64 / 64 / 64) by (rewrite !Z.div_div by lia; reflexivity).
        replace (m / 4096) with (m / 64 / 64) by (rewrite !Z.div_div by lia; reflexivity). fold m.
        pose proof (Z.div_mod m 64). pose proof (Z.div_mod (m / 64) 64). pose proof (Z.div_mod (m / 64 / 64) 64). lia.
      * apply IH. cbn [length] in L. lia.
Qed.

(** The characters used, and how many *)
Definition b64_char (c : byte) : Prop := In c (lit "=+/0123456789ABCDEFGHIJKLMNOPQRSTUVWXYZabcdefghijklmnopqrstuvwxyz").
Lemma six_char : forall c v, six_bits c v -> b64_char c.
Proof.
  intros c v [_ H]. apply nth_error_In in H. unfold b64_char. cbn in H. cbn. tauto.
Qed.
Lemma base64_chars : forall s e, base64 s e -> Forall b64_char e.
Proof.
  intros s e H. assert (P : b64_char "="%char) by (left; reflexivity).
  induction H as [|a p q v w P1 P2 _|a b p q r v w x P1 P2 P3 _|a b c p q r s v w x y t e P1 P2 P3 P4 _ H IH].
  - constructor.
  - do 4 (constructor; [eauto using six_char|]). constructor.
  - do 4 (constructor; [eauto using six_char|]). constructor.
  - do 4 (constructor; [eauto using six_char|]). exact IH.
Qed.
Lemma base64_length : forall s e, base64 s e -> 3 * Z.of_nat (length e) <= 4 * (Z.of_nat (length s) + 2).
Proof. intros s e H. induction H; cbn [length] in *; lia. Qed.
Lemma b64_text : forall c, b64_char c -> text_byte c.
Proof.
  intros c H. right. unfold b64_char in H. cbn in H.
  repeat (destruct H as [<-|H]; [vm_compute; split; congruence|]). destruct H.
Qed.

Lemma encode_lines_S : forall fuel s, s <> [] -> encode_lines (S fuel) s = encode_block (firstn 48 s) ++ [LF] ++ encode_lines fuel (skipn 48 s).
Proof. intros fuel s N. destruct s; [congruence|reflexivity]. Qed.
Lemma block_length : forall s, (length s <= 48)%nat -> (length (encode_block s) <= 66)%nat.
Proof.
  intros s L. pose proof (encode_base64 _ s (le_n _)) as B. apply base64_length in B. lia.
Qed.
Lemma maxbuf : Z.of_nat PtlModel.MAXBUF = 4096.
Proof. reflexivity. Qed.
Lemma credentials_short : forall n p, Z.of_nat (length n + length p) <= 47 ->
  credentials n p = encode_block (n ++ lit ":" ++ p).
Proof.
  intros n p L. unfold credentials. set (s := n ++ lit ":" ++ p). cbv zeta.
  assert (LS : (length s <= 48)%nat) by (unfold s; rewrite !app_length; cbn [length lit list_ascii_of_string]; lia).
  assert (NE : s <> []) by (unfold s; destruct n; discriminate).
  destruct (length s) as [|f] eqn:E; [destruct s; [congruence|discriminate E]|]. rewrite (encode_lines_S f s NE).
  rewrite (firstn_all2 (n := 48) s) by lia. rewrite (skipn_all2 (n := 48) s) by lia.
  assert (EN : encode_lines f [] = []) by (destruct f; reflexivity). rewrite EN, app_nil_r.
  pose proof (block_length s ltac:(lia)) as BL. pose proof maxbuf as MB.
  rewrite (firstn_all2 (n := PtlModel.MAXBUF) (encode_block s ++ [LF])) by (rewrite app_length; cbn [length]; lia).
  rewrite app_length. cbn [length]. rewrite Nat.add_sub. rewrite firstn_app, Nat.sub_diag, firstn_all. cbn [firstn]. apply app_nil_r.
Qed.

(** ** The head of the request *)

Lemma text_app : forall a b, text a -> text b -> text (a ++ b).
Proof. intros a b A B. apply Forall_app. split; assumption. Qed.
Definition textb (s : bytes) : bool := forallb (fun c => beq c "009" || ((32 <=? code c) && negb (code c =? 127))) s.
Lemma text_lit : forall s, textb s = true -> text s.
Proof.
  intros s H. unfold textb in H. rewrite forallb_forall in H. apply Forall_forall. intros c I. specialize (H c I).
  destruct (beq c "009") eqn:E; [left; apply beq_eq, E|]. right. lia.
Qed.

Definition head_of (m url : bytes) : bytes := m ++ lit " " ++ url ++ lit " HTTP/1.1".
Definition fields_text (u : PtlModel.url) : list bytes :=
  (lit "Host: " ++ PtlModel.host u)
  :: match PtlModel.pass u with
     | Some p => [lit "Authorization: Basic " ++ credentials (match PtlModel.user u with Some n => n | None => [] end) p]
     | None => []
     end.
Lemma request_text : forall u m t, send_request u m t = head_of m (PtlModel.path u ++ lit "/" ++ t) ++ CRLF ++ flat_map (fun l => l ++ CRLF) (fields_text u) ++ CRLF.
Proof.
  intros u m t. unfold send_request, head_of, fields_text. destruct (PtlModel.pass u) as [p|]; cbn [flat_map];
    repeat (rewrite <- app_assoc; cbn [app]); reflexivity.
Qed.

Lemma head_lines_all : forall ls, Forall (fun l => text l /\ l <> [] /\ Z.of_nat (length l) < 4094) ls ->
  ReqSpec.head_lines 4096 (flat_map (fun l => l ++ CRLF) ls ++ CRLF) ls [].
Proof.
  intros ls H. induction H as [|l ls (T & N & L) H IH].
  - apply (ReqSpec.hl_end 4096 CRLF []). right. reflexivity.
  - cbn [flat_map]. rewrite <- !app_assoc. apply ReqSpec.hl_line; [exact T|exact N|right; reflexivity| |exact IH].
    change (length CRLF) with 2%nat. lia.
Qed.

Lemma read_exact : forall bs req ls r, ReqSpec.message_head 4096 bs req ls r ->
  ReqModel.http_request_read [] (map StreamModel.RByte bs)
  = ReqModel.RR_ok req (filter (fun h => negb (ReqModel.illegal h)) (map ReqModel.qualify_header ls)) (map StreamModel.RByte r).
Proof.
  intros bs req ls r H. unfold ReqModel.http_request_read.
  destruct (HeadProofs.skip_complete _ _ _ _ H (S (length (map StreamModel.RByte bs)))) as (r' & -> & Hl).
  { rewrite map_length. lia. }
  rewrite (HeadProofs.read_lines_complete _ _ _ Hl); [|rewrite map_length; lia]. rewrite HeadProofs.fold_lines_plain. reflexivity.
Qed.

Lemma keeps : forall l n v, ReqSpec.field_line l n v -> negb (ReqModel.illegal (ReqModel.qualify_header l)) = true
  /\ HdrProofs.hfield (ReqModel.qualify_header l) = (n, v).
Proof. intros l n v H. apply HdrProofs.qualify_iff in H. destruct H as (A & B & C). rewrite A. split; [reflexivity|]. unfold HdrProofs.hfield. rewrite B, C. reflexivity. Qed.
Lemma drops : forall l, ~ In ":"%char l -> negb (ReqModel.illegal (ReqModel.qualify_header l)) = false.
Proof.
  intros l H. destruct (ReqModel.illegal (ReqModel.qualify_header l)) eqn:E; [reflexivity|]. exfalso.
  apply HdrProofs.qualify_legal in E. destruct E as (b & E & _). rewrite E in H. apply H. apply in_or_app. right. left. reflexivity.
Qed.

Definition token_charb (c : byte) : bool := existsb (beq c) (lit "!#$%&'*+-.^_`|~0123456789ABCDEFGHIJKLMNOPQRSTUVWXYZabcdefghijklmnopqrstuvwxyz").
Lemma token_lit : forall s, forallb token_charb s = true -> Forall ReqSpec.token_char s.
Proof.
  intros s H. rewrite forallb_forall in H. apply Forall_forall. intros c I. specialize (H c I). unfold token_charb in H.
  apply existsb_exists in H. destruct H as (d & D & E). apply beq_eq in E. subst d. exact D.
Qed.
Lemma field_of : forall n v, n <> [] -> forallb token_charb n = true -> (forall c w, v = c :: w -> ~ ClenSpec.blank c) ->
  ReqSpec.field_line (n ++ lit ": " ++ v) n v.
Proof.
  intros n v N T V. exists [" "%char]. split; [reflexivity|]. split; [exact N|]. split; [apply token_lit, T|]. split; [|exact V].
  constructor; [|constructor]. left. reflexivity.
Qed.

(** ** Commands *)

Lemma getn_index : forall a rest (b : bool), index a -> rest = [] \/ (b = false /\ exists r, rest = "/"%char :: r) ->
  exists n, oi_getn (a ++ rest) b = Some (n, rest).
Proof.
  intros a rest b (T & n & NU & L) R. pose proof (token_nonneg a T) as P. apply (token_numeral a n T) in NU. subst n.
  apply number_token_digits in T. destruct T as [H1 H2]. unfold oi_getn, strtol.
  rewrite (scan_plain 10 a rest); [|lia|exact H1|exact H2|].
  2: { intros c r E. destruct R as [R|[_ [q R]]]; rewrite R in E; [discriminate E|]. injection E as <- _. reflexivity. }
  cbv zeta. destruct (LONG_MAX <? num_value 10 a) eqn:E1; [unfold LONG_MAX in E1; lia|].
  destruct (num_value 10 a <? LONG_MIN) eqn:E2; [unfold LONG_MIN in E2; lia|]. cbn [orb].
  destruct (num_value 10 a <? 0) eqn:E3; [lia|]. destruct (INT_MAX <? num_value 10 a) eqn:E4; [unfold INT_MAX in E4; lia|]. cbn [orb].
  exists (num_value 10 a). destruct R as [-> |[-> [q ->]]]; reflexivity.
Qed.
Lemma index_dash : forall a, index a -> exists c r, a = c :: r /\ beq c "-" = false.
Proof.
  intros a (T & _). apply number_token_digits in T. destruct T as [H1 H2]. destruct a as [|c r]; [congruence|]. exists c, r. split; [reflexivity|].
  apply beq_neq. intros ->. discriminate H2.
Qed.
Lemma check_first : forall a r, a = lit "-" \/ index a -> check_uri ("/"%char :: a ++ "/"%char :: r) =
  match oi_getn r false with
  | None => None
  | Some (_, []) => Some Service
  | Some (_, _ :: uri) => match oi_getn uri true with None => None | Some _ => Some Backend end
  end.
Proof.
  intros a r [-> |H]; [reflexivity|]. unfold check_uri. change (negb (beq "/" "/")) with false. cbv iota.
  destruct (index_dash a H) as (c & q & E & D). destruct (getn_index a ("/"%char :: r) false H) as (n & G); [right; split; [reflexivity|exists r; reflexivity]|].
  rewrite E in *. cbn [app] in *. rewrite D, G. reflexivity.
Qed.
Lemma check_service : forall comps, service_id comps -> check_uri (CtlSpec.path comps) = Some Service.
Proof.
  intros comps (a & b & -> & A & B). cbn [CtlSpec.path]. rewrite check_first; [|exact A].
  destruct (getn_index b [] false B (or_introl eq_refl)) as (n & ->). reflexivity.
Qed.
Lemma check_backend : forall comps, backend_id comps -> check_uri (CtlSpec.path comps) = Some Backend.
Proof.
  intros comps (a & b & k & -> & A & B & K). cbn [CtlSpec.path]. rewrite check_first; [|exact A].
  destruct (getn_index b ("/"%char :: k ++ []) false B) as (n & ->); [right; split; [reflexivity|exists (k ++ []); reflexivity]|].
  destruct (getn_index k [] true K (or_introl eq_refl)) as (n' & ->). reflexivity.
Qed.

Lemma ask_wants : forall u argv m t, wants argv m t -> exists t', t = lit "/" ++ t' /\ ask u argv = Some (send_request u m t')
  /\ In m [lit "GET"; lit "DELETE"; lit "PUT"].
Proof.
  intros u argv m t H. destruct H as [| |uri|w uri W|w uri W|w comps k W S|comps k S].
  - exists (lit "listener/"). split; [reflexivity|]. split; [reflexivity|cbn; tauto].
  - exists (lit "listener/"). split; [reflexivity|]. split; [reflexivity|cbn; tauto].
  - exists (lit "listener" ++ uri). split; [reflexivity|]. split; [reflexivity|cbn; tauto].
  - exists (lit "listener" ++ uri). split; [reflexivity|]. split; [destruct W as [-> | ->]; reflexivity|cbn; tauto].
  - exists (lit "listener" ++ uri). split; [reflexivity|]. split; [destruct W as [-> | ->]; reflexivity|cbn; tauto].
  - exists (lit "session" ++ CtlSpec.path comps ++ lit "?key=" ++ k). split; [reflexivity|]. split; [|cbn; tauto].
    assert (E : ask u [w; CtlSpec.path comps; k] = run u Delete_session [CtlSpec.path comps; k]) by (destruct W as [-> | ->]; reflexivity).
    rewrite E. unfold run. rewrite (check_service comps S). reflexivity.
  - exists (lit "session" ++ CtlSpec.path comps ++ lit "?key=" ++ k). split; [reflexivity|]. split; [|cbn; tauto].
    change (ask u [lit "add"; CtlSpec.path comps; k]) with (run u Add_session [CtlSpec.path comps; k]). unfold run. rewrite (check_backend comps S). reflexivity.
Qed.

(** ** Delivery *)

Lemma host_field : forall u, proper u -> let l := lit "Host: " ++ PtlModel.host u in
  ReqSpec.field_line l (lit "Host") (PtlModel.host u) /\ text l /\ l <> [] /\ Z.of_nat (length l) < 4094.
Proof.
  intros u [(T & SPC & TAB & L) _]. cbv zeta. split; [|split; [|split]].
  - apply (field_of (lit "Host")); [discriminate|reflexivity|]. intros c w E [B|B]; subst c; [apply SPC|apply TAB]; rewrite E; left; reflexivity.
  - apply text_app; [apply text_lit; reflexivity|exact T].
  - discriminate.
  - rewrite app_length. change (length (lit "Host: ")) with 6%nat. lia.
Qed.
Lemma auth_field : forall s e, base64 s e -> Z.of_nat (length s) <= 48 -> let l := lit "Authorization: Basic " ++ e in
  ReqSpec.field_line l (lit "Authorization") (lit "Basic " ++ e) /\ text l /\ l <> [] /\ Z.of_nat (length l) < 4094.
Proof.
  intros s e B L. cbv zeta. split; [|split; [|split]].
  - apply (field_of (lit "Authorization") (lit "Basic " ++ e)); [discriminate|reflexivity|]. intros c w E. injection E as <- _. intros [X|X]; discriminate X.
  - apply text_app; [apply text_lit; reflexivity|]. apply base64_chars in B. eapply Forall_impl; [|exact B]. exact b64_text.
  - discriminate.
  - rewrite app_length. change (length (lit "Authorization: Basic ")) with 21%nat. apply base64_length in B. lia.
Qed.

Lemma fields_ok : forall u, proper u -> short u -> exists ls, ls = fields_text u
  /\ Forall (fun l => text l /\ l <> [] /\ Z.of_nat (length l) < 4094) ls
  /\ exists gs, carried u gs /\ Forall2 (fun l f => ReqSpec.field_line l (fst f) (snd f)) ls gs.
Proof.
  intros u P SH. exists (fields_text u). split; [reflexivity|]. unfold fields_text. destruct (host_field u P) as (F & T & N & L). destruct P as [_ P].
  destruct (PtlModel.pass u) as [p|] eqn:E.
  - destruct (P p eq_refl) as (n & U & NC). rewrite U. rewrite credentials_short by (apply SH; assumption).
    assert (B : base64 (n ++ lit ":" ++ p) (encode_block (n ++ lit ":" ++ p))) by (apply (encode_base64 _ _ (le_n _))).
    destruct (auth_field _ _ B) as (F' & T' & N' & L').
    { rewrite !app_length. change (length (lit ":")) with 1%nat. specialize (SH n p U E). lia. }
    split; [constructor; [auto|constructor; [auto|constructor]]|]. eexists. split; [exact (ca_basic u n p _ U E B)|].
    constructor; [exact F|]. constructor; [exact F'|constructor].
  - split; [constructor; [auto|constructor]|]. eexists. split; [exact (ca_none u E)|]. constructor; [exact F|constructor].
Qed.
Lemma kept : forall ls gs, Forall2 (fun l f => ReqSpec.field_line l (fst f) (snd f)) ls gs ->
  filter (fun h => negb (ReqModel.illegal h)) (map ReqModel.qualify_header ls) = map ReqModel.qualify_header ls
  /\ HdrProofs.hfields (map ReqModel.qualify_header ls) = gs.
Proof.
  intros ls gs H. induction H as [|l f ls gs F H [IH1 IH2]]; [split; reflexivity|]. destruct (keeps _ _ _ F) as [K1 K2].
  cbn [map filter]. rewrite K1, IH1. split; [reflexivity|]. unfold HdrProofs.hfields in *. cbn [map]. rewrite K2, IH2. destruct f; reflexivity.
Qed.

Lemma word_in : forall s, ~ In " "%char s -> s <> [] -> ReqSpec.word s.
Proof. intros s H N. split; assumption. Qed.
Lemma line_parsed : forall m url, In m [lit "GET"; lit "DELETE"; lit "PUT"] -> sendable url -> url <> [] ->
  ReqModel.parse_http_request (head_of m url) 1 = (ReqModel.ST_OK, Some (ReqModel.mkRL m url 1)).
Proof.
  intros m url M (_ & SPC & _ & _) N. apply ReqProofs.parse_ok_iff.
  assert (G : exists g, ReqSpec.method m m g /\ g <= 1 /\ ReqSpec.word m).
  { destruct M as [<-|[<-|[<-|[]]]].
    - exists 0. split; [exists "GET"%string; split; [cbn; tauto|split; reflexivity]|]. split; [lia|]. split; [discriminate|cbn; intuition discriminate].
    - exists 1. split; [exists "DELETE"%string; split; [cbn; tauto|split; reflexivity]|]. split; [lia|]. split; [discriminate|cbn; intuition discriminate].
    - exists 1. split; [exists "PUT"%string; split; [cbn; tauto|split; reflexivity]|]. split; [lia|]. split; [discriminate|cbn; intuition discriminate]. }
  destruct G as (g & MG & LG & W). exists m, g. split; [|split; [exact MG|exact LG]].
  exists (lit " "), (lit " "), "1"%char. split; [reflexivity|]. split; [exact W|].
  assert (SP1 : ReqSpec.spaces (lit " ")) by (split; [discriminate|repeat constructor]).
  split; [exact SP1|]. split; [split; assumption|]. split; [exact SP1|]. right. split; reflexivity.
Qed.
Lemma head_ok : forall m url, In m [lit "GET"; lit "DELETE"; lit "PUT"] -> sendable url ->
  text (head_of m url) /\ head_of m url <> [] /\ Z.of_nat (length (head_of m url)) < 4094.
Proof.
  intros m url M (T & _ & _ & L). unfold head_of. assert (G : text m /\ m <> [] /\ (length m <= 6)%nat).
  { destruct M as [<-|[<-|[<-|[]]]]; (split; [apply text_lit; reflexivity|split; [discriminate|cbn; lia]]). }
  destruct G as (TM & NM & LM). split; [|split].
  - apply text_app; [exact TM|]. apply text_app; [apply text_lit; reflexivity|]. apply text_app; [exact T|apply text_lit; reflexivity].
  - destruct m; [congruence|discriminate].
  - rewrite !app_length. change (length (lit " ")) with 1%nat. change (length (lit " HTTP/1.1")) with 9%nat. lia.
Qed.

Theorem delivered : forall u argv m t, wants argv m t -> proper u -> short u -> sendable (PtlModel.path u ++ t) ->
  exists bs line hs, ask u argv = Some bs /\ ReqModel.http_request_read [] (map StreamModel.RByte bs) = ReqModel.RR_ok line hs []
    /\ ReqModel.parse_http_request line 1 = (ReqModel.ST_OK, Some (ReqModel.mkRL m (PtlModel.path u ++ t) 1))
    /\ Forall HdrProofs.good hs /\ carried u (HdrProofs.hfields hs).
Proof.
  intros u argv m t W P SH SE. destruct (ask_wants u argv m t W) as (t' & -> & A & M).
  destruct (fields_ok u P SH) as (ls & -> & F & gs & CA & F2). destruct (kept _ _ F2) as [K1 K2].
  destruct (head_ok m _ M SE) as (HT & HN & HL).
  assert (MH : ReqSpec.message_head 4096 (send_request u m t') (head_of m (PtlModel.path u ++ lit "/" ++ t')) (fields_text u) []).
  { rewrite request_text. apply ReqSpec.mh_first; [exact HT|exact HN|right; reflexivity| |apply head_lines_all, F]. change (length CRLF) with 2%nat. lia. }
  pose proof (read_exact _ _ _ _ MH) as R. rewrite K1 in R.
  exists (send_request u m t'), (head_of m (PtlModel.path u ++ lit "/" ++ t')), (map ReqModel.qualify_header (fields_text u)).
  split; [exact A|]. split; [exact R|].
  split; [apply line_parsed; [exact M|exact SE|destruct (PtlModel.path u); discriminate]|]. split; [|rewrite K2; exact CA].
  destruct (HeadProofs.read_request_sound _ _ _ _ _ R) as (? & ? & ? & ? & _ & _ & _ & _ & G & _). exact G.
Qed.

(** ** Effects *)

Lemma served_is : forall c u argv m t, wants argv m t -> proper u -> short u -> PtlModel.path u = [] -> sendable t ->
  exists bs hs, ask u argv = Some bs /\ served c bs = Some (hs, CtlModel.control_response_basic c (meth_of m) t) /\ Forall HdrProofs.good hs
    /\ carried u (HdrProofs.hfields hs).
Proof.
  intros c u argv m t W P SH E SE. destruct (delivered u argv m t W P SH) as (bs & line & hs & A & R & L & G & C); [rewrite E; exact SE|].
  exists bs, hs. split; [exact A|]. unfold served. rewrite R, L. cbn [ReqModel.rl_method ReqModel.rl_url]. rewrite E. split; [reflexivity|].
  split; [exact G|exact C].
Qed.

(** ** Credentials *)

Lemma good_code : forall h, HdrProofs.good h -> ReqModel.h_code h = ReqModel.find_hd_type ReqModel.hd_types (ReqModel.h_name h).
Proof.
  intros h [E I]. rewrite E in I |- *. unfold ReqModel.qualify_header in *. set (s := ReqModel.h_text h) in *. clearbody s.
  destruct (span ReqModel.hname_char s) as [[|a name] [|c rest]]; try discriminate I. destruct (beq c ":"); [reflexivity|discriminate I].
Qed.
Lemma authorized : forall l hs host n p e, AuthSpec.sound_lib l -> decodes l -> Forall HdrProofs.good hs ->
  HdrProofs.hfields hs = [(lit "Host", host); (lit "Authorization", lit "Basic " ++ e)] -> base64 (n ++ lit ":" ++ p) e ->
  Z.of_nat (length (n ++ lit ":" ++ p)) <= 48 -> ~ In ":"%char n -> ~ In NUL (n ++ p) ->
  AuthModel.http_request_get_basic_auth l hs = AuthModel.Creds n p.
Proof.
  intros l hs host n p e SL D G F B L NC NN.
  destruct hs as [|h1 [|h2 [|h3 hs]]]; try discriminate F. unfold HdrProofs.hfields, HdrProofs.hfield in F. cbn [map] in F.
  injection F as F1 F2 F3 F4. inversion G as [|x1 l1 G1 G' EQ1]; subst. inversion G' as [|x2 l2 G2 _ EQ2]; subst.
  unfold AuthModel.http_request_get_basic_auth. cbn [ReqModel.http_header_list_locate]. rewrite (good_code h1 G1), (good_code h2 G2), F1, F3.
  transitivity (AuthModel.get_basic_auth l (ReqModel.h_val h2)); [reflexivity|]. rewrite F4. change (AuthModel.get_basic_auth l (lit "Basic " ++ e) = AuthModel.Creds n p).
  apply AuthProofs.creds_carries; [exact SL| |].
  { rewrite app_length. change (length (lit "Basic ")) with 6%nat. apply base64_length in B. pose proof maxbuf as MB. unfold PtlModel.MAXBUF in MB. unfold AuthModel.MAXBUF. lia. }
  exists (lit "Basic"), (lit " "), e, n, p. split; [reflexivity|]. split; [reflexivity|]. split; [repeat constructor|]. split; [|split; [exact (D _ _ B)|]].
  - intros (c & r & E & Q). apply base64_chars in B. rewrite E in B. apply Forall_inv in B. unfold b64_char in B. cbn in B.
    unfold AuthSpec.space in Q. repeat (destruct B as [<-|B]; [destruct Q as [Q|Q]; discriminate Q|]). destruct B.
  - split; [exact NC|]. split; (split; [|left; reflexivity]); intros I; apply NN, in_or_app; [left|right]; exact I.
Qed.

Lemma credentials_two : forall n p, 48 < Z.of_nat (length (n ++ lit ":" ++ p)) <= 96 ->
  credentials n p = encode_block (firstn 48 (n ++ lit ":" ++ p)) ++ [LF] ++ encode_block (skipn 48 (n ++ lit ":" ++ p)).
Proof.
  intros n p L. unfold credentials. set (s := n ++ lit ":" ++ p) in *. cbv zeta. clearbody s.
  assert (NE : s <> []) by (intros ->; cbn in L; lia).
  assert (LK : (0 < length (skipn 48 s) <= 48)%nat) by (rewrite skipn_length; lia).
  assert (LF48 : (length (firstn 48 s) <= 48)%nat) by (rewrite firstn_length; lia).
  destruct (length s) as [|[|f]] eqn:E; [lia|lia|]. rewrite (encode_lines_S _ s NE).
  assert (NK : skipn 48 s <> []) by (intros X; rewrite X in LK; cbn in LK; lia).
  rewrite (encode_lines_S _ _ NK), (firstn_all2 (n := 48) (skipn 48 s)), (skipn_all2 (n := 48) (skipn 48 s)) by lia.
  assert (EN : encode_lines f [] = []) by (destruct f; reflexivity). rewrite EN, app_nil_r.
  pose proof (block_length _ LF48) as B1. pose proof (block_length (skipn 48 s) ltac:(lia)) as B2. pose proof maxbuf as MB.
  set (e1 := encode_block (firstn 48 s)) in *. set (e2 := encode_block (skipn 48 s)) in *.
  rewrite (firstn_all2 (n := PtlModel.MAXBUF) (e1 ++ [LF] ++ e2 ++ [LF])) by (rewrite !app_length; cbn [length]; lia).
  replace (e1 ++ [LF] ++ e2 ++ [LF]) with ((e1 ++ [LF] ++ e2) ++ [LF]) by (repeat (rewrite <- app_assoc; cbn [app]); reflexivity).
  rewrite app_length. cbn [length]. rewrite Nat.add_sub. rewrite firstn_app, Nat.sub_diag, firstn_all. cbn [firstn]. apply app_nil_r.
Qed.
Lemma b64_no_colon : forall e, Forall b64_char e -> ~ In ":"%char e.
Proof. intros e H I. rewrite Forall_forall in H. specialize (H _ I). unfold b64_char in H. cbn in H. repeat (destruct H as [H|H]; [discriminate H|]). destruct H. Qed.

Theorem cut_off : forall u argv m t n p, wants argv m t -> proper u -> sendable (PtlModel.path u ++ t) ->
  PtlModel.user u = Some n -> PtlModel.pass u = Some p -> 48 < Z.of_nat (length (n ++ lit ":" ++ p)) <= 96 ->
  exists bs line hs e, ask u argv = Some bs /\ ReqModel.http_request_read [] (map StreamModel.RByte bs) = ReqModel.RR_ok line hs []
    /\ Forall HdrProofs.good hs
    /\ HdrProofs.hfields hs = [(lit "Host", PtlModel.host u); (lit "Authorization", lit "Basic " ++ e)]
    /\ base64 (firstn 48 (n ++ lit ":" ++ p)) e.
Proof.
  intros u argv m t n p W P SE U PA L. destruct (ask_wants u argv m t W) as (t' & -> & A & M).
  destruct (head_ok m _ M SE) as (HT & HN & HL). destruct (host_field u P) as (F & T & N & LH).
  set (s := n ++ lit ":" ++ p) in *.
  assert (B1 : base64 (firstn 48 s) (encode_block (firstn 48 s))) by (apply (encode_base64 _ _ (le_n _))).
  assert (B2 : base64 (skipn 48 s) (encode_block (skipn 48 s))) by (apply (encode_base64 _ _ (le_n _))).
  assert (LF48 : Z.of_nat (length (firstn 48 s)) <= 48) by (rewrite firstn_length; lia).
  destruct (auth_field _ _ B1 LF48) as (F' & T' & N' & L').
  assert (N2 : encode_block (skipn 48 s) <> []).
  { destruct (skipn 48 s) as [|x [|y [|z r]]] eqn:E; try discriminate. intros _. assert (K : length (skipn 48 s) = 0%nat) by (rewrite E; reflexivity). rewrite skipn_length in K. lia. }
  set (e1 := encode_block (firstn 48 s)) in *. set (e2 := encode_block (skipn 48 s)) in *.
  assert (MH : ReqSpec.message_head 4096 (send_request u m t') (head_of m (PtlModel.path u ++ lit "/" ++ t'))
    [lit "Host: " ++ PtlModel.host u; lit "Authorization: Basic " ++ e1; e2] []).
  { rewrite request_text. apply ReqSpec.mh_first; [exact HT|exact HN|right; reflexivity|change (length CRLF) with 2%nat; lia|].
    unfold fields_text. rewrite PA, U, (credentials_two n p L). fold s e1 e2. cbn [flat_map].
    replace ((lit "Host: " ++ PtlModel.host u) ++ CRLF) with ((lit "Host: " ++ PtlModel.host u) ++ CRLF ++ []) by (rewrite app_nil_r; reflexivity).
    rewrite <- !app_assoc. rewrite app_nil_l. rewrite (app_assoc (lit "Host: ")).
    apply ReqSpec.hl_line; [exact T|exact N|right; reflexivity|change (length CRLF) with 2%nat; lia|].
    rewrite (app_assoc (lit "Authorization: Basic ") e1).
    apply ReqSpec.hl_line; [exact T'|exact N'|left; reflexivity|change (length [LF]) with 1%nat; lia|].
    apply ReqSpec.hl_line; [|exact N2|right; reflexivity| |].
    - apply base64_chars in B2. eapply Forall_impl; [|exact B2]. exact b64_text.
    - apply base64_length in B2. rewrite skipn_length in B2. change (length CRLF) with 2%nat. lia.
    - cbn [app]. apply (ReqSpec.hl_end 4096 CRLF []). right. reflexivity. }
  pose proof (read_exact _ _ _ _ MH) as R.
  destruct (keeps _ _ _ F) as [K1 K2]. destruct (keeps _ _ _ F') as [K3 K4].
  assert (K5 : negb (ReqModel.illegal (ReqModel.qualify_header e2)) = false) by (apply drops, b64_no_colon, (base64_chars _ _ B2)).
  cbn [map filter] in R. rewrite K1, K3, K5 in R.
  eexists _, _, _, e1. split; [exact A|]. split; [exact R|]. split; [|split; [|exact B1]].
  - destruct (HeadProofs.read_request_sound _ _ _ _ _ R) as (? & ? & ? & ? & _ & _ & _ & _ & G & _). exact G.
  - unfold HdrProofs.hfields. cbn [map]. rewrite K2, K4. reflexivity.
Qed.

(** ** What is refused *)

Lemma number_app : forall a, number_token a -> forall c, In c a -> num_digit 10 c = true.
Proof. intros a T c I. apply number_token_digits in T. destruct T as [_ T]. rewrite forallb_forall in T. exact (T c I). Qed.
(** A name is not read by strtol up to a slash or the end *)
Lemma getn_name : forall a rest (b : bool), CtlSpec.plain a -> ~ number_token a -> rest = [] \/ (exists r, rest = "/"%char :: r) -> oi_getn (a ++ rest) b = None.
Proof.
  intros a rest b P N R. pose proof P as (NE & NS & NQ & _).
  assert (AS : CtlModel.at_stop rest = true) by (destruct R as [-> |[r ->]]; reflexivity).
  pose proof (CtlProofs.getident_name a rest P N AS) as G.
  unfold CtlModel.ctl_getident in G. rewrite beq_refl in G. unfold oi_getn. destruct (strtol (a ++ rest) 10) as [[errno n] e].
  destruct (CtlModel.at_stop e) eqn:E; cbn [negb] in G.
  - destruct (negb errno && (n <=? INT_MAX)); discriminate G.
  - destruct (errno || (n <? 0) || (INT_MAX <? n)); [reflexivity|]. destruct e as [|c e]; [discriminate E|].
    cbn [CtlModel.at_stop] in E. unfold CtlModel.stops, CtlModel.slash in E. apply orb_false_iff in E. destruct E as [E _]. rewrite E. rewrite andb_false_r. reflexivity.
Qed.
Theorem named_refused : forall u a b r k w, CtlSpec.plain b -> ~ number_token b -> a = lit "-" \/ index a ->
  w = lit "delete" \/ w = lit "add" -> ask u [w; CtlSpec.path (a :: b :: r); k] = None.
Proof.
  intros u a b r k w P N A W.
  assert (C : check_uri (CtlSpec.path (a :: b :: r)) = None).
  { cbn [CtlSpec.path]. rewrite check_first; [|exact A]. rewrite (getn_name b (CtlSpec.path r) false P N); [reflexivity|].
    destruct r as [|c r]; [left; reflexivity|]. right. exists (c ++ CtlSpec.path r). reflexivity. }
  destruct W as [-> | ->]; cbn [ask find_command]; [change (find_command (lit "delete")) with (Some Delete_session)|change (find_command (lit "add")) with (Some Add_session)]; cbv iota; unfold run; rewrite C; reflexivity.
Qed.
Theorem listener_refused : forall u a r k w, CtlSpec.plain a -> ~ number_token a -> hd_error a <> Some "-"%char ->
  w = lit "delete" \/ w = lit "add" -> ask u [w; CtlSpec.path (a :: r); k] = None.
Proof.
  intros u a r k w P N D W.
  assert (C : check_uri (CtlSpec.path (a :: r)) = None).
  { cbn [CtlSpec.path]. unfold check_uri. change (negb (beq "/" "/")) with false. cbv iota.
    rewrite (getn_name a (CtlSpec.path r) false P N); [|destruct r as [|c r]; [left; reflexivity|right; exists (c ++ CtlSpec.path r); reflexivity]].
    destruct (a ++ CtlSpec.path r) as [|d q] eqn:E; [reflexivity|]. destruct (beq d "-") eqn:B; [|reflexivity]. exfalso. apply beq_eq in B. subst d.
    destruct P as [NE _]. destruct a as [|x a]; [congruence|]. injection E as E _. subst x. apply D. reflexivity. }
  destruct W as [-> | ->]; cbn [ask find_command]; [change (find_command (lit "delete")) with (Some Delete_session)|change (find_command (lit "add")) with (Some Add_session)]; cbv iota; unfold run; rewrite C; reflexivity.
Qed.

(** A key with a space *)
Lemma spaced_refused : forall m url k g, In m [lit "GET"; lit "DELETE"; lit "PUT"] -> url <> [] -> ~ In " "%char url -> k <> [] -> hd_error k <> Some " "%char ->
  fst (ReqModel.parse_http_request (head_of m (url ++ lit " " ++ k)) g) = ReqModel.ST_400.
Proof.
  intros m url k g M N NS KE NK. unfold ReqModel.parse_http_request, head_of.
  assert (NSP : forall s, ~ In " "%char s -> forallb ReqModel.not_space s = true).
  { intros s H. apply forallb_forall. intros c I. unfold ReqModel.not_space. apply negb_true_iff, beq_neq. intros ->. exact (H I). }
  assert (G : ~ In " "%char m /\ m <> [] /\ exists nm gr, ReqModel.find_method m = Some (nm, gr)).
  { destruct M as [<-|[<-|[<-|[]]]]; (split; [cbn; intuition discriminate|]; split; [discriminate|]; eexists _, _; vm_compute; reflexivity). }
  destruct G as (G1 & G2 & nm & gr & G3). rewrite (span_unique ReqModel.not_space m); [|exact (NSP m G1)|reflexivity].
  destruct m as [|m0 m]; [congruence|]. rewrite G3.
  assert (S1 : snd (span ReqModel.a_space (lit " " ++ (url ++ lit " " ++ k) ++ lit " HTTP/1.1")) = url ++ lit " " ++ k ++ lit " HTTP/1.1").
  { rewrite (span_unique ReqModel.a_space (lit " ")); [cbn [snd]; rewrite <- !app_assoc; reflexivity|reflexivity|].
    destruct url as [|c url]; [congruence|]. cbn [app]. unfold ReqModel.a_space. apply beq_neq. intros ->. apply NS. left. reflexivity. }
  rewrite S1. destruct (url ++ lit " " ++ k ++ lit " HTTP/1.1") as [|d q] eqn:E; [destruct url; [congruence|discriminate E]|]. rewrite <- E.
  rewrite (span_unique ReqModel.not_space url); [|exact (NSP url NS)|reflexivity]. cbv zeta.
  assert (S2 : snd (span ReqModel.a_space (lit " " ++ k ++ lit " HTTP/1.1")) = k ++ lit " HTTP/1.1").
  { destruct k as [|c k]; [congruence|]. rewrite (span_unique ReqModel.a_space (lit " ")); [reflexivity|reflexivity|].
    cbn [app]. unfold ReqModel.a_space. apply beq_neq. intros ->. apply NK. reflexivity. }
  rewrite S2. assert (L : (2 <= length (skipn 7 (k ++ lit " HTTP/1.1")))%nat).
  { rewrite skipn_length, app_length. change (length (lit " HTTP/1.1")) with 9%nat. lia. }
  destruct (skipn 7 (k ++ lit " HTTP/1.1")) as [|x [|y r]]; cbn [length] in L; [lia|lia|].
  destruct (bytes_eqb _ _); reflexivity.
Qed.

(** ** delete wants a service, add a backend *)
Lemma check_listener : forall a, a = lit "-" \/ index a -> check_uri (CtlSpec.path [a]) = Some Listener.
Proof.
  intros a [-> |H]; [reflexivity|]. cbn [CtlSpec.path]. unfold check_uri. change (negb (beq "/" "/")) with false. cbv iota.
  destruct (index_dash a H) as (c & q & E & D). destruct (getn_index a [] false H (or_introl eq_refl)) as (n & G).
  rewrite E in *. cbn [app] in *. rewrite D, G. reflexivity.
Qed.
Lemma level_refused : forall u comps k,
  (backend_id comps \/ (exists a, comps = [a] /\ (a = lit "-" \/ index a)) ->
     ask u [lit "delete"; CtlSpec.path comps; k] = None /\ ask u [lit "del"; CtlSpec.path comps; k] = None) /\
  (service_id comps \/ (exists a, comps = [a] /\ (a = lit "-" \/ index a)) -> ask u [lit "add"; CtlSpec.path comps; k] = None).
Proof.
  intros u comps k.
  assert (D : forall w, w = lit "delete" \/ w = lit "del" -> check_uri (CtlSpec.path comps) <> Some Service -> ask u [w; CtlSpec.path comps; k] = None).
  { intros w W C. assert (F : find_command w = Some Delete_session) by (destruct W as [-> | ->]; reflexivity).
    unfold ask. rewrite F. unfold run. destruct (check_uri (CtlSpec.path comps)) as [[]|]; try reflexivity. congruence. }
  assert (A : check_uri (CtlSpec.path comps) <> Some Backend -> ask u [lit "add"; CtlSpec.path comps; k] = None).
  { intros C. unfold ask. change (find_command (lit "add")) with (Some Add_session). unfold run. destruct (check_uri (CtlSpec.path comps)) as [[]|]; try reflexivity. congruence. }
  split; intros [H|(a & -> & H)].
  - rewrite (check_backend comps H) in D. split; apply D; auto; discriminate.
  - rewrite (check_listener a H) in D. split; apply D; auto; discriminate.
  - rewrite (check_service comps H) in A. apply A. discriminate.
  - rewrite (check_listener a H) in A. apply A. discriminate.
Qed.

(** Other words and other numbers of arguments are refused *)
Lemma command_words : forall u argv bs, ask u argv = Some bs ->
  argv = [] \/ argv = [lit "list"] \/ (exists w a, argv = [w; a] /\ In w [lit "list"; lit "disable"; lit "off"; lit "enable"; lit "on"])
  \/ (exists w a k, argv = [w; a; k] /\ In w [lit "delete"; lit "del"; lit "add"]).
Proof.
  intros u [|w r] bs H; [left; reflexivity|]. right. unfold ask in H. destruct (find_command w) as [c|] eqn:F; [|discriminate].
  assert (X : In (w, c) dispatch).
  { unfold find_command in F. destruct (find _ dispatch) as [[n c']|] eqn:G; [|discriminate]. apply find_some in G as [G1 G2]. cbn in F, G2. injection F as ->.
    apply bytes_eqb_eq in G2. subst n. exact G1. }
  unfold dispatch in X. destruct X as [X|[X|[X|[X|[X|[X|[X|[X|[]]]]]]]]]; pose proof (f_equal fst X) as X1; pose proof (f_equal snd X) as X2; cbn [fst snd] in X1, X2; rewrite <- X2 in H; unfold run in H;
    destruct r as [|a [|k [|? ?]]]; try discriminate H; rewrite <- X1;
    first [left; reflexivity | right; left; eexists _, _; split; [reflexivity|cbn [In]; tauto] | right; right; eexists _, _, _; split; [reflexivity|cbn [In]; tauto]].
Qed.
