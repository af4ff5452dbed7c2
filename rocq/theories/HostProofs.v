From Coq Require Import Ascii String List ZArith Bool Lia.
From Verif Require Import Bytes ReqModel XpdModel XpdSpec CondModel CondSpec CondProofs HostModel HostSpec.
Import ListNotations.
Local Open Scope nat_scope.

Local Arguments firstn : simpl never.
Local Arguments skipn : simpl never.

(** ** Parsing the expressions that are built *)

Definition chars (text : bytes) : list re_piece := map (fun c => (RChar c, false)) text.

Definition star_free (s : bytes) : Prop := match s with c :: _ => c <> "*"%char | [] => True end.

Definition step_atom (fuel : nat) (a : re_atom) (rest : bytes) : option (list (list re_piece)) :=
  match rest with
  | "*"%char :: rest' =>
      match a with
      | RBol | REol => None
      | _ => add_piece a true (ere_parse fuel rest')
      end
  | _ => add_piece a false (ere_parse fuel rest)
  end.

Lemma step_plain : forall fuel a rest, star_free rest -> step_atom fuel a rest = add_piece a false (ere_parse fuel rest).
Proof.
  intros fuel a [|c rest] H; auto. cbn [star_free] in H.
  destruct (beq c "*"%char) eqn:E; [apply beq_eq in E; congruence|].
  destruct c as [[] [] [] [] [] [] [] []]; try reflexivity. vm_compute in E. discriminate.
Qed.

Lemma parse_cons : forall fuel c t, ere_parse (S fuel) (c :: t) =
  if beq c "|"%char then option_map (cons []) (ere_parse fuel t)
  else if beq c "\"%char then match t with [] => None | x :: t' => step_atom fuel (RChar x) t' end
  else if beq c "."%char then step_atom fuel RAny t
  else if beq c "^"%char then step_atom fuel RBol t
  else if beq c "$"%char then step_atom fuel REol t
  else if beq c "["%char then
    if bytes_eqb (firstn (length space_class) (c :: t)) space_class
    then step_atom fuel RSpace (skipn (length space_class) (c :: t)) else None
  else if existsb (beq c) (lit "()*+?{"%string) then None
  else step_atom fuel (RChar c) t.
Proof. reflexivity. Qed.

Lemma ordinary : forall c, regex_special c = false -> c <> "^"%char -> c <> "$"%char -> c <> "|"%char ->
  forall fuel t, ere_parse (S fuel) (c :: t) = step_atom fuel (RChar c) t.
Proof.
  intros c H H1 H2 H3 fuel t. rewrite parse_cons.
  destruct (beq c "|"%char) eqn:E1; [apply beq_eq in E1; congruence|].
  destruct (beq c "^"%char) eqn:E2; [apply beq_eq in E2; congruence|].
  destruct (beq c "$"%char) eqn:E3; [apply beq_eq in E3; congruence|].
  unfold regex_special in H. cbn [lit list_ascii_of_string existsb] in H |- *.
  repeat (apply orb_false_iff in H as [?H H]).
  repeat match goal with X : beq c _ = false |- _ => rewrite X; clear X end. reflexivity.
Qed.

Lemma special_escaped : forall c fuel t, ere_parse (S fuel) ("\"%char :: c :: t) = step_atom fuel (RChar c) t.
Proof. reflexivity. Qed.

Lemma escape_head : forall text tail, star_free tail -> star_free (escape_regex text ++ tail).
Proof.
  intros [|c text] tail H; auto. cbn [escape_regex]. destruct (regex_special c) eqn:E; cbn [app star_free]; [discriminate|].
  intros ->. vm_compute in E. discriminate.
Qed.

Lemma parse_text : forall text tail alt alts,
  Forall (fun c => c <> "^"%char /\ c <> "$"%char /\ c <> "|"%char) text -> star_free tail ->
  (forall fuel, length tail < fuel -> ere_parse fuel tail = Some (alt :: alts)) ->
  forall fuel, length (escape_regex text ++ tail) < fuel ->
  ere_parse fuel (escape_regex text ++ tail) = Some ((chars text ++ alt) :: alts).
Proof.
  intros text tail alt alts F S T. induction F as [|c text [H1 [H2 H3]] F IH]; intros fuel L; [apply T; auto|].
  pose proof (escape_head text tail S) as S'.
  destruct fuel as [|fuel]; [simpl in L; lia|]. cbn [escape_regex] in *. destruct (regex_special c) eqn:E; cbn [app] in *.
  - rewrite special_escaped, step_plain by auto. rewrite IH by (simpl in L; lia). reflexivity.
  - rewrite ordinary by auto. rewrite step_plain by auto. rewrite IH by (simpl in L; lia). reflexivity.
Qed.

Lemma bol_cons : forall fuel t, ere_parse (S fuel) ("^"%char :: t) = step_atom fuel RBol t.
Proof. reflexivity. Qed.

Definition host_start : list re_piece := (RBol, false) :: chars (lit "Host:") ++ [(RSpace, true)].

Lemma parse_start : forall tail alt alts,
  (forall fuel, length tail < fuel -> ere_parse fuel tail = Some (alt :: alts)) ->
  forall fuel, length (lit "^Host:" ++ space_class ++ lit "*" ++ tail) < fuel ->
  ere_parse fuel (lit "^Host:" ++ space_class ++ lit "*" ++ tail) = Some ((host_start ++ alt) :: alts).
Proof.
  intros tail alt alts T fuel L.
  change (lit "^Host:" ++ space_class ++ lit "*" ++ tail) with
    ("^" :: "H" :: "o" :: "s" :: "t" :: ":" :: (space_class ++ "*" :: tail))%char in *.
  do 7 (destruct fuel as [|fuel]; [simpl in L; lia|]).
  assert (L' : length tail < fuel) by (simpl in L; lia).
  rewrite bol_cons, step_plain by discriminate.
  do 5 (rewrite ordinary by (reflexivity || discriminate); rewrite step_plain by discriminate).
  change (ere_parse (S fuel) (space_class ++ "*"%char :: tail)) with (add_piece RSpace true (ere_parse fuel tail)).
  rewrite T by auto. reflexivity.
Qed.

Lemma parse_nil : forall fuel, 0 < fuel -> ere_parse fuel [] = Some [[]].
Proof. intros [|fuel] H; [lia|]. reflexivity. Qed.
Lemma parse_eol : forall fuel, 1 < fuel -> ere_parse fuel (lit "$") = Some [[(REol, false)]].
Proof. intros [|[|fuel]] H; [lia|lia|]. reflexivity. Qed.

Definition kind_pieces (t : gp_type) (text : bytes) : list re_piece :=
  match t with
  | GENPAT_EXACT | GENPAT_PREFIX => chars text
  | GENPAT_SUFFIX => (RAny, true) :: chars text ++ [(REol, false)]
  | GENPAT_CONTAIN => (RAny, true) :: chars text
  | GENPAT_POSIX => []
  end.

Lemma parse_host : forall t text,
  Forall (fun c => c <> "^"%char /\ c <> "$"%char /\ c <> "|"%char) text -> t <> GENPAT_POSIX ->
  let r := fst (host_prefix_regex t text) in
  ere_parse (S (length r)) r = Some [host_start ++ kind_pieces t text].
Proof.
  intros t text F Ht r.
  assert (P : forall fuel, length (escape_regex text) < fuel -> ere_parse fuel (escape_regex text) = Some [chars text]).
  { intros fuel L. pose proof (parse_text text [] [] [] F I parse_nil fuel) as X. rewrite !app_nil_r in X. apply X; auto. }
  assert (Q : forall fuel, length (escape_regex text ++ lit "$") < fuel ->
                ere_parse fuel (escape_regex text ++ lit "$") = Some [chars text ++ [(REol, false)]]).
  { apply parse_text; auto; [discriminate|]. intros fuel L. apply parse_eol. auto. }
  assert (A : forall rest alt, star_free rest -> (forall fuel, length rest < fuel -> ere_parse fuel rest = Some [alt]) ->
                forall fuel, length (lit ".*" ++ rest) < fuel -> ere_parse fuel (lit ".*" ++ rest) = Some [(RAny, true) :: alt]).
  { intros rest alt _ X fuel L. destruct fuel as [|fuel]; [simpl in L; lia|].
    change (ere_parse (S fuel) (lit ".*" ++ rest)) with (add_piece RAny true (ere_parse fuel rest)).
    rewrite X by (simpl in L; lia). reflexivity. }
  subst r. destruct t; try congruence; cbn [host_prefix_regex fst kind_pieces]; rewrite <- !app_assoc.
  - apply parse_start; auto.
  - apply parse_start; auto.
  - apply parse_start; auto. apply A; auto. apply escape_head. discriminate.
  - apply parse_start; auto. apply A; auto. rewrite <- (app_nil_r (escape_regex text)). apply escape_head. exact I.
Qed.

(** ** Matching *)

Section M.
  Variable ci : bool.

  (** [takes ps bol m r]: the sequence matches [m], which is followed by [r]. *)
  Inductive takes : list re_piece -> bool -> bytes -> bytes -> Prop :=
  | tk_nil : forall bol r, takes [] bol [] r
  | tk_bol : forall b ps m r, takes ps true m r -> takes ((RBol, b) :: ps) true m r
  | tk_eol : forall b ps bol, takes ps bol [] [] -> takes ((REol, b) :: ps) bol [] []
  | tk_one : forall a c ps bol m r, atom_ok ci a c = true -> takes ps false m r -> takes ((a, false) :: ps) bol (c :: m) r
  | tk_none : forall a ps bol m r, a <> RBol -> a <> REol -> takes ps bol m r -> takes ((a, true) :: ps) bol m r
  | tk_more : forall a c ps bol m r, atom_ok ci a c = true -> takes ((a, true) :: ps) false m r ->
      takes ((a, true) :: ps) bol (c :: m) r.

  Lemma omax_some : forall a b, (exists n, omax a b = Some n) <-> (exists n, a = Some n) \/ (exists n, b = Some n).
  Proof.
    intros [x|] [y|]; cbn; split; intros H; eauto.
    all: repeat destruct H as [H|H]; destruct H; discriminate.
  Qed.
  Lemma omap_some : forall (x : option nat), (exists n, option_map S x = Some n) <-> exists n, x = Some n.
  Proof. intros [x|]; cbn; split; intros [n H]; eauto; discriminate. Qed.

  Lemma longest_eq : forall a st ps bol s, longest ci ((a, st) :: ps) bol s =
    match a with
    | RBol => if bol then longest ci ps bol s else None
    | REol => match s with [] => longest ci ps bol s | _ => None end
    | _ =>
        if st then
          omax (longest ci ps bol s)
             (match s with
              | c :: s' => if atom_ok ci a c then option_map S (longest ci ((a, true) :: ps) false s') else None
              | [] => None
              end)
        else
          match s with
          | c :: s' => if atom_ok ci a c then option_map S (longest ci ps false s') else None
          | [] => None
          end
    end.
  Proof. intros a st ps bol s. destruct a, st; try reflexivity; destruct s; reflexivity. Qed.

  Lemma longest_iff : forall ps bol s, (exists n, longest ci ps bol s = Some n) <-> exists m r, s = m ++ r /\ takes ps bol m r.
  Proof.
    induction ps as [|[a st] ps IH]; intros bol s.
    - split; intros _; [exists [], s; split; auto; constructor|exists 0; reflexivity].
    - assert (N : a = RBol \/ a = REol \/ (a <> RBol /\ a <> REol)) by (destruct a; intuition discriminate).
      destruct N as [->|[->|[N1 N2]]].
      + rewrite longest_eq. destruct bol.
        * rewrite IH. split; intros (m & r & E & H); exists m, r; split; auto; [apply tk_bol; auto|inversion H; subst; auto; discriminate].
        * split; [intros [n H]; discriminate|]. intros (m & r & E & H). inversion H; subst; try discriminate; congruence.
      + rewrite longest_eq. destruct s as [|c s].
        * rewrite IH. split; intros (m & r & E & H); exists [], []; split; auto; symmetry in E; apply app_eq_nil in E as [-> ->].
          -- apply tk_eol; auto.
          -- inversion H; subst; auto; congruence.
        * split; [intros [n H]; discriminate|]. intros (m & r & E & H).
          inversion H; subst; try discriminate; congruence.
      + destruct st.
        * revert bol. induction s as [|c s IHs]; intros bol; rewrite longest_eq.
          -- replace (match a with RBol => _ | REol => _ | _ => _ end) with (omax (longest ci ps bol []) None) by (destruct a; congruence).
             rewrite omax_some, IH. split.
             ++ intros [(m & r & E & H)|[n H]]; [|discriminate]. exists m, r. split; auto. apply tk_none; auto.
             ++ intros (m & r & E & H). left. exists m, r. split; auto. symmetry in E. apply app_eq_nil in E as [-> ->].
                inversion H; subst; auto; congruence.
          -- replace (match a with RBol => _ | REol => _ | _ => _ end) with
               (omax (longest ci ps bol (c :: s)) (if atom_ok ci a c then option_map S (longest ci ((a, true) :: ps) false s) else None))
               by (destruct a; congruence).
             rewrite omax_some, IH. split.
             ++ intros [(m & r & E & H)|H].
                ** exists m, r. split; auto. apply tk_none; auto.
                ** destruct (atom_ok ci a c) eqn:K; [|destruct H; discriminate]. apply omap_some, IHs in H as (m & r & -> & H).
                   exists (c :: m), r. split; auto. apply tk_more; auto.
             ++ intros (m & r & E & H). inversion H; subst; try congruence.
                ** left. exists m, r. auto.
                ** right. cbn [app] in E. injection E as E1 E2. subst. match goal with X : atom_ok _ _ _ = true |- _ => rewrite X end.
                   apply omap_some, IHs. eauto.
        * rewrite longest_eq.
          replace (match a with RBol => _ | REol => _ | _ => _ end) with
            (match s with c :: s' => if atom_ok ci a c then option_map S (longest ci ps false s') else None | [] => None end)
            by (destruct a; congruence).
          split.
          -- intros H. destruct s as [|c s]; [destruct H; discriminate|]. destruct (atom_ok ci a c) eqn:K; [|destruct H; discriminate].
             apply omap_some, IH in H as (m & r & -> & H). exists (c :: m), r. split; auto. apply tk_one; auto.
          -- intros (m & r & E & H). inversion H; subst; try congruence. cbn [app].
             match goal with X : atom_ok _ _ _ = true |- _ => rewrite X end. apply omap_some, IH. eauto.
  Qed.

  (** Anchored expressions are found at the start only. *)
  Lemma search_anchored : forall ps s bol off, search ci [(RBol, false) :: ps] bol off s =
    if bol then option_map (fun n => (off, n)) (longest ci ps true s) else None.
  Proof.
    intros ps s. assert (F : forall off, search ci [(RBol, false) :: ps] false off s = None).
    { induction s as [|c s IH]; intros off; cbn [search longest_alt fold_right]; rewrite longest_eq; cbn [omax]; auto. }
    intros [] off; [|apply F].
    destruct s as [|c s]; cbn [search longest_alt fold_right]; rewrite longest_eq.
    - destruct (longest ci ps true []); reflexivity.
    - destruct (longest ci ps true (c :: s)); [reflexivity|]. cbn [omax option_map].
      clear F. generalize (S off) as o. induction s as [|c' s IH]; intros o; cbn [search longest_alt fold_right]; rewrite longest_eq; cbn [omax]; auto.
  Qed.

  (** Sequences of characters and starred atoms. *)
  Lemma char_ok : forall x c, atom_ok ci (RChar x) c = true <-> same_text ci [c] [x].
  Proof.
    intros x c. unfold same_text. cbn [atom_ok]. destruct ci; rewrite beq_eq; cbn [lower map]; split; intros H; try congruence.
  Qed.

  Lemma same_cons : forall x a y b, same_text ci (x :: a) (y :: b) <-> same_text ci [x] [y] /\ same_text ci a b.
  Proof.
    intros x a y b. unfold same_text. destruct ci; cbn [lower map]; split.
    - intros H. injection H as H1 H2. split; auto. f_equal. auto.
    - intros [H1 H2]. injection H1 as H1. f_equal; auto.
    - intros H. injection H as -> ->. auto.
    - intros [H1 ->]. injection H1 as ->. auto.
  Qed.
  Lemma same_nil_l : forall b, same_text ci [] b <-> b = [].
  Proof. intros b. unfold same_text. destruct ci; destruct b; cbn; split; intros; congruence. Qed.
  Lemma same_nil_r : forall a, same_text ci a [] <-> a = [].
  Proof. intros a. unfold same_text. destruct ci; destruct a; cbn; split; intros; congruence. Qed.

  Lemma takes_chars : forall text ps bol m r, takes (chars text ++ ps) bol m r <->
    exists a m2, m = a ++ m2 /\ same_text ci a text /\ takes ps (match text with [] => bol | _ => false end) m2 r.
  Proof.
    induction text as [|x text IH]; intros ps bol m r; cbn [chars map app].
    - split.
      + intros H. exists [], m. split; auto. split; auto. apply same_nil_l. auto.
      + intros (a & m2 & -> & H & K). apply same_nil_r in H as ->. auto.
    - fold (chars text). split.
      + intros H. inversion H; subst. match goal with X : takes _ (chars text ++ ps) _ _ _ |- _ => apply IH in X as (a & m2 & -> & S & K) | X : takes (chars text ++ ps) _ _ _ |- _ => apply IH in X as (a & m2 & -> & S & K) end. exists (c :: a), m2.
        split; auto. split; [apply same_cons; split; auto; apply char_ok; auto|]. destruct text; auto.
      + intros (a & m2 & -> & S & K). destruct a as [|c a]; [apply same_nil_l in S; discriminate|].
        apply same_cons in S as [S1 S2]. cbn [app]. apply tk_one; [apply char_ok; auto|]. apply IH.
        exists a, m2. split; auto. split; auto. destruct text; auto.
  Qed.

  Lemma takes_star : forall a ps bol m r, a <> RBol -> a <> REol -> (takes ((a, true) :: ps) bol m r <->
    exists w m2, m = w ++ m2 /\ Forall (fun c => atom_ok ci a c = true) w /\
      takes ps (match w with [] => bol | _ => false end) m2 r).
  Proof.
    intros a ps bol m r N1 N2. split.
    - revert bol. induction m as [|c m IH]; intros bol H.
      + inversion H; subst; try congruence. exists [], []. auto.
      + inversion H; subst; try congruence.
        * exists [], (c :: m). auto.
        * match goal with X : takes ((a, true) :: ps) false m r |- _ => apply IH in X as (w & m2 & -> & F & K) end.
          exists (c :: w), m2. split; auto. split; auto. destruct w; auto.
    - intros (w & m2 & -> & F & K). revert bol K. induction F as [|c w Hc F IH]; intros bol K.
      + apply tk_none; auto.
      + cbn [app]. apply tk_more; auto. apply IH. destruct w; auto.
  Qed.

  Lemma takes_nil : forall bol m r, takes [] bol m r <-> m = [].
  Proof. intros bol m r. split; [intros H; inversion H; auto|intros ->; constructor]. Qed.
  Lemma takes_eol : forall bol m r, takes [(REol, false)] bol m r <-> m = [] /\ r = [].
  Proof.
    intros bol m r. split; [intros H; inversion H; subst; auto; discriminate|]. intros [-> ->]. apply tk_eol. constructor.
  Qed.

  Definition tail_fits (t : gp_type) (text y : bytes) : Prop :=
    match t with
    | GENPAT_EXACT | GENPAT_PREFIX => exists a b, y = a ++ b /\ same_text ci a text
    | GENPAT_SUFFIX => exists u a, y = u ++ a /\ same_text ci a text
    | GENPAT_CONTAIN => exists u a b, y = u ++ a ++ b /\ same_text ci a text
    | GENPAT_POSIX => True
    end.

  Lemma kind_takes : forall t text bol y, (exists m r, y = m ++ r /\ takes (kind_pieces t text) bol m r) <-> tail_fits t text y.
  Proof.
    assert (P : forall text bol y, (exists m r, y = m ++ r /\ takes (chars text) bol m r) <-> exists a b, y = a ++ b /\ same_text ci a text).
    { intros text bol y. split.
      - intros (m & r & -> & H). rewrite <- (app_nil_r (chars text)) in H. apply takes_chars in H as (a & m2 & -> & S & K).
        apply takes_nil in K as ->. rewrite app_nil_r. eauto.
      - intros (a & b & -> & S). exists a, b. split; auto. rewrite <- (app_nil_r (chars text)). apply takes_chars.
        exists a, []. rewrite app_nil_r. repeat split; auto. constructor. }
    assert (A : forall w, Forall (fun c => atom_ok ci RAny c = true) w) by (intros w; apply Forall_forall; auto).
    intros t text bol y. destruct t; cbn [kind_pieces tail_fits].
    - split; auto. intros _. exists [], y. split; auto. constructor.
    - apply P.
    - apply P.
    - split.
      + intros (m & r & -> & H). apply takes_star in H as (w & m2 & -> & _ & K); try discriminate.
        apply takes_chars in K as (a & m3 & -> & S & K). apply takes_eol in K as [-> ->]. exists w, a.
        rewrite !app_nil_r. auto.
      + intros (u & a & -> & S). exists (u ++ a), []. rewrite app_nil_r. split; auto.
        apply takes_star; try discriminate. exists u, a. repeat split; auto. apply takes_chars. exists a, []. rewrite app_nil_r.
        repeat split; auto. apply takes_eol. auto.
    - split.
      + intros (m & r & -> & H). apply takes_star in H as (w & m2 & -> & _ & K); try discriminate.
        rewrite <- (app_nil_r (chars text)) in K. apply takes_chars in K as (a & m3 & -> & S & K). apply takes_nil in K as ->.
        exists w, a, r. rewrite app_nil_r, <- app_assoc. auto.
      + intros (u & a & b & -> & S). exists (u ++ a), b. rewrite <- app_assoc. split; auto.
        apply takes_star; try discriminate. exists u, a. repeat split; auto.
        rewrite <- (app_nil_r (chars text)). apply takes_chars. exists a, []. rewrite app_nil_r. repeat split; auto. constructor.
  Qed.

  Lemma host_takes : forall t text s,
    (exists m r, s = m ++ r /\ takes (chars (lit "Host:") ++ (RSpace, true) :: kind_pieces t text) true m r) <->
    exists n w y, s = n ++ w ++ y /\ same_text ci n (lit "Host:") /\ Forall white_space w /\ tail_fits t text y.
  Proof.
    intros t text s. split.
    - intros (m & r & -> & H). apply takes_chars in H as (n & m2 & -> & S & K).
      apply takes_star in K as (w & m3 & -> & F & K); try discriminate.
      exists n, w, (m3 ++ r). rewrite <- !app_assoc. split; auto. split; auto. split; auto.
      eapply kind_takes. eauto.
    - intros (n & w & y & -> & S & F & T).
      apply (kind_takes t text (match w with [] => false | _ => false end)) in T as (m & r & -> & K).
      exists (n ++ w ++ m), r. rewrite <- !app_assoc. split; auto. apply takes_chars. exists n, (w ++ m). split; auto. split; auto.
      apply takes_star; try discriminate. exists w, m. repeat split; auto.
  Qed.
End M.

(** ** White space and values *)

Lemma white_lower : forall a b, to_lower a = to_lower b -> is_space a = is_space b.
Proof.
  intros a b. destruct a as [[] [] [] [] [] [] [] []]; destruct b as [[] [] [] [] [] [] [] []]; vm_compute; intros H; auto; discriminate.
Qed.

Lemma same_begins : forall ci a b, same_text ci a b -> ~ begins white_space b -> ~ begins white_space a.
Proof.
  intros ci a b S N (c & a' & -> & H). destruct b as [|x b]; [apply same_nil_r in S; discriminate|].
  apply same_cons in S as [S _]. apply N. exists x, b. split; auto. unfold white_space in *.
  unfold same_text in S. destruct ci; cbn in S; injection S as S; [rewrite <- H; symmetry; apply white_lower; auto|congruence].
Qed.

Lemma white_split : forall u y, ~ begins white_space y ->
  exists w' u', u = w' ++ u' /\ Forall white_space w' /\ ~ begins white_space (u' ++ y).
Proof.
  induction u as [|c u IH]; intros y H.
  - exists [], []. auto.
  - destruct (is_space c) eqn:E.
    + destruct (IH y H) as (w' & u' & -> & F & N). exists (c :: w'), u'. repeat split; auto.
    + exists [], (c :: u). repeat split; auto. intros (x & t & K & W). cbn in K. injection K as -> _. unfold white_space in W. congruence.
Qed.

Lemma begins_app : forall (P : byte -> Prop) a b, ~ begins P a -> a <> [] -> ~ begins P (a ++ b).
Proof. intros P [|c a] b H N (x & t & E & K); [congruence|]. cbn in E. injection E as -> _. apply H. exists x, a. auto. Qed.

Lemma line_fits : forall ci t text s, ~ begins white_space text -> t <> GENPAT_POSIX -> t <> GENPAT_EXACT ->
  (exists n w y, s = n ++ w ++ y /\ same_text ci n (lit "Host:") /\ Forall white_space w /\ tail_fits ci t text y) <->
  exists v, host_line ci s v /\ fits t ci text v.
Proof.
  intros ci t text s N Ht Ht'.
  assert (H0 : forall n u y b, same_text ci n (lit "Host:") -> same_text ci y text ->
    exists w' u', n ++ u ++ y ++ b = n ++ w' ++ u' ++ y ++ b /\ Forall white_space w' /\ ~ begins white_space (u' ++ y)).
  { intros n u y b _ S. destruct (white_split u y (same_begins _ _ _ S N)) as (w' & u' & -> & F & K).
    exists w', u'. rewrite <- !app_assoc. auto. }
  split.
  - intros (n & w & y & -> & S & F & T).
    assert (Z : forall u, ~ begins white_space [] -> exists w' u', u = w' ++ u' /\ Forall white_space w' /\ ~ begins white_space u').
    { intros u H. destruct (white_split u [] H) as (w' & u' & A & B & C). rewrite app_nil_r in C. eauto. }
    assert (Nn : ~ begins white_space []) by (intros (c & r & X & _); discriminate).
    destruct t; try congruence; cbn [tail_fits fits] in *.
    + destruct T as (a & b & -> & K). destruct text as [|x text].
      * apply same_nil_r in K as ->. destruct (Z (w ++ [] ++ b) Nn) as (w' & v & -> & A & B).
        exists v. split; [exists n, w'; auto|]. exists [], v. split; auto. apply same_nil_l. auto.
      * exists (a ++ b). split; [|eauto]. exists n, w. split; auto. split; auto. split; auto.
        apply begins_app; [eapply same_begins; eauto|]. intros ->. apply same_nil_l in K. discriminate.
    + destruct T as (u & a & -> & K). destruct (H0 n (w ++ u) a [] S K) as (w' & u' & E & A & B). rewrite !app_nil_r, <- !app_assoc in E.
      exists (u' ++ a). split; [|eauto]. exists n, w'. auto.
    + destruct T as (u & a & b & -> & K). destruct text as [|x text].
      * apply same_nil_r in K as ->. destruct (Z (w ++ u ++ [] ++ b) Nn) as (w' & v & -> & A & B).
        exists v. split; [exists n, w'; auto|]. exists [], [], v. split; auto. apply same_nil_l. auto.
      * destruct (H0 n (w ++ u) a b S K) as (w' & u' & E & A & B). rewrite <- !app_assoc in E.
        exists (u' ++ a ++ b). split; [|eauto]. exists n, w'. split; auto. split; auto. split; auto.
        rewrite app_assoc. apply begins_app; auto. intros X. apply app_eq_nil in X as [_ ->]. apply same_nil_l in K. discriminate.
  - intros (v & (n & w & -> & S & F & B) & K). exists n, w, v. split; auto. split; auto. split; auto.
    destruct t; try congruence; cbn [tail_fits fits] in *; auto.
Qed.

(** ** The condition *)

Lemma host_pattern : forall t ci text, plain_text text -> t <> GENPAT_POSIX ->
  exists re, posix_pattern ci (fst (host_prefix_regex t text)) = Some re /\
    forall s, (re s = None \/ exists eo, re s = Some [(0%Z, eo)]) /\
      (re s <> None <-> exists n w y, s = n ++ w ++ y /\ same_text ci n (lit "Host:") /\ Forall white_space w /\ tail_fits ci t text y).
Proof.
  intros t ci text [F N] Ht. unfold posix_pattern. rewrite (parse_host t text F Ht). eexists. split; [reflexivity|].
  intros s. unfold host_start. cbn [app]. rewrite <- app_assoc. cbn [app].
  rewrite search_anchored. rewrite <- host_takes, <- longest_iff. set (L := longest _ _ _ _).
  destruct L as [n|]; cbn [option_map].
  - split; [right; eauto|]. split; [intros _; eauto|discriminate].
  - split; [left; auto|]. split; [congruence|]. intros [n H]. discriminate.
Qed.

Lemma host_view_exists : forall ci n w y eo, same_text ci n (lit "Host:") ->
  exists m', host_view (mkSm (Some (n ++ w ++ y)) [(0%Z, eo)]) m'.
Proof.
  intros ci n w y eo S.
  assert (L : length n = 5).
  { unfold same_text in S. destruct ci; [|subst; reflexivity]. apply (f_equal (@length _)) in S. unfold lower in S.
    rewrite !map_length in S. exact S. }
  assert (B : ~ begins gap n).
  { intros (c & r & -> & G). unfold same_text in S. destruct ci; [|injection S as -> _; destruct G as [G|[G|G]]; discriminate].
    apply (f_equal (fun l => hd NUL l)) in S. cbn in S. destruct G as [->|[->| ->]]; discriminate. }
  destruct (gap_split (w ++ y)) as (a & b & E & Ha & Hb & _). rewrite E.
  eexists. apply (hv [] n a b 0%Z eo []); auto.
Qed.

Lemma host_condition : forall t ci text, plain_text text -> t <> GENPAT_POSIX -> exists c, host_cond t ci text = Some c /\
  forall e p, exists r p', match_cond e c p = CRes r p' /\ alike p p' /\ (r = 1%Z \/ r = 0%Z) /\
    (r = 1%Z <-> exists h n w y, In h (ph_headers p) /\ h_text h = n ++ w ++ y /\ same_text ci n (lit "Host:") /\
       Forall white_space w /\ tail_fits ci t text y).
Proof.
  intros t ci text Hp Ht. destruct (host_pattern t ci text Hp Ht) as (re & E & R).
  exists (COND_HOST re). unfold host_cond. rewrite E. split; auto. intros e p.
  destruct (lines_asks re (ph_headers p)) as (v & m & A & _ & Nv).
  pose proof A as A0. remember (ph_headers p) as hs eqn:Hhs in A |- *. inversion A as [pre h post g F M X Y1 Y2|hs' F X Y1 Y2]; subst v m.
  - destruct (R (h_text h)) as [K1 K2]. unfold matches in M.
    destruct K1 as [K1|[eo K1]]; [congruence|]. rewrite K1 in M. injection M as <-.
    assert (K3 : re (h_text h) <> None) by congruence. apply K2 in K3 as (n & w & y & E1 & S & W & T).
    destruct (host_view_exists ci n w y eo S) as [m' V]. rewrite <- E1 in V.
    assert (AN : answer e p (COND_HOST re) Yes (Some m')) by (apply (an_host e p re (mkSm (Some (h_text h)) [(0%Z, eo)])); auto).
    destruct (answer_atom _ _ _ _ _ AN) as (p' & Em & [Al _]). exists 1%Z, p'.
    split; [exact Em|split; [auto|split; [auto|]]]. split; auto. intros _. exists h, n, w, y.
    split; [|auto]. apply in_or_app. right. left. auto.
  - assert (AN : answer e p (COND_HOST re) No (Some sm_empty)) by (eapply an_no_host; eauto).
    destruct (answer_atom _ _ _ _ _ AN) as (p' & Em & [Al _]). exists 0%Z, p'.
    split; [exact Em|split; [auto|split; [auto|]]]. split; [discriminate|].
    intros (h & n & w & y & Hin & E1 & S & W & T). rewrite Forall_forall in F. specialize (F h Hin). unfold fails in F.
    exfalso. apply (R (h_text h)); auto. exists n, w, y. auto.
Qed.

Lemma host_matches : forall t ci text, plain_text text -> t <> GENPAT_POSIX -> t <> GENPAT_EXACT ->
  exists c, host_cond t ci text = Some c /\
  forall e p, exists r p', match_cond e c p = CRes r p' /\ alike p p' /\ (r = 1%Z \/ r = 0%Z) /\
    (r = 1%Z <-> exists h v, In h (ph_headers p) /\ host_line ci (h_text h) v /\ fits t ci text v).
Proof.
  intros t ci text Hp Ht Ht'. destruct (host_condition t ci text Hp Ht) as (c & E & H). exists c. split; auto.
  intros e p. destruct (H e p) as (r & p' & A & B & C & D). exists r, p'. split; [auto|split; [auto|split; [auto|]]].
  rewrite D. split.
  - intros (h & n & w & y & Hin & E1 & S & W & T).
    destruct (proj1 (line_fits ci t text (h_text h) (proj2 Hp) Ht Ht')) as (v & V1 & V2); [exists n, w, y; auto|].
    exists h, v. auto.
  - intros (h & v & Hin & V1 & V2).
    destruct (proj2 (line_fits ci t text (h_text h) (proj2 Hp) Ht Ht')) as (n & w & y & X); [exists v; auto|].
    exists h, n, w, y. auto.
Qed.

(** A file with one pattern. *)
Lemma file_skip : forall t ci ls, Forall (fun l => trim_line l = None) ls -> host_file_conds t ci ls = Some [].
Proof. intros t ci ls F. induction F as [|l ls H F IH]; auto. cbn [host_file_conds]. rewrite H. auto. Qed.
Lemma file_skip_first : forall t ci ls ls', Forall (fun l => trim_line l = None) ls ->
  host_file_conds t ci (ls ++ ls') = host_file_conds t ci ls'.
Proof. intros t ci ls ls' F. induction F as [|l ls H F IH]; auto. cbn [host_file_conds app]. rewrite H. auto. Qed.
Lemma file_single : forall t ci pre l post text c,
  Forall (fun l => trim_line l = None) pre -> Forall (fun l => trim_line l = None) post ->
  trim_line l = Some text -> host_cond t ci text = Some c ->
  host_file_cond t ci (pre ++ l :: post) = Some (COND_BOOL BOOL_OR [c]).
Proof.
  intros t ci pre l post text c F1 F2 T H. unfold host_file_cond. rewrite file_skip_first by auto. cbn [host_file_conds]. rewrite T.
  unfold host_cond in H. destruct (host_prefix_regex t text) as [expr t']. cbn [fst] in H.
  destruct (posix_pattern ci expr); [|discriminate]. injection H as <-. rewrite file_skip by auto. reflexivity.
Qed.

(** ** Lines of a file *)

Lemma blank2_iff : forall c, blank2 c = true <-> blank c.
Proof. intros c. unfold blank2, blank. rewrite orb_true_iff, !beq_eq. tauto. Qed.
Lemma blank3_iff : forall c, blank3 c = true <-> blank_end c.
Proof. intros c. unfold blank3, blank_end. rewrite !orb_true_iff, !beq_eq. tauto. Qed.
Lemma span_all : forall (f : byte -> bool) w r, Forall (fun c => f c = true) w -> (forall c r', r = c :: r' -> f c = false) -> snd (span f (w ++ r)) = r.
Proof.
  intros f w r F H. induction F as [|c w C F IH]; cbn [app].
  - destruct r as [|c r]; [reflexivity|]. cbn [span]. rewrite (H c r eq_refl). reflexivity.
  - cbn [span]. rewrite C. destruct (span f (w ++ r)) as [x y]. exact IH.
Qed.
Lemma trim_pattern : forall l text, pattern_line l text -> trim_line l = Some text.
Proof.
  intros l text (w & w' & -> & W & W' & (c & r & T & C1 & C2) & (d & q & T' & D)). unfold trim_line.
  assert (F1 : Forall (fun c => blank2 c = true) w) by (eapply Forall_impl; [|exact W]; intros; apply blank2_iff; assumption).
  assert (F2 : Forall (fun c => blank3 c = true) (rev w')) by (apply Forall_rev; eapply Forall_impl; [|exact W']; intros; apply blank3_iff; assumption).
  rewrite (span_all blank2 w (text ++ w')).
  - rewrite rev_app_distr, (span_all blank3 (rev w') (rev text)).
    + rewrite rev_involutive, T. destruct (Ascii.eqb_spec c "#"%char) as [->|N]; [congruence|].
      destruct c as [[] [] [] [] [] [] [] []]; try reflexivity; exfalso; apply N; reflexivity.
    + exact F2.
    + intros x z E. rewrite T', rev_app_distr in E. injection E as <- _. destruct (blank3 d) eqn:B; [|reflexivity]. apply blank3_iff in B. contradiction.
  - exact F1.
  - intros x z E. rewrite T in E. injection E as <- _. destruct (blank2 c) eqn:B; [|reflexivity]. apply blank2_iff in B. contradiction.
Qed.
Lemma span_split : forall (f : byte -> bool) l, exists w, l = w ++ snd (span f l) /\ Forall (fun c => f c = true) w.
Proof.
  intros f. induction l as [|c l (w & E & F)]; [exists []; auto|]. cbn [span]. destruct (f c) eqn:C.
  - destruct (span f l) as [x y]. exists (c :: w). cbn [snd app] in *. rewrite <- E. auto.
  - exists []. auto.
Qed.
Lemma trim_ignored : forall l, ignored_line l -> trim_line l = None.
Proof.
  intros l (w & r & -> & W & H). unfold trim_line.
  assert (F1 : Forall (fun c => blank2 c = true) w) by (eapply Forall_impl; [|exact W]; intros; apply blank2_iff; assumption).
  destruct H as [H|(r' & ->)].
  - destruct (span_split blank2 (w ++ r)) as (u & U & _). set (p := snd (span blank2 (w ++ r))) in *.
    assert (P : Forall (fun c => blank3 c = true) (rev p)).
    { apply Forall_rev. assert (X : Forall (fun c => blank3 c = true) (w ++ r)).
      { apply Forall_app. split; [eapply Forall_impl; [|exact W]; intros a A; apply blank3_iff; destruct A; unfold blank_end; tauto|eapply Forall_impl; [|exact H]; intros; apply blank3_iff; assumption]. }
      rewrite U in X. apply Forall_app in X. apply X. }
    pose proof (span_all blank3 (rev p) [] P ltac:(discriminate)) as E. rewrite app_nil_r in E. rewrite E. reflexivity.
  - rewrite (span_all blank2 w ("#"%char :: r') F1) by (intros c z [= <- _]; reflexivity).
    destruct (span_split blank3 (rev ("#"%char :: r'))) as (u & U & F). set (p := snd (span blank3 (rev ("#"%char :: r')))) in *.
    assert (E : rev p ++ rev u = "#"%char :: r') by (rewrite <- rev_app_distr, <- U; apply rev_involutive).
    destruct (rev p) as [|c q]; [reflexivity|]. injection E as -> _. reflexivity.
Qed.
