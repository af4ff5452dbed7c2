(** Proofs about the statement parser of the configuration. *)
From Coq Require Import Ascii String List ZArith Bool Arith Lia.
From Verif Require Import Bytes CfgModel CfgSpec.
From Verif Require LexSpec.
Import ListNotations.
Open Scope nat_scope.

(** ** Keywords *)
Section Find.
  Variable conf : Type.
  Notation line := (line conf).

  Lemma find_entry_table : forall (p : option (Z * action conf)) sub w, find_entry p (TabRef sub) w = find_from None sub w.
  Proof. intros p sub w. cbn [find_entry]. generalize (@None (Z * action conf)). induction sub as [|e sub IH]; intros q; [reflexivity|]. cbn [find_from]. rewrite IH. reflexivity. Qed.
  Lemma find_entry_soft : forall (p : option (Z * action conf)) sub wh w, find_entry p (SoftRef sub wh) w = relocate wh (find_from None sub w).
  Proof. intros p sub wh w. cbn [find_entry]. f_equal. generalize (@None (Z * action conf)). induction sub as [|e sub IH]; intros q; [reflexivity|]. cbn [find_from]. rewrite IH. reflexivity. Qed.

  (** What a line gives *)
  Definition gives (l : line) : found conf :=
    match l with (_, Some (wh, a), d) => Found a wh d | (_, None, _) => AssertFails end.
  Fixpoint look (ls : list line) (w : bytes) : found conf :=
    match ls with
    | [] => NotFound
    | l :: ls => if ci_eqb (fst (fst l)) w then gives l else look ls w
    end.
  Lemma look_app : forall a b w, look (a ++ b) w = match look a w with NotFound => look b w | r => r end.
  Proof.
    induction a as [|l a IH]; intros b w; [reflexivity|]. cbn [look app]. destruct (ci_eqb (fst (fst l)) w); [|apply IH].
    destruct l as [[n [[wh x]|]] d]; reflexivity.
  Qed.
  Lemma look_moved : forall wh a w, look (map (moved conf wh) a) w = relocate wh (look a w).
  Proof.
    induction a as [|l a IH]; intros w; [reflexivity|]. cbn [look map].
    destruct l as [[n [[wh' x]|]] d]; cbn [moved fst]; destruct (ci_eqb n w); try reflexivity; apply IH.
  Qed.
  Lemma find_written : forall p tab ls, written p tab ls -> forall w, find_from p tab w = look ls w.
  Proof.
    intros p tab ls H; induction H as [p|p n d wh a tab ls H IH|p n d tab ls H IH|p sub l1 tab l2 H1 IH1 H2 IH2|p sub l1 wh tab l2 H1 IH1 H2 IH2]; intros w.
    - reflexivity.
    - cbn [find_from find_entry look fst target]. destruct (ci_eqb n w); [reflexivity|apply IH].
    - cbn [find_from find_entry look fst target]. destruct (ci_eqb n w); [destruct p as [[wh a]|]; reflexivity|apply IH].
    - cbn [find_from]. rewrite find_entry_table, look_app, IH1. cbn [target]. rewrite IH2. reflexivity.
    - cbn [find_from]. rewrite find_entry_soft, look_app, look_moved, IH1. cbn [target]. rewrite IH2. reflexivity.
  Qed.

  (** Every table can be written out, in one way *)
  Fixpoint write_entry (p : option (Z * action conf)) (e : entry conf) : list line :=
    match e with
    | Reg n d w a => [(n, Some (w, a), d)]
    | Alias n d => [(n, p, d)]
    | TabRef sub =>
        (fix go p sub := match sub with [] => [] | e :: sub => write_entry p e ++ go (target p e) sub end) None sub
    | SoftRef sub w =>
        map (moved conf w) ((fix go p sub := match sub with [] => [] | e :: sub => write_entry p e ++ go (target p e) sub end) None sub)
    end.
  Fixpoint write (p : option (Z * action conf)) (tab : list (entry conf)) : list line :=
    match tab with [] => [] | e :: tab => write_entry p e ++ write (target p e) tab end.
  Lemma write_table : forall p sub, write_entry p (TabRef sub) = write None sub.
  Proof. intros p sub. cbn [write_entry]. generalize (@None (Z * action conf)). induction sub as [|e sub IH]; intros q; [reflexivity|]. cbn [write]. rewrite IH. reflexivity. Qed.
  Lemma write_soft : forall p sub w, write_entry p (SoftRef sub w) = map (moved conf w) (write None sub).
  Proof. reflexivity. Qed.

  Fixpoint size (e : entry conf) : nat :=
    match e with
    | Reg _ _ _ _ | Alias _ _ => 1
    | TabRef sub | SoftRef sub _ => S ((fix go l := match l with [] => 0 | e :: l => size e + go l end) sub)
    end.
  Fixpoint sizes (l : list (entry conf)) : nat := match l with [] => 0 | e :: l => size e + sizes l end.
  Lemma size_pos : forall e, 0 < size e.
  Proof. intros [ | | | ]; cbn [size]; lia. Qed.
  Lemma size_table : forall sub, size (TabRef sub) = S (sizes sub).
  Proof. reflexivity. Qed.
  Lemma size_soft : forall sub w, size (SoftRef sub w) = S (sizes sub).
  Proof. reflexivity. Qed.
  Lemma written_write_n : forall n tab p, sizes tab < n -> written p tab (write p tab).
  Proof.
    induction n as [|n IH]; intros tab p L; [lia|]. destruct tab as [|e tab]; [constructor|]. cbn [write sizes] in *.
    pose proof (size_pos e) as P.
    destruct e as [nm d w a|nm d|sub|sub w].
    - cbn [write_entry app target]. constructor. apply IH. lia.
    - cbn [write_entry app target]. constructor. apply IH. lia.
    - rewrite write_table. rewrite size_table in L. cbn [target]. constructor; apply IH; lia.
    - rewrite write_soft. rewrite size_soft in L. cbn [target]. constructor; apply IH; lia.
  Qed.
  Lemma written_write : forall tab p, written p tab (write p tab).
  Proof. intros tab p. apply (written_write_n (S (sizes tab))). lia. Qed.
  Lemma written_unique : forall p tab ls, written p tab ls -> ls = write p tab.
  Proof.
    intros p tab ls H; induction H as [p|p n d wh a tab ls H IH|p n d tab ls H IH|p sub l1 tab l2 H1 IH1 H2 IH2|p sub l1 wh tab l2 H1 IH1 H2 IH2]; cbn [write].
    - reflexivity.
    - rewrite IH. reflexivity.
    - rewrite IH. reflexivity.
    - rewrite write_table, IH1, IH2. reflexivity.
    - rewrite write_soft, IH1, IH2. reflexivity.
  Qed.

  Lemma look_first : forall ls w l, first ls w l -> look ls w = gives l.
  Proof.
    intros ls w l (l1 & l2 & -> & S1 & F). induction l1 as [|k l1 IH]; cbn [app look].
    - apply ci_eqb_eq in S1. rewrite S1. reflexivity.
    - inversion F as [|k' l1' N F']; subst. destruct (ci_eqb (fst (fst k)) w) eqn:E; [apply ci_eqb_eq in E; contradiction|]. apply IH, F'.
  Qed.
  Lemma look_cases : forall ls w, (exists l, first ls w l) \/ Forall (fun k : line => ~ same_word (fst (fst k)) w) ls.
  Proof.
    induction ls as [|k ls IH]; intros w; [right; constructor|]. destruct (ci_eqb (fst (fst k)) w) eqn:E.
    - left. exists k, [], ls. apply ci_eqb_eq in E. repeat split; [exact E|constructor].
    - assert (N : ~ same_word (fst (fst k)) w) by (intros S1; apply ci_eqb_eq in S1; congruence).
      destruct (IH w) as [(l & l1 & l2 & -> & S1 & F)|F].
      + left. exists l, (k :: l1), l2. repeat split; [exact S1|constructor; assumption].
      + right. constructor; assumption.
  Qed.
  Lemma look_none : forall ls w, Forall (fun k : line => ~ same_word (fst (fst k)) w) ls -> look ls w = NotFound.
  Proof.
    intros ls w F. induction F as [|k ls N F IH]; [reflexivity|]. cbn [look].
    destruct (ci_eqb (fst (fst k)) w) eqn:E; [apply ci_eqb_eq in E; contradiction|exact IH].
  Qed.

  Lemma find_means : forall (tab : list (entry conf)) w a wh d, parser_find tab w = Found a wh d <-> means tab w a wh d.
  Proof.
    intros tab w a wh d. unfold parser_find. rewrite (find_written _ _ _ (written_write tab None)). split.
    - intros E. destruct (look_cases (write None tab) w) as [(l & F)|F].
      + rewrite (look_first _ _ _ F) in E. destruct l as [[n [[wh' a']|]] d']; cbn [gives] in E; [|discriminate].
        injection E as -> -> ->. exists (write None tab), n. split; [apply written_write|exact F].
      + rewrite (look_none _ _ F) in E. discriminate.
    - intros (ls & n & W & F). rewrite <- (written_unique _ _ _ W), (look_first _ _ _ F). reflexivity.
  Qed.
  Lemma find_unknown : forall (tab : list (entry conf)) w, parser_find tab w = NotFound <-> unknown tab w.
  Proof.
    intros tab w. unfold parser_find. rewrite (find_written _ _ _ (written_write tab None)). split.
    - intros E. destruct (look_cases (write None tab) w) as [(l & F)|F].
      + rewrite (look_first _ _ _ F) in E. destruct l as [[n [[wh' a']|]] d']; discriminate.
      + exists (write None tab). split; [apply written_write|exact F].
    - intros (ls & W & F). rewrite <- (written_unique _ _ _ W). apply look_none, F.
  Qed.
End Find.

(** ** The parser *)
Section Parser.
  Variable conf : Type.
  Variable tables : nat -> list (entry conf).
  Variable file : bytes -> option (Z * list tok).
  Variable strict : bool.
  Notation parse := (cfgparser tables file strict).
  Notation text := (text tables file strict).
  Notation statement := (statement tables file strict).

  Definition after (fuel t : nat) (one me : bool) (c : conf) (st : inputs) : result conf :=
    match gettkn st with
    | (None, st) | (Some LexSpec.Newline, st) => if one then Accepted Single c st else parse fuel t one me c st
    | _ => Refused
    end.
  Lemma parse_S : forall fuel t one me c st, parse (S fuel) t one me c st =
    match gettkn st with
    | (None, st) => if me then Refused else Accepted AtEof c st
    | (Some LexSpec.Malformed, _) => Refused
    | (Some (LexSpec.Ident w), st) =>
        match parser_find (tables t) w with
        | AssertFails => Crashed
        | Found a wh d =>
            if strict && d then Refused
            else
              match a with
              | Read f => match f wh c (flat st) with None => Refused | Some (c, n) => after fuel t one me c (skip n st) end
              | Block opening sub me' closing =>
                  match opening wh c (flat st) with
                  | None => Refused
                  | Some (c, n) =>
                      match parse fuel (sub (flat st)) false me' c (skip n st) with
                      | Accepted _ c st => match closing wh c with None => Refused | Some c => after fuel t one me c st end
                      | r => r
                      end
                  end
              | One opening sub closing =>
                  match parse fuel sub true false (opening wh c) st with
                  | Accepted Single c st => parse fuel t one me (closing wh c) st
                  | Accepted _ c st => after fuel t one me (closing wh c) st
                  | r => r
                  end
              | End => Accepted Ended c st
              | EndElse => Accepted Ended c (putback LexSpec.Newline (putback (LexSpec.Ident w) st))
              end
        | NotFound =>
            if negb one && ci_eqb (lit "Include") w then
              match gettkn st with
              | (Some (LexSpec.Quoted f), st) =>
                  match file f with
                  | None => Refused
                  | Some (id, ts) => if open_already id st then Recursive else parse fuel t one me c ((id, ts) :: st)
                  end
              | _ => Refused
              end
            else Refused
        end
    | (Some _, st) => parse fuel t one me c st
    end.
  Proof. reflexivity. Qed.

  Lemma gettkn_flat : forall st, match gettkn st with
    | (None, st1) => flat st = [] /\ st1 = []
    | (Some k, st1) => flat st = k :: flat st1 /\ exists id ts r, st1 = (id, ts) :: r
    end.
  Proof.
    induction st as [|[id ts] st IH]; [split; reflexivity|]. destruct ts as [|k ts]; cbn [gettkn].
    - destruct (gettkn st) as [[k|] st1]; exact IH.
    - split; [reflexivity|]. exists id, ts, st. reflexivity.
  Qed.
  Lemma skip_flat : forall n st, flat (skip n st) = skipn n (flat st).
  Proof.
    induction n as [|n IH]; intros st; [reflexivity|]. cbn [skip]. rewrite IH.
    pose proof (gettkn_flat st) as G. destruct (gettkn st) as [[k|] st1]; cbn [snd].
    - destruct G as [-> _]. reflexivity.
    - destruct G as [-> ->]. cbn. rewrite skipn_nil. reflexivity.
  Qed.

  (** *** More steps do not change the outcome *)
  Lemma after_mono : forall fuel r t one me c st,
    (forall t one me c st r, parse fuel t one me c st = r -> r <> Fuel -> parse (S fuel) t one me c st = r) ->
    after fuel t one me c st = r -> r <> Fuel -> after (S fuel) t one me c st = r.
  Proof.
    intros fuel r t one me c st IH E N. unfold after in *. destruct (gettkn st) as [[[]|] st1]; try exact E; (destruct one; [exact E|apply IH; assumption]).
  Qed.
  Lemma parse_mono : forall fuel t one me c st r, parse fuel t one me c st = r -> r <> Fuel -> parse (S fuel) t one me c st = r.
  Proof.
    induction fuel as [|fuel IH]; intros t one me c st r E N; [cbn in E; congruence|].
    rewrite parse_S in E. rewrite parse_S.
    destruct (gettkn st) as [[[|w|w|v|w|]|] st1]; try (apply IH; assumption); try exact E.
    destruct (parser_find (tables t) w) as [a wh d| |]; [|destruct (negb one && ci_eqb (lit "Include") w); [|exact E]|exact E].
    - destruct (strict && d); [exact E|]. destruct a as [f|opening sub me' closing|opening sub closing| |]; try exact E.
      + destruct (f wh c (flat st1)) as [[c1 n]|]; [|exact E]. apply after_mono; assumption.
      + destruct (opening wh c (flat st1)) as [[c1 n]|]; [|exact E].
        destruct (parse fuel (sub (flat st1)) false me' c1 (skip n st1)) as [h c2 st2| | | |] eqn:B.
        1: { rewrite (IH _ _ _ _ _ _ B) by discriminate. destruct (closing wh c2); [|exact E]. apply after_mono; assumption. }
        1-3: rewrite (IH _ _ _ _ _ _ B) by discriminate; exact E.
        congruence.
      + destruct (parse fuel sub true false (opening wh c) st1) as [h c2 st2| | | |] eqn:B.
        1: { rewrite (IH _ _ _ _ _ _ B) by discriminate. destruct h; [apply after_mono; assumption| |apply IH; assumption]. apply after_mono; assumption. }
        1-3: rewrite (IH _ _ _ _ _ _ B) by discriminate; exact E.
        congruence.
    - destruct (gettkn st1) as [[[]|] st2]; try exact E. destruct (file v) as [[id ts]|]; [|exact E].
      destruct (open_already id st2); [exact E|]. apply IH; assumption.
  Qed.
  Lemma parse_le : forall n m t one me c st r, n <= m -> parse n t one me c st = r -> r <> Fuel -> parse m t one me c st = r.
  Proof. intros n m t one me c st r L. induction L as [|m L IH]; intros E N; [exact E|]. apply parse_mono; [apply IH; assumption|exact N]. Qed.
  Lemma after_le : forall n m t one me c st r, n <= m -> after n t one me c st = r -> r <> Fuel -> after m t one me c st = r.
  Proof.
    intros n m t one me c st r L E N. unfold after in *. destruct (gettkn st) as [[[]|] st1]; try exact E;
      (destruct one; [exact E|apply (parse_le n); assumption]).
  Qed.

  (** *** What is accepted is a text of the grammar *)
  Lemma sound_after : forall fuel t one me c w a wh d ts c1 st1 h c' st',
    (forall t one me c st h c' st', parse fuel t one me c st = Accepted h c' st' -> text t one me c (flat st) h c' (flat st')) ->
    means (tables t) w a wh d -> strict && d = false -> statement a wh c ts c1 (flat st1) ->
    after fuel t one me c1 st1 = Accepted h c' st' -> text t one me c (LexSpec.Ident w :: ts) h c' (flat st').
  Proof.
    intros fuel t one me c w a wh d ts c1 st1 h c' st' IH M SD ST E. unfold after in E.
    pose proof (gettkn_flat st1) as G. destruct (gettkn st1) as [[[]|] st2]; try discriminate.
    - destruct G as [G _]. assert (LE : line_end (flat st1) (flat st2)) by (left; exact G). destruct one.
      + injection E as <- <- <-. eapply t_single; eassumption.
      + eapply t_statement; try eassumption. apply IH, E.
    - destruct G as [G1 G2]. assert (LE : line_end (flat st1) (flat st2)) by (right; subst; split; [exact G1|reflexivity]). destruct one.
      + injection E as <- <- <-. eapply t_single; eassumption.
      + eapply t_statement; try eassumption. apply IH, E.
  Qed.
  Lemma sound : forall fuel t one me c st h c' st', parse fuel t one me c st = Accepted h c' st' -> text t one me c (flat st) h c' (flat st').
  Proof.
    induction fuel as [|fuel IH]; intros t one me c st h c' st' E; [discriminate E|]. rewrite parse_S in E.
    pose proof (gettkn_flat st) as G. destruct (gettkn st) as [[k|] st1].
    2: { destruct G as [-> ->]. destruct me; [discriminate|]. injection E as <- <- <-. constructor. }
    destruct G as [-> NE]. destruct k as [|w|w|v|w|]; try (apply t_misplaced; [exact I|apply IH, E]); [apply t_blank, IH, E| |discriminate].
    destruct (parser_find (tables t) w) as [a wh d| |] eqn:F; [apply find_means in F| |discriminate].
    - destruct (strict && d) eqn:SD; [discriminate|]. destruct a as [f|opening sub me' closing|opening sub closing| |].
      + destruct (f wh c (flat st1)) as [[c1 n]|] eqn:R; [|discriminate].
        eapply sound_after; try eassumption. rewrite skip_flat. constructor. exact R.
      + destruct (opening wh c (flat st1)) as [[c1 n]|] eqn:R; [|discriminate].
        destruct (parse fuel (sub (flat st1)) false me' c1 (skip n st1)) as [h1 c2 st2| | | |] eqn:B; try discriminate.
        destruct (closing wh c2) as [c3|] eqn:CL; [|discriminate]. apply IH in B. rewrite skip_flat in B.
        eapply sound_after; try eassumption. econstructor; eassumption.
      + destruct (parse fuel sub true false (opening wh c) st1) as [h1 c2 st2| | | |] eqn:B; try discriminate. apply IH in B. destruct h1.
        * eapply sound_after; try eassumption. econstructor; [exact B|discriminate].
        * eapply sound_after; try eassumption. econstructor; [exact B|discriminate].
        * eapply t_one; try eassumption. apply IH, E.
      + injection E as <- <- <-. eapply t_end; eassumption.
      + injection E as <- <- <-. destruct NE as (id & ts & r & ->). eapply t_end_else; eassumption.
    - apply find_unknown in F. destruct one; [discriminate|]. cbn [negb andb] in E. destruct (ci_eqb (lit "Include") w) eqn:W; [|discriminate].
      pose proof (gettkn_flat st1) as G. destruct (gettkn st1) as [[[]|] st2]; try discriminate. destruct G as [G _].
      destruct (file v) as [[id ts]|] eqn:FL; [|discriminate]. destruct (open_already id st2); [discriminate|]. rewrite G.
      eapply t_include; try eassumption.
      + apply ci_eqb_eq in W. unfold same_word. rewrite <- W. reflexivity.
      + apply IH in E. exact E.
  Qed.

  (** *** Every text of the grammar is accepted, unless a file includes one being read *)
  Definition reaches (t : nat) (one me : bool) (c : conf) (st : inputs) (h : ending) (c' : conf) (r : list tok) : Prop :=
    (exists n, parse n t one me c st = Recursive) \/ (exists n st', parse n t one me c st = Accepted h c' st' /\ flat st' = r).
  Definition reaches_stmt (a : action conf) (wh : Z) (c : conf) (ts : list tok) (c' : conf) (r : list tok) : Prop :=
    forall t one me w d st, flat st = LexSpec.Ident w :: ts -> means (tables t) w a wh d -> strict && d = false ->
    (exists n, parse n t one me c st = Recursive) \/
    (exists n st', flat st' = r /\ forall m res, n <= m -> after m t one me c' st' = res -> parse (S m) t one me c st = res).

  Lemma step_token : forall st k ts, flat st = k :: ts -> exists st1, gettkn st = (Some k, st1) /\ flat st1 = ts.
  Proof.
    intros st k ts E. pose proof (gettkn_flat st) as G. destruct (gettkn st) as [[k'|] st1].
    - destruct G as [G _]. rewrite E in G. injection G as -> ->. exists st1. split; reflexivity.
    - destruct G as [G _]. congruence.
  Qed.
  Lemma complete_after : forall t one me c st ts1 r1,
    flat st = ts1 -> line_end ts1 r1 -> exists st1, flat st1 = r1 /\ forall m, after m t one me c st = if one then Accepted Single c st1 else parse m t one me c st1.
  Proof.
    intros t one me c st ts1 r1 E [-> |[-> ->]].
    - destruct (step_token _ _ _ E) as (st1 & G & F). exists st1. split; [exact F|]. intros m. unfold after. rewrite G. reflexivity.
    - pose proof (gettkn_flat st) as G. destruct (gettkn st) as [[k|] st1] eqn:GE.
      + destruct G as [G _]. congruence.
      + destruct G as [_ ->]. exists []. split; [reflexivity|]. intros m. unfold after. rewrite GE. reflexivity.
  Qed.

  Lemma complete : forall t one me c ts h c' r, text t one me c ts h c' r -> forall st, flat st = ts -> reaches t one me c st h c' r.
  Proof.
    apply (text_ind2 conf tables file strict
             (fun t one me c ts h c' r => forall st, flat st = ts -> reaches t one me c st h c' r)
             (fun a wh c ts c' r => reaches_stmt a wh c ts c' r)).
    - intros t one c st E. right. exists 1, []. rewrite parse_S. pose proof (gettkn_flat st) as G. destruct (gettkn st) as [[k|] st1].
      + destruct G as [G _]. congruence.
      + destruct G as [_ ->]. split; reflexivity.
    - intros t one me c ts h c' r _ IH st E. destruct (step_token _ _ _ E) as (st1 & G & F).
      destruct (IH st1 F) as [(n & R)|(n & st' & R & FR)]; [left; exists (S n)|right; exists (S n), st'; split; [|exact FR]]; rewrite parse_S, G; exact R.
    - intros t one me c k ts h c' r MI _ IH st E. destruct (step_token _ _ _ E) as (st1 & G & F).
      destruct (IH st1 F) as [(n & R)|(n & st' & R & FR)]; [left; exists (S n)|right; exists (S n), st'; split; [|exact FR]]; rewrite parse_S, G;
        destruct k; try contradiction; exact R.
    - intros t me c w f id ts' ts h c' r U W FL _ IH st E. destruct (step_token _ _ _ E) as (st1 & G & F). destruct (step_token _ _ _ F) as (st2 & G2 & F2).
      apply find_unknown in U. assert (WI : ci_eqb (lit "Include") w = true) by (apply ci_eqb_eq; unfold same_word in W; rewrite W; reflexivity).
      destruct (open_already id st2) eqn:OA.
      + left. exists 1. rewrite parse_S, G, U, WI. cbn [negb andb]. rewrite G2, FL, OA. reflexivity.
      + assert (FF : flat ((id, ts') :: st2) = ts' ++ ts) by (cbn; unfold flat in F2; rewrite <- F2; reflexivity).
        destruct (IH _ FF) as [(n & R)|(n & st' & R & FR)]; [left; exists (S n)|right; exists (S n), st'; split; [|exact FR]];
          rewrite parse_S, G, U, WI; cbn [negb andb]; rewrite G2, FL, OA; exact R.
    - intros t one me c w wh d ts M SD st E. destruct (step_token _ _ _ E) as (st1 & G & F). apply find_means in M.
      right. exists 1, st1. rewrite parse_S, G, M, SD. split; [reflexivity|exact F].
    - intros t one me c w wh d ts M SD st E. pose proof (gettkn_flat st) as GF. destruct (step_token _ _ _ E) as (st1 & G & F). apply find_means in M.
      rewrite G in GF. destruct GF as (_ & id & ts1 & r1 & ->).
      right. exists 1, ((id, LexSpec.Newline :: LexSpec.Ident w :: ts1) :: r1). rewrite parse_S, G, M, SD. split; [reflexivity|]. rewrite <- F. reflexivity.
    - intros t me c w a wh d ts c1 ts1 r1 h c' r M SD _ IHS LE _ IH st E.
      destruct (IHS t false me w d st E M SD) as [R|(n & st1 & F1 & R)]; [left; exact R|].
      destruct (complete_after t false me c1 st1 ts1 r1 F1 LE) as (st2 & F2 & A).
      destruct (IH st2 F2) as [(n2 & R2)|(n2 & st' & R2 & FR)].
      + left. exists (S (n + n2)). apply R; [lia|]. rewrite A. apply (parse_le n2); [lia|exact R2|discriminate].
      + right. exists (S (n + n2)), st'. split; [|exact FR]. apply R; [lia|]. rewrite A. apply (parse_le n2); [lia|exact R2|discriminate].
    - intros t me c w a wh d ts c1 ts1 r1 M SD _ IHS LE st E.
      destruct (IHS t true me w d st E M SD) as [R|(n & st1 & F1 & R)]; [left; exact R|].
      destruct (complete_after t true me c1 st1 ts1 r1 F1 LE) as (st2 & F2 & A).
      right. exists (S n), st2. split; [|exact F2]. apply R; [lia|]. rewrite A. reflexivity.
    - intros t one me c w opening sub closing wh d ts c1 r1 h c' r M SD _ IH1 _ IH2 st E.
      destruct (step_token _ _ _ E) as (st1 & G & F). apply find_means in M.
      destruct (IH1 st1 F) as [(n & R)|(n & st2 & R & F2)].
      { left. exists (S n). rewrite parse_S, G, M, SD, R. reflexivity. }
      destruct (IH2 st2 F2) as [(n2 & R2)|(n2 & st' & R2 & FR)].
      + left. exists (S (n + n2)). rewrite parse_S, G, M, SD, (parse_le n (n + n2) _ _ _ _ _ _ ltac:(lia) R ltac:(discriminate)).
        apply (parse_le n2); [lia|exact R2|discriminate].
      + right. exists (S (n + n2)), st'. split; [|exact FR]. rewrite parse_S, G, M, SD, (parse_le n (n + n2) _ _ _ _ _ _ ltac:(lia) R ltac:(discriminate)).
        apply (parse_le n2); [lia|exact R2|discriminate].
    - intros f wh c ts c1 n R t one me w d st E M SD. destruct (step_token _ _ _ E) as (st1 & G & F). apply find_means in M.
      right. exists 0, (skip n st1). split; [rewrite skip_flat, F; reflexivity|]. intros m res _ A. rewrite parse_S, G, M, SD, F, R. exact A.
    - intros opening sub me' closing wh c ts c1 n h c2 r c3 O _ IH CL t one me w d st E M SD.
      destruct (step_token _ _ _ E) as (st1 & G & F). apply find_means in M.
      destruct (IH (skip n st1)) as [(n1 & R)|(n1 & st2 & R & F2)]; [rewrite skip_flat, F; reflexivity| |].
      + left. exists (S n1). rewrite parse_S, G, M, SD, F, O, R. reflexivity.
      + right. exists n1, st2. split; [exact F2|]. intros m res L A.
        rewrite parse_S, G, M, SD, F, O, (parse_le n1 m _ _ _ _ _ _ L R ltac:(discriminate)), CL. exact A.
    - intros opening sub closing wh c ts h c1 r _ IH NS t one me w d st E M SD.
      destruct (step_token _ _ _ E) as (st1 & G & F). apply find_means in M.
      destruct (IH st1 F) as [(n1 & R)|(n1 & st2 & R & F2)].
      + left. exists (S n1). rewrite parse_S, G, M, SD, R. reflexivity.
      + right. exists n1, st2. split; [exact F2|]. intros m res L A.
        rewrite parse_S, G, M, SD, (parse_le n1 m _ _ _ _ _ _ L R ltac:(discriminate)).
        destruct h; [exact A|exact A|contradiction].
  Qed.

  (** *** The whole file *)
  Lemma accepts_text : forall t c name id ts c',
    file name = Some (id, ts) -> ~ recursive tables file strict t c name ->
    (accepts tables file strict t c name c' <-> exists h r, text t false false c ts h c' r).
  Proof.
    intros t c name id ts c' FL NR. unfold accepts, recursive, cfgparser_parse in *. rewrite FL in *. split.
    - intros (n & h & st & E). apply sound in E. cbn in E. rewrite app_nil_r in E. exists h, (flat st). exact E.
    - intros (h & r & T). destruct (complete _ _ _ _ _ _ _ _ T [(id, ts)]) as [R|(n & st' & R & _)].
      + cbn. apply app_nil_r.
      + contradiction.
      + exists n, h, st'. exact R.
  Qed.
  Lemma parse_once : forall n m t c name r1 r2,
    cfgparser_parse tables file strict n t c name = r1 -> cfgparser_parse tables file strict m t c name = r2 ->
    r1 <> Fuel -> r2 <> Fuel -> r1 = r2.
  Proof.
    intros n m t c name r1 r2 E1 E2 N1 N2. unfold cfgparser_parse in *. destruct (file name) as [[id ts]|]; [|congruence].
    destruct (Nat.le_ge_cases n m) as [L|L].
    - rewrite (parse_le _ _ _ _ _ _ _ _ L E1 N1) in E2. exact E2.
    - rewrite (parse_le _ _ _ _ _ _ _ _ L E2 N2) in E1. symmetry. exact E1.
  Qed.

  (** *** Grammar facts *)
  Lemma means_one : forall tab w a wh d a' wh' d', means tab w a wh d -> @means conf tab w a' wh' d' -> a = a' /\ wh = wh' /\ d = d'.
  Proof. intros tab w a wh d a' wh' d' M1 M2. apply find_means in M1, M2. rewrite M1 in M2. injection M2 as -> -> ->. auto. Qed.
  Lemma means_unknown : forall tab w a wh d, means tab w a wh d -> @unknown conf tab w -> False.
  Proof. intros tab w a wh d M U. apply find_means in M. apply find_unknown in U. congruence. Qed.

  Lemma text_include : forall t me c w f id ts' ts h c' r,
    unknown (tables t) w -> same_word w (lit "include") -> file f = Some (id, ts') ->
    (text t false me c (LexSpec.Ident w :: LexSpec.Quoted f :: ts) h c' r <-> text t false me c (ts' ++ ts) h c' r).
  Proof.
    intros t me c w f id ts' ts h c' r U W FL. split; [|intros T; eapply t_include; eassumption].
    intros T. inversion T; subst; try (exfalso; eapply means_unknown; eassumption).
    - contradiction.
    - congruence.
  Qed.
  Lemma text_misplaced : forall t one me c k ts h c' r, misplaced k -> (text t one me c (k :: ts) h c' r <-> text t one me c ts h c' r).
  Proof.
    intros t one me c k ts h c' r MI. split; [|intros T; apply t_misplaced; assumption].
    intros T. inversion T; subst; try contradiction; assumption.
  Qed.
  Lemma text_ends : forall t one me c ts h c' r, text t one me c ts h c' r -> me = true -> h <> AtEof.
  Proof.
    intros t one me c ts h c' r T. induction T; intros M; try discriminate; auto.
  Qed.

  (** *** Include *)
  Lemma include_recursive : forall n t me c id0 w f id ts' ts st,
    unknown (tables t) w -> same_word w (lit "include") -> file f = Some (id, ts') -> In id (id0 :: map fst st) ->
    parse (S n) t false me c ((id0, LexSpec.Ident w :: LexSpec.Quoted f :: ts) :: st) = Recursive.
  Proof.
    intros n t me c id0 w f id ts' ts st U W FL I. apply find_unknown in U. rewrite parse_S. cbn [gettkn]. rewrite U.
    assert (WI : ci_eqb (lit "Include") w = true) by (apply ci_eqb_eq; unfold same_word in W; rewrite W; reflexivity).
    rewrite WI. cbn [negb andb gettkn]. rewrite FL.
    assert (OA : open_already id ((id0, ts) :: st) = true).
    { unfold open_already. apply existsb_exists. cbn [In map] in I. destruct I as [-> |I].
      - exists (id, ts). split; [left; reflexivity|apply Z.eqb_refl].
      - apply in_map_iff in I. destruct I as ([i x] & <- & I). exists (i, x). split; [right; exact I|apply Z.eqb_refl]. }
    rewrite OA. reflexivity.
  Qed.
  Lemma include_missing : forall n t me c id0 w f ts st,
    unknown (tables t) w -> same_word w (lit "include") -> file f = None ->
    parse (S n) t false me c ((id0, LexSpec.Ident w :: LexSpec.Quoted f :: ts) :: st) = Refused.
  Proof.
    intros n t me c id0 w f ts st U W FL. apply find_unknown in U. rewrite parse_S. cbn [gettkn]. rewrite U.
    assert (WI : ci_eqb (lit "Include") w = true) by (apply ci_eqb_eq; unfold same_word in W; rewrite W; reflexivity).
    rewrite WI. cbn [negb andb gettkn]. rewrite FL. reflexivity.
  Qed.

  (** *** Reading ends *)
  Section Ends.
    Variables (ids : list Z) (M : nat).
    Hypothesis finite : forall f id ts, file f = Some (id, ts) -> In id ids /\ length ts <= M.
    Let N := length ids.
    Let B := S M.
    Fixpoint weight (st : inputs) : nat :=
      match st with
      | [] => 0
      | (_, ts) :: st => length ts * B ^ (N - length st) + weight st
      end.
    Definition inv (st : inputs) : Prop := NoDup (map fst st) /\ incl (map fst st) ids.
    Lemma inv_tail : forall f st, inv (f :: st) -> inv st.
    Proof. intros f st [H1 H2]. split; [inversion H1; assumption|]. intros x I. apply H2. right. exact I. Qed.
    Lemma inv_length : forall st, inv st -> length st <= N.
    Proof. intros st [H1 H2]. rewrite <- (map_length fst st). apply NoDup_incl_length; assumption. Qed.
    Lemma gettkn_weight : forall st, inv st -> match gettkn st with
      | (None, st1) => st1 = []
      | (Some _, st1) => exists id ts r, st1 = (id, ts) :: r /\ inv st1 /\ weight st = weight st1 + B ^ (N - length r)
      end.
    Proof.
      induction st as [|[id ts] st IH]; intros I; [reflexivity|]. destruct ts as [|k ts]; cbn [gettkn].
      - specialize (IH (inv_tail _ _ I)). destruct (gettkn st) as [[k|] st1]; exact IH.
      - exists id, ts, st. split; [reflexivity|]. split; [exact I|]. cbn [weight length]. lia.
    Qed.
    Lemma pow_pos : forall n, 0 < B ^ n.
    Proof. intros n. pose proof (Nat.pow_nonzero B n). unfold B in *. lia. Qed.
    Lemma gettkn_less : forall st, inv st -> inv (snd (gettkn st)) /\ weight (snd (gettkn st)) <= weight st.
    Proof.
      intros st I. pose proof (gettkn_weight st I) as G. destruct (gettkn st) as [[k|] st1]; cbn [snd].
      - destruct G as (id & ts & r & E & I1 & W). split; [exact I1|]. lia.
      - subst. split; [split; [constructor|intros x []]|cbn; lia].
    Qed.
    Lemma skip_less : forall n st, inv st -> inv (skip n st) /\ weight (skip n st) <= weight st.
    Proof.
      induction n as [|n IH]; intros st I; [split; [exact I|cbn; lia]|]. cbn [skip]. destruct (gettkn_less st I) as [I1 L1].
      destruct (IH _ I1) as [I2 L2]. split; [exact I2|]. lia.
    Qed.

    Definition fine (w : nat) (r : result conf) : Prop :=
      match r with
      | Fuel => False
      | Accepted h _ st => inv st /\ weight (snd (gettkn st)) <= w /\ (h <> Ended -> weight st <= w)
      | _ => True
      end.
    Lemma fine_le : forall w w' r, w <= w' -> fine w r -> fine w' r.
    Proof. intros w w' [h c st| | | |] L F; try exact F. destruct F as (I & F1 & F2). split; [exact I|]. split; [lia|]. intros H. specialize (F2 H). lia. Qed.

    Lemma after_fine : forall fuel t one me c st w,
      (forall t one me c st, inv st -> weight st < fuel -> fine (weight st) (parse fuel t one me c st)) ->
      inv st -> weight (snd (gettkn st)) <= w -> w < fuel -> fine w (after fuel t one me c st).
    Proof.
      intros fuel t one me c st w IH I L LF. unfold after. pose proof (gettkn_less st I) as [G1 _].
      destruct (gettkn st) as [[k|] st1]; cbn [snd] in *.
      - destruct k; try exact Logic.I. destruct one.
        + destruct (gettkn_less _ G1) as [_ L2]. split; [exact G1|]. split; [lia|intros _; exact L].
        + apply (fine_le (weight st1)); [exact L|]. apply IH; [exact G1|lia].
      - destruct one.
        + destruct (gettkn_less _ G1) as [_ L2]. split; [exact G1|]. split; [lia|intros _; exact L].
        + apply (fine_le (weight st1)); [exact L|]. apply IH; [exact G1|lia].
    Qed.

    Lemma parse_fine : forall fuel t one me c st, inv st -> weight st < fuel -> fine (weight st) (parse fuel t one me c st).
    Proof.
      induction fuel as [|fuel IH]; intros t one me c st I L; [lia|]. rewrite parse_S.
      pose proof (gettkn_weight st I) as G. destruct (gettkn st) as [[k|] st1] eqn:GE.
      2: { destruct me; [exact Logic.I|]. subst st1. split; [split; [constructor|intros x []]|]. cbn. split; lia. }
      destruct G as (id0 & ts0 & r0 & E1 & I1 & W1). pose proof (pow_pos (N - length r0)) as PP.
      destruct k as [|w|w|v|w|];
        try (apply (fine_le (weight st1)); [lia|apply IH; [exact I1|lia]]); [|exact Logic.I].
      destruct (parser_find (tables t) w) as [a wh d| |]; [| |exact Logic.I].
      - destruct (strict && d); [exact Logic.I|]. destruct a as [f|opening sub me' closing|opening sub closing| |].
        + destruct (f wh c (flat st1)) as [[c1 n]|]; [|exact Logic.I].
          destruct (skip_less n _ I1) as [I2 L2]. destruct (gettkn_less _ I2) as [I3 L3].
          apply (fine_le (weight st1)); [lia|]. apply after_fine; [exact IH|exact I2|lia|lia].
        + destruct (opening wh c (flat st1)) as [[c1 n]|]; [|exact Logic.I].
          destruct (skip_less n _ I1) as [I2 L2].
          assert (F : fine (weight (skip n st1)) (parse fuel (sub (flat st1)) false me' c1 (skip n st1))) by (apply IH; [exact I2|lia]).
          destruct (parse fuel (sub (flat st1)) false me' c1 (skip n st1)) as [h c2 st2| | | |]; try exact F. destruct F as (I3 & F1 & F2).
          destruct (closing wh c2) as [c3|]; [|exact Logic.I]. apply (fine_le (weight st1)); [lia|].
          apply after_fine; [exact IH|exact I3|lia|lia].
        + assert (F : fine (weight st1) (parse fuel sub true false (opening wh c) st1)) by (apply IH; [exact I1|lia]).
          destruct (parse fuel sub true false (opening wh c) st1) as [h c2 st2| | | |]; try exact F. destruct F as (I3 & F1 & F2).
          destruct h.
          * apply (fine_le (weight st1)); [lia|]. apply after_fine; [exact IH|exact I3|lia|lia].
          * apply (fine_le (weight st1)); [lia|]. apply after_fine; [exact IH|exact I3|lia|lia].
          * assert (weight st2 <= weight st1) by (apply F2; discriminate).
            apply (fine_le (weight st2)); [lia|]. apply IH; [exact I3|lia].
        + destruct (gettkn_less _ I1) as [_ L2]. split; [exact I1|]. split; [lia|congruence].
        + subst st1. cbn [putback gettkn snd]. split; [exact I1|]. split; [|congruence]. cbn [gettkn snd weight length] in *. lia.
      - destruct (negb one && ci_eqb (lit "Include") w); [|exact Logic.I].
        pose proof (gettkn_weight st1 I1) as G. destruct (gettkn st1) as [[[]|] st2]; try exact Logic.I.
        destruct G as (id1 & ts1 & r1 & E2 & I2 & W2).
        destruct (file v) as [[id ts]|] eqn:FL; [|exact Logic.I]. destruct (open_already id st2) eqn:OA; [exact Logic.I|].
        apply finite in FL. destruct FL as [II LM].
        assert (I3 : inv ((id, ts) :: st2)).
        { destruct I2 as [H1 H2]. split.
          - cbn [map fst]. constructor; [|exact H1]. intros C. apply in_map_iff in C. destruct C as ([i x] & C1 & C2). cbn [fst] in C1. subst i.
            assert (open_already id st2 = true) by (unfold open_already; apply existsb_exists; exists (id, x); split; [exact C2|apply Z.eqb_refl]). congruence.
          - intros x [<-|C]; [exact II|apply H2, C]. }
        assert (W3 : weight ((id, ts) :: st2) < weight st1).
        { pose proof (inv_length _ I3) as LN. subst st2. cbn [length] in LN. cbn [weight length] in *.
          rewrite W2. replace (N - length r1) with (S (N - S (length r1))) by lia.
          cbn [Nat.pow]. pose proof (pow_pos (N - S (length r1))) as P2. unfold B at 3 6. unfold B in *. 
          set (p := S M ^ (N - S (length r1))) in *. nia. }
        apply (fine_le (weight ((id, ts) :: st2))); [lia|]. apply IH; [exact I3|lia].
    Qed.
  End Ends.

  Lemma parse_ends : forall ids M t c name,
    (forall f id ts, file f = Some (id, ts) -> In id ids /\ length ts <= M) ->
    exists n, forall m, n <= m -> cfgparser_parse tables file strict m t c name <> Fuel.
  Proof.
    intros ids M t c name FN. unfold cfgparser_parse. destruct (file name) as [[id ts]|] eqn:FL; [|exists 0; intros; discriminate].
    exists (S (weight ids M [(id, ts)])). intros m L E.
    assert (I : inv ids [(id, ts)]).
    { split; [cbn; constructor; [intros []|constructor]|]. intros x [<-|[]]. apply (FN _ _ _ FL). }
    pose proof (parse_fine ids M FN m t false false c [(id, ts)] I ltac:(lia)) as F. rewrite E in F. exact F.
  Qed.
End Parser.
