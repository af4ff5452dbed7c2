(** Proofs about how pipelines are read *)
From Coq Require Import Ascii String List ZArith Bool Lia.
From Verif Require Import Bytes TplModel TplSpec TplLexProofs.
Import ListNotations.
Local Open Scope nat_scope.
Local Open Scope string_scope.
Local Open Scope list_scope.

(** The next token is the one that begins at [b], be it put back or not yet read *)
Definition sits (i : input) (a b : bytes) : Prop :=
  (ready i = false /\ pre i = a /\ post i = b)
  \/ (ready i = true /\ tok i <> TErr /\ lex a b = Lex (tok i) None (pre i) (post i)).
Definition at_tok (t : token) (a b : bytes) (i : input) : input :=
  mkIn a b t false (error i) (tmpls i) (dangling i).
Definition same (i j : input) : Prop := error i = error j /\ tmpls i = tmpls j /\ dangling i = dangling j.
Lemma same_refl : forall i, same i i. Proof. repeat split. Qed.
Lemma same_trans : forall i j k, same i j -> same j k -> same i k.
Proof. intros i j k (A & B & C) (D & E & F). repeat split; congruence. Qed.
Lemma same_at : forall t a b i, same i (at_tok t a b i). Proof. repeat split. Qed.
Lemma same_ready : forall b i, same i (set_ready b i). Proof. repeat split. Qed.
Lemma at_tok_same : forall t a b i j, same i j -> at_tok t a b i = at_tok t a b j.
Proof. intros t a b i j (A & B & C). unfold at_tok. rewrite A, B, C. reflexivity. Qed.
Lemma at_at : forall t a b u c d i, at_tok t a b (at_tok u c d i) = at_tok t a b i.
Proof. reflexivity. Qed.

Lemma gettok_sits : forall i a b t a' b', sits i a b -> lex a b = Lex t None a' b' -> gettok i = Ret (at_tok t a' b' i).
Proof.
  intros i a b t a' b' [(R & P & Q)|(R & N & L)] E; unfold gettok; rewrite R.
  - rewrite P, Q, E. destruct i. cbn in *. subst. reflexivity.
  - rewrite E in L. injection L as -> -> ->. destruct (tok i) eqn:T; destruct i; cbn in *; subst; try reflexivity. contradiction.
Qed.
Lemma sits_at : forall t a b i, sits (at_tok t a b i) a b.
Proof. intros t a b i. left. repeat split. Qed.
Lemma sits_back : forall i a b t a' b', lex a b = Lex t None a' b' -> t <> TErr ->
  sits (set_ready true (at_tok t a' b' i)) a b.
Proof. intros i a b t a' b' E N. right. repeat split; [exact N|exact E]. Qed.
Lemma putback_at : forall t a b i, putback (at_tok t a b i) = Ret (set_ready true (at_tok t a b i)).
Proof. reflexivity. Qed.
Lemma sits_blank : forall i a b r, blank b -> sits i a (b ++ r) -> forall t a' b', lex (rev b ++ a) r = Lex t None a' b' ->
  gettok i = Ret (at_tok t a' b' i).
Proof. intros i a b r B H t a' b' E. apply (gettok_sits i a (b ++ r) t a' b' H). rewrite lex_blank by exact B. exact E. Qed.

(** What ends a command *)
Definition closer (t : token) : Prop := t = TEnd \/ t = TChar "|"%char \/ t = TChar ")"%char.
Definition closes (a r : bytes) (t : token) (a' b' : bytes) : Prop :=
  breaks r /\ closer t /\ lex a r = Lex t None a' b'.
Definition follow (a r : bytes) : Prop := space_first r \/ exists t a' b', closes a r t a' b'.
Lemma follow_breaks : forall a r, follow a r -> breaks r.
Proof. intros a r [H|(t & a' & b' & H & _)]; [apply space_breaks, H|exact H]. Qed.
Lemma closer_err : forall t, closer t -> t <> TErr.
Proof. intros t [->|[->| ->]]; discriminate. Qed.

Lemma functions_name : forall f, In f functions -> name f.
Proof.
  intros f H. unfold functions in H. cbn in H.
  repeat (destruct H as [H|H];
    [subst f; eexists _, _; split; [reflexivity|]; split; [reflexivity|];
     let d := fresh "d" in let I := fresh "I" in intros d I; left; cbn in I;
     repeat (destruct I as [I|I]; [subst d; reflexivity|]); contradiction|]).
  contradiction.
Qed.
Lemma functions_found : forall f, In f functions ->
  bytes_eqb f (lit "true") = false /\ bytes_eqb f (lit "false") = false /\ find_func f = true.
Proof.
  intros f H. unfold functions in H. cbn in H.
  repeat (destruct H as [H|H]; [subst f; vm_compute; auto|]). contradiction.
Qed.
Lemma name_true : name (lit "true").
Proof.
  eexists _, _. split; [reflexivity|]. split; [reflexivity|]. intros d H. left. cbn in H.
  repeat (destruct H as [H|H]; [subst d; reflexivity|]); contradiction.
Qed.
Lemma name_false : name (lit "false").
Proof.
  eexists _, _. split; [reflexivity|]. split; [reflexivity|]. intros d H. left. cbn in H.
  repeat (destruct H as [H|H]; [subst d; reflexivity|]); contradiction.
Qed.

Scheme base_m := Minimality for base Sort Prop
with term_m := Minimality for term Sort Prop
with arguments_m := Minimality for arguments Sort Prop
with command_m := Minimality for command Sort Prop
with pipeline_m := Minimality for pipeline Sort Prop.
Combined Scheme syntax_ind from base_m, term_m, arguments_m, command_m, pipeline_m.

Lemma arguments_first : forall l t, arguments l t -> t = [] \/ space_first t.
Proof.
  intros l t [|b c s l' t' B (d & b' & -> & D) T A]; [left; reflexivity|right].
  exists d, (b' ++ s ++ t'). split; [reflexivity|exact D].
Qed.

Definition chain_on (head : list cmd) (m : nat) (c : cmd) (j : input) : out (bool * list cmd * input) :=
  do r <- attrs m c j; Ret (true, head ++ [fst r], snd r).

Definition Pbase (c : cmd) (s : bytes) : Prop :=
  forall head a b r i, blank b -> breaks r \/ (exists r', r = "."%char :: r') -> sits i a (b ++ s ++ r) ->
  exists N j, ready j = false /\ pre j = rev (b ++ s) ++ a /\ post j = r /\ same i j
    /\ forall fuel, N <= fuel -> exists m, fuel <= m + N /\ scan_arg fuel head i = chain_on head m c j.
Definition Pterm (c : cmd) (s : bytes) : Prop :=
  forall head a b r i, blank b -> follow (rev (b ++ s) ++ a) r -> sits i a (b ++ s ++ r) ->
  exists N j, sits j (rev (b ++ s) ++ a) r /\ same i j
    /\ forall fuel, N <= fuel -> scan_arg fuel head i = Ret (true, head ++ [c], j).
Definition Pargs (l : list (list cmd)) (t : bytes) : Prop :=
  forall a r i k a' b', closes (rev t ++ a) r k a' b' -> sits i a (t ++ r) ->
  exists N j, sits j (rev t ++ a) r /\ same i j
    /\ forall fuel, N <= fuel -> scan_args fuel i = Ret (l, j).
Definition Pcommand (c : cmd) (s : bytes) : Prop :=
  forall head a b r i k a' b', blank b -> closes (rev (b ++ s) ++ a) r k a' b' -> sits i a (b ++ s ++ r) ->
  exists N j, sits j (rev (b ++ s) ++ a) r /\ same i j
    /\ forall fuel, N <= fuel -> scan_arg fuel head i = Ret (true, head ++ [c], j).
Definition Ppipeline (p : list cmd) (s : bytes) : Prop :=
  forall head a b r i k a' b', blank b -> closes (rev (b ++ s) ++ a) r k a' b' -> k <> TChar "|"%char ->
  sits i a (b ++ s ++ r) ->
  exists N, forall fuel, N <= fuel -> scan_pipeline fuel head i = Ret (head ++ p, at_tok k a' b' i).

(** One unfolding *)
Definition arg_step (fuel : nat) (head : list cmd) (i : input) : out (bool * list cmd * input) :=
  let chain c i := chain_on head fuel c i in
  let plain c i := Ret (true, head ++ [c], i) in
  match tok i with
  | TDot => plain CDot i
  | TAttr a => chain (CAttr a) i
  | TVar v => chain (CVar v) i
  | TNum n => plain (CArg (LInt n)) i
  | TStr s => plain (CArg (LStr s)) i
  | TIdent w =>
      if bytes_eqb w (lit "true") then plain (CArg (LBool true)) i
      else if bytes_eqb w (lit "false") then plain (CArg (LBool false)) i
      else if find_func w then
        do r <- scan_args fuel i;
        plain (CCall w (fst r)) (snd r)
      else Ret (false, head, set_tok TEof i)
  | TChar c =>
      if beq c "("%char then
        do r <- scan_pipeline fuel [] i;
        match tok (snd r) with
        | TChar d => if beq d ")"%char then chain (CPipe (fst r)) (snd r) else Ret (false, head, snd r)
        | _ => Ret (false, head, snd r)
        end
      else do i <- putback i; Ret (false, head, i)
  | _ => do i <- putback i; Ret (false, head, i)
  end.
Lemma scan_arg_S : forall fuel head i, scan_arg (S fuel) head i = do i <- gettok i; arg_step fuel head i.
Proof. reflexivity. Qed.
Lemma scan_args_S : forall fuel i, scan_args (S fuel) i =
  do r <- scan_arg fuel [] i;
  let '(ok, p, i) := r in
  if (ok : bool) then do s <- scan_args fuel i; Ret (p :: fst s, snd s) else Ret ([], i).
Proof. reflexivity. Qed.
Lemma scan_pipeline_S : forall fuel head i, scan_pipeline (S fuel) head i =
  do r <- scan_arg fuel head i;
  let '(ok, head, i) := r in
  if (ok : bool) then
    do i <- gettok i;
    match tok i with
    | TChar c => if beq c "|"%char then scan_pipeline fuel head i else Ret (head, i)
    | _ => Ret (head, i)
    end
  else Ret (head, i).
Proof. reflexivity. Qed.
Lemma attrs_S : forall fuel c i, attrs (S fuel) c i =
  if head_is is_space (post i) then Ret (c, i)
  else
    do i <- gettok i;
    match tok i with
    | TAttr a => attrs fuel (CWith [c] [CAttr a]) i
    | _ => do i <- putback i; Ret (c, i)
    end.
Proof. reflexivity. Qed.

Ltac fuel1 := let G := fresh "G" in intros fuel G; destruct fuel as [|fuel]; [lia|].

(** A token that is not to be an argument ends the arguments *)
Lemma closer_ends : forall k fuel head a b i, closer k ->
  arg_step fuel head (at_tok k a b i) = Ret (false, head, set_ready true (at_tok k a b i)).
Proof. intros k fuel head a b i [->|[->| ->]]; reflexivity. Qed.

Lemma breaks_dot_ident : forall r, breaks r \/ (exists r', r = "."%char :: r') ->
  r <> [] /\ forall c r', r = c :: r' -> ident_char c = false.
Proof.
  intros r [B|(r' & ->)].
  - split; [apply breaks_nil, B|apply breaks_ident, B].
  - split; [discriminate|]. intros c r1 E. injection E as <- <-. reflexivity.
Qed.

Lemma syntax_read :
  (forall c s, base c s -> Pbase c s) /\ (forall c s, term c s -> Pterm c s)
  /\ (forall l t, arguments l t -> Pargs l t) /\ (forall c s, command c s -> Pcommand c s)
  /\ (forall p s, pipeline p s -> Ppipeline p s).
Proof.
  apply syntax_ind.
  - (* .attr *)
    intros n N head a b r i B F H.
    exists 1, (at_tok (TAttr n) (rev n ++ "."%char :: rev b ++ a) r i).
    split; [reflexivity|]. split; [cbn [at_tok pre]; rewrite rev_app_distr; cbn [rev]; rewrite <- !app_assoc; reflexivity|].
    split; [reflexivity|]. split; [apply same_at|].
    fuel1. exists fuel. split; [lia|]. rewrite scan_arg_S.
    rewrite (sits_blank i a b _ B H _ _ _ (lex_attr (rev b ++ a) n r N F)). reflexivity.
  - (* $var *)
    intros n N head a b r i B F H. destruct (breaks_dot_ident r F) as (F1 & F2).
    exists 1, (at_tok (TVar n) (rev n ++ "$"%char :: rev b ++ a) r i).
    split; [reflexivity|]. split; [cbn [at_tok pre]; rewrite rev_app_distr; cbn [rev]; rewrite <- !app_assoc; reflexivity|].
    split; [reflexivity|]. split; [apply same_at|].
    fuel1. exists fuel. split; [lia|]. rewrite scan_arg_S.
    rewrite (sits_blank i a b _ B H _ _ _ (lex_var (rev b ++ a) n r N F1 F2)). reflexivity.
  - (* ( pipeline ) *)
    intros p b0 s b1 B0 P IH B1 head a b r i B F H.
    assert (L : lex (rev b ++ a) ("("%char :: (b0 ++ s ++ b1 ++ lit ")") ++ r) =
                Lex (TChar "("%char) None ("("%char :: rev b ++ a) (b0 ++ s ++ b1 ++ lit ")" ++ r)).
    { rewrite <- !app_assoc. apply lex_mark. cbn; auto. }
    set (i1 := at_tok (TChar "("%char) ("("%char :: rev b ++ a) (b0 ++ s ++ b1 ++ lit ")" ++ r) i).
    assert (C : closes (rev (b0 ++ s) ++ "("%char :: rev b ++ a) (b1 ++ lit ")" ++ r) (TChar ")"%char)
                  (")"%char :: rev b1 ++ rev (b0 ++ s) ++ "("%char :: rev b ++ a) r).
    { split; [|split].
      - destruct B1 as [|c b1 C B1|t b1 C B1]; [exists ")"%char, r|exists c, (b1 ++ lit ")" ++ r)|eexists "/"%char, _].
        + repeat split; discriminate.
        + split; [reflexivity|]. split; [apply space_attr, C|]. intros ->. discriminate.
        + rewrite <- !app_assoc. split; [reflexivity|]. split; [reflexivity|discriminate].
      - right; right; reflexivity.
      - rewrite lex_blank by exact B1. apply lex_mark. cbn; auto. }
    destruct (IH [] ("("%char :: rev b ++ a) b0 (b1 ++ lit ")" ++ r) i1 _ _ _ B0 C ltac:(discriminate) (sits_at _ _ _ _)) as (N & IH').
    exists (S N), (at_tok (TChar ")"%char) (")"%char :: rev b1 ++ rev (b0 ++ s) ++ "("%char :: rev b ++ a) r i1).
    split; [reflexivity|]. split.
    { cbn [at_tok pre]. change (lit ")") with [")"%char].
      repeat (rewrite ?rev_app_distr; cbn [rev app]). rewrite <- !app_assoc. reflexivity. }
    split; [reflexivity|]. split; [repeat split|].
    fuel1. exists fuel. split; [lia|]. rewrite scan_arg_S.
    rewrite (sits_blank i a b _ B H _ _ _ L). cbn [bind]. fold i1. unfold arg_step. cbn [i1 at_tok tok].
    change (beq "("%char "("%char) with true. cbn iota. rewrite IH' by lia. reflexivity.
  - (* base.attr *)
    intros c s n Bs IH A head a b r i B F H.
    assert (F' : breaks ("."%char :: n ++ r) \/ (exists r', "."%char :: n ++ r = "."%char :: r')) by (right; eexists; reflexivity).
    assert (H' : sits i a (b ++ s ++ "."%char :: n ++ r)).
    { rewrite <- app_assoc in H. exact H. }
    destruct (IH head a b _ i B F' H') as (N & j & J1 & J2 & J3 & J4 & IH').
    assert (L : lex (pre j) (post j) = Lex (TAttr n) None (rev n ++ "."%char :: pre j) r).
    { rewrite J3. apply lex_attr; assumption. }
    exists (S N), (at_tok (TAttr n) (rev n ++ "."%char :: pre j) r j).
    split; [reflexivity|]. split.
    { cbn [at_tok pre]. rewrite J2. repeat (rewrite ?rev_app_distr; cbn [rev app]). rewrite <- !app_assoc. reflexivity. }
    split; [reflexivity|]. split; [apply (same_trans _ j); [exact J4|apply same_at]|].
    intros fuel G. destruct (IH' fuel ltac:(lia)) as (m & M & E). destruct m as [|m]; [lia|].
    exists m. split; [lia|]. rewrite E. unfold chain_on. rewrite attrs_S.
    replace (head_is is_space (post j)) with false by (rewrite J3; reflexivity).
    rewrite (gettok_sits j (pre j) (post j) _ _ _ ltac:(left; auto) L). reflexivity.
  - (* . *)
    intros head a b r i B F H. pose proof (follow_breaks _ _ F) as K.
    exists 1, (at_tok TDot ("."%char :: rev b ++ a) r i).
    split; [rewrite rev_app_distr; apply sits_at|]. split; [apply same_at|].
    fuel1. rewrite scan_arg_S. rewrite (sits_blank i a b _ B H _ _ _ (lex_dot (rev b ++ a) r K)). reflexivity.
  - (* base *)
    intros c s Bs IH head a b r i B F H. pose proof (follow_breaks _ _ F) as K.
    destruct (IH head a b r i B (or_introl K) H) as (N & j & J1 & J2 & J3 & J4 & E).
    destruct (head_is is_space r) eqn:Sp.
    + exists (S N), j. split; [left; auto|]. split; [exact J4|].
      intros fuel G. destruct (E fuel ltac:(lia)) as (m & M & ->). destruct m as [|m]; [lia|].
      unfold chain_on. rewrite attrs_S, J3, Sp. reflexivity.
    + destruct F as [(c0 & r0 & -> & X)|(k & a' & b' & C1 & C2 & C3)]; [cbn [head_is] in Sp; congruence|].
      exists (S N), (set_ready true (at_tok k a' b' j)).
      split; [apply sits_back; [exact C3|apply closer_err, C2]|].
      split; [apply (same_trans _ j); [exact J4|repeat split]|].
      intros fuel G. destruct (E fuel ltac:(lia)) as (m & M & ->). destruct m as [|m]; [lia|].
      unfold chain_on. rewrite attrs_S, J3, Sp.
      rewrite (gettok_sits j (rev (b ++ s) ++ a) r k a' b' ltac:(left; auto) C3).
      destruct C2 as [->|[->| ->]]; reflexivity.
  - (* number *)
    intros n s Nm head a b r i B F H. pose proof (follow_breaks _ _ F) as K.
    exists 1, (at_tok (TNum n) (rev s ++ rev b ++ a) r i).
    split; [rewrite rev_app_distr, <- app_assoc; apply sits_at|]. split; [apply same_at|].
    fuel1. rewrite scan_arg_S. rewrite (sits_blank i a b _ B H _ _ _ (lex_number (rev b ++ a) n s r Nm K)). reflexivity.
  - (* string *)
    intros s t Q head a b r i B F H.
    assert (E : (""""%char :: t ++ lit """") ++ r = """"%char :: t ++ lit """" ++ r) by (cbn [app]; rewrite <- app_assoc; reflexivity).
    rewrite E in H.
    exists 1, (at_tok (TStr s) (rev (""""%char :: t ++ lit """") ++ rev b ++ a) r i).
    split; [rewrite (rev_app_distr b), <- app_assoc; apply sits_at|]. split; [apply same_at|].
    fuel1. rewrite scan_arg_S. rewrite (sits_blank i a b _ B H _ _ _ (lex_string (rev b ++ a) s t r Q)). reflexivity.
  - (* true *)
    intros head a b r i B F H. pose proof (follow_breaks _ _ F) as K.
    exists 1, (at_tok (TIdent (lit "true")) (rev (lit "true") ++ rev b ++ a) r i).
    split; [rewrite rev_app_distr, <- app_assoc; apply sits_at|]. split; [apply same_at|].
    fuel1. rewrite scan_arg_S. rewrite (sits_blank i a b _ B H _ _ _ (lex_ident (rev b ++ a) _ r name_true K)). reflexivity.
  - (* false *)
    intros head a b r i B F H. pose proof (follow_breaks _ _ F) as K.
    exists 1, (at_tok (TIdent (lit "false")) (rev (lit "false") ++ rev b ++ a) r i).
    split; [rewrite rev_app_distr, <- app_assoc; apply sits_at|]. split; [apply same_at|].
    fuel1. rewrite scan_arg_S. rewrite (sits_blank i a b _ B H _ _ _ (lex_ident (rev b ++ a) _ r name_false K)). reflexivity.
  - (* no argument *)
    intros a r i k a' b' (C1 & C2 & C3) H. cbn [app rev] in *.
    exists 2, (set_ready true (at_tok k a' b' i)).
    split; [apply sits_back; [exact C3|apply closer_err, C2]|]. split; [repeat split|].
    intros fuel F. destruct fuel as [|[|fuel]]; [lia|lia|].
    rewrite scan_args_S, scan_arg_S, (gettok_sits i a r k a' b' H C3). cbn [bind].
    rewrite closer_ends by exact C2. reflexivity.
  - (* an argument *)
    intros b c s l t B Sb T IHt A IHa a r i k a' b' C H.
    assert (H' : sits i a (b ++ s ++ (t ++ r))) by (rewrite <- !app_assoc in H; exact H).
    assert (R : rev (b ++ s ++ t) ++ a = rev t ++ rev (b ++ s) ++ a).
    { rewrite !rev_app_distr, <- !app_assoc. reflexivity. }
    rewrite R in C.
    assert (Fo : follow (rev (b ++ s) ++ a) (t ++ r)).
    { destruct (arguments_first l t A) as [->|(c0 & t0 & -> & X)]; [right; exists k, a', b'; exact C|].
      left. exists c0, (t0 ++ r). split; [reflexivity|exact X]. }
    destruct (IHt [] a b (t ++ r) i B Fo H') as (N1 & j & J1 & J2 & E1).
    destruct (IHa _ r j k a' b' C J1) as (N2 & j' & K1 & K2 & E2).
    exists (S (N1 + N2)), j'. split; [rewrite R; exact K1|]. split; [apply (same_trans _ j); assumption|].
    fuel1. rewrite scan_args_S, E1 by lia. cbn [bind app]. rewrite E2 by lia. reflexivity.
  - (* a term *)
    intros c s T IH head a b r i k a' b' B C H. apply IH; [exact B|right; exists k, a', b'; exact C|exact H].
  - (* a call *)
    intros f l t Ff A IH head a b r i k a' b' B C H.
    assert (H' : sits i a (b ++ f ++ (t ++ r))) by (rewrite <- app_assoc in H; exact H).
    assert (R : rev (b ++ f ++ t) ++ a = rev t ++ rev f ++ rev b ++ a) by (rewrite !rev_app_distr, <- !app_assoc; reflexivity).
    rewrite R in C. pose proof C as (C1 & _).
    assert (K : breaks (t ++ r)).
    { destruct (arguments_first l t A) as [->|(c0 & t0 & -> & X)]; [exact C1|].
      apply space_breaks. exists c0, (t0 ++ r). split; [reflexivity|exact X]. }
    pose proof (lex_ident (rev b ++ a) f (t ++ r) (functions_name f Ff) K) as L.
    destruct (IH (rev f ++ rev b ++ a) r (at_tok (TIdent f) (rev f ++ rev b ++ a) (t ++ r) i) k a' b' C (sits_at _ _ _ _)) as (N & j & J1 & J2 & E).
    exists (S N), j. split; [rewrite R; exact J1|]. split; [apply (same_trans _ _ _ (same_at _ _ _ _) J2)|].
    fuel1. rewrite scan_arg_S, (sits_blank i a b _ B H' _ _ _ L). cbn [bind]. unfold arg_step. cbn [at_tok tok].
    destruct (functions_found f Ff) as (-> & -> & ->). rewrite E by lia. reflexivity.
  - (* the last command *)
    intros c s Cm IH head a b r i k a' b' B C Nk H.
    destruct (IH head a b r i k a' b' B C H) as (N & j & J1 & J2 & E).
    exists (S N). fuel1. rewrite scan_pipeline_S, E by lia. cbn [bind]. destruct C as (C1 & C2 & C3).
    rewrite (gettok_sits j _ _ _ _ _ J1 C3). cbn [bind at_tok tok]. rewrite (at_tok_same k a' b' i j J2).
    destruct C2 as [->|[->| ->]]; [reflexivity|contradiction|reflexivity].
  - (* a command and more *)
    intros c s b1 b2 p t Cm IHc B1 B2 P IHp head a b r i k a' b' B C Nk H.
    assert (H' : sits i a (b ++ s ++ (b1 ++ "|"%char :: b2 ++ t ++ r))).
    { repeat (rewrite <- app_assoc in H; cbn [app] in H). exact H. }
    assert (L : lex (rev (b ++ s) ++ a) (b1 ++ "|"%char :: b2 ++ t ++ r)
                = Lex (TChar "|"%char) None ("|"%char :: rev b1 ++ rev (b ++ s) ++ a) (b2 ++ t ++ r)).
    { rewrite lex_blank by exact B1. apply lex_mark. cbn; auto. }
    assert (C' : closes (rev (b ++ s) ++ a) (b1 ++ "|"%char :: b2 ++ t ++ r) (TChar "|"%char)
                  ("|"%char :: rev b1 ++ rev (b ++ s) ++ a) (b2 ++ t ++ r)).
    { split; [|split; [right; left; reflexivity|exact L]].
      destruct B1 as [|c1 b1 X B1|t1 b1 X B1]; [eexists "|"%char, _|eexists c1, _|eexists "/"%char, _].
      - repeat split; discriminate.
      - split; [reflexivity|]. split; [apply space_attr, X|]. intros ->. discriminate.
      - rewrite <- !app_assoc. split; [reflexivity|]. split; [reflexivity|discriminate]. }
    destruct (IHc head a b _ i _ _ _ B C' H') as (N1 & j & J1 & J2 & E1).
    set (j1 := at_tok (TChar "|"%char) ("|"%char :: rev b1 ++ rev (b ++ s) ++ a) (b2 ++ t ++ r) j).
    assert (R : rev (b ++ s ++ b1 ++ "|"%char :: b2 ++ t) ++ a
                = rev (b2 ++ t) ++ "|"%char :: rev b1 ++ rev (b ++ s) ++ a).
    { repeat (rewrite ?rev_app_distr; cbn [rev]). rewrite <- !app_assoc. reflexivity. }
    rewrite R in C.
    destruct (IHp (head ++ [c]) _ b2 r j1 k a' b' B2 C Nk (sits_at _ _ _ _)) as (N2 & E2).
    exists (S (N1 + N2)). fuel1. rewrite scan_pipeline_S, E1 by lia. cbn [bind].
    rewrite (gettok_sits j _ _ _ _ _ J1 L). cbn [bind at_tok tok]. change (beq "|"%char "|"%char) with true. cbn iota.
    fold j1. rewrite E2 by lia. rewrite <- app_assoc. cbn [app]. unfold j1. rewrite at_at.
    rewrite (at_tok_same k a' b' i j J2). reflexivity.
Qed.

Lemma pipeline_read : forall p s, pipeline p s -> Ppipeline p s.
Proof. apply syntax_read. Qed.
