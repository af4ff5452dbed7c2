From Coq Require Import Ascii String List ZArith Bool Lia Arith.
From Verif Require Import Bytes WdModel WdSpec.
Import ListNotations.
Local Open Scope string_scope.
Local Open Scope list_scope.
Local Open Scope Z_scope.

Lemma rooted_absolute : forall f, absolute f = rooted f.
Proof. intros [|[[] [] [] [] [] [] [] []] f]; reflexivity. Qed.

Lemma bind_ok : forall A B (x : out A) (k : A -> out B) b, bind x k = Ok b -> exists a, x = Ok a /\ k a = Ok b.
Proof. intros A B [a| |] k b H; cbn in H; try discriminate. eauto. Qed.

Section P.
  Variable cwd : bytes.
  Variable is_dir : bytes -> bool.
  Variable readable : bytes -> bool.
  Variable include_dir : option bytes.
  Notation get := (workdir_get cwd is_dir).
  Notation getinc := (get_include_wd cwd is_dir include_dir).
  Notation dflt := (initial cwd include_dir).
  Definition nmv (n : option bytes) : bytes := match n with Some n => n | None => cwd end.

  Record B (s : st) : Prop := mkB {
    b_nd : NoDup (map w_id (s_head s));
    b_lt : forall w, In w (s_head s) -> (w_id w < s_next s)%nat;
    b_name : forall w, In w (s_head s) -> w_name w = cwd \/ is_dir (w_name w) = true;
    b_cwd : forall w, In w (s_head s) -> w_cwd w = true -> w_name w = cwd;
    b_inc : forall i, s_inc s = Some i -> (i < s_next s)%nat }.

  Lemma at_in : forall s id w, at_ s id = Some w -> In w (s_head s) /\ w_id w = id.
  Proof. intros s id w H. apply find_some in H as [H E]. apply Nat.eqb_eq in E. auto. Qed.

  Lemma find_id : forall l w, NoDup (map w_id l) -> In w l -> find (fun x => Nat.eqb (w_id x) (w_id w)) l = Some w.
  Proof.
    induction l as [|a l IH]; intros w N I; [destruct I|]. cbn. inversion N as [|? ? Na Nl]; subst.
    destruct I as [->|I]; [rewrite Nat.eqb_refl; reflexivity|].
    destruct (Nat.eqb_spec (w_id a) (w_id w)) as [e|_]; [|apply IH; assumption].
    destruct Na. rewrite e. apply in_map. exact I.
  Qed.

  Lemma in_at : forall s w, B s -> In w (s_head s) -> at_ s (w_id w) = Some w.
  Proof. intros s w b I. apply find_id; [apply b_nd; exact b|exact I]. Qed.

  Lemma map_id_ref : forall n id l,
    map w_id (map (fun w => if Nat.eqb (w_id w) id then mkWd (w_id w) (w_name w) (w_ref w + n) (w_cwd w) else w) l) = map w_id l.
  Proof. intros n id l. rewrite map_map. apply map_ext. intros w. destruct (Nat.eqb (w_id w) id); reflexivity. Qed.

  Definition bump (n : Z) (w : wd) : wd := mkWd (w_id w) (w_name w) (w_ref w + n) (w_cwd w).

  Lemma at_add_ref : forall n id s i,
    at_ (add_ref n id s) i = option_map (fun w => if Nat.eqb i id then bump n w else w) (at_ s i).
  Proof.
    intros n id s i. unfold at_, add_ref. cbn [s_head]. induction (s_head s) as [|w l IH]; [reflexivity|]. cbn [map find].
    destruct (Nat.eqb_spec (w_id w) id) as [e|e]; cbn [w_id].
    - destruct (Nat.eqb_spec (w_id w) i) as [f|f]; [|exact IH]. cbn. subst i. subst id. rewrite Nat.eqb_refl. reflexivity.
    - destruct (Nat.eqb_spec (w_id w) i) as [f|f]; [|exact IH]. cbn. subst i.
      destruct (Nat.eqb_spec (w_id w) id) as [g|g]; [contradiction|reflexivity].
  Qed.

  Lemma B_add_ref : forall n id s, B s -> B (add_ref n id s).
  Proof.
    intros n id s [b1 b2 b3 b4 b5].
    assert (X : forall w, In w (s_head (add_ref n id s)) -> exists v, In v (s_head s) /\ w_id w = w_id v /\ w_name w = w_name v /\ w_cwd w = w_cwd v).
    { intros w I. cbn in I. apply in_map_iff in I as (v & <- & I). exists v. destruct (Nat.eqb (w_id v) id); auto. }
    split.
    - cbn. rewrite map_id_ref. exact b1.
    - intros w I. destruct (X w I) as (v & I' & -> & _). apply b2. exact I'.
    - intros w I. destruct (X w I) as (v & I' & _ & -> & _). apply b3. exact I'.
    - intros w I. destruct (X w I) as (v & I' & _ & -> & ->). apply b4. exact I'.
    - exact b5.
  Qed.

  Lemma at_app_new : forall s l w i, (forall v, In v l -> (w_id v < w_id w)%nat) -> s_head s = l ->
    forall s', s_head s' = l ++ [w] -> at_ s' i = if Nat.eqb i (w_id w) then Some w else at_ s i.
  Proof.
    intros s l w i F Hs s' Hs'. unfold at_. rewrite Hs, Hs'. clear Hs Hs' s s'.
    induction l as [|a l IH]; cbn [app find].
    - rewrite Nat.eqb_sym. destruct (Nat.eqb i (w_id w)); reflexivity.
    - pose proof (F a (or_introl eq_refl)) as La. destruct (Nat.eqb_spec (w_id a) i) as [e|e].
      + destruct (Nat.eqb_spec i (w_id w)) as [f|f]; [lia|reflexivity].
      + apply IH. intros v I. apply F. right. exact I.
  Qed.

  Lemma get_spec : forall nm s id s', B s -> get nm s = Some (id, s') ->
    B s' /\ s_inc s' = s_inc s /\ (s_next s <= s_next s')%nat /\
    (forall i, i <> id -> at_ s' i = at_ s i) /\
    exists w, at_ s' id = Some w /\ w_name w = nmv nm /\
      ((w_ref w = 1 /\ id = s_next s /\ at_ s id = None /\ (forall v, In v (s_head s) -> w_name v <> nmv nm))
       \/ exists w0, at_ s id = Some w0 /\ w_name w0 = nmv nm /\ w_ref w = w_ref w0 + 1).
  Proof.
    intros nm s id s' b H. unfold workdir_get in H. change (match nm with Some n => n | None => cwd end) with (nmv nm) in H.
    destruct (find (fun w => bytes_eqb (w_name w) (nmv nm)) (s_head s)) as [w0|] eqn:F.
    - injection H as <- <-. apply find_some in F as [I E]. apply bytes_eqb_eq in E. pose proof (in_at s w0 b I) as A.
      split; [apply B_add_ref; exact b|]. split; [reflexivity|]. split; [cbn; lia|].
      split.
      + intros i Hi. rewrite at_add_ref. destruct (Nat.eqb_spec i (w_id w0)) as [e|e]; [contradiction|]. destruct (at_ s i); reflexivity.
      + exists (bump 1 w0). rewrite at_add_ref, A, Nat.eqb_refl. split; [reflexivity|]. split; [exact E|].
        right. exists w0. auto.
    - pose proof (find_none _ _ F) as FN.
      assert (FN' : forall v, In v (s_head s) -> w_name v <> nmv nm).
      { intros v I. apply bytes_eqb_neq. apply FN. exact I. }
      set (new := mkSt (s_head s ++ [mkWd (s_next s) (nmv nm) 1 (match nm with None => true | Some _ => false end)]) (S (s_next s)) (s_inc s)) in *.
      assert (H' : id = s_next s /\ s' = new /\ (match nm with None => True | Some n => is_dir n = true end)).
      { destruct nm as [n|]; [destruct (is_dir n) eqn:D|]; try discriminate H; injection H as <- <-; auto. }
      destruct H' as (-> & -> & D).
      pose proof (at_app_new s (s_head s) (mkWd (s_next s) (nmv nm) 1 (match nm with None => true | Some _ => false end))) as A.
      cbn [w_id] in A.
      assert (A' : forall i, at_ new i = if Nat.eqb i (s_next s) then Some (mkWd (s_next s) (nmv nm) 1 (match nm with None => true | Some _ => false end)) else at_ s i).
      { intros i. apply A; [apply b_lt; exact b|reflexivity|reflexivity]. }
      assert (AN : at_ s (s_next s) = None).
      { destruct (at_ s (s_next s)) as [v|] eqn:Q; [|reflexivity]. apply at_in in Q as [I E]. pose proof (b_lt s b v I). lia. }
      destruct b as [b1 b2 b3 b4 b5].
      split.
      + split.
        * subst new. cbn. rewrite map_app. cbn. apply NoDup_rev in b1.
          rewrite <- (rev_involutive (map w_id (s_head s) ++ [s_next s])). apply NoDup_rev. rewrite rev_app_distr. cbn. constructor; [|exact b1].
          rewrite <- in_rev. intros I. apply in_map_iff in I as (v & E & I). pose proof (b2 v I). lia.
        * intros w I. subst new. cbn in *. apply in_app_or in I as [I|[<-|[]]]; [pose proof (b2 w I); lia|cbn; lia].
        * intros w I. subst new. cbn in I. apply in_app_or in I as [I|[<-|[]]]; [apply b3; exact I|]. cbn.
          destruct nm as [n|]; [right; exact D|left; reflexivity].
        * intros w I C. subst new. cbn in I. apply in_app_or in I as [I|[<-|[]]]; [apply b4; assumption|]. cbn in C. cbn. destruct nm; [discriminate|reflexivity].
        * intros i Hi. subst new. cbn in *. pose proof (b5 i Hi). lia.
      + split; [reflexivity|]. split; [subst new; cbn; lia|].
        split.
        * intros i Hi. rewrite A'. destruct (Nat.eqb_spec i (s_next s)); [contradiction|reflexivity].
        * eexists. split; [rewrite A', Nat.eqb_refl; reflexivity|]. split; [reflexivity|]. left. auto.
  Qed.

  (** ** The directory in effect *)

  Definition J (d : bytes) (s : st) : Prop :=
    B s /\ match s_inc s with None => d = dflt | Some i => forall w, at_ s i = Some w -> w_name w = d end.

  Lemma J_get : forall d nm s id s', J d s -> get nm s = Some (id, s') -> J d s'.
  Proof.
    intros d nm s id s' [b j] H. destruct (get_spec nm s id s' b H) as (b' & Ei & _ & F & w & A & N & C).
    split; [exact b'|]. rewrite Ei. destruct (s_inc s) as [i|] eqn:Si; [|exact j].
    intros v Hv. destruct (Nat.eq_dec i id) as [e|e]; [|rewrite F in Hv by exact e; apply j; exact Hv].
    subst i. rewrite A in Hv. injection Hv as <-. destruct C as [(_ & L & _)|(w0 & A0 & N0 & _)].
    - pose proof (b_inc s b id Si). lia.
    - rewrite N, <- N0. apply j. exact A0.
  Qed.

  Lemma B_set_inc : forall s i, B s -> (forall x, i = Some x -> (x < s_next s)%nat) -> B (set_inc i s).
  Proof. intros s i [b1 b2 b3 b4 b5] L. split; auto. Qed.

  Lemma at_lt : forall s i w, B s -> at_ s i = Some w -> (i < s_next s)%nat.
  Proof. intros s i w b H. apply at_in in H as [I <-]. apply b_lt; assumption. Qed.

  Lemma J_getinc : forall d s id s', J d s -> getinc s = Some (id, s') ->
    J d s' /\ s_inc s' = Some id.
  Proof.
    intros d s id s' j H. unfold get_include_wd in H. destruct (s_inc s) as [i|] eqn:Si.
    - injection H as <- <-. auto.
    - destruct (get include_dir s) as [[i s1]|] eqn:G; [|discriminate]. injection H as <- <-.
      destruct j as [b j]. rewrite Si in j. destruct (get_spec _ _ _ _ b G) as (b' & _ & _ & _ & w & A & N & _).
      split; [|reflexivity]. split.
      + apply B_set_inc; [exact b'|]. intros x [= <-]. apply (at_lt _ _ _ b' A).
      + cbn [s_inc set_inc]. intros v Hv. change (at_ s1 i = Some v) in Hv. rewrite A in Hv. injection Hv as <-.
        rewrite N, j. reflexivity.
  Qed.

  Lemma J_add_ref : forall d n id s, J d s -> J d (add_ref n id s).
  Proof.
    intros d n id s [b j]. split; [apply B_add_ref; exact b|]. cbn [s_inc add_ref]. destruct (s_inc s) as [i|]; [|exact j].
    intros w. rewrite at_add_ref. destruct (at_ s i) as [v|] eqn:A; [|discriminate]. cbn. intros [= <-].
    destruct (Nat.eqb i id); cbn; apply j; reflexivity.
  Qed.

  Lemma path_lookup : forall w f, path w f = lookup (w_name w) f.
  Proof. intros w f. unfold path, lookup. rewrite rooted_absolute. reflexivity. Qed.

  Notation fopen := (fopen_include cwd is_dir readable include_dir).

  Lemma J_fopen : forall d f s p s', J d s -> fopen f s = Ok (p, s') -> p = lookup d f /\ J d s'.
  Proof.
    intros d f s p s' j H. unfold fopen_include in H. destruct (getinc s) as [[id s1]|] eqn:G; [|discriminate].
    destruct (J_getinc d s id s1 j G) as [j1 E]. destruct (at_ s1 id) as [w|] eqn:A; [|discriminate].
    destruct (readable (path w f)); [|discriminate]. injection H as <- <-. rewrite path_lookup. split; [|exact j1].
    f_equal. destruct j1 as [_ j1]. rewrite E in j1. apply j1. exact A.
  Qed.

  Lemma J_push : forall d f s p s', J d s -> push_input cwd is_dir readable include_dir f s = Ok (p, s') -> p = lookup d f /\ J d s'.
  Proof.
    intros d f s p s' j H. unfold push_input in H. destruct (absolute f).
    - destruct (readable f); [|discriminate]. apply (J_fopen d f s p s' j H).
    - destruct (getinc s) as [[id s1]|] eqn:G; [|discriminate]. destruct (J_getinc d s id s1 j G) as [j1 E].
      destruct (at_ s1 id) as [w|]; [|discriminate]. destruct (readable (path w f)); [|discriminate].
      apply (J_fopen d f s1 p s' j1 H).
  Qed.

  Lemma J_cert : forall d f s p s', J d s -> filename_resolve cwd is_dir readable include_dir f s = Ok (p, s') -> p = lookup d f /\ J d s'.
  Proof.
    intros d f s p s' j H. unfold filename_resolve in H. destruct (absolute f) eqn:Ab.
    - destruct (readable f); [|discriminate]. injection H as <- <-. split; [|exact j]. unfold lookup. rewrite <- rooted_absolute, Ab. reflexivity.
    - destruct (getinc s) as [[id s1]|] eqn:G; [|discriminate]. destruct (J_getinc d s id s1 j G) as [j1 E].
      destruct (at_ s1 id) as [w|] eqn:A; [|discriminate]. destruct (readable (path w f)); [|discriminate].
      injection H as <- <-. rewrite path_lookup. split; [|apply J_add_ref; exact j1].
      f_equal. destruct j1 as [_ j1]. rewrite E in j1. apply j1. exact A.
  Qed.

  Lemma at_filter : forall s id i, at_ (mkSt (filter (fun w => negb (Nat.eqb (w_id w) id)) (s_head s)) (s_next s) (s_inc s)) i
    = if Nat.eqb i id then None else at_ s i.
  Proof.
    intros s id i. unfold at_. cbn [s_head]. induction (s_head s) as [|w l IH]; cbn [filter find].
    - destruct (Nat.eqb i id); reflexivity.
    - destruct (Nat.eqb_spec (w_id w) id) as [e|e]; cbn [negb].
      + rewrite IH. destruct (Nat.eqb_spec i id) as [f|f]; [reflexivity|]. destruct (Nat.eqb_spec (w_id w) i); [lia|reflexivity].
      + cbn [find]. destruct (Nat.eqb_spec (w_id w) i) as [f|f]; [|exact IH].
        destruct (Nat.eqb_spec i id); [lia|reflexivity].
  Qed.

  Lemma NoDup_map_filter : forall (g : wd -> bool) l, NoDup (map w_id l) -> NoDup (map w_id (filter g l)).
  Proof.
    intros g l. induction l as [|a l IH]; intros N; [exact N|]. inversion N as [|? ? Na Nl]; subst. cbn.
    destruct (g a); [|apply IH; exact Nl]. cbn. constructor; [|apply IH; exact Nl].
    intros I. apply Na. apply in_map_iff in I as (v & E & I). apply filter_In in I as [I _]. rewrite <- E. apply in_map. exact I.
  Qed.

  Lemma B_filter : forall g s, B s -> B (mkSt (filter g (s_head s)) (s_next s) (s_inc s)).
  Proof.
    intros g s [b1 b2 b3 b4 b5]. split; cbn; auto.
    - apply NoDup_map_filter. exact b1.
    - intros w I. apply filter_In in I as [I _]. auto.
    - intros w I. apply filter_In in I as [I _]. auto.
    - intros w I. apply filter_In in I as [I _]. auto.
  Qed.

  Lemma J_dir : forall d n s s', J d s -> includedir cwd is_dir n s = Ok s' -> J n s'.
  Proof.
    intros d n s s' j H. unfold includedir in H. destruct (get (Some n) s) as [[id s1]|] eqn:G; [|discriminate].
    destruct (get_spec _ _ _ _ (proj1 j) G) as (b1 & Ei & _ & _ & w & A & N & _).
    apply bind_ok in H as (s2 & F & [= <-]). unfold workdir_free in F. destruct (s_inc s1) as [i|] eqn:S1; [|discriminate].
    destruct (at_ s1 i) as [v|] eqn:Ai; [|discriminate].
    assert (X : B s2 /\ s_next s2 = s_next s1 /\ forall u, at_ s2 id = Some u -> at_ s1 id = Some u).
    { destruct (w_ref v =? 0); injection F as <-.
      - rewrite <- S1. split; [apply B_filter; exact b1|]. split; [reflexivity|]. intros u. rewrite at_filter. destruct (Nat.eqb id i); [discriminate|auto].
      - auto. }
    destruct X as (b2 & En & X). split.
    - apply B_set_inc; [exact b2|]. intros x [= <-]. rewrite En. apply (at_lt _ _ _ b1 A).
    - cbn [s_inc set_inc]. intros u Hu. apply X in Hu. rewrite A in Hu. injection Hu as <-. exact N.
  Qed.

  Notation step1 := (step cwd is_dir readable include_dir).
  Notation run := (steps cwd is_dir readable include_dir).

  Lemma J_step : forall x d s l s', J d s -> step1 x s = Ok (l, s') -> l = expected d [x] /\ J (in_effect d [x]) s'.
  Proof.
    intros x d s l s' j H. destruct x as [n|f|f|f|f|f]; cbn in H.
    - apply bind_ok in H as (s1 & H & [= <- <-]). split; [reflexivity|]. apply (J_dir d n s s1 j H).
    - apply bind_ok in H as ([p s1] & H & [= <- <-]). apply (J_push d) in H as [-> j']; [|exact j]. split; [reflexivity|exact j'].
    - apply bind_ok in H as ([p s1] & H & [= <- <-]). apply (J_fopen d) in H as [-> j']; [|exact j]. split; [reflexivity|exact j'].
    - apply bind_ok in H as ([p s1] & H & [= <- <-]). apply (J_cert d) in H as [-> j']; [|exact j]. split; [reflexivity|exact j'].
    - destruct (readable f); [|discriminate]. injection H as <- <-. auto.
    - injection H as <- <-. auto.
  Qed.

  Lemma expected_cons : forall x d l, expected d (x :: l) = expected d [x] ++ expected (in_effect d [x]) l.
  Proof. intros [] d l; reflexivity. Qed.
  Lemma in_effect_cons : forall x d l, in_effect d (x :: l) = in_effect (in_effect d [x]) l.
  Proof. intros [] d l; reflexivity. Qed.

  Lemma J_run : forall l d s o s', J d s -> run l s = Ok (o, s') -> o = expected d l /\ J (in_effect d l) s'.
  Proof.
    induction l as [|x l IH]; intros d s o s' j H.
    - cbn in H. injection H as <- <-. auto.
    - cbn [steps] in H. apply bind_ok in H as ([o1 s1] & H1 & H). apply bind_ok in H as ([o2 s2] & H2 & [= <- <-]). cbn [fst snd] in *.
      destruct (J_step x d s o1 s1 j H1) as [-> j1]. destruct (IH _ _ _ _ j1 H2) as [-> j2].
      rewrite (expected_cons x d l), (in_effect_cons x d l). split; [reflexivity|exact j2].
  Qed.

  (** The state after the main file has been opened *)
  Lemma opened : forall f p s, cfgparser_open cwd is_dir readable include_dir f = Ok (p, s) ->
    p = lookup cwd f /\ s = mkSt [mkWd 0 cwd 0 true] 1 None.
  Proof.
    intros f p s H. unfold cfgparser_open in H. cbn in H.
    apply bind_ok in H as ([q s1] & H & [= <- <-]).
    assert (Y : q = lookup cwd f /\ s1 = set_inc (Some 0%nat) (mkSt [mkWd 0 cwd 1 true] 1 None)).
    { unfold push_input, fopen_include in H. cbn in H. rewrite !path_lookup in H. cbn [w_name] in H.
      destruct (absolute f); [destruct (readable f); [|discriminate]|];
        (destruct (readable (lookup cwd f)); [|discriminate]; injection H as <- <-; split; reflexivity). }
    destruct Y as [-> ->]. split; reflexivity.
  Qed.

  Notation s0 := (mkSt [mkWd 0 cwd 0 true] 1 None).

  Lemma B0 : B s0.
  Proof.
    split; cbn.
    - repeat constructor. intros [].
    - intros w [<-|[]]. cbn. lia.
    - intros w [<-|[]]. left. reflexivity.
    - intros w [<-|[]] _. reflexivity.
    - discriminate.
  Qed.

  Lemma J0 : J dflt s0.
  Proof. split; [apply B0|reflexivity]. Qed.

  (** ** Reference counts without relative certificates *)

  Definition cnt (i : nat) (ps : list pwfile) : Z :=
    Z.of_nat (List.length (filter (fun p => match fst p with Some j => Nat.eqb i j | None => false end) ps)).
  Definition held (s : st) (i : nat) : Z := match s_inc s with Some j => if Nat.eqb i j then 1 else 0 | None => 0 end.

  Definition M (d : bytes) (s : st) (ps : list pwfile) : Prop :=
    J d s /\ (forall i w, at_ s i = Some w -> cnt i ps + held s i <= w_ref w) /\
    (forall i, 0 < cnt i ps + held s i -> at_ s i <> None).

  Lemma cnt_nonneg : forall i ps, 0 <= cnt i ps.
  Proof. intros i ps. unfold cnt. lia. Qed.
  Lemma held_nonneg : forall s i, 0 <= held s i <= 1.
  Proof. intros s i. unfold held. destruct (s_inc s) as [j|]; [destruct (Nat.eqb i j)|]; lia. Qed.

  Lemma M0 : M dflt s0 [].
  Proof.
    split; [apply J0|]. split.
    - intros i w H. apply at_in in H as [[<-|[]] _]. cbn. lia.
    - intros i H. cbn in H. lia.
  Qed.

  Lemma M_get : forall d nm s ps id s', M d s ps -> get nm s = Some (id, s') ->
    J d s' /\ s_inc s' = s_inc s /\
    (forall i w, at_ s' i = Some w -> cnt i ps + held s i + (if Nat.eqb i id then 1 else 0) <= w_ref w) /\
    (forall i, 0 < cnt i ps + held s i -> at_ s' i <> None) /\ (exists w, at_ s' id = Some w /\ w_name w = nmv nm).
  Proof.
    intros d nm s ps id s' (j & m1 & m2) H. pose proof (J_get d nm s id s' j H) as j'.
    destruct (get_spec nm s id s' (proj1 j) H) as (b' & Ei & _ & F & w & A & N & C).
    split; [exact j'|]. split; [exact Ei|]. split; [|split; [|exists w; auto]].
    - intros i v Hv. destruct (Nat.eqb_spec i id) as [e|e].
      + subst i. rewrite A in Hv. injection Hv as <-. destruct C as [(R & _ & L & _)|(w0 & A0 & _ & R)].
        * destruct (Z_lt_dec 0 (cnt id ps + held s id)) as [G|G]; [destruct (m2 id G L)|]. lia.
        * pose proof (m1 id w0 A0). lia.
      + rewrite F in Hv by exact e. pose proof (m1 i v Hv). lia.
    - intros i G. destruct (Nat.eq_dec i id) as [e|e]; [subst i; congruence|]. rewrite F by exact e. apply m2. exact G.
  Qed.

  Lemma M_getinc : forall d s ps id s', M d s ps -> getinc s = Some (id, s') ->
    M d s' ps /\ s_inc s' = Some id /\ exists w, at_ s' id = Some w /\ w_name w = d.
  Proof.
    intros d s ps id s' m H. destruct (J_getinc d s id s' (proj1 m) H) as [j' E].
    assert (X : M d s' ps).
    { unfold get_include_wd in H. destruct (s_inc s) as [i|] eqn:Si.
      - injection H as <- <-. exact m.
      - destruct (get include_dir s) as [[i s1]|] eqn:G; [|discriminate]. injection H as <- <-.
        destruct (M_get d _ s ps _ _ m G) as (_ & _ & m1 & m2 & w & A & _).
        split; [exact j'|]. assert (H0 : forall k, held s k = 0) by (intros k; unfold held; rewrite Si; reflexivity).
        split.
        + intros k v Hv. change (at_ s1 k = Some v) in Hv. pose proof (m1 k v Hv) as Q. rewrite H0 in Q. unfold held. cbn. lia.
        + intros k Q. change (at_ s1 k <> None). unfold held in Q. cbn in Q. destruct (Nat.eqb_spec k i) as [e|e]; [subst k; congruence|].
          apply m2. rewrite H0. lia. }
    split; [exact X|]. split; [exact E|]. destruct X as ((_ & j) & _ & m2).
    destruct (at_ s' id) as [w|] eqn:A.
    - exists w. split; [reflexivity|]. rewrite E in j. apply j. exact A.
    - exfalso. apply (m2 id); [|exact A]. unfold held. rewrite E, Nat.eqb_refl. pose proof (cnt_nonneg id ps). lia.
  Qed.

  Lemma M_fopen : forall d f s ps p s', M d s ps -> fopen f s = Ok (p, s') -> M d s' ps.
  Proof.
    intros d f s ps p s' m H. unfold fopen_include in H. destruct (getinc s) as [[id s1]|] eqn:G; [|discriminate].
    destruct (M_getinc d s ps id s1 m G) as (m1 & _ & _). destruct (at_ s1 id) as [w|]; [|discriminate].
    destruct (readable (path w f)); [|discriminate]. injection H as <- <-. exact m1.
  Qed.

  Lemma M_dir : forall d n s s', M d s [] -> includedir cwd is_dir n s = Ok s' -> M n s' [].
  Proof.
    intros d n s s' m H. pose proof (J_dir d n s s' (proj1 m) H) as j'. unfold includedir in H.
    destruct (get (Some n) s) as [[id s1]|] eqn:G; [|discriminate].
    destruct (M_get d _ s [] id s1 m G) as (_ & Ei & m1 & m2 & w & A & _).
    apply bind_ok in H as (s2 & F & [= <-]). unfold workdir_free in F. rewrite Ei in F. destruct (s_inc s) as [i|] eqn:Si; [|discriminate].
    destruct (at_ s1 i) as [v|] eqn:Ai; [|discriminate].
    assert (Ri : 1 <= w_ref v). { pose proof (m1 i v Ai) as Q. unfold held in Q. rewrite Si, Nat.eqb_refl in Q. cbn in Q. destruct (Nat.eqb i id); lia. }
    destruct (w_ref v =? 0) eqn:Z0; [lia|]. injection F as <-.
    split; [exact j'|]. split.
    - intros k u Hu. change (at_ s1 k = Some u) in Hu. pose proof (m1 k u Hu) as Q. pose proof (held_nonneg s k). unfold held at 1. cbn in *. lia.
    - intros k Q. change (at_ s1 k <> None). unfold held in Q. cbn in Q. destruct (Nat.eqb_spec k id) as [e|e]; [subst k; congruence|lia].
  Qed.

  Lemma M_step : forall x d s o s', relative_cert x = false -> M d s [] -> step1 x s = Ok (o, s') -> M (in_effect d [x]) s' [].
  Proof.
    intros x d s o s' RC m H. destruct x as [n|f|f|f|f|f]; cbn in H.
    - apply bind_ok in H as (s1 & H & [= <- <-]). apply (M_dir d n s s1 m H).
    - apply bind_ok in H as ([p s1] & H & [= <- <-]). cbn in *. unfold push_input in H. destruct (absolute f).
      + destruct (readable f); [|discriminate]. apply (M_fopen d f s [] p s1 m H).
      + destruct (getinc s) as [[id s2]|] eqn:G; [|discriminate]. destruct (M_getinc d s [] id s2 m G) as (m1 & _ & _).
        destruct (at_ s2 id) as [w|]; [|discriminate]. destruct (readable (path w f)); [|discriminate].
        apply (M_fopen d f s2 [] p s1 m1 H).
    - apply bind_ok in H as ([p s1] & H & [= <- <-]). apply (M_fopen d f s [] p s1 m H).
    - apply bind_ok in H as ([p s1] & H & [= <- <-]). unfold filename_resolve in H. cbn in RC.
      rewrite rooted_absolute in H. destruct (rooted f); [|discriminate]. destruct (readable f); [|discriminate].
      injection H as <- <-. exact m.
    - destruct (readable f); [|discriminate]. injection H as <- <-. exact m.
    - injection H as <- <-. exact m.
  Qed.

  Lemma M_run : forall l d s o s', existsb relative_cert l = false -> M d s [] -> run l s = Ok (o, s') -> M (in_effect d l) s' [].
  Proof.
    induction l as [|x l IH]; intros d s o s' RC m H.
    - cbn in H. injection H as <- <-. exact m.
    - cbn [steps] in H. apply bind_ok in H as ([o1 s1] & H1 & H). apply bind_ok in H as ([o2 s2] & H2 & [= <- <-]). cbn [fst snd] in *.
      cbn in RC. apply orb_false_iff in RC as [R1 R2]. rewrite in_effect_cons. apply (IH _ s1 o2 s2 R2); [|exact H2].
      apply (M_step x d s o1 s1 R1 m H1).
  Qed.

  (** ** The walk over the password files *)
  Variable root_jail : bool.
  Notation fixa := (fixup_auth cwd is_dir include_dir root_jail).
  Definition fix1 (f : bytes) (s : st) : out (list pwfile * st) := bind (fixa f s) (fun q => Ok ([fst q], snd q)).

  Lemma walk_app : forall A (g : A -> st -> out (list pwfile * st)) l1 l2 s,
    walk g (l1 ++ l2) s = bind (walk g l1 s) (fun q => bind (walk g l2 (snd q)) (fun r => Ok (fst q ++ fst r, snd r))).
  Proof.
    intros A g l1 l2. induction l1 as [|a l1 IH]; intros s; cbn.
    - destruct (walk g l2 s) as [[o s']| |]; reflexivity.
    - destruct (g a s) as [[o1 s1]| |]; cbn; [|reflexivity|reflexivity]. rewrite IH.
      destruct (walk g l1 s1) as [[o2 s2]| |]; cbn; [|reflexivity|reflexivity].
      destruct (walk g l2 s2) as [[o3 s3]| |]; cbn; [|reflexivity|reflexivity]. rewrite app_assoc. reflexivity.
  Qed.

  Lemma walk_flat : forall A (g : A -> st -> out (list pwfile * st)) (h : A -> list bytes) l s,
    (forall a, In a l -> forall s, g a s = walk fix1 (h a) s) -> walk g l s = walk fix1 (flat_map h l) s.
  Proof.
    intros A g h l. induction l as [|a l IH]; intros s E; [reflexivity|]. cbn [flat_map]. rewrite walk_app. cbn [walk].
    rewrite (E a (or_introl eq_refl)). destruct (walk fix1 (h a) s) as [[o1 s1]| |]; cbn; [|reflexivity|reflexivity].
    rewrite <- IH by (intros b I; apply E; right; exact I). reflexivity.
  Qed.

  Lemma fixup_cond_walk : forall c s, fixup_cond cwd is_dir include_dir root_jail c s = walk fix1 (auths c) s.
  Proof.
    fix IH 1. intros [f|l|] s.
    - cbn. unfold fix1. destruct (fixa f s) as [[p s1]| |]; reflexivity.
    - cbn [fixup_cond auths]. revert s. induction l as [|c l IHl]; intros s; [reflexivity|]. cbn [flat_map]. rewrite walk_app.
      cbn [walk]. rewrite (IH c). destruct (walk fix1 (auths c) s) as [[o1 s1]| |]; cbn; [|reflexivity|reflexivity].
      rewrite <- IHl. reflexivity.
    - reflexivity.
  Qed.

  Lemma fixup_rule_walk : forall r s, fixup_rule cwd is_dir include_dir root_jail r s = walk fix1 (rule_auths r) s.
  Proof.
    fix IH 1. intros [c sub e] s. cbn [fixup_rule rule_auths]. rewrite walk_app, fixup_cond_walk.
    destruct (walk fix1 (auths c) s) as [[o1 s1]| |]; cbn; [|reflexivity|reflexivity].
    destruct e as [r|]; cbn.
    - rewrite (IH r). destruct (walk fix1 (rule_auths r) s1) as [[o2 s2]| |]; reflexivity.
    - rewrite app_nil_r. reflexivity.
  Qed.

  Lemma fixup_service_walk : forall v s, fixup_service cwd is_dir include_dir root_jail v s = walk fix1 (service_auths v) s.
  Proof.
    intros [c rs] s. unfold fixup_service, service_auths. cbn [fst snd]. rewrite walk_app, fixup_cond_walk.
    destruct (walk fix1 (auths c) s) as [[o1 s1]| |]; cbn; [|reflexivity|reflexivity].
    rewrite (walk_flat _ _ rule_auths); [reflexivity|]. intros a _ s2. apply fixup_rule_walk.
  Qed.

  Lemma fixup_walk : forall k s, fixup cwd is_dir include_dir root_jail k s = walk fix1 (conf_auths k) s.
  Proof.
    intros k s. unfold fixup, conf_auths. rewrite walk_app.
    rewrite (walk_flat _ _ (fun l => flat_map rule_auths (fst l))).
    2: { intros a _ s1. apply walk_flat. intros b _ s2. apply fixup_rule_walk. }
    destruct (walk fix1 (flat_map (fun l => flat_map rule_auths (fst l)) (c_listeners k)) s) as [[o1 s1]| |]; cbn; [|reflexivity|reflexivity].
    rewrite walk_app. rewrite (walk_flat _ _ (fun l => flat_map service_auths (snd l))).
    2: { intros a _ s2. apply walk_flat. intros b _ s3. apply fixup_service_walk. }
    destruct (walk fix1 (flat_map (fun l => flat_map service_auths (snd l)) (c_listeners k)) s1) as [[o2 s2]| |]; cbn; [|reflexivity|reflexivity].
    rewrite (walk_flat _ _ service_auths) by (intros b _ s3; apply fixup_service_walk).
    destruct (walk fix1 (flat_map service_auths (c_services k)) s2) as [[o3 s3]| |]; reflexivity.
  Qed.

  (** What a fixed-up password file says *)
  Definition says (d : bytes) (s : st) (f : bytes) (p : pwfile) : Prop :=
    match fst p with
    | None => rooted f = true /\ root_jail = false /\ snd p = f
    | Some i => (exists w, at_ s i = Some w /\ f = (if rooted f then w_name w ++ "/"%char :: snd p else snd p)
                          /\ (rooted f = false -> w_name w = d)) /\ rooted (snd p) = false /\ (rooted f = true -> root_jail = true)
    end.

  Lemma split_last_spec : forall f d b, split_last f = Some (d, b) -> f = d ++ "/"%char :: b /\ ~ In "/"%char b.
  Proof.
    induction f as [|c f IH]; intros d b H; cbn in H; [discriminate|].
    destruct (split_last f) as [[d' b']|] eqn:E.
    - injection H as <- <-. destruct (IH d' b' eq_refl) as [-> N]. auto.
    - destruct (beq c "/"%char) eqn:C; [|discriminate]. injection H as <- <-. apply beq_eq in C. subst c. split; [reflexivity|].
      clear IH. induction f as [|a f IHf]; [intros []|]. cbn in E. destruct (split_last f) as [[? ?]|]; [discriminate|].
      destruct (beq a "/"%char) eqn:C; [discriminate|]. intros [->|I]; [rewrite beq_refl in C; discriminate|]. apply IHf; auto.
  Qed.

  Lemma split_last_some : forall f, rooted f = true -> exists d b, split_last f = Some (d, b).
  Proof.
    intros [|c f] H; [discriminate|]. rewrite <- rooted_absolute in H. cbn in H. cbn. rewrite H. destruct (split_last f) as [[d b]|]; eauto.
  Qed.

  Lemma no_slash_rooted : forall b, ~ In "/"%char b -> rooted b = false.
  Proof. intros [|c b] N; [reflexivity|]. destruct (rooted (c :: b)) eqn:E; [|reflexivity]. destruct N. left. rewrite <- rooted_absolute in E. cbn in E. apply beq_eq in E. exact E. Qed.

  Lemma cnt_app : forall i a b, cnt i (a ++ b) = cnt i a + cnt i b.
  Proof. intros i a b. unfold cnt. rewrite filter_app, app_length, Nat2Z.inj_add. reflexivity. Qed.

  Lemma cnt_one : forall i j f, cnt i [(Some j, f)] = if Nat.eqb i j then 1 else 0.
  Proof. intros i j f. unfold cnt. cbn. destruct (Nat.eqb i j); reflexivity. Qed.

  (** Live directories stay live and keep their names *)
  Definition grows (s s' : st) : Prop := forall i w, at_ s i = Some w -> exists w', at_ s' i = Some w' /\ w_name w' = w_name w.

  Lemma grows_refl : forall s, grows s s.
  Proof. intros s i w H. eauto. Qed.
  Lemma grows_trans : forall a b c, grows a b -> grows b c -> grows a c.
  Proof. intros a b c G1 G2 i w H. destruct (G1 i w H) as (w1 & H1 & E1). destruct (G2 i w1 H1) as (w2 & H2 & E2). exists w2. split; [exact H2|congruence]. Qed.

  Lemma get_grows : forall nm s id s', B s -> get nm s = Some (id, s') -> grows s s'.
  Proof.
    intros nm s id s' b H. destruct (get_spec nm s id s' b H) as (_ & _ & _ & F & w & A & N & C). intros i v Hv.
    destruct (Nat.eq_dec i id) as [e|e]; [|exists v; rewrite F by exact e; auto]. subst i. exists w. split; [exact A|].
    destruct C as [(_ & _ & L & _)|(w0 & A0 & N0 & _)]; [congruence|]. rewrite A0 in Hv. injection Hv as <-. congruence.
  Qed.

  Lemma add_ref_grows : forall n id s, grows s (add_ref n id s).
  Proof. intros n id s i w H. rewrite at_add_ref, H. cbn. destruct (Nat.eqb i id); eauto. Qed.

  Lemma getinc_grows : forall s id s', B s -> getinc s = Some (id, s') -> grows s s'.
  Proof.
    intros s id s' b H. unfold get_include_wd in H. destruct (s_inc s) as [i|].
    - injection H as <- <-. apply grows_refl.
    - destruct (get include_dir s) as [[i s1]|] eqn:G; [|discriminate]. injection H as <- <-. apply (get_grows _ _ _ _ b G).
  Qed.

  Lemma M_fix : forall d f s ps p s', M d s ps -> fixa f s = Ok (p, s') ->
    M d s' (ps ++ [p]) /\ says d s' f p /\ grows s s'.
  Proof.
    intros d f s ps p s' m H. unfold fixup_auth in H. rewrite rooted_absolute in H. destruct (rooted f) eqn:R.
    - destruct root_jail eqn:RJ.
      + destruct (split_last_some f R) as (dir & base & E). rewrite E in H. destruct (split_last_spec f dir base E) as [Ef N].
        destruct (get (Some dir) s) as [[id s1]|] eqn:G; [|discriminate]. injection H as <- <-.
        destruct (M_get d _ s ps id s1 m G) as (j1 & Ei & m1 & m2 & w & A & Nw).
        assert (Hd : forall k, held s1 k = held s k) by (intros k; unfold held; rewrite Ei; reflexivity).
        split; [|split].
        * split; [exact j1|]. split.
          -- intros k u Hu. rewrite cnt_app, cnt_one, Hd. pose proof (m1 k u Hu). lia.
          -- intros k Q. rewrite cnt_app, cnt_one, Hd in Q. destruct (Nat.eqb_spec k id) as [e|e]; [subst k; congruence|]. apply m2. lia.
        * unfold says. cbn [fst snd]. split; [|split; [apply no_slash_rooted; exact N|auto]].
          exists w. split; [exact A|]. rewrite R. split; [rewrite Nw; exact Ef|discriminate].
        * apply (get_grows _ _ _ _ (proj1 (proj1 m)) G).
      + injection H as <- <-. split; [|split; [|apply grows_refl]].
        * destruct m as (j & m1 & m2). split; [exact j|]. split; intros k; rewrite cnt_app; unfold cnt at 2; cbn [filter fst List.length].
          -- intros u Hu. pose proof (m1 k u Hu). lia.
          -- intros Q. apply m2. lia.
        * unfold says. cbn. auto.
    - destruct (getinc s) as [[id s1]|] eqn:G; [|discriminate].
      destruct (M_getinc d s ps id s1 m G) as (m1 & Ei & w & A & N). rewrite A in H. injection H as <- <-.
      split; [|split].
      + destruct m1 as (j & m1 & m2). split; [apply J_add_ref; exact j|].
        assert (Hd : forall k, held (add_ref 1 id s1) k = held s1 k) by reflexivity.
        split.
        * intros k u. rewrite at_add_ref, cnt_app, cnt_one, Hd. destruct (at_ s1 k) as [v|] eqn:V; [|discriminate]. cbn. intros [= <-].
          pose proof (m1 k v V). destruct (Nat.eqb k id); cbn; lia.
        * intros k Q. rewrite cnt_app, cnt_one, Hd in Q. rewrite at_add_ref.
          destruct (at_ s1 k) as [v|] eqn:V; [discriminate|]. exfalso. destruct (Nat.eqb_spec k id) as [e|e]; [subst k; congruence|].
          apply (m2 k); [lia|exact V].
      + unfold says. cbn [fst snd]. split; [|split; [exact R|discriminate||(rewrite R; discriminate)]].
        exists (bump 1 w). rewrite at_add_ref, A, Nat.eqb_refl. split; [reflexivity|]. rewrite R. auto.
      + apply (grows_trans _ s1); [apply (getinc_grows _ _ _ (proj1 (proj1 m)) G)|apply add_ref_grows].
  Qed.

  Lemma says_grows : forall d s s' f p, grows s s' -> says d s f p -> says d s' f p.
  Proof.
    intros d s s' f p G H. unfold says in *. destruct (fst p) as [i|]; [|exact H]. destruct H as ((w & A & E & N) & R & J').
    split; [|split; assumption]. destruct (G i w A) as (w' & A' & Nw). exists w'. rewrite Nw. auto.
  Qed.

  Lemma M_walk : forall fs d s ps o s', M d s ps -> walk fix1 fs s = Ok (o, s') ->
    M d s' (ps ++ o) /\ Forall2 (says d s') fs o /\ grows s s'.
  Proof.
    induction fs as [|f fs IH]; intros d s ps o s' m H; cbn in H.
    - injection H as <- <-. rewrite app_nil_r. split; [exact m|]. split; [constructor|apply grows_refl].
    - apply bind_ok in H as ([o1 s1] & H1 & H). apply bind_ok in H as ([o2 s2] & H2 & [= <- <-]). cbn [fst snd] in *.
      unfold fix1 in H1. apply bind_ok in H1 as ([p s3] & H1 & [= <- <-]). cbn [fst snd] in *.
      destruct (M_fix d f s ps p s3 m H1) as (m1 & Sp & G1).
      destruct (IH d s3 (ps ++ [p]) o2 s2 m1 H2) as (m2 & F & G2). rewrite <- app_assoc in m2. cbn [app] in *.
      split; [exact m2|]. split; [|apply (grows_trans _ s3); assumption]. constructor; [|exact F]. apply (says_grows d s3); assumption.
  Qed.

  (** ** The end of the reading *)

  Lemma at_keep : forall (keepwd : bool) l i,
    NoDup (map w_id l) ->
    find (fun w => Nat.eqb (w_id w) i) (map (fun w => if w_cwd w && keepwd then mkWd (w_id w) (w_name w) (w_ref w) false else w)
                    (filter (fun w => negb (w_ref w =? 0)) l))
    = match find (fun w => Nat.eqb (w_id w) i) l with
      | Some w => if w_ref w =? 0 then None else Some (if w_cwd w && keepwd then mkWd (w_id w) (w_name w) (w_ref w) false else w)
      | None => None
      end.
  Proof.
    intros keepwd l i. induction l as [|a l IH]; intros N; [reflexivity|]. inversion N as [|? ? Na Nl]; subst. cbn [filter find].
    destruct (Nat.eqb_spec (w_id a) i) as [e|e].
    - destruct (w_ref a =? 0) eqn:Z0; cbn [negb].
      + rewrite IH by exact Nl. destruct (find (fun w => Nat.eqb (w_id w) i) l) as [w|] eqn:F; [|reflexivity].
        apply find_some in F as [I E]. apply Nat.eqb_eq in E. destruct Na. rewrite e, <- E. apply in_map. exact I.
      + cbn [map find]. destruct (w_cwd a && keepwd); cbn [w_id]; subst i; rewrite Nat.eqb_refl; reflexivity.
    - destruct (w_ref a =? 0); cbn [negb]; [apply IH; exact Nl|]. cbn [map find].
      destruct (w_cwd a && keepwd); cbn [w_id]; (destruct (Nat.eqb_spec (w_id a) i); [contradiction|apply IH; exact Nl]).
  Qed.

  Definition kept (keepwd : bool) (w : wd) : wd := if w_cwd w && keepwd then mkWd (w_id w) (w_name w) (w_ref w) false else w.

  Lemma finish_at : forall keepwd s s', B s -> cfgparser_finish keepwd s = Ok s' ->
    (forall i, at_ s' i = match at_ s i with
                          | Some w => if w_ref w - held s i =? 0 then None else Some (kept keepwd (bump (- held s i) w))
                          | None => None end) /\
    s_inc s' = match s_inc s with
               | None => None
               | Some j => match at_ s j with Some w => if w_ref w - 1 =? 0 then None else Some j | None => None end
               end.
  Proof.
    intros keepwd s s' b H. unfold cfgparser_finish in H. apply bind_ok in H as (s1 & H1 & [= <-]).
    assert (X : B s1 /\ (forall i, at_ s1 i = option_map (bump (- held s i)) (at_ s i)) /\
                s_inc s1 = match s_inc s with None => None | Some j => match at_ s j with Some w => if w_ref w - 1 =? 0 then None else Some j | None => None end end).
    { destruct (s_inc s) as [j|] eqn:Si.
      - rewrite at_add_ref in H1. destruct (at_ s j) as [w|] eqn:A; [|discriminate]. cbn in H1. rewrite Nat.eqb_refl in H1. cbn in H1.
        assert (Y : forall i, at_ (add_ref (-1) j s) i = option_map (bump (- held s i)) (at_ s i)).
        { intros i. rewrite at_add_ref. unfold held. rewrite Si. destruct (at_ s i) as [v|]; [|reflexivity]. cbn. destruct (Nat.eqb i j); [reflexivity|].
          unfold bump. destruct v as [a b0 c d0]. cbn. f_equal. f_equal. lia. }
        change (w_ref w + -1) with (w_ref w - 1) in H1. destruct (w_ref w - 1 =? 0); injection H1 as <-.
        + split; [apply B_set_inc; [apply B_add_ref; exact b|discriminate]|]. split; [exact Y|reflexivity].
        + split; [apply B_add_ref; exact b|]. split; [exact Y|exact Si].
      - injection H1 as <-. split; [exact b|]. split; [|exact Si]. intros i. unfold held. rewrite Si. destruct (at_ s i) as [[a b0 c d0]|]; [|reflexivity]. cbn. unfold bump. cbn. f_equal. f_equal. lia. }
    destruct X as (b1 & X1 & X2). split; [|exact X2].
    intros i. unfold at_ at 1. cbn [s_head]. rewrite at_keep by (apply b_nd; exact b1).
    change (find (fun w => Nat.eqb (w_id w) i) (s_head s1)) with (at_ s1 i). rewrite X1.
    destruct (at_ s i) as [w|]; [|reflexivity]. cbn [option_map bump w_ref]. change (w_ref w + - held s i) with (w_ref w - held s i).
    destruct (w_ref w - held s i =? 0); reflexivity.
  Qed.

  Variable jail : bytes.
  Variable daemonize detached : bool.
  Hypothesis DT : detached = true -> daemonize = true.
  Notation ppath := (password_path cwd root_jail jail detached).

  Lemma kept_cwd : forall w, (w_cwd w = true -> w_name w = cwd) ->
    (if w_cwd (kept (root_jail || daemonize) w) then cwd_now cwd root_jail jail detached else w_name (kept (root_jail || daemonize) w)) = w_name w.
  Proof.
    intros w C. unfold kept. destruct (w_cwd w) eqn:E; cbn [andb].
    - destruct (root_jail || daemonize) eqn:K; cbn; [reflexivity|]. rewrite E. apply orb_false_iff in K as [K1 K2]. unfold cwd_now. rewrite K1.
      destruct detached; [rewrite (DT eq_refl) in K2; discriminate|]. symmetry. apply C. reflexivity.
    - rewrite E. reflexivity.
  Qed.

  Lemma password_done : forall d s ps s' f p, M d s ps -> In p ps -> says d s f p ->
    cfgparser_finish (root_jail || daemonize) s = Ok s' -> ppath s' p = Ok (lookup d f).
  Proof.
    intros d s ps s' f p (j & m1 & m2) I Sp H. destruct (finish_at _ s s' (proj1 j) H) as [F1 F2].
    unfold password_path. destruct p as [[i|] g]; cbn [fst snd] in *.
    - unfold says in Sp. cbn [fst snd] in Sp. destruct Sp as ((w & A & E & N) & R & RJ).
      assert (C : 1 <= cnt i ps).
      { apply in_split in I as (l1 & l2 & ->). change ((Some i, g) :: l2) with ([(Some i, g)] ++ l2). rewrite !cnt_app, cnt_one, Nat.eqb_refl.
        pose proof (cnt_nonneg i l1). pose proof (cnt_nonneg i l2). lia. }
      rewrite F1, A. pose proof (m1 i w A) as Q. destruct (w_ref w - held s i =? 0) eqn:Z0; [lia|].
      rewrite rooted_absolute, R. rewrite kept_cwd.
      2: { cbn. apply at_in in A as [Iw _]. apply (b_cwd s (proj1 j) w Iw). }
      cbn [bump w_name]. unfold lookup. destruct (rooted f) eqn:Rf.
      + rewrite E at 1. reflexivity.
      + rewrite N by reflexivity. rewrite E. reflexivity.
    - unfold says in Sp. cbn [fst snd] in Sp. destruct Sp as (Rf & RJ & ->).
      assert (X : lookup d f = f) by (unfold lookup; rewrite Rf; reflexivity). rewrite rooted_absolute, Rf, X. unfold root. rewrite RJ.
      destruct (s_inc s') as [k|] eqn:Sk; [|reflexivity].
      destruct (s_inc s) as [q|] eqn:Sq; [|discriminate]. destruct (at_ s q) as [w|] eqn:A; [|discriminate].
      destruct (w_ref w - 1 =? 0) eqn:Z0; [discriminate|]. injection F2 as ->. rewrite F1, A. unfold held. rewrite Sq, Nat.eqb_refl, Z0. reflexivity.
  Qed.

  Notation start := (parse_config_file cwd is_dir readable include_dir root_jail daemonize).

  Lemma start_inv : forall file l k o pw s, start file l k = Ok (o, pw, s) ->
    exists o1 s1 s2, run l s0 = Ok (o1, s1) /\ o = lookup cwd file :: o1 /\ walk fix1 (conf_auths k) s1 = Ok (fst pw, s2) /\
      cfgparser_finish (root_jail || daemonize) s2 = Ok s /\ snd pw = inner k.
  Proof.
    intros file l k o pw s H. unfold parse_config_file in H. apply bind_ok in H as ([p sa] & H1 & H).
    apply opened in H1 as [-> ->]. cbn [fst snd] in H. apply bind_ok in H as ([o1 s1] & H2 & H). cbn [fst snd] in H.
    apply bind_ok in H as ([ps s2] & H3 & H). cbn [fst snd] in H. apply bind_ok in H as (s3 & H4 & [= <- <- <-]).
    rewrite fixup_walk in H3. exists o1, s1, s2. cbn. auto.
  Qed.

  Lemma files : forall file l k o pw s, start file l k = Ok (o, pw, s) -> o = lookup cwd file :: expected dflt l.
  Proof.
    intros file l k o pw s H. apply start_inv in H as (o1 & s1 & s2 & H & -> & _). apply (J_run l _ _ _ _ J0) in H as [-> _]. reflexivity.
  Qed.

  Lemma passwords : forall file l k o pw s, existsb relative_cert l = false -> start file l k = Ok (o, pw, s) ->
    Forall2 (fun f p => ppath s p = Ok (lookup (in_effect dflt l) f)) (conf_auths k) (fst pw).
  Proof.
    intros file l k o pw s RC H. apply start_inv in H as (o1 & s1 & s2 & H & _ & W & F & _).
    pose proof (M_run l _ _ _ _ RC M0 H) as m. destruct (M_walk _ _ _ [] _ _ m W) as (m' & Fa & _). cbn [app] in m'.
    assert (X : forall fs ps, Forall2 (says (in_effect dflt l) s2) fs ps -> incl ps (fst pw) ->
              Forall2 (fun f p => ppath s p = Ok (lookup (in_effect dflt l) f)) fs ps).
    { induction 1 as [|f p fs ps Hs _ IH]; intros I; constructor.
      - apply (password_done _ s2 (fst pw)); [exact m'|apply I; left; reflexivity|exact Hs|exact F].
      - apply IH. intros q Iq. apply I. right. exact Iq. }
    apply X; [exact Fa|]. intros q Iq. exact Iq.
  Qed.

  (** ** When everything is there *)

  Hypothesis DE : match include_dir with Some d => is_dir d = true | None => True end.

  Lemma get_some : forall nm s, match nm with Some n => is_dir n = true | None => True end -> exists id s', get nm s = Some (id, s').
  Proof.
    intros nm s D. unfold workdir_get. destruct (find _ (s_head s)) as [w|]; [eauto|]. destruct nm as [n|]; [rewrite D|]; eauto.
  Qed.

  Lemma getinc_some : forall s, exists id s', getinc s = Some (id, s').
  Proof.
    intros s. unfold get_include_wd. destruct (s_inc s) as [i|]; [eauto|]. destruct (get_some include_dir s DE) as (id & s' & ->). eauto.
  Qed.

  Lemma fopen_ok : forall d f s ps, M d s ps -> readable (lookup d f) = true ->
    exists s', fopen f s = Ok (lookup d f, s') /\ M d s' ps /\ s_inc s' <> None.
  Proof.
    intros d f s ps m R. destruct (getinc_some s) as (id & s' & G). destruct (M_getinc d s ps id s' m G) as (m' & E & w & A & N).
    exists s'. unfold fopen_include. rewrite G, A, path_lookup, N, R. split; [reflexivity|]. split; [exact m'|congruence].
  Qed.

  Lemma push_ok : forall d f s ps, M d s ps -> readable (lookup d f) = true ->
    exists s', push_input cwd is_dir readable include_dir f s = Ok (lookup d f, s') /\ M d s' ps /\ s_inc s' <> None.
  Proof.
    intros d f s ps m R. unfold push_input. rewrite rooted_absolute. destruct (rooted f) eqn:Rf.
    - assert (Q : readable f = true) by (unfold lookup in R; rewrite Rf in R; exact R). rewrite Q. apply fopen_ok; assumption.
    - destruct (getinc_some s) as (id & s' & G). destruct (M_getinc d s ps id s' m G) as (m' & E & w & A & N).
      rewrite G, A, path_lookup, N, R. apply fopen_ok; assumption.
  Qed.

  Lemma step_ok : forall x d s, relative_cert x = false -> M d s [] -> Forall (fun p => readable p = true) (expected d [x]) ->
    (forall n, x = IncludeDir n -> is_dir n = true /\ s_inc s <> None) ->
    exists o s', step1 x s = Ok (o, s') /\ (s_inc s <> None \/ touches x = true -> s_inc s' <> None).
  Proof.
    intros x d s RC m F D. destruct x as [n|f|f|f|f|f]; cbn [step].
    - destruct (D n eq_refl) as [Dn Di]. destruct (get_some (Some n) s Dn) as (id & s1 & G).
      destruct (M_get d _ s [] id s1 m G) as (_ & Ei & m1 & m2 & _).
      exists [], (set_inc (Some id) s1). split; [|cbn; congruence]. unfold includedir. rewrite G. unfold workdir_free. rewrite Ei.
      destruct (s_inc s) as [i|] eqn:Si; [|congruence].
      assert (L : at_ s1 i <> None). { apply m2. unfold held. rewrite Si, Nat.eqb_refl. pose proof (cnt_nonneg i []). lia. }
      destruct (at_ s1 i) as [v|] eqn:A; [|congruence]. pose proof (m1 i v A) as Q. unfold held in Q. rewrite Si, Nat.eqb_refl in Q. change (cnt i []) with 0 in Q.
      destruct (w_ref v =? 0) eqn:Z0; [destruct (Nat.eqb i id); lia|]. reflexivity.
    - cbn in F. inversion F; subst. destruct (push_ok d f s [] m) as (s' & -> & _ & N); [assumption|]. exists [lookup d f], s'. split; [reflexivity|auto].
    - cbn in F. inversion F; subst. destruct (fopen_ok d f s [] m) as (s' & -> & _ & N); [assumption|]. exists [lookup d f], s'. split; [reflexivity|auto].
    - cbn in F. inversion F as [|? ? R _]; subst. cbn in RC. unfold filename_resolve. rewrite rooted_absolute. unfold lookup in R. destruct (rooted f) eqn:Rf; [|discriminate].
      rewrite R. exists [f], s. split; [reflexivity|]. cbn. rewrite Rf. cbn. intuition congruence.
    - cbn in F. inversion F as [|? ? R _]; subst. rewrite R. exists [f], s. split; [reflexivity|]. cbn. intuition congruence.
    - exists [], s. split; [reflexivity|]. cbn. intuition congruence.
  Qed.

  Lemma run_ok : forall l d s, existsb relative_cert l = false -> M d s [] -> Forall (fun p => readable p = true) (expected d l) ->
    dirs_exist is_dir l ->
    (s_inc s <> None \/ forall l1 n l2, l = l1 ++ IncludeDir n :: l2 -> existsb touches l1 = true) ->
    exists o s', run l s = Ok (o, s').
  Proof.
    induction l as [|x l IH]; intros d s RC m F D C; [cbn; eauto|].
    rewrite (expected_cons x d l) in F. apply Forall_app in F as [F1 F2]. cbn in RC. apply orb_false_iff in RC as [R1 R2].
    destruct (step_ok x d s R1 m F1) as (o & s1 & H & T).
    - intros n ->. split; [apply D; left; reflexivity|]. destruct C as [C|C]; [exact C|]. specialize (C [] n l eq_refl). discriminate C.
    - pose proof (M_step x d s o s1 R1 m H) as m1. cbn [steps]. rewrite H. cbn [bind snd].
      destruct (IH _ s1 R2 m1 F2) as (o2 & s2 & H2).
      + intros n I. apply D. right. exact I.
      + destruct C as [C|C]; [left; apply T; auto|]. destruct (touches x) eqn:Tx; [left; apply T; auto|]. right.
        intros l1 n l2 E. specialize (C (x :: l1) n l2). cbn in C. rewrite Tx in C. cbn in C. apply C. rewrite E. reflexivity.
      + rewrite H2. cbn. eauto.
  Qed.

  Lemma fix_ok : forall d f s ps, M d s ps -> (root_jail = true -> rooted f = true -> forall dir b, f = dir ++ "/"%char :: b -> ~ In "/"%char b -> is_dir dir = true) ->
    exists p s', fixa f s = Ok (p, s').
  Proof.
    intros d f s ps m JD. unfold fixup_auth. rewrite rooted_absolute. destruct (rooted f) eqn:Rf.
    - destruct root_jail; [|eauto]. destruct (split_last_some f Rf) as (dir & b & E). rewrite E. destruct (split_last_spec f dir b E) as [Ef N].
      destruct (get_some (Some dir) s (JD eq_refl eq_refl dir b Ef N)) as (id & s' & ->). eauto.
    - destruct (getinc_some s) as (id & s' & G). destruct (M_getinc d s ps id s' m G) as (_ & _ & w & A & _). rewrite G, A. eauto.
  Qed.

  Lemma walk_ok : forall fs d s ps, M d s ps ->
    (forall f, In f fs -> root_jail = true -> rooted f = true -> forall dir b, f = dir ++ "/"%char :: b -> ~ In "/"%char b -> is_dir dir = true) ->
    exists o s', walk fix1 fs s = Ok (o, s').
  Proof.
    induction fs as [|f fs IH]; intros d s ps m JD; [cbn; eauto|]. cbn. unfold fix1 at 1.
    destruct (fix_ok d f s ps m (JD f (or_introl eq_refl))) as (p & s1 & H). rewrite H. cbn [bind fst snd].
    destruct (M_fix d f s ps p s1 m H) as (m1 & _ & _). destruct (IH d s1 _ m1) as (o & s2 & H2).
    - intros g I. apply JD. right. exact I.
    - rewrite H2. cbn. eauto.
  Qed.

  Lemma finish_ok : forall d s ps b, M d s ps -> exists s', cfgparser_finish b s = Ok s'.
  Proof.
    intros d s ps b m. unfold cfgparser_finish. destruct (s_inc s) as [i|] eqn:Si; [|cbn; eauto].
    rewrite at_add_ref. destruct m as (_ & _ & m2). destruct (at_ s i) as [w|] eqn:A; [cbn; eauto|].
    exfalso. apply (m2 i); [|exact A]. unfold held. rewrite Si, Nat.eqb_refl. pose proof (cnt_nonneg i ps). lia.
  Qed.

  Lemma open_ok : forall f, readable (lookup cwd f) = true -> cfgparser_open cwd is_dir readable include_dir f = Ok (lookup cwd f, s0).
  Proof.
    intros f R. unfold cfgparser_open. cbn. unfold push_input, fopen_include. cbn. rewrite !path_lookup. cbn [w_name]. rewrite R.
    rewrite rooted_absolute. destruct (rooted f) eqn:Rf; [|reflexivity]. assert (Q : readable f = true) by (unfold lookup in R; rewrite Rf in R; exact R).
    rewrite Q. reflexivity.
  Qed.

  Lemma starts : forall file l k, readable (lookup cwd file) = true ->
    existsb relative_cert l = false -> Forall (fun p => readable p = true) (expected dflt l) -> dirs_exist is_dir l ->
    (forall l1 n l2, l = l1 ++ IncludeDir n :: l2 -> existsb touches l1 = true) ->
    (forall f, In f (conf_auths k) -> root_jail = true -> rooted f = true -> forall dir b, f = dir ++ "/"%char :: b -> ~ In "/"%char b -> is_dir dir = true) ->
    exists r, start file l k = Ok r.
  Proof.
    intros file l k R RC F D C JD. unfold parse_config_file. rewrite open_ok by exact R. cbn [bind snd].
    destruct (run_ok l _ _ RC M0 F D (or_intror C)) as (o & s1 & H). rewrite H. cbn [bind snd].
    pose proof (M_run l _ _ _ _ RC M0 H) as m. rewrite fixup_walk. destruct (walk_ok (conf_auths k) _ _ _ m JD) as (ps & s2 & W). rewrite W. cbn [bind snd].
    destruct (M_walk _ _ _ _ _ _ m W) as (m' & _). destruct (finish_ok _ _ _ (root_jail || daemonize) m') as (s3 & ->). cbn. eauto.
  Qed.
End P.

Section Q.
  Variable cwd : bytes.
  Variable is_dir : bytes -> bool.
  Variable readable : bytes -> bool.
  Variable include_dir : option bytes.
  Variable root_jail daemonize : bool.
  Notation get := (workdir_get cwd is_dir).
  Notation getinc := (get_include_wd cwd is_dir include_dir).
  Notation dflt := (initial cwd include_dir).
  Notation s0 := (mkSt [mkWd 0 cwd 0 true] 1 None).
  Notation run := (steps cwd is_dir readable include_dir).
  Notation start := (parse_config_file cwd is_dir readable include_dir root_jail daemonize).
  Notation fixa := (fixup_auth cwd is_dir include_dir root_jail).
  Notation fix1 := (fix1 cwd is_dir include_dir root_jail).

  (** ** IncludeDir before anything is looked for *)

  Lemma quiet_run : forall l1 l2, existsb touches l1 = false -> Forall (fun p => readable p = true) (expected dflt l1) ->
    exists o, forall s, run (l1 ++ l2) s = bind (run l2 s) (fun r => Ok (o ++ fst r, snd r)).
  Proof.
    induction l1 as [|x l1 IH]; intros l2 T F.
    - exists []. intros s. cbn [app]. destruct (run l2 s) as [[o s']| |]; reflexivity.
    - cbn in T. apply orb_false_iff in T as [Tx T]. rewrite (expected_cons x) in F. apply Forall_app in F as [F1 F2].
      assert (E : in_effect dflt [x] = dflt) by (destruct x; try discriminate Tx; reflexivity). rewrite E in F2.
      destruct (IH l2 T F2) as (o & H).
      exists (expected dflt [x] ++ o). intros s. cbn [app steps].
      assert (S1 : step cwd is_dir readable include_dir x s = Ok (expected dflt [x], s)).
      { destruct x as [n|f|f|f|f|f]; try discriminate Tx; cbn [step].
        - cbn in Tx. apply negb_false_iff in Tx. unfold filename_resolve. rewrite rooted_absolute, Tx. cbn in F1. inversion F1 as [|? ? R _]; subst.
          unfold lookup in R. rewrite Tx in R. rewrite R. cbn. unfold lookup. rewrite Tx. reflexivity.
        - cbn in F1. inversion F1 as [|? ? R _]; subst. rewrite R. reflexivity.
        - reflexivity. }
      rewrite S1. cbn [bind fst snd]. rewrite H. destruct (run l2 s) as [[p s']| |]; cbn; [|reflexivity|reflexivity]. rewrite app_assoc. reflexivity.
  Qed.

  Lemma includedir_first : forall file l1 n l2 k, readable (lookup cwd file) = true -> existsb touches l1 = false ->
    Forall (fun p => readable p = true) (expected dflt l1) -> is_dir n = true ->
    start file (l1 ++ IncludeDir n :: l2) k = Wild.
  Proof.
    intros file l1 n l2 k R T F D. unfold parse_config_file. rewrite open_ok by exact R. cbn [bind snd].
    destruct (quiet_run l1 (IncludeDir n :: l2) T F) as (o & ->). cbn [steps step].
    unfold includedir, workdir_get. cbn. destruct (bytes_eqb cwd n); [reflexivity|]. rewrite D. reflexivity.
  Qed.

  Lemma absolute_include : forall file f l k d, include_dir = Some d -> d <> cwd -> is_dir d = false ->
    forall r, start file (Include f :: l) k <> Ok r /\ start file (File f :: l) k <> Ok r.
  Proof.
    intros file f l k d -> N D r.
    assert (G : get_include_wd cwd is_dir (Some d) s0 = None).
    { unfold get_include_wd, workdir_get. cbn. destruct (bytes_eqb cwd d) eqn:E; [apply bytes_eqb_eq in E; congruence|]. rewrite D. reflexivity. }
    split; intros H; destruct r as [[o pw] s]; apply start_inv in H as (o1 & s1 & s2 & H & _); cbn [steps step] in H;
      apply bind_ok in H as ([o2 s3] & H & _); apply bind_ok in H as ([o3 s4] & H & _).
    - unfold push_input, fopen_include in H. rewrite G in H. destruct (absolute f); [destruct (readable f)|]; discriminate.
    - unfold fopen_include in H. rewrite G in H. discriminate.
  Qed.

  (** ** Exact reference counts when there is no IncludeDir *)

  Definition R (s : st) (r : Z) : Prop :=
    (s = s0 /\ r = 1) \/ (B cwd is_dir s /\ exists i w, s_inc s = Some i /\ at_ s i = Some w /\ w_ref w = r).

  Lemma R_getinc : forall s r id s', R s r -> getinc s = Some (id, s') ->
    R s' r /\ s_inc s' = Some id /\ (s_inc s <> None -> s_inc s' = s_inc s) /\ (exists w, at_ s' id = Some w /\ w_ref w = r) /\ B cwd is_dir s'.
  Proof.
    intros s r id s' H G. destruct H as [[-> ->]|(b & i & w & Si & A & Rw)].
    - unfold get_include_wd in G. cbn [s_inc] in G. destruct (get include_dir s0) as [[j s1]|] eqn:G1; [|discriminate]. injection G as <- <-.
      destruct (get_spec cwd is_dir readable _ _ _ _ (B0 cwd is_dir readable) G1) as (b' & _ & _ & _ & w & A & _ & C).
      assert (Rw : w_ref w = 1). { destruct C as [(Q & _)|(w0 & A0 & _ & Q)]; [exact Q|]. apply at_in in A0 as [[<-|[]] _]. exact Q. }
      assert (b'' : B cwd is_dir (set_inc (Some j) s1)) by (apply B_set_inc; [exact b'|intros x [= <-]; apply (at_lt cwd is_dir _ _ _ b' A)]).
      split; [right; split; [exact b''|exists j, w; auto]|]. split; [reflexivity|]. split; [intros X; destruct X; reflexivity|]. split; [exists w; auto|exact b''].
    - unfold get_include_wd in G. rewrite Si in G. injection G as <- <-. split; [right; split; [exact b|exists i, w; auto]|]. split; [exact Si|]. split; [auto|]. split; [exists w; auto|exact b].
  Qed.

  Lemma R_step : forall x s r o s', is_includedir x = false -> R s r -> step cwd is_dir readable include_dir x s = Ok (o, s') ->
    R s' (r - if relative_cert x then 1 else 0).
  Proof.
    intros x s r o s' NI H E.
    assert (FO : forall f s r p s', R s r -> fopen_include cwd is_dir readable include_dir f s = Ok (p, s') -> R s' r).
    { clear. intros f s r p s' H E. unfold fopen_include in E. destruct (getinc s) as [[id s1]|] eqn:G; [|discriminate].
      destruct (R_getinc s r id s1 H G) as (H1 & _). destruct (at_ s1 id); [|discriminate]. destruct (readable _); [|discriminate]. injection E as <- <-. exact H1. }
    destruct x as [n|f|f|f|f|f]; cbn in E; try discriminate NI.
    - apply bind_ok in E as ([p s1] & E & [= <- <-]). cbn. rewrite Z.sub_0_r. unfold push_input in E. destruct (absolute f).
      + destruct (readable f); [|discriminate]. apply (FO f s r p s1 H E).
      + destruct (getinc s) as [[id s2]|] eqn:G; [|discriminate]. destruct (R_getinc s r id s2 H G) as (H1 & _).
        destruct (at_ s2 id); [|discriminate]. destruct (readable _); [|discriminate]. apply (FO f s2 r p s1 H1 E).
    - apply bind_ok in E as ([p s1] & E & [= <- <-]). cbn. rewrite Z.sub_0_r. apply (FO f s r p s1 H E).
    - apply bind_ok in E as ([p s1] & E & [= <- <-]). cbn [snd relative_cert]. unfold filename_resolve in E. rewrite rooted_absolute in E. destruct (rooted f); cbn [negb].
      + destruct (readable f); [|discriminate]. injection E as <- <-. rewrite Z.sub_0_r. exact H.
      + destruct (getinc s) as [[id s2]|] eqn:G; [|discriminate]. destruct (R_getinc s r id s2 H G) as (H1 & Ei & _ & (w & A & Rw) & b).
        rewrite A in E. destruct (readable _); [|discriminate]. injection E as <- <-. right. split; [apply B_add_ref; exact b|].
        exists id, (bump (-1) w). split; [exact Ei|]. rewrite at_add_ref, A, Nat.eqb_refl. split; [reflexivity|]. cbn. lia.
    - destruct (readable f); [|discriminate]. injection E as <- <-. cbn. rewrite Z.sub_0_r. exact H.
    - injection E as <- <-. cbn. rewrite Z.sub_0_r. exact H.
  Qed.

  Lemma R_run : forall l s r o s', existsb is_includedir l = false -> R s r -> run l s = Ok (o, s') ->
    R s' (r - Z.of_nat (List.length (filter relative_cert l))).
  Proof.
    induction l as [|x l IH]; intros s r o s' NI H E.
    - cbn in E. injection E as <- <-. cbn. rewrite Z.sub_0_r. exact H.
    - cbn [steps] in E. apply bind_ok in E as ([o1 s1] & E1 & E). apply bind_ok in E as ([o2 s2] & E2 & [= <- <-]). cbn [fst snd] in *.
      cbn in NI. apply orb_false_iff in NI as [N1 N2]. pose proof (R_step x s r o1 s1 N1 H E1) as H1. apply (IH _ _ _ _ N2 H1) in E2.
      cbn [filter]. destruct (relative_cert x); cbn [List.length]; [|rewrite Z.sub_0_r in E2; exact E2].
      replace (r - Z.of_nat (S (List.length (filter relative_cert l)))) with (r - 1 - Z.of_nat (List.length (filter relative_cert l))) by lia. exact E2.
  Qed.

  Lemma R_walk : forall fs s r o s', Forall (fun f => rooted f = false) fs -> R s r -> walk fix1 fs s = Ok (o, s') ->
    R s' (r + Z.of_nat (List.length fs)) /\ (s_inc s <> None -> s_inc s' = s_inc s) /\ Forall (fun p => fst p <> None /\ fst p = s_inc s') o.
  Proof.
    induction fs as [|f fs IH]; intros s r o s' F H E; cbn in E.
    - injection E as <- <-. cbn. rewrite Z.add_0_r. auto.
    - inversion F as [|? ? Rf F']; subst. apply bind_ok in E as ([o1 s1] & E1 & E). apply bind_ok in E as ([o2 s2] & E2 & [= <- <-]). cbn [fst snd] in *.
      unfold WdProofs.fix1 in E1. apply bind_ok in E1 as ([p s3] & E1 & [= <- <-]). cbn [fst snd] in *.
      unfold fixup_auth in E1. rewrite rooted_absolute, Rf in E1. destruct (getinc s) as [[id s4]|] eqn:G; [|discriminate].
      destruct (R_getinc s r id s4 H G) as (H1 & Ei & Es & (w & A & Rw) & b). rewrite A in E1. injection E1 as <- <-.
      assert (H2 : R (add_ref 1 id s4) (r + 1)).
      { right. split; [apply B_add_ref; exact b|]. exists id, (bump 1 w). split; [exact Ei|]. rewrite at_add_ref, A, Nat.eqb_refl. split; [reflexivity|]. cbn. lia. }
      destruct (IH _ _ _ _ F' H2 E2) as (H3 & Es2 & Fo). cbn [s_inc add_ref] in Es2. rewrite Ei in Es2. specialize (Es2 ltac:(discriminate)).
      split; [|split].
      + replace (r + Z.of_nat (List.length (f :: fs))) with (r + 1 + Z.of_nat (List.length fs)) by (cbn [List.length]; lia). exact H3.
      + intros Q. rewrite Es2, <- Ei. apply Es. exact Q.
      + constructor; [|exact Fo]. cbn [fst]. rewrite Es2. split; [discriminate|reflexivity].
  Qed.

  Lemma freed : forall file l k o pw s jail detached, existsb is_includedir l = false ->
    Forall (fun f => rooted f = false) (conf_auths k) ->
    List.length (filter relative_cert l) = List.length (conf_auths k) ->
    start file l k = Ok (o, pw, s) -> Forall (fun p => password_path cwd root_jail jail detached s p = Wild) (fst pw).
  Proof.
    intros file l k o pw s jail detached NI F L H. apply start_inv in H as (o1 & s1 & s2 & H & _ & W & Fi & _).
    pose proof (R_run l s0 1 o1 s1 NI (or_introl (conj eq_refl eq_refl)) H) as R1.
    destruct (R_walk _ _ _ _ _ F R1 W) as (R2 & _ & Fo). rewrite L in R2.
    replace (1 - Z.of_nat (List.length (conf_auths k)) + Z.of_nat (List.length (conf_auths k))) with 1 in R2 by lia.
    apply Forall_forall. intros p I. rewrite Forall_forall in Fo. destruct (Fo p I) as [Np Ep].
    destruct R2 as [[-> _]|(b & i & w & Si & A & Rw)]; [cbn in Ep; congruence|].
    destruct (finish_at cwd is_dir readable _ _ _ b Fi) as [F1 _]. unfold password_path. rewrite Ep, Si, F1, A. unfold held. rewrite Si, Nat.eqb_refl, Rw. reflexivity.
  Qed.

  Lemma walk_rooted : forall fs s, root_jail = false -> Forall (fun f => rooted f = true) fs -> walk fix1 fs s = Ok (map (fun f => (None, f)) fs, s).
  Proof.
    intros fs s RJ F. induction F as [|f fs Rf F IH]; [reflexivity|]. cbn [walk]. assert (E1 : fix1 f s = Ok ([(None, f)], s)) by (unfold WdProofs.fix1, fixup_auth; rewrite rooted_absolute, Rf, RJ; reflexivity).
    rewrite E1. cbn [bind fst snd]. rewrite IH. reflexivity.
  Qed.

  Lemma nested : forall file l k o pw s jail detached f, existsb is_includedir l = false -> existsb relative_cert l = false ->
    (root_jail = false \/ conf_auths k = []) -> Forall (fun f => rooted f = true) (conf_auths k) ->
    start file l k = Ok (o, pw, s) -> In (None, f) (snd pw) -> rooted f = false ->
    password_path cwd root_jail jail detached s (None, f) = Ok (cwd_now cwd root_jail jail detached ++ "/"%char :: f).
  Proof.
    intros file l k o pw s jail detached f NI RC RJ F H _ Rf. apply start_inv in H as (o1 & s1 & s2 & H & _ & W & Fi & _).
    pose proof (R_run l s0 1 o1 s1 NI (or_introl (conj eq_refl eq_refl)) H) as R1.
    assert (N0 : filter relative_cert l = []).
    { clear - RC. induction l as [|x l IH]; [reflexivity|]. cbn in *. apply orb_false_iff in RC as [-> RC]. apply IH. exact RC. }
    rewrite N0 in R1. cbn [List.length Z.of_nat] in R1. rewrite Z.sub_0_r in R1.
    assert (E : s2 = s1).
    { destruct RJ as [RJ|RJ].
      - rewrite (walk_rooted _ _ RJ F) in W. injection W as _ <-. reflexivity.
      - rewrite RJ in W. cbn in W. injection W as _ <-. reflexivity. }
    subst s2. unfold password_path. cbn [fst snd]. rewrite rooted_absolute, Rf.
    assert (X : s_inc s = None).
    { destruct R1 as [[-> _]|(b & i & w & Si & A & Rw)].
      - destruct (finish_at cwd is_dir readable _ _ _ (B0 cwd is_dir readable) Fi) as [_ F2]. exact F2.
      - destruct (finish_at cwd is_dir readable _ _ _ b Fi) as [_ F2]. rewrite F2, Si, A, Rw. reflexivity. }
    rewrite X. reflexivity.
  Qed.

  (** ** RootJail and files in the root directory *)

  Lemma B_walk : forall fs s o s', B cwd is_dir s -> walk fix1 fs s = Ok (o, s') ->
    B cwd is_dir s' /\ forall f, In f fs -> exists s1 r, B cwd is_dir s1 /\ fixa f s1 = Ok r.
  Proof.
    induction fs as [|f fs IH]; intros s o s' b E; cbn in E.
    - injection E as <- <-. split; [exact b|intros f []].
    - apply bind_ok in E as ([o1 s1] & E1 & E). apply bind_ok in E as ([o2 s2] & E2 & [= <- <-]). cbn [fst snd] in *.
      unfold WdProofs.fix1 in E1. apply bind_ok in E1 as ([p s3] & E1 & [= <- <-]). cbn [fst snd] in *.
      assert (b3 : B cwd is_dir s3).
      { pose proof E1 as Q. unfold fixup_auth in Q. destruct (absolute f).
        - destruct root_jail; [|injection Q as _ <-; exact b]. destruct (split_last f) as [[d ba]|]; [|injection Q as _ <-; exact b].
          destruct (get (Some d) s) as [[id s4]|] eqn:G; [|discriminate]. injection Q as _ <-. apply (get_spec cwd is_dir readable _ _ _ _ b G).
        - destruct (getinc s) as [[id s4]|] eqn:G; [|discriminate]. destruct (at_ s4 id); [|discriminate]. injection Q as _ <-. apply B_add_ref.
          unfold get_include_wd in G. destruct (s_inc s) as [i|]; [injection G as <- <-; exact b|].
          destruct (get include_dir s) as [[i s5]|] eqn:G1; [|discriminate]. injection G as <- <-.
          destruct (get_spec cwd is_dir readable _ _ _ _ b G1) as (b5 & _ & _ & _ & w1 & A0 & _). apply B_set_inc; [exact b5|]. intros x [= <-]. apply (at_lt cwd is_dir _ _ _ b5 A0). }
      destruct (IH _ _ _ b3 E2) as [b2 X]. split; [exact b2|]. intros g [<-|I]; [exists s, (p, s3); auto|apply X; exact I].
  Qed.

  Lemma jail_root : forall file l k base, root_jail = true -> is_dir [] = false -> cwd <> [] -> ~ In "/"%char base ->
    In ("/"%char :: base) (conf_auths k) -> forall r, start file l k <> Ok r.
  Proof.
    intros file l k base RJ D C N I [[o pw] s] H. apply start_inv in H as (o1 & s1 & s2 & H & _ & W & _).
    apply (J_run cwd is_dir readable include_dir l _ _ _ _ (J0 cwd is_dir readable include_dir)) in H as [_ [b _]].
    destruct (B_walk _ _ _ _ b W) as [_ X]. destruct (X _ I) as (s3 & r & b3 & Fx). unfold fixup_auth in Fx. cbn [absolute] in Fx. rewrite beq_refl, RJ in Fx.
    assert (E : split_last ("/"%char :: base) = Some ([], base)).
    { cbn [split_last]. assert (Q : split_last base = None). { clear - N. induction base as [|c b IH]; [reflexivity|]. cbn. rewrite IH by (intros I; apply N; right; exact I).
        destruct (beq c "/"%char) eqn:E; [|reflexivity]. apply beq_eq in E. destruct N. left. exact E. }
      rewrite Q, beq_refl. reflexivity. }
    rewrite E in Fx. destruct (get (Some []) s3) as [[id s4]|] eqn:G; [|discriminate].
    unfold workdir_get in G. destruct (find (fun w => bytes_eqb (w_name w) []) (s_head s3)) as [w|] eqn:Fi.
    - apply find_some in Fi as [Iw Ew]. apply bytes_eqb_eq in Ew. destruct (b_name _ _ _ b3 w Iw) as [Q|Q]; congruence.
    - rewrite D in G. discriminate.
  Qed.
End Q.

Section O.
  Variable stat : bytes -> what.

  Lemma cut_spec : forall s a v, cut_eq s = (a, v) -> s = a ++ match v with Some v => "="%char :: v | None => [] end.
  Proof.
    induction s as [|c s IH]; intros a v H; cbn in H.
    - injection H as <- <-. reflexivity.
    - destruct (beq c "=") eqn:E.
      + injection H as <- <-. apply beq_eq in E. subst. reflexivity.
      + destruct (cut_eq s) as [a' v'] eqn:C. injection H as <- <-. cbn. rewrite (IH _ _ eq_refl) at 1. reflexivity.
  Qed.

  Lemma cut_dir : forall v, cut_eq (lit "include-dir=" ++ v) = (lit "include-dir", Some v).
  Proof. intros v. reflexivity. Qed.

  Lemma dir_value : forall v o o', set_include_dir stat true (Some v) o = Some o' <-> means stat (lit "include-dir=" ++ v) o o'.
  Proof.
    intros v [d w i] o'. split.
    - intros H. cbn in H. destruct v as [|c v]; [injection H as <-; constructor; auto|]. remember (c :: v) as x eqn:X.
      assert (H' : (if bytes_eqb x (lit ".") then Some (mkF d w None) else match stat x with A_dir => Some (mkF d w (Some x)) | _ => None end) = Some o') by (subst x; exact H).
      clear H. destruct (bytes_eqb x (lit ".")) eqn:E.
      + apply bytes_eqb_eq in E. injection H' as <-. constructor. auto.
      + apply bytes_eqb_neq in E. destruct (stat x) eqn:ST; try discriminate. injection H' as <-. constructor; [subst x; discriminate|exact E|exact ST].
    - intros H. remember (lit "include-dir=" ++ v) as a eqn:A. remember (mkF d w i) as o eqn:O. destruct H; try discriminate A; apply app_inv_head in A; subst.
      + destruct H as [-> | ->]; reflexivity.
      + injection O as -> -> ->. unfold set_include_dir. destruct v as [|c v]; [congruence|]. apply bytes_eqb_neq in H0. cbn [f_dns f_warn]. rewrite H0, H1. reflexivity.
  Qed.

  Lemma feature_means : forall a o o', feature_set stat a o = Some o' <-> means stat a o o'.
  Proof.
    intros a o o'. split.
    - intros H. unfold feature_set in H. destruct (cut_eq a) as [n v] eqn:C. apply cut_spec in C. destruct v as [v|].
      + cbv zeta iota in H. destruct (bytes_eqb n (lit "dns")); [discriminate|]. destruct (bytes_eqb n (lit "include-dir")) eqn:E.
        * apply bytes_eqb_eq in E. subst n. apply dir_value in H. rewrite C.
          replace (lit "include-dir" ++ "="%char :: v) with (lit "include-dir=" ++ v) by reflexivity. exact H.
        * destruct (bytes_eqb n (lit "warn-deprecated")); discriminate.
      + rewrite app_nil_r in C. subst n. destruct o as [d w i].
        destruct (bytes_eqb (firstn 3 a) (lit "no-")) eqn:F.
        * apply bytes_eqb_eq in F. assert (A : a = lit "no-" ++ skipn 3 a) by (rewrite <- F; symmetry; apply firstn_skipn). cbv zeta in H. cbn [negb f_dns f_warn f_dir set_include_dir] in H.
          remember (skipn 3 a) as n eqn:N. clear N F. subst a.
          destruct (bytes_eqb n (lit "dns")) eqn:E1; [apply bytes_eqb_eq in E1; subst n; injection H as <-; apply m_no_dns|].
          destruct (bytes_eqb n (lit "include-dir")) eqn:E2; [apply bytes_eqb_eq in E2; subst n; injection H as <-; apply m_no_dir|].
          destruct (bytes_eqb n (lit "warn-deprecated")) eqn:E3; [apply bytes_eqb_eq in E3; subst n; injection H as <-; apply m_no_warn|discriminate].
        * cbv zeta in H. cbn [negb f_dns f_warn f_dir set_include_dir] in H.
          destruct (bytes_eqb a (lit "dns")) eqn:E1; [apply bytes_eqb_eq in E1; subst a; injection H as <-; apply m_dns|].
          destruct (bytes_eqb a (lit "include-dir")) eqn:E2; [discriminate|].
          destruct (bytes_eqb a (lit "warn-deprecated")) eqn:E3; [apply bytes_eqb_eq in E3; subst a; injection H as <-; apply m_warn|discriminate].
    - intros H. destruct H; try reflexivity.
      + change (set_include_dir stat true (Some v) (mkF d w i) = Some (mkF d w None)). apply dir_value. apply m_here. assumption.
      + change (set_include_dir stat true (Some v) (mkF d w i) = Some (mkF d w (Some v))). apply dir_value. apply m_dir; assumption.
  Qed.

  Lemma options_mean : forall l o o', options stat l o = Some o' <-> mean stat l o o'.
  Proof.
    induction l as [|a l IH]; intros o o'; cbn.
    - split; [intros [= <-]; constructor|intros H; inversion H; reflexivity].
    - split.
      + destruct (feature_set stat a o) as [o1|] eqn:F; [|discriminate]. intros H. apply feature_means in F. apply IH in H. econstructor; eassumption.
      + intros H. inversion H as [|? ? ? o1 ? H1 H2]; subst. apply feature_means in H1. rewrite H1. apply IH. exact H2.
  Qed.
End O.
