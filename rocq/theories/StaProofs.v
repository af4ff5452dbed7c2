(** Proofs about the start and the end of pound (C76, C77, C78). *)
From Coq Require Import Ascii String List ZArith Bool Lia.
From Verif Require Import Bytes StaModel StaSpec.
Import ListNotations.
Local Open Scope string_scope.
Local Open Scope list_scope.
Local Open Scope Z_scope.

(** * Equality *)
Lemma bytes_eqb_eq a b : bytes_eqb a b = true <-> a = b.
Proof.
  revert b; induction a as [|x a IH]; intros [|y b]; cbn [bytes_eqb]; try (split; congruence).
  rewrite andb_true_iff, IH. unfold beq. rewrite Ascii.eqb_eq. split; [intros [-> ->]; reflexivity|].
  intros E; inversion E; auto.
Qed.

Lemma path_eqb_eq p q : path_eqb p q = true <-> p = q.
Proof.
  revert q; induction p as [|x p IH]; intros [|y q]; cbn [path_eqb]; try (split; congruence).
  rewrite andb_true_iff, IH, bytes_eqb_eq. split; [intros [-> ->]; reflexivity|].
  intros E; inversion E; auto.
Qed.

Lemma path_eqb_refl p : path_eqb p p = true.
Proof. apply path_eqb_eq; reflexivity. Qed.

Lemma put_same p n f : put p n f p = n.
Proof. unfold put. rewrite path_eqb_refl. reflexivity. Qed.

Lemma put_other p n f q : p <> q -> put p n f q = f q.
Proof.
  intros H. unfold put. destruct (path_eqb p q) eqn:E; [|reflexivity].
  apply path_eqb_eq in E. contradiction.
Qed.

(** * Names *)
Lemma beq_slash_false c : c <> "/"%char -> beq c "/"%char = false.
Proof. intros H. unfold beq. apply Ascii.eqb_neq. exact H. Qed.

Lemma comps_noslash b : forall cur, ~ In "/"%char b -> comps cur b = match cur ++ b with [] => [] | x => [x] end.
Proof.
  induction b as [|c b IH]; intros cur H; cbn [comps].
  - rewrite app_nil_r. destruct cur; reflexivity.
  - rewrite beq_slash_false by (intros ->; apply H; left; reflexivity).
    rewrite IH by (intros K; apply H; right; exact K).
    rewrite <- app_assoc. reflexivity.
Qed.

Lemma comps_app d : forall cur b, comps cur (d ++ "/"%char :: b) = comps cur d ++ comps [] b.
Proof.
  induction d as [|c d IH]; intros cur b; cbn [app comps].
  - change (beq "/"%char "/"%char) with true. cbn iota. destruct cur; reflexivity.
  - destruct (beq c "/"%char) eqn:E.
    + destruct cur; rewrite IH; reflexivity.
    + apply IH.
Qed.

Lemma last_slash_some s : forall d b, last_slash s = Some (d, b) -> s = d ++ "/"%char :: b /\ ~ In "/"%char b.
Proof.
  induction s as [|c s IH]; intros d b; cbn [last_slash]; [discriminate|].
  destruct (last_slash s) as [[d' b']|] eqn:E.
  - intros H; inversion H; subst; clear H. destruct (IH _ _ eq_refl) as [-> N]. split; [reflexivity|exact N].
  - destruct (beq c "/"%char) eqn:B; [|discriminate].
    intros H; inversion H; subst; clear H. unfold beq in B. apply Ascii.eqb_eq in B. subst c. split; [reflexivity|].
    clear IH. induction b as [|x b IH]; [intros []|].
    cbn [last_slash] in E. destruct (last_slash b) as [[? ?]|]; [discriminate|].
    destruct (beq x "/"%char) eqn:X; [discriminate|]. intros [->|K]; [discriminate X|]. exact (IH eq_refl K).
Qed.

Lemma last_slash_none s : last_slash s = None -> ~ In "/"%char s.
Proof.
  induction s as [|x s IH]; intros E; [intros []|].
  cbn [last_slash] in E. destruct (last_slash s) as [[? ?]|]; [discriminate|].
  destruct (beq x "/"%char) eqn:X; [discriminate|]. intros [->|K]; [discriminate X|]. exact (IH eq_refl K).
Qed.

Lemma last_slash_top b : ~ In "/"%char b -> last_slash ("/"%char :: b) = Some ([], b).
Proof.
  intros H. cbn [last_slash]. destruct (last_slash b) as [[d' b']|] eqn:E.
  - apply last_slash_some in E. destruct E as [-> _]. exfalso; apply H. apply in_or_app; right; left; reflexivity.
  - reflexivity.
Qed.

(** The place of a name ends in its last part *)
Lemma comps_base s : basename s <> [] -> exists d, comps [] s = d ++ [basename s].
Proof.
  unfold basename. destruct (last_slash s) as [[d b]|] eqn:E; intros H.
  - apply last_slash_some in E. destruct E as [-> N]. rewrite comps_app, (comps_noslash b) by exact N.
    exists (comps [] d). destruct b; [contradiction|]. reflexivity.
  - apply last_slash_none in E. exists []. rewrite comps_noslash by exact E. destruct s; [contradiction|]. reflexivity.
Qed.

Lemma place_base p s : basename s <> [] -> place p s = removelast (place p s) ++ [basename s].
Proof.
  intros H. destruct (comps_base s H) as [d E]. unfold place. rewrite E, app_assoc.
  rewrite removelast_last. reflexivity.
Qed.

Lemma absolute_app d x : d <> [] -> absolute (d ++ x) = absolute d.
Proof. destruct d; [contradiction|reflexivity]. Qed.

(** The directory of a name with a slash that is not its first byte *)
Lemma place_dir p s d b : last_slash s = Some (d, b) -> d <> [] -> b <> [] -> place p s = place p d ++ [b].
Proof.
  intros E D B. apply last_slash_some in E. destruct E as [-> N]. unfold place.
  rewrite absolute_app by exact D. rewrite comps_app, (comps_noslash b) by exact N.
  cbn [app]. destruct b; [contradiction|]. rewrite app_assoc. reflexivity.
Qed.

Lemma place_plain p s : last_slash s = None -> s <> [] -> place p s = cwd p ++ [s].
Proof.
  intros E H. apply last_slash_none in E. unfold place. rewrite comps_noslash by exact E.
  destruct s as [|c s]; [contradiction|]. cbn [app absolute].
  rewrite beq_slash_false by (intros ->; apply E; left; reflexivity). reflexivity.
Qed.

Lemma last_cons_irrel (A : Type) (l : list A) (x d d' : A) : last (x :: l) d = last (x :: l) d'.
Proof. revert x; induction l as [|y l IH]; intros x; [reflexivity|]. cbn [last]. apply (IH y). Qed.

Lemma file_name_base s : file_name s -> basename s <> [].
Proof.
  intros [H L]. unfold basename. destruct (last_slash s) as [[d b]|] eqn:E; [|exact H].
  apply last_slash_some in E. destruct E as [-> N]. intros ->. apply L.
  rewrite last_last. reflexivity.
Qed.

Lemma base_file_name s : basename s <> [] -> file_name s.
Proof.
  unfold basename. destruct (last_slash s) as [[d b]|] eqn:E; intros H.
  - apply last_slash_some in E. destruct E as [-> N]. split; [destruct d; discriminate|].
    intros L. destruct b as [|x b] using rev_ind; [contradiction|].
    rewrite app_comm_cons, app_assoc, last_last in L. subst x. apply N. apply in_or_app. right. left. reflexivity.
  - split; [exact H|]. apply last_slash_none in E. intros L. destruct s as [|x s] using rev_ind; [contradiction|].
    rewrite last_last in L. subst x. apply E. apply in_or_app. right. left. reflexivity.
Qed.

(** * Removing *)
Lemma remove_other p d b f q : q <> d ++ [b] -> remove p d b f q = f q.
Proof.
  intros H. unfold remove. destruct b as [|c b]; [reflexivity|].
  destruct (may_write p (f d)); [|reflexivity].
  destruct (f (d ++ [c :: b])) as [[| |]|]; try reflexivity; apply put_other; congruence.
Qed.

Lemma remove_dir p d b f q : is_dir (f q) = true -> remove p d b f q = f q.
Proof.
  intros H. destruct (path_eqb q (d ++ [b])) eqn:E.
  - apply path_eqb_eq in E. unfold remove. destruct b as [|c b]; [reflexivity|].
    destruct (may_write p (f d)); [|reflexivity]. rewrite <- E.
    destruct (f q) as [[| |]|] eqn:F; try discriminate H; exact F.
  - apply remove_other. intros ->. rewrite path_eqb_refl in E. discriminate.
Qed.

Lemma remove_hit p d b f : b <> [] -> may_write p (f d) = true -> present (remove p d b f (d ++ [b])) = false.
Proof.
  intros B W. unfold remove. destruct b as [|c b]; [contradiction|]. rewrite W.
  destruct (f (d ++ [c :: b])) as [[| |]|] eqn:E; try (rewrite put_same; reflexivity); rewrite E; reflexivity.
Qed.

Lemma remove_absent p d b f q : present (f q) = false -> present (remove p d b f q) = false.
Proof.
  intros H. destruct (path_eqb q (d ++ [b])) eqn:E.
  - apply path_eqb_eq in E. unfold remove. destruct b as [|c b]; [exact H|].
    destruct (may_write p (f d)); [|exact H]. rewrite <- E.
    destruct (f q) as [[| |]|] eqn:F; try (rewrite put_same; reflexivity); try (rewrite F; reflexivity).
  - rewrite remove_other; [exact H|]. intros ->. rewrite path_eqb_refl in E. discriminate.
Qed.

Lemma may_write_dir p n : may_write p n = true -> is_dir n = true.
Proof. destruct n as [[| |]|]; cbn; congruence. Qed.

(** What a remembered file name leads to when the program ends *)
Definition target (p : proc) (e : exit_entry) : path * bytes :=
  match e with ByName s => (removelast (place p s), basename s) | At d b => (d, b) end.

Lemma run_entry_remove p f e : run_entry p f e = remove p (fst (target p e)) (snd (target p e)) f.
Proof. destruct e; reflexivity. Qed.

Lemma run_absent p l : forall f q, present (f q) = false -> present (fold_left (run_entry p) l f q) = false.
Proof.
  induction l as [|e l IH]; intros f q H; cbn [fold_left]; [exact H|].
  apply IH. rewrite run_entry_remove. apply remove_absent. exact H.
Qed.

Lemma run_hit p l : forall f d b, In (d, b) (map (target p) l) -> b <> [] -> may_write p (f d) = true ->
  present (fold_left (run_entry p) l f (d ++ [b])) = false.
Proof.
  induction l as [|e l IH]; intros f d b H B W; cbn [fold_left map] in *; [destruct H|].
  destruct H as [H|H].
  - apply run_absent. rewrite run_entry_remove, H. apply remove_hit; assumption.
  - apply IH; [exact H|exact B|]. rewrite run_entry_remove, remove_dir; [exact W|]. apply may_write_dir in W. exact W.
Qed.

Lemma run_other p l : forall f q, (forall d b, In (d, b) (map (target p) l) -> b <> [] -> q <> d ++ [b]) ->
  fold_left (run_entry p) l f q = f q.
Proof.
  induction l as [|e l IH]; intros f q H; cbn [fold_left map] in *; [reflexivity|].
  rewrite IH by (intros d b K; apply H; right; exact K).
  rewrite run_entry_remove. destruct (target p e) as [d b] eqn:E. cbn [fst snd].
  destruct b as [|c b]; [reflexivity|].
  apply remove_other. apply H; [left; reflexivity|discriminate].
Qed.

(** * The configuration *)
Lemma exit_app p f j s l : unlink_at_exit p f j s l = l ++ unlink_at_exit p f j s [].
Proof.
  unfold unlink_at_exit. destruct j; [|reflexivity].
  destruct (last_slash s) as [[[|c d] b]|]; cbn [app];
    try (destruct (is_dir _)); rewrite ?app_nil_r; reflexivity.
Qed.

Definition entries1 (p : proc) (f : fs) (j : option bytes) (l : list control_stmt) : list exit_entry :=
  flat_map (fun s => unlink_at_exit p f j s []) (named l).

Fixpoint entries (p : proc) (f : fs) (j : option bytes) (l : list stmt) : list exit_entry :=
  match l with
  | [] => []
  | RootJail d :: l' => entries p f (Some d) l'
  | Control b :: l' => entries1 p f j b ++ entries p f j l'
  | _ :: l' => entries p f j l'
  end.

Lemma control_loop_some p f j l : forall so m ow ex ls ex',
  control_loop p f j l so m ow ex = Some (ls, ex') ->
  ex' = ex ++ entries1 p f j l /\
  exists s, ls = Unix s (or (last_of (fun x => match x with Mode m => Some m | _ => None end) l) m)
                        (or (last_of (fun x => match x with ChangeOwner b => Some b | _ => None end) l) ow) /\
            (match socket_of l with Some s' => Some s' | None => so end) = Some s.
Proof.
  unfold entries1, named, socket_of.
  induction l as [|x l IH]; intros so m ow ex ls ex' H; cbn [control_loop] in H.
  - destruct so as [s|]; [|discriminate]. inversion H; subst. cbn. rewrite app_nil_r. split; [reflexivity|]. exists s. auto.
  - destruct x as [s|m'|b].
    + destruct (Nat.ltb UNIX_PATH_MAX (length s)); [discriminate|].
      apply IH in H. destruct H as [-> [s' [-> E]]]. cbn [flat_map last_of app].
      split.
      * rewrite exit_app, <- app_assoc. reflexivity.
      * exists s'. split.
        -- destruct (last_of (fun x => match x with Mode m => Some m | _ => None end) l);
           destruct (last_of (fun x => match x with ChangeOwner b => Some b | _ => None end) l); reflexivity.
        -- destruct (last_of (fun x => match x with Socket s => Some s | _ => None end) l) in *; exact E.
    + apply IH in H. destruct H as [-> [s' [-> E]]]. cbn [flat_map last_of app].
      split; [reflexivity|]. exists s'. split.
      * destruct (last_of (fun x => match x with Mode m => Some m | _ => None end) l);
           destruct (last_of (fun x => match x with ChangeOwner b => Some b | _ => None end) l); reflexivity.
      * destruct (last_of (fun x => match x with Socket s => Some s | _ => None end) l) in *; exact E.
    + apply IH in H. destruct H as [-> [s' [-> E]]]. cbn [flat_map last_of app].
      split; [reflexivity|]. exists s'. split.
      * destruct (last_of (fun x => match x with Mode m => Some m | _ => None end) l);
           destruct (last_of (fun x => match x with ChangeOwner b => Some b | _ => None end) l); reflexivity.
      * destruct (last_of (fun x => match x with Socket s => Some s | _ => None end) l) in *; exact E.
Qed.

(** The listeners of the configuration *)
Definition lst_of (x : stmt) : list listener :=
  match x with
  | Control b => match socket_of b with Some s => [Unix s (mode_of b) (change_of b)] | None => [] end
  | Listen ok => [Inet ok]
  | _ => []
  end.

Definition over {A} (a : option A) (b : option A) : option A := match a with Some x => Some x | None => b end.

Lemma or_over {A} (a b : option A) d : or (over a b) d = or a (or b d).
Proof. destruct a; reflexivity. Qed.

Lemma parse_loop_some p f l : forall c c', parse_loop p f l c = Some c' ->
  c_exit c' = c_exit c ++ entries p f (c_jail c) l /\
  c_listeners c' = c_listeners c ++ flat_map lst_of l /\
  c_jail c' = over (jail_of l) (c_jail c) /\
  c_user c' = over (user_of l) (c_user c) /\
  c_group c' = over (group_of l) (c_group c) /\
  c_daemon c' = or (last_of (fun x => match x with Daemon b => Some b | _ => None end) l) (c_daemon c) /\
  c_pid c' = or (last_of (fun x => match x with PIDFile s => Some s | _ => None end) l) (c_pid c).
Proof.
  unfold jail_of, user_of, group_of.
  induction l as [|x l IH]; intros c c' H; cbn [parse_loop] in H.
  - inversion H; subst. cbn. rewrite !app_nil_r. repeat split; reflexivity.
  - destruct (parse_stmt p f c x) as [c1|] eqn:E; [|discriminate].
    apply IH in H. destruct H as (H1 & H2 & H3 & H4 & H5 & H6 & H7).
    destruct x as [d|b|n|u|g|cl|ok]; cbn [parse_stmt] in E;
      try (inversion E; subst c1; clear E; cbn [c_exit c_listeners c_jail c_user c_group c_daemon c_pid] in *;
           cbn [entries flat_map lst_of last_of app];
           rewrite ?H1, ?H2, ?H3, ?H4, ?H5, ?H6, ?H7;
           repeat split; try reflexivity;
           try (match goal with |- context [last_of ?h l] => destruct (last_of h l) end; reflexivity); rewrite <- ?app_assoc; reflexivity).
    destruct (control_loop p f (c_jail c) cl None 384 false (c_exit c)) as [[ls ex]|] eqn:K; [|discriminate].
    inversion E; subst c1; clear E. cbn [c_exit c_listeners c_jail c_user c_group c_daemon c_pid] in *.
    apply control_loop_some in K. destruct K as [-> [s [-> SO]]].
    cbn [entries flat_map lst_of last_of app].
    replace (socket_of cl) with (Some s) by (destruct (socket_of cl); congruence).
    rewrite ?H1, ?H2, ?H3, ?H4, ?H5, ?H6, ?H7.
    repeat split; try (match goal with |- context [last_of ?h l] => destruct (last_of h l) end; reflexivity); rewrite <- ?app_assoc; reflexivity.
Qed.

Lemma control_loop_socket p f j l so m ow ex r : control_loop p f j l so m ow ex = Some r -> so = None -> exists s, socket_of l = Some s.
Proof.
  destruct r as [ls ex']. intros H ->. apply control_loop_some in H. destruct H as [_ [s [_ E]]].
  destruct (socket_of l); [eauto|discriminate].
Qed.

(** * Opening the listeners *)
Lemma ldiff_mode m : 0 <= m < 512 -> Z.ldiff 511 (Z.ldiff 511 m) = m.
Proof.
  intros H. apply Z.bits_inj'. intros n Hn. rewrite !Z.ldiff_spec.
  change 511 with (Z.ones 9). destruct (Z.ltb_spec n 9).
  - rewrite Z.ones_spec_low by lia. cbn. rewrite negb_involutive. reflexivity.
  - rewrite Z.ones_spec_high by lia. cbn. symmetry.
    destruct (Z.eq_dec m 0) as [->|]; [apply Z.bits_0|].
    apply Z.bits_above_log2; [lia|]. apply Z.log2_lt_pow2; [lia|].
    apply Z.lt_le_trans with (2 ^ 9); [lia|]. apply Z.pow_le_mono_r; lia.
Qed.

Definition places_of (p : proc) (l : list listener) : list path :=
  flat_map (fun x => match x with Unix s _ _ => [place p s] | Inet _ => [] end) l.

Lemma unlink_other p s f q : q <> place p s -> unlink p s f q = f q.
Proof.
  intros H. unfold unlink. destruct (basename s) as [|c b] eqn:B; [reflexivity|].
  apply remove_other. rewrite <- B, <- place_base by (rewrite B; discriminate). exact H.
Qed.

Lemma unlink_dir p s f q : is_dir (f q) = true -> unlink p s f q = f q.
Proof. intros H. apply remove_dir. exact H. Qed.

Lemma place_umask m p s : place (with_umask m p) s = place p s.
Proof. reflexivity. Qed.

Lemma bind_other p s f f' q : bind_unix p s f = Some f' -> q <> place p s -> f' q = f q.
Proof.
  unfold bind_unix. intros H N. destruct (Nat.ltb 107 (length s)); [discriminate|].
  destruct s as [|c s]; [inversion H; reflexivity|].
  destruct (basename (c :: s)); [discriminate|].
  destruct (f (place p (c :: s))); [discriminate|].
  destruct (may_write _ _); [|discriminate]. inversion H; subst. apply put_other. congruence.
Qed.

Lemma bind_dir p s f f' q : bind_unix p s f = Some f' -> is_dir (f q) = true -> f' q = f q.
Proof.
  unfold bind_unix. intros H D. destruct (Nat.ltb 107 (length s)); [discriminate|].
  destruct s as [|c s]; [inversion H; reflexivity|].
  destruct (basename (c :: s)); [discriminate|].
  destruct (f (place p (c :: s))) eqn:F; [discriminate|].
  destruct (may_write _ _); [|discriminate]. inversion H; subst. apply put_other. intros E. rewrite E in F. rewrite F in D. discriminate.
Qed.

Lemma bind_made p s f f' : bind_unix p s f = Some f' -> s <> [] ->
  basename s <> [] /\ (length s <= 107)%nat /\ f' (place p s) = Some (Sock (Z.ldiff 511 (umask p)) (euid p) (egid p) (pid p)).
Proof.
  unfold bind_unix. intros H N. destruct (Nat.ltb 107 (length s)) eqn:L; [discriminate|].
  apply Nat.ltb_ge in L.
  destruct s as [|c s]; [contradiction|].
  destruct (basename (c :: s)); [discriminate|].
  destruct (f (place p (c :: s))) eqn:F; [discriminate|].
  destruct (may_write _ _); [|discriminate]. inversion H; subst. rewrite put_same. repeat split; [discriminate|exact L].
Qed.

Lemma chown_other p s u g f q : q <> place p s -> chown p s u g f q = f q.
Proof.
  intros H. unfold chown. destruct (f (place p s)) as [[| |]|]; try reflexivity.
  match goal with |- context [if ?b then _ else _] => destruct b end; [|reflexivity].
  apply put_other. congruence.
Qed.

Lemma chown_dir p s u g f q : is_dir (f q) = true -> chown p s u g f q = f q.
Proof.
  intros H. destruct (path_eqb q (place p s)) eqn:E.
  - apply path_eqb_eq in E. unfold chown. rewrite <- E. destruct (f q) as [[| |]|] eqn:F; try discriminate H; exact F.
  - apply chown_other. intros ->. rewrite path_eqb_refl in E. discriminate.
Qed.

Lemma init_other p u g x f ok f' q : listener_init p u g x f = (ok, f') -> ~ In q (places_of p [x]) -> f' q = f q.
Proof.
  destruct x as [s m ow|b]; cbn [listener_init places_of flat_map app].
  - intros H N. assert (N' : q <> place p s) by (intros ->; apply N; left; reflexivity). clear N.
    destruct (bind_unix (with_umask (Z.ldiff 511 m) p) s (unlink p s f)) as [f2|] eqn:B.
    + assert (E : f2 q = f q) by (rewrite (bind_other _ _ _ _ _ B) by exact N'; apply unlink_other; exact N').
      inversion H; subst. destruct ow; [|exact E]. rewrite chown_other by exact N'. exact E.
    + inversion H; subst. apply unlink_other. exact N'.
  - intros H _. inversion H; reflexivity.
Qed.

Lemma init_dir p u g x f ok f' q : listener_init p u g x f = (ok, f') -> is_dir (f q) = true -> f' q = f q.
Proof.
  destruct x as [s m ow|b]; cbn [listener_init].
  - intros H D.
    assert (E0 : unlink p s f q = f q) by (apply unlink_dir; exact D).
    destruct (bind_unix (with_umask (Z.ldiff 511 m) p) s (unlink p s f)) as [f2|] eqn:B.
    + assert (E : f2 q = f q) by (rewrite (bind_dir _ _ _ _ _ B) by (rewrite E0; exact D); exact E0).
      inversion H; subst. destruct ow; [|exact E]. rewrite chown_dir by (rewrite E; exact D). exact E.
    + inversion H; subst. exact E0.
  - intros H _. inversion H; reflexivity.
Qed.

Lemma init_made p u g s m ow f f' : listener_init p u g (Unix s m ow) f = (true, f') -> euid p = 0 -> s <> [] -> 0 <= m < 512 ->
  (length s <= 107)%nat /\ basename s <> [] /\
  f' (place p s) = Some (Sock m (if ow then if u =? -1 then 0 else u else 0) (if ow then if g =? -1 then egid p else g else egid p) (pid p)).
Proof.
  cbn [listener_init]. intros H R N M.
  destruct (bind_unix (with_umask (Z.ldiff 511 m) p) s (unlink p s f)) as [f2|] eqn:B; [|discriminate].
  apply bind_made in B; [|exact N]. destruct B as (B1 & B2 & B3). rewrite place_umask in B3.
  cbn [umask with_umask euid egid pid] in B3. rewrite ldiff_mode in B3 by exact M.
  split; [exact B2|]. split; [exact B1|].
  inversion H; subst f'. destruct ow; [|rewrite <- R; exact B3].
  unfold chown. rewrite B3, R. cbn [Z.eqb orb]. rewrite put_same. reflexivity.
Qed.

Lemma open_other p u g l : forall f ok f' q, open_listeners p u g l f = (ok, f') -> ~ In q (places_of p l) -> f' q = f q.
Proof.
  induction l as [|x l IH]; intros f ok f' q H N; cbn [open_listeners] in H; [inversion H; reflexivity|].
  unfold places_of in N. cbn [flat_map] in N. fold (places_of p l) in N.
  destruct (listener_init p u g x f) as [[|] f1] eqn:E.
  - rewrite (IH _ _ _ _ H) by (intros K; apply N; apply in_or_app; right; exact K).
    apply (init_other _ _ _ _ _ _ _ _ E). intros K. apply N. apply in_or_app. left.
    unfold places_of in K. cbn [flat_map] in K. rewrite app_nil_r in K. exact K.
  - inversion H; subst. apply (init_other _ _ _ _ _ _ _ _ E). intros K. apply N. apply in_or_app. left.
    unfold places_of in K. cbn [flat_map] in K. rewrite app_nil_r in K. exact K.
Qed.

Lemma open_dir p u g l : forall f ok f' q, open_listeners p u g l f = (ok, f') -> is_dir (f q) = true -> f' q = f q.
Proof.
  induction l as [|x l IH]; intros f ok f' q H D; cbn [open_listeners] in H; [inversion H; reflexivity|].
  destruct (listener_init p u g x f) as [[|] f1] eqn:E.
  - pose proof (init_dir _ _ _ _ _ _ _ _ E D) as E1. rewrite (IH _ _ _ _ H); [exact E1|]. rewrite E1; exact D.
  - inversion H; subst. apply (init_dir _ _ _ _ _ _ _ _ E D).
Qed.

Lemma open_app p u g l1 l2 f f' : open_listeners p u g (l1 ++ l2) f = (true, f') ->
  exists f1, open_listeners p u g l1 f = (true, f1) /\ open_listeners p u g l2 f1 = (true, f').
Proof.
  revert f; induction l1 as [|x l1 IH]; intros f H; cbn [app open_listeners] in *; [eauto|].
  destruct (listener_init p u g x f) as [[|] f1]; [|discriminate]. apply IH. exact H.
Qed.

Lemma open_in p u g l f f' s m ow : open_listeners p u g l f = (true, f') -> In (Unix s m ow) l -> s <> [] ->
  (length s <= 107)%nat /\ basename s <> [].
Proof.
  intros H I N. apply in_split in I. destruct I as [l1 [l2 ->]].
  apply open_app in H. destruct H as [f1 [_ H]]. cbn [open_listeners] in H.
  destruct (listener_init p u g (Unix s m ow) f1) as [[|] f2] eqn:E; [|discriminate].
  cbn [listener_init] in E. destruct (bind_unix _ _ _) eqn:B; [|discriminate].
  apply bind_made in B; [|exact N]. tauto.
Qed.

(** * The start *)
Lemma pid_create_other p j s f ex f' ex' q : pidfile_create p j s f ex = (f', ex') -> q <> place p s -> f' q = f q.
Proof.
  unfold pidfile_create. intros H N. destruct (basename s); [inversion H; reflexivity|].
  destruct (f (place p s)) as [[| |]|].
  - inversion H; reflexivity.
  - inversion H; reflexivity.
  - match type of H with context [if ?b then _ else _] => destruct b end; inversion H; subst; [apply put_other; congruence|reflexivity].
  - destruct (may_write _ _); inversion H; subst; [apply put_other; congruence|reflexivity].
Qed.

Lemma pid_create_keep p j s f ex f' ex' q : pidfile_create p j s f ex = (f', ex') ->
  (forall m o g c, f q <> Some (Reg m o g c)) -> f q <> None -> f' q = f q.
Proof.
  intros H N1 N2. destruct (path_eqb q (place p s)) eqn:E.
  - apply path_eqb_eq in E. subst q. unfold pidfile_create in H. destruct (basename s); [inversion H; reflexivity|].
    destruct (f (place p s)) as [[| |]|] eqn:F; try (inversion H; subst; exact F).
    + exfalso; eapply N1; reflexivity.
    + exfalso; apply N2; reflexivity.
  - apply (pid_create_other _ _ _ _ _ _ _ _ H). intros ->. rewrite path_eqb_refl in E. discriminate.
Qed.

(** The process after detach *)
Definition proc1 (fg : bool) (ch : Z) (p : proc) (l : list stmt) : proc :=
  if runs_detached fg l then with_pid ch (with_dirs (root p) (root p) (with_umask 63 p)) else with_umask 63 p.

(** What a start that ends in a running server has done *)
Lemma start_running dp po fg ch p l f st : start dp po fg ch p l f = Running st ->
  let p0 := with_umask 63 p in
  let p1 := proc1 fg ch p l in
  exists f1 p2,
    known (user_of l) = true /\ known (group_of l) = true /\
    open_listeners p0 (or_minus (id_of (user_of l))) (or_minus (id_of (group_of l))) (flat_map lst_of l) f = (true, f1) /\
    pidfile_create p1 (jail_of l) (pidfile dp po l) f1 (entries p0 f None l) = (s_fs st, s_exit st) /\
    match jail_of l with
    | None => p2 = p1
    | Some j => euid p1 = 0 /\ j <> [] /\ is_dir (s_fs st (place p1 j)) = true /\ p2 = with_dirs (place p1 j) (place p1 j) p1
    end /\
    set_ids (id_of (user_of l)) (id_of (group_of l)) p2 = Some (s_proc st).
Proof.
  cbv zeta. unfold start. destruct (parse_loop (with_umask 63 p) f l (conf0 dp)) as [c|] eqn:P; [|discriminate].
  apply parse_loop_some in P. cbn [conf0 c_exit c_listeners c_jail c_user c_group c_daemon c_pid app] in P.
  destruct P as (P1 & P2 & P3 & P4 & P5 & P6 & P7).
  destruct (c_listeners c) as [|x ls] eqn:LS; [discriminate|]. intros H. unfold launch in H. rewrite LS in H.
  replace (c_user c) with (user_of l) in H by (rewrite P4; destruct (user_of l); reflexivity).
  replace (c_group c) with (group_of l) in H by (rewrite P5; destruct (group_of l); reflexivity).
  replace (c_jail c) with (jail_of l) in H by (rewrite P3; destruct (jail_of l); reflexivity).
  replace (daemonize fg c) with (runs_detached fg l) in H
    by (unfold daemonize, runs_detached, daemon_of; rewrite P6; destruct fg; reflexivity).
  replace (pid_name po c) with (pidfile dp po l) in H by (unfold pid_name, pidfile, pidfile_of; rewrite P7; reflexivity).
  rewrite P1, P2 in H.
  destruct (known (user_of l)) eqn:KU; [|discriminate]. destruct (known (group_of l)) eqn:KG; [|discriminate].
  cbn [andb negb] in H.
  destruct (open_listeners _ _ _ _ _) as [[|] f1] eqn:O; [|discriminate].
  destruct (pidfile_create _ _ _ _ _) as [f2 ex] eqn:PC.
  change (if runs_detached fg l then with_pid ch (with_dirs (root (with_umask 63 p)) (root (with_umask 63 p)) (with_umask 63 p)) else with_umask 63 p) with (proc1 fg ch p l) in *.
  set (p1 := proc1 fg ch p l) in *.
  destruct (jail_of l) as [j|].
  - destruct ((euid p1 =? 0) && negb (match j with [] => true | _ => false end) && is_dir (f2 (place p1 j))) eqn:J; [|discriminate].
    apply andb_true_iff in J. destruct J as [J J3]. apply andb_true_iff in J. destruct J as [J1 J2].
    destruct (set_ids _ _ _) as [p3|] eqn:SI; [|discriminate]. inversion H; subst st. cbn [s_fs s_exit s_proc].
    exists f1. eexists. repeat split; try eassumption.
    + apply Z.eqb_eq; exact J1.
    + destruct j; [discriminate J2|discriminate].
  - destruct (set_ids _ _ _) as [p3|] eqn:SI; [|discriminate]. inversion H; subst st. cbn [s_fs s_exit s_proc].
    exists f1. eexists. repeat split; eassumption.
Qed.

(** * The socket *)
Lemma places_lst p l q : In q (places_of p (flat_map lst_of l)) -> exists b s, In (Control b) l /\ socket_of b = Some s /\ q = place p s.
Proof.
  unfold places_of. intros H. apply in_flat_map in H. destruct H as [x [H1 H2]].
  apply in_flat_map in H1. destruct H1 as [y [Y1 Y2]].
  destruct y as [| | | | |b|ok]; cbn [lst_of] in Y2; try destruct Y2.
  - destruct (socket_of b) as [s|] eqn:E; [|destruct Y2]. destruct Y2 as [<-|[]].
    destruct H2 as [<-|[]]. exists b, s. auto.
  - subst x. destruct H2.
  - destruct H.
Qed.

Lemma socket_made dp po fg ch p l1 b l2 f st s :
  let l := l1 ++ Control b :: l2 in
  start dp po fg ch p l f = Running st -> euid p = 0 ->
  socket_of b = Some s -> s <> [] -> 0 <= mode_of b < 512 ->
  user_of l <> Some (Some (-1)) -> group_of l <> Some (Some (-1)) ->
  (forall b' s', In (Control b') l2 -> socket_of b' = Some s' -> place p s' <> place p s) ->
  s_fs st (place p s) = Some (Sock (mode_of b) (if change_of b then or (id_of (user_of l)) 0 else 0)
                                   (if change_of b then or (id_of (group_of l)) (egid p) else egid p) (pid p)).
Proof.
  cbv zeta. intros H R SO NE M U G D.
  apply start_running in H. cbv zeta in H. destruct H as (f1 & p2 & KU & KG & O & PC & _ & _).
  rewrite flat_map_app in O. cbn [flat_map] in O.
  replace (lst_of (Control b)) with [Unix s (mode_of b) (change_of b)] in O by (cbn [lst_of]; rewrite SO; reflexivity).
  apply open_app in O. destruct O as [f2 [_ O]]. cbn [app open_listeners] in O.
  destruct (listener_init _ _ _ _ f2) as [[|] f3] eqn:E; [|discriminate].
  apply init_made in E; try assumption. destruct E as (_ & _ & E).
  cbn [egid pid with_umask] in E.
  replace (if or_minus (id_of (user_of (l1 ++ Control b :: l2))) =? -1 then 0 else or_minus (id_of (user_of (l1 ++ Control b :: l2))))
    with (or (id_of (user_of (l1 ++ Control b :: l2))) 0) in E.
  2:{ destruct (user_of _) as [[u|]|]; cbn [id_of or_minus or]; try reflexivity.
      destruct (Z.eqb_spec u (-1)); [congruence|reflexivity]. }
  replace (if or_minus (id_of (group_of (l1 ++ Control b :: l2))) =? -1 then egid p else or_minus (id_of (group_of (l1 ++ Control b :: l2))))
    with (or (id_of (group_of (l1 ++ Control b :: l2))) (egid p)) in E.
  2:{ destruct (group_of _) as [[u|]|]; cbn [id_of or_minus or]; try reflexivity.
      destruct (Z.eqb_spec u (-1)); [congruence|reflexivity]. }
  assert (F1 : f1 (place p s) = f3 (place p s)).
  { apply (open_other _ _ _ _ _ _ _ _ O). intros K. apply places_lst in K. destruct K as (b' & s' & K1 & K2 & K3).
    apply (D b' s' K1 K2). symmetry. exact K3. }
  change (place (with_umask 63 p) s) with (place p s) in E. rewrite E in F1.
  rewrite (pid_create_keep _ _ _ _ _ _ _ _ PC); [exact F1| |]; rewrite F1; discriminate.
Qed.

(** * The PID file *)
Lemma place_from p s : root p = [] -> place p s = from (cwd p) s.
Proof. intros H. unfold place, from. rewrite H. reflexivity. Qed.

Lemma place_p1 fg ch p l s : root p = [] -> place (proc1 fg ch p l) s = from (pid_dir p fg l) s.
Proof.
  intros H. unfold proc1, place, from, pid_dir. destruct (runs_detached fg l); cbn [root cwd with_pid with_dirs with_umask]; rewrite H; reflexivity.
Qed.

Lemma euid_p1 fg ch p l : euid (proc1 fg ch p l) = euid p.
Proof. unfold proc1. destruct (runs_detached fg l); reflexivity. Qed.

Lemma pidfile_made dp po fg ch p l f st :
  let s := pidfile dp po l in
  let q := from (pid_dir p fg l) s in
  start dp po fg ch p l f = Running st -> euid p = 0 -> root p = [] -> file_name s ->
  is_dir (f (removelast q)) = true -> (forall m o g n, f q <> Some (Sock m o g n)) -> is_dir (f q) = false ->
  (forall b s', In (Control b) l -> socket_of b = Some s' -> from (cwd p) s' <> q) ->
  exists m o g, s_fs st q = Some (Reg m o g (Some (if runs_detached fg l then ch else pid p))) /\
    match f q with Some (Reg m' o' g' _) => m = m' /\ o = o' /\ g = g' | _ => m = 384 /\ o = 0 /\ g = egid p end.
Proof.
  cbv zeta. intros H R RT FN PD NS ND D.
  apply start_running in H. cbv zeta in H. destruct H as (f1 & p2 & KU & KG & O & PC & _ & _).
  unfold pidfile_create in PC. rewrite (place_p1 fg ch p l _ RT) in PC.
  set (q := from (pid_dir p fg l) (pidfile dp po l)) in *.
  apply file_name_base in FN. destruct (basename (pidfile dp po l)) as [|c bs] eqn:B; [contradiction|].
  assert (F1 : f1 q = f q).
  { apply (open_other _ _ _ _ _ _ _ _ O). intros K. apply places_lst in K. destruct K as (b' & s' & K1 & K2 & K3).
    apply (D b' s' K1 K2). rewrite K3. symmetry. apply (place_from p s' RT). }
  assert (F2 : f1 (removelast q) = f (removelast q)) by (apply (open_dir _ _ _ _ _ _ _ _ O PD)).
  rewrite euid_p1, R in PC. rewrite F1 in PC.
  destruct (f q) as [[m o g|m o g n|m o g c0]|] eqn:FQ.
  - discriminate ND.
  - exfalso. eapply NS. reflexivity.
  - cbn [Z.eqb orb] in PC. inversion PC as [[P1 P2]].
    exists m, o, g. rewrite put_same. split; [|auto]. unfold proc1. destruct (runs_detached fg l); reflexivity.
  - assert (W : may_write (proc1 fg ch p l)
                  (f1 (removelast q)) = true).
    { rewrite F2. destruct (f (removelast q)) as [[| |]|]; try discriminate PD. cbn [may_write].
      rewrite euid_p1, R. reflexivity. }
    rewrite W in PC. inversion PC as [[P1 P2]].
    exists 384, 0, (egid p). rewrite put_same. split; [|auto]. unfold proc1. destruct (runs_detached fg l); reflexivity.
Qed.

(** * The end *)
Lemma set_ids_dirs u g p p' : set_ids u g p = Some p' -> root p' = root p /\ cwd p' = cwd p /\ groups p' = groups p /\ pid p' = pid p.
Proof.
  unfold set_ids. intros H.
  assert (A : forall p1, (match g with None => Some p | Some g' => match setgid g' p with Some p' => setegid g' p' | None => None end end) = Some p1 ->
              root p1 = root p /\ cwd p1 = cwd p /\ groups p1 = groups p /\ pid p1 = pid p).
  { intros p1. destruct g as [g'|]; [|intros E; inversion E; auto].
    unfold setgid, setegid.
    destruct (euid p =? 0); [|destruct ((g' =? rgid p) || (g' =? sgid p)); [|discriminate]];
      match goal with |- context [if ?b then _ else _] => destruct b end; intros E; inversion E; auto. }
  destruct (match g with None => Some p | Some g' => match setgid g' p with Some p' => setegid g' p' | None => None end end) as [p1|]; [|discriminate].
  destruct (A p1 eq_refl) as (A1 & A2 & A3 & A4).
  destruct u as [u'|]; [|inversion H; subst; auto].
  unfold setuid, seteuid in H.
  destruct (euid p1 =? 0); [|destruct ((u' =? ruid p1) || (u' =? suid p1)); [|discriminate]];
    match type of H with context [if ?b then _ else _] => destruct b end; inversion H; subst; cbn; auto.
Qed.

Lemma entries_nojail p f l : jail_of l = None -> entries p f None l = map ByName (all_named l).
Proof.
  unfold jail_of, all_named. induction l as [|x l IH]; intros H; [reflexivity|].
  cbn [last_of] in H. destruct (last_of _ l) eqn:E; [discriminate|].
  destruct x as [d|b|n|u|g|cl|ok]; cbn [entries flat_map app]; try (apply IH; reflexivity); [discriminate|].
  rewrite IH by reflexivity. rewrite map_app. reflexivity.
Qed.

Definition in_jail (p : proc) (f : fs) (s : bytes) : list exit_entry := unlink_at_exit p f (Some []) s [].

Lemma entries_jail p f j l : entries p f (Some j) l = flat_map (in_jail p f) (all_named l).
Proof.
  unfold all_named. revert j; induction l as [|x l IH]; intros j; [reflexivity|].
  destruct x as [d|b|n|u|g|cl|ok]; cbn [entries flat_map app]; try apply IH.
  rewrite flat_map_app, IH. reflexivity.
Qed.

Lemma entries_skip p f l1 l2 : no_control l1 -> forall j, entries p f j (l1 ++ l2) = entries p f (over (jail_of l1) j) l2.
Proof.
  unfold jail_of. induction l1 as [|x l1 IH]; intros N j; [reflexivity|].
  assert (N' : no_control l1) by (intros b K; apply (N b); right; exact K).
  destruct x as [d|b|n|u|g|cl|ok]; cbn [app entries last_of]; rewrite ?IH by exact N';
    try (destruct (last_of _ l1); reflexivity).
  exfalso. apply (N cl). left. reflexivity.
Qed.

Lemma all_named_none l : no_control l -> all_named l = [].
Proof.
  unfold all_named. induction l as [|x l IH]; intros N; [reflexivity|].
  cbn [flat_map]. rewrite IH by (intros b K; apply (N b); right; exact K).
  destruct x; try reflexivity. exfalso. eapply N. left. reflexivity.
Qed.

Lemma all_named_app l1 l2 : all_named (l1 ++ l2) = all_named l1 ++ all_named l2.
Proof. apply flat_map_app. Qed.

Lemma jail_of_in l1 j l2 : jail_of (l1 ++ RootJail j :: l2) <> None.
Proof.
  unfold jail_of. induction l1 as [|x l1 IH]; cbn [app last_of].
  - destruct (last_of _ l2); discriminate.
  - destruct (last_of _ (l1 ++ _)); [discriminate|]. contradiction IH; reflexivity.
Qed.

Lemma entries_first p f l : jail_first l -> jail_of l <> None -> entries p f None l = flat_map (in_jail p f) (all_named l).
Proof.
  intros [H|(l1 & j & l2 & -> & N)] J; [contradiction|].
  rewrite entries_skip by exact N. cbn [entries]. rewrite entries_jail, all_named_app.
  rewrite (all_named_none l1) by exact N. reflexivity.
Qed.

Lemma exit_jail p f j s : unlink_at_exit p f (Some j) s [] = in_jail p f s.
Proof. reflexivity. Qed.

(** An entry of a jailed pound leads to the place the name meant when it was read *)
Lemma in_jail_target P p f s e : In e (in_jail p f s) -> snd (target P e) <> [] -> fst (target P e) ++ [snd (target P e)] = place p s.
Proof.
  unfold in_jail, unlink_at_exit. destruct (last_slash s) as [[[|c d] b]|] eqn:E.
  - intros [].
  - destruct (is_dir _); [|intros []]. intros [<-|[]] B. cbn [target fst snd] in *.
    symmetry. apply (place_dir p s _ b E); [discriminate|exact B].
  - destruct (is_dir _); [|intros []]. intros [<-|[]] B. cbn [target fst snd] in *.
    symmetry. apply (place_plain p s E B).
Qed.

Lemma by_name_target P s : snd (target P (ByName s)) <> [] -> fst (target P (ByName s)) ++ [snd (target P (ByName s))] = place P s.
Proof. cbn [target fst snd]. intros H. symmetry. apply place_base. exact H. Qed.

Lemma in_jail_made P p f s : basename s <> [] -> ~ top_level s -> is_dir (f (removelast (place p s))) = true ->
  In (removelast (place p s), basename s) (map (target P) (in_jail p f s)).
Proof.
  intros B T D. unfold in_jail, unlink_at_exit. unfold basename in *. destruct (last_slash s) as [[[|c d] b]|] eqn:E.
  - exfalso. apply T. apply last_slash_some in E. destruct E as [-> N]. exists b. split; [reflexivity|exact N].
  - rewrite (place_dir p s _ b E) in * by (discriminate || exact B). rewrite removelast_last in *.
    rewrite D. left. reflexivity.
  - rewrite (place_plain p s E B) in *. rewrite removelast_last in *. rewrite D. left. reflexivity.
Qed.

(** Directories are not made *)
Lemma put_dir p n f q : is_dir (put p n f q) = true -> is_dir n = false -> is_dir (f q) = true.
Proof. unfold put. destruct (path_eqb p q); congruence. Qed.

Lemma remove_dir_back p d b f q : is_dir (remove p d b f q) = true -> is_dir (f q) = true.
Proof.
  unfold remove. destruct b; [auto|]. destruct (may_write p (f d)); [|auto].
  destruct (f (d ++ _)) as [[| |]|]; auto; intros H; apply put_dir in H; auto.
Qed.

Lemma init_dir_back p u g x f ok f' q : listener_init p u g x f = (ok, f') -> is_dir (f' q) = true -> is_dir (f q) = true.
Proof.
  destruct x as [s m ow|b]; cbn [listener_init].
  2:{ intros H; inversion H; auto. }
  destruct (bind_unix _ s (unlink p s f)) as [f2|] eqn:B.
  - intros H D. assert (D2 : is_dir (f2 q) = true).
    { inversion H; subst. destruct ow; [|exact D]. unfold chown in D.
      destruct (f2 (place p s)) as [[| |]|]; auto.
      match type of D with context [if ?b then _ else _] => destruct b end; auto. apply put_dir in D; auto. }
    unfold bind_unix in B. destruct (Nat.ltb 107 (length s)); [discriminate|].
    destruct s as [|c s]; [inversion B; subst; apply remove_dir_back in D2; exact D2|].
    destruct (basename (c :: s)) eqn:BN; [discriminate|].
    destruct (unlink p (c :: s) f (place _ (c :: s))); [discriminate|].
    destruct (may_write _ _); [|discriminate]. inversion B; subst f2. apply put_dir in D2; [|reflexivity].
    apply remove_dir_back in D2. exact D2.
  - intros H D. inversion H; subst. apply remove_dir_back in D. exact D.
Qed.

Lemma open_dir_back p u g l : forall f ok f' q, open_listeners p u g l f = (ok, f') -> is_dir (f' q) = true -> is_dir (f q) = true.
Proof.
  induction l as [|x l IH]; intros f ok f' q H D; cbn [open_listeners] in H; [inversion H; subst; exact D|].
  destruct (listener_init p u g x f) as [[|] f1] eqn:E.
  - eapply init_dir_back; [exact E|]. eapply IH; eassumption.
  - inversion H; subst. eapply init_dir_back; eassumption.
Qed.

Lemma pid_dir_back p j s f ex f' ex' q : pidfile_create p j s f ex = (f', ex') -> is_dir (f' q) = true -> is_dir (f q) = true.
Proof.
  unfold pidfile_create. intros H D. destruct (basename s); [inversion H; subst; exact D|].
  destruct (f (place p s)) as [[| |]|].
  - inversion H; subst; exact D.
  - inversion H; subst; exact D.
  - match type of H with context [if ?b then _ else _] => destruct b end; inversion H; subst; [apply put_dir in D; auto|exact D].
  - destruct (may_write _ _); inversion H; subst; [apply put_dir in D; auto|exact D].
Qed.

(** The PID file is remembered just when it has been written *)
Lemma pid_create_exit p j s f ex f' ex' : pidfile_create p j s f ex = (f', ex') ->
  (f' = f /\ ex' = ex) \/
  (basename s <> [] /\ ex' = ex ++ unlink_at_exit p f' j s [] /\ exists m o g, f' (place p s) = Some (Reg m o g (Some (pid p)))).
Proof.
  unfold pidfile_create. intros H. destruct (basename s) eqn:B; [inversion H; auto|].
  destruct (f (place p s)) as [[| |m o g c]|].
  - inversion H; auto.
  - inversion H; auto.
  - match type of H with context [if ?b then _ else _] => destruct b end; inversion H; subst; [|auto].
    right. split; [discriminate|]. split; [apply exit_app|]. exists m, o, g. apply put_same.
  - destruct (may_write _ _); inversion H; subst; [|auto].
    right. split; [discriminate|]. split; [apply exit_app|]. do 3 eexists. apply put_same.
Qed.

(** The directories of the process that runs the server *)
Lemma running_dirs dp po fg ch p l f st : start dp po fg ch p l f = Running st -> root p = [] ->
  match jail_of l with
  | None => root (s_proc st) = [] /\ cwd (s_proc st) = pid_dir p fg l
  | Some j => root (s_proc st) = from (pid_dir p fg l) j /\ cwd (s_proc st) = from (pid_dir p fg l) j
  end /\ groups (s_proc st) = groups p.
Proof.
  intros H R. apply start_running in H. cbv zeta in H. destruct H as (f1 & p2 & _ & _ & _ & _ & J & SI).
  apply set_ids_dirs in SI. destruct SI as (S1 & S2 & S3 & _). rewrite S1, S2, S3.
  destruct (jail_of l) as [j|].
  - destruct J as (_ & _ & _ & ->). cbn [root cwd groups with_dirs]. rewrite (place_p1 fg ch p l j R).
    split; [auto|]. unfold proc1. destruct (runs_detached fg l); reflexivity.
  - subst p2. unfold pid_dir, proc1. destruct (runs_detached fg l); cbn; rewrite ?R; auto.
Qed.

Lemma removed_socket dp po fg ch p l f st s :
  start dp po fg ch p l f = Running st -> root p = [] -> jail_first l ->
  In s (all_named l) -> file_name s ->
  (jail_of l = None -> absolute s = true \/ runs_detached fg l = false) ->
  (jail_of l <> None -> ~ top_level s) ->
  may_write (s_proc st) (s_fs st (removelast (from (cwd p) s))) = true ->
  present (finish st (from (cwd p) s)) = false.
Proof.
  intros H R JF I FN C1 C2 W.
  pose proof (running_dirs _ _ _ _ _ _ _ _ H R) as [RD _].
  apply start_running in H. cbv zeta in H. destruct H as (f1 & p2 & _ & _ & O & PC & J & SI).
  apply file_name_base in FN.
  assert (T : In (removelast (from (cwd p) s), basename s) (map (target (s_proc st)) (s_exit st))).
  { assert (T0 : In (removelast (from (cwd p) s), basename s) (map (target (s_proc st)) (entries (with_umask 63 p) f None l))).
    { destruct (jail_of l) as [j|] eqn:JO.
      - rewrite entries_first by (assumption || congruence).
        apply in_map_iff. 
        assert (M : In (removelast (place (with_umask 63 p) s), basename s) (map (target (s_proc st)) (in_jail (with_umask 63 p) f s))).
        { apply in_jail_made; [exact FN|apply C2; discriminate|].
          change (place (with_umask 63 p) s) with (place p s). rewrite place_from by exact R.
          eapply open_dir_back; [exact O|]. eapply pid_dir_back; [exact PC|]. apply may_write_dir in W. exact W. }
        apply in_map_iff in M. destruct M as [e [M1 M2]]. exists e. split.
        + rewrite M1. change (place (with_umask 63 p) s) with (place p s). rewrite place_from by exact R. reflexivity.
        + apply in_flat_map. exists s. auto.
      - rewrite entries_nojail by exact JO. rewrite map_map. apply in_map_iff. exists s. split; [|exact I].
        cbn [target]. f_equal. f_equal. unfold place, from. destruct RD as [-> ->]. unfold pid_dir.
        destruct (C1 eq_refl) as [->| ->]; [reflexivity|]. destruct (absolute s); reflexivity. }
    apply pid_create_exit in PC. destruct PC as [[_ ->]|[_ [-> _]]]; [exact T0|].
    rewrite map_app. apply in_or_app. left. exact T0. }
  unfold finish.
  replace (from (cwd p) s) with (removelast (from (cwd p) s) ++ [basename s]) at 1.
  - apply run_hit; assumption.
  - symmetry. pose proof (place_base p s FN) as K. rewrite place_from in K by exact R. exact K.
Qed.

Lemma pid_target dp po fg ch p l f st : start dp po fg ch p l f = Running st -> root p = [] ->
  exists pre, s_exit st = entries (with_umask 63 p) f None l ++ pre /\
    (pre <> [] -> exists m o g n, s_fs st (from (pid_dir p fg l) (pidfile dp po l)) = Some (Reg m o g n)) /\
    (forall e, In e pre -> snd (target (s_proc st) e) <> [] ->
       fst (target (s_proc st) e) ++ [snd (target (s_proc st) e)] = from (pid_dir p fg l) (pidfile dp po l)).
Proof.
  intros H R.
  pose proof (running_dirs _ _ _ _ _ _ _ _ H R) as [RD _].
  apply start_running in H. cbv zeta in H. destruct H as (f1 & p2 & _ & _ & O & PC & J & SI).
  apply pid_create_exit in PC. destruct PC as [[_ E]|[B [E [m [o [g F]]]]]].
  - exists []. rewrite app_nil_r. split; [exact E|]. split; [congruence|intros e []].
  - eexists. split; [exact E|]. rewrite (place_p1 fg ch p l _ R) in F. split; [eauto|].
    intros e Ie Ne. destruct (jail_of l) as [j|].
    + rewrite exit_jail in Ie. rewrite (in_jail_target _ _ _ _ _ Ie Ne). apply (place_p1 fg ch p l _ R).
    + cbn [unlink_at_exit app] in Ie. destruct Ie as [<-|[]]. rewrite (by_name_target _ _ Ne).
      unfold place, from. destruct RD as [-> ->]. reflexivity.
Qed.

Lemma removed_pid dp po fg ch p l f st :
  let s := pidfile dp po l in
  let q := from (pid_dir p fg l) s in
  start dp po fg ch p l f = Running st -> root p = [] -> euid p = 0 -> file_name s ->
  (jail_of l <> None -> ~ top_level s) ->
  (forall m o g n, s_fs st q <> Some (Sock m o g n)) ->
  may_write (s_proc st) (s_fs st (removelast q)) = true ->
  present (finish st q) = false.
Proof.
  cbv zeta. intros H R E0 FN C2 NS W.
  pose proof (running_dirs _ _ _ _ _ _ _ _ H R) as [RD _].
  apply start_running in H. cbv zeta in H. destruct H as (f1 & p2 & _ & _ & O & PC & J & SI).
  apply file_name_base in FN. set (s := pidfile dp po l) in *. set (q := from (pid_dir p fg l) s) in *.
  pose proof PC as PC'. apply pid_create_exit in PC'. destruct PC' as [[F E]|[_ [E _]]].
  - unfold finish. apply run_absent.
    unfold pidfile_create in PC. rewrite (place_p1 fg ch p l s R) in PC. fold q in PC.
    destruct (basename s) as [|c bs] eqn:BS; [contradiction|].
    destruct (f1 q) as [[| |m o g c0]|] eqn:FQ.
    + rewrite F, FQ. reflexivity.
    + exfalso. rewrite F in NS. eapply NS. exact FQ.
    + exfalso. rewrite euid_p1, E0 in PC. cbn [Z.eqb orb] in PC. inversion PC as [[P1 P2]].
      rewrite <- E in P2. rewrite exit_app in P2.
      assert (X : forall A (a b : list A), a ++ b = a -> b = []).
      { intros A a b K. rewrite <- (app_nil_r a) in K at 2. apply app_inv_head in K. exact K. }
      rewrite E in P2. apply X in P2.
      destruct (jail_of l) as [j|]; [|discriminate P2]. rewrite exit_jail in P2. rewrite P1 in P2.
      assert (M : In (removelast (place (proc1 fg ch p l) s), basename s)
                   (map (target (s_proc st)) (in_jail (proc1 fg ch p l) (s_fs st) s))).
      { apply in_jail_made; [rewrite BS; exact FN|apply C2; discriminate|]. rewrite (place_p1 fg ch p l s R). apply may_write_dir in W. exact W. }
      rewrite P2 in M. destruct M.
    + rewrite F, FQ. reflexivity.
  - assert (T : In (removelast q, basename s) (map (target (s_proc st)) (s_exit st))).
    { rewrite E, map_app. apply in_or_app. right. destruct (jail_of l) as [j|] eqn:JO.
      - rewrite exit_jail. unfold q. rewrite <- (place_p1 fg ch p l s R).
        apply in_jail_made; [exact FN|apply C2; discriminate|]. rewrite (place_p1 fg ch p l s R). apply may_write_dir in W. exact W.
      - left. cbn [target]. f_equal. f_equal. unfold place, q, from. destruct RD as [-> ->]. reflexivity. }
    unfold finish. replace q with (removelast q ++ [basename s]) at 1.
    + apply run_hit; assumption.
    + symmetry. unfold q. rewrite <- (place_p1 fg ch p l s R). apply place_base. exact FN.
Qed.

Lemma socket_named b s : socket_of b = Some s -> In s (named b).
Proof.
  unfold socket_of, named. induction b as [|x b IH]; intros H; cbn [last_of flat_map] in *; [discriminate|].
  destruct (last_of _ b) as [y|] eqn:E.
  - apply in_or_app. right. apply IH. exact H.
  - destruct x; try discriminate. inversion H; subst. left. reflexivity.
Qed.

Lemma named_all b l s : In (Control b) l -> In s (named b) -> In s (all_named l).
Proof. intros H K. apply in_flat_map. exists (Control b). auto. Qed.

Lemma others dp po fg ch p l f st q :
  start dp po fg ch p l f = Running st -> root p = [] -> jail_first l ->
  (jail_of l = None -> forall s, In s (all_named l) -> absolute s = true \/ runs_detached fg l = false) ->
  (forall s, In s (all_named l) -> q <> from (cwd p) s) ->
  q <> from (pid_dir p fg l) (pidfile dp po l) ->
  s_fs st q = f q /\ finish st q = f q.
Proof.
  intros H R JF C1 N1 N2.
  pose proof (running_dirs _ _ _ _ _ _ _ _ H R) as [RD _].
  pose proof (pid_target _ _ _ _ _ _ _ _ H R) as (pre & EX & _ & PT).
  apply start_running in H. cbv zeta in H. destruct H as (f1 & p2 & _ & _ & O & PC & J & SI).
  assert (A : s_fs st q = f q).
  { rewrite (pid_create_other _ _ _ _ _ _ _ _ PC) by (rewrite (place_p1 fg ch p l _ R); exact N2).
    apply (open_other _ _ _ _ _ _ _ _ O). intros K. apply places_lst in K. destruct K as (b & s & K1 & K2 & K3).
    apply (N1 s); [eapply named_all; [exact K1|]; apply socket_named; exact K2|].
    rewrite K3. apply (place_from p s R). }
  split; [exact A|]. unfold finish. rewrite run_other; [exact A|].
  intros d b Ib Nb. apply in_map_iff in Ib. destruct Ib as [e [T Ie]]. rewrite EX in Ie.
  assert (D : d = fst (target (s_proc st) e)) by (rewrite T; reflexivity).
  assert (B : b = snd (target (s_proc st) e)) by (rewrite T; reflexivity).
  rewrite D, B. rewrite B in Nb. clear D B T d b.
  apply in_app_or in Ie. destruct Ie as [Ie|Ie].
  - destruct (jail_of l) as [j|] eqn:JO.
    + rewrite entries_first in Ie by (assumption || congruence). apply in_flat_map in Ie. destruct Ie as [s [I1 I2]].
      rewrite (in_jail_target _ _ _ _ _ I2 Nb). change (place (with_umask 63 p) s) with (place p s). rewrite place_from by exact R. apply N1. exact I1.
    + rewrite entries_nojail in Ie by exact JO. apply in_map_iff in Ie. destruct Ie as [s [<- I1]].
      rewrite (by_name_target _ _ Nb). intros ->. apply (N1 s I1). unfold place, from. destruct RD as [-> ->]. unfold pid_dir.
      destruct (C1 eq_refl s I1) as [->| ->]; [reflexivity|]. destruct (absolute s); reflexivity.
  - rewrite (PT e Ie Nb). exact N2.
Qed.

(** * What stays *)

(** The socket of a configuration with one Control section, and what is remembered besides *)
Lemma one_socket dp po fg ch p pre s rest f st :
  let l := pre ++ Control [Socket s] :: rest in
  start dp po fg ch p l f = Running st -> root p = [] -> euid p = 0 -> s <> [] -> no_control rest ->
  exists g, s_fs st (from (cwd p) s) = Some (Sock 384 0 g (pid p)).
Proof.
  cbv zeta. intros H R E NE NC. exists (egid p).
  apply start_running in H. cbv zeta in H. destruct H as (f1 & p2 & KU & KG & O & PC & _ & _).
  rewrite flat_map_app in O. cbn [flat_map lst_of socket_of last_of mode_of change_of or] in O.
  apply open_app in O. destruct O as [f2 [_ O]]. cbn [app open_listeners] in O.
  destruct (listener_init _ _ _ _ f2) as [[|] f3] eqn:I; [|discriminate].
  apply init_made in I; [|exact E|exact NE|lia]. destruct I as (_ & _ & I). cbn [egid pid with_umask] in I.
  change (place (with_umask 63 p) s) with (place p s) in I. rewrite (place_from p s R) in I.
  assert (F1 : f1 (from (cwd p) s) = f3 (from (cwd p) s)).
  { apply (open_other _ _ _ _ _ _ _ _ O). intros K. apply places_lst in K. destruct K as (b' & s' & K1 & _). exact (NC b' K1). }
  rewrite I in F1.
  rewrite (pid_create_keep _ _ _ _ _ _ _ _ PC); [exact F1| |]; rewrite F1; discriminate.
Qed.

Lemma stays dp po fg ch p pre s rest f st :
  let l := pre ++ Control [Socket s] :: rest in
  start dp po fg ch p l f = Running st -> root p = [] -> euid p = 0 -> s <> [] -> no_control rest ->
  (forall e, In e (entries (with_umask 63 p) f None l) -> snd (target (s_proc st) e) <> [] ->
     fst (target (s_proc st) e) ++ [snd (target (s_proc st) e)] <> from (cwd p) s) ->
  exists g, finish st (from (cwd p) s) = Some (Sock 384 0 g (pid p)).
Proof.
  cbv zeta. intros H R E NE NC T.
  destruct (one_socket _ _ _ _ _ _ _ _ _ _ H R E NE NC) as [g G]. exists g.
  pose proof (pid_target _ _ _ _ _ _ _ _ H R) as (pre' & EX & PR & PT).
  unfold finish. rewrite run_other; [exact G|].
  intros d b Ib Nb. apply in_map_iff in Ib. destruct Ib as [e [TE Ie]]. rewrite EX in Ie.
  assert (D : d = fst (target (s_proc st) e)) by (rewrite TE; reflexivity).
  assert (B : b = snd (target (s_proc st) e)) by (rewrite TE; reflexivity).
  rewrite D, B. rewrite B in Nb. clear D B TE d b.
  apply in_app_or in Ie. destruct Ie as [Ie|Ie].
  - intros K. symmetry in K. exact (T e Ie Nb K).
  - rewrite (PT e Ie Nb). intros K.
    destruct PR as (m & o & g' & n & PR); [intros ->; destruct Ie|]. rewrite K in G. rewrite G in PR. discriminate.
Qed.

Lemma entries_one p f s rest j : no_control rest -> entries p f j (Control [Socket s] :: rest) = unlink_at_exit p f j s [].
Proof.
  intros NC. cbn [entries]. unfold entries1. cbn [named flat_map app]. rewrite app_nil_r.
  rewrite <- (app_nil_r rest). rewrite entries_skip by exact NC. cbn [entries]. apply app_nil_r.
Qed.

Lemma app_len_neq (b c : path) : c <> [] -> c ++ b <> b.
Proof. intros N H. apply (f_equal (@length bytes)) in H. rewrite app_length in H. destruct c; [contradiction|cbn in H; lia]. Qed.

Lemma late_jail dp po fg ch p s rest f st j :
  let l := Control [Socket s] :: rest in
  start dp po fg ch p l f = Running st -> root p = [] -> euid p = 0 ->
  absolute s = true -> no_control rest -> jail_of rest = Some j -> from (pid_dir p fg l) j <> [] ->
  (exists g, finish st (from (cwd p) s) = Some (Sock 384 0 g (pid p))) /\
  (let q := from (pid_dir p fg l) j ++ comps [] s in
   may_write (s_proc st) (s_fs st (removelast q)) = true -> present (finish st q) = false).
Proof.
  cbv zeta. intros H R E AB NC J NJ.
  assert (NE : s <> []) by (intros ->; discriminate).
  pose proof (running_dirs _ _ _ _ _ _ _ _ H R) as [RD _].
  assert (JL : jail_of (Control [Socket s] :: rest) = Some j) by (unfold jail_of in *; cbn [last_of]; rewrite J; reflexivity).
  rewrite JL in RD. destruct RD as [RD _].
  assert (PL : place (s_proc st) s = from (pid_dir p fg (Control [Socket s] :: rest)) j ++ comps [] s)
    by (unfold place; rewrite AB, RD; reflexivity).
  split.
  - apply (stays dp po fg ch p [] s rest f st H R E NE NC). cbn [app].
    intros e. rewrite entries_one by exact NC. cbn [unlink_at_exit app]. intros [<-|[]] Ne.
    rewrite (by_name_target _ _ Ne), PL. unfold from at 2. rewrite AB. cbn [app]. apply app_len_neq. exact NJ.
  - intros W.
    assert (BN : basename s <> []).
    { apply start_running in H. cbv zeta in H. destruct H as (f1 & p2 & _ & _ & O & _).
      cbn [flat_map lst_of socket_of last_of app] in O.
      eapply (open_in _ _ _ _ _ _ s _ _ O); [left; reflexivity|exact NE]. }
    pose proof (pid_target _ _ _ _ _ _ _ _ H R) as (pre' & EX & _ & _).
    unfold finish. rewrite <- PL in *.
    rewrite (place_base (s_proc st) s BN) at 1. apply run_hit; [|exact BN|exact W].
    rewrite EX, map_app, entries_one by exact NC. left. reflexivity.
Qed.

Lemma relative_stays dp po fg ch p s rest f st :
  let l := Control [Socket s] :: rest in
  start dp po fg ch p l f = Running st -> root p = [] -> euid p = 0 ->
  s <> [] -> absolute s = false -> no_control rest -> jail_of rest = None -> runs_detached fg l = true -> cwd p <> [] ->
  exists g, finish st (from (cwd p) s) = Some (Sock 384 0 g (pid p)).
Proof.
  cbv zeta. intros H R E NE AB NC J RDT CW.
  pose proof (running_dirs _ _ _ _ _ _ _ _ H R) as [RD _].
  assert (JL : jail_of (Control [Socket s] :: rest) = None) by (unfold jail_of in *; cbn [last_of]; rewrite J; reflexivity).
  rewrite JL in RD. destruct RD as [_ RD]. unfold pid_dir in RD. rewrite RDT in RD.
  apply (stays dp po fg ch p [] s rest f st H R E NE NC). cbn [app].
  intros e. rewrite entries_one by exact NC. cbn [unlink_at_exit app]. intros [<-|[]] Ne.
  rewrite (by_name_target _ _ Ne). unfold place, from. rewrite AB, RD. cbn [app].
  intros K. symmetry in K. revert K. apply app_len_neq. exact CW.
Qed.

Lemma top_stays dp po fg ch p s rest f st j :
  let l := RootJail j :: Control [Socket s] :: rest in
  start dp po fg ch p l f = Running st -> root p = [] -> euid p = 0 ->
  top_level s -> no_control rest ->
  exists g, finish st (from (cwd p) s) = Some (Sock 384 0 g (pid p)).
Proof.
  cbv zeta. intros H R E [b [-> NS]] NC.
  apply (stays dp po fg ch p [RootJail j] _ rest f st H R E); [discriminate|exact NC|].
  cbn [app]. intros e. cbn [entries]. unfold entries1. cbn [named flat_map app unlink_at_exit].
  rewrite (last_slash_top b NS). cbn [app].
  rewrite <- (app_nil_r rest). rewrite entries_skip by exact NC. intros [].
Qed.

(** Without the right to the directory nothing is removed *)
Lemma may_write_keep p d b f q : may_write p (f q) = false -> may_write p (remove p d b f q) = false.
Proof.
  intros H. destruct (is_dir (f q)) eqn:D.
  - rewrite remove_dir by exact D. exact H.
  - destruct (may_write p (remove p d b f q)) eqn:W; [|reflexivity].
    apply may_write_dir in W. apply remove_dir_back in W. congruence.
Qed.

Lemma run_no_right p l : forall f d b, may_write p (f d) = false -> fold_left (run_entry p) l f (d ++ [b]) = f (d ++ [b]).
Proof.
  induction l as [|e l IH]; intros f d b W; cbn [fold_left]; [reflexivity|].
  rewrite IH by (rewrite run_entry_remove; apply may_write_keep; exact W).
  rewrite run_entry_remove. destruct (target p e) as [d' b']. cbn [fst snd].
  destruct (path_eqb (d ++ [b]) (d' ++ [b'])) eqn:E.
  - apply path_eqb_eq in E. apply app_inj_tail in E. destruct E as [<- <-].
    unfold remove. destruct b as [|c b]; [reflexivity|]. rewrite W. reflexivity.
  - apply remove_other. intros K. rewrite K, path_eqb_refl in E. discriminate.
Qed.

Lemma rights st q : q <> [] -> may_write (s_proc st) (s_fs st (removelast q)) = false -> finish st q = s_fs st q.
Proof.
  intros N W. unfold finish. rewrite (app_removelast_last [] N). apply run_no_right. exact W.
Qed.

(** A failed start *)
Lemma failed_start dp po fg ch p s f m o g old d1 d2 d3 :
  let q := from (cwd p) s in
  euid p = 0 -> root p = [] -> file_name s -> (length s <= 107)%nat ->
  f (removelast q) = Some (Dir d1 d2 d3) -> f q = Some (Sock m o g old) ->
  exists f', start dp po fg ch p [Control [Socket s]; Listen false] f = Failed f' /\
             f' q = Some (Sock 384 0 (egid p) (pid p)).
Proof.
  cbv zeta. intros E R FN L D Q. apply file_name_base in FN.
  unfold start. cbn [parse_loop parse_stmt control_loop c_jail conf0 c_exit c_daemon c_pid c_user c_group c_listeners app].
  replace (Nat.ltb UNIX_PATH_MAX (length s)) with false by (symmetry; apply Nat.ltb_ge; unfold UNIX_PATH_MAX; lia).
  cbn [unlink_at_exit app parse_loop parse_stmt c_listeners].
  unfold launch. cbn [c_user c_group known andb negb id_of or_minus c_listeners].
  set (p0 := with_umask 63 p).
  assert (E0 : euid p0 = 0) by exact E.
  assert (PL : place p0 s = from (cwd p) s) by (apply (place_from p s R)).
  assert (NE : s <> []) by (intros ->; apply FN; reflexivity).
  assert (B : exists f2, bind_unix (with_umask (Z.ldiff 511 384) p0) s (unlink p0 s f) = Some f2).
  { unfold bind_unix. replace (Nat.ltb 107 (length s)) with false by (symmetry; apply Nat.ltb_ge; exact L).
    destruct s as [|c s]; [contradiction|]. destruct (basename (c :: s)) as [|c' bs] eqn:BS; [contradiction|].
    change (place (with_umask (Z.ldiff 511 384) p0) (c :: s)) with (place p0 (c :: s)). rewrite PL.
    assert (U : unlink p0 (c :: s) f (from (cwd p) (c :: s)) = None).
    { unfold unlink. rewrite PL, BS. unfold remove. rewrite D. cbn [may_write]. rewrite E0. cbn [Z.eqb orb].
      assert (SP : removelast (from (cwd p) (c :: s)) ++ [c' :: bs] = from (cwd p) (c :: s)).
      { rewrite <- PL, <- BS. symmetry. apply place_base. rewrite BS. discriminate. }
      rewrite SP, Q. apply put_same. }
    rewrite U.
    rewrite (unlink_dir p0 (c :: s) f (removelast (from (cwd p) (c :: s)))) by (rewrite D; reflexivity).
    rewrite D. cbn [may_write]. change (euid (with_umask (Z.ldiff 511 384) p0)) with (euid p0). rewrite E0. cbn [Z.eqb orb].
    eexists. reflexivity. }
  destruct B as [f2 B].
  cbn [open_listeners listener_init]. rewrite B. exists f2. split; [reflexivity|].
  apply bind_made in B; [|exact NE]. destruct B as (_ & _ & B).
  change (place (with_umask (Z.ldiff 511 384) p0) s) with (place p0 s) in B. rewrite PL in B. rewrite B.
  cbn [umask with_umask euid egid pid p0]. rewrite E. reflexivity.
Qed.

(** Long names *)
Lemma long_name dp po fg ch p s f : length s = 108%nat -> exists f', start dp po fg ch p [Control [Socket s]] f = Failed f'.
Proof.
  intros L. unfold start. cbn [parse_loop parse_stmt control_loop c_jail conf0 c_exit c_daemon c_pid c_user c_group c_listeners app].
  replace (Nat.ltb UNIX_PATH_MAX (length s)) with false by (rewrite L; reflexivity).
  unfold launch. cbn [c_user c_group known andb negb id_of or_minus c_listeners app open_listeners listener_init].
  unfold bind_unix. replace (Nat.ltb 107 (length s)) with true by (rewrite L; reflexivity).
  eexists. reflexivity.
Qed.

Lemma control_loop_long p f j l : (exists s, In s (named l) /\ (108 < length s)%nat) -> forall so m ow ex, control_loop p f j l so m ow ex = None.
Proof.
  unfold named. induction l as [|x l IH]; intros [s [I L]] so m ow ex; cbn [flat_map] in I; [destruct I|].
  apply in_app_or in I. destruct x as [s'|m'|b]; cbn [control_loop].
  - destruct I as [[->|[]]|I].
    + replace (Nat.ltb UNIX_PATH_MAX (length s)) with true by (symmetry; apply Nat.ltb_lt; exact L). reflexivity.
    + destruct (Nat.ltb _ _); [reflexivity|]. apply IH. eauto.
  - destruct I as [[]|I]. apply IH; eauto.
  - destruct I as [[]|I]. apply IH; eauto.
Qed.

Lemma parse_loop_long p f l : (exists s, In s (all_named l) /\ (108 < length s)%nat) -> forall c, parse_loop p f l c = None.
Proof.
  unfold all_named. induction l as [|x l IH]; intros [s [I L]] c; cbn [flat_map] in I; [destruct I|].
  cbn [parse_loop]. apply in_app_or in I. destruct I as [I|I].
  - destruct x as [d|b|n|u|g|cl|ok]; try destruct I. cbn [parse_stmt].
    rewrite control_loop_long by eauto. reflexivity.
  - destruct (parse_stmt p f c x); [|reflexivity]. apply IH. eauto.
Qed.

Lemma long_refused dp po fg ch p l f s : In s (all_named l) -> (108 < length s)%nat -> start dp po fg ch p l f = Refused.
Proof. intros I L. unfold start. rewrite parse_loop_long by eauto. reflexivity. Qed.

(** * Identity *)
Lemma set_ids_root u g p p' : set_ids u g p = Some p' -> euid p = 0 ->
  (ruid p', euid p', suid p') = match u with Some u' => (u', u', u') | None => (ruid p, euid p, suid p) end /\
  (rgid p', egid p', sgid p') = match g with Some g' => (g', g', g') | None => (rgid p, egid p, sgid p) end.
Proof.
  intros H E. unfold set_ids in H.
  destruct g as [g'|].
  - unfold setgid in H. rewrite E in H. cbn [Z.eqb] in H. unfold setegid in H. cbn [euid with_gids] in H. rewrite E in H. cbn [Z.eqb orb] in H.
    destruct u as [u'|].
    + unfold setuid in H. cbn [euid with_gids] in H. rewrite E in H. cbn [Z.eqb] in H.
      unfold seteuid in H. cbn [euid ruid suid with_uids] in H. rewrite Z.eqb_refl, orb_true_r in H. cbn [orb] in H.
      inversion H; subst. split; reflexivity.
    + inversion H; subst. cbn. split; reflexivity.
  - destruct u as [u'|].
    + unfold setuid in H. rewrite E in H. cbn [Z.eqb] in H.
      unfold seteuid in H. cbn [euid ruid suid with_uids] in H. rewrite Z.eqb_refl, orb_true_r in H. cbn [orb] in H.
      inversion H; subst. split; reflexivity.
    + inversion H; subst. split; reflexivity.
Qed.

Lemma p2_ids fg ch p l (p2 : proc) f : match jail_of l with
    | None => p2 = proc1 fg ch p l
    | Some j => euid (proc1 fg ch p l) = 0 /\ j <> [] /\ is_dir (f (place (proc1 fg ch p l) j)) = true /\ p2 = with_dirs (place (proc1 fg ch p l) j) (place (proc1 fg ch p l) j) (proc1 fg ch p l)
    end -> (ruid p2, euid p2, suid p2) = (ruid p, euid p, suid p) /\ (rgid p2, egid p2, sgid p2) = (rgid p, egid p, sgid p).
Proof.
  destruct (jail_of l); [intros (_ & _ & _ & ->)|intros ->]; unfold proc1; destruct (runs_detached fg l); split; reflexivity.
Qed.

Lemma identity dp po fg ch p l f st : start dp po fg ch p l f = Running st -> euid p = 0 ->
  (ruid (s_proc st), euid (s_proc st), suid (s_proc st)) =
    match id_of (user_of l) with Some u => (u, u, u) | None => (ruid p, euid p, suid p) end /\
  (rgid (s_proc st), egid (s_proc st), sgid (s_proc st)) =
    match id_of (group_of l) with Some g => (g, g, g) | None => (rgid p, egid p, sgid p) end.
Proof.
  intros H E. apply start_running in H. cbv zeta in H. destruct H as (f1 & p2 & _ & _ & _ & _ & J & SI).
  apply p2_ids in J. destruct J as [J1 J2].
  assert (E2 : euid p2 = 0) by (inversion J1; congruence).
  apply set_ids_root in SI; [|exact E2]. destruct SI as [S1 S2]. rewrite J1 in S1. rewrite J2 in S2. auto.
Qed.

Lemma no_way_back p u : (ruid p, euid p, suid p) = (u, u, u) -> u <> 0 -> forall v, v <> u -> setuid v p = None /\ seteuid v p = None.
Proof.
  intros H N v V. inversion H as [[A B C]]. unfold setuid, seteuid.
  replace (euid p =? 0) with false by (symmetry; apply Z.eqb_neq; congruence).
  replace (v =? ruid p) with false by (symmetry; apply Z.eqb_neq; congruence).
  replace (v =? suid p) with false by (symmetry; apply Z.eqb_neq; congruence). auto.
Qed.

Lemma groups_kept dp po fg ch p l f st : start dp po fg ch p l f = Running st -> groups (s_proc st) = groups p.
Proof.
  intros H. apply start_running in H. cbv zeta in H. destruct H as (f1 & p2 & _ & _ & _ & _ & J & SI).
  apply set_ids_dirs in SI. destruct SI as (_ & _ & -> & _).
  destruct (jail_of l); [destruct J as (_ & _ & _ & ->)|subst p2]; unfold proc1; destruct (runs_detached fg l); reflexivity.
Qed.

Lemma unprivileged dp po fg ch p l f st u : start dp po fg ch p l f = Running st -> user_of l = Some (Some u) -> euid (s_proc st) = u.
Proof.
  intros H U. apply start_running in H. cbv zeta in H. destruct H as (f1 & p2 & _ & _ & _ & _ & _ & SI).
  rewrite U in SI. cbn [id_of] in SI. unfold set_ids in SI.
  destruct (match id_of (group_of l) with Some g => _ | None => _ end) as [p3|]; [|discriminate].
  destruct (setuid u p3) as [p4|]; [|discriminate]. unfold seteuid in SI.
  match type of SI with context [if ?b then _ else _] => destruct b end; [|discriminate]. inversion SI. reflexivity.
Qed.

Lemma unknown_fails dp po fg ch p l f : user_of l = Some None \/ group_of l = Some None ->
  start dp po fg ch p l f = Refused \/ start dp po fg ch p l f = Failed f.
Proof.
  intros H. unfold start. destruct (parse_loop (with_umask 63 p) f l (conf0 dp)) as [c|] eqn:P; [|auto].
  apply parse_loop_some in P. cbn [conf0 c_user c_group] in P. destruct P as (_ & _ & _ & P4 & P5 & _).
  destruct (c_listeners c); [auto|]. right. unfold launch.
  rewrite P4, P5. destruct H as [-> | ->]; cbn [over known]; [|rewrite andb_false_r]; reflexivity.
Qed.

Lemma jailed dp po fg ch p l f st j : start dp po fg ch p l f = Running st -> root p = [] -> jail_of l = Some j ->
  forall s, exists r, place (s_proc st) s = from (pid_dir p fg l) j ++ r.
Proof.
  intros H R J s. pose proof (running_dirs _ _ _ _ _ _ _ _ H R) as [RD _]. rewrite J in RD. destruct RD as [R1 R2].
  exists (comps [] s). unfold place. rewrite R1, R2. destruct (absolute s); reflexivity.
Qed.

(** * Addresses *)
Definition lst0 : lst := mkL None None None.

Lemma addr_loop_plain l : (forall s, ~ In (SocketFrom s) l) -> forall x,
  addr_loop l x = Some (mkL (over (last_of (fun y => match y with Address a => Some a | _ => None end) l) (l_addr x))
                            (over (last_of (fun y => match y with Port a => Some a | _ => None end) l) (l_port x)) (l_from x)).
Proof.
  induction l as [|y l IH]; intros N x; cbn [addr_loop last_of over].
  - destruct x; reflexivity.
  - assert (N' : forall s, ~ In (SocketFrom s) l) by (intros s K; apply (N s); right; exact K).
    destruct y as [a|a|s]; cbn [addr_stmt_parse].
    + rewrite IH by exact N'. cbn [l_addr l_port l_from].
      destruct (last_of (fun y => match y with Address a => Some a | _ => None end) l);
      destruct (last_of (fun y => match y with Port a => Some a | _ => None end) l); reflexivity.
    + rewrite IH by exact N'. cbn [l_addr l_port l_from].
      destruct (last_of (fun y => match y with Address a => Some a | _ => None end) l);
      destruct (last_of (fun y => match y with Port a => Some a | _ => None end) l); reflexivity.
    + exfalso. apply (N s). left. reflexivity.
Qed.

Lemma addr_loop_app l1 : forall l2 x, addr_loop (l1 ++ l2) x = match addr_loop l1 x with Some y => addr_loop l2 y | None => None end.
Proof.
  induction l1 as [|y l1 IH]; intros l2 x; cbn [app addr_loop]; [reflexivity|].
  destruct (addr_stmt_parse x y); [apply IH|reflexivity].
Qed.

Lemma addr_loop_set l : forall x y, addr_loop l x = Some y ->
  ((exists a, In (Address a) l) \/ l_addr x <> None -> l_addr y <> None) /\
  ((exists a, In (Port a) l) \/ l_port x <> None -> l_port y <> None).
Proof.
  induction l as [|s l IH]; intros x y H; cbn [addr_loop] in H.
  - inversion H; subst. split; intros [[a []]|K]; exact K.
  - destruct (addr_stmt_parse x s) as [x'|] eqn:P; [|discriminate]. apply IH in H. destruct H as [H1 H2].
    destruct s as [a|a|f]; cbn [addr_stmt_parse] in P.
    + inversion P; subst x'. cbn [l_addr l_port] in *. split.
      * intros _. apply H1. right. discriminate.
      * intros [[a' [K|K]]|K]; [discriminate|apply H2; left; eauto|apply H2; right; exact K].
    + inversion P; subst x'. cbn [l_addr l_port] in *. split.
      * intros [[a' [K|K]]|K]; [discriminate|apply H1; left; eauto|apply H1; right; exact K].
      * intros _. apply H2. right. discriminate.
    + destruct (l_addr x) eqn:EA; [discriminate|]. destruct (l_port x) eqn:EP; [discriminate|].
      destruct (Nat.ltb _ _); [discriminate|]. inversion P; subst x'. cbn [l_addr l_port] in *. split.
      * intros [[a' [K|K]]|K]; [discriminate|apply H1; left; eauto|congruence].
      * intros [[a' [K|K]]|K]; [discriminate|apply H2; left; eauto|congruence].
Qed.

Lemma from_after l1 s l2 : (exists a, In (Address a) l1 \/ In (Port a) l1) -> addr_loop (l1 ++ SocketFrom s :: l2) lst0 = None.
Proof.
  intros [a H]. rewrite addr_loop_app. destruct (addr_loop l1 lst0) as [y|] eqn:E; [|reflexivity].
  apply addr_loop_set in E. destruct E as [E1 E2]. cbn [addr_loop addr_stmt_parse].
  destruct H as [H|H].
  - destruct (l_addr y) as [z|]; [reflexivity|]. exfalso. apply E1; [left; eauto|reflexivity].
  - destruct (l_addr y) as [z|]; [reflexivity|]. destruct (l_port y) as [z|]; [reflexivity|].
    exfalso. apply E2; [left; eauto|reflexivity].
Qed.

Lemma from_before s l : (forall s', ~ In (SocketFrom s') l) -> (length s <= 108)%nat ->
  exists y, addr_loop (SocketFrom s :: l) lst0 = Some y /\ forall gai d, resolve_listener_address gai d y = Some (From s).
Proof.
  intros N L. cbn [addr_loop addr_stmt_parse lst0 l_addr l_port].
  replace (Nat.ltb UNIX_PATH_MAX (length s)) with false by (symmetry; apply Nat.ltb_ge; unfold UNIX_PATH_MAX; lia).
  rewrite addr_loop_plain by exact N. eexists. split; [reflexivity|]. intros gai d. reflexivity.
Qed.

Lemma names_ok gai l : forall names acc names' acc', listeners_loop gai l names acc = Some (names', acc') ->
  names' = names ++ map (fun x => fst (fst x)) l /\
  (NoDup (flat_map (fun n => match n with Some s => [s] | None => [] end) names) ->
   NoDup (flat_map (fun n => match n with Some s => [s] | None => [] end) names')).
Proof.
  induction l as [|[[n d] b] l IH]; intros names acc names' acc' H; cbn [listeners_loop] in H.
  - inversion H; subst. cbn. rewrite app_nil_r. auto.
  - match type of H with (if ?b then _ else _) = _ => destruct b eqn:X end; [discriminate|].
    destruct (addr_loop b _) as [x|]; [|discriminate]. destruct (resolve_listener_address gai d x) as [w|]; [|discriminate].
    apply IH in H. destruct H as [-> H2]. cbn [map fst]. rewrite <- app_assoc. split; [reflexivity|].
    intros ND. rewrite app_assoc. rewrite <- app_assoc in *. apply H2. clear H2 IH.
    rewrite flat_map_app. cbn [flat_map]. rewrite app_nil_r. destruct n as [s|]; [|rewrite app_nil_r; exact ND].
    assert (NI : ~ In s (flat_map (fun n => match n with Some s => [s] | None => [] end) names)).
    { intros K. apply in_flat_map in K. destruct K as [[m|] [K1 K2]]; [|destruct K2]. destruct K2 as [->|[]].
      rewrite <- not_true_iff_false in X. apply X. apply existsb_exists. exists (Some s). split; [exact K1|].
      apply bytes_eqb_eq. reflexivity. }
    clear X. induction (flat_map _ names) as [|y r IHr]; cbn [app]; [repeat constructor; intros []|].
    apply NoDup_cons_iff in ND. destruct ND as [ND1 ND2]. constructor.
    + intros K. apply in_app_or in K. destruct K as [K|[->|[]]]; [exact (ND1 K)|]. apply NI. left. reflexivity.
    + apply IHr; [exact ND2|]. intros K. apply NI. right. exact K.
Qed.

(** A second use of a name *)
Lemma names_dup gai l : forall n names acc, In (Some n) names -> In (Some n) (map (fun x => fst (fst x)) l) -> listeners_loop gai l names acc = None.
Proof.
  induction l as [|[[m d] b] l IH]; intros n names acc I K; cbn [map fst In listeners_loop] in *; [destruct K|].
  match goal with |- (if ?b then _ else _) = _ => destruct b eqn:X end; [reflexivity|].
  destruct K as [->|K].
  - rewrite <- not_true_iff_false in X. exfalso. apply X. apply existsb_exists. exists (Some n). split; [exact I|]. apply bytes_eqb_eq. reflexivity.
  - destruct (addr_loop b _); [|reflexivity]. destruct (resolve_listener_address gai d l0); [|reflexivity].
    apply (IH n); [apply in_or_app; left; exact I|exact K].
Qed.

Lemma untouched dp po fg ch p l f st q :
  start dp po fg ch p l f = Running st -> root p = [] ->
  (forall b s', In (Control b) l -> socket_of b = Some s' -> q <> from (cwd p) s') ->
  q <> from (pid_dir p fg l) (pidfile dp po l) -> s_fs st q = f q.
Proof.
  intros H R N1 N2. apply start_running in H. cbv zeta in H. destruct H as (f1 & p2 & _ & _ & O & PC & _ & _).
  rewrite (pid_create_other _ _ _ _ _ _ _ _ PC) by (rewrite (place_p1 fg ch p l _ R); exact N2).
  apply (open_other _ _ _ _ _ _ _ _ O). intros K. apply places_lst in K. destruct K as (b & s & K1 & K2 & K3).
  apply (N1 b s K1 K2). rewrite K3. apply (place_from p s R).
Qed.

Lemma stray dp po fg ch p l f st b s :
  let q := from (cwd p) s in
  start dp po fg ch p l f = Running st -> root p = [] -> jail_of l = None -> absolute s = true -> file_name s ->
  In (Control b) l -> In s (named b) ->
  (forall b' s', In (Control b') l -> socket_of b' = Some s' -> q <> from (cwd p) s') ->
  q <> from (pid_dir p fg l) (pidfile dp po l) ->
  may_write (s_proc st) (s_fs st (removelast q)) = true ->
  s_fs st q = f q /\ present (finish st q) = false.
Proof.
  cbv zeta. intros H R J AB FN I1 I2 N1 N2 W. split.
  - eapply untouched; eassumption.
  - eapply removed_socket; try eassumption.
    + left. exact J.
    + eapply named_all; eassumption.
    + intros _. left. exact AB.
    + intros K. contradiction.
Qed.

Lemma address_last gai d body : (forall s, ~ In (SocketFrom s) body) ->
  exists y, addr_loop body lst0 = Some y /\
    resolve_listener_address gai d y =
      match gai (last_of (fun x => match x with Address a => Some a | _ => None end) body)
                (or (last_of (fun x => match x with Port a => Some a | _ => None end) body) d) with
      | [] => None
      | [a] => Some (On a)
      | a :: b :: _ => Some (On (if negb (ai_inet6 a) && ai_any a && ai_inet6 b && ai_any b then b else a))
      end.
Proof.
  intros N. rewrite addr_loop_plain by exact N. eexists. split; [reflexivity|].
  unfold resolve_listener_address. cbn [l_from l_addr l_port lst0].
  destruct (last_of (fun x => match x with Address a => Some a | _ => None end) body);
  destruct (last_of (fun x => match x with Port a => Some a | _ => None end) body); reflexivity.
Qed.
