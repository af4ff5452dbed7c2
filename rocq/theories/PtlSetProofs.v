(** Which daemon poundctl talks to: proofs about its settings. *)
From Coq Require Import Ascii String List ZArith Bool Lia.
From Verif Require Import Bytes PtlModel PtlSpec.
Import ListNotations.
Local Open Scope string_scope.
Local Open Scope list_scope.
Local Open Scope nat_scope.

Lemma last_app : forall (A B : Type) (f : A -> option B) a b, last_said f (a ++ b) = either (last_said f b) (last_said f a).
Proof.
  intros A B f a b. induction a as [|x a IH]; cbn [app last_said]; [destruct (last_said f b); reflexivity|].
  rewrite IH. destruct (last_said f b); reflexivity.
Qed.
Lemma either_none : forall (A : Type) (a : option A), either a None = a.
Proof. intros A [a|]; reflexivity. Qed.
Lemma last_cons : forall (A B : Type) (f : A -> option B) x l, last_said f (x :: l) = either (last_said f l) (f x).
Proof. intros A B f x l. cbn [last_said]. destruct (last_said f l); reflexivity. Qed.

(** ** Members *)

Lemma fold_assign : forall l v, let w := fold_left assign l v in
  s_url w = either (last_said url_said l) (s_url v) /\ ca_file w = either (last_said ca_file_said l) (ca_file v)
  /\ ca_path w = either (last_said ca_path_said l) (ca_path v) /\ cert w = either (last_said cert_said l) (cert v)
  /\ verify w = or_else (last_said verify_said l) (verify v).
Proof.
  intros l. induction l as [|x l IH]; intros v; cbn zeta; [repeat (split; [reflexivity|]); reflexivity|].
  cbn [fold_left]. destruct (IH (assign v x)) as (A & B & C & D & E). rewrite A, B, C, D, E. rewrite !last_cons.
  repeat split; destruct x; cbn [assign s_url ca_file ca_path cert verify url_said ca_file_said ca_path_said cert_said verify_said];
    match goal with |- context [last_said ?f l] => destruct (last_said f l); reflexivity end.
Qed.

(** ** The file *)

Definition blank_server : server := mkServer None None None None false.
Definition section (p : bytes * list server_stmt) : bytes * server := (fst p, fold_left assign (snd p) blank_server).
Lemma find_none : forall n l, ~ In n (map fst l) <-> find_server n l = None.
Proof.
  intros n l. unfold find_server. induction l as [|[m v] l IH]; cbn [find map fst]; [split; [reflexivity|intros _ []]|].
  destruct (bytes_eqb m n) eqn:E.
  - apply bytes_eqb_eq in E. subst m. split; [intros H; exfalso; apply H; left; reflexivity|discriminate].
  - rewrite <- IH. split; [intros H I; apply H; right; exact I|intros H [I|I]; [subst m; rewrite bytes_eqb_refl in E; discriminate E|exact (H I)]].
Qed.
Lemma find_section : forall n ss, In n (map fst ss) -> exists body, In (n, body) ss /\ find_server n (map section ss) = Some (fold_left assign body blank_server).
Proof.
  intros n ss. unfold find_server. induction ss as [|[m b] ss IH]; cbn [map find fst In section]; [intros []|].
  destruct (bytes_eqb m n) eqn:E.
  - apply bytes_eqb_eq in E. subst m. intros _. exists b. split; [left; reflexivity|reflexivity].
  - intros [I|I]; [subst m; rewrite bytes_eqb_refl in E; discriminate E|]. destruct (IH I) as (body & A & B). exists body. split; [right; exact A|exact B].
Qed.
Lemma sections_names : forall ss, map fst (map section ss) = map fst ss.
Proof. intros ss. rewrite map_map. reflexivity. Qed.

Lemma read_config_spec : forall config s, NoDup (map fst (servers s) ++ map fst (sections config)) ->
  exists s', read_config s config = Some s' /\ default s' = fold_left assign (at_top config) (default s)
    /\ servers s' = servers s ++ map section (sections config) /\ current s' = current s
    /\ tmpl_file s' = or_else (last_said file_said config) (tmpl_file s)
    /\ tmpl_name s' = or_else (last_said name_said config) (tmpl_name s)
    /\ conf_name s' = conf_name s /\ json_option s' = json_option s.
Proof.
  intros config. induction config as [|x config IH]; intros s N.
  - exists s. cbn. rewrite app_nil_r. repeat (split; [reflexivity|]). reflexivity.
  - cbn [read_config]. assert (G : exists s1, read_stmt s x = Some s1
      /\ default s1 = fold_left assign (at_top [x]) (default s) /\ servers s1 = servers s ++ map section (sections [x]) /\ current s1 = current s
      /\ tmpl_file s1 = or_else (file_said x) (tmpl_file s) /\ tmpl_name s1 = or_else (name_said x) (tmpl_name s)
      /\ conf_name s1 = conf_name s /\ json_option s1 = json_option s).
    { destruct x as [y|t|t|t|n b]; cbn [read_stmt].
      1-4: eexists; split; [reflexivity|]; cbn; rewrite app_nil_r; repeat (split; [reflexivity|]); reflexivity.
      assert (F : find_server n (servers s) = None).
      { apply find_none. change (sections (Server n b :: config)) with ((n, b) :: sections config) in N. cbn [map fst] in N.
        apply NoDup_remove_2 in N. intros I. apply N. apply in_or_app. left. exact I. }
      rewrite F. eexists. split; [reflexivity|]. repeat (split; [reflexivity|]). reflexivity. }
    destruct G as (s1 & -> & D & V & C & TF & TN & CN & J).
    assert (ES : sections (x :: config) = sections [x] ++ sections config) by (unfold sections; cbn [flat_map]; rewrite app_nil_r; reflexivity).
    assert (ET : at_top (x :: config) = at_top [x] ++ at_top config) by (unfold at_top; cbn [flat_map]; rewrite app_nil_r; reflexivity).
    destruct (IH s1) as (s' & R & D' & V' & C' & TF' & TN' & CN' & J').
    { rewrite V, map_app, sections_names, <- app_assoc, <- map_app, <- ES. exact N. }
    exists s'. split; [exact R|]. rewrite D', V', C', TF', TN', CN', J', D, V, C, TF, TN, CN, J, ES, ET, fold_left_app, map_app, app_assoc, !last_cons.
    repeat (split; [try reflexivity|]).
    + destruct (last_said file_said config); reflexivity.
    + destruct (last_said name_said config); reflexivity.
    + reflexivity.
Qed.
Lemma read_config_names : forall config s s', read_config s config = Some s' -> NoDup (map fst (servers s)) ->
  NoDup (map fst (servers s) ++ map fst (sections config)).
Proof.
  intros config. induction config as [|x config IH]; intros s s' R N; [cbn; rewrite app_nil_r; exact N|].
  cbn [read_config] in R. destruct x as [y|t|t|t|n b]; cbn [read_stmt] in R; try (apply IH in R; [exact R|exact N]).
  destruct (find_server n (servers s)) as [v|] eqn:F; [discriminate R|]. apply find_none in F.
  apply IH in R; cbn [servers] in *; rewrite map_app in *; cbn [map fst] in *.
  - change (sections (Server n b :: config)) with ((n, b) :: sections config). cbn [map fst]. rewrite <- app_assoc in R. exact R.
  - apply NoDup_Add with (a := n) (l := map fst (servers s)); [|split; [exact N|exact F]].
    pose proof (Add_app n (map fst (servers s)) []) as A. rewrite app_nil_r in A. exact A.
Qed.

(** ** Options *)

Lemma options_app : forall a b s, options s (a ++ b) = match options s a with Some s => options s b | None => None end.
Proof. intros a. induction a as [|o a IH]; intros b s; cbn [app options]; [reflexivity|]. destruct (option_step s o); [apply IH|reflexivity]. Qed.
Lemma options_head : forall o1 s, (forall n, In (OptS n) o1 -> In n (map fst (servers s))) -> Forall (fun o => about_server o = []) o1 ->
  exists s', options s o1 = Some s' /\ default s' = default s /\ servers s' = servers s
    /\ current s' = either (last_said selects o1) (current s)
    /\ tmpl_file s' = or_else (last_said file_opt o1) (tmpl_file s) /\ tmpl_name s' = or_else (last_said name_opt o1) (tmpl_name s)
    /\ conf_name s' = or_else (last_said conf_said o1) (conf_name s).
Proof.
  intros o1. induction o1 as [|o o1 IH]; intros s N A; [exists s; repeat (split; [reflexivity|]); reflexivity|].
  apply Forall_inv in A as Ao. apply Forall_inv_tail in A. cbn [options].
  assert (G : exists s1, option_step s o = Some s1 /\ default s1 = default s /\ servers s1 = servers s /\ current s1 = either (selects o) (current s)
    /\ tmpl_file s1 = or_else (file_opt o) (tmpl_file s) /\ tmpl_name s1 = or_else (name_opt o) (tmpl_name s)
    /\ conf_name s1 = or_else (conf_said o) (conf_name s)).
  { destruct o as [t d|t|n|u| |t| |t|t]; cbn [option_step]; try discriminate Ao; try (eexists; split; [reflexivity|]; repeat (split; [reflexivity|]); reflexivity).
    - destruct d; discriminate Ao.
    - destruct (find_server n (servers s)) as [v|] eqn:F; [eexists; split; [reflexivity|]; repeat (split; [reflexivity|]); reflexivity|].
      exfalso. apply find_none in F. apply F, N. left. reflexivity. }
  destruct G as (s1 & -> & D & V & C & TF & TN & CN).
  destruct (IH s1) as (s' & R & D' & V' & C' & TF' & TN' & CN'); [intros n I; rewrite V; apply N; right; exact I|exact A|].
  exists s'. split; [exact R|]. rewrite D', V', C', TF', TN', CN', D, V, C, TF, TN, CN, !last_cons.
  repeat (split; [try reflexivity|]).
  - destruct (last_said selects o1); reflexivity.
  - destruct (last_said file_opt o1); reflexivity.
  - destruct (last_said name_opt o1); reflexivity.
  - destruct (last_said conf_said o1); reflexivity.
Qed.

Lemma change_names : forall n f l, map fst (change_server n f l) = map fst l.
Proof. intros n f l. induction l as [|[m v] l IH]; cbn [change_server map fst]; [reflexivity|]. destruct (bytes_eqb m n); cbn [map fst]; [reflexivity|rewrite IH; reflexivity]. Qed.
Lemma change_found : forall n f l v, find_server n l = Some v -> find_server n (change_server n f l) = Some (f v).
Proof.
  intros n f l v. unfold find_server. induction l as [|[m w] l IH]; cbn [change_server find fst]; [discriminate|].
  destruct (bytes_eqb m n) eqn:E; cbn [find fst]; rewrite E; [|exact IH]. intros H. injection H as <-. reflexivity.
Qed.
Lemma to_server_spec : forall s x v, the_server s = Some v ->
  the_server (to_server s x) = Some (assign v x) /\ current (to_server s x) = current s /\ tmpl_file (to_server s x) = tmpl_file s
  /\ tmpl_name (to_server s x) = tmpl_name s /\ conf_name (to_server s x) = conf_name s.
Proof.
  intros s x v H. unfold the_server, to_server in *. destruct (current s) as [n|] eqn:C; cbn [current].
  - cbn [servers]. rewrite (change_found n (fun v => assign v x) (servers s) v H). repeat (split; [reflexivity|]). reflexivity.
  - injection H as H. cbn. rewrite H. repeat (split; [reflexivity|]). reflexivity.
Qed.
Lemma options_tail : forall o2 s v, the_server s = Some v -> Forall (fun o => selects o = None) o2 ->
  exists s', options s o2 = Some s' /\ the_server s' = Some (fold_left assign (flat_map about_server o2) v) /\ current s' = current s
    /\ tmpl_file s' = or_else (last_said file_opt o2) (tmpl_file s) /\ tmpl_name s' = or_else (last_said name_opt o2) (tmpl_name s)
    /\ conf_name s' = or_else (last_said conf_said o2) (conf_name s).
Proof.
  intros o2. induction o2 as [|o o2 IH]; intros s v T A; [exists s; split; [reflexivity|]; split; [exact T|]; repeat (split; [reflexivity|]); reflexivity|].
  apply Forall_inv in A as Ao. apply Forall_inv_tail in A. cbn [options].
  assert (G : exists s1, option_step s o = Some s1 /\ the_server s1 = Some (fold_left assign (about_server o) v) /\ current s1 = current s
    /\ tmpl_file s1 = or_else (file_opt o) (tmpl_file s) /\ tmpl_name s1 = or_else (name_opt o) (tmpl_name s)
    /\ conf_name s1 = or_else (conf_said o) (conf_name s)).
  { destruct o as [t d|t|n|u| |t| |t|t]; cbn [option_step]; try discriminate Ao.
    1: destruct d; (eexists; split; [reflexivity|]; exact (to_server_spec s _ v T)).
    1, 3, 6, 7: eexists; (split; [reflexivity|]); (split; [exact T|]); repeat (split; [reflexivity|]); reflexivity.
    all: eexists; split; [reflexivity|]; exact (to_server_spec s _ v T). }
  destruct G as (s1 & -> & V & C & TF & TN & CN).
  destruct (IH s1 _ V A) as (s' & R & V' & C' & TF' & TN' & CN').
  exists s'. split; [exact R|]. rewrite V', C', TF', TN', CN', C, TF, TN, CN, !last_cons. cbn [flat_map]. rewrite fold_left_app.
  repeat (split; [try reflexivity|]).
  - destruct (last_said file_opt o2); reflexivity.
  - destruct (last_said name_opt o2); reflexivity.
  - destruct (last_said conf_said o2); reflexivity.
Qed.
Lemma about_none : forall o1, Forall (fun o => about_server o = []) o1 -> flat_map about_server o1 = [].
Proof. intros o1 A. induction A as [|o o1 Ao A IH]; [reflexivity|]. cbn [flat_map]. rewrite Ao, IH. reflexivity. Qed.
Lemma selects_none : forall o2, Forall (fun o => selects o = None) o2 -> last_said selects o2 = None.
Proof. intros o1 A. induction A as [|o o1 Ao A IH]; [reflexivity|]. cbn [last_said]. rewrite IH. exact Ao. Qed.
Lemma last_selected : forall o n, last_said selects o = Some n -> In (OptS n) o.
Proof.
  intros o n. induction o as [|x o IH]; cbn [last_said]; [discriminate|]. destruct (last_said selects o) as [m|].
  - intros H. right. exact (IH H).
  - intros H. left. destruct x; try discriminate H. injection H as ->. reflexivity.
Qed.

(** ** Both *)

Lemma settled : forall pc config opts, well_named config opts -> in_order opts ->
  exists s1 s v, read_config (initial pc) config = Some s1 /\ options s1 opts = Some s /\ the_server s = Some v /\ configured config opts v
    /\ tmpl_file s = or_else (either (last_said file_opt opts) (last_said file_said config)) (lit "poundctl.tmpl")
    /\ tmpl_name s = or_else (either (last_said name_opt opts) (last_said name_said config)) (lit "default")
    /\ conf_name s = or_else (last_said conf_said opts) pc.
Proof.
  intros pc config opts [N W] (o1 & o2 & -> & A & B).
  destruct (read_config_spec config (initial pc)) as (s1 & R & D & V & C & TF & TN & CN & J); [exact N|].
  cbn in D, V, C, TF, TN, CN, J.
  assert (VN : map fst (servers s1) = map fst (sections config)) by (rewrite V; apply sections_names).
  destruct (options_head o1 s1) as (s2 & R2 & D2 & V2 & C2 & TF2 & TN2 & CN2); [intros n I; rewrite VN; apply W; apply in_or_app; left; exact I|exact A|].
  rewrite C, either_none in C2.
  assert (G : exists body v, in_use config (o1 ++ o2) body /\ the_server s2 = Some v
     /\ v = fold_left assign body (if match last_said selects o1 with None => true | Some _ => false end then default_server else blank_server)).
  { unfold in_use. rewrite last_app, (selects_none o2 B). cbn [either]. unfold the_server. rewrite C2. destruct (last_said selects o1) as [n|] eqn:L.
    - destruct (find_section n (sections config)) as (body & I & F); [apply W, in_or_app; left; apply last_selected, L|].
      exists body, (fold_left assign body blank_server). split; [exact I|]. rewrite V2, V, F. split; reflexivity.
    - exists (at_top config), (default s2). split; [reflexivity|]. split; [reflexivity|]. rewrite D2, D. reflexivity. }
  destruct G as (body & v & U & T & Ev).
  destruct (options_tail o2 s2 v T B) as (s3 & R3 & V3 & C3 & TF3 & TN3 & CN3).
  exists s1, s3, (fold_left assign (flat_map about_server o2) v). split; [exact R|]. split; [rewrite options_app, R2; exact R3|]. split; [exact V3|].
  split.
  - exists body. split; [exact U|]. cbv zeta. rewrite flat_map_app, (about_none o1 A). cbn [app].
    rewrite (last_app _ _ selects), (selects_none o2 B). cbn [either].
    destruct (fold_assign (flat_map about_server o2) v) as (P1 & P2 & P3 & P4 & P5). rewrite P1, P2, P3, P4, P5. rewrite !last_app.
    set (d := if match last_said selects o1 with None => true | Some _ => false end then default_server else blank_server) in Ev. rewrite Ev.
    destruct (fold_assign body d) as (Q1 & Q2 & Q3 & Q4 & Q5). rewrite Q1, Q2, Q3, Q4, Q5.
    assert (X : s_url d = None /\ ca_file d = None /\ ca_path d = None /\ cert d = None /\ verify d = match last_said selects o1 with None => true | Some _ => false end).
    { unfold d. destruct (last_said selects o1); repeat (split; [reflexivity|]); reflexivity. }
    destruct X as (X1 & X2 & X3 & X4 & X5). rewrite X1, X2, X3, X4, X5, !either_none. repeat (split; [reflexivity|]).
    destruct (last_said verify_said (flat_map about_server o2)); [reflexivity|]. destruct (last_said verify_said body); reflexivity.
  - rewrite TF3, TF2, TF, TN3, TN2, TN, CN3, CN2, CN, !last_app. split; [|split].
    + destruct (last_said file_opt o2), (last_said file_opt o1), (last_said file_said config); reflexivity.
    + destruct (last_said name_opt o2), (last_said name_opt o1), (last_said name_said config); reflexivity.
    + destruct (last_said conf_said o2), (last_said conf_said o1); reflexivity.
Qed.

Theorem main_settings : forall pc dp ep file config opts, well_named config opts -> in_order opts ->
  exists s v, configured config opts v
    /\ tmpl_file s = or_else (either (last_said file_opt opts) (last_said file_said config)) (lit "poundctl.tmpl")
    /\ tmpl_name s = or_else (either (last_said name_opt opts) (last_said name_said config)) (lit "default")
    /\ tmpl_path s = or_else ep dp
    /\ main pc dp ep file config opts =
       match either (s_url v) (match file (or_else (last_said conf_said opts) pc) with Some t => get_socket_name t | None => None end) with
       | None => Fail
       | Some u => match url_parse u with
                   | Parsed x => Connect s (mkServer (Some u) (ca_file v) (ca_path v) (cert v) (verify v)) x
                   | _ => Fail
                   end
       end.
Proof.
  intros pc dp ep file config opts W O. destruct (settled pc config opts W O) as (s1 & s & v & R & P & T & CF & TF & TN & CN).
  exists (mkSettings (default s) (servers s) (current s) (tmpl_file s) (tmpl_name s) (or_else ep dp) (conf_name s) (json_option s)), v.
  split; [exact CF|]. split; [exact TF|]. split; [exact TN|]. split; [reflexivity|].
  unfold main. rewrite R, P. cbv zeta. unfold the_server in *. cbn [current default servers conf_name]. rewrite T, CN.
  destruct (s_url v) as [u|]; reflexivity.
Qed.

Lemma options_named : forall l s s', options s l = Some s' -> forall n, In (OptS n) l -> In n (map fst (servers s)).
Proof.
  intros l. induction l as [|o l IH]; intros s s' R n; cbn [options In] in *; [intros []|].
  destruct (option_step s o) as [s1|] eqn:E; [|discriminate R].
  assert (V : map fst (servers s1) = map fst (servers s)).
  { destruct o as [t d|t|m|u| |t| |t|t]; cbn [option_step] in E; try (injection E as <-; reflexivity).
    all: try (injection E as <-; unfold to_server; destruct (current s); cbn [servers]; [apply change_names|reflexivity]).
    destruct (find_server m (servers s)); [injection E as <-; reflexivity|discriminate E]. }
  intros [I|I]; [|rewrite <- V; exact (IH s1 s' R n I)]. subst o. cbn [option_step] in E.
  destruct (find_server n (servers s)) eqn:F; [|discriminate E]. destruct (in_dec (list_eq_dec ascii_dec) n (map fst (servers s))) as [J|J]; [exact J|].
  apply find_none in J. rewrite J in F. discriminate F.
Qed.
Theorem main_named : forall pc dp ep file config opts s v x, main pc dp ep file config opts = Connect s v x -> well_named config opts.
Proof.
  intros pc dp ep file config opts s v x H. unfold main in H. destruct (read_config (initial pc) config) as [s1|] eqn:R; [|discriminate H].
  destruct (options s1 opts) as [s2|] eqn:P; [|discriminate H]. clear H.
  pose proof (read_config_names config (initial pc) s1 R (NoDup_nil _)) as N. split; [exact N|].
  intros n I. pose proof (options_named opts s1 s2 P n I) as K.
  destruct (read_config_spec config (initial pc) N) as (s1' & R' & _ & V & _). rewrite R in R'. injection R' as <-.
  rewrite V in K. cbn [servers initial app] in K. rewrite sections_names in K. exact K.
Qed.
