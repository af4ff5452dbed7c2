(** Proofs for C69: the program as a whole. *)
From Coq Require Import Ascii String List ZArith Bool Lia Sorted.
From Verif Require Import Bytes StreamModel NumModel TplModel TflModel TflSpec TflProofs TflTextProofs.
From Verif Require JsonModel JsonSpec TevModel TevSpec TevProps TplSpec TplProps AnsModel AnsProofs AnsMoreProofs CtlModel.
Import ListNotations.
Local Open Scope string_scope.
Local Open Scope list_scope.
Local Open Scope nat_scope.

Lemma read_formed : forall N (v : JsonModel.jv N), JsonSpec.good N 0 v -> TevSpec.formed N (JsonSpec.as_read N v).
Proof.
  intros N. fix IH 1. intros v. destruct v as [|b|n|n|s|l|l]; intros G; cbn [JsonSpec.as_read]; try constructor.
  - assert (F : Forall (JsonSpec.good N 0) l) by (inversion G; assumption). clear G. induction l as [|x l IL]; [constructor|]. cbn [map]. inversion F as [|? ? Fx Fl]; subst. constructor; [apply IH, Fx|apply IL, Fl].
  - assert (F : Forall (fun p => JsonSpec.plain (fst p) /\ JsonSpec.good N 0 (snd p)) l) by (inversion G; assumption). clear G.
    induction l as [|x l IL]; [constructor|]. cbn [map]. inversion F as [|? ? Fx Fl]; subst. constructor; [cbn [snd]; destruct x as [k v]; apply IH; exact (proj2 Fx)|apply IL, Fl].
  - assert (S : StronglySorted JsonSpec.precedes (map fst l)) by (inversion G; assumption). clear G. rewrite map_map. cbn [fst]. exact S.
Qed.

Lemma lookup_stands : forall T n b, TevSpec.stands_for T n b -> template_lookup n T = Some b.
Proof.
  intros T n b (l & l' & -> & NI). unfold template_lookup. induction l as [|[m x] l IH]; cbn [app find fst].
  - assert (E : bytes_eqb n n = true) by (apply bytes_eqb_eq; reflexivity). rewrite E. reflexivity.
  - destruct (bytes_eqb m n) eqn:E; [apply bytes_eqb_eq in E; subst; exfalso; apply NI; left; reflexivity|]. apply IH. intros H. apply NI. right. exact H.
Qed.
Lemma lookup_none : forall T n, ~ In n (map fst T) -> template_lookup n T = None.
Proof.
  intros T n. unfold template_lookup. induction T as [|[m x] T IH]; intros NI; [reflexivity|]. cbn [find fst].
  destruct (bytes_eqb m n) eqn:E; [apply bytes_eqb_eq in E; subst; exfalso; apply NI; left; reflexivity|]. apply IH. intros H. apply NI. right. exact H.
Qed.

Lemma read_good : forall fs home path file f text acts T, find_template_file fs home path file = Found f (Regular text) -> text <> [] -> ~ In NUL text ->
  TplSpec.template_text [] text acts T -> exists n, forall fuel, n <= fuel -> read_template fs home fuel path file = Templates T.
Proof.
  intros fs home path file f text acts T F NE NN TT. destruct (TplProps.C63_reads_partial [] text acts T TT) as (n & H). exists n. intros fuel L.
  unfold read_template. rewrite F. destruct text as [|c t]; [congruence|]. cbv zeta. rewrite (AnsProofs.cstr_all (c :: t) NN), (H fuel L). reflexivity.
Qed.
Lemma read_bad : forall fs home path file f text e, find_template_file fs home path file = Found f (Regular text) -> text <> [] -> ~ In NUL text ->
  TplSpec.faulty TplSpec.Outside false false [] text e ->
  exists n line col, (forall fuel, n <= fuel -> read_template fs home fuel path file = Faulty e line col) /\ exists a z, text = a ++ z /\ is_at a line col.
Proof.
  intros fs home path file f text e F NE NN TF. destruct (TplProps.C63_refuses_partial [] text e TF) as (n & off & H).
  exists n, (line_no (S off) text off), (off - line_start text off). split.
  - intros fuel L. unfold read_template. rewrite F. destruct text as [|c t]; [congruence|]. cbv zeta. rewrite (AnsProofs.cstr_all (c :: t) NN), (H fuel L). reflexivity.
  - destruct (error_within n [] text e off (H n (le_n n))) as (a & z & -> & <-). exists a, z. split; [reflexivity|]. apply position.
Qed.
Lemma faulty_at : forall fs home fuel path file e line col, read_template fs home fuel path file = Faulty e line col ->
  exists f text a z, find_template_file fs home path file = Found f (Regular text) /\ text = a ++ z /\ is_at a line col.
Proof.
  intros fs home fuel path file e line col H. unfold read_template in H. destruct (find_template_file fs home path file) as [f n| |] eqn:F; try discriminate H.
  destruct n as [| | |t|]; try discriminate H. destruct t as [|c t]; [discriminate H|]. cbv zeta in H. remember (cstr_of (c :: t)) as tx eqn:TX.
  destruct (template_parse fuel [] tx) as [r|w| |] eqn:P; try discriminate H. destruct r as [acts l|e' off]; [discriminate H|]. injection H as -> <- <-.
  destruct (error_within _ _ _ _ _ P) as (a & z & E & <-). destruct (AnsMoreProofs.cstr_prefix (c :: t)) as (u & U).
  exists f, (c :: t), a, (z ++ u). split; [reflexivity|]. split; [rewrite app_assoc, <- E, TX; exact U|].
  rewrite E. apply position.
Qed.
