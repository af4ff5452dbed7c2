(** Proofs about JSON values in memory (C80). *)
From Coq Require Import List Arith ZArith Bool Lia.
From Verif Require Import Bytes JsonModel JsonProofs JmModel JmSpec.
Import ListNotations.

(** * Lists *)
Lemma length_put A (l : list A) : forall i x, length (put l i x) = length l.
Proof. induction l as [|y l IH]; intros [|i] x; cbn [put length]; auto. Qed.

Lemma nth_put_same A (l : list A) : forall i x, i < length l -> nth_error (put l i x) i = Some x.
Proof. induction l as [|y l IH]; intros [|i] x H; cbn in *; try lia; [reflexivity|]. apply IH. lia. Qed.

Lemma nth_put_other A (l : list A) : forall i j x, j <> i -> nth_error (put l i x) j = nth_error l j.
Proof. induction l as [|y l IH]; intros [|i] [|j] x H; cbn; try reflexivity; try lia. apply IH. lia. Qed.

Lemma nth_lt A (l : list A) i x : nth_error l i = Some x -> i < length l.
Proof. intros H. apply nth_error_Some. congruence. Qed.

Lemma nth_app_l A (l l' : list A) i : i < length l -> nth_error (l ++ l') i = nth_error l i.
Proof. apply nth_error_app1. Qed.

Lemma nth_end A (l : list A) x : nth_error (l ++ [x]) (length l) = Some x.
Proof. rewrite nth_error_app2, Nat.sub_diag by lia. reflexivity. Qed.

Lemma nth_end0 A (l : list A) x r : nth_error (l ++ x :: r) (length l) = Some x.
Proof. rewrite nth_error_app2, Nat.sub_diag by lia. reflexivity. Qed.
Lemma nth_end1 A (l : list A) x y r : nth_error (l ++ x :: y :: r) (S (length l)) = Some y.
Proof. rewrite nth_error_app2 by lia. replace (S (length l) - length l) with 1 by lia. reflexivity. Qed.
Lemma nth_end2 A (l : list A) x y z r : nth_error (l ++ x :: y :: z :: r) (S (S (length l))) = Some z.
Proof. rewrite nth_error_app2 by lia. replace (S (S (length l)) - length l) with 2 by lia. reflexivity. Qed.

Lemma put_app_end A (l r : list A) x y : put (l ++ x :: r) (length l) y = l ++ y :: r.
Proof. induction l as [|z l IH]; cbn; [reflexivity|]. f_equal. exact IH. Qed.

Lemma put_end1 A (l r : list A) x y z : put (l ++ x :: y :: r) (S (length l)) z = l ++ x :: z :: r.
Proof. induction l as [|u l IH]; cbn [app length put]; [reflexivity|]. f_equal. exact IH. Qed.

Lemma nodup_app A (l l' : list A) : NoDup l -> NoDup l' -> (forall x, In x l -> ~ In x l') -> NoDup (l ++ l').
Proof.
  induction l as [|x l IH]; intros N N' D; [exact N'|]. cbn. inversion N as [|? ? X Y]; subst. constructor.
  - rewrite in_app_iff. intros [H|H]; [contradiction|]. apply (D x); [left; reflexivity|exact H].
  - apply IH; [exact Y|exact N'|]. intros y H. apply D. right. exact H.
Qed.

Lemma nodup_app_inv A (l l' : list A) : NoDup (l ++ l') -> NoDup l /\ NoDup l' /\ (forall x, In x l -> ~ In x l').
Proof.
  induction l as [|x l IH]; cbn; intros N; [repeat split; [constructor|exact N|contradiction]|].
  inversion N as [|? ? X Y]; subst. destruct (IH Y) as (A1 & A2 & A3). rewrite in_app_iff in X. repeat split.
  - constructor; [|exact A1]. intros H. apply X. left. exact H.
  - exact A2.
  - intros y [<-|H]; [intros K; apply X; right; exact K|apply A3; exact H].
Qed.

(** * Each *)
Lemma each_impl X Y (f g : X -> option (Y * list nat)) l : forall ys us, each f l = Some (ys, us) ->
  (forall x y u, In x l -> f x = Some (y, u) -> (forall i, In i u -> In i us) -> g x = Some (y, u)) -> each g l = Some (ys, us).
Proof.
  induction l as [|x l IH]; intros ys us H G; cbn [each] in *; [exact H|].
  destruct (f x) as [[y u]|] eqn:F; [|discriminate]. destruct (each f l) as [[ys' us']|]; [|discriminate]. inversion H; subst.
  rewrite (G x y u); [|left; reflexivity|exact F|intros i I; apply in_or_app; left; exact I].
  rewrite (IH ys' us'); [reflexivity|reflexivity|]. intros x' y' u' I F' S. apply G; [right; exact I|exact F'|].
  intros i K. apply in_or_app. right. apply S. exact K.
Qed.

Lemma each_app X Y (f : X -> option (Y * list nat)) l : forall l', each f (l ++ l') =
  match each f l, each f l' with Some (a, u), Some (b, v) => Some (a ++ b, u ++ v) | _, _ => None end.
Proof.
  induction l as [|x l IH]; intros l'; cbn [app each].
  - destruct (each f l') as [[b v]|]; reflexivity.
  - destruct (f x) as [[y u]|]; [|reflexivity]. rewrite IH. destruct (each f l) as [[a u']|]; [|reflexivity].
    destruct (each f l') as [[b v]|]; [|reflexivity]. cbn. rewrite app_assoc. reflexivity.
Qed.

Lemma each_length X Y (f : X -> option (Y * list nat)) l : forall ys us, each f l = Some (ys, us) -> length ys = length l.
Proof.
  induction l as [|x l IH]; intros ys us H; cbn [each] in H; [inversion H; reflexivity|].
  destruct (f x) as [[y u]|]; [|discriminate]. destruct (each f l) as [[a v]|]; [|discriminate]. inversion H; subst. cbn. f_equal. eapply IH. reflexivity.
Qed.

(** * Looking *)
Definition follow (n : nat) (h : heap) (p : ptr) : option (json * list nat) := match p with P b => look n h b | _ => None end.
Definition pairf (n : nat) (h : heap) (q : nat) : option ((bytes * json) * list nat) :=
  match nth_error h q with
  | Some (BPair k v) =>
      match nth_error h k, follow n h v with
      | Some (BText t), Some (x, us) => Some ((t, x), q :: k :: us)
      | _, _ => None
      end
  | _ => None
  end.

Lemma look_S n h a : look (S n) h a =
  match nth_error h a with
  | Some (BVal VNull) => Some (JNull, [a])
  | Some (BVal (VBool b)) => Some (JBool b, [a])
  | Some (BVal (VNumber z)) => Some (JNumber z, [a])
  | Some (BVal (VInteger z)) => Some (JInteger z, [a])
  | Some (BVal (VString s)) => match nth_error h s with Some (BText t) => Some (JString t, [a; s]) | _ => None end
  | Some (BVal (VArray r)) =>
      match nth_error h r with
      | Some (BArray oc on None) => if (oc =? 0) && (on =? 0) then Some (JArray [], [a; r]) else None
      | Some (BArray oc on (Some w)) =>
          match nth_error h w with
          | Some (BVec sl) =>
              if (oc <=? on) && (on =? length sl) then
                match each (follow n h) (firstn oc sl) with
                | Some (l, us) => Some (JArray l, a :: r :: w :: us)
                | None => None
                end
              else None
          | _ => None
          end
      | _ => None
      end
  | Some (BVal (VObject o)) =>
      match nth_error h o with
      | Some (BObject prs) =>
          match each (pairf n h) prs with
          | Some (l, us) => if ordered (map fst l) then Some (JObject l, a :: o :: us) else None
          | None => None
          end
      | _ => None
      end
  | _ => None
  end.
Proof. reflexivity. Qed.

(** Inversion, by the kinds of values *)
Inductive seen (n : nat) (h : heap) (a : nat) : json -> list nat -> Prop :=
| seen_null : nth_error h a = Some (BVal VNull) -> seen n h a JNull [a]
| seen_bool b : nth_error h a = Some (BVal (VBool b)) -> seen n h a (JBool b) [a]
| seen_number z : nth_error h a = Some (BVal (VNumber z)) -> seen n h a (JNumber z) [a]
| seen_integer z : nth_error h a = Some (BVal (VInteger z)) -> seen n h a (JInteger z) [a]
| seen_string s t : nth_error h a = Some (BVal (VString s)) -> nth_error h s = Some (BText t) -> seen n h a (JString t) [a; s]
| seen_empty r : nth_error h a = Some (BVal (VArray r)) -> nth_error h r = Some (BArray 0 0 None) -> seen n h a (JArray []) [a; r]
| seen_array r w oc sl l us : nth_error h a = Some (BVal (VArray r)) -> nth_error h r = Some (BArray oc (length sl) (Some w)) ->
    nth_error h w = Some (BVec sl) -> oc <= length sl -> each (follow n h) (firstn oc sl) = Some (l, us) ->
    seen n h a (JArray l) (a :: r :: w :: us)
| seen_object o prs l us : nth_error h a = Some (BVal (VObject o)) -> nth_error h o = Some (BObject prs) ->
    each (pairf n h) prs = Some (l, us) -> ordered (map fst l) = true -> seen n h a (JObject l) (a :: o :: us).

Lemma look_seen n h a v us : look (S n) h a = Some (v, us) <-> seen n h a v us.
Proof.
  rewrite look_S. split.
  - destruct (nth_error h a) as [[|[| | | |s|r|o]| | | | |]|] eqn:A; try discriminate; intros H; try (inversion H; subst; constructor; exact A).
    + destruct (nth_error h s) as [[| |t| | | |]|] eqn:B; try discriminate. inversion H; subst. econstructor; eassumption.
    + destruct (nth_error h r) as [[| | |oc on [w|]| | |]|] eqn:B; try discriminate.
      * destruct (nth_error h w) as [[| | | |sl| |]|] eqn:C; try discriminate.
        destruct (_ && _) eqn:D; [|discriminate]. apply andb_true_iff in D. destruct D as [D1 D2].
        apply Nat.leb_le in D1. apply Nat.eqb_eq in D2. subst on.
        destruct (each _ _) as [[l us']|] eqn:E; [|discriminate]. inversion H; subst. econstructor; eassumption.
      * destruct (_ && _) eqn:D; [|discriminate]. apply andb_true_iff in D. destruct D as [D1 D2].
        apply Nat.eqb_eq in D1. apply Nat.eqb_eq in D2. subst. inversion H; subst. econstructor; eassumption.
    + destruct (nth_error h o) as [[| | | | |prs|]|] eqn:B; try discriminate.
      destruct (each _ _) as [[l us']|] eqn:E; [|discriminate]. destruct (ordered _) eqn:O; [|discriminate]. inversion H; subst. econstructor; eassumption.
  - intros H. destruct H as [A|b A|z A|z A|s t A B|r A B|r w oc sl l us A B C D E|o prs l us A B C D]; rewrite A; try reflexivity.
    + rewrite B. reflexivity.
    + rewrite B. reflexivity.
    + rewrite B, C, E. rewrite (proj2 (Nat.leb_le _ _) D), Nat.eqb_refl. reflexivity.
    + rewrite B, C, D. reflexivity.
Qed.

Lemma look_frame n : forall h h' a v us, look n h a = Some (v, us) -> (forall x, In x us -> nth_error h' x = nth_error h x) -> look n h' a = Some (v, us).
Proof.
  induction n as [|n IH]; intros h h' a v us H F; [discriminate|]. rewrite look_seen in *.
  destruct H as [A|b A|z A|z A|s t A B|r A B|r w oc sl l us A B C D E|o prs l us A B C D].
  - constructor. rewrite F; [exact A|left; reflexivity].
  - constructor. rewrite F; [exact A|left; reflexivity].
  - constructor. rewrite F; [exact A|left; reflexivity].
  - constructor. rewrite F; [exact A|left; reflexivity].
  - econstructor; rewrite F; try eassumption; cbn; auto.
  - econstructor; rewrite F; try eassumption; cbn; auto.
  - eapply seen_array; try (rewrite F; try eassumption; cbn; auto); try exact D.
    eapply each_impl; [exact E|]. intros x y u I G S. destruct x as [| |b]; try discriminate. cbn [follow] in *.
    eapply IH; [exact G|]. intros i K. apply F. right. right. right. apply S. exact K.
  - eapply seen_object; try (rewrite F; try eassumption; cbn; auto); try exact D.
    eapply each_impl; [exact C|]. intros q y u I G S. unfold pairf in *.
    destruct (nth_error h q) as [[| | | | | |k p]|] eqn:Q; try discriminate.
    destruct (nth_error h k) as [[| |t| | | |]|] eqn:K; try discriminate.
    destruct (follow n h p) as [[x w]|] eqn:W; [|discriminate]. inversion G; subst.
    assert (FS : forall i, In i (q :: k :: w) -> nth_error h' i = nth_error h i) by (intros i J; apply F; right; right; apply S; exact J).
    rewrite (FS q), Q by (left; reflexivity). rewrite (FS k), K by (right; left; reflexivity).
    destruct p as [| |b]; try discriminate. cbn [follow] in *. rewrite (IH h h' b x w W); [reflexivity|].
    intros i J. apply FS. right. right. exact J.
Qed.

Lemma look_more n : forall h a v us, look n h a = Some (v, us) -> look (S n) h a = Some (v, us).
Proof.
  induction n as [|n IH]; intros h a v us H; [discriminate|]. rewrite look_seen in *.
  destruct H as [A|b A|z A|z A|s t A B|r A B|r w oc sl l us A B C D E|o prs l us A B C D]; try (econstructor; eassumption).
  - econstructor; try eassumption. eapply each_impl; [exact E|]. intros x y u I G S. destruct x as [| |b]; try discriminate. apply IH. exact G.
  - econstructor; try eassumption. eapply each_impl; [exact C|]. intros q y u I G S. unfold pairf in *.
    destruct (nth_error h q) as [[| | | | | |k p]|] eqn:Q; try discriminate.
    destruct (nth_error h k) as [[| |t| | | |]|] eqn:K; try discriminate.
    destruct (follow n h p) as [[x w]|] eqn:W; [|discriminate]. destruct p as [| |b]; try discriminate. cbn [follow] in *.
    rewrite (IH _ _ _ _ W). exact G.
Qed.

(** The blocks of a value exist and have not been released *)
Definition alive (h : heap) (x : nat) : Prop := exists b, nth_error h x = Some b /\ b <> Freed.

Lemma alive_lt h x : alive h x -> x < length h.
Proof. intros (b & H & _). eapply nth_lt; exact H. Qed.

Lemma each_alive X Y h (f : X -> option (Y * list nat)) l : (forall x y u, f x = Some (y, u) -> forall i, In i u -> alive h i) ->
  forall ys us, each f l = Some (ys, us) -> forall i, In i us -> alive h i.
Proof.
  intros G. induction l as [|x l IH]; intros ys us H i I; cbn [each] in H; [inversion H; subst; contradiction|].
  destruct (f x) as [[y u]|] eqn:F; [|discriminate]. destruct (each f l) as [[a v]|]; [|discriminate]. inversion H; subst.
  apply in_app_or in I. destruct I as [I|I]; [eapply G; eassumption|eapply IH; [reflexivity|exact I]].
Qed.

Lemma look_alive n : forall h a v us, look n h a = Some (v, us) -> forall i, In i us -> alive h i.
Proof.
  induction n as [|n IH]; intros h a v us H i I; [discriminate|]. rewrite look_seen in H.
  assert (FA : forall x y u, follow n h x = Some (y, u) -> forall i, In i u -> alive h i).
  { intros x y u G j J. destruct x as [| |b]; try discriminate. eapply IH; eassumption. }
  destruct H as [A|b A|z A|z A|s t A B|r A B|r w oc sl l us A B C D E|o prs l us A B C D]; cbn [In] in I.
  1-4: destruct I as [<-|[]]; eexists; split; [exact A|discriminate].
  - destruct I as [<-|[<-|[]]]; eexists; (split; [eassumption|discriminate]).
  - destruct I as [<-|[<-|[]]]; eexists; (split; [eassumption|discriminate]).
  - destruct I as [<-|[<-|[<-|I]]]; try (eexists; split; [eassumption|discriminate]). eapply each_alive; [exact FA|exact E|exact I].
  - destruct I as [<-|[<-|I]]; try (eexists; split; [eassumption|discriminate]). eapply each_alive; [|exact C|exact I].
    intros q y u G j J. unfold pairf in G.
    destruct (nth_error h q) as [[| | | | | |k p]|] eqn:Q; try discriminate.
    destruct (nth_error h k) as [[| |t| | | |]|] eqn:K; try discriminate.
    destruct (follow n h p) as [[x w]|] eqn:W; [|discriminate]. inversion G; subst.
    destruct J as [<-|[<-|J]]; try (eexists; split; [eassumption|discriminate]). eapply FA; eassumption.
Qed.

(** * Release *)
Definition freed (h h' : heap) (us : list nat) : Prop :=
  length h' = length h /\ (forall x, In x us -> nth_error h' x = Some Freed) /\ (forall x, ~ In x us -> nth_error h' x = nth_error h x).

Lemma freed_trans h h1 h2 us vs : freed h h1 us -> freed h1 h2 vs -> freed h h2 (us ++ vs).
Proof.
  intros (L1 & A1 & B1) (L2 & A2 & B2). split; [congruence|]. split; intros x H.
  - destruct (in_dec Nat.eq_dec x vs) as [V|V]; [apply A2; exact V|]. rewrite (B2 x V). apply in_app_or in H. destruct H as [H|H]; [apply A1; exact H|contradiction].
  - rewrite in_app_iff in H. rewrite B2 by tauto. apply B1. tauto.
Qed.

Lemma freed_same h h' us vs : (forall x, In x us <-> In x vs) -> freed h h' us -> freed h h' vs.
Proof. intros E (L & A & B). split; [exact L|]. split; intros x H; [apply A|apply B]; rewrite E; exact H. Qed.

Lemma freed_nil h : freed h h [].
Proof. repeat split; contradiction. Qed.

Lemma release_ok h a : alive h a -> exists h', release h a = Some h' /\ freed h h' [a].
Proof.
  intros (b & H & N). exists (put h a Freed). split; [unfold release; rewrite H; destruct b; try reflexivity; contradiction|].
  split; [apply length_put|]. split; intros x K.
  - destruct K as [<-|[]]. apply nth_put_same. eapply nth_lt; exact H.
  - apply nth_put_other. cbn in K. lia.
Qed.

Lemma alive_freed h h' us x : freed h h' us -> ~ In x us -> alive h x -> alive h' x.
Proof. intros (_ & _ & B) N (b & H & K). exists b. rewrite (B x N). split; assumption. Qed.

Lemma release_all_ok l : forall h, NoDup l -> (forall x, In x l -> alive h x) -> exists h', release_all h l = Done h' tt /\ freed h h' l.
Proof.
  induction l as [|a l IH]; intros h N A; [exists h; split; [reflexivity|apply freed_nil]|].
  inversion N as [|? ? X Y]; subst. destruct (release_ok h a) as (h1 & R & F); [apply A; left; reflexivity|].
  destruct (IH h1 Y) as (h2 & R2 & F2).
  - intros x I. eapply alive_freed; [exact F| |apply A; right; exact I]. intros [<-|[]]. contradiction.
  - exists h2. split; [cbn [release_all]; rewrite R; exact R2|]. exact (freed_trans _ _ _ _ _ F F2).
Qed.

Definition free_good (n : nat) : Prop := forall h a v us, look n h a = Some (v, us) -> NoDup us ->
  exists h', json_value_free n h (P a) = Done h' tt /\ freed h h' us.

Lemma free_elements_ok n : free_good n -> forall ps h l us, each (follow n h) ps = Some (l, us) -> NoDup us ->
  exists h', free_elements (json_value_free n) h ps = Done h' tt /\ freed h h' us.
Proof.
  intros G. induction ps as [|p ps IH]; intros h l us H N; cbn [each] in H.
  - inversion H; subst. exists h. split; [reflexivity|apply freed_nil].
  - destruct (follow n h p) as [[y u]|] eqn:F; [|discriminate]. destruct (each (follow n h) ps) as [[ys us']|] eqn:E; [|discriminate].
    inversion H; subst. apply nodup_app_inv in N. destruct N as (N1 & N2 & D).
    destruct p as [| |b]; try discriminate. cbn [follow] in F. destruct (G _ _ _ _ F N1) as (h1 & R & FR).
    destruct (IH h1 ys us') as (h2 & R2 & F2); [|exact N2|].
    + eapply each_impl; [exact E|]. intros x y' u' I K S. destruct x as [| |c]; try discriminate. cbn [follow] in *.
      eapply look_frame; [exact K|]. intros i J. apply (proj2 (proj2 FR)). intros V. apply (D i V). apply S. exact J.
    + exists h2. split; [cbn [free_elements]; rewrite R; exact R2|]. exact (freed_trans _ _ _ _ _ FR F2).
Qed.

Lemma pairf_inv n h q y u : pairf n h q = Some (y, u) -> exists k b w, nth_error h q = Some (BPair k (P b)) /\ nth_error h k = Some (BText (fst y)) /\
  look n h b = Some (snd y, w) /\ u = q :: k :: w.
Proof.
  unfold pairf. intros G.
  destruct (nth_error h q) as [[| | | | | |k p]|] eqn:Q; try discriminate.
  destruct (nth_error h k) as [[| |t| | | |]|] eqn:K; try discriminate.
  destruct (follow n h p) as [[x w]|] eqn:W; [|discriminate]. destruct p as [| |b]; try discriminate. inversion G; subst.
  exists k, b, w. repeat split; assumption.
Qed.

Lemma pairf_make n h q k b w t x : nth_error h q = Some (BPair k (P b)) -> nth_error h k = Some (BText t) -> look n h b = Some (x, w) ->
  pairf n h q = Some ((t, x), q :: k :: w).
Proof. intros Q K L. unfold pairf. rewrite Q, K. cbn [follow]. rewrite L. reflexivity. Qed.

Lemma pairf_frame n h h' q y u : pairf n h q = Some (y, u) -> (forall x, In x u -> nth_error h' x = nth_error h x) -> pairf n h' q = Some (y, u).
Proof.
  intros G F. destruct (pairf_inv _ _ _ _ _ G) as (k & b & w & Q & K & L & ->). destruct y as [t x]. cbn [fst snd] in *.
  eapply pairf_make; [rewrite F; [exact Q|left; reflexivity]|rewrite F; [exact K|right; left; reflexivity]|].
  eapply look_frame; [exact L|]. intros i I. apply F. right. right. exact I.
Qed.

Lemma each_pair_frame n h h' prs l us : each (pairf n h) prs = Some (l, us) -> (forall x, In x us -> nth_error h' x = nth_error h x) ->
  each (pairf n h') prs = Some (l, us).
Proof. intros E F. eapply each_impl; [exact E|]. intros x y u I G S. eapply pairf_frame; [exact G|]. intros i J. apply F. apply S. exact J. Qed.

Lemma each_follow_frame n h h' ps l us : each (follow n h) ps = Some (l, us) -> (forall x, In x us -> nth_error h' x = nth_error h x) ->
  each (follow n h') ps = Some (l, us).
Proof.
  intros E F. eapply each_impl; [exact E|]. intros x y u I G S. destruct x as [| |b]; try discriminate. cbn [follow] in *.
  eapply look_frame; [exact G|]. intros i J. apply F. apply S. exact J.
Qed.

Lemma free_pairs_ok n : free_good n -> forall prs h l us, each (pairf n h) prs = Some (l, us) -> NoDup us ->
  exists h', free_pairs (json_value_free n) h prs = Done h' tt /\ freed h h' us.
Proof.
  intros G. induction prs as [|q prs IH]; intros h l us H N; cbn [each] in H.
  - inversion H; subst. exists h. split; [reflexivity|apply freed_nil].
  - destruct (pairf n h q) as [[y u]|] eqn:F; [|discriminate]. destruct (each (pairf n h) prs) as [[ys us']|] eqn:E; [|discriminate].
    inversion H; subst. apply nodup_app_inv in N. destruct N as (N1 & N2 & D).
    destruct (pairf_inv _ _ _ _ _ F) as (k & b & w & Q & K & L & ->).
    inversion N1 as [|? ? X1 Y1]; subst. inversion Y1 as [|? ? X2 Y2]; subst.
    destruct (release_ok h k) as (h1 & R1 & F1); [eexists; split; [exact K|discriminate]|].
    assert (L1 : look n h1 b = Some (snd y, w)).
    { eapply look_frame; [exact L|]. intros i I. apply (proj2 (proj2 F1)). intros [<-|[]]. contradiction. }
    destruct (G _ _ _ _ L1 Y2) as (h2 & R2 & F2).
    destruct (release_ok h2 q) as (h3 & R3 & F3).
    { eapply alive_freed; [exact F2|intros I; apply X1; right; exact I|]. eapply alive_freed; [exact F1|intros [<-|[]]; apply X1; left; reflexivity|].
      eexists. split; [exact Q|discriminate]. }
    assert (FF : freed h h3 (q :: k :: w)).
    { eapply freed_same; [|exact (freed_trans _ _ _ _ _ (freed_trans _ _ _ _ _ F1 F2) F3)].
      intros x. rewrite !in_app_iff. cbn [In]. tauto. }
    destruct (IH h3 ys us') as (h4 & R4 & F4); [|exact N2|].
    + eapply each_pair_frame; [exact E|]. intros i J. apply (proj2 (proj2 FF)). intros V. exact (D i V J).
    + exists h4. split; [cbn [free_pairs]; rewrite Q, R1, R2, R3; exact R4|]. exact (freed_trans _ _ _ _ _ FF F4).
Qed.

Lemma elements_ok h oc sl w : nth_error h w = Some (BVec sl) -> oc <= length sl -> elements h oc (Some w) = Some (firstn oc sl).
Proof.
  intros A L. unfold elements, vec_at. destruct oc as [|oc]; [reflexivity|]. rewrite A, (proj2 (Nat.leb_le _ _) L). reflexivity.
Qed.

Lemma free_ok n : free_good n.
Proof.
  induction n as [|n IH]; intros h a v us H N; [discriminate|].
  pose proof (look_alive _ _ _ _ _ H) as AL.
  rewrite look_seen in H. cbn [json_value_free].
  destruct H as [A|b A|z A|z A|s t A B|r A B|r w oc sl l us A B C D E|o prs l us A B C D]; rewrite A.
  1-4: apply release_all_ok; assumption.
  - destruct (release_all_ok [s; a] h) as (h' & R & F).
    + inversion N as [|? ? X Y]; subst. constructor; [|repeat constructor; intros []]. intros [->|[]]. apply X. left. reflexivity.
    + intros x I. apply AL. cbn [In] in *. tauto.
    + exists h'. split; [exact R|]. eapply freed_same; [|exact F]. intros x. cbn [In]. tauto.
  - rewrite B. cbn [elements free_elements opt_list app]. destruct (release_all_ok [r; a] h) as (h' & R & F).
    + inversion N as [|? ? X Y]; subst. constructor; [|repeat constructor; intros []]. intros [->|[]]. apply X. left. reflexivity.
    + intros x I. apply AL. cbn [In] in *. tauto.
    + exists h'. split; [exact R|]. eapply freed_same; [|exact F]. intros x. cbn [In]. tauto.
  - rewrite B, (elements_ok h oc sl w C D). inversion N as [|? ? X1 Y1]; subst. inversion Y1 as [|? ? X2 Y2]; subst. inversion Y2 as [|? ? X3 Y3]; subst.
    destruct (free_elements_ok n IH _ _ _ _ E Y3) as (h1 & R & F). rewrite R. cbn [opt_list app].
    destruct (release_all_ok [w; r; a] h1) as (h2 & R2 & F2).
    + cbn [In] in X1, X2, X3. repeat constructor; cbn [In]; intuition congruence.
    + intros x I. eapply alive_freed; [exact F| |apply AL; cbn [In] in *; tauto].
      cbn [In] in X1, X2, X3, I. intros V. intuition congruence.
    + exists h2. split; [exact R2|]. eapply freed_same; [|exact (freed_trans _ _ _ _ _ F F2)]. intros x. rewrite in_app_iff. cbn [In]. tauto.
  - rewrite B. inversion N as [|? ? X1 Y1]; subst. inversion Y1 as [|? ? X2 Y2]; subst.
    destruct (free_pairs_ok n IH _ _ _ _ C Y2) as (h1 & R & F). rewrite R.
    destruct (release_all_ok [o; a] h1) as (h2 & R2 & F2).
    + cbn [In] in X1, X2. repeat constructor; cbn [In]; intuition congruence.
    + intros x I. eapply alive_freed; [exact F| |apply AL; cbn [In] in *; tauto].
      cbn [In] in X1, X2, I. intros V. intuition congruence.
    + exists h2. split; [exact R2|]. eapply freed_same; [|exact (freed_trans _ _ _ _ _ F F2)]. intros x. rewrite in_app_iff. cbn [In]. tauto.
Qed.

(** * Copy *)
Definition made (h h' : heap) (us : list nat) : Prop :=
  length h' = length h + length us /\ NoDup us /\ (forall x, In x us -> length h <= x < length h').

Lemma made_app h h1 h2 us vs : made h h1 us -> made h1 h2 vs -> made h h2 (us ++ vs).
Proof.
  intros (L1 & N1 & R1) (L2 & N2 & R2). split; [rewrite app_length; lia|]. split.
  - apply nodup_app; [exact N1|exact N2|]. intros x I J. apply R1 in I. apply R2 in J. lia.
  - intros x I. apply in_app_or in I. destruct I as [I|I]; [apply R1 in I|apply R2 in I]; lia.
Qed.

Definition copy_good (n : nat) : Prop := forall h a v us, look n h a = Some (v, us) ->
  exists h' b us', json_value_copy n h (P a) = Done h' b /\ look n h' b = Some (v, us') /\ made h h' us' /\
    (forall x, x < length h -> nth_error h' x = nth_error h x).

Lemma copy_elements_ok n : copy_good n -> forall ps h w dn l us, each (follow n h) ps = Some (l, us) ->
  nth_error h w = Some (BVec (dn ++ repeat PNull (length ps))) -> ~ In w us ->
  exists h' cs us', copy_elements (json_value_copy n) h w (length dn) ps = Done h' None /\ length cs = length ps /\
    nth_error h' w = Some (BVec (dn ++ map P cs)) /\ each (follow n h') (map P cs) = Some (l, us') /\
    (forall x, x < length h -> x <> w -> nth_error h' x = nth_error h x) /\ made h h' us'.
Proof.
  intros G. induction ps as [|p ps IH]; intros h w dn l us E W N; cbn [each] in E.
  - inversion E; subst. exists h, [], []. cbn. repeat split; auto; try lia; try constructor; contradiction.
  - destruct (follow n h p) as [[y u]|] eqn:F; [|discriminate]. destruct (each (follow n h) ps) as [[ys us2]|] eqn:E2; [|discriminate].
    inversion E; subst. destruct p as [| |b]; try discriminate. cbn [follow] in F.
    destruct (G _ _ _ _ F) as (h1 & c & u1 & C & L1 & M1 & K1).
    assert (WL : w < length h) by (eapply nth_lt; exact W).
    assert (V : vec_at h1 w = Some (dn ++ repeat PNull (S (length ps)))) by (unfold vec_at; rewrite K1, W by exact WL; reflexivity).
    cbn [copy_elements]. rewrite C, V. cbn [repeat]. rewrite put_app_end.
    set (h2 := put h1 w (BVec (dn ++ P c :: repeat PNull (length ps)))).
    assert (WL1 : w < length h1) by (destruct M1; lia).
    assert (O2 : forall x, x <> w -> nth_error h2 x = nth_error h1 x) by (intros x X; apply nth_put_other; exact X).
    assert (LN2 : length h2 = length h1) by apply length_put.
    assert (AL : forall x, In x us2 -> x < length h).
    { intros x I. apply (alive_lt h x). eapply each_alive; [|exact E2|exact I].
      intros q y' u' Q j J. destruct q as [| |q]; try discriminate. eapply look_alive; eassumption. }
    destruct (IH h2 w (dn ++ [P c]) ys us2) as (h' & cs & us' & R & LC & WV & EC & KK & M2).
    + eapply each_follow_frame; [exact E2|]. intros x I. rewrite O2; [apply K1; apply AL; exact I|].
      intros ->. apply N. apply in_or_app. right. exact I.
    + unfold h2. rewrite nth_put_same by exact WL1. rewrite <- app_assoc. reflexivity.
    + intros I. apply N. apply in_or_app. right. exact I.
    + rewrite app_length, Nat.add_1_r in R. exists h', (c :: cs), (u1 ++ us'). split; [exact R|]. split; [cbn; congruence|].
      split; [rewrite WV, <- app_assoc; reflexivity|]. split; [|split].
      * cbn [map each follow]. rewrite (look_frame n h1 h' c y u1 L1), EC; [reflexivity|].
        intros x I. apply (proj2 (proj2 M1)) in I. rewrite KK by lia. apply O2. lia.
      * intros x X NX. rewrite KK; [|rewrite LN2; destruct M1; lia|exact NX]. rewrite O2 by exact NX. apply K1. exact X.
      * eapply made_app; [exact M1|]. destruct M2 as (A1 & A2 & A3). rewrite LN2 in A1, A3. split; [exact A1|]. split; assumption.
Qed.

Lemma find_pair_end n h name prs : forall i l us, each (pairf n h) prs = Some (l, us) -> Forall (fun kv => strcmp (fst kv) name = Lt) l ->
  find_pair h prs i name = Some (Before (i + length prs)).
Proof.
  induction prs as [|q prs IH]; intros i l us E F; cbn [each] in E; cbn [find_pair length].
  - rewrite Nat.add_0_r. reflexivity.
  - destruct (pairf n h q) as [[y u]|] eqn:Q; [|discriminate]. destruct (each (pairf n h) prs) as [[ys us2]|] eqn:E2; [|discriminate].
    inversion E; subst. inversion F as [|? ? F1 F2]; subst. destruct (pairf_inv _ _ _ _ _ Q) as (k & b & w & A & B & _ & _).
    rewrite A. unfold text_at. rewrite B, F1, (IH (S i) ys us2 eq_refl F2). f_equal. f_equal. lia.
Qed.

Lemma ordered_cons x l : ordered (x :: l) = true <-> Forall (fun y => strcmp x y = Lt) l /\ ordered l = true.
Proof.
  revert x. induction l as [|y l IH]; intros x; [cbn; split; auto|].
  change (ordered (x :: y :: l)) with (match strcmp x y with Lt => ordered (y :: l) | _ => false end). split.
  - destruct (strcmp x y) eqn:E; try discriminate. intros O. pose proof (proj1 (IH y) O) as [O1 O2]. split; [|exact O].
    constructor; [exact E|]. eapply Forall_impl; [|exact O1]. intros z Z. exact (lt_trans _ _ _ E Z).
  - intros [F O]. inversion F as [|? ? F1 F2]; subst. rewrite F1. exact O.
Qed.

Lemma ordered_app l x r : ordered (l ++ x :: r) = true <->
  ordered l = true /\ ordered r = true /\ Forall (fun y => strcmp y x = Lt) l /\ Forall (fun y => strcmp x y = Lt) r.
Proof.
  induction l as [|y l IH]; cbn [app].
  - rewrite ordered_cons. split; [intros [A B]; repeat split; auto|intros (_ & A & _ & B); auto].
  - rewrite ordered_cons, IH, (ordered_cons y l), Forall_app, Forall_cons_iff. split.
    + intros ((A & B & C) & D & E & F & G). repeat split; auto.
    + intros ((A & B) & C & D & E). inversion D as [|? ? D1 D2]; subst. repeat split; auto.
      eapply Forall_impl; [|exact E]. intros z Z. exact (lt_trans _ _ _ D1 Z).
Qed.

Lemma pairs_lt n h prs l us : each (pairf n h) prs = Some (l, us) -> forall x, In x us -> x < length h.
Proof.
  intros E x I. apply (alive_lt h x). eapply each_alive; [|exact E|exact I].
  intros q y u Q j J. destruct (pairf_inv _ _ _ _ _ Q) as (k & b & w & A & B & L & ->).
  destruct J as [<-|[<-|J]]; try (eexists; split; [eassumption|discriminate]). eapply look_alive; eassumption.
Qed.

Lemma copy_pairs_ok n a o : copy_good n -> forall prs h dn ld ud l us, each (pairf n h) prs = Some (l, us) ->
  nth_error h a = Some (BVal (VObject o)) -> nth_error h o = Some (BObject dn) -> a <> o ->
  each (pairf n h) dn = Some (ld, ud) -> ~ In o us -> ~ In o ud -> ordered (map fst (ld ++ l)) = true ->
  exists h' cs us', copy_pairs (json_value_copy n) (fun h name c => json_object_set n h a name c) h prs = Done h' tt /\
    nth_error h' o = Some (BObject (dn ++ cs)) /\ each (pairf n h') cs = Some (l, us') /\
    (forall x, x < length h -> x <> o -> nth_error h' x = nth_error h x) /\ made h h' us'.
Proof.
  intros G. induction prs as [|q prs IH]; intros h dn ld ud l us E A O AO ED NO ND OR; cbn [each] in E.
  - inversion E; subst. exists h, [], []. rewrite app_nil_r. cbn. repeat split; auto; try lia; try constructor; contradiction.
  - destruct (pairf n h q) as [[y u]|] eqn:F; [|discriminate]. destruct (each (pairf n h) prs) as [[ys us2]|] eqn:E2; [|discriminate].
    inversion E; subst. destruct (pairf_inv _ _ _ _ _ F) as (k & b & w & Q & K & L & ->). destruct y as [t x]. cbn [fst snd] in *.
    destruct (G _ _ _ _ L) as (h1 & c & u1 & C & L1 & M1 & K1).
    assert (QL : q < length h) by (eapply nth_lt; exact Q). assert (KL : k < length h) by (eapply nth_lt; exact K).
    assert (OL : o < length h) by (eapply nth_lt; exact O). assert (AL : a < length h) by (eapply nth_lt; exact A).
    pose proof (pairs_lt _ _ _ _ _ E2) as U2. pose proof (pairs_lt _ _ _ _ _ ED) as UD.
    rewrite map_app in OR. cbn [map fst] in OR. apply ordered_app in OR. destruct OR as (OR1 & OR2 & OR3 & OR4).
    assert (ED1 : each (pairf n h1) dn = Some (ld, ud)) by (eapply each_pair_frame; [exact ED|]; intros i I; apply K1; apply UD; exact I).
    cbn [copy_pairs]. rewrite Q, C. unfold text_at. rewrite K1, K by exact KL.
    unfold json_object_set at 1. rewrite (K1 a AL), A, (K1 o OL), O.
    rewrite (find_pair_end n h1 t dn 0 ld ud ED1) by (rewrite Forall_map in OR3; exact OR3).
    cbn [alloc Nat.add]. rewrite firstn_all, skipn_all. rewrite <- app_assoc. cbn [app]. cbn iota beta zeta.
    set (h2 := put (h1 ++ [BPair (S (length h1)) (P c); BText t]) o (BObject (dn ++ [length h1]))).
    assert (LN2 : length h2 = length h1 + 2) by (unfold h2; rewrite length_put, app_length; reflexivity).
    assert (LE1 : length h <= length h1) by (destruct M1; lia).
    assert (O2 : forall i, i < length h1 -> i <> o -> nth_error h2 i = nth_error h1 i).
    { intros i I J. unfold h2. rewrite nth_put_other by exact J. apply nth_app_l. exact I. }
    assert (P1 : nth_error h2 (length h1) = Some (BPair (S (length h1)) (P c))).
    { unfold h2. rewrite nth_put_other by lia. rewrite nth_error_app2, Nat.sub_diag by lia. reflexivity. }
    assert (P2 : nth_error h2 (S (length h1)) = Some (BText t)).
    { unfold h2. rewrite nth_put_other by lia. rewrite nth_error_app2 by lia. replace (S (length h1) - length h1) with 1 by lia. reflexivity. }
    assert (P3 : nth_error h2 o = Some (BObject (dn ++ [length h1]))) by (unfold h2; apply nth_put_same; rewrite app_length; cbn; lia).
    assert (LC : look n h2 c = Some (x, u1)).
    { eapply look_frame; [exact L1|]. intros i I. apply (proj2 (proj2 M1)) in I. apply O2; lia. }
    assert (NW : pairf n h2 (length h1) = Some ((t, x), length h1 :: S (length h1) :: u1)) by (eapply pairf_make; eassumption).
    destruct (IH h2 (dn ++ [length h1]) (ld ++ [(t, x)]) (ud ++ (length h1 :: S (length h1) :: u1)) ys us2) as (h' & cs & us' & R & OV & EC & KK & M2).
    + eapply each_pair_frame; [exact E2|]. intros i I. rewrite O2; [apply K1; apply U2; exact I|specialize (U2 i I); lia|].
      intros ->. apply NO. apply in_or_app. right. exact I.
    + rewrite O2; [rewrite K1; assumption|lia|exact AO].
    + exact P3.
    + exact AO.
    + rewrite each_app. rewrite (each_pair_frame n h1 h2 dn ld ud ED1).
      * cbn [each]. rewrite NW. rewrite app_nil_r. reflexivity.
      * intros i I. apply O2; [specialize (UD i I); lia|intros ->; exact (ND I)].
    + intros I. apply NO. apply in_or_app. right. exact I.
    + rewrite in_app_iff. cbn [In]. intros [I|[I|[I|I]]]; [exact (ND I)|lia|lia|apply (proj2 (proj2 M1)) in I; lia].
    + rewrite <- app_assoc, map_app. cbn [map fst app]. apply ordered_app. repeat split; assumption.
    + exists h', (length h1 :: cs), ((length h1 :: S (length h1) :: u1) ++ us'). split; [exact R|].
      split; [rewrite OV, <- app_assoc; reflexivity|]. split; [|split].
      * cbn [each]. rewrite (pairf_frame n h2 h' (length h1) (t, x) (length h1 :: S (length h1) :: u1) NW), EC; [reflexivity|].
        intros i I. apply KK; cbn [In] in I.
        -- destruct I as [<-|[<-|I]]; [lia|lia|apply (proj2 (proj2 M1)) in I; lia].
        -- destruct I as [<-|[<-|I]]; [lia|lia|apply (proj2 (proj2 M1)) in I; lia].
      * intros i I J. rewrite KK by (try lia; exact J). rewrite O2 by (try lia; exact J). apply K1. exact I.
      * eapply made_app; [|exact M2]. destruct M1 as (A1 & A2 & A3). split; [cbn [length]; lia|]. split.
        -- constructor; [cbn [In]; intros [I|I]; [lia|apply A3 in I; lia]|]. constructor; [intros I; apply A3 in I; lia|exact A2].
        -- cbn [In]. intros i [<-|[<-|I]]; [lia|lia|apply A3 in I; lia].
Qed.

Lemma copy_ok n : copy_good n.
Proof.
  induction n as [|n IH]; intros h a v us H; [discriminate|].
  pose proof (fun i I => alive_lt h i (look_alive _ _ _ _ _ H i I)) as AL.
  rewrite look_seen in H. cbn [json_value_copy].
  assert (SC : forall j v0, nth_error h a = Some (BVal v0) -> (forall h' b, nth_error h' b = Some (BVal v0) -> look (S n) h' b = Some (j, [b])) ->
    exists h' b us', (let (h, b) := alloc h (BVal v0) in Done h b) = Done h' b /\ look (S n) h' b = Some (j, us') /\ made h h' us' /\
    (forall x, x < length h -> nth_error h' x = nth_error h x)).
  { intros j v0 A L. cbn [alloc]. exists (h ++ [BVal v0]), (length h), [length h]. split; [reflexivity|]. split; [apply L; apply nth_end|]. split.
    - split; [rewrite app_length; reflexivity|]. split; [repeat constructor; intros []|]. intros x [<-|[]]. rewrite app_length. cbn. lia.
    - intros x X. apply nth_app_l. exact X. }
  destruct H as [A|b A|z A|z A|s t A B|r A B|r w oc sl l us A B C D E|o prs l us A B C D]; rewrite A.
  1-4: apply SC; [exact A|]; intros h' b' HB; rewrite look_S, HB; reflexivity.
  - unfold text_at. rewrite B. unfold json_new_string. cbn [alloc]. rewrite <- app_assoc. cbn [app].
    exists (h ++ [BVal (VString (S (length h))); BText t]), (length h), [length h; S (length h)]. split; [reflexivity|]. split.
    + rewrite look_S, nth_end0, nth_end1. reflexivity.
    + split.
      * split; [rewrite app_length; reflexivity|]. split; [repeat constructor; cbn [In]; lia|]. cbn [In]. intros x [<-|[<-|[]]]; rewrite app_length; cbn; lia.
      * intros x X. apply nth_app_l. exact X.
  - rewrite B. cbn [elements]. unfold json_new_array. cbn [alloc repeat copy_elements]. rewrite <- !app_assoc. cbn [app].
    replace (length (h ++ [BVal (VArray (S (length h))); BArray 0 0 None])) with (S (S (length h))) by (rewrite app_length; cbn; lia).
    rewrite put_end1.
    exists (h ++ [BVal (VArray (S (length h))); BArray 0 0 (Some (S (S (length h)))); BVec []]), (length h), [length h; S (length h); S (S (length h))].
    split; [reflexivity|]. split.
    + rewrite look_S, nth_end0, nth_end1, nth_end2. reflexivity.
    + split.
      * split; [rewrite app_length; reflexivity|]. split; [repeat constructor; cbn [In]; lia|]. cbn [In]. intros x [<-|[<-|[<-|[]]]]; rewrite app_length; cbn; lia.
      * intros x X. apply nth_app_l. exact X.
  - rewrite B, (elements_ok h oc sl w C D). unfold json_new_array. cbn [alloc]. rewrite <- !app_assoc. cbn [app].
    set (n0 := length h).
    replace (length (h ++ [BVal (VArray (S n0)); BArray 0 0 None])) with (S (S n0)) by (rewrite app_length; cbn; lia).
    replace (put (h ++ [BVal (VArray (S n0)); BArray 0 0 None; BVec (repeat PNull oc)]) (S n0) (BArray oc oc (Some (S (S n0)))))
      with (h ++ [BVal (VArray (S n0)); BArray oc oc (Some (S (S n0))); BVec (repeat PNull oc)]) by (symmetry; apply put_end1).
    set (g := h ++ [BVal (VArray (S n0)); BArray oc oc (Some (S (S n0))); BVec (repeat PNull oc)]).
    assert (G0 : nth_error g n0 = Some (BVal (VArray (S n0)))) by (unfold g; rewrite nth_error_app2 by (fold n0; lia); fold n0; rewrite Nat.sub_diag; reflexivity).
    assert (G1 : nth_error g (S n0) = Some (BArray oc oc (Some (S (S n0))))).
    { unfold g. rewrite nth_error_app2 by (fold n0; lia). fold n0. replace (S n0 - n0) with 1 by lia. reflexivity. }
    assert (G2 : nth_error g (S (S n0)) = Some (BVec (repeat PNull oc))).
    { unfold g. rewrite nth_error_app2 by (fold n0; lia). fold n0. replace (S (S n0) - n0) with 2 by lia. reflexivity. }
    assert (GL : length g = n0 + 3) by (unfold g; rewrite app_length; reflexivity).
    assert (GK : forall x, x < n0 -> nth_error g x = nth_error h x) by (intros x X; apply nth_app_l; exact X).
    assert (LF : length (firstn oc sl) = oc) by (rewrite firstn_length; lia).
    destruct (copy_elements_ok n IH (firstn oc sl) g (S (S n0)) [] l us) as (h' & cs & us' & R & LC & WV & EC & KK & M2).
    + eapply each_follow_frame; [exact E|]. intros x I. apply GK. apply AL. right. right. right. exact I.
    + rewrite LF. exact G2.
    + intros I. assert (S (S n0) < n0) by (apply AL; right; right; right; exact I). lia.
    + cbn [length] in R. rewrite R. cbn [app] in WV. rewrite LF in LC.
      exists h', n0, (n0 :: S n0 :: S (S n0) :: us'). split; [reflexivity|]. split; [|split].
      * apply look_seen. eapply (seen_array n h' n0 (S n0) (S (S n0)) oc (map P cs)).
        -- rewrite KK by lia. exact G0.
        -- rewrite KK by lia. rewrite map_length, LC. exact G1.
        -- exact WV.
        -- rewrite map_length. lia.
        -- rewrite firstn_all2 by (rewrite map_length; lia). exact EC.
      * destruct M2 as (A1 & A2 & A3). fold n0. rewrite GL in A1, A3. split; [fold n0; cbn [length]; lia|]. split.
        -- constructor; [cbn [In]; intros [I|[I|I]]; try lia; apply A3 in I; lia|]. constructor; [cbn [In]; intros [I|I]; try lia; apply A3 in I; lia|].
           constructor; [intros I; apply A3 in I; lia|exact A2].
        -- fold n0. cbn [In]. intros i [<-|[<-|[<-|I]]]; try lia. apply A3 in I. lia.
      * fold n0. intros x X. rewrite KK by lia. apply GK. exact X.
  - rewrite B. unfold json_new_object. cbn [alloc]. rewrite <- app_assoc. cbn [app].
    set (n0 := length h). set (g := h ++ [BVal (VObject (S n0)); BObject []]).
    assert (G0 : nth_error g n0 = Some (BVal (VObject (S n0)))) by (unfold g; rewrite nth_error_app2 by (fold n0; lia); fold n0; rewrite Nat.sub_diag; reflexivity).
    assert (G1 : nth_error g (S n0) = Some (BObject [])).
    { unfold g. rewrite nth_error_app2 by (fold n0; lia). fold n0. replace (S n0 - n0) with 1 by lia. reflexivity. }
    assert (GL : length g = n0 + 2) by (unfold g; rewrite app_length; reflexivity).
    assert (GK : forall x, x < n0 -> nth_error g x = nth_error h x) by (intros x X; apply nth_app_l; exact X).
    destruct (copy_pairs_ok n n0 (S n0) IH prs g [] [] [] l us) as (h' & cs & us' & R & OV & EC & KK & M2).
    + eapply each_pair_frame; [exact C|]. intros x I. apply GK. apply AL. right. right. exact I.
    + exact G0.
    + exact G1.
    + lia.
    + reflexivity.
    + intros I. assert (S n0 < n0) by (apply AL; right; right; exact I). lia.
    + intros [].
    + exact D.
    + rewrite R. cbn [app] in OV. exists h', n0, (n0 :: S n0 :: us'). split; [reflexivity|]. split; [|split].
      * apply look_seen. eapply (seen_object n h' n0 (S n0) cs).
        -- rewrite KK by lia. exact G0.
        -- exact OV.
        -- exact EC.
        -- exact D.
      * destruct M2 as (A1 & A2 & A3). rewrite GL in A1, A3. split; [fold n0; cbn [length]; lia|]. split.
        -- constructor; [cbn [In]; intros [I|I]; try lia; apply A3 in I; lia|]. constructor; [intros I; apply A3 in I; lia|exact A2].
        -- fold n0. cbn [In]. intros i [<-|[<-|I]]; try lia. apply A3 in I. lia.
      * fold n0. intros x X. rewrite KK by lia. apply GK. exact X.
Qed.

(** * What the operations make of the memory *)
Lemma freed_becomes h h' us : (forall x, In x us -> x < length h) -> freed h h' us -> becomes h us h' [].
Proof.
  intros A (L & B & C). repeat split; try (cbn [In]; tauto); try lia.
  - intros x _ N. apply C. exact N.
  - constructor.
  - intros x I _. apply B. exact I.
Qed.

Lemma made_becomes h h' us : made h h' us -> (forall x, x < length h -> nth_error h' x = nth_error h x) -> becomes h [] h' us.
Proof.
  intros (L & N & R) K. split; [lia|]. split; [intros x X _; apply K; exact X|]. split; [exact N|].
  split; [intros x I; right; apply R; exact I|]. split; [intros x []|].
  intros x X NI. exfalso. apply NI.
    (* the blocks of [us] are all those between the two lengths *)
    assert (IN : incl (seq (length h) (length us)) us).
    { apply NoDup_length_incl; [exact N|rewrite seq_length; lia|]. intros y Y. apply R in Y. apply in_seq. lia. }
    apply IN. apply in_seq. lia.
Qed.

Lemma becomes_same h us us' h' vs vs' : (forall x, In x us <-> In x us') -> (forall x, In x vs <-> In x vs') -> NoDup vs' ->
  becomes h us h' vs -> becomes h us' h' vs'.
Proof.
  intros E1 E2 N (A & B & C & D & F & G). repeat split; auto.
  - intros x X NI. apply B; [exact X|]. rewrite E1. exact NI.
  - intros x I. rewrite <- E2 in I. apply D in I. rewrite <- E1. exact I.
  - intros x I NI. apply F; [rewrite E1; exact I|rewrite E2; exact NI].
  - intros x X NI. apply G; [exact X|rewrite E2; exact NI].
Qed.

Lemma becomes_frame h us h' us' vs : becomes h us h' us' -> NoDup vs -> disjoint us vs -> (forall x, In x vs -> x < length h) ->
  becomes h (us ++ vs) h' (us' ++ vs).
Proof.
  intros (A & B & C & D & F & G) N DJ VL. repeat split; auto.
  - intros x X NI. apply B; [exact X|]. intros I. apply NI. apply in_or_app. left. exact I.
  - apply nodup_app; [exact C|exact N|]. intros x I J. apply D in I. destruct I as [I|I]; [exact (DJ x I J)|specialize (VL x J); lia].
  - intros x I. rewrite in_app_iff in *. destruct I as [I|I]; [|left; right; exact I]. apply D in I. tauto.
  - intros x I NI. rewrite in_app_iff in *. apply F; tauto.
  - intros x X NI. rewrite in_app_iff in *. apply G; tauto.
Qed.

Lemma becomes_trans h us h1 us1 h2 us2 : becomes h us h1 us1 -> becomes h1 us1 h2 us2 -> (forall x, In x us -> x < length h) -> becomes h us h2 us2.
Proof.
  intros (A & B & C & D & F & G) (A' & B' & C' & D' & F' & G') UL. repeat split; auto; try lia.
  - intros x X NI. rewrite B'; [apply B; assumption|lia|]. intros I. apply D in I. destruct I as [I|I]; [contradiction|lia].
  - intros x I. apply D' in I. destruct I as [I|I]; [|right; lia]. apply D in I. destruct I as [I|I]; [left; exact I|right; lia].
  - intros x I NI. destruct (in_dec Nat.eq_dec x us1) as [J|J]; [apply F'; assumption|].
    rewrite B'; [apply F; assumption|specialize (UL x I); lia|exact J].
  - intros x X NI. destruct (in_dec Nat.eq_dec x us1) as [J|J]; [apply F'; assumption|].
    destruct (le_lt_dec (length h1) x) as [L|L]; [apply G'; [lia|exact NI]|]. rewrite B'; [apply G; [lia|exact J]|exact L|exact J].
Qed.

(** One block is written *)
Lemma becomes_put h x b us : In x us -> NoDup us -> (forall i, In i us -> i < length h) -> becomes h us (put h x b) us.
Proof.
  intros I N L. split; [rewrite length_put; lia|]. split; [|split; [exact N|]].
  - intros y Y NY. apply nth_put_other. intros ->. contradiction.
  - split; [intros y J; left; exact J|]. rewrite length_put. split; [intros y J NJ; contradiction|intros; lia].
Qed.

(** * Arrays *)
Lemma firstn_put A (l : list A) x : forall i, i < length l -> firstn (S i) (put l i x) = firstn i l ++ [x].
Proof.
  induction l as [|y l IH]; intros [|i] H; cbn [length] in H; try lia; [reflexivity|]. cbn [put]. rewrite !firstn_cons. cbn [app]. f_equal. apply IH. lia.
Qed.

Lemma store_append n h a r w oc sl l us b v vs : nth_error h a = Some (BVal (VArray r)) -> nth_error h r = Some (BArray oc (length sl) (Some w)) ->
  nth_error h w = Some (BVec sl) -> oc < length sl -> each (follow n h) (firstn oc sl) = Some (l, us) -> look n h b = Some (v, vs) ->
  NoDup ((a :: r :: w :: us) ++ vs) ->
  exists h', store (put h r (BArray (S oc) (length sl) (Some w))) (Some w) oc b = Done h' tt /\
    look (S n) h' a = Some (JArray (l ++ [v]), a :: r :: w :: us ++ vs) /\ becomes h ((a :: r :: w :: us) ++ vs) h' ((a :: r :: w :: us) ++ vs) /\
    nth_error h' a = Some (BVal (VArray r)) /\ nth_error h' r = Some (BArray (S oc) (length sl) (Some w)).
Proof.
  intros A R W O E B N. pose proof N as N0. cbn [app] in N0. inversion N0 as [|? ? X1 Y1]; subst. inversion Y1 as [|? ? X2 Y2]; subst. inversion Y2 as [|? ? X3 Y3]; subst.
  cbn [In] in X1, X2. rewrite !in_app_iff in X1, X2, X3.
  assert (RL : r < length h) by (eapply nth_lt; exact R). assert (WL : w < length h) by (eapply nth_lt; exact W).
  set (h1 := put h r (BArray (S oc) (length sl) (Some w))).
  assert (W1 : nth_error h1 w = Some (BVec sl)) by (unfold h1; rewrite nth_put_other by (intuition congruence); exact W).
  set (h2 := put h1 w (BVec (put sl oc (P b)))).
  assert (OT : forall x, x <> r -> x <> w -> nth_error h2 x = nth_error h x).
  { intros x XR XW. unfold h2, h1. rewrite !nth_put_other by assumption. reflexivity. }
  assert (R2 : nth_error h2 r = Some (BArray (S oc) (length sl) (Some w))).
  { unfold h2. rewrite nth_put_other by (intuition congruence). unfold h1. apply nth_put_same. exact RL. }
  assert (W2 : nth_error h2 w = Some (BVec (put sl oc (P b)))) by (unfold h2; apply nth_put_same; unfold h1; rewrite length_put; exact WL).
  assert (A2 : nth_error h2 a = Some (BVal (VArray r))) by (rewrite OT; [exact A|intuition congruence|intuition congruence]).
  assert (US : forall x, In x us -> nth_error h2 x = nth_error h x) by (intros x I; apply OT; intros ->; tauto).
  assert (VS : forall x, In x vs -> nth_error h2 x = nth_error h x) by (intros x I; apply OT; intros ->; tauto).
  exists h2. split; [|split; [|split; [|split; [exact A2|exact R2]]]].
  - unfold store, vec_at. fold h1. rewrite W1. rewrite (proj2 (Nat.ltb_lt _ _) O). reflexivity.
  - apply look_seen. eapply (seen_array n h2 a r w (S oc) (put sl oc (P b))).
    + exact A2.
    + rewrite length_put. exact R2.
    + exact W2.
    + rewrite length_put. lia.
    + rewrite firstn_put by exact O. rewrite each_app, (each_follow_frame n h h2 _ _ _ E US). cbn [each follow].
      rewrite (look_frame n h h2 b v vs B VS), app_nil_r. reflexivity.
  - assert (AL : forall i, In i ((a :: r :: w :: us) ++ vs) -> i < length h).
    { cbn [app In]. intros i. rewrite in_app_iff. intros [<-|[<-|[<-|[I|I]]]]; try assumption; [eapply nth_lt; exact A| |].
      - apply (alive_lt h i). eapply each_alive; [|exact E|exact I]. intros q y' u' Q j J. destruct q as [| |q]; try discriminate. eapply look_alive; eassumption.
      - apply (alive_lt h i). eapply look_alive; eassumption. }
    unfold h2. eapply becomes_trans; [apply (becomes_put h r); [cbn; tauto|exact N|exact AL]| |exact AL].
    apply becomes_put; [cbn; tauto|exact N|]. unfold h1. rewrite length_put. exact AL.
Qed.

(** json_array_expand keeps the value *)
Lemma expand_array n h a r w oc sl l us : nth_error h a = Some (BVal (VArray r)) -> nth_error h r = Some (BArray oc (length sl) (Some w)) ->
  nth_error h w = Some (BVec sl) -> oc <= length sl -> 0 < length sl -> each (follow n h) (firstn oc sl) = Some (l, us) -> NoDup (a :: r :: w :: us) ->
  exists h' w' sl', json_array_expand h r = Done h' tt /\ nth_error h' a = Some (BVal (VArray r)) /\ nth_error h' r = Some (BArray oc (length sl') (Some w')) /\
    nth_error h' w' = Some (BVec sl') /\ length sl < length sl' /\ each (follow n h') (firstn oc sl') = Some (l, us) /\
    becomes h (a :: r :: w :: us) h' (a :: r :: w' :: us) /\ w' = length h.
Proof.
  intros A R W O L0 E N. pose proof N as N0. inversion N0 as [|? ? X1 Y1]; subst. inversion Y1 as [|? ? X2 Y2]; subst. inversion Y2 as [|? ? X3 Y3]; subst.
  cbn [In] in X1, X2.
  assert (AL0 : a < length h) by (eapply nth_lt; exact A). assert (RL : r < length h) by (eapply nth_lt; exact R). assert (WL : w < length h) by (eapply nth_lt; exact W).
  assert (UL : forall i, In i us -> i < length h).
  { intros i I. apply (alive_lt h i). eapply each_alive; [|exact E|exact I]. intros q y' u' Q j J. destruct q as [| |q]; try discriminate. eapply look_alive; eassumption. }
  unfold json_array_expand. rewrite R. cbn [new_size]. unfold vec_at. rewrite W.
  assert (NZ : length sl + (length sl + 1) / 2 =? 0 = false) by (apply Nat.eqb_neq; lia). rewrite NZ. cbn [alloc].
  set (sl' := sl ++ repeat PWild (length sl + (length sl + 1) / 2 - length sl)).
  assert (D1 : 1 <= (length sl + 1) / 2) by (apply (Nat.div_le_mono 2 (length sl + 1) 2); lia).
  assert (SL : length sl' = length sl + (length sl + 1) / 2) by (unfold sl'; rewrite app_length, repeat_length; lia).
  rewrite <- SL. rewrite length_put.
  set (h1 := put h w Freed ++ [BVec sl']). set (h2 := put h1 r (BArray oc (length sl') (Some (length h)))).
  assert (L1 : length h1 = length h + 1) by (unfold h1; rewrite app_length, length_put; reflexivity).
  assert (L2 : length h2 = length h + 1) by (unfold h2; rewrite length_put; exact L1).
  assert (OT : forall x, x < length h -> x <> r -> x <> w -> nth_error h2 x = nth_error h x).
  { intros x XL XR XW. unfold h2. rewrite nth_put_other by exact XR. unfold h1. rewrite nth_app_l by (rewrite length_put; exact XL). apply nth_put_other. exact XW. }
  assert (W2 : nth_error h2 (length h) = Some (BVec sl')).
  { unfold h2. rewrite nth_put_other by lia. unfold h1. rewrite <- (length_put _ h w Freed). apply nth_end. }
  assert (R2 : nth_error h2 r = Some (BArray oc (length sl') (Some (length h)))) by (unfold h2; apply nth_put_same; lia).
  assert (F2 : nth_error h2 w = Some Freed).
  { unfold h2. rewrite nth_put_other by (intuition congruence). unfold h1. rewrite nth_app_l by (rewrite length_put; exact WL). apply nth_put_same. exact WL. }
  exists h2, (length h), sl'. split; [reflexivity|]. split; [rewrite OT; [exact A|exact AL0|intuition congruence|intuition congruence]|].
  split; [exact R2|]. split; [exact W2|]. split; [lia|]. split; [|split; [|reflexivity]].
  - unfold sl'. rewrite firstn_app. replace (oc - length sl) with 0 by lia. cbn [firstn]. rewrite app_nil_r.
    eapply each_follow_frame; [exact E|]. intros x I. apply OT; [apply UL; exact I|intros ->; tauto|intros ->; tauto].
  - split; [lia|]. split; [|split; [|split; [|split]]].
    + intros x XL NI. cbn [In] in NI. apply OT; [exact XL|intuition congruence|intuition congruence].
    + constructor; [cbn [In]; intros [I|[I|I]]; [intuition congruence|lia|tauto]|].
      constructor; [cbn [In]; intros [I|I]; [lia|tauto]|]. constructor; [intros I; apply UL in I; lia|exact Y3].
    + intros x I. cbn [In] in *. destruct I as [I|[I|[I|I]]]; [tauto|tauto|right; lia|tauto].
    + intros x I NI. cbn [In] in *. destruct I as [I|[I|[I|I]]]; [tauto|tauto|subst; exact F2|tauto].
    + intros x XL NI. exfalso. apply NI. cbn [In]. right. right. left. lia.
Qed.

Lemma expand_new n h a r : nth_error h a = Some (BVal (VArray r)) -> nth_error h r = Some (BArray 0 0 None) -> NoDup [a; r] ->
  exists h' w', json_array_expand h r = Done h' tt /\ nth_error h' a = Some (BVal (VArray r)) /\ nth_error h' r = Some (BArray 0 8 (Some w')) /\
    nth_error h' w' = Some (BVec (repeat PWild 8)) /\ each (follow n h') (@nil ptr) = Some ([], []) /\ becomes h [a; r] h' [a; r; w'] /\ w' = length h.
Proof.
  intros A R N. inversion N as [|? ? X1 Y1]; subst. cbn [In] in X1.
  assert (AL0 : a < length h) by (eapply nth_lt; exact A). assert (RL : r < length h) by (eapply nth_lt; exact R).
  unfold json_array_expand. rewrite R. cbn [new_size Nat.eqb alloc].
  set (h2 := put (h ++ [BVec (repeat PWild 8)]) r (BArray 0 8 (Some (length h)))).
  assert (L2 : length h2 = length h + 1) by (unfold h2; rewrite length_put, app_length; reflexivity).
  assert (OT : forall x, x < length h -> x <> r -> nth_error h2 x = nth_error h x).
  { intros x XL XR. unfold h2. rewrite nth_put_other by exact XR. apply nth_app_l. exact XL. }
  assert (W2 : nth_error h2 (length h) = Some (BVec (repeat PWild 8))) by (unfold h2; rewrite nth_put_other by lia; apply nth_end).
  exists h2, (length h). split; [reflexivity|]. split; [rewrite OT; [exact A|exact AL0|intuition congruence]|].
  split; [unfold h2; apply nth_put_same; rewrite app_length; cbn; lia|]. split; [exact W2|]. split; [reflexivity|]. split; [|reflexivity].
  split; [lia|]. split; [|split; [|split; [|split]]].
  - intros x XL NI. cbn [In] in NI. apply OT; [exact XL|intuition congruence].
  - repeat constructor; cbn [In]; intuition lia.
  - intros x I. cbn [In] in *. intuition lia.
  - intros x I NI. cbn [In] in *. tauto.
  - intros x XL NI. exfalso. apply NI. cbn [In]. right. right. left. lia.
Qed.

Lemma append_ok n h a l us b v vs : holds (S n) h a (JArray l) us -> holds n h b v vs -> disjoint us vs -> roomy h a ->
  exists h' us', json_array_append h a b = Done h' tt /\ look (S n) h' a = Some (JArray (l ++ [v]), us') /\ becomes h (us ++ vs) h' us' /\ roomy h' a.
Proof.
  intros [LA NA] [LB NB] DJ (r0 & oc0 & on0 & ov0 & A0 & R0 & RM).
  assert (VL : forall x, In x vs -> x < length h) by (intros x I; apply (alive_lt h x); exact (look_alive _ _ _ _ _ LB x I)).
  assert (ULA : forall x, In x us -> x < length h) by (intros x I; apply (alive_lt h x); exact (look_alive _ _ _ _ _ LA x I)).
  assert (UVL : forall x, In x (us ++ vs) -> x < length h).
  { intros x I. apply in_app_or in I. destruct I as [I|I]; [apply ULA; exact I|apply VL; exact I]. }
  apply look_seen in LA. unfold json_array_append, json_array_insert.
  inversion LA as [| | | | |r A R E1 E2|r w oc sl l0 us0 A R W O E E1 E2|]; subst; rewrite A in A0; inversion A0; subst r0; rewrite R in R0; inversion R0; subst.
  - rewrite A, R. cbn [Nat.leb]. cbn [grow]. rewrite R. cbn [Nat.leb].
    destruct (expand_new n h a r A R NA) as (h1 & w1 & X & A1 & R1 & W1 & E1 & B1 & EQ). rewrite X. cbn [grow]. rewrite R1. cbn [Nat.leb]. rewrite R1.
    pose proof (becomes_frame _ _ _ _ vs B1 NB DJ VL) as BF.
    assert (LB1 : look n h1 b = Some (v, vs)).
    { eapply look_frame; [exact LB|]. intros x I. apply (proj1 (proj2 B1)); [apply VL; exact I|]. intros J. exact (DJ x J I). }
    destruct (store_append n h1 a r w1 0 (repeat PWild 8) [] [] b v vs A1 R1 W1) as (h2 & S2 & L2 & B2 & A2 & R2); [cbn; lia|exact E1|exact LB1|exact (proj1 (proj2 (proj2 BF)))|].
    exists h2, (([a; r; w1] ++ []) ++ vs). split; [exact S2|]. split; [exact L2|]. split.
    + eapply becomes_trans; [exact BF|exact B2|exact UVL].
    + exists r, 1, 8, (Some w1). repeat split; [exact A2|exact R2|right; lia].
  - rewrite A, R, (proj2 (Nat.leb_le oc0 oc0) (le_n _)).
    destruct (le_lt_dec (length sl) oc0) as [F|F].
    + assert (L0 : 0 < length sl) by (destruct RM as [RM|RM]; [discriminate|exact RM]).
      destruct (expand_array n h a r w oc0 sl l us0 A R W O L0 E NA) as (h1 & w1 & sl1 & X & A1 & R1 & W1 & LS & E1 & B1 & EQ).
      cbn [grow]. rewrite R, (proj2 (Nat.leb_le _ _) F), X. rewrite R1. rewrite (proj2 (Nat.leb_gt (length sl1) oc0)) by lia. rewrite R1.
      pose proof (becomes_frame _ _ _ _ vs B1 NB DJ VL) as BF.
      assert (LB1 : look n h1 b = Some (v, vs)).
      { eapply look_frame; [exact LB|]. intros x I. apply (proj1 (proj2 B1)); [apply VL; exact I|]. intros J. exact (DJ x J I). }
      destruct (store_append n h1 a r w1 oc0 sl1 l us0 b v vs A1 R1 W1) as (h2 & S2 & L2 & B2 & A2 & R2); [lia|exact E1|exact LB1|exact (proj1 (proj2 (proj2 BF)))|].
      exists h2, ((a :: r :: w1 :: us0) ++ vs). split; [exact S2|]. split; [exact L2|]. split.
      * eapply becomes_trans; [exact BF|exact B2|exact UVL].
      * exists r, (S oc0), (length sl1), (Some w1). repeat split; [exact A2|exact R2|right; lia].
    + cbn [grow]. rewrite R, (proj2 (Nat.leb_gt (length sl) oc0) F). rewrite R.
      destruct (store_append n h a r w oc0 sl l us0 b v vs A R W F E LB) as (h2 & S2 & L2 & B2 & A2 & R2); [apply nodup_app; assumption|].
      exists h2, ((a :: r :: w :: us0) ++ vs). split; [exact S2|]. split; [exact L2|]. split; [exact B2|].
      exists r, (S oc0), (length sl), (Some w). repeat split; [exact A2|exact R2|right; lia].
Qed.

Lemma append_all_ok n bs : forall h a l us vs ws, holds (S n) h a (JArray l) us -> roomy h a ->
  each (look n h) bs = Some (vs, ws) -> NoDup (us ++ ws) ->
  exists h' us', append_all h a bs = Done h' tt /\ look (S n) h' a = Some (JArray (l ++ vs), us') /\ becomes h (us ++ ws) h' us'.
Proof.
  induction bs as [|b bs IH]; intros h a l us vs ws H R E N; cbn [each] in E.
  - inversion E; subst. exists h, us. rewrite !app_nil_r in *. split; [reflexivity|]. split; [exact (proj1 H)|].
    split; [lia|]. split; [reflexivity|]. split; [exact N|]. split; [intros x I; left; exact I|]. split; [intros x I J; contradiction|intros; lia].
  - destruct (look n h b) as [[v u]|] eqn:B; [|discriminate]. destruct (each (look n h) bs) as [[vs' ws']|] eqn:E2; [|discriminate]. inversion E; subst.
    rewrite app_assoc in N. pose proof N as N0. apply nodup_app_inv in N. destruct N as (N1 & N2 & D). pose proof N1 as N1'. apply nodup_app_inv in N1. destruct N1 as (_ & NU & DU).
    destruct (append_ok n h a l us b v u H (conj B NU) DU R) as (h1 & us1 & A1 & L1 & B1 & R1).
    assert (LW : forall x, In x ws' -> x < length h).
    { intros x I. apply (alive_lt h x). eapply each_alive; [|exact E2|exact I]. intros q y' u' Q j J. eapply look_alive; eassumption. }
    pose proof (becomes_frame _ _ _ _ ws' B1 N2 D LW) as BF.
    assert (KW : forall x, In x ws' -> nth_error h1 x = nth_error h x).
    { intros x I. apply (proj1 (proj2 B1)); [apply LW; exact I|]. intros J. exact (D x J I). }
    destruct (IH h1 a (l ++ [v]) us1 vs' ws') as (h2 & us2 & A2 & L2 & B2).
    + split; [exact L1|]. exact (proj1 (proj2 (proj2 B1))).
    + exact R1.
    + eapply each_impl; [exact E2|]. intros x y u' I Q S. eapply look_frame; [exact Q|]. intros i J. apply KW. apply S. exact J.
    + exact (proj1 (proj2 (proj2 BF))).
    + exists h2, us2. cbn [append_all]. rewrite A1. split; [exact A2|]. split; [rewrite L2, <- app_assoc; reflexivity|].
      rewrite app_assoc. eapply becomes_trans; [exact BF|exact B2|]. intros x I. apply in_app_or in I. destruct I as [I|I]; [|apply LW; exact I].
      apply in_app_or in I. apply (alive_lt h x). destruct I as [I|I]; [exact (look_alive _ _ _ _ _ (proj1 H) x I)|exact (look_alive _ _ _ _ _ B x I)].
Qed.

Lemma new_array_ok n h : let (h', a) := json_new_array h in exists us, holds (S n) h' a (JArray []) us /\ becomes h [] h' us /\ roomy h' a.
Proof.
  unfold json_new_array. cbn [alloc]. rewrite <- app_assoc. cbn [app]. exists [length h; S (length h)].
  assert (L : length (h ++ [BVal (VArray (S (length h))); BArray 0 0 None]) = length h + 2) by (rewrite app_length; reflexivity).
  split; [split|split].
  - rewrite look_S, nth_end0, nth_end1. reflexivity.
  - repeat constructor; cbn [In]; lia.
  - apply made_becomes; [|intros x X; apply nth_app_l; exact X]. split; [rewrite L; cbn; lia|]. split; [repeat constructor; cbn [In]; lia|].
    cbn [In]. intros x [<-|[<-|[]]]; lia.
  - exists (S (length h)), 0, 0, None. rewrite nth_end0, nth_end1. auto.
Qed.

Lemma get_ok n h a l us i v : holds (S n) h a (JArray l) us -> nth_error l i = Some v ->
  exists b vs, json_array_get h a i = Done h (P b) /\ look n h b = Some (v, vs) /\ (forall x, In x vs -> In x us).
Proof.
  intros [H N] I. apply look_seen in H. inversion H as [| | | | |r A R|r w oc sl l0 us0 A R W O E|]; subst; [destruct i; discriminate|].
  unfold json_array_get. rewrite A, R. pose proof (each_length _ _ _ _ _ _ E) as LE. rewrite firstn_length in LE.
  assert (IL : i < length l) by (eapply nth_lt; exact I). rewrite (proj2 (Nat.leb_gt oc i)) by lia. rewrite (elements_ok h oc sl w W O).
  assert (X : forall ps l us i, each (follow n h) ps = Some (l, us) -> nth_error l i = Some v ->
    exists b vs, nth_error ps i = Some (P b) /\ look n h b = Some (v, vs) /\ (forall x, In x vs -> In x us)).
  { clear. induction ps as [|p ps IH]; intros l us i E I; cbn [each] in E; [inversion E; subst; destruct i; discriminate|].
    destruct (follow n h p) as [[y u]|] eqn:F; [|discriminate]. destruct (each (follow n h) ps) as [[ys us']|] eqn:E2; [|discriminate]. inversion E; subst.
    destruct i as [|i]; cbn [nth_error] in *.
    - inversion I; subst. destruct p as [| |b]; try discriminate. exists b, u. repeat split; [exact F|]. intros x X. apply in_or_app. left. exact X.
    - destruct (IH ys us' i eq_refl I) as (b & vs & B1 & B2 & B3). exists b, vs. repeat split; [exact B1|exact B2|]. intros x X. apply in_or_app. right. apply B3. exact X. }
  destruct (X _ _ _ _ E I) as (b & vs & B1 & B2 & B3). rewrite B1. exists b, vs. split; [reflexivity|]. split; [exact B2|].
  intros x XI. right. right. right. apply B3. exact XI.
Qed.

Lemma past_end n h a l us i b : look (S n) h a = Some (JArray l, us) -> length l <= i ->
  json_array_get h a i = Fails h /\ json_array_set h a i b = Fails h.
Proof.
  intros H I. apply look_seen in H. inversion H as [| | | | |r A R|r w oc sl l0 us0 A R W O E|]; subst; unfold json_array_get, json_array_set; rewrite A, R.
  - split; reflexivity.
  - pose proof (each_length _ _ _ _ _ _ E) as LE. rewrite firstn_length in LE. rewrite (proj2 (Nat.leb_le oc i)) by lia. split; reflexivity.
Qed.

(** * Objects *)
Lemma find_pair_ok n h name prs : forall i l us, each (pairf n h) prs = Some (l, us) ->
  (exists p1 q p2 l1 x l2, prs = p1 ++ q :: p2 /\ l = l1 ++ (name, x) :: l2 /\ length l1 = length p1 /\ Forall (fun kv => strcmp (fst kv) name = Lt) l1 /\
     find_pair h prs i name = Some (At q)) \/
  (exists p1 p2 l1 l2, prs = p1 ++ p2 /\ l = l1 ++ l2 /\ length l1 = length p1 /\ Forall (fun kv => strcmp (fst kv) name = Lt) l1 /\
     match l2 with [] => True | kv :: _ => strcmp (fst kv) name = Gt end /\ find_pair h prs i name = Some (Before (i + length p1))).
Proof.
  induction prs as [|q prs IH]; intros i l us E; cbn [each] in E; cbn [find_pair].
  - inversion E; subst. right. exists [], [], [], []. rewrite Nat.add_0_r. repeat split; constructor.
  - destruct (pairf n h q) as [[y u]|] eqn:F; [|discriminate]. destruct (each (pairf n h) prs) as [[ys us']|] eqn:E2; [|discriminate]. inversion E; subst.
    destruct (pairf_inv _ _ _ _ _ F) as (k & b & w & Q & K & L & ->). rewrite Q. unfold text_at. rewrite K.
    destruct (strcmp (fst y) name) eqn:C.
    + apply strcmp_eq in C. left. destruct y as [t x]. cbn [fst] in C. subst t. exists [], q, prs, [], x, ys. repeat split; constructor.
    + destruct (IH (S i) ys us' eq_refl) as [(p1 & q' & p2 & l1 & x & l2 & -> & -> & A & B & D)|(p1 & p2 & l1 & l2 & -> & -> & A & B & D & G)].
      * left. exists (q :: p1), q', p2, (y :: l1), x, l2. repeat split; [cbn; congruence|constructor; assumption|exact D].
      * right. exists (q :: p1), p2, (y :: l1), l2. repeat split; [cbn; congruence|constructor; assumption|exact D|]. rewrite G. f_equal. f_equal. cbn. lia.
    + right. exists [], (q :: prs), [], (y :: ys). rewrite Nat.add_0_r. repeat split; [constructor|exact C].
Qed.

Lemma said_lt k l : forall m, Forall (fun kv => strcmp (fst kv) k = Lt) l -> said (l ++ m) k = said m k.
Proof. induction l as [|[x v] l IH]; intros m F; [reflexivity|]. inversion F as [|? ? F1 F2]; subst. cbn [fst] in F1. cbn [app said]. rewrite F1. apply IH. exact F2. Qed.

Lemma said_app k l : forall m, said (l ++ m) k = match said l k with Some v => Some v | None => said m k end.
Proof. induction l as [|[x v] l IH]; intros m; [reflexivity|]. cbn [app said]. destruct (strcmp x k); try reflexivity; apply IH. Qed.

Lemma each_split X Y (f : X -> option (Y * list nat)) a : forall b l us, each f (a ++ b) = Some (l, us) -> exists l1 l2 u1 u2,
  l = l1 ++ l2 /\ us = u1 ++ u2 /\ length l1 = length a /\ each f a = Some (l1, u1) /\ each f b = Some (l2, u2).
Proof.
  intros b l us H. rewrite each_app in H. destruct (each f a) as [[l1 u1]|] eqn:A; [|discriminate]. destruct (each f b) as [[l2 u2]|]; [|discriminate].
  inversion H; subst. exists l1, l2, u1, u2. repeat split. eapply each_length; exact A.
Qed.

Lemma app_same_length A (a b c d : list A) : length a = length c -> a ++ b = c ++ d -> a = c /\ b = d.
Proof.
  revert c. induction a as [|x a IH]; intros [|y c] L H; cbn in *; try discriminate; [auto|]. inversion H; subst. destruct (IH c) as [-> ->]; auto.
Qed.

Lemma set_ok n h a l us k b v vs : holds (S n) h a (JObject l) us -> holds n h b v vs -> disjoint us vs ->
  exists h' l' us', json_object_set n h a k b = Done h' tt /\ look (S n) h' a = Some (JObject l', us') /\ becomes h (us ++ vs) h' us' /\
    (forall k', said l' k' = match strcmp k k' with Eq => Some v | _ => said l k' end).
Proof.
  intros [H N] [B NB] DJ.
  assert (VL : forall x, In x vs -> x < length h) by (intros x I; apply (alive_lt h x); exact (look_alive _ _ _ _ _ B x I)).
  assert (ULA : forall x, In x us -> x < length h) by (intros x I; apply (alive_lt h x); exact (look_alive _ _ _ _ _ H x I)).
  apply look_seen in H. inversion H as [| | | | | | |o prs l0 us0 A O E OR]; subst.
  pose proof N as N0. inversion N0 as [|? ? X1 Y1]; subst. inversion Y1 as [|? ? X2 Y2]; subst. cbn [In] in X1.
  assert (AL : a < length h) by (apply ULA; left; reflexivity). assert (OL : o < length h) by (apply ULA; right; left; reflexivity).
  unfold json_object_set. rewrite A, O.
  destruct (find_pair_ok n h k prs 0 l us0 E) as [(p1 & q & p2 & l1 & x & l2 & EP & EL & LL & FL & FP)|(p1 & p2 & l1 & l2 & EP & EL & LL & FL & GT & FP)]; rewrite FP.
  - (* the name is there *)
    subst prs. destruct (each_split _ _ _ _ _ _ _ E) as (m1 & m2 & u1 & u2 & EM & EU & LM & E1 & E2). subst us0.
    rewrite EL in EM. destruct (app_same_length _ _ _ _ _ (eq_trans LL (eq_sym LM)) EM) as [<- <-]. clear EM.
    cbn [each] in E2. destruct (pairf n h q) as [[y u]|] eqn:Q; [|discriminate]. destruct (each (pairf n h) p2) as [[ys u3]|] eqn:E3; [|discriminate].
    inversion E2; subst. destruct (pairf_inv _ _ _ _ _ Q) as (kk & c & w & QQ & KK & LC & ->). cbn [fst snd] in *. rewrite QQ.
    apply nodup_app_inv in Y2. destruct Y2 as (NU1 & NR & D1). cbn [app] in NR, D1, X1, X2.
    inversion NR as [|? ? Z1 NR1]; subst. inversion NR1 as [|? ? Z2 NR2]; subst. apply nodup_app_inv in NR2. destruct NR2 as (NW & NU3 & D3).
    cbn [In] in Z1. rewrite !in_app_iff in *. cbn [In] in *. rewrite !in_app_iff in *.
    destruct (free_ok n h c x w LC NW) as (h1 & R1 & F1). rewrite R1. pose proof F1 as (FL1 & FB & FC).
    assert (Q1 : nth_error h1 q = Some (BPair kk (P c))) by (rewrite FC; [exact QQ|tauto]). rewrite Q1.
    set (h2 := put h1 q (BPair kk (P b))).
    assert (OT : forall i, i <> q -> ~ In i w -> nth_error h2 i = nth_error h i) by (intros i I J; unfold h2; rewrite nth_put_other by exact I; apply FC; exact J).
    assert (QL : q < length h) by (eapply nth_lt; exact QQ).
    assert (VW : forall i, In i vs -> nth_error h2 i = nth_error h i).
    { intros i I. apply OT; [intros ->; apply (DJ q); [|exact I]|intros J; apply (DJ i); [|exact I]]; cbn [In app]; rewrite !in_app_iff; cbn [In]; rewrite ?in_app_iff; tauto. }
    assert (NEW : pairf n h2 q = Some ((k, v), q :: kk :: vs)).
    { eapply pairf_make; [unfold h2; apply nth_put_same; rewrite FL1; exact QL|rewrite OT; [exact KK|intros ->; tauto|tauto]|]. eapply look_frame; [exact B|exact VW]. }
    set (us' := a :: o :: u1 ++ (q :: kk :: vs) ++ u3).
    assert (US' : forall i, In i us' <-> (In i (a :: o :: u1 ++ (q :: kk :: w) ++ u3) /\ ~ In i w) \/ In i vs).
    { intros i. unfold us'. cbn [In app]. rewrite !in_app_iff. cbn [In]. rewrite !in_app_iff. split.
      - intros [I|[I|[I|[I|[I|[I|I]]]]]]; try (right; exact I); left; split; try tauto; intros J; subst; try tauto.
        + apply (D1 i I). cbn [In]. rewrite in_app_iff. tauto.
        + exact (D3 i J I).
      - tauto. }
    assert (DV : forall i, In i vs -> ~ In i (a :: o :: u1 ++ (q :: kk :: w) ++ u3)) by (intros i I J; exact (DJ i J I)).
    exists h2, (l1 ++ (k, v) :: l2), us'. split; [reflexivity|]. split; [|split].
    + apply look_seen. eapply (seen_object n h2 a o (p1 ++ q :: p2)).
      * rewrite OT; [exact A|intros ->; tauto|tauto].
      * rewrite OT; [exact O|intros ->; tauto|tauto].
      * rewrite each_app. rewrite (each_pair_frame n h h2 p1 l1 u1 E1).
        -- cbn [each]. rewrite NEW, (each_pair_frame n h h2 p2 l2 u3 E3); [reflexivity|].
           intros i I. apply OT; [intros ->; tauto|intros J; exact (D3 i J I)].
        -- intros i I. apply OT; [intros ->|intros J]; apply (D1 _ I); cbn [In]; rewrite ?in_app_iff; tauto.
      * rewrite map_app in *. exact OR.
    + split; [unfold h2; rewrite length_put; lia|]. split; [|split; [|split; [|split]]].
      * intros i I J. apply OT; [intros ->|intros K]; apply J; rewrite in_app_iff; cbn [In]; rewrite !in_app_iff; cbn [In]; rewrite ?in_app_iff; tauto.
      * unfold us'. constructor; [|constructor].
        -- cbn [In app]. rewrite !in_app_iff. cbn [In]. rewrite in_app_iff. intros I. assert (VA : ~ In a vs) by (intros J; apply (DV a J); left; reflexivity). tauto.
        -- cbn [In app]. rewrite !in_app_iff. cbn [In]. rewrite in_app_iff. intros I. assert (VA : ~ In o vs) by (intros J; apply (DV o J); right; left; reflexivity). tauto.
        -- apply nodup_app; [exact NU1| |].
           ++ cbn [app]. constructor; [|constructor].
              ** cbn [In]. rewrite in_app_iff. intros I. assert (VA : ~ In q vs) by (intros J; apply (DV q J); cbn [In]; rewrite in_app_iff; cbn [In app]; tauto). tauto.
              ** rewrite in_app_iff. intros I. assert (VA : ~ In kk vs) by (intros J; apply (DV kk J); cbn [In]; rewrite in_app_iff; cbn [In app]; tauto). tauto.
              ** apply nodup_app; [exact NB|exact NU3|]. intros i I J. apply (DV i I). cbn [In]. rewrite !in_app_iff. tauto.
           ++ intros i I. cbn [app In]. rewrite in_app_iff. intros J. assert (VA : ~ In i vs) by (intros K; apply (DV i K); cbn [In]; rewrite in_app_iff; tauto).
              apply (D1 i I). cbn [In]. rewrite in_app_iff. tauto.
      * intros i I. apply US' in I. left. rewrite in_app_iff. tauto.
      * intros i I J. rewrite in_app_iff in I.
        assert (W0 : In i w).
        { destruct (in_dec Nat.eq_dec i w) as [Y|Y]; [exact Y|]. exfalso. apply J. apply US'. tauto. }
        unfold h2. rewrite nth_put_other; [apply FB; exact W0|]. intros ->. tauto.
      * unfold h2. rewrite length_put. intros; lia.
    + intros k'. rewrite !said_app. cbn [said]. destruct (strcmp k k') eqn:C; try reflexivity.
      apply strcmp_eq in C. subst k'. rewrite <- (app_nil_r l1) at 1. rewrite (said_lt k l1 [] FL). reflexivity.
  - (* it is not *)
    subst prs. destruct (each_split _ _ _ _ _ _ _ E) as (m1 & m2 & u1 & u2 & EM & EU & LM & E1 & E2). subst us0.
    rewrite EL in EM. destruct (app_same_length _ _ _ _ _ (eq_trans LL (eq_sym LM)) EM) as [<- <-]. clear EM. subst l.
    cbn [alloc Nat.add]. rewrite <- app_assoc. cbn [app].
    assert (FS : firstn (length p1) (p1 ++ p2) = p1 /\ skipn (length p1) (p1 ++ p2) = p2).
    { split; [rewrite firstn_app, firstn_all, Nat.sub_diag, app_nil_r; reflexivity|rewrite skipn_app, skipn_all, Nat.sub_diag; reflexivity]. }
    destruct FS as [-> ->].
    set (h2 := put (h ++ [BPair (S (length h)) (P b); BText k]) o (BObject (p1 ++ length h :: p2))).
    assert (L2 : length h2 = length h + 2) by (unfold h2; rewrite length_put, app_length; reflexivity).
    assert (OT : forall i, i < length h -> i <> o -> nth_error h2 i = nth_error h i).
    { intros i I J. unfold h2. rewrite nth_put_other by exact J. apply nth_app_l. exact I. }
    assert (VW : forall i, In i vs -> nth_error h2 i = nth_error h i).
    { intros i I. apply OT; [apply VL; exact I|]. intros ->. apply (DJ o); [right; left; reflexivity|exact I]. }
    assert (NEW : pairf n h2 (length h) = Some ((k, v), length h :: S (length h) :: vs)).
    { eapply pairf_make.
      - unfold h2. rewrite nth_put_other by lia. apply nth_end0.
      - unfold h2. rewrite nth_put_other by lia. apply nth_end1.
      - eapply look_frame; [exact B|exact VW]. }
    rewrite in_app_iff in X1, X2. apply nodup_app_inv in Y2. destruct Y2 as (NU1 & NU2 & D12).
    assert (UL : forall i, In i (u1 ++ u2) -> i < length h) by (intros i I; apply ULA; right; right; exact I).
    assert (UL1 : forall i, In i u1 -> i < length h) by (intros i I; apply UL; apply in_or_app; left; exact I).
    assert (UL2 : forall i, In i u2 -> i < length h) by (intros i I; apply UL; apply in_or_app; right; exact I).
    assert (DV : forall i, In i vs -> ~ In i (a :: o :: u1 ++ u2)) by (intros i I J; exact (DJ i J I)).
    exists h2, (l1 ++ (k, v) :: l2), (a :: o :: u1 ++ (length h :: S (length h) :: vs) ++ u2). split; [reflexivity|]. split; [|split].
    + apply look_seen. eapply (seen_object n h2 a o (p1 ++ length h :: p2)).
      * rewrite OT; [exact A|exact AL|intros ->; tauto].
      * unfold h2. apply nth_put_same. rewrite app_length. lia.
      * rewrite each_app. rewrite (each_pair_frame n h h2 p1 l1 u1 E1).
        -- cbn [each]. rewrite NEW, (each_pair_frame n h h2 p2 l2 u2 E2); [reflexivity|].
           intros i I. apply OT; [apply UL2; exact I|intros ->; tauto].
        -- intros i I. apply OT; [apply UL1; exact I|intros ->; tauto].
      * rewrite map_app in *. cbn [map fst]. apply ordered_app.
        assert (OO : ordered (map fst l1) = true /\ ordered (map fst l2) = true /\ Forall (fun y => strcmp k y = Lt) (map fst l2)).
        { destruct l2 as [|kv l2]; [rewrite app_nil_r in OR; repeat split; [exact OR|constructor]|].
          cbn [map] in *. pose proof OR as OR'. apply ordered_app in OR'. destruct OR' as (O1 & O2 & O3 & O4).
          assert (KL : strcmp k (fst kv) = Lt) by (apply strcmp_gt in GT; exact GT).
          split; [exact O1|]. split; [apply ordered_cons; split; assumption|]. constructor; [exact KL|].
          eapply Forall_impl; [|exact O4]. intros z Z. exact (lt_trans _ _ _ KL Z). }
        destruct OO as (O1 & O2 & O3). repeat split; try assumption. rewrite Forall_map. exact FL.
    + split; [lia|]. split; [|split; [|split; [|split]]].
      * intros i I J. apply OT; [exact I|]. intros ->. apply J. cbn [In app]. tauto.
      * constructor; [|constructor].
        -- cbn [In app]. rewrite !in_app_iff. cbn [In]. rewrite in_app_iff. intros I. assert (VA : ~ In a vs) by (intros J; apply (DV a J); left; reflexivity).
           assert (length h <> a) by lia. assert (S (length h) <> a) by lia. tauto.
        -- cbn [In app]. rewrite !in_app_iff. cbn [In]. rewrite in_app_iff. intros I. assert (VA : ~ In o vs) by (intros J; apply (DV o J); right; left; reflexivity).
           assert (length h <> o) by lia. assert (S (length h) <> o) by lia. tauto.
        -- apply nodup_app; [exact NU1| |].
           ++ cbn [app]. constructor; [|constructor].
              ** cbn [In]. rewrite in_app_iff. intros [I|[I|I]]; [lia|apply VL in I; lia|apply UL2 in I; lia].
              ** rewrite in_app_iff. intros [I|I]; [apply VL in I; lia|apply UL2 in I; lia].
              ** apply nodup_app; [exact NB|exact NU2|]. intros i I J. apply (DV i I). cbn [In]. rewrite !in_app_iff. tauto.
           ++ intros i I. cbn [app In]. rewrite in_app_iff. intros [J|[J|[J|J]]].
              ** apply UL1 in I. lia.
              ** apply UL1 in I. lia.
              ** apply (DV i J). cbn [In]. rewrite in_app_iff. tauto.
              ** exact (D12 i I J).
      * intros i I. cbn [In app] in *. rewrite !in_app_iff in *. cbn [In] in *. rewrite !in_app_iff in *.
        destruct I as [I|[I|[I|[I|[I|[I|I]]]]]]; try tauto; right; lia.
      * intros i I J. exfalso. apply J. cbn [In app] in *. rewrite !in_app_iff in *. cbn [In]. rewrite !in_app_iff. tauto.
      * intros i I J. exfalso. apply J. cbn [In app]. rewrite !in_app_iff. cbn [In].
        assert (length h = i \/ S (length h) = i) by lia. tauto.
    + intros k'. rewrite !said_app. cbn [said]. destruct (strcmp k k') eqn:C; try reflexivity.
      apply strcmp_eq in C. subst k'. rewrite <- (app_nil_r l1) at 1. rewrite (said_lt k l1 [] FL). reflexivity.
Qed.

(** * What goes wrong *)
Lemma copied_empty n h a us : look (S n) h a = Some (JArray [], us) ->
  json_value_copy (S n) h (P a) =
    Done (h ++ [BVal (VArray (S (length h))); BArray 0 0 (Some (S (S (length h)))); BVec []]) (length h).
Proof.
  intros H. apply look_seen in H. cbn [json_value_copy].
  inversion H as [| | | | |r A R|r w oc sl l0 us0 A R W O E|]; subst; rewrite A, R.
  - cbn [elements]. unfold json_new_array. cbn [alloc repeat copy_elements]. rewrite <- !app_assoc. cbn [app].
    replace (length (h ++ [BVal (VArray (S (length h))); BArray 0 0 None])) with (S (S (length h))) by (rewrite app_length; cbn; lia).
    rewrite put_end1. reflexivity.
  - assert (oc = 0). { pose proof (each_length _ _ _ _ _ _ E) as LE. rewrite firstn_length in LE. cbn in LE. lia. } subst oc.
    cbn [elements]. unfold json_new_array. cbn [alloc repeat copy_elements]. rewrite <- !app_assoc. cbn [app].
    replace (length (h ++ [BVal (VArray (S (length h))); BArray 0 0 None])) with (S (S (length h))) by (rewrite app_length; cbn; lia).
    rewrite put_end1. reflexivity.
Qed.

Lemma empty_copy_append n h a us h1 b v : look (S n) h a = Some (JArray [], us) -> json_value_copy (S n) h (P a) = Done h1 b ->
  exists h2, json_array_append h1 b v = Fails h2 /\ json_value_free (S n) h2 (P b) = Undef.
Proof.
  intros H C. exists (h ++ [BVal (VArray (S (length h))); BArray 0 0 (Some (S (S (length h)))); Freed]).
  rewrite (copied_empty n h a us H) in C. inversion C; subst. clear C.
  unfold json_array_append, json_array_insert. rewrite !nth_end0, !nth_end1. cbn [Nat.leb grow]. rewrite nth_end1. cbn [Nat.leb].
  unfold json_array_expand. rewrite nth_end1. cbn [new_size]. unfold vec_at. rewrite nth_end2. cbn [Nat.eqb Nat.add Nat.div Nat.divmod fst].
  assert (P2 : put (h ++ [BVal (VArray (S (length h))); BArray 0 0 (Some (S (S (length h)))); BVec []]) (S (S (length h))) Freed =
    h ++ [BVal (VArray (S (length h))); BArray 0 0 (Some (S (S (length h)))); Freed]).
  { clear. generalize (S (length h)) at 1 2 4 5. intros k. generalize (BVal (VArray k)) (BArray 0 0 (Some (S k))). intros x y.
    induction h as [|z h IH]; cbn [app length put]; [reflexivity|]. f_equal. exact IH. }
  rewrite P2. split; [reflexivity|].
  cbn [json_value_free]. rewrite nth_end0, nth_end1. cbn [elements free_elements opt_list app release_all]. unfold release. rewrite nth_end2. reflexivity.
Qed.

Lemma grow_wild r oc idx fuel : forall h on w, nth_error h r = Some (BArray oc on (Some w)) -> nth_error h w = Some (BVec (repeat PWild on)) -> r <> w -> 0 < on ->
  S idx < fuel + on -> 0 < fuel -> exists h' on' w', grow fuel h r idx = Done h' tt /\ nth_error h' r = Some (BArray oc on' (Some w')) /\
    nth_error h' w' = Some (BVec (repeat PWild on')) /\ idx < on' /\ r <> w' /\ (forall x, x < length h -> x <> r -> x <> w -> nth_error h' x = nth_error h x) /\
    length h <= length h' /\ (w' = w \/ length h <= w').
Proof.
  induction fuel as [|fuel IH]; intros h on w R W RW ON F F0; [lia|]. cbn [grow]. rewrite R.
  assert (RL : r < length h) by (eapply nth_lt; exact R). assert (WL : w < length h) by (eapply nth_lt; exact W).
  destruct (on <=? idx) eqn:C.
  - apply Nat.leb_le in C. unfold json_array_expand. rewrite R. cbn [new_size]. unfold vec_at. rewrite W.
    assert (D1 : 1 <= (on + 1) / 2) by (apply (Nat.div_le_mono 2 (on + 1) 2); lia).
    assert (NZ : on + (on + 1) / 2 =? 0 = false) by (apply Nat.eqb_neq; lia). rewrite NZ. cbn [alloc].
    set (m := on + (on + 1) / 2) in *. rewrite <- repeat_app. replace (on + (m - on)) with m by (unfold m; lia). rewrite length_put.
    set (h1 := put (put h w Freed ++ [BVec (repeat PWild m)]) r (BArray oc m (Some (length h)))).
    assert (L1 : length h1 = length h + 1) by (unfold h1; rewrite length_put, app_length, length_put; reflexivity).
    destruct (IH h1 m (length h)) as (h2 & on' & w' & G & R2 & W2 & I2 & N2 & K2 & L2 & B2).
    + unfold h1. apply nth_put_same. rewrite app_length, length_put. lia.
    + unfold h1. rewrite nth_put_other by lia. pose proof (nth_end _ (put h w Freed) (BVec (repeat PWild m))) as K. rewrite length_put in K. exact K.
    + lia.
    + unfold m. lia.
    + unfold m. lia.
    + lia.
    + exists h2, on', w'. split; [exact G|]. split; [exact R2|]. split; [exact W2|]. split; [exact I2|]. split; [exact N2|]. split; [|split; [lia|right; lia]].
      intros x X XR XW. rewrite K2 by lia. unfold h1. rewrite nth_put_other by exact XR. rewrite nth_app_l by (rewrite length_put; exact X). apply nth_put_other. exact XW.
  - apply Nat.leb_gt in C. exists h, on, w. repeat split; auto.
Qed.

Lemma nth_repeat_lt A (x : A) : forall n i, i < n -> nth_error (repeat x n) i = Some x.
Proof. induction n as [|n IH]; intros [|i] H; cbn; try lia; [reflexivity|]. apply IH. lia. Qed.

Lemma put_keeps_first A (l : list A) i x y : 0 < i -> nth_error l 0 = Some y -> nth_error (firstn (S i) (put l i x)) 0 = Some y.
Proof. intros I H. destruct l as [|z l]; [discriminate|]. destruct i as [|i]; [lia|]. exact H. Qed.

Lemma gap n h idx v : 0 < idx -> let (h1, a) := json_new_array h in
  exists h2, json_array_insert h1 a idx v = Done h2 tt /\ json_array_get h2 a 0 = Done h2 PWild /\ json_value_free (S (S n)) h2 (P a) = Undef.
Proof.
  intros IX. unfold json_new_array. cbn [alloc]. rewrite <- app_assoc. cbn [app].
  set (h0 := h ++ [BVal (VArray (S (length h))); BArray 0 0 None]). set (a := length h). set (r := S a).
  assert (A0 : nth_error h0 a = Some (BVal (VArray r))) by apply nth_end0. assert (R0 : nth_error h0 r = Some (BArray 0 0 None)) by apply nth_end1.
  assert (L0 : length h0 = S r) by (unfold h0, r, a; rewrite app_length; cbn; lia).
  unfold json_array_insert. rewrite A0, R0. cbn [Nat.leb]. remember (S idx) as fl eqn:FL. cbn [grow]. rewrite R0. cbn [Nat.leb].
  unfold json_array_expand. rewrite R0. cbn [new_size Nat.eqb alloc].
  set (h1 := put (h0 ++ [BVec (repeat PWild 8)]) r (BArray 0 8 (Some (length h0)))).
  assert (L1 : length h1 = S (S r)) by (unfold h1; rewrite length_put, app_length, L0; cbn; lia).
  assert (A1 : nth_error h1 a = Some (BVal (VArray r))).
  { unfold h1. rewrite nth_put_other by (unfold r; lia). rewrite nth_app_l by (unfold r in L0; lia). exact A0. }
  destruct (grow_wild r 0 idx fl h1 8 (length h0)) as (h2 & on & w & G & R2 & W2 & I2 & N2 & K2 & L2 & B2).
  - unfold h1. apply nth_put_same. rewrite app_length. lia.
  - unfold h1. rewrite nth_put_other by lia. apply nth_end.
  - lia.
  - lia.
  - lia.
  - lia.
  - rewrite G, R2. unfold store.
    assert (WL : w < length h2) by (eapply nth_lt; exact W2).
    unfold vec_at. rewrite nth_put_other by (intros X; apply N2; symmetry; exact X). rewrite W2, repeat_length, (proj2 (Nat.ltb_lt _ _) I2).
    set (h3 := put (put h2 r (BArray (S idx) on (Some w))) w (BVec (put (repeat PWild on) idx (P v)))).
    assert (RL2 : r < length h2) by (eapply nth_lt; exact R2).
    assert (AW : a <> w) by (unfold r in L0; lia).
    assert (A3 : nth_error h3 a = Some (BVal (VArray r))).
    { unfold h3. rewrite nth_put_other by exact AW. rewrite nth_put_other by (unfold r; lia). rewrite K2; [exact A1|unfold r in L1; lia|unfold r; lia|unfold r in L0; lia]. }
    assert (R3 : nth_error h3 r = Some (BArray (S idx) on (Some w))) by (unfold h3; rewrite nth_put_other by exact N2; apply nth_put_same; exact RL2).
    assert (W3 : nth_error h3 w = Some (BVec (put (repeat PWild on) idx (P v)))) by (unfold h3; apply nth_put_same; rewrite length_put; exact WL).
    assert (EL : elements h3 (S idx) (Some w) = Some (firstn (S idx) (put (repeat PWild on) idx (P v)))).
    { apply elements_ok; [exact W3|]. rewrite length_put, repeat_length. lia. }
    assert (F0 : nth_error (firstn (S idx) (put (repeat PWild on) idx (P v))) 0 = Some PWild).
    { apply put_keeps_first; [exact IX|]. apply nth_repeat_lt. lia. }
    exists h3. split; [rewrite FL; reflexivity|]. split.
    + unfold json_array_get. rewrite A3, R3. cbn [Nat.leb]. rewrite EL, F0. reflexivity.
    + remember (S n) as m eqn:EM. cbn [json_value_free]. rewrite A3, R3, EL. destruct (firstn _ _) as [|p ps]; [discriminate|]. inversion F0; subst p. subst m. reflexivity.
Qed.

Lemma put_mid A (l1 l2 : list A) x y : put (l1 ++ x :: l2) (length l1) y = l1 ++ y :: l2.
Proof. apply put_app_end. Qed.

Lemma nth_split_at A (l : list A) : forall i x, nth_error l i = Some x -> exists l1 l2, l = l1 ++ x :: l2 /\ length l1 = i.
Proof. intros i x H. apply nth_error_split in H. destruct H as (l1 & l2 & -> & L). exists l1, l2. auto. Qed.

Lemma set_leaks n h a l us i x b v vs : holds (S n) h a (JArray l) us -> nth_error l i = Some x -> holds n h b v vs -> disjoint us vs ->
  exists h' us' old ws, json_array_set h a i b = Done h' tt /\ look (S n) h' a = Some (JArray (put l i v), us') /\ NoDup us' /\
    json_array_get h a i = Done h (P old) /\ look n h' old = Some (x, ws) /\ ws <> [] /\ disjoint ws us'.
Proof.
  intros [H N] I [B NB] DJ.
  assert (VL : forall y, In y vs -> y < length h) by (intros y J; apply (alive_lt h y); exact (look_alive _ _ _ _ _ B y J)).
  apply look_seen in H. inversion H as [| | | | |r A R|r w oc sl l0 us0 A R W O E|]; subst; [destruct i; discriminate|].
  pose proof N as N0. inversion N0 as [|? ? X1 Y1]; subst. inversion Y1 as [|? ? X2 Y2]; subst. inversion Y2 as [|? ? X3 Y3]; subst. cbn [In] in X1, X2.
  pose proof (each_length _ _ _ _ _ _ E) as LE. rewrite firstn_length in LE.
  assert (IL : i < length l) by (eapply nth_lt; exact I). assert (IO : i < oc) by lia.
  assert (WL : w < length h) by (eapply nth_lt; exact W).
  unfold json_array_set, json_array_get. rewrite A, R, (proj2 (Nat.leb_gt oc i) IO), (elements_ok h oc sl w W O). unfold store, vec_at. rewrite W.
  rewrite (proj2 (Nat.ltb_lt i (length sl))) by lia.
  set (ps := firstn oc sl) in *. assert (LP : length ps = oc) by (unfold ps; rewrite firstn_length; lia).
  destruct (nth_error ps i) as [p|] eqn:PI; [|apply nth_error_None in PI; lia].
  destruct (nth_split_at _ _ _ _ PI) as (p1 & p2 & EP & L1). destruct (nth_split_at _ _ _ _ I) as (l1 & l2 & EL & L2).
  rewrite EP in E. destruct (each_split _ _ _ _ _ _ _ E) as (m1 & m2 & u1 & u2 & EM & EU & LM & E1 & E2). subst us0.
  rewrite EL in EM. destruct (app_same_length _ _ _ _ _ (eq_trans L2 (eq_sym (eq_trans LM L1))) EM) as [<- <-]. clear EM.
  cbn [each] in E2. destruct (follow n h p) as [[y u]|] eqn:Q; [|discriminate]. destruct (each (follow n h) p2) as [[ys u3]|] eqn:E3; [|discriminate].
  inversion E2; subst y ys u2. destruct p as [| |old]; try discriminate. cbn [follow] in Q.
  set (h' := put h w (BVec (put sl i (P b)))).
  assert (OT : forall y, y <> w -> nth_error h' y = nth_error h y) by (intros y J; unfold h'; apply nth_put_other; exact J).
  apply nodup_app_inv in Y3. destruct Y3 as (NU1 & NR & D1). apply nodup_app_inv in NR. destruct NR as (NU & NU3 & D3).
  rewrite !in_app_iff in *.
  assert (DV : forall y, In y vs -> ~ In y (a :: r :: w :: u1 ++ u ++ u3)) by (intros y J K; exact (DJ y K J)).
  assert (DVA : ~ In a vs) by (intros J; apply (DV a J); cbn; tauto). assert (DVR : ~ In r vs) by (intros J; apply (DV r J); cbn; tauto).
  assert (DVW : ~ In w vs) by (intros J; apply (DV w J); cbn; tauto).
  assert (FP : firstn oc (put sl i (P b)) = p1 ++ P b :: p2).
  { assert (SL : sl = p1 ++ P old :: (p2 ++ skipn oc sl)). { rewrite <- (firstn_skipn oc sl) at 1. fold ps. rewrite EP, <- app_assoc. reflexivity. }
    rewrite SL at 1. rewrite <- L1, put_mid.
    replace (p1 ++ P b :: p2 ++ skipn oc sl) with ((p1 ++ P b :: p2) ++ skipn oc sl) by (rewrite <- app_assoc; reflexivity).
    assert (LL : length (p1 ++ P b :: p2) = oc) by (rewrite <- LP, EP, !app_length; reflexivity).
    rewrite firstn_app, LL, Nat.sub_diag. cbn [firstn]. rewrite app_nil_r. apply firstn_all2. lia. }
  exists h', (a :: r :: w :: u1 ++ vs ++ u3), old, u. split; [reflexivity|]. split; [|split; [|split; [reflexivity|split; [|split]]]].
  - apply look_seen. eapply (seen_array n h' a r w oc (put sl i (P b))).
    + rewrite OT; [exact A|intros ->; tauto].
    + rewrite length_put, OT; [exact R|intros ->; tauto].
    + unfold h'. apply nth_put_same. exact WL.
    + rewrite length_put. lia.
    + rewrite FP, each_app. rewrite (each_follow_frame n h h' p1 l1 u1 E1) by (intros y J; apply OT; intros ->; tauto).
      cbn [each follow]. rewrite (look_frame n h h' b v vs B) by (intros y J; apply OT; intros ->; tauto).
      rewrite (each_follow_frame n h h' p2 l2 u3) by (first [congruence|intros y J; apply OT; intros ->; tauto]).
      rewrite EL, <- L2, put_mid. reflexivity.
  - constructor; [cbn [In]; rewrite !in_app_iff; tauto|]. constructor; [cbn [In]; rewrite !in_app_iff; tauto|]. constructor; [rewrite !in_app_iff; tauto|].
    apply nodup_app; [exact NU1| |].
    + apply nodup_app; [exact NB|exact NU3|]. intros y J K. apply (DV y J). cbn [In]. rewrite !in_app_iff. tauto.
    + intros y J K. apply in_app_or in K. destruct K as [K|K]; [apply (DV y K); cbn [In]; rewrite !in_app_iff; tauto|].
      apply (D1 y J). apply in_or_app. right. exact K.
  - assert (Y0 : x = x) by reflexivity. rewrite (look_frame n h h' old _ u Q) by (intros y J; apply OT; intros ->; tauto). congruence.
  - destruct n as [|n]; [discriminate|]. apply look_seen in Q. inversion Q; discriminate.
  - intros y J K. cbn [In] in K. rewrite !in_app_iff in K. destruct K as [K|[K|[K|[K|[K|K]]]]]; try (rewrite <- K in J; tauto).
    + apply (D1 y K). apply in_or_app. left. exact J.
    + apply (DV y K). cbn [In]. rewrite !in_app_iff. tauto.
    + exact (D3 y J K).
Qed.

(** * A copy that fails *)
Lemma put_end2 A (l r : list A) x y z u : put (l ++ x :: y :: z :: r) (S (S (length l))) u = l ++ x :: y :: u :: r.
Proof. induction l as [|v l IH]; cbn [app length put]; [reflexivity|]. f_equal. exact IH. Qed.

Lemma copy_null n h a r oc on w sl : nth_error h a = Some (BVal (VArray r)) -> nth_error h r = Some (BArray oc on (Some w)) ->
  nth_error h w = Some (BVec (PNull :: sl)) -> 0 < oc <= S (length sl) ->
  exists h', json_value_copy (S (S n)) h (P a) = Fails h' /\ becomes h [] h' [].
Proof.
  intros A R W O. exists (h ++ [Freed; Freed; Freed]).
  assert (E : json_value_copy (S (S n)) h (P a) = Fails (h ++ [Freed; Freed; Freed])).
  { destruct oc as [|oc]; [lia|]. set (m := S n). cbn [json_value_copy]. rewrite A, R, (elements_ok h (S oc) (PNull :: sl) w W) by (cbn; lia).
    cbn [firstn]. unfold json_new_array. cbn [alloc]. rewrite <- !app_assoc. cbn [app].
    replace (length (h ++ [BVal (VArray (S (length h))); BArray 0 0 None])) with (S (S (length h))) by (rewrite app_length; cbn; lia).
    rewrite put_end1. unfold m. cbn [copy_elements json_value_copy]. rewrite put_end1.
    unfold give_up. set (m' := S n). cbn [json_value_free]. rewrite nth_end0, nth_end1. cbn [elements free_elements opt_list app release_all].
    unfold release. rewrite nth_end2, put_end2, nth_end1, put_end1, nth_end0, put_app_end. reflexivity. }
  split; [exact E|]. repeat split.
  - rewrite app_length. lia.
  - intros x L _. apply nth_error_app1. exact L.
  - constructor.
  - intros x [].
  - intros x [].
  - intros x L _. rewrite app_length in L. cbn in L. rewrite nth_error_app2 by lia.
    assert (H : x - length h = 0 \/ x - length h = 1 \/ x - length h = 2) by lia. destruct H as [->|[->| ->]]; reflexivity.
Qed.
