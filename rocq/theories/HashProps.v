(** Hash tables (C48). *)
From Coq Require Import String List Arith ZArith Bool Permutation.
From Verif Require Import Bytes HashModel HashSpec HashProofs.
Import ListNotations.

(** C48: the table of sessions, of named backends and of control servers is a finite map keyed
    by the contents of the name.  lh_strhash is a function of the library: any function of the
    contents will do. *)
Theorem C48_strings : forall lh_strhash : bytes -> Z, forall E (name : E -> bytes), finite_map name (fun e => lh_strhash (name e)) (fun a b => strcmp0 (name a) (name b)).
Proof. intros lh E name. apply finite_map_intro; [intros a b; apply strcmp0_eq|congruence]. Qed.
Print Assumptions C48_strings.

(** The table of combinable headers and that of the headers being combined: keyed by the name
    without regard to case. *)
Theorem C48_header_names : forall E (name : E -> bytes), finite_map (fun e => lower (name e)) (fun e => header_name_hash (name e)) (fun a b => header_name_cmp0 (name a) (name b)).
Proof. intros E name. apply finite_map_intro; [intros a b; apply header_name_cmp0_eq|intros a b; apply strhash_ci_lower]. Qed.
Print Assumptions C48_header_names.

(** The table of canonical names: the same *)
Theorem C48_cnames : forall E (name : E -> bytes), finite_map (fun e => lower (name e)) (fun e => cname_hash (name e)) (fun a b => cname_cmp0 (name a) (name b)).
Proof. intros E name. apply finite_map_intro; [intros a b; apply strcasecmp0_eq|intros a b; apply strhash_ci_lower]. Qed.
Print Assumptions C48_cnames.

(** The table of generated backends: keyed by the address, or by host name (without regard to
    case) and port. *)
Theorem C48_backends : forall E (be : E -> backend), finite_map (fun e => backend_key (be e)) (fun e => backend_hash (be e)) (fun a b => backend_cmp0 (be a) (be b)).
Proof. intros E be. apply finite_map_intro; [intros a b; apply backend_cmp0_eq|intros a b; apply backend_hash_key]. Qed.
Print Assumptions C48_backends.

(** The hypothesis can be met, and the map is the one expected: names that differ in case are
    one, the geometry changes in between. *)
Definition ex_ops : list (op (bytes * nat) Z) :=
  [Insert (lit "Accept", 1); Insert (lit "Via", 2); Resize 7%Z [(lit "Via", 2); (lit "Accept", 1)]; Insert (lit "ACCEPT", 3); Retrieve (lit "accept", 0);
   Delete (lit "VIA", 0); Retrieve (lit "via", 0)].
Definition ex_slot (g h : Z) : nat := Z.to_nat (h mod g).
Example C48_example :
  snd (run (bytes * nat) Z ex_slot (fun e => header_name_hash (fst e)) (fun a b => header_name_cmp0 (fst a) (fst b)) (new 5%Z 256%Z) ex_ops)
  = [None; None; None; Some (lit "Accept", 1); Some (lit "ACCEPT", 3); Some (lit "Via", 2); None].
Proof. vm_compute. reflexivity. Qed.
Example C48_sound_example : sound ex_slot (fun e => header_name_hash (fst e)) (fun a b => header_name_cmp0 (fst a) (fst b)) (new 5%Z 256%Z) ex_ops.
Proof.
  intros ops1 g l ops2 E. unfold ex_ops in E. destruct ops1 as [|? [|? [|? [|? [|? [|? [|? [|? ops1]]]]]]]]; try discriminate E. injection E as <- <- <- <- E. vm_compute. apply perm_swap.
Qed.

(** Insertion replaces the entry that was there, but the functions that add a name take it that
    the table still has the old one, and free the new one: from then on the table has an entry
    that has been freed, and this is the one found. *)
Theorem C48_add_refuted : forall G (slot : G -> Z -> nat) (h : heap G) n i old,
  lookup G slot header_name_hash header_name_cmp0 h n = Some old -> i <> id old ->
  exists o, lookup G slot header_name_hash header_name_cmp0 (add G slot header_name_hash header_name_cmp0 h n i) n = Some o /\
            In (id o) (released (add G slot header_name_hash header_name_cmp0 h n i)).
Proof.
  intros G slot h n i old L NI. destruct (add_twice G slot header_name_hash header_name_cmp0 lower header_name_cmp0_eq strhash_ci_lower h n i old L NI) as (A & B).
  exists (mkObj n i). split; [exact A|exact B].
Qed.
Print Assumptions C48_add_refuted.

Example C48_add_example :
  let h0 := mkHeap (new 5%Z 256%Z) [] in
  let h1 := add Z ex_slot header_name_hash header_name_cmp0 h0 (lit "Accept") 1 in
  let h2 := add Z ex_slot header_name_hash header_name_cmp0 h1 (lit "accept") 2 in
  lookup Z ex_slot header_name_hash header_name_cmp0 h2 (lit "Accept") = Some (mkObj (lit "accept") 2) /\ released h2 = [2].
Proof. vm_compute. split; reflexivity. Qed.

(** The loop meant to be safe for callbacks that delete entries does not do what makes it safe:
    it restores the threshold below which the library shrinks the table (and moves entries)
    but does not set it to 0 for the duration of the loop.  The callback sees the original
    threshold. *)
Theorem C48_foreach_refuted : forall E (t : table E Z), ents t <> [] ->
  let note_threshold := fun (_ : E) (t' : table E Z) => mkTab (ents t') (down_load t') (down_load t') in
  geometry (foreach_safe E Z t note_threshold) = down_load t.
Proof.
  intros E t H. cbn zeta. unfold foreach_safe, foreach. cbn [geometry]. destruct (ents t) as [|e l]; [contradiction|]. clear H. cbn [fold_left].
  assert (K : forall (m : list E) (t0 : table E Z), geometry t0 = down_load t0 -> let t1 := fold_left (fun t' (_ : E) => mkTab (ents t') (down_load t') (down_load t')) m t0 in geometry t1 = down_load t1 /\ down_load t1 = down_load t0).
  { induction m as [|x m IH]; intros t0 H0; cbn [fold_left]; [auto|]. destruct (IH (mkTab (ents t0) (down_load t0) (down_load t0)) eq_refl) as (A & B). split; [exact A|exact B]. }
  destruct (K l (mkTab (ents t) (down_load t) (down_load t)) eq_refl) as (A & B). cbn zeta in A, B. rewrite A. exact B.
Qed.
Print Assumptions C48_foreach_refuted.

(** What it does do: whatever the callback does to the table, the threshold is the original one afterwards. *)
Theorem C48_foreach_restores : forall E G (t : table E G) fn,
  ents (foreach_safe E G t fn) = ents (foreach E G t fn) /\ geometry (foreach_safe E G t fn) = geometry (foreach E G t fn) /\
  down_load (foreach_safe E G t fn) = down_load t.
Proof. intros E G t fn. repeat split. Qed.
Print Assumptions C48_foreach_restores.

Example C48_foreach_restores_example :
  let t := mkTab [1; 2]%Z tt 256%Z in
  let fn := fun e (t' : table Z unit) => mkTab (List.filter (fun x => negb (Z.eqb x e)) (ents t')) tt 7%Z in
  foreach_safe Z unit t fn = mkTab [] tt 256%Z.
Proof. vm_compute. reflexivity. Qed.
