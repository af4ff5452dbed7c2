(** Password files and several workers (C82). *)
From Coq Require Import Ascii String List Arith Bool Lia.
From Verif Require Import Bytes AurModel AurSpec AurProofs.
Import ListNotations.
Local Open Scope string_scope.
Local Open Scope list_scope.

(** C82: as long as nobody saves the file after it has been read, every request gets the answer the file gives, whatever the number of requests at
    the same time and the order of their steps, and no released entry is used. *)
Theorem C82_steady : forall matches l s t c s' w, loaded s t c -> idle s -> ~ saves l -> run matches s l = Some s' -> In w (ws s') ->
  ph w <> Crash /\ (forall b, ph w = End b -> b = verdict matches c (name w) (key w)).
Proof. exact steady_ok. Qed.
Print Assumptions C82_steady.

(** A request that is alone reads a file that was saved, or removed, since: it gets the answer the file gives now, and leaves the list as the file
    says, whatever was in it. *)
Theorem C82_alone_partial : forall matches h hd tm l d n k, spells h hd l -> (forall t c, d = Some (t, c) -> tm = Some t -> l = rev c) ->
  exists j h' hd' tm', run matches (mkS (mkH h hd tm) d []) (Come n k :: repeat (Go 0) j) =
      Some (mkS (mkH h' hd' tm') d [mkW n k (End (verdict matches (match d with Some (_, c) => c | None => [] end) n k))]) /\
    tm' = match d with Some (t, _) => Some t | None => None end /\ spells h' hd' (rev (match d with Some (_, c) => c | None => [] end)).
Proof. exact alone. Qed.
Print Assumptions C82_alone_partial.

Definition ann : entry := mkE (lit "ann") (lit "1").
Definition bob : entry := mkE (lit "bob") (lit "2").
(** The file with both has been read *)
Definition both : state := mkS (mkH [Node ann None; Node bob (Some 0)] (Some 1) (Some 1)) (Some (1, [ann; bob])) [].

(** Two requests of a user who is in the file before and after it is saved again (here: unchanged).  The first reads it anew, and releases the old
    entries; the second finds the time of the file right and the list empty, and is refused. *)
Theorem C82_refused_refuted : exists s l s' w, loaded s 1 [ann; bob] /\ idle s /\ (forall d, In (Save d) l -> d = Some (2, [ann; bob])) /\
  run bytes_eqb s l = Some s' /\ In w (ws s') /\ name w = lit "ann" /\ key w = lit "1" /\
  verdict bytes_eqb [ann; bob] (name w) (key w) = true /\ ph w = End false.
Proof.
  exists both, ([Save (Some (2, [ann; bob])); Come (lit "ann") (lit "1"); Come (lit "ann") (lit "1")] ++ [Go 0; Go 0; Go 0; Go 0] ++ [Go 1; Go 1; Go 1; Go 1]).
  destruct (run bytes_eqb both ([Save (Some (2, [ann; bob])); Come (lit "ann") (lit "1"); Come (lit "ann") (lit "1")] ++ [Go 0; Go 0; Go 0; Go 0] ++
    [Go 1; Go 1; Go 1; Go 1])) as [s'|] eqn:E; [|vm_compute in E; discriminate].
  exists s', (mkW (lit "ann") (lit "1") (End false)). split; [repeat split; repeat econstructor|]. split; [reflexivity|].
  split; [cbn; intros d H; intuition congruence|]. split; [reflexivity|]. vm_compute in E. inversion E; subst. split; [cbn; tauto|]. repeat split; vm_compute; reflexivity.
Qed.
Print Assumptions C82_refused_refuted.

(** The same, with the second request in the midst of the list: it goes on from an entry that is released. *)
Theorem C82_released_refuted : exists s l s' w, loaded s 1 [ann; bob] /\ idle s /\ run bytes_eqb s l = Some s' /\ In w (ws s') /\ ph w = Crash.
Proof.
  exists both, ([Come (lit "ann") (lit "1"); Go 0; Go 0; Go 0; Save (Some (2, [ann; bob])); Come (lit "bob") (lit "2"); Go 1; Go 1; Go 1; Go 0]).
  eexists. exists (mkW (lit "ann") (lit "1") Crash). split; [repeat split; repeat econstructor|]. split; [reflexivity|].
  split; [vm_compute; reflexivity|]. split; [left; reflexivity|reflexivity].
Qed.
Print Assumptions C82_released_refuted.

(** A request that was reading an older state of the file goes on after a later one has been read.  All the requests have ended, the time of the file
    is the one of the list, and a user who was deleted from it is let in, now and for ever: every request without another one at the same time says so. *)
Theorem C82_deleted_refuted : exists s l s', loaded s 1 [ann; bob] /\ idle s /\ run bytes_eqb s l = Some s' /\
  Forall (fun w => exists b, ph w = End b) (ws s') /\ disk s' = Some (3, [bob]) /\ mtim (mem s') = Some 3 /\
  verdict bytes_eqb [bob] (lit "ann") (lit "1") = false /\
  exists n s'', run bytes_eqb s' (Come (lit "ann") (lit "1") :: repeat (Go (length (ws s'))) n) = Some s'' /\ mem s'' = mem s' /\
    In (mkW (lit "ann") (lit "1") (End true)) (ws s'').
Proof.
  set (l := [Save (Some (2, [bob; ann])); Come (lit "x") (lit "x"); Go 0; Go 0; Go 0; Go 0; Go 0; Save (Some (3, [bob])); Come (lit "bob") (lit "2")] ++
            repeat (Go 1) 7 ++ repeat (Go 0) 8).
  exists both, l. destruct (run bytes_eqb both l) as [s'|] eqn:E; [|vm_compute in E; discriminate]. exists s'.
  split; [repeat split; repeat econstructor|]. split; [reflexivity|]. split; [reflexivity|]. vm_compute in E. inversion E; subst. clear E.
  split; [constructor; [eexists; reflexivity|]; constructor; [eexists; reflexivity|constructor]|]. split; [reflexivity|]. split; [reflexivity|]. split; [vm_compute; reflexivity|].
  exists 4. eexists. split; [vm_compute; reflexivity|]. split; [reflexivity|]. vm_compute. tauto.
Qed.
Print Assumptions C82_deleted_refuted.

(** Three requests at once, one of them with a wrong password *)
Example C82_meets : loaded both 1 [ann; bob] /\ idle both /\ exists l s', ~ saves l /\ run bytes_eqb both l = Some s' /\
  map ph (ws s') = [End true; End true; End false].
Proof.
  split; [repeat split; repeat econstructor|]. split; [reflexivity|].
  exists ([Come (lit "ann") (lit "1"); Go 0; Come (lit "bob") (lit "2"); Come (lit "bob") (lit "3"); Go 1; Go 0; Go 2; Go 2; Go 1; Go 1; Go 0; Go 0; Go 0; Go 2; Go 1; Go 2]).
  eexists. split; [intros (d & H); cbn in H; intuition congruence|]. split; vm_compute; reflexivity.
Qed.

Example C82_meets_alone : spells [Node ann None; Node bob (Some 0)] (Some 1) [bob; ann] /\
  forall t c, Some (2, [bob]) = Some (t, c) -> Some 1 = Some t -> [bob; ann] = rev c.
Proof. split; [repeat econstructor|]. intros t c H K. inversion H; subst. discriminate. Qed.
