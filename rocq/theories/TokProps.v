(** C10: search for a token in a comma-separated header value. *)
From Coq Require Import Ascii String List.
From Verif Require Import Bytes TokModel TokSpec TokProofs.
Import ListNotations.

Theorem C10_token_found_iff : forall (s tok : bytes) (ci : bool), tok <> [] ->
  ((exists r, cs_locate_token s tok ci = Some r) <->
   exists e t, element s e /\ stripped e t /\ (if ci then same_letters t tok else t = tok)).
Proof. exact locate_found_iff. Qed.
Print Assumptions C10_token_found_iff.

(** The element found is the first one, and [next] is what follows its comma. *)
Theorem C10_first_occurrence : forall (s tok : bytes) (ci : bool) (p next : bytes),
  cs_locate_token s tok ci = Some (p, next) ->
  exists pre e t post, element_at s pre e post /\ stripped e t /\
    (if ci then same_letters t tok else t = tok) /\
    (post = [] /\ next = [] \/ post = ","%char :: next) /\
    (forall q, pre = q ++ [","%char] ->
       forall e' t', element q e' -> stripped e' t' ->
                     ~ (if ci then same_letters t' tok else t' = tok)).
Proof. exact locate_first. Qed.
Print Assumptions C10_first_occurrence.

Example C10_ex_found :
  cs_locate_token (lit "Keep-Alive ,  Close , x") (lit "close") true
  = Some (lit "Close , x", lit " x").
Proof. vm_compute. reflexivity. Qed.
Example C10_ex_part :
  cs_locate_token (lit "closed, un-close, close d") (lit "close") true = None.
Proof. vm_compute. reflexivity. Qed.
Example C10_ex_case : cs_locate_token (lit "a,B") (lit "b") false = None.
Proof. vm_compute. reflexivity. Qed.
