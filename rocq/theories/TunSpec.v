(** What the theorems about the websocket tunnel (C58) say, in terms of the history. *)
From Coq Require Import List ZArith Bool.
From Verif Require Import Bytes TunModel.
Import ListNotations.

Definition same (p q : peer) : bool := match p, q with Client, Client | Backend, Backend => true | _, _ => false end.

(** All bytes a peer sent *)
Fixpoint sent (p : peer) (tr : list label) : bytes :=
  match tr with
  | [] => []
  | Send q b :: tr => if same p q then b ++ sent p tr else sent p tr
  | _ :: tr => sent p tr
  end.

(** The time that passed *)
Fixpoint elapsed (tr : list label) : Z :=
  match tr with
  | [] => 0
  | Tick d :: tr => d + elapsed tr
  | _ :: tr => elapsed tr
  end.

(** Neither peer sent anything or closed *)
Definition quiet (tr : list label) : Prop :=
  forall a, In a tr -> match a with Send _ b => b = [] | Close _ => False | _ => True end.

(** No flush failed *)
Definition flushed (tr : list label) : Prop :=
  forall a, In a tr -> match a with Go _ _ fl => fl = true | _ => True end.

Definition running (s : st) : Prop := match pc s with Ended _ => False | _ => True end.

(** The tunnel, entered with these bytes in the input buffers, ended in this way, with the
    last event of the history. *)
Definition ends (ws_to : Z) (clbuf bebuf : bytes) (n : Z) (tr : list label) (e : ending) (s : st) : Prop :=
  exists tr0 a s0, tr = tr0 ++ [a] /\ run ws_to tr0 (start clbuf bebuf n) = Some s0 /\ running s0 /\
                   step ws_to a s0 = Some s /\ pc s = Ended e.

Definition prefix (a b : bytes) : Prop := exists c, b = a ++ c.

(** Steps of the thread only, with these sizes of reads, no write or flush failing *)
Definition alone (ks : list nat) : list label := map (fun k => Go k true true) ks.

(** All that was sent arrived. *)
Definition all_arrived (clbuf bebuf : bytes) (tr : list label) (s : st) : Prop :=
  got (be s) = clbuf ++ sent Client tr /\ got (cl s) = bebuf ++ sent Backend tr.
