(** What is on the other side of a connection, and how the system reports it (C85). *)
From Coq Require Import ZArith Bool List.
From Verif Require Import CnbModel.
Local Open Scope Z_scope.

(** A server in the network accepts or rejects after so many milliseconds, or does not answer *)
Inductive peer := Accepts (d : Z) | Rejects (d : Z) (e : error) | Silent.
Definition real (p : peer) : Prop := match p with Accepts d => 0 <= d | Rejects d e => 0 <= d /\ e <> EINPROGRESS | Silent => True end.

(** connect(2) and poll(2) for TCP on a socket in non-blocking mode *)
Definition network (p : peer) : system :=
  mkSys Done Done
    (match p with Accepts 0 => Done | Rejects 0 e => Failed e | _ => Failed EINPROGRESS end)
    (fun ms => match p with
               | Accepts d => if d <=? ms then Event (mkR true false false) else Nothing
               | Rejects d _ => if d <=? ms then Event (mkR true true true) else Nothing
               | Silent => Nothing
               end)
    (match p with Rejects _ e => Some e | _ => None end) EINVAL Done.

(** The same for a socket file: the server has room for the connection now, or has room again after so many milliseconds.  connect(2): EAGAIN for
    non-blocking UNIX domain sockets if the connection cannot be completed immediately. *)
Definition socket_file (room_after : Z) : system :=
  mkSys Done Done (if room_after =? 0 then Done else Failed EAGAIN) (fun _ => Nothing) None EINVAL Done.

(** An answer comes within [to] seconds *)
Definition accepts_within (p : peer) (to : Z) : Prop := exists d, p = Accepts d /\ d <= to * 1000.
Definition rejects_within (p : peer) (to : Z) (e : error) : Prop := exists d, p = Rejects d e /\ d <= to * 1000.
