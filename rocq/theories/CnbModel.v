(** Model of the connection to a backend: connect_nb and backend_probe, src/svc.c 1504-1605, 1612-1645.  Definitions only.
    What the system calls return is the argument; messages to the log are left out.  conn_to is unsigned (pound.h) and is converted to int when it is passed. *)
From Coq Require Import ZArith Bool List.
Import ListNotations.
Local Open Scope Z_scope.

(** The conversion to int *)
Definition to_int (n : Z) : Z := (n + 2147483648) mod 4294967296 - 2147483648.

(** errno of connect, as far as it is compared *)
Inductive error := EINPROGRESS | EAGAIN | ETIMEDOUT | EINVAL | Other (n : Z).
Inductive result := Done | Failed (e : error).
(** What poll returns: an event with its flags, nothing in time, or a failure *)
Record revents := mkR { pollout : bool; pollerr : bool; pollhup : bool }.
Inductive polled := Event (r : revents) | Nothing | Poll_failed (e : error).

(** The system: [nonblock] is O_NONBLOCK of the socket, the only flag that is changed.  [sys_poll]: given the time to wait, in milliseconds. *)
Record system := mkSys {
  get_flags : result; set_flags : result;
  sys_connect : result;
  sys_poll : Z -> polled;
  so_error : option error;                     (** getsockopt; None: it failed, with [so_errno] *)
  so_errno : error;
  restore_flags : result
}.
Inductive outcome :=
| Connected (nonblock : bool)                  (** 0, and O_NONBLOCK of the socket *)
| Refused (e : error)                          (** -1 and errno *)
| Overflow.                                    (** to * 1000 is out of range: undefined behaviour *)

(** 1587-1604 *)
Definition restore (s : system) (nonblock : bool) : outcome := match restore_flags s with Done => Connected nonblock | Failed e => Refused e end.

(** 1508-1605; [nonblock]: before the call *)
Definition connect_nb (s : system) (nonblock : bool) (to : Z) : outcome :=
  match get_flags s with
  | Failed e => Refused e
  | Done =>
      match set_flags s with
      | Failed e => Refused e
      | Done =>
          match sys_connect s with
          | Done => restore s nonblock
          | Failed EINPROGRESS =>
              let ms := to_int to * 1000 in
              if (2147483647 <? ms) || (ms <? -2147483648) then Overflow
              else
                match sys_poll s ms with
                | Nothing => Refused ETIMEDOUT
                | Poll_failed e => Refused e
                | Event r =>
                    if pollout r && negb (pollerr r) && negb (pollhup r) then restore s nonblock
                    else match so_error s with Some e => Refused e | None => Refused (so_errno s) end
                end
          | Failed e => Refused e
          end
      end
  end.

(** backend_probe, 1611-1645 *)
Inductive family := Inet | Inet6 | Unix | Unknown.
Inductive probe := BACKEND_OK | BACKEND_DEAD | BACKEND_ERR.
Definition backend_probe (f : family) (socket : bool) (s : system) (conn_to : Z) : option probe :=
  match f with
  | Unknown => Some BACKEND_ERR
  | _ => if socket
         then match connect_nb s false conn_to with Connected _ => Some BACKEND_OK | Refused _ => Some BACKEND_DEAD | Overflow => None end
         else Some BACKEND_ERR
  end.
