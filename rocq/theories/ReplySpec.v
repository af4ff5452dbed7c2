(** Replies made by the server itself and the files it may give away, independently of the model. *)
From Coq Require Import Ascii String List ZArith.
From Verif Require Import Bytes ClenSpec StreamSpec TokSpec ReqSpec FrameSpec RespSpec.
Import ListNotations.
Open Scope Z_scope.

(** ** Messages *)

Definition one_line (s : bytes) : Prop := ~ In "013"%char s /\ ~ In "010"%char s.

(** [message to_head s v code fs body]: [s] is exactly one response of version 1.[v], with that status code,
    those header fields and that body, delimited as in RFC 7230, 3.3.3 (see RespSpec). *)
Definition message (to_head : bool) (s : bytes) (v code : Z) (fs : list field) (body : bytes) : Prop :=
  exists line texts k,
    s = head_text line texts ++ body /\ one_line line /\ Forall one_line texts /\
    status_line line v code /\ Forall2 (fun t f => field_line t (fst f) (snd f)) texts fs /\
    response_kind to_head code fs k /\ delimited (fun _ => False) k body body [].

(** The status codes of RFC 7231 that can be configured and their reason phrases. *)
Definition phrases : list (Z * string) :=
  [(200, "OK"); (400, "Bad Request"); (401, "Unauthorized"); (403, "Forbidden"); (404, "Not Found");
   (405, "Method Not Allowed"); (413, "Payload Too Large"); (414, "URI Too Long");
   (500, "Internal Server Error"); (501, "Not Implemented"); (503, "Service Unavailable")]%string.

(** The text [t] occurs in [s]. *)
Definition occurs (t s : bytes) : Prop := exists a b, s = a ++ t ++ b.

(** ** Files *)
From Verif Require Import ReplyModel.

(** [stored n loc x]: going down from the directory [n] along the names [loc], not following
    links, one gets to [x].  Names in a directory are different. *)
Inductive stored : node -> list bytes -> node -> Prop :=
| st_here : forall n, stored n [] n
| st_down : forall l a b name n loc x,
    l = a ++ (name, n) :: b -> ~ In name (map fst a) -> stored n loc x -> stored (NDir l) (name :: loc) x.

(** Names a file can have. *)
Definition file_name (c : bytes) : Prop :=
  c <> [] /\ c <> lit "." /\ c <> lit ".." /\ ~ In "/"%char c /\ (length c <= 255)%nat.

(** The path made of names. *)
Fixpoint path_of (loc : list bytes) : bytes :=
  match loc with
  | [] => []
  | [c] => c
  | c :: loc' => c ++ "/"%char :: path_of loc'
  end.

(** A component of the path is "..". *)
Definition goes_up (path : bytes) : Prop :=
  exists a b, path = a ++ lit ".." ++ b /\
    (a = [] \/ exists a', a = a' ++ ["/"%char]) /\ (b = [] \/ exists b', b = "/"%char :: b').

Definition absolute (path : bytes) : Prop := exists b, path = "/"%char :: b.

(** The directory has no symbolic links in it, at any depth. *)
Definition link_free (n : node) : Prop := forall loc t, ~ stored n loc (NLink t).
