(** What a password file grants. *)
From Coq Require Import Ascii String List ZArith Bool.
From Verif Require Import Bytes ReqModel XpdSpec AuthModel.
Import ListNotations.
Local Open Scope nat_scope.
Local Open Scope string_scope.
Local Open Scope list_scope.

Definition blank (c : byte) : Prop := c = SP \/ c = TAB.
Definition space (c : byte) : Prop := is_space c = true.

(** ** Lines of the file *)

(** The line reads: user, colon, password; possibly indented; not a comment. *)
Definition entry_line (line user pass : bytes) : Prop :=
  exists w, line = w ++ user ++ lit ":" ++ pass /\ Forall blank w /\ ~ In ":"%char user /\
    ~ begins (fun c => blank c \/ c = "#"%char) user.

(** The entries of a list of lines, in their order; everything else is ignored. *)
Inductive entries : list bytes -> list (bytes * bytes) -> Prop :=
| en_nil : entries [] []
| en_entry : forall line user pass ls es, entry_line line user pass -> entries ls es ->
    entries (line :: ls) ((user, pass) :: es)
| en_other : forall line ls es, ~ (exists user pass, entry_line line user pass) -> entries ls es ->
    entries (line :: ls) es.

(** A text file: every line but perhaps the last one is ended. *)
Inductive text_of : list bytes -> bytes -> Prop :=
| tx_nil : text_of [] []
| tx_last : forall l, l <> [] -> text_of [l] l
| tx_line : forall l ls t, text_of ls t -> text_of (l :: ls) (l ++ [LF] ++ t).

(** Lines that the reader can take in one piece. *)
Definition proper_line (l : bytes) : Prop := ~ In LF l /\ ~ In NUL l /\ length l + 1 < MAXBUF.

(** ** Schemes *)

(** Entries with one of the two prefixes. *)
Inductive hashed : bytes -> Prop :=
| ha_apr : forall r, r <> [] -> hashed (lit "$apr1$" ++ r)
| ha_sha : forall r, r <> [] -> hashed (lit "{SHA}" ++ r).

(** The password agrees with an entry. *)
Inductive verifies (l : lib) (pass : bytes) : bytes -> Prop :=
| vf_apr : forall r, r <> [] -> apr_md5_encode l pass (lit "$apr1$" ++ r) 120 = Some (lit "$apr1$" ++ r) ->
    verifies l pass (lit "$apr1$" ++ r)
| vf_sha : forall r, r <> [] -> b64 l (r ++ [LF]) = sha1 l pass -> verifies l pass (lit "{SHA}" ++ r)
| vf_crypt : forall h, ~ hashed h -> h <> [] -> crypt l pass h = Some h -> verifies l pass h
| vf_plain : forall h, ~ hashed h -> h <> [] -> pass = h -> verifies l pass h.

(** ** Credentials *)

(** The value of the field carries the credentials of a user.  (Bytes after a NUL
    in the decoded text are ignored, as in all strings of the program.) *)
Definition upto_nul (s t : bytes) : Prop := ~ In NUL t /\ (s = t \/ exists r, s = t ++ NUL :: r).
Definition carries (l : lib) (v user pass : bytes) : Prop :=
  exists b w t u p, v = b ++ w ++ t /\ lower b = lit "basic" /\ Forall space w /\
    ~ begins (fun c => space c \/ c = """"%char) t /\
    b64 l (t ++ [LF]) = u ++ lit ":" ++ p /\ ~ In ":"%char u /\ upto_nul u user /\ upto_nul p pass.

(** The first Authorization field. *)
Definition authorization (hs : list header) (v : bytes) : Prop :=
  exists pre h post, hs = pre ++ h :: post /\ h_code h = HEADER_AUTHORIZATION /\ h_val h = v /\
    Forall (fun x => h_code x <> HEADER_AUTHORIZATION) pre.

(** The first entry of that user agrees. *)
Definition grants (l : lib) (es : list (bytes * bytes)) (user pass : bytes) : Prop :=
  exists pre h post, es = pre ++ (user, h) :: post /\ ~ In user (map fst pre) /\ verifies l pass h.

(** Libraries whose results have the right size. *)
Definition sound_lib (l : lib) : Prop :=
  (forall s, length (sha1 l s) = SHA_DIGEST_LENGTH) /\ (forall s, length (b64 l s) <= length s).

(** An entry whose check is defined: apr1 salts are complete, SHA digests too. *)
Definition sane (l : lib) (h : bytes) : Prop :=
  (forall r, h = lit "$apr1$" ++ r -> In "$"%char r \/ 8 <= length r) /\
  (forall r, h = lit "{SHA}" ++ r -> b64 l (r ++ [LF]) = [] \/ SHA_DIGEST_LENGTH <= length (b64 l (r ++ [LF]))).

(** ** Histories *)

(** Two contents seen under the same time are the same, and no time is 0. *)
Definition timed (vs : list fs_view) : Prop :=
  (forall m t t', In (FsFile m t) vs -> In (FsFile m t') vs -> t = t') /\
  (forall t, ~ In (FsFile (0, 0)%Z t) vs).
