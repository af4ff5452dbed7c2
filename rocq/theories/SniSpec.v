(** C60: what a pattern stands for, which names a certificate has, which certificate a client gets. *)
From Coq Require Import Ascii String List Bool.
From Verif Require Import Bytes SniModel.
Import ListNotations.

(** Shell patterns: what matches what. *)
Definition special (c : byte) : Prop := c = "*"%char \/ c = "?"%char \/ c = "\"%char \/ c = "["%char.

Inductive glob (brackets : bytes -> option ((byte -> bool) * nat)) : bytes -> bytes -> Prop :=
| g_end : glob brackets [] []
| g_plain : forall c p s, ~ special c -> glob brackets p s -> glob brackets (c :: p) (c :: s)
| g_quoted : forall c p s, glob brackets p s -> glob brackets ("\"%char :: c :: p) (c :: s)
| g_any : forall c p s, glob brackets p s -> glob brackets ("?"%char :: p) (c :: s)
| g_star : forall p s1 s2, glob brackets p s2 -> glob brackets ("*"%char :: p) (s1 ++ s2)
| g_set : forall f n c p s, brackets p = Some (f, n) -> f c = true ->
    glob brackets (skipn n p) s -> glob brackets ("["%char :: p) (c :: s)
| g_bracket : forall p s, brackets p = None -> glob brackets p s ->
    glob brackets ("["%char :: p) ("["%char :: s).

(** A host name without wildcards. *)
Definition plain (p : bytes) : Prop := Forall (fun c => ~ special c) p.

(** The names of a certificate: its common names and its dNSNames, as C strings. *)
Definition names_of (f : certfile) (n : bytes) : Prop :=
  exists m, c_str m = n /\ (In (Some m) (common_names f) \/ In (Dns m) (alt_names f)).

(** A certificate file that can be used. *)
Definition usable (f : certfile) : Prop :=
  chain_ok f = true /\ key_ok f = true /\ pair_ok f = true /\ readable f = true.

(** The certificate is for the name. *)
Definition is_for brackets (f : certfile) (name : bytes) : Prop :=
  exists p, names_of f p /\ glob brackets p name.

(** The certificate that a client asking for [name] should get: the first that is for this name,
    and the default (first) one if there is none. *)
Definition right_one brackets (certs : list certfile) (name : bytes) (k : nat) : Prop :=
  (exists f, nth_error certs k = Some f /\ is_for brackets f name /\
     forall j g, j < k -> nth_error certs j = Some g -> ~ is_for brackets g name)
  \/ (k = 0 /\ forall g, In g certs -> ~ is_for brackets g name).

(** The certificate files of a Cert directive, in order. *)
Definition entry_files (e : dentry) : list certfile :=
  match e with ERegular f => [f] | _ => [] end.
Definition target_files (t : target) : list certfile :=
  match t with
  | TRegular f => [f]
  | TDirectory es => concat (map entry_files es)
  | _ => []
  end.
Definition cert_files {setting} (d : directive setting) : list certfile :=
  match d with Cert t => target_files t | Setting _ _ => [] end.
Definition files {setting} (ds : list (directive setting)) : list certfile :=
  concat (map cert_files ds).

(** The settings a list of directives makes. *)
Definition made {setting} (ds : list (directive setting)) : list setting :=
  concat (map (fun d => match d with Setting x _ => [x] | Cert _ => [] end) ds).

(** A listener that is accepted: each Cert names a file or a directory that can be read, each of its
    certificates is usable and has a common name, there is at least one, and each setting is valid
    and comes after a certificate. *)
Definition sound {setting} (d : directive setting) : Prop :=
  match d with
  | Cert TStatError | Cert TOpendirError => False
  | Cert _ => True
  | Setting _ valid => valid = true
  end.
Definition named (f : certfile) : Prop := exists m, In (Some m) (common_names f).
Definition acceptable {setting} (ds : list (directive setting)) : Prop :=
  Forall sound ds /\ files ds <> [] /\ Forall (fun f => usable f /\ named f) (files ds) /\
  forall ds1 x v ds2, ds = ds1 ++ Setting x v :: ds2 -> files ds1 <> [].

(** A label of a domain name. *)
Definition label (x : bytes) : Prop := x <> [] /\ ~ In "."%char x.

Definition has_upper (s : bytes) : Prop := Exists (fun c => is_upper c = true) s.
Definition no_upper (s : bytes) : Prop := Forall (fun c => is_upper c = false) s.
