(** Absolute URLs and what they point to, independently of the model's functions. *)
From Coq Require Import Ascii String List ZArith.
From Verif Require Import Bytes ClenSpec NumSpec LocModel.
Import ListNotations.
Open Scope Z_scope.

Definition http_scheme (s : bytes) : Prop := lower s = lit "http" \/ lower s = lit "https".

(** [url scheme hostport rest s]: [s] is an absolute URL *)
Definition url (scheme hostport rest s : bytes) : Prop :=
  s = scheme ++ lit "://" ++ hostport ++ rest /\ http_scheme scheme /\ hostport <> [] /\ ~ In "/"%char hostport /\
  (rest = [] \/ exists r, rest = "/"%char :: r).

(** Host name and port number; the default port is that of the scheme *)
Inductive host_port (scheme : bytes) : bytes -> bytes -> Z -> Prop :=
| hp_http : forall h, ~ In ":"%char h -> lower scheme = lit "http" -> host_port scheme h h 80
| hp_https : forall h, ~ In ":"%char h -> lower scheme = lit "https" -> host_port scheme h h 443
| hp_port : forall h ds p, ~ In ":"%char h -> number_token ds -> numeral decimal 10 ds p -> p <= 65535 -> host_port scheme (h ++ ":"%char :: ds) h p.

(** The path of the URL, without the leading slash *)
Definition path_of (rest path : bytes) : Prop := rest = "/"%char :: path \/ rest = [] /\ path = [].

(** The URL leads to the backend: its host has the address of the backend and its port is that
    of the backend; if the host has no address, its name and the scheme are those of the backend. *)
Definition points_to_backend (resolve : bytes -> option (list sockaddr)) (be : backend) (scheme host : bytes) (port : Z) : Prop :=
  match resolve host with
  | Some addrs => exists a, In a addrs /\ family a = family (b_addr be) /\ sdata a = sdata (b_addr be) /\ port = sport (b_addr be)
  | None => exists n, b_name be = Some n /\ lower host = lower n /\ lower scheme = (if b_tls be then lit "https" else lit "http")
  end.

(** No absolute URL anywhere in the text *)
Definition no_url (s : bytes) : Prop :=
  forall pre scheme c post, s = pre ++ scheme ++ lit "://" ++ c :: post -> http_scheme scheme -> c = "/"%char.

Definition tcp (be : backend) : Prop := family (b_addr be) <> UNIX.
