(** Which daemon poundctl talks to: its manual, for settings, pound.cfg and URLs.
    Independent of the model, but for its types. *)
From Coq Require Import Ascii String List ZArith Bool.
From Verif Require Import Bytes PtlModel.
Import ListNotations.
Local Open Scope string_scope.
Local Open Scope list_scope.
Local Open Scope nat_scope.

(** ** Settings *)

(** The last in a list that says something *)
Fixpoint last_said {A B : Type} (f : A -> option B) (l : list A) : option B :=
  match l with [] => None | x :: l => match last_said f l with Some b => Some b | None => f x end end.
Definition either {A : Type} (a b : option A) : option A := match a with Some _ => a | None => b end.
Definition or_else {A : Type} (a : option A) (b : A) : A := match a with Some x => x | None => b end.

Definition url_said (x : server_stmt) : option bytes := match x with Url s => Some s | _ => None end.
Definition ca_file_said (x : server_stmt) : option bytes := match x with CAFile s => Some s | _ => None end.
Definition ca_path_said (x : server_stmt) : option bytes := match x with CAPath s => Some s | _ => None end.
Definition cert_said (x : server_stmt) : option bytes := match x with ClientCert s => Some s | _ => None end.
Definition verify_said (x : server_stmt) : option bool := match x with Verify b => Some b | _ => None end.

(** What an option says about the server, and what about the rest *)
Definition about_server (o : opt) : list server_stmt :=
  match o with
  | Opts u => [Url u]
  | OptC t true => [CAPath t]
  | OptC t false => [CAFile t]
  | OptK t => [ClientCert t]
  | Optk => [Verify false]
  | _ => []
  end.
Definition selects (o : opt) : option bytes := match o with OptS n => Some n | _ => None end.
Definition conf_said (o : opt) : option bytes := match o with Optf t => Some t | _ => None end.
Definition file_opt (o : opt) : option bytes := match o with Optt t => Some t | _ => None end.
Definition name_opt (o : opt) : option bytes := match o with OptT t => Some t | _ => None end.
Definition file_said (x : stmt) : option bytes := match x with TemplateFile t => Some t | _ => None end.
Definition name_said (x : stmt) : option bytes := match x with TemplateName t => Some t | _ => None end.

Definition at_top (config : list stmt) : list server_stmt := flat_map (fun x => match x with Common y => [y] | _ => [] end) config.
Definition sections (config : list stmt) : list (bytes * list server_stmt) :=
  flat_map (fun x => match x with Server n b => [(n, b)] | _ => [] end) config.

(** The statements that configure the server in use: those at top level, or those of the
    section named by the last option -S *)
Definition in_use (config : list stmt) (opts : list opt) (body : list server_stmt) : Prop :=
  match last_said selects opts with
  | None => body = at_top config
  | Some n => In (n, body) (sections config)
  end.

(** Options about the server come after -S (see C66_order_refuted) *)
Definition in_order (opts : list opt) : Prop :=
  exists o1 o2, opts = o1 ++ o2 /\ Forall (fun o => about_server o = []) o1 /\ Forall (fun o => selects o = None) o2.

(** Server sections have different names, and those of -S exist *)
Definition well_named (config : list stmt) (opts : list opt) : Prop :=
  NoDup (map fst (sections config)) /\ forall n, In (OptS n) opts -> In n (map fst (sections config)).

(** What the options say is stronger than the file.  Peer verification is a matter of its own: see
    C66_verify_refuted. *)
Definition configured (config : list stmt) (opts : list opt) (v : server) : Prop :=
  exists body, in_use config opts body /\
    let said := body ++ flat_map about_server opts in
    s_url v = last_said url_said said /\ ca_file v = last_said ca_file_said said /\ ca_path v = last_said ca_path_said said
    /\ cert v = last_said cert_said said
    /\ verify v = match last_said verify_said said with
                  | Some b => b
                  | None => match last_said selects opts with None => true | Some _ => false end
                  end.

(** ** pound.cfg *)

Definition white (s : bytes) : Prop := Forall (fun c => In c [" "; "009"; "010"; "011"; "012"; "013"]%char) s.
Definition blank (c : byte) : Prop := c = " "%char \/ c = "009"%char.
Definition word (w : bytes) : Prop := w <> [] /\ Forall (fun c => ~ In c [" "; "009"; "010"; "011"; "012"; "013"]%char) w.
(** Letter case does not matter *)
Definition says (w k : bytes) : Prop := lower w = k.

(** A text in quotes: a quote or a backslash is written with a backslash *)
Inductive quotes : bytes -> bytes -> Prop :=
| qu_nil : quotes [] []
| qu_char : forall c q n, c <> """"%char -> c <> "\"%char -> quotes q n -> quotes (c :: q) (c :: n)
| qu_escape : forall c q n, c = """"%char \/ c = "\"%char -> quotes q n -> quotes ("\"%char :: c :: q) (c :: n).

(** A line with a word alone, or with a word and a text in quotes *)
Definition alone (k line : bytes) : Prop := exists a w b, line = a ++ w ++ b /\ white a /\ white b /\ word w /\ says w k.
Definition with_text (k line n : bytes) : Prop :=
  exists a w c b q r, line = a ++ w ++ c :: b ++ """"%char :: q ++ """"%char :: r /\ white a /\ white b /\ blank c /\ word w /\ says w k /\ quotes q n.
(** A line with something else *)
Definition begins_with (w k : bytes) : Prop := exists r, k = lower w ++ r.
Definition other (ks : list bytes) (line : bytes) : Prop :=
  white line
  \/ (exists a r, line = a ++ "#"%char :: r /\ white a)
  \/ (exists a w r, line = a ++ w ++ r /\ white a /\ word w /\ hd_error w <> Some "#"%char
      /\ (r = [] \/ exists c r', r = c :: r' /\ blank c) /\ forall k, In k ks -> ~ begins_with w k).

(** [passes b b' lines]: nothing is found in these lines; [b], [b']: before and after them one is in
    a section Control *)
Inductive passes : bool -> bool -> list bytes -> Prop :=
| pa_nil : forall b, passes b b []
| pa_other : forall b l ls, other [lit "control"] l -> passes false b ls -> passes false b (l :: ls)
| pa_inside : forall b l ls, other [lit "socket"; lit "end"] l -> passes true b ls -> passes true b (l :: ls)
| pa_section : forall b l ls, alone (lit "control") l -> passes true b ls -> passes false b (l :: ls)
| pa_end : forall b l ls, alone (lit "end") l -> passes false b ls -> passes true b (l :: ls).

(** Lines that fit the buffer (see C66_long_refuted), each with its newline (see C66_newline_refuted) *)
Definition fits (l : bytes) : Prop := ~ In LF l /\ (Z.of_nat (length l) < 4095)%Z.
Definition text_of (ls : list bytes) : bytes := flat_map (fun l => l ++ [LF]) ls.

(** ** URLs *)

Definition without (cs : string) (s : bytes) : Prop := forall c, In c (lit cs) -> ~ In c s.
Definition is_path (p : bytes) : Prop := p = [] \/ exists r, p = "/"%char :: r.

(** USER[:PASS]@ or nothing *)
Inductive credentials : bytes -> option bytes -> option bytes -> Prop :=
| cr_none : credentials [] None None
| cr_user : forall u, without ":@" u -> credentials (u ++ lit "@") (Some u) None
| cr_both : forall u p, without ":@" u -> without "@" p -> credentials (u ++ lit ":" ++ p ++ lit "@") (Some u) (Some p).
(** [:PORT] *)
Inductive port_given (dfl : bytes) : bytes -> bytes -> Prop :=
| po_none : port_given dfl [] dfl
| po_number : forall p, without "/@" p -> port_given dfl (":"%char :: p) p.

(** A URL as in the manual of poundctl, option -s; in a path there is no @ without credentials, see C66_at_refuted; no
    IPv6 addresses, see C66_ipv6_refuted *)
Inductive is_url : bytes -> url -> Prop :=
| iu_url : forall (secure : bool) cr u p h pt port path,
    credentials cr u p -> without ":/@[" h -> port_given (if secure then lit "443" else lit "80") pt port -> is_path path ->
    (u = None -> without "@" path) ->
    is_url ((if secure then lit "https" else lit "http") ++ lit "://" ++ cr ++ h ++ pt ++ path)
      (mkUrl secure path h u p (Inet h port false)).

(** Something that begins as a URL of any kind *)
Definition has_scheme (s : bytes) : Prop := exists a r, s = a ++ lit "://" ++ r /\ ~ In ":"%char a.
