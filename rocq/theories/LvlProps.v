(** Log formats, levels and facilities (C83). *)
From Coq Require Import Ascii String List ZArith Lia.
From Verif Require Import Bytes ClenSpec NumSpec LogModel LvlModel LvlSpec LvlProofs.
From Verif Require LexSpec NumProofs LogProps.
Import ListNotations.
Local Open Scope string_scope.
Local Open Scope list_scope.
Local Open Scope Z_scope.

(** C83: in a configuration that is accepted, the requests of each listener are logged with the format that its LogLevel stands for: the last one of its
    section, else the last one before the section, else 1.  What comes after the section changes nothing.  An empty format logs nothing. *)
Theorem C83_format : forall ds c pre ks post q an, proper_all ds -> config ds = Read c -> ds = pre ++ Listen ks :: post ->
  exists f p, refers (defined pre) (counts pre ks) f /\ accept (http_log_format_compile f) = Some p /\
    logged an c (sections pre) q = match p with [] => None | _ => Some (http_log an p q) end.
Proof. exact logged_ok. Qed.
Print Assumptions C83_format.
Definition mine : list directive :=
  [LogFormat (lit "mine") (lit "%m %U"); LogLevel (LexSpec.Quoted (lit "mine")); Listen []; Listen [LexSpec.Number (lit "0")]; Listen [LexSpec.Number (lit "06")];
   LogLevel (LexSpec.Number (lit "1")); Listen []].
Example C83_format_case : proper_all mine /\
  match config mine with Read c => map (fun i => logged false c i LogProps.sample) [0; 1; 2; 3]%nat | _ => [] end =
  [Some (lit "GET /x"); None; Some (lit "GET /x"); Some (lit "192.0.2.77 GET /x?a=1 HTTP/1.1 - HTTP/1.1 200 OK")].
Proof.
  split; [|vm_compute; reflexivity].
  unfold mine, proper_all. repeat (apply Forall_cons || apply Forall_nil); cbn [proper]; try exact I; try (split; [discriminate|]);
    repeat (apply Forall_cons || apply Forall_nil); try (split; [discriminate|]); repeat (apply Forall_cons || apply Forall_nil);
    first [exists 0; split; [lia|reflexivity]|exists 1; split; [lia|reflexivity]|exists 6; split; [lia|reflexivity]].
Qed.

(** What a name or a number stands for is unique: no name is defined twice, and all the formats there are compile. *)
Theorem C83_names : forall ds c, proper_all ds -> config ds = Read c -> NoDup (map fst (defined ds)) /\ (length (defined ds) <= 32)%nat /\
  Forall (fun x => exists p, accept (http_log_format_compile (snd x)) = Some p) (defined ds).
Proof. exact names_ok. Qed.
Print Assumptions C83_names.

(** LogLevel is accepted exactly if its argument stands for a format that is already defined; a section, if all its LogLevel directives do. *)
Theorem C83_accept : forall ds c, proper_all ds -> config ds = Read c ->
  (forall k, proper k -> ((exists c', config (ds ++ [LogLevel k]) = Read c') <-> exists f, refers (defined ds) k f)) /\
  (forall ks, Forall proper ks -> ((exists c', config (ds ++ [Listen ks]) = Read c') <-> Forall (fun k => exists f, refers (defined ds) k f) ks)).
Proof. exact accept_ok. Qed.
Print Assumptions C83_accept.
Definition accepted (o : outcome) : bool := match o with Read _ => true | _ => false end.
Example C83_accept_case : map (fun ds => accepted (config ds))
   [ [LogLevel (LexSpec.Quoted (lit "detailed"))]; [LogLevel (LexSpec.Ident (lit "detailed"))]; [LogLevel (LexSpec.Number (lit "5"))]; [LogLevel (LexSpec.Number (lit "6"))];
     [LogLevel (LexSpec.Quoted (lit "mine")); LogFormat (lit "mine") (lit "%m")] ] = [true; false; true; false; false].
Proof. vm_compute. reflexivity. Qed.

(** LogFormat is accepted exactly if its name is new, fewer than 32 formats are defined, six of them built-in, and the format compiles. *)
Theorem C83_define : forall ds c n f, proper_all ds -> config ds = Read c ->
  ((exists c', config (ds ++ [LogFormat n f]) = Read c') <->
    ~ In n (map fst (defined ds)) /\ (length (defined ds) < 32)%nat /\ exists p, accept (http_log_format_compile f) = Some p).
Proof. exact format_ok. Qed.
Print Assumptions C83_define.
Example C83_define_case : length (defined []) = 6%nat /\ map (fun d => accepted (config [d]))
  [LogFormat (lit "regular") (lit "%m"); LogFormat (lit "x") (lit "%Z"); LogFormat (lit "x") (lit "%m")] = [false; false; true].
Proof. split; [reflexivity|]. vm_compute. reflexivity. Qed.

(** LogFacility takes a name of syslog in any case, or a hyphen, not in quotation marks; nothing else. *)
Theorem C83_facility : forall k n, cfg_assign_log_facility k = Some n <->
  exists w, (k = LexSpec.Ident w \/ k = LexSpec.Number w \/ k = LexSpec.Literal w) /\
    ((w = lit "-" /\ n = -1) \/ exists name code, In (name, code) facilities /\ lower w = lit name /\ n = 8 * code).
Proof. exact facility_ok. Qed.
Print Assumptions C83_facility.
Example C83_facility_case : cfg_assign_log_facility (LexSpec.Ident (lit "Local3")) = Some 152 /\ cfg_assign_log_facility (LexSpec.Literal (lit "-")) = Some (-1) /\
  cfg_assign_log_facility (LexSpec.Ident (lit "local8")) = None /\ cfg_assign_log_facility (LexSpec.Quoted (lit "mail")) = None.
Proof. repeat split. Qed.
