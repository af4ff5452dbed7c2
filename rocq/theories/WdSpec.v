(** C72: where the files named in a configuration are. *)
From Coq Require Import Ascii String List ZArith Bool.
From Verif Require Import Bytes WdModel.
Import ListNotations.
Local Open Scope string_scope.
Local Open Scope list_scope.

(** A name that begins with a slash *)
Definition rooted (f : bytes) : bool := match f with "/"%char :: _ => true | _ => false end.

(** The file [f], looked for in the directory [d] *)
Definition lookup (d f : bytes) : bytes := if rooted f then f else d ++ "/"%char :: f.

(** The include directory after these statements, if it was [d] before *)
Fixpoint in_effect (d : bytes) (l : list statement) : bytes :=
  match l with
  | [] => d
  | IncludeDir n :: l => in_effect n l
  | _ :: l => in_effect d l
  end.

(** The files the statements open: each is looked for in the include directory set by the last IncludeDir before the
    statement; those of CAlist, VerifyList and CRLlist are taken as they are *)
Fixpoint expected (d : bytes) (l : list statement) : list bytes :=
  match l with
  | [] => []
  | IncludeDir n :: l => expected n l
  | Include f :: l | File f :: l | Cert f :: l => lookup d f :: expected d l
  | CAfile f :: l => f :: expected d l
  | BasicAuth _ :: l => expected d l
  end.

(** Before any IncludeDir: the directory of -W include-dir, or the one pound was started in *)
Definition initial (cwd : bytes) (include_dir : option bytes) : bytes := match include_dir with Some d => d | None => cwd end.

(** A statement that needs the include directory *)
Definition touches (x : statement) : bool :=
  match x with
  | IncludeDir _ | Include _ | File _ => true
  | Cert f => negb (rooted f)
  | CAfile _ | BasicAuth _ => false
  end.

Definition is_includedir (x : statement) : bool := match x with IncludeDir _ => true | _ => false end.
Definition relative_cert (x : statement) : bool := match x with Cert f => negb (rooted f) | _ => false end.

(** The directories named exist *)
Definition dirs_exist (is_dir : bytes -> bool) (l : list statement) : Prop := forall n, In (IncludeDir n) l -> is_dir n = true.

(** ** Password files of a configuration *)

Fixpoint auths (c : pcond) : list bytes :=
  match c with
  | PAuth f => [f]
  | PBool l => flat_map auths l
  | POther => []
  end.

(** Those of a Rewrite section and its Else branches, but not of the Rewrite sections inside *)
Fixpoint rule_auths (r : prule) : list bytes :=
  match r with PRule c _ e => auths c ++ match e with Some r => rule_auths r | None => [] end end.

Definition service_auths (v : pservice) : list bytes := auths (fst v) ++ flat_map rule_auths (snd v).

(** Of the whole configuration: those of the rules of listeners first *)
Definition conf_auths (k : pconf) : list bytes :=
  flat_map (fun l => flat_map rule_auths (fst l)) (c_listeners k)
  ++ flat_map (fun l => flat_map service_auths (snd l)) (c_listeners k)
  ++ flat_map service_auths (c_services k).

(** ** The arguments of -W *)
Section Options.
  Variable stat : bytes -> what.

  (** What one argument does *)
  Inductive means : bytes -> features -> features -> Prop :=
  | m_dns : forall d w i, means (lit "dns") (mkF d w i) (mkF true w i)
  | m_no_dns : forall d w i, means (lit "no-dns") (mkF d w i) (mkF false w i)
  | m_warn : forall d w i, means (lit "warn-deprecated") (mkF d w i) (mkF d true i)
  | m_no_warn : forall d w i, means (lit "no-warn-deprecated") (mkF d w i) (mkF d false i)
  | m_no_dir : forall d w i, means (lit "no-include-dir") (mkF d w i) (mkF d w None)
  | m_here : forall d w i v, v = [] \/ v = lit "." -> means (lit "include-dir=" ++ v) (mkF d w i) (mkF d w None)
  | m_dir : forall d w i v, v <> [] -> v <> lit "." -> stat v = A_dir -> means (lit "include-dir=" ++ v) (mkF d w i) (mkF d w (Some v)).

  Inductive mean : list bytes -> features -> features -> Prop :=
  | mean_nil : forall o, mean [] o o
  | mean_cons : forall a l o o1 o2, means a o o1 -> mean l o1 o2 -> mean (a :: l) o o2.
End Options.
