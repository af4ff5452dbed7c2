(** C61: what the statements about backends mean. *)
From Coq Require Import Ascii String List ZArith Bool.
From Verif Require Import Bytes FinModel.
Import ListNotations.
Local Open Scope Z_scope.

(** The argument of the last directive of a kind, [d] if there is none. *)
Definition last_of {A} (pick : stmt -> option A) (d : A) (ss : list stmt) : A :=
  fold_left (fun a s => match pick s with Some x => x | None => a end) ss d.

Definition address_of ss := last_of (fun s => match s with Address h => Some (Some h) | _ => None end) None ss.
Definition port_of ss := last_of (fun s => match s with Port p => p | _ => None end) 0 ss.
Definition family_of ss := last_of (fun s => match s with Family f => Some f | _ => None end) 0 ss.
Definition mode_of ss := last_of (fun s => match s with Resolve r => Some r | _ => None end) RImmediate ss.
Definition retry_of ss := last_of (fun s => match s with RetryInterval n => Some n | _ => None end) 0 ss.
Definition ignore_of ss := last_of (fun s => match s with IgnoreSRVWeight b => Some b | _ => None end) false ss.
Definition ttl_of ss := last_of (fun s => match s with OverrideTTL n => Some n | _ => None end) 0 ss.
Definition timeout_of d ss := last_of (fun s => match s with TimeOut n => Some n | _ => None end) d ss.
Definition connto_of d ss := last_of (fun s => match s with ConnTO n => Some n | _ => None end) d ss.
Definition wsto_of d ss := last_of (fun s => match s with WSTimeOut n => Some n | _ => None end) d ss.
Definition name_of ss := last_of (fun s => match s with ServerName n => Some (Some n) | _ => None end) None ss.
Definition priority_of ss := last_of (fun s => match s with Priority n => Some n | _ => None end) 5 ss.
Definition disabled_of ss := last_of (fun s => match s with Disabled b => Some b | _ => None end) false ss.

(** A section that can be read: ports and priorities are right, directives for HTTPS come after HTTPS. *)
Definition fine (s : stmt) : Prop :=
  match s with
  | Port None => False
  | Priority n => 1 <= n
  | Ssl valid => valid = true
  | _ => True
  end.
Definition readable (ss : list stmt) : Prop :=
  Forall fine ss /\ forall s1 v s2, ss = s1 ++ Ssl v :: s2 -> In HTTPS s1.
Definition uses (us : list use_stmt) : list stmt :=
  map (fun u => match u with UPriority n => Priority n | UDisabled b => Disabled b end) us.

(** The address is used as it stands, not looked up in DNS again and again. *)
Definition static (h : bytes) (ss : list stmt) : bool :=
  is_immediate (mode_of ss) || starts_with_slash h || str_is_ip h.

(** The port of a backend: that given, or the usual one. *)
Definition effective_port (ss : list stmt) (https : bool) : Z :=
  if port_of ss =? 0 then (if https then 443 else 80) else port_of ss.

(** The parameters of a backend: each is given by the last directive for it, or has its default. *)
Definition has_params (dfl : defaults) (ss : list stmt) (m : matrix) : Prop :=
  m_host m = address_of ss /\ m_family m = family_of ss /\
  m_retry m = retry_of ss /\ m_ignore_weight m = ignore_of ss /\ m_ttl m = ttl_of ss /\
  m_to m = timeout_of (be_to dfl) ss /\ m_conn_to m = connto_of (be_connto dfl) ss /\
  m_ws_to m = wsto_of (ws_to dfl) ss /\ m_servername m = name_of ss /\
  (m_ssl m = true <-> In HTTPS ss) /\ m_port m = effective_port ss (m_ssl m).

(** A backend is as a section describes it. *)
Definition as_described (sys : system) (dfl : defaults) (ss : list stmt) (be : backend) : Prop :=
  priority be = Z.min 65535 (priority_of ss) /\ disabled be = num (disabled_of ss) /\
  exists h m, address_of ss = Some h /\ has_params dfl ss m /\
    if static h ss then
      match getaddr sys (feature_dns sys) h (family_of ss) with
      | Some (f, a) => be_kind be = KRegular (Inet f a (m_port m)) m
      | None => Z.of_nat (length h) <= 108 /\
                be_kind be = KRegular (Unix h (Z.of_nat (length h) + 3)) m
      end
    else be_kind be = KMatrix m /\ m_mode m = mode_of ss.

(** What a statement in a service stands for.  (For UseBackend, what it does stand for; it should be the
    global definition alone.) *)
Definition stands_for (sys : system) (dfl : defaults) (ts : list top) (i : item) (be : backend) : Prop :=
  match i with
  | IBackend ss => as_described sys dfl ss be
  | IRef n us => exists ss, In (TBackend n ss) ts /\ as_described sys dfl (ss ++ uses us) be
  | IUse n => exists ss, In (TBackend n ss) ts /\ as_described sys dfl (ss ++ [Priority 5; Disabled false]) be
  | IEmergency ss => as_described sys (Build_defaults 120 120 120) ss be
  | ISpecial s => be = Build_backend (KSpecial s) 1 0
  end.

Definition is_emergency (i : item) : bool := match i with IEmergency _ => true | _ => false end.
Definition normal (is : list item) : list item := filter (fun i => negb (is_emergency i)) is.
Definition emergency (is : list item) : list item := filter is_emergency is.

Definition services (ts : list top) : list (list item) :=
  concat (map (fun t => match t with TService is => [is] | TBackend _ _ => [] end) ts).
Definition names (ts : list top) : list bytes :=
  concat (map (fun t => match t with TBackend n _ => [n] | TService _ => [] end) ts).

(** The address of a section can be used. *)
Definition locatable (sys : system) (ss : list stmt) : Prop :=
  exists h, address_of ss = Some h /\
    (starts_with_slash h = true -> port_of ss = 0) /\
    if static h ss then
      getaddr sys (feature_dns sys) h (family_of ss) <> None \/ Z.of_nat (length h) <= 108
    else dynamic sys = true /\ feature_dns sys = true.

Definition item_readable (i : item) : Prop :=
  match i with
  | IBackend ss | IEmergency ss => readable ss
  | IRef _ us => readable (uses us)
  | _ => True
  end.
Definition item_locatable (sys : system) (ts : list top) (i : item) : Prop :=
  match i with
  | IBackend ss | IEmergency ss => locatable sys ss
  | IRef n _ | IUse n => exists ss, In (TBackend n ss) ts /\ locatable sys ss
  | ISpecial _ => True
  end.

(** Several backends of a balancer must be servers or redirects. *)
Definition combinable (is : list item) : Prop :=
  (length is <= 1)%nat \/ forall s, In (ISpecial s) is -> s = Redirect.

Definition top_readable (t : top) : Prop :=
  match t with
  | TBackend _ ss => readable ss
  | TService is => Forall item_readable is
  end.
Definition acceptable (sys : system) (ts : list top) : Prop :=
  Forall top_readable ts /\ NoDup (names ts) /\
  forall is, In is (services ts) ->
    Forall (item_locatable sys ts) is /\ combinable (normal is) /\ combinable (emergency is).

(** Numeric addresses. *)
Definition hexgroup (g : bytes) : Prop := (1 <= length g <= 4)%nat /\ Forall (fun c => is_xdigit c = true) g.
Fixpoint joined (gs : list bytes) : bytes :=
  match gs with
  | [] => []
  | [g] => g
  | g :: gs => g ++ ":"%char :: joined gs
  end.
