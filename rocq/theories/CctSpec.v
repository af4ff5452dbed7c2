(** C73: client certificates. *)
From Coq Require Import Ascii String List ZArith Bool.
From Verif Require Import Bytes CondModel CondSpec CctModel.
Import ListNotations.
Local Open Scope list_scope.
Local Open Scope Z_scope.

(** What the manual says of the modes of ClientCert, for a client that shows a certificate or none; [ok]: whether a certificate
    is verified.  None: the connection is refused; otherwise the certificate that is known, and whether it is verified *)
Definition policy (mode : Z) (ok : bytes -> bool) (shown : option bytes) : option (option (bytes * bool)) :=
  match mode, shown with
  | 1, Some c => if ok c then Some (Some (c, true)) else None
  | 2, Some c => if ok c then Some (Some (c, true)) else None
  | 2, None => None
  | 3, Some c => Some (Some (c, ok c))
  | _, _ => Some None
  end.

(** The number of certificates loaded by these directives *)
Definition loads (d : directive) : nat := match d with Cert (Some n) => n | _ => O end.
Definition loaded (ds : list directive) : nat := list_sum (map loads ds).

(** The certificates of the VerifyLists, and of the CRLlists if any, that come after certificate number [i] was loaded; [n]: loaded before *)
Fixpoint lists (i n : nat) (ds : list directive) : store :=
  match ds with
  | [] => mkStore [] None
  | d :: ds =>
    let s := lists i (n + loads d) ds in
    if Nat.ltb i n then
      match d with
      | VerifyList (Some cs) => mkStore (cs ++ trust s) (revoked s)
      | CRLlist (Some cs) => mkStore (trust s) (Some (cs ++ match revoked s with Some r => r | None => [] end))
      | _ => s
      end
    else s
  end.

(** The words of the last ClientCert directive *)
Fixpoint last_mode (ds : list directive) : option (list (option Z)) :=
  match ds with
  | [] => None
  | ClientCert a :: ds => match last_mode ds with Some b => Some b | None => Some a end
  | _ :: ds => last_mode ds
  end.

(** The words pound accepts: 0, or another mode and a depth *)
Inductive words : list (option Z) -> Prop :=
| words0 : words [Some 0]
| words_depth : forall m d, 1 <= m <= 3 -> words [Some m; Some d].

(** A directive in its place, after so many certificates *)
Definition in_place (n : nat) (d : directive) : Prop :=
  match d with
  | Cert r => r <> None
  | ClientCert a => n <> O /\ words a
  | VerifyList f | CRLlist f => n <> O /\ f <> None
  | Service _ | Rewrite _ => True
  end.

(** The certificate occurs in a ClientCert of the condition of a service *)
Definition wanted_by (s : service) (x : bytes) : Prop := atom_of (COND_CLIENT_CERT x) (s_cond s).
Definition wanted (ds : list directive) (x : bytes) : Prop := exists s, In (Service s) ds /\ wanted_by s x.

(** What the conditions see of a connection, but for addresses and passwords *)
Definition sees (x509 : option (bytes * bool)) (e : env) : Prop := e_cert e = presents x509.
