(** C60: the certificates of an HTTPS listener and the choice among them by the server name
    the client asks for (src/config.c).  Definitions only. *)
From Coq Require Import Ascii String List Bool Arith.
From Verif Require Import Bytes.
Import ListNotations.

(** * fnmatch (pattern, string, 0), POSIX XCU 2.13, as called by config.c 3683 and 3697.

    A pattern is first cut into elements.  Bracket expressions depend on the locale: what follows
    a left bracket is given to [brackets], which answers either that it is no bracket expression (the
    bracket is then an ordinary character) or the characters it stands for and the number
    of characters it takes.  All theorems hold for whatever [brackets]. *)
Section Fnmatch.
Variable brackets : bytes -> option ((byte -> bool) * nat).

Inductive elem :=
| EChar (c : byte)            (* this character *)
| EAny                        (* ?: one character *)
| EStar                       (* *: any characters *)
| ESet (f : byte -> bool)     (* bracket expression *)
| ENever.                     (* backslash at the end: matches nothing *)

Fixpoint elems (fuel : nat) (p : bytes) : list elem :=
  match fuel, p with
  | S fuel, c :: p =>
    if beq c "*" then EStar :: elems fuel p
    else if beq c "?" then EAny :: elems fuel p
    else if beq c "\" then
      match p with
      | [] => [ENever]
      | d :: p => EChar d :: elems fuel p
      end
    else if beq c "[" then
      match brackets p with
      | Some (f, n) => ESet f :: elems fuel (skipn n p)
      | None => EChar c :: elems fuel p
      end
    else EChar c :: elems fuel p
  | _, _ => []
  end.

Fixpoint ematch (es : list elem) (s : bytes) : bool :=
  match es with
  | [] => match s with [] => true | _ => false end
  | EStar :: es =>
    (fix star (s : bytes) : bool :=
       ematch es s || match s with [] => false | _ :: s => star s end) s
  | EChar c :: es => match s with [] => false | d :: s => beq c d && ematch es s end
  | EAny :: es => match s with [] => false | _ :: s => ematch es s end
  | ESet f :: es => match s with [] => false | d :: s => f d && ematch es s end
  | ENever :: _ => false
  end.

Definition fnmatch (p s : bytes) : bool := ematch (elems (length p) p) s.
End Fnmatch.

(** * Certificates *)

(** A subjectAltName (GENERAL_NAME): a dNSName or another kind. *)
Inductive gname := Dns (name : bytes) | OtherName.

(** What a certificate file gives: whether OpenSSL accepts its chain, its key and the pair
    (config.c 3494-3511), whether a certificate can be read from it (3522-3537); the common names of
    the subject in order (None: ASN1_STRING_to_UTF8 fails) and the subjectAltNames. *)
Record certfile := {
  chain_ok : bool; key_ok : bool; pair_ok : bool; readable : bool;
  common_names : list (option bytes);
  alt_names : list gname
}.

(** POUND_CTX (pound.h).  [pc_cert] is the certificate the SSL context was given, [settings] what
    has been set in it by directives of the listener.  The size of subjectAltNames is not kept. *)
Record pctx (setting : Type) := {
  pc_cert : certfile;
  server_name : bytes;
  subjectAltNames : list bytes;
  settings : list setting
}.
Arguments pc_cert {setting}. Arguments server_name {setting}.
Arguments subjectAltNames {setting}. Arguments settings {setting}.
Arguments Build_pctx {setting}.

(** A name as a C string: it ends at the first NUL. *)
Fixpoint c_str (s : bytes) : bytes :=
  match s with
  | [] => []
  | c :: s => if beq c NUL then [] else c :: c_str s
  end.

(** The common names that could be converted (config.c 3545-3565): the first is the server name,
    the others are put among the subjectAltNames. *)
Fixpoint utf8_names (l : list (option bytes)) : list bytes :=
  match l with
  | [] => []
  | Some n :: l => c_str n :: utf8_names l
  | None :: l => utf8_names l
  end.

(** get_subjectaltnames, config.c 3442-3478: names are popped from the stack, so the last comes
    first; general_name_string (3432-3440) copies up to length + 1 bytes as a C string (the
    byte after the data is the NUL OpenSSL puts there). *)
Fixpoint dns_names (stack : list gname) : list bytes :=
  match stack with
  | [] => []
  | Dns n :: stack => dns_names stack ++ [c_str n]
  | OtherName :: stack => dns_names stack
  end.

(** load_cert, config.c 3480-3583, without the parts that concern OpenSSL.  None is
    CFGPARSER_FAIL; the new context is put at the end of the list (SLIST_PUSH). *)
Definition load_cert {setting} (f : certfile) (ctx_head : list (pctx setting))
  : option (list (pctx setting)) :=
  if negb (chain_ok f) then None
  else if negb (key_ok f) then None
  else if negb (pair_ok f) then None
  else if negb (readable f) then None
  else match utf8_names (common_names f) with
       | [] => None                           (* no CN in certificate subject name *)
       | cn :: others =>
         Some (ctx_head ++ [Build_pctx f cn (others ++ dns_names (alt_names f)) []])
       end.

(** What stat tells of the argument of Cert, or of an entry of the directory. *)
Inductive dentry := EStatError | ERegular (f : certfile) | ENotRegular.
Inductive target := TStatError | TRegular (f : certfile) | TOpendirError
| TDirectory (entries : list dentry)          (* in the order of readdir, without . and .. *)
| TOther.

(** The loop of https_parse_cert over a directory, config.c 3624-3647. *)
Fixpoint load_dir {setting} (entries : list dentry) (ctx_head : list (pctx setting))
  : option (list (pctx setting)) :=
  match entries with
  | [] => Some ctx_head
  | ERegular f :: entries =>
    match load_cert f ctx_head with
    | Some ctx_head => load_dir entries ctx_head
    | None => None
    end
  | _ :: entries => load_dir entries ctx_head
  end.

(** https_parse_cert, config.c 3585-3655. *)
Definition https_parse_cert {setting} (t : target) (ctx_head : list (pctx setting))
  : option (list (pctx setting)) :=
  match t with
  | TStatError => None
  | TRegular f => load_cert f ctx_head
  | TOpendirError => None
  | TDirectory entries => load_dir entries ctx_head
  | TOther => Some ctx_head
  end.

(** ClientCert, Ciphers, CAlist, VerifyList, CRLlist (config.c 3711-3772, 3781-3798, 3843-3932): an
    error if there is no certificate yet; otherwise applied to each certificate loaded so far.
    [valid] is whether arguments and files are accepted. *)
Definition https_parse_setting {setting} (x : setting) (valid : bool) (ctx_head : list (pctx setting))
  : option (list (pctx setting)) :=
  match ctx_head with
  | [] => None
  | _ => if valid then
           Some (map (fun pc => Build_pctx (pc_cert pc) (server_name pc) (subjectAltNames pc)
                                  (settings pc ++ [x])) ctx_head)
         else None
  end.

Inductive directive (setting : Type) := Cert (t : target) | Setting (x : setting) (valid : bool).
Arguments Cert {setting}. Arguments Setting {setting}.

Definition parse_directive {setting} (d : directive setting) (ctx_head : list (pctx setting)) :=
  match d with
  | Cert t => https_parse_cert t ctx_head
  | Setting x valid => https_parse_setting x valid ctx_head
  end.

Fixpoint parse_directives {setting} (ds : list (directive setting)) (ctx_head : list (pctx setting)) :=
  match ds with
  | [] => Some ctx_head
  | d :: ds => match parse_directive d ctx_head with
               | Some ctx_head => parse_directives ds ctx_head
               | None => None
               end
  end.

(** The part of parse_listen_https that concerns the certificates, config.c 4072-4086: the other
    directives and the address are not modelled here. *)
Definition parse_listen_https {setting} (ds : list (directive setting)) : option (list (pctx setting)) :=
  match parse_directives ds [] with
  | Some [] => None                           (* Cert statement is missing *)
  | r => r
  end.

Section Sni.
Variable brackets : bytes -> option ((byte -> bool) * nat).

(** SNI_server_name, config.c 3670-3708: the loop over the contexts. *)
Fixpoint sni_find {setting} (ctx_head : list (pctx setting)) (name : bytes) : option (pctx setting) :=
  match ctx_head with
  | [] => None
  | pc :: ctx_head =>
    if fnmatch brackets (server_name pc) name then Some pc
    else if existsb (fun san => fnmatch brackets san name) (subjectAltNames pc) then Some pc
    else sni_find ctx_head name
  end.

(** The context of a connection: it is created with the first one (http.c 4565); the callback,
    which OpenSSL runs when the client sent its hello, keeps that if the client gave no name
    and otherwise sets the one found, or the first again. *)
Definition SNI_server_name {setting} (ctx_head : list (pctx setting)) (name : option bytes)
  : option (pctx setting) :=
  match name with
  | None => hd_error ctx_head
  | Some name =>
    match sni_find ctx_head name with
    | Some pc => Some pc
    | None => hd_error ctx_head
    end
  end.
End Sni.
