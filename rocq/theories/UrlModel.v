(** Model of the request target: splitting, rebuilding and query parameters,
    src/http.c 2165-2570.  Definitions only.  Allocation failures are not
    modelled, so the functions do not fail. *)
From Coq Require Import Ascii String List ZArith Bool.
From Verif Require Import Bytes.
Import ListNotations.
Open Scope Z_scope.

Definition QMARK : byte := "?"%char.
Definition AMP : byte := "&"%char.
Definition EQS : byte := "="%char.

(** struct query_param, src/pound.h: name and value (None: NULL). *)
Definition qparam := (bytes * option bytes)%type.

(** struct http_request (src/pound.h 386-398) without the headers.  The method
    is represented by its name in the methods table.  None is NULL. *)
Record req := mkReq {
  r_request : bytes;
  r_method : bytes;
  r_version : Z;
  r_url : bytes;
  r_path : option bytes;
  r_query : option bytes;
  r_params : list qparam;
  r_orig : option bytes;
  r_split : bool
}.

(** src/http.c 2175-2184: position of the last '?' not at the start, searching
    from [p] down to 1. *)
Fixpoint find_qmark (p : nat) (url : bytes) : option nat :=
  match p with
  | O => None
  | S p' => if beq (nth p url NUL) QMARK then Some p else find_qmark p' url
  end.

(** src/http.c 2165-2214 *)
Definition http_request_split (r : req) : req :=
  if r_split r then
    let url := r_url r in
    let '(path, query) :=
      match find_qmark (length url) url with
      | None => (url, None)
      | Some p =>
          let q := skipn (p + 1) url in
          (firstn p url, match q with [] => None | _ => Some q end)
      end in
    mkReq (r_request r) (r_method r) (r_version r) url (Some path) query [] (r_orig r) false
  else r.

(** src/http.c 2216-2243 *)
Definition http_request_rebuild_line (r : req) : req :=
  let str := r_method r ++ [SP] ++ r_url r ++ [SP] ++ lit "HTTP/1."%string
             ++ [if r_version r =? 0 then "0"%char else "1"%char] in
  let orig := match r_orig r with Some o => Some o | None => Some (r_request r) end in
  mkReq str (r_method r) (r_version r) (r_url r) (r_path r) (r_query r) (r_params r) orig (r_split r).

(** src/http.c 2245-2267.  A NULL path is the empty string (adding a NULL
    string would crash; it cannot be NULL after a split). *)
Definition http_request_rebuild_url (r : req) : req :=
  let path := match r_path r with Some p => p | None => [] end in
  let url := path ++ match r_query r with Some q => QMARK :: q | None => [] end in
  http_request_rebuild_line
    (mkReq (r_request r) (r_method r) (r_version r) url (r_path r) (r_query r) (r_params r) (r_orig r) (r_split r)).

(** src/http.c 2284-2289 *)
Definition param_text (p : qparam) : bytes :=
  fst p ++ match snd p with Some v => EQS :: v | None => [] end.

(** src/http.c 2277-2290: [more] puts a separator before all but the first. *)
Fixpoint params_text (more : bool) (ps : list qparam) : bytes :=
  match ps with
  | [] => []
  | p :: ps' => (if more then [AMP] else []) ++ param_text p ++ params_text true ps'
  end.

(** src/http.c 2269-2300 *)
Definition http_request_rebuild_query (r : req) : req :=
  http_request_rebuild_url
    (mkReq (r_request r) (r_method r) (r_version r) (r_url r) (r_path r)
       (Some (params_text false (r_params r))) (r_params r) (r_orig r) (r_split r)).

(** src/http.c 2302-2339 *)
Definition http_request_get_request_line (r : req) : bytes := r_request r.
Definition http_request_orig_line (r : req) : bytes :=
  match r_orig r with Some o => o | None => r_request r end.
Definition http_request_get_url (r : req) : bytes := r_url r.
Definition http_request_set_url (r : req) (url : bytes) : req :=
  http_request_rebuild_line
    (mkReq (r_request r) (r_method r) (r_version r) url (r_path r) (r_query r) (r_params r) (r_orig r) true).

(** src/http.c 2341-2370 *)
Definition http_request_get_path (r : req) : option bytes * req :=
  let r := http_request_split r in (r_path r, r).
Definition http_request_set_path (r : req) (path : bytes) : req :=
  let r := http_request_split r in
  http_request_rebuild_url
    (mkReq (r_request r) (r_method r) (r_version r) (r_url r) (Some path) (r_query r) (r_params r) (r_orig r) (r_split r)).

(** src/http.c 2372-2379 *)
Definition http_request_get_query (r : req) : option bytes * req :=
  let r := http_request_split r in (r_query r, r).

Definition notb (c : byte) (x : byte) : bool := negb (beq x c).

(** src/http.c 2409-2456.  Fuel: each turn consumes a character (a non-empty
    query always advances). *)
Fixpoint parse_query_loop (fuel : nat) (query : bytes) : list qparam :=
  match fuel with
  | O => []
  | S fuel' =>
      match query with
      | [] => []
      | _ =>
          let '(piece, rest) := span (notb AMP) query in
          let '(name, v) := span (notb EQS) piece in
          let val := match v with [] => None | _ :: v' => Some v' end in
          (name, val) :: parse_query_loop fuel' (match rest with [] => [] | _ :: r => r end)
      end
  end.
Definition parse_query (query : bytes) : list qparam := parse_query_loop (length query) query.

(** src/http.c 2400-2459 *)
Definition http_request_parse_query (r : req) : req :=
  let '(q, r) := http_request_get_query r in
  match q with
  | None => r
  | Some query =>
      mkReq (r_request r) (r_method r) (r_version r) (r_url r) (r_path r) (r_query r)
        (r_params r ++ parse_query query) (r_orig r) (r_split r)
  end.

(** src/http.c 2473-2480: first parameter of the name. *)
Fixpoint find_param (ps : list qparam) (name : bytes) : option qparam :=
  match ps with
  | [] => None
  | p :: ps' =>
      if Nat.eqb (length (fst p)) (length name) && bytes_eqb (fst p) name then Some p
      else find_param ps' name
  end.

(** src/http.c 2461-2482.  None is RETRIEVE_NOT_FOUND. *)
Definition http_request_get_query_param (r : req) (name : bytes) : option qparam * req :=
  let r := http_request_split r in
  let r := match r_params r with [] => http_request_parse_query r | _ => r end in
  (find_param (r_params r) name, r).

(** src/http.c 2484-2493: None not found, Some None found with NULL value. *)
Definition http_request_get_query_param_value (r : req) (name : bytes)
  : option (option bytes) * req :=
  let '(q, r) := http_request_get_query_param r name in (option_map snd q, r).

(** src/http.c 2495-2511 *)
Definition http_request_set_query (r : req) (rawquery : bytes) : req :=
  let r := http_request_split r in
  http_request_rebuild_url
    (mkReq (r_request r) (r_method r) (r_version r) (r_url r) (r_path r) (Some rawquery) [] (r_orig r) (r_split r)).

(** src/http.c 2550-2566: apply [f] to the first parameter of the name; None
    removes it. *)
Fixpoint change_param (ps : list qparam) (name : bytes) (f : qparam -> option qparam) : list qparam :=
  match ps with
  | [] => []
  | p :: ps' =>
      if Nat.eqb (length (fst p)) (length name) && bytes_eqb (fst p) name
      then match f p with Some p' => p' :: ps' | None => ps' end
      else p :: change_param ps' name f
  end.

(** src/http.c 2513-2570 *)
Definition http_request_set_query_param (r : req) (name : bytes) (raw_value : option bytes) : req :=
  let '(q, r) := http_request_get_query_param r name in
  let set ps :=
    http_request_rebuild_query
      (mkReq (r_request r) (r_method r) (r_version r) (r_url r) (r_path r) (r_query r) ps (r_orig r) (r_split r)) in
  match q, raw_value with
  | None, None => r
  | None, Some v => set (r_params r ++ [(name, Some v)])
  | Some _, None => set (change_param (r_params r) name (fun _ => None))
  | Some _, Some v => set (change_param (r_params r) name (fun p => Some (fst p, Some v)))
  end.

(** The request as parse_http_request leaves it (src/http.c 2968-2981 on a
    request initialised by http_request_init and http_request_read). *)
Definition fresh_req (line method : bytes) (version : Z) (url : bytes) : req :=
  mkReq line method version url None None [] None true.

(** An editing step, as the rewrite operations perform it (src/http.c
    3397-3450), or a read. *)
Inductive uop :=
| OSetUrl (u : bytes) | OSetPath (p : bytes) | OSetQuery (q : bytes)
| OSetParam (n v : bytes) | ODelParam (n : bytes)
| OGetPath | OGetQuery | OGetParam (n : bytes).

Definition ustep (r : req) (o : uop) : req :=
  match o with
  | OSetUrl u => http_request_set_url r u
  | OSetPath p => http_request_set_path r p
  | OSetQuery q => http_request_set_query r q
  | OSetParam n v => http_request_set_query_param r n (Some v)
  | ODelParam n => http_request_set_query_param r n None
  | OGetPath => snd (http_request_get_path r)
  | OGetQuery => snd (http_request_get_query r)
  | OGetParam n => snd (http_request_get_query_param_value r n)
  end.

Definition urun (r : req) (os : list uop) : req := fold_left ustep os r.
