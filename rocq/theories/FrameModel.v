(** Model of the request checks of do_http (src/http.c 4638-4837) and of the
    choice of body relay (4908-4910, 4264-4304).  Definitions only. *)
From Coq Require Import Ascii String List ZArith Bool.
From Verif Require Import Bytes ClenModel TokModel ReqModel.
Import ListNotations.
Open Scope Z_scope.

(** src/http.c 4522-4530: TRANSFER_ENCODING_ values *)
Inductive tenc := TE_NONE | TE_CHUNKED | TE_UNKNOWN.

(** CONN_UPGRD (src/pound.c 1131-1133): the word "upgrade" at the start or after
    a blank or comma, and at the end or before a blank or comma; any case. *)
Definition upg_sep (c : byte) : bool := isws c || beq c COMMA.
Fixpoint conn_upgrd_from (bnd : bool) (s : bytes) : bool :=
  (bnd && ci_eqb (firstn 7 s) (lit "upgrade"%string)
       && match skipn 7 s with [] => true | c :: _ => upg_sep c end)
  || match s with [] => false | c :: s' => conn_upgrd_from (upg_sep c) s' end.
Definition conn_upgrd (s : bytes) : bool := conn_upgrd_from true s.

(** State of the header loop. [sc_kept] is the header list that remains. *)
Record scan := mkScan {
  sc_te : tenc;
  sc_cl : Z;
  sc_closed : bool;
  sc_ws_conn : bool;
  sc_ws_upg : bool;
  sc_kept : list header
}.

Definition scan0 : scan := mkScan TE_NONE NO_CONTENT_LENGTH false false false [].

Definition keep (sc : scan) (h : header) : scan :=
  mkScan (sc_te sc) (sc_cl sc) (sc_closed sc) (sc_ws_conn sc) (sc_ws_upg sc) (sc_kept sc ++ [h]).

(** src/http.c 4669-4778: one header.  inl is the error reply.  Failure to
    allocate the value (goto err) is not modelled. *)
Definition scan_header (sc : scan) (h : header) : status + scan :=
  let val := h_val h in
  match h_code h with
  | HEADER_CONNECTION =>
      inr (keep
        (match cs_locate_token val (lit "close"%string) true with
         | Some _ => mkScan (sc_te sc) (sc_cl sc) true (sc_ws_conn sc) (sc_ws_upg sc) (sc_kept sc)
         | None =>
             if conn_upgrd val
             then mkScan (sc_te sc) (sc_cl sc) (sc_closed sc) true (sc_ws_upg sc) (sc_kept sc)
             else sc
         end) h)
  | HEADER_UPGRADE =>
      inr (keep
        (match cs_locate_token val (lit "websocket"%string) true with
         | Some _ => mkScan (sc_te sc) (sc_cl sc) (sc_closed sc) (sc_ws_conn sc) true (sc_kept sc)
         | None => sc
         end) h)
  | HEADER_TRANSFER_ENCODING =>
      match sc_te sc with
      | TE_CHUNKED => inl ST_400
      | _ =>
          match cs_locate_token val (lit "chunked"%string) true with
          | Some (_, []) =>
              inr (keep (mkScan TE_CHUNKED (sc_cl sc) (sc_closed sc) (sc_ws_conn sc) (sc_ws_upg sc) (sc_kept sc)) h)
          | Some (_, _ :: _) => inl ST_400
          | None =>
              inr (keep (mkScan TE_UNKNOWN (sc_cl sc) (sc_closed sc) (sc_ws_conn sc) (sc_ws_upg sc) (sc_kept sc)) h)
          end
      end
  | HEADER_CONTENT_LENGTH =>
      if negb (sc_cl sc =? NO_CONTENT_LENGTH) || existsb (beq COMMA) val then inl ST_400
      else
        let cl := get_content_length val CL_HEADER in
        if cl =? NO_CONTENT_LENGTH then inl ST_400
        else inr (keep (mkScan (sc_te sc) cl (sc_closed sc) (sc_ws_conn sc) (sc_ws_upg sc) (sc_kept sc)) h)
  | HEADER_EXPECT =>
      if ci_eqb (lit "100-continue"%string) val then inr sc else inr (keep sc h)
  | HEADER_ILLEGAL => inr sc
  | _ => inr (keep sc h)
  end.

Fixpoint scan_headers (sc : scan) (hs : list header) : status + scan :=
  match hs with
  | [] => inr sc
  | h :: hs' =>
      match scan_header sc h with
      | inl st => inl st
      | inr sc' => scan_headers sc' hs'
      end
  end.

(** src/http.c 4780-4799 *)
Definition check_framing (hs : list header) : status + scan :=
  match scan_headers scan0 hs with
  | inl st => inl st
  | inr sc =>
      match sc_te sc with
      | TE_NONE => inr sc
      | TE_UNKNOWN => inl ST_501
      | TE_CHUNKED => if sc_cl sc =? NO_CONTENT_LENGTH then inr sc else inl ST_400
      end
  end.

(** Listener settings that the checks use: method group, CheckURL (None: no
    pattern), MaxURI, MaxRequest (0: unlimited). *)
Record lsn := mkLsn {
  l_verb : Z;
  l_url_ok : option (bytes -> bool);
  l_max_uri : Z;
  l_max_req : Z
}.

(** src/http.c 4643-4837: from the message head to the point where a service is
    looked up.  inl is the error reply sent instead. *)
Definition check_request (l : lsn) (request : bytes) (hs : list header)
  : status + (reqline * scan) :=
  match parse_http_request request (l_verb l) with
  | (ST_OK, Some rl) =>
      if match l_url_ok l with Some p => negb (p (rl_url rl)) | None => false end
      then inl ST_501
      else
        match check_framing hs with
        | inl st => inl st
        | inr sc =>
            if (0 <? l_max_uri l) && (l_max_uri l <? Z.of_nat (length (rl_url rl)))
            then inl ST_414
            else if (0 <? l_max_req l) && (0 <? sc_cl sc) && (l_max_req l <? sc_cl sc)
            then inl ST_413
            else inr (rl, sc)
        end
  | (st, _) => inl st
  end.

(** What send_to_backend relays after the head: src/http.c 4908-4910 with
    4264-4304. *)
Inductive relay := RelayNothing | RelayLength (n : Z) | RelayChunks.

Definition body_relay (rl : reqline) (sc : scan) : relay :=
  if (rl_version rl =? 1) && match sc_te sc with TE_CHUNKED => true | _ => false end
  then RelayChunks
  else if 0 <? sc_cl sc then RelayLength (sc_cl sc)
  else RelayNothing.
