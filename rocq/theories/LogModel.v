(** Model of the access log, src/log.c 69-133, 325-1056, and of its use in src/config.c
    2857-2968.  The values a request supplies are given as a record; how they are found
    is modelled elsewhere (headers C11, %a C27, path and query C08, users C26). *)
From Coq Require Import Ascii String List ZArith Bool.
From Verif Require Import Bytes.
Import ListNotations.
Open Scope Z_scope.

(** ** Numbers as printf prints them *)

(** %lu, for n >= 0, with at most [fuel] digits *)
Fixpoint digits (fuel : nat) (n : Z) (acc : bytes) : bytes :=
  match fuel with
  | O => acc
  | S f =>
      let acc := ascii_of_N (Z.to_N (48 + n mod 10)) :: acc in
      if Z.ltb n 10 then acc else digits f (n / 10) acc
  end.
Definition fmt_ld (n : Z) : bytes :=
  if Z.ltb n 0 then "-"%char :: digits (S (Z.to_nat (Z.log2 (- n)))) (- n) [] else digits (S (Z.to_nat (Z.log2 n))) n [].
(** %0<w>ld for n >= 0, and %<w>d *)
Definition fmt_pad (fill : byte) (w : nat) (n : Z) : bytes := let d := fmt_ld n in repeat fill (w - length d) ++ d.

(** ** Time *)

Record timespec := mkTs { tv_sec : Z; tv_nsec : Z }.
(** pound.h 296-310 *)
Definition timespec_sub (a b : timespec) : timespec :=
  let s := tv_sec a - tv_sec b in
  let n := tv_nsec a - tv_nsec b in
  if Z.ltb n 0 then mkTs (s - 1) (n + 1000000000) else mkTs s n.

(** log.c 379-383 *)
Definition MILLI := 1000.
Definition MICRO := 1000000.

(** ** What a request supplies *)

Inductive object := O_backend | O_service | O_listener.
(** pound.h: be_type; log.c 648-673 *)
Inductive be_type := BT_REGULAR | BT_REDIRECT | BT_ACME | BT_CONTROL | BT_ERROR | BT_METRICS | BT_OTHER.
Record request := mkRq {
  q_forwarded : option bytes;         (* scan_forwarded_header: log.c 166-231 *)
  q_remote : option bytes;            (* addr2str of from_host; None for a UNIX socket *)
  q_local : bytes;
  q_res_bytes : Z;
  q_ssl : bool;
  q_method : option bytes;            (* method_name *)
  q_query : option bytes;
  q_orig_line : bytes;                (* http_request_orig_line of the request *)
  q_status_line : bytes;              (* the same of the response *)
  q_code : Z;
  q_start : timespec;
  q_end : timespec;
  q_user : option bytes;
  q_path : option bytes;
  q_tid : bytes;
  q_backend_str : bytes;              (* str_be *)
  q_be_type : be_type;
  q_be_service : option bytes;        (* name of the service of the backend *)
  q_listener : option bytes;          (* name of the listener *)
  q_locus : object -> option bytes;
  q_header : bytes -> option bytes;   (* value of the header located by its name *)
  q_strftime : bytes -> Z -> bytes    (* the C library, with the local time *)
}.

(** ** Printing *)

(** log.c 90-102 *)
Definition print_str (s : option bytes) : bytes := match s with Some s => s | None => lit "-" end.

(** strrchr *)
Fixpoint after_last (c : byte) (s : bytes) : option bytes :=     (* the part up to and with the last c *)
  match s with
  | [] => None
  | x :: s => match after_last c s with Some p => Some (x :: p) | None => if beq x c then Some [x] else None end
  end.
(** log.c 111-123 *)
Definition anon_ip (anonymise : bool) (s : bytes) : bytes :=
  if anonymise
  then
    match after_last "."%char s with
    | Some p => p ++ lit "0"
    | None => match after_last ":"%char s with Some p => p ++ lit "0" | None => s end
    end
  else s.
(** log.c 125-133 *)
Definition anon_addr2str (anonymise : bool) (remote : option bytes) : bytes :=
  match remote with None => lit "socket" | Some a => anon_ip anonymise a end.

(** The printer functions, log.c 104-109, 135-780 *)
Inductive printer :=
| i_print | i_remote_ip | i_forwarded_ip | i_local_ip | i_response_size | i_response_size_clf | i_protocol | i_method | i_query | i_status
| i_timedfl | i_timefmt | i_time_s | i_time_msec | i_time_msec_frac | i_time_usec | i_time_usec_frac
| i_process_time_ms | i_process_time_us | i_process_time_s | i_process_time_f
| i_user_name | i_url | i_listener_name | i_tid | i_request | i_backend | i_service | i_listener
| i_locus (o : object)                                     (* i_backend_locus, i_service_locus, i_listener_locus *)
| i_header | i_header_clf.
(** log.c 28-34; [at_end] is the offset of the time field *)
Record instr := mkI { prt : printer; arg : option bytes; at_end : bool }.

Definition be_service_name (q : request) : bytes :=
  match q_be_type q with
  | BT_REGULAR => print_str (q_be_service q)
  | BT_REDIRECT => lit "(redirect)" | BT_ACME => lit "(acme)" | BT_CONTROL => lit "(control)" | BT_ERROR => lit "(error)" | BT_METRICS => lit "(metrics)"
  | BT_OTHER => lit "-"
  end.

(** %.0f of a double is exact for the milli- and microseconds of the next centuries,
    which are less than 2^53. *)
Definition print_instr (anonymise : bool) (q : request) (i : instr) : bytes :=
  let ts := if at_end i then q_end q else q_start q in
  let diff := timespec_sub (q_end q) (q_start q) in
  match prt i with
  | i_print => print_str (arg i)
  | i_remote_ip => anon_addr2str anonymise (q_remote q)
  | i_forwarded_ip => match q_forwarded q with Some ip => ip | None => anon_addr2str anonymise (q_remote q) end
  | i_local_ip => q_local q
  | i_response_size => fmt_ld (q_res_bytes q)
  | i_response_size_clf => if Z.ltb 0 (q_res_bytes q) then fmt_ld (q_res_bytes q) else lit "-"
  | i_protocol => if q_ssl q then lit "https" else lit "http"
  | i_method => print_str (q_method q)
  | i_query => match q_query q with Some s => "?"%char :: s | None => [] end
  | i_status => match arg i with Some _ => q_status_line q | None => fmt_pad SP 3 (q_code q) end
  | i_timedfl => q_strftime q (lit "[%d/%b/%Y:%H:%M:%S %z]") (tv_sec ts)
  | i_timefmt => match arg i with Some f => q_strftime q f (tv_sec ts) | None => [] end
  | i_time_s => fmt_ld (tv_sec ts)
  | i_time_msec => fmt_ld (tv_sec ts * MILLI + tv_nsec ts / MICRO)
  | i_time_msec_frac => fmt_pad "0"%char 3 (tv_nsec ts / MICRO)
  | i_time_usec => fmt_ld (tv_sec ts * MICRO + tv_nsec ts / MILLI)
  | i_time_usec_frac => fmt_pad "0"%char 6 (tv_nsec ts / MILLI)
  | i_process_time_ms => fmt_ld (tv_sec diff * MILLI + tv_nsec diff / MICRO)
  | i_process_time_us => fmt_ld (tv_sec diff * MICRO + tv_nsec diff / MILLI)
  | i_process_time_s => fmt_ld (tv_sec diff)
  | i_process_time_f => fmt_ld (tv_sec diff) ++ lit "." ++ fmt_pad "0"%char 3 (tv_nsec diff / MICRO)
  | i_user_name => print_str (q_user q)
  | i_url => print_str (q_path q)
  | i_listener_name => print_str (q_listener q)
  | i_tid => q_tid q
  | i_request => q_orig_line q
  | i_backend => q_backend_str q
  | i_service => be_service_name q
  | i_listener => print_str (q_listener q)
  | i_locus o => print_str (q_locus q o)
  | i_header => match arg i with Some n => match q_header q n with Some v => v | None => [] end | None => [] end
  | i_header_clf => match arg i with Some n => print_str (q_header q n) | None => lit "-" end
  end.

(** ** Compiling *)

(** log.c 69-88 *)
Definition add_instr (prog : list instr) (p : printer) (at_end : bool) (a : option bytes) : list instr :=
  prog ++ [mkI p (match a with Some [] => None | a => a end) at_end].

(** log.c 476-483 *)
Definition argprt_find (tab : list (string * printer)) (a : bytes) : option printer :=
  match find (fun e => bytes_eqb (lit (fst e)) a) tab with Some e => Some (snd e) | None => None end.
(** log.c 485-492, 575-581, 689-694, 731-736 *)
Definition timeprt := [("s", i_time_s); ("msec", i_time_msec); ("msec_frac", i_time_msec_frac); ("usec", i_time_usec); ("usec_frac", i_time_usec_frac)]%string.
Definition proctimeprt := [("s", i_process_time_s); ("f", i_process_time_f); ("ms", i_process_time_ms); ("us", i_process_time_us)]%string.
Definition nameprt := [("backend", i_backend); ("service", i_service); ("listener", i_listener)]%string.
Definition locprt := [("backend", i_locus O_backend); ("service", i_locus O_service); ("listener", i_locus O_listener)]%string.

Fixpoint strip_prefix (p s : bytes) : option bytes :=
  match p, s with
  | [], _ => Some s
  | x :: p, y :: s => if beq x y then strip_prefix p s else None
  | _ :: _, [] => None
  end.
(** log.c 494-539 *)
Definition p_time (prog : list instr) (a : option bytes) : option (list instr) :=
  match a with
  | None => Some (add_instr prog i_timedfl false None)
  | Some a =>
      let '(e, a) :=
        match strip_prefix (lit "begin:") a with
        | Some a => (false, a)
        | None => match strip_prefix (lit "end:") a with Some a => (true, a) | None => (false, a) end
        end in
      match a with
      | [] => Some (add_instr prog i_timedfl e None)
      | _ => match argprt_find timeprt a with None => Some (add_instr prog i_timefmt e (Some a)) | Some p => Some (add_instr prog p e None) end
      end
  end.
(** log.c 583-597 *)
Definition p_process_time (prog : list instr) (a : option bytes) : option (list instr) :=
  match a with
  | None => Some (add_instr prog i_process_time_s false None)
  | Some a => match argprt_find proctimeprt a with Some p => Some (add_instr prog p false None) | None => None end
  end.
(** log.c 696-708, 738-750; called with an argument only *)
Definition p_object (tab : list (string * printer)) (prog : list instr) (a : option bytes) : option (list instr) :=
  match a with
  | Some a => match argprt_find tab a with Some p => Some (add_instr prog p false None) | None => None end
  | None => None
  end.

(** log.c 783-858 *)
Inductive spec_arg := NO_ARG | REQ_ARG | OPT_ARG.
Inductive action := Prt (p : printer) | Time | Proc_time | Obj (tab : list (string * printer)).
Definition http_log_spec : list (byte * (action * spec_arg)) :=
  [("%", (Prt i_print, NO_ARG)); ("a", (Prt i_forwarded_ip, NO_ARG)); ("A", (Prt i_local_ip, NO_ARG)); ("B", (Prt i_response_size, NO_ARG));
   ("b", (Prt i_response_size_clf, NO_ARG)); ("D", (Prt i_process_time_ms, NO_ARG)); ("h", (Prt i_remote_ip, NO_ARG)); ("H", (Prt i_protocol, NO_ARG));
   ("i", (Prt i_header, REQ_ARG)); ("I", (Prt i_header_clf, REQ_ARG)); ("L", (Obj locprt, REQ_ARG)); ("N", (Obj nameprt, REQ_ARG));
   ("m", (Prt i_method, NO_ARG)); ("P", (Prt i_tid, NO_ARG)); ("q", (Prt i_query, NO_ARG)); ("r", (Prt i_request, NO_ARG));
   ("s", (Prt i_status, OPT_ARG)); ("t", (Time, OPT_ARG)); ("T", (Proc_time, OPT_ARG)); ("u", (Prt i_user_name, NO_ARG));
   ("U", (Prt i_url, NO_ARG)); ("v", (Prt i_listener_name, NO_ARG))]%char.
(** log.c 860-869 *)
Definition find_spec (c : byte) : option (action * spec_arg) :=
  match find (fun e => beq (fst e) c) http_log_spec with Some e => Some (snd e) | None => None end.

(** strchr: before and after the character *)
Fixpoint split_at (c : byte) (s : bytes) : option (bytes * bytes) :=
  match s with
  | [] => None
  | x :: s => if beq x c then Some ([], s) else match split_at c s with Some (a, b) => Some (x :: a, b) | None => None end
  end.

(** A diagnostic: true is an error, false a warning. *)
Inductive compiled := Prog (p : list instr) (diags : list bool) | Failed (diags : list bool)
| Over_read.                  (* reads past the end of the format *)

(** log.c 971-1018 for the character c: None is return -1 *)
Definition compile_spec (prog : list instr) (a : option bytes) (c : byte) (upto : bytes) : option (list instr) * list bool :=
  match find_spec c with
  | None => (Some (add_instr prog i_print false (Some upto)), [true])
  | Some (act, sa) =>
      match sa, a with
      | REQ_ARG, None => (None, [true])
      | _, _ =>
          let '(a, d) := match sa, a with NO_ARG, Some _ => (None, [false]) | _, a => (a, []) end in
          let a := if beq c "%"%char then Some (lit "%") else a in
          match (match act with
                 | Prt p => Some (add_instr prog p false a)
                 | Time => p_time prog a
                 | Proc_time => p_process_time prog a
                 | Obj tab => p_object tab prog a
                 end) with
          | Some prog => (Some prog, d)
          | None => (None, d ++ [true])
          end
      end
  end.

(** log.c 939-1022.  The fuel is at least the length of the format. *)
Fixpoint compile_loop (fuel : nat) (cur : bytes) (prog : list instr) (diags : list bool) : compiled :=
  match fuel with
  | O => Over_read
  | S fuel =>
      match split_at "%"%char cur with
      | None => Prog (match cur with [] => prog | _ => add_instr prog i_print false (Some cur) end) diags
      | Some (text, p) =>
          let prog := match text with [] => prog | _ => add_instr prog i_print false (Some text) end in
          let spec (a : option bytes) (p : bytes) :=
            match p with
            | [] => Over_read
            | c :: r =>
                match compile_spec prog a c (firstn (length cur - length r) cur) with
                | (Some prog, d) => compile_loop fuel r prog (diags ++ d)
                | (None, d) => Failed (diags ++ d)
                end
            end in
          match p with
          | c :: r =>
              if beq c ">"%char && match r with s :: _ => beq s "s"%char | [] => false end then spec (Some (lit "1")) r
              else if beq c "{"%char
              then
                match split_at "}"%char r with
                | None => compile_loop fuel r (add_instr prog i_print false (Some (lit "%{"))) (diags ++ [true])
                | Some (a, q) => spec (Some a) q
                end
              else spec None p
          | [] => spec None p
          end
      end
  end.
Definition http_log_format_compile (fmt : bytes) : compiled := compile_loop (S (length fmt)) fmt [] [].

(** config.c 2857-2886, 2966-2971: every diagnostic overwrites ld.fatal.  None: the
    configuration is refused. *)
Definition accept (c : compiled) : option (list instr) :=
  match c with Prog p d => if last d false then None else Some p | _ => None end.

(** log.c 1026-1056, when the format is not empty and the status is not suppressed *)
Definition http_log (anonymise : bool) (prog : list instr) (q : request) : bytes := concat (map (print_instr anonymise q) prog).

(** ** The table of formats *)

(** pound.h 848 *)
Definition MAX_HTTP_LOG_FORMATS : nat := 32.
Definition table := list (bytes * list instr).
(** log.c 874-899, without and with allocation *)
Fixpoint find_log_prog (t : table) (name : bytes) : option nat :=
  match t with
  | [] => None
  | (n, _) :: t => if bytes_eqb n name then Some O else option_map S (find_log_prog t name)
  end.
Inductive define_result := Table_full | Already_defined | Defined (t : table) (i : nat) | Bad_format (t : table) | Crashed.
(** log.c 909-1024.  When the compilation fails the name stays in the table, with the
    instructions compiled before; here without them, as the configuration is refused. *)
Definition define (t : table) (name fmt : bytes) : define_result :=
  match find_log_prog t name with
  | Some _ => Already_defined
  | None =>
      if Nat.eqb (length t) MAX_HTTP_LOG_FORMATS then Table_full
      else
        match http_log_format_compile fmt with
        | Over_read => Crashed
        | c => match accept c with Some p => Defined (t ++ [(name, p)]) (length t) | None => Bad_format (t ++ [(name, [])]) end
        end
  end.
