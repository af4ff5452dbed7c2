(** Model of LogFormat, LogLevel and LogFacility, and of which format the requests of a listener are logged with: src/config.c 2835-2972, 3154-3155, 3279,
    4549-4550, 5136, 5150, src/log.c 895-907, 1026-1041, src/cfgparser.c 1376-1424.  Definitions only.
    A configuration file is reduced to these directives, in order; a Listen section to the tokens of its LogLevel directives.  Positions and messages are
    not modelled. *)
From Coq Require Import Ascii String List ZArith Bool.
From Verif Require Import Bytes CfgModel LogModel.
From Verif Require NumModel LexSpec DirModel.
Import ListNotations.
Local Open Scope string_scope.
Local Open Scope list_scope.
Local Open Scope Z_scope.

(** canned_log_format, src/config.c 2841-2854 *)
Definition QT : string := String (ascii_of_nat 34) "".
Definition canned_log_format : list (bytes * bytes) :=
  [ (lit "null", []);
    (lit "regular", lit "%a %r - %>s");
    (lit "extended", lit "%a %r - %>s (%{Host}i/%{service}N -> %{backend}N) %{f}T sec");
    (lit "vhost_combined", lit ("%{Host}I %a - %u %t " ++ QT ++ "%r" ++ QT ++ " %s %b " ++ QT ++ "%{Referer}i" ++ QT ++ " " ++ QT ++ "%{User-Agent}i" ++ QT)%string);
    (lit "combined", lit ("%a - %u %t " ++ QT ++ "%r" ++ QT ++ " %s %b " ++ QT ++ "%{Referer}i" ++ QT ++ " " ++ QT ++ "%{User-Agent}i" ++ QT)%string);
    (lit "detailed", lit ("%{Host}I %a - %u %t " ++ QT ++ "%r" ++ QT ++ " %s %b " ++ QT ++ "%{Referer}i" ++ QT ++ " " ++ QT ++ "%{User-Agent}i" ++ QT ++
       " (%{service}N -> %{backend}N) %{f}T sec")%string) ].

(** What the parser has so far: the formats, POUND_DEFAULTS.log_level, and log_level of the listeners *)
Record conf := mkC { formats : table; dfl_level : Z; levels : list Z }.
Inductive outcome := Refused | Crash | Read (c : conf).

(** parse_log_format, src/config.c 2945-2972 *)
Definition parse_log_format (c : conf) (name fmt : bytes) : outcome :=
  match define (formats c) name fmt with
  | Defined t _ => Read (mkC t (dfl_level c) (levels c))
  | LogModel.Crashed => Crash
  | _ => Refused
  end.

(** compile_canned_formats, src/config.c 2885-2902, and the default of log_level, 5136 *)
Fixpoint compile_canned (c : conf) (l : list (bytes * bytes)) : outcome :=
  match l with
  | [] => Read c
  | (n, f) :: l => match parse_log_format c n f with Read c => compile_canned c l | o => o end
  end.
Definition start : outcome := compile_canned (mkC [] 1 []) canned_log_format.

(** http_log_format_find and http_log_format_check, src/log.c 895-907 *)
Definition http_log_format_find (t : table) (name : bytes) : Z := match find_log_prog t name with Some i => Z.of_nat i | None => -1 end.
Definition http_log_format_check (t : table) (n : Z) : Z := if (n <? 0) || (Z.of_nat (length t) <=? n) then -1 else 0.

(** parse_log_level, src/config.c 2904-2943 *)
Definition parse_log_level (t : table) (k : tok) : option Z :=
  match k with
  | LexSpec.Quoted w => let n := http_log_format_find t w in if n =? -1 then None else Some n
  | LexSpec.Number w =>
      let '(errno, n, p) := NumModel.strtol w 10 in
      if errno || negb (NumModel.at_end p) || (n <? 0) || (NumModel.INT_MAX <? n) then None
      else if http_log_format_check t n =? 0 then Some n else None
  | _ => None
  end.

(** The LogLevel directives of a section; [l]: as listener_alloc, src/config.c 3279, has set it *)
Fixpoint section (t : table) (l : Z) (ks : list tok) : option Z :=
  match ks with [] => Some l | k :: ks => match parse_log_level t k with Some l => section t l ks | None => None end end.

Inductive directive := LogFormat (name fmt : bytes) | LogLevel (k : tok) | Listen (ks : list tok).
Definition parse (c : conf) (d : directive) : outcome :=
  match d with
  | LogFormat n f => parse_log_format c n f
  | LogLevel k => match parse_log_level (formats c) k with Some n => Read (mkC (formats c) n (levels c)) | None => Refused end
  | Listen ks => match section (formats c) (dfl_level c) ks with Some n => Read (mkC (formats c) (dfl_level c) (levels c ++ [n])) | None => Refused end
  end.
Fixpoint parse_all (c : conf) (ds : list directive) : outcome :=
  match ds with [] => Read c | d :: ds => match parse c d with Read c => parse_all c ds | o => o end end.
Definition config (ds : list directive) : outcome := match start with Read c => parse_all c ds | o => o end.

(** http_log, src/log.c 1026-1041: what is logged of a request of listener [i], if its status is not suppressed (C71) *)
Definition logged (anonymise : bool) (c : conf) (i : nat) (q : request) : option bytes :=
  match nth_error (levels c) i with
  | Some l =>
      if http_log_format_check (formats c) l =? 0
      then match nth_error (formats c) (Z.to_nat l) with
           | Some (_, []) => None
           | Some (_, p) => Some (http_log anonymise p q)
           | None => None
           end
      else None
  | None => None
  end.

(** facility_table, src/cfgparser.c 1376-1402, with the values of <syslog.h> of GNU/Linux *)
Definition facility_table : list (bytes * Z) :=
  [ (lit "auth", 32); (lit "authpriv", 80); (lit "cron", 72); (lit "daemon", 24); (lit "ftp", 88); (lit "kern", 0); (lit "lpr", 48); (lit "mail", 16);
    (lit "news", 56); (lit "syslog", 40); (lit "user", 8); (lit "uucp", 64); (lit "local0", 128); (lit "local1", 136); (lit "local2", 144);
    (lit "local3", 152); (lit "local4", 160); (lit "local5", 168); (lit "local6", 176); (lit "local7", 184) ].
(** cfg_assign_log_facility, src/cfgparser.c 1404-1424 *)
Definition cfg_assign_log_facility (k : tok) : option Z :=
  match DirModel.unquoted k with
  | None => None
  | Some w => if bytes_eqb w (lit "-") then Some (-1) else DirModel.kw_to_tok facility_table true w
  end.
