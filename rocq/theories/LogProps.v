(** C42: the access log. *)
From Coq Require Import Ascii String List ZArith.
From Verif Require Import Bytes LogModel LogSpec LogProofs.
Import ListNotations.
Open Scope Z_scope.

(** A format written as the manual says is accepted without a diagnostic, and for every
    request it prints its ordinary characters unchanged and in place of each conversion
    what the manual says.  Missing: %D and %{sec}t, which print something else. *)
Theorem C42_print_partial : forall anonymise q fmt items vs, timed q -> parses fmt items -> Forall2 (means anonymise q) items vs ->
  exists p, http_log_format_compile fmt = Prog p [] /\ http_log anonymise p q = concat vs.
Proof. intros an q fmt items vs Hq Hp Hv. exact (compile_ok an q Hq (S (length fmt)) fmt items (le_n _) Hp vs Hv [] []). Qed.
Print Assumptions C42_print_partial.
Definition sample : request := mkRq None (Some (lit "192.0.2.77")) (lit "10.0.0.1") 512 true (Some (lit "GET")) (Some (lit "a=1")) (lit "GET /x?a=1 HTTP/1.1") (lit "HTTP/1.1 200 OK") 200
  (mkTs 100 999000000) (mkTs 103 1000000) None (Some (lit "/x")) (lit "7f00") (lit "10.0.0.2:80") BT_REGULAR (Some (lit "www")) (Some (lit "main"))
  (fun _ => Some (lit "pound.cfg:1.1-2.3")) (fun n => if bytes_eqb n (lit "Host") then Some (lit "example.org") else None) (fun f t => f).
Example C42_print_case : exists p, http_log_format_compile (lit "%h %{Host}I 100%% %>s %s %b %{f}T %{end:msec_frac}t") = Prog p [] /\
  http_log true p sample = lit "192.0.2.0 example.org 100% HTTP/1.1 200 OK 200 512 2.002 001" /\ timed sample.
Proof. eexists. split; [reflexivity|]. split; [reflexivity|]. repeat split; discriminate. Qed.

(** A format about which nothing is reported is made of characters and conversions, and
    every conversion is one of the manual. *)
Theorem C42_silent : forall fmt p d, http_log_format_compile fmt = Prog p d -> ~ In true d -> exists items, parses fmt items /\ Forall known_item items.
Proof. intros fmt p d H Hd. exact (compile_silent _ _ _ _ _ _ H Hd). Qed.
Print Assumptions C42_silent.
Example C42_silent_case : exists p, http_log_format_compile (lit "%Z") = Prog p [true] /\ http_log_format_compile (lit "%{Host") = Prog (add_instr (add_instr [] i_print false (Some (lit "%{"))) i_print false (Some (lit "Host"))) [true].
Proof. eexists. split; reflexivity. Qed.

(** Defining formats: the name is new, it then stands for the compiled format, and all
    names defined before keep their number and format. *)
Theorem C42_table : forall t name fmt t' i, define t name fmt = Defined t' i ->
  find_log_prog t name = None /\ find_log_prog t' name = Some i /\
  (exists p, nth_error t' i = Some (name, p) /\ accept (http_log_format_compile fmt) = Some p) /\
  (forall n j, find_log_prog t n = Some j -> find_log_prog t' n = Some j /\ nth_error t' j = nth_error t j) /\ (length t' <= MAX_HTTP_LOG_FORMATS \/ MAX_HTTP_LOG_FORMATS < length t)%nat.
Proof. exact define_ok. Qed.
Print Assumptions C42_table.
Example C42_table_case : exists t1 t2, define [] (lit "null") [] = Defined t1 0 /\ define t1 (lit "regular") (lit "%a %r - %>s") = Defined t2 1 /\ define t2 (lit "null") (lit "x") = Already_defined.
Proof. do 2 eexists. split; [reflexivity|]. split; reflexivity. Qed.

(** A wrong format is accepted when a warning comes after the error; and text before an
    unknown conversion is printed twice. *)
Theorem C42_accept_refuted : exists p, accept (http_log_format_compile (lit "x%Z%{a}m")) = Some p /\ http_log false p sample = lit "xx%ZGET" /\ ~ conversion "Z".
Proof. eexists. split; [reflexivity|]. split; [reflexivity|]. cbn. intuition discriminate. Qed.
Print Assumptions C42_accept_refuted.

(** A percent sign at the end of the format makes the program read past its end. *)
Theorem C42_end_refuted : forall text, ~ In "%"%char text -> http_log_format_compile (text ++ lit "%") = Over_read.
Proof. exact trailing_percent. Qed.
Print Assumptions C42_end_refuted.

(** %D gives milliseconds, not microseconds; %{sec}t gives no seconds. *)
Theorem C42_D_refuted : exists p, http_log_format_compile (lit "%D") = Prog p [] /\ http_log false p sample = lit "2002" /\
  (nanos (q_end sample) - nanos (q_start sample)) / 1000 = 2002000.
Proof. eexists. split; [reflexivity|]. split; reflexivity. Qed.
Print Assumptions C42_D_refuted.
Theorem C42_sec_refuted : forall q, exists p, http_log_format_compile (lit "%{sec}t") = Prog p [] /\ http_log false p q = q_strftime q (lit "sec") (tv_sec (q_start q)).
Proof. intros q. eexists. split; [reflexivity|]. unfold http_log. cbn. apply app_nil_r. Qed.
Print Assumptions C42_sec_refuted.
