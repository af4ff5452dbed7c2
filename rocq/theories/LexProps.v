(** C41: the scanner of the configuration file. *)
From Coq Require Import Ascii String List ZArith.
From Verif Require Import Bytes LexModel LexSpec LexProofs.
Import ListNotations.
Open Scope Z_scope.

(** Any file without NUL bytes is read to the end, or to a string that is not terminated,
    and the tokens read are those the text consists of, each with the line it is on. *)
Theorem C41_tokens : forall text, cstring text -> exists ts, reads (input_open text) ts /\ lexes 1 text (map view ts).
Proof. intros text H. exact (reads_all (length text) text (mkLoc 1 0 0) _ (le_n _) H). Qed.
Print Assumptions C41_tokens.
Example C41_tokens_case : reads (input_open (lit "Port 8080 # x" ++ [newline] ++ lit "Err500 ""a\""b"""))
  [mkTok T_IDENT (lit "Port") 1 1 1 4; mkTok T_NUMBER (lit "8080") 1 6 1 9; mkTok T_NL [] 1 13 2 0;
   mkTok T_IDENT (lit "Err500") 2 1 2 6; mkTok T_STRING (lit "a""b") 2 8 2 13].
Proof.
  repeat (eapply reads_next; [vm_compute; reflexivity|discriminate|discriminate|]). eapply reads_eof; vm_compute; reflexivity.
Qed.

(** A text consists of one list of tokens only: nothing is ambiguous. *)
Theorem C41_unique : forall n text ts ts', lexes n text ts -> lexes n text ts' -> ts = ts'.
Proof. intros n text ts ts' H H'. exact (lexes_fun n text ts H ts' H'). Qed.
Print Assumptions C41_unique.

(** Every value without NUL and newline can be given: quoted, with a backslash before each
    quote and backslash, it is read back. *)
Theorem C41_quote : forall v, cstring v -> ~ In newline v ->
  exists t, reads (input_open (quote :: escape v ++ [quote])) [t] /\ type t = T_STRING /\ str t = v.
Proof. exact quote_value. Qed.
Print Assumptions C41_quote.
Example C41_quote_case : quote :: escape (lit "a\""b c") ++ [quote] = lit """a\\\""b c""".
Proof. reflexivity. Qed.

(** Up to three tokens put back are read again, the last one put back first, exactly as
    they were; then reading goes on where it was.  A fourth one is refused (the assertion). *)
Theorem C41_putback : forall i ts i', ts <> [] -> put_all i ts = Some i' ->
  (length ts + length (putback i) <= 3)%nat /\
  let (ts', i'') := get_n (length ts) i' in ts' = ts /\ rest i'' = rest i /\ loc i'' = loc i /\ putback i'' = putback i.
Proof. exact put_get. Qed.
Print Assumptions C41_putback.
Theorem C41_putback_room : forall i ts, (length ts + length (putback i) <= 3)%nat -> exists i', put_all i ts = Some i'.
Proof. exact put_room. Qed.
Print Assumptions C41_putback_room.
Example C41_putback_case : exists i1 i2 i3 i4 a b c, input_gettkn (input_open (lit "Service ""x"" Port")) = (a, i1) /\ input_gettkn i1 = (b, i2) /\
  input_gettkn i2 = (c, i3) /\ put_all i3 [a; b; c] = Some i4 /\ map str [a; b; c] = [lit "Service"; lit "x"; lit "Port"].
Proof. do 7 eexists. repeat (split; [vm_compute; reflexivity|]). vm_compute. reflexivity. Qed.

(** However files are opened and read, no file is open twice: inclusion cannot be circular. *)
Theorem C41_no_cycle : forall ops, NoDup (map fst (fold_left stack_step ops [])).
Proof. intros ops. apply stack_nodup. constructor. Qed.
Print Assumptions C41_no_cycle.
Example C41_no_cycle_case : map fst (fold_left stack_step [Push 1 (lit "Include x"); Get; Get; Push 2 (lit "Include y"); Get; Push 1 (lit "a"); Push 3 (lit "b")] []) = [3; 2; 1].
Proof. reflexivity. Qed.

(** The tokens of an included file come before what is left of the including one; an
    error ends it. *)
Theorem C41_include : forall id i ts st ts', reads i ts -> stack_reads st ts' ->
  stack_reads ((id, i) :: st) (if existsb (fun t => match type t with T_ERROR => true | _ => false end) ts then ts else ts ++ ts').
Proof. intros id i ts st ts' H H'. exact (stack_concat i ts H id st ts' H'). Qed.
Print Assumptions C41_include.
Example C41_include_case : exists ts, stack_reads [(2, input_open (lit "a b")); (1, input_open (lit "c"))] ts /\ map str ts = [lit "a"; lit "b"; lit "c"].
Proof.
  eexists. split.
  - repeat (eapply sr_next; [vm_compute; reflexivity|discriminate|]). eapply sr_eof. vm_compute. reflexivity.
  - reflexivity.
Qed.

(** Text between a directive and End: the lines up to the first line that is End, in any
    case and with spacing around it, unchanged.  Not so if the first line is empty. *)
Theorem C41_text_partial : forall ls e rest, Forall (fun l => ~ In newline l /\ ~ end_line l) ls -> (forall l, hd_error ls = Some l -> l <> []) ->
  ~ In newline e -> end_line e -> cfg_read_to_end (unlines ls ++ e ++ newline :: rest) [] = R_TEXT (unlines ls) rest.
Proof. exact read_text. Qed.
Print Assumptions C41_text_partial.
Theorem C41_text_missing : forall ls l, Forall (fun l => ~ In newline l /\ ~ end_line l) ls -> (forall l, hd_error ls = Some l -> l <> []) ->
  ~ In newline l -> cfg_read_to_end (unlines ls ++ l) [] = R_EOF.
Proof. exact read_text_eof. Qed.
Print Assumptions C41_text_missing.
Example C41_text_case : cfg_read_to_end (unlines [lit "nameserver 1"; []; lit " endx"; lit "  END "; lit "Port"]) [] =
  R_TEXT (unlines [lit "nameserver 1"; []; lit " endx"]) (unlines [lit "Port"]).
Proof. reflexivity. Qed.
(** With an empty first line the byte before the buffer is read, whatever follows. *)
Theorem C41_text_refuted : forall rest, cfg_read_to_end (newline :: rest) [] = R_UNDER.
Proof. reflexivity. Qed.
Print Assumptions C41_text_refuted.

(** The columns in messages are wrong after a tabulator following a word. *)
Theorem C41_column_refuted : exists a b, reads (input_open (lit "a" ++ [TAB] ++ lit "b")) [a; b] /\ beg_col a = 1 /\ beg_col b = 17.
Proof.
  do 2 eexists. split; [|split].
  - repeat (eapply reads_next; [vm_compute; reflexivity|discriminate|discriminate|]). eapply reads_eof; vm_compute; reflexivity.
  - reflexivity.
  - reflexivity.
Qed.
Print Assumptions C41_column_refuted.
