(** Model of what poundctl does with the answer of the daemon: src/poundctl.c 649-833, 880-1045.
    Definitions only.

    The connection is the list of the bytes that come before its end; errors of reading end
    the program (xgets, 655-662) and are not modelled.  Reading goes through a buffering BIO (569-573), so
    BIO_read returns fewer bytes than asked only at the end.  Locale C. *)
From Coq Require Import Ascii String List ZArith Bool.
From Verif Require Import Bytes StreamModel NumModel JsonModel.
From Verif Require ReplyModel CtlModel.
Import ListNotations.
Local Open Scope string_scope.
Local Open Scope list_scope.
Local Open Scope Z_scope.

(** src/pound.h 195 *)
Definition MAXBUF : Z := 4096.

(** BIO_gets of the buffering BIO of OpenSSL: at most [n] bytes, up to and including a line feed *)
Fixpoint gets (n : Z) (s : bytes) : bytes * bytes :=
  match s with
  | [] => ([], [])
  | c :: s' =>
      if n <=? 0 then ([], s)
      else if beq c LF then ([c], s')
      else let (l, r) := gets (n - 1) s' in (c :: l, r)
  end.

(** buf[n-1] == c, then buf[--n] = 0 *)
Definition drop_last (c : byte) (l : bytes) : bytes :=
  match rev l with x :: m => if beq x c then rev m else l | [] => l end.

(** src/poundctl.c 649-672: the n bytes of the buffer, and what remains *)
Definition xgets (s : bytes) : bytes * bytes :=
  let (l, r) := gets (MAXBUF - 1) s in (drop_last CR (drop_last LF l), r).

(** How reading ends: with a value; with a message and exit status 1; by using memory that was never
    set, or by an overflow; [Stuck]: out of fuel (never, see C68_ends). *)
Inductive complaint :=
| Unexpected_response (line : bytes) | Status (text : bytes) | Bad_header (line : bytes) | Unexpected_type (type : bytes)
| Protocol_error | No_memory | Bad_json (e : jerr).
Inductive got (A : Type) := Got (a : A) | Fails (c : complaint) | Unset | Stuck.
Arguments Got {A}. Arguments Fails {A}. Arguments Unset {A}. Arguments Stuck {A}.

(** strncmp (s, p, strlen (p)) == 0: the rest *)
Fixpoint after_prefix (p s : bytes) : option bytes :=
  match p, s with
  | [], s => Some s
  | a :: p, b :: s => if beq a b then after_prefix p s else None
  | _ :: _, [] => None
  end.
Definition head_space (s : bytes) : bool := match s with c :: _ => is_space c | [] => false end.

(** At most [n] bytes *)
Fixpoint take (n : Z) (s : bytes) : bytes :=
  match s with
  | [] => []
  | c :: s' => if n <=? 0 then [] else c :: take (n - 1) s'
  end.

(** src/poundctl.c 674-712, for the C string in the buffer: code, status text, version.  The text is cut
    to the size of the buffer. *)
Definition response_line (buf : bytes) : got (Z * bytes * Z) :=
  let err := Fails (Unexpected_response buf) in
  match after_prefix (lit "HTTP/1.") buf with
  | None | Some [] => err
  | Some (v :: p) =>
      let ver := code v - 48 in
      if negb ((ver =? 0) || (ver =? 1)) then err
      else if negb (head_space p) then err
      else
        let p := snd (span is_space p) in
        let '(_, c, e) := strtol p 10 in
        if (c <=? 0) || negb (Nat.eqb (length p) (length e + 3)) then err
        else Got (c, take (MAXBUF - 1) (snd (span (fun x => beq x SP || beq x LF) e)), ver)
  end.

(** src/poundctl.c 728-736, HDREQ and HDRVAL: the value, if the line is a field of that name *)
Fixpoint header_value (name line : bytes) : option bytes :=
  match name, line with
  | [], c :: v => if beq c ":"%char then Some v else None
  | a :: name, b :: line => if beq (to_lower a) (to_lower b) then header_value name line else None
  | _, [] => None
  end.
Definition blanks (c : byte) : bool := beq c SP || beq c TAB.

(** content_length and conn_close *)
Record state := mkState { clen : Z; close : bool }.

(** src/poundctl.c 755-783: one header line *)
Definition header_line (st : state) (buf : bytes) : got state :=
  match header_value (lit "Content-Length") buf with
  | Some v =>
      let '(errno, n, p) := strtol v 10 in
      if errno || negb (at_end p) then Fails (Bad_header buf) else Got (mkState n (close st))
  | None =>
      match header_value (lit "Content-Type") buf with
      | Some v =>
          let p := snd (span blanks v) in
          if bytes_eqb p (lit "application/json") then Got st else Fails (Unexpected_type p)
      | None =>
          match header_value (lit "Connection") buf with
          | Some v => Got (mkState (clen st) (ci_eqb (snd (span blanks v)) (lit "close")))
          | None => Got st
          end
      end
  end.

(** src/poundctl.c 748-784; the string functions see the buffer up to a NUL *)
Fixpoint header_lines (fuel : nat) (st : state) (s : bytes) : got (state * bytes) :=
  match fuel with
  | O => Stuck
  | S fuel =>
      match xgets s with
      | ([], r) => Got (st, r)
      | (l, r) =>
          match header_line st (cstr_of l) with
          | Got st' => header_lines fuel st' r
          | Fails c => Fails c
          | Unset => Unset
          | Stuck => Stuck
          end
      end
  end.

(** src/poundctl.c 786-811: the text given to the JSON reader.  A negative length makes xmalloc fail.  A
    length over INT_MAX does not survive the conversion to int.  Of a body that ends early, the
    rest of the buffer is not set. *)
Definition content (st : state) (ver : Z) (s : bytes) : got bytes :=
  if negb (clen st =? -1) then
    if clen st <? 0 then Fails No_memory
    else if INT_MAX <? clen st then Unset
    else if Z.of_nat (length s) <? clen st then Unset
    else Got (cstr_of (firstn (Z.to_nat (clen st)) s))
  else if close st || (ver =? 0) then Got (cstr_of s)
  else Fails Protocol_error.

Section Answers.
  Variable N : numbers.

  (** src/poundctl.c 714-818 *)
  Definition read_response (s : bytes) : got (jv N) :=
    let (l, r) := xgets s in
    match response_line (cstr_of l) with
    | Got (c, text, ver) =>
        if negb (c =? 200) then Fails (Status text)
        else
          match header_lines (S (length r)) (mkState (-1) false) r with
          | Got (st, body) =>
              match content st ver body with
              | Got text =>
                  match json_parse_string N text with
                  | POk _ v _ => Got v
                  | PErr _ e => Fails (Bad_json e)
                  | PCrash _ => Unset
                  | PFuel _ => Stuck
                  end
              | Fails c => Fails c | Unset => Unset | Stuck => Stuck
              end
          | Fails c => Fails c | Unset => Unset | Stuck => Stuck
          end
    | Fails c => Fails c | Unset => Unset | Stuck => Stuck
    end.

  (** How the program ends: exit status, and what it wrote to the standard output. *)
  Inductive ended := Exit (status : Z) (out : bytes) | Undefined | Endless.

  (** src/poundctl.c 820-833 *)
  Definition print_json (indent : nat) (v : jv N) : bytes := json_value_format N (mkFormat indent 0) v 0.

  (** src/poundctl.c 905-940, after the request: disable, off, enable and on.  [json]: the indentation, if option
      -j was given. *)
  Definition command_on_off (json : option nat) (s : bytes) : ended :=
    match read_response s with
    | Got v =>
        let out := match json with Some i => print_json i v | None => [] end in
        match v with
        | JBool _ true => Exit 0 out
        | _ => Exit 1 out
        end
    | Fails _ => Exit 1 []
    | Unset => Undefined
    | Stuck => Endless
    end.

  (** src/poundctl.c 880-903, 985-1005, 1031-1052, after the request: list, delete and add.  [template]: what running
      the template does (TevModel), if it is defined *)
  Definition command_show (json : option nat) (template : option (jv N -> ended)) (s : bytes) : ended :=
    match read_response s with
    | Got v =>
        match json with
        | Some i => Exit 0 (print_json i v)
        | None => match template with Some run => run v | None => Exit 1 [] end
        end
    | Fails _ => Exit 1 []
    | Unset => Undefined
    | Stuck => Endless
    end.

  (** src/http.c 4894-4931 with 231-237, svc.c 2397-2442: what the daemon sends for a request to the control
      backend.  [v] is the value it made, if it succeeded; [i] the indentation asked for. *)
  Definition sent (pages : Z -> option bytes) (i : nat) (v : jv N) (c : CtlModel.code_t) : bytes :=
    let err e := concat (ReplyModel.err_reply 1 e (pages e)) in
    match c with
    | CtlModel.OK => concat (ReplyModel.json_reply (json_value_format N (mkFormat i 0) v 0))
    | CtlModel.BAD_REQUEST => err 1
    | CtlModel.NOT_FOUND => err 4
    end.
End Answers.
