(** Model of src/poundctl.c, last part: where poundctl finds its templates, and the whole of the
    commands that show something (1141-1325, 1421-1455).
    Definitions only.  Messages that do not end the program are left out, as are descriptors. *)
From Coq Require Import Ascii String List ZArith Bool.
From Verif Require Import Bytes StreamModel TplModel.
From Verif Require JsonModel TevModel AnsModel.
Import ListNotations.
Local Open Scope string_scope.
Local Open Scope list_scope.
Local Open Scope nat_scope.

(** ** Files *)

(** What open finds under a name: no file (ENOENT), another error, a directory, a regular file and its contents,
    something else *)
Inductive node := Missing | Denied | Directory | Regular (text : bytes) | Special.

(** The file and its name, or a message and exit (1), or NULL *)
Inductive found := Found (name : bytes) (n : node) | Cannot_open | Not_found.

(** strncmp (name, p, strlen (p)) == 0 *)
Definition has_prefix (p name : bytes) : bool := bytes_eqb (firstn (length p) name) p.

Section Files.
  (** The file system, and the home directory (1175-1183) *)
  Variable fs : bytes -> node.
  Variable home : bytes.

  (** src/poundctl.c 1170-1190: the name of a file that an element of the path stands for *)
  Definition expand (el : bytes) : bytes :=
    match el with
    | c :: r =>
        if beq c "~"
        then home ++ (match r with d :: _ => if beq d "/" then [] else lit "/" | [] => lit "/" end) ++ r
        else el
    | [] => []
    end.

  (** src/poundctl.c 1191-1232: what an element of the path gives *)
  Definition try_element (name el : bytes) : option (bytes * node) :=
    let file_name := expand el in
    match fs file_name with
    | Missing | Denied | Special => None
    | Directory =>
        let inner := file_name ++ lit "/" ++ name in
        match fs inner with Missing | Denied => None | n => Some (inner, n) end
    | Regular t => Some (file_name, Regular t)
    end.

  Definition not_colon (c : byte) : bool := negb (beq c ":").

  (** src/poundctl.c 1161-1242 *)
  Fixpoint search (fuel : nat) (name p : bytes) : found :=
    match fuel, p with
    | S fuel, _ :: _ =>
        let (el, r) := span not_colon p in
        let next := match r with _ :: r' => search fuel name r' | [] => Not_found end in
        match el with
        | [] => next
        | _ :: _ => match try_element name el with Some (f, n) => Found f n | None => next end
        end
    | _, _ => Not_found
    end.

  (** src/poundctl.c 1140-1255.  fopen opens directories and devices too. *)
  Definition find_template_file (tmpl_path name : bytes) : found :=
    if has_prefix (lit "/") name || has_prefix (lit "./") name || has_prefix (lit "../") name
    then match fs name with Missing | Denied => Cannot_open | n => Found name n end
    else search (length tmpl_path) name tmpl_path.

  (** ** Reading it *)

  (** src/poundctl.c 1257-1263 *)
  Fixpoint line_start (text : bytes) (n : nat) : nat :=
    match n with
    | O => O
    | S m => if beq (nth m text NUL) LF then n else line_start text m
    end.
  (** src/poundctl.c 1265-1278; the loop ends before n is used up *)
  Fixpoint line_no (fuel : nat) (text : bytes) (n : nat) : nat :=
    match fuel with
    | O => 1
    | S fuel => match line_start text n with O => 1 | S m => S (line_no fuel text m) end
    end.

  (** The templates; or exit (1): the file cannot be opened or read, or has an error, at that line and column; or what
      template_parse does else *)
  Inductive read := Templates (l : list (bytes * list act)) | Unreadable | Faulty (e : err) (line column : nat) | Crash | Hang.

  (** src/poundctl.c 1280-1325.  Nothing can be read from a directory, and the size of a device is 0; then, and if
      the file is empty, fread returns 0. *)
  Definition read_template (fuel : nat) (tmpl_path tmpl_file : bytes) : read :=
    match find_template_file tmpl_path tmpl_file with
    | Not_found => Templates []
    | Cannot_open => Unreadable
    | Found _ (Regular (c :: t)) =>
        let text := cstr_of (c :: t) in
        match template_parse fuel [] text with
        | Ret (POk _ l) => Templates l
        | Ret (PErr e off) => Faulty e (line_no (S off) text off) (off - line_start text off)
        | Wrong _ => Crash
        | Loop | Fuel => Hang
        end
    | Found _ _ => Unreadable
    end.

  (** ** The program *)

  Section Program.
    Variable N : JsonModel.numbers.
    Variable A : TevModel.arith N.
    Variable printf : list (JsonModel.jv N) -> TevModel.ev bytes.

    (** How template_run ends.  A failed assertion is not an exit. *)
    Definition run_ends (r : TevModel.ran) : AnsModel.ended :=
      match r with
      | TevModel.Ran out _ => AnsModel.Exit 0 out
      | TevModel.Exited _ TevModel.Assertion => AnsModel.Undefined
      | TevModel.Exited out _ => AnsModel.Exit 1 out
      | TevModel.RUndef => AnsModel.Undefined
      | TevModel.RDeep => AnsModel.Endless
      end.

    (** src/poundctl.c 1443-1454: templates are read before anything else is done; then the command runs, here
        list, delete or add; [s] are the bytes it receives *)
    Definition after_reading (r : read) (k : list (bytes * list act) -> AnsModel.ended) : AnsModel.ended :=
      match r with
      | Templates l => k l
      | Unreadable | Faulty _ _ _ => AnsModel.Exit 1 []
      | Crash => AnsModel.Undefined
      | Hang => AnsModel.Endless
      end.
    Definition show (fuel : nat) (tmpl_path tmpl_file tmpl_name : bytes) (json : option nat) (s : bytes) : AnsModel.ended :=
      after_reading (read_template fuel tmpl_path tmpl_file)
        (fun l => AnsModel.command_show N json
           (option_map (fun acts v => run_ends (TevModel.template_run N A printf l fuel v acts)) (template_lookup tmpl_name l)) s).
    (** disable, off, enable, on *)
    Definition switch (fuel : nat) (tmpl_path tmpl_file : bytes) (json : option nat) (s : bytes) : AnsModel.ended :=
      after_reading (read_template fuel tmpl_path tmpl_file) (fun _ => AnsModel.command_on_off N json s).
  End Program.
End Files.
