(** Model of the Host condition: src/config.c 1138-1154, 1267-1314, 1363-1480 and
    the POSIX patterns of src/genpat.c 90-188.  Definitions only.

    The C library's regcomp and regexec are modelled for the part of the extended
    regular expressions that a Host condition with a literal text can give rise
    to: ordinary and escaped characters, '.', the class [[:space:]], '*', the
    anchors and '|'.  The match is the leftmost longest one, in the C locale. *)
From Coq Require Import Ascii String List ZArith Bool.
From Verif Require Import Bytes XpdModel CondModel.
Import ListNotations.
Open Scope Z_scope.

(** ** Regular expressions *)

Inductive re_atom := RChar (c : byte) | RAny | RSpace | RBol | REol.
(** An atom and whether it is followed by '*'. *)
Definition re_piece := (re_atom * bool)%type.

Definition space_class : bytes := lit "[[:space:]]"%string.

(** Translation of one alternative and the rest.  None: not an expression of this
    kind. *)
Definition add_piece (a : re_atom) (starred : bool) (r : option (list (list re_piece)))
  : option (list (list re_piece)) :=
  match r with
  | Some (alt :: alts) => Some (((a, starred) :: alt) :: alts)
  | _ => None
  end.

Fixpoint ere_parse (fuel : nat) (s : bytes) : option (list (list re_piece)) :=
  match fuel with
  | O => None
  | S fuel' =>
      let atom (a : re_atom) (rest : bytes) :=
        match rest with
        | "*"%char :: rest' =>
            match a with
            | RBol | REol => None
            | _ => add_piece a true (ere_parse fuel' rest')
            end
        | _ => add_piece a false (ere_parse fuel' rest)
        end in
      match s with
      | [] => Some [[]]
      | c :: t =>
          if beq c "|"%char then option_map (cons []) (ere_parse fuel' t)
          else if beq c "\"%char then
            match t with [] => None | x :: t' => atom (RChar x) t' end
          else if beq c "."%char then atom RAny t
          else if beq c "^"%char then atom RBol t
          else if beq c "$"%char then atom REol t
          else if beq c "["%char then
            if bytes_eqb (firstn (length space_class) s) space_class
            then atom RSpace (skipn (length space_class) s) else None
          else if existsb (beq c) (lit "()*+?{"%string) then None
          else atom (RChar c) t
      end
  end.

Section Exec.
  (** REG_ICASE *)
  Variable ci : bool.

  Definition atom_ok (a : re_atom) (c : byte) : bool :=
    match a with
    | RChar x => if ci then beq (to_lower x) (to_lower c) else beq x c
    | RAny => true
    | RSpace => is_space c
    | RBol | REol => false
    end.

  Definition omax (a b : option nat) : option nat :=
    match a, b with
    | Some x, Some y => Some (Nat.max x y)
    | Some x, None => Some x
    | None, y => y
    end.

  (** Length of the longest match of a sequence at the start of [s]; [bol] tells
      whether [s] is the whole subject. *)
  Fixpoint longest (ps : list re_piece) (bol : bool) (s : bytes) : option nat :=
    match ps with
    | [] => Some 0%nat
    | (RBol, _) :: ps' => if bol then longest ps' bol s else None
    | (REol, _) :: ps' => match s with [] => longest ps' bol s | _ => None end
    | (a, false) :: ps' =>
        match s with
        | c :: s' => if atom_ok a c then option_map S (longest ps' false s') else None
        | [] => None
        end
    | (a, true) :: ps' =>
        (fix star (bol : bool) (s : bytes) : option nat :=
           omax (longest ps' bol s)
             (match s with
              | c :: s' => if atom_ok a c then option_map S (star false s') else None
              | [] => None
              end)) bol s
    end.

  Definition longest_alt (alts : list (list re_piece)) (bol : bool) (s : bytes) : option nat :=
    fold_right (fun ps r => omax (longest ps bol s) r) None alts.

  (** The leftmost longest match: offset and length. *)
  Fixpoint search (alts : list (list re_piece)) (bol : bool) (off : nat) (s : bytes) : option (nat * nat) :=
    match longest_alt alts bol s with
    | Some n => Some (off, n)
    | None => match s with [] => None | _ :: s' => search alts false (S off) s' end
    end.
End Exec.

(** regcomp and regexec as in src/genpat.c 103-171: one group, the match itself.
    None: the expression is not modelled. *)
Definition posix_pattern (ci : bool) (text : bytes) : option pattern :=
  match ere_parse (S (length text)) text with
  | None => None
  | Some alts => Some (fun subj =>
      match search ci alts true 0 subj with
      | Some (so, n) => Some [(Z.of_nat so, Z.of_nat (so + n))]
      | None => None
      end)
  end.

(** ** The condition *)

Inductive gp_type := GENPAT_POSIX | GENPAT_EXACT | GENPAT_PREFIX | GENPAT_SUFFIX | GENPAT_CONTAIN.

(** src/config.c 1138-1154 *)
Definition regex_special (c : byte) : bool := existsb (beq c) (lit "\[]{}().*+?"%string).
Fixpoint escape_regex (p : bytes) : bytes :=
  match p with
  | [] => []
  | c :: p' => if regex_special c then "\"%char :: c :: escape_regex p' else c :: escape_regex p'
  end.

(** src/config.c 1267-1314, without Perl-compatible expressions: the expression and
    the new *gp_type. *)
Definition host_prefix_regex (t : gp_type) (expr : bytes) : bytes * gp_type :=
  let start := lit "^Host:"%string ++ space_class ++ lit "*"%string in
  match t with
  | GENPAT_POSIX =>
      (start ++ match expr with "^"%char :: e => e | e => e end, GENPAT_POSIX)
  | GENPAT_EXACT | GENPAT_PREFIX => (start ++ escape_regex expr, GENPAT_POSIX)
  | GENPAT_SUFFIX => (start ++ lit ".*"%string ++ escape_regex expr ++ lit "$"%string, GENPAT_POSIX)
  | GENPAT_CONTAIN => (start ++ lit ".*"%string ++ escape_regex expr, GENPAT_POSIX)
  end.

(** src/config.c 1454-1467: the condition for a text given in the configuration.
    None: the expression is outside the modelled part. *)
Definition host_cond (t : gp_type) (ci : bool) (text : bytes) : option cond :=
  option_map COND_HOST (posix_pattern ci (fst (host_prefix_regex t text))).

(** src/config.c 1415-1421: trim a line of a file; None if it is skipped. *)
Definition blank2 (c : byte) : bool := beq c SP || beq c TAB.
Definition blank3 (c : byte) : bool := beq c SP || beq c TAB || beq c LF.
Definition trim_line (line : bytes) : option bytes :=
  let p := snd (span blank2 line) in
  match rev (snd (span blank3 (rev p))) with
  | [] => None
  | "#"%char :: _ => None
  | p => Some p
  end.

(** src/config.c 1409-1450: the conditions for the lines of a file, as fgets reads
    them (no longer than MAXBUF). *)
Fixpoint host_file_conds (t : gp_type) (ci : bool) (lines : list bytes) : option (list cond) :=
  match lines with
  | [] => Some []
  | l :: lines' =>
      match trim_line l with
      | None => host_file_conds t ci lines'
      | Some p =>
          let '(expr, t) := host_prefix_regex t p in
          match posix_pattern ci expr, host_file_conds t ci lines' with
          | Some re, Some cs => Some (COND_HOST re :: cs)
          | _, _ => None
          end
      end
  end.

(** src/config.c 1396-1397 *)
Definition host_file_cond (t : gp_type) (ci : bool) (lines : list bytes) : option cond :=
  option_map (COND_BOOL BOOL_OR) (host_file_conds t ci lines).
