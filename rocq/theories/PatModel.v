(** Literal string matchers of src/genpat.c. *)
From Coq Require Import Ascii String List ZArith Bool Arith.
From Verif Require Import Bytes.
Import ListNotations.
Local Open Scope nat_scope.

(** genpat.c:245-278, the three simple matchers; true stands for the result 0.
    [ci] is the flag GENPAT_ICASE.  Subject and pattern are C strings. *)
Definition str_same (ci : bool) (a b : bytes) : bool :=
  if ci then ci_eqb a b else bytes_eqb a b.

(** genpat.c:244-254, exact_exec *)
Definition exact_exec (ci : bool) (pat subj : bytes) : bool :=
  if negb (Nat.eqb (length subj) (length pat)) then false else str_same ci subj pat.

(** genpat.c:256-266, prefix_exec: strncmp (subj, pattern, len) *)
Definition prefix_exec (ci : bool) (pat subj : bytes) : bool :=
  if Nat.ltb (length subj) (length pat) then false
  else str_same ci (firstn (length pat) subj) (firstn (length pat) pat).

(** genpat.c:268-278, suffix_exec *)
Definition suffix_exec (ci : bool) (pat subj : bytes) : bool :=
  if Nat.ltb (length subj) (length pat) then false
  else str_same ci (firstn (length pat) (skipn (length subj - length pat) subj)) (firstn (length pat) pat).

(** ** Boyer-Moore search, genpat.c:313-520 *)

(** genpat.c:318-351, casemap *)
Definition casemap (c : byte) : byte :=
  if is_lower c then ascii_of_N (N_of_ascii c - 32) else c.

(** genpat.c:362, UC *)
Definition UC (ci : bool) (c : byte) : byte := if ci then casemap c else c.

(** UCHAR_MAX, as a character: the tables have 255 elements, so that it is not
    an index of bad_char_delta *)
Definition byte_max : byte := ascii_of_N 255.

(** s[i] *)
Definition at_ (s : bytes) (i : nat) : byte := nth i s NUL.

(** genpat.c:374-383, fill_bad_char_delta.  [pat] is the mapped pattern.  The
    first loop sets the element of every value of UC to patlen - 1; other
    elements are never read. *)
Fixpoint bad_char_fill (ci : bool) (patlen : nat) (pat : bytes) (i : nat) (t : byte -> nat) : byte -> nat :=
  match pat with
  | [] => t
  | c :: pat =>
      bad_char_fill ci patlen pat (S i) (fun x => if beq x (UC ci c) then patlen - 1 - i else t x)
  end.
Definition bad_char_delta (ci : bool) (pat : bytes) : byte -> nat :=
  bad_char_fill ci (length pat) pat 0 (fun _ => length pat - 1).

(** genpat.c:391-395, is_prefix *)
Definition is_prefix (str : bytes) (pos : nat) : bool :=
  negb (bytes_eqb (firstn (length str - pos) str) (skipn pos str)).

(** genpat.c:401-411, longest_suffix_length; [k] is pos - i *)
Fixpoint longest_suffix_loop (str : bytes) (pos k i : nat) : nat :=
  match k with
  | O => i
  | S k =>
      if beq (at_ str (pos - i)) (at_ str (length str - 1 - i))
      then longest_suffix_loop str pos k (S i)
      else i
  end.
Definition longest_suffix_length (str : bytes) (pos : nat) : nat := longest_suffix_loop str pos pos 0.

(** genpat.c:436-441: the first loop, from i = k - 1 down to 0 *)
Fixpoint good_pass1 (str : bytes) (k j : nat) (tail : list nat) : list nat :=
  match k with
  | O => tail
  | S i =>
      let j := if is_prefix str (i + 1) then i + 1 else j in
      good_pass1 str i j ((j + length str - 1 - i) :: tail)
  end.

Fixpoint set_nth (n : nat) (v : nat) (l : list nat) : list nat :=
  match n, l with
  | _, [] => []
  | O, _ :: l => v :: l
  | S n, x :: l => x :: set_nth n v l
  end.

(** genpat.c:443-448: the body of the second loop *)
Definition good_pass2 (str : bytes) (g : list nat) (i : nat) : list nat :=
  let patlen := length str in
  let suflen := longest_suffix_length str i in
  if negb (beq (at_ str (i - suflen)) (at_ str (patlen - 1 - suflen)))
  then set_nth (patlen - 1 - suflen) (patlen - 1 - i + suflen) g
  else g.

(** genpat.c:428-449, fill_good_pfx_delta, for a non-empty pattern *)
Definition good_pfx_delta (str : bytes) : list nat :=
  fold_left (good_pass2 str) (seq 0 (length str - 1)) (good_pass1 str (length str) 1 []).

(** What strstr_compile leaves in the structure *)
Record strstr_pattern := mkStrstr
  { sp_pattern : bytes; sp_ci : bool; sp_bad : byte -> nat; sp_good : list nat }.

(** genpat.c:468-484, strstr_compile.  None: undefined behaviour.  For an empty
    pattern the bound patlen - 1 of genpat.c:443 wraps, and elements before the
    beginning of the pattern are read; a character 255 in the pattern is an
    out-of-bounds index in genpat.c:382. *)
Definition strstr_compile (pattern : bytes) (ci : bool) : option strstr_pattern :=
  let pat := map (UC ci) pattern in
  match pat with
  | [] => None
  | _ =>
      if existsb (beq byte_max) pat then None
      else Some (mkStrstr pat ci (bad_char_delta ci pat) (good_pfx_delta pat))
  end.

(** Result of a search; BM_OOB: the search reads bad_char_delta[255], which is
    outside of the array. *)
Inductive bm_result := BM_MATCH | BM_NOMATCH | BM_OOB | BM_FUEL.

(** genpat.c:504-505: compares backwards; [k] is j + 1.  None: j < 0; otherwise the
    values of i and j at the mismatch. *)
Fixpoint bm_compare (sp : strstr_pattern) (subj : bytes) (i k : nat) : option (nat * nat) :=
  match k with
  | O => None
  | S j =>
      if beq (UC (sp_ci sp) (at_ subj i)) (at_ (sp_pattern sp) j)
      then bm_compare sp subj (i - 1) j
      else Some (i, j)
  end.

(** genpat.c:500-511, the loop.  BM_FUEL is shown not to be reached. *)
Fixpoint bm_loop (fuel : nat) (sp : strstr_pattern) (subj : bytes) (i : nat) : bm_result :=
  if Nat.ltb i (length subj) then
    match fuel with
    | O => BM_FUEL
    | S fuel =>
        match bm_compare sp subj i (length (sp_pattern sp)) with
        | None => BM_MATCH
        | Some (i, j) =>
            let c := UC (sp_ci sp) (at_ subj i) in
            if beq c byte_max then BM_OOB
            else bm_loop fuel sp subj (i + Nat.max (sp_bad sp c) (nth j (sp_good sp) 0))
        end
    end
  else BM_NOMATCH.

(** genpat.c:488-513, strstr_exec *)
Definition strstr_exec (sp : strstr_pattern) (subj : bytes) : bm_result :=
  match sp_pattern sp with
  | [] => BM_MATCH
  | _ => bm_loop (S (length subj)) sp subj (length (sp_pattern sp) - 1)
  end.

(** Compilation followed by matching *)
Definition contain_match (ci : bool) (pattern subj : bytes) : option bm_result :=
  match strstr_compile pattern ci with
  | None => None
  | Some sp => Some (strstr_exec sp subj)
  end.
