(** Model of basic authentication: src/bauth.c, and src/http.c 2822-2929.
    Definitions only. *)
From Coq Require Import Ascii String List ZArith Bool.
From Verif Require Import Bytes ReqModel.
Import ListNotations.
Local Open Scope nat_scope.
Local Open Scope string_scope.
Local Open Scope list_scope.

Definition MAXBUF : nat := 4096.

(** The view of an array of bytes as a C string. *)
Definition cut (s : bytes) : bytes := fst (span (fun c => negb (beq c NUL)) s).

(** ** The libraries: MD5, SHA1, base64 decoding, crypt(3) (None: NULL) *)
Record lib := mkLib {
  md5 : bytes -> bytes;
  sha1 : bytes -> bytes;
  b64 : bytes -> bytes;
  crypt : bytes -> bytes -> option bytes
}.

(** ** Password schemes *)

Definition itoa64 : bytes := lit "./0123456789ABCDEFGHIJKLMNOPQRSTUVWXYZabcdefghijklmnopqrstuvwxyz"%string.

(** src/bauth.c 48-60 *)
Fixpoint to64 (v : Z) (n : nat) : bytes :=
  match n with
  | O => []
  | S n => nth (Z.to_nat (v mod 64)) itoa64 NUL :: to64 (v / 64) n
  end.

Definition APR1_ID_STR : bytes := lit "$apr1$"%string.

(** strncmp (s, pfx, strlen (pfx)) == 0: what follows the prefix *)
Fixpoint after_prefix (pfx s : bytes) : option bytes :=
  match pfx, s with
  | [], s => Some s
  | a :: pfx, b :: s => if beq a b then after_prefix pfx s else None
  | _ :: _, [] => None
  end.

(** src/bauth.c 91-94: the length of the salt.  None: the salt is shorter than 8
    bytes and has no dollar sign, memchr and everything after it would read past
    the end of the string. *)
Definition salt_len (salt : bytes) : option nat :=
  let n := length (fst (span (fun c => negb (beq c "$"%char)) (firstn 8 salt))) in
  if Nat.ltb n (length (firstn 8 salt)) then Some n
  else if Nat.leb 8 (length salt) then Some 8 else None.

(** src/bauth.c 121-123: the loop over i = plen, plen - 16, ... *)
Fixpoint apr_fill (fuel : nat) (final : bytes) (i : nat) : bytes :=
  match fuel with
  | O => []
  | S fuel =>
      match i with
      | O => []
      | _ => firstn (Nat.min i 16) final ++ apr_fill fuel final (i - 16)
      end
  end.

(** src/bauth.c 127-128: the loop over the bits of plen *)
Fixpoint apr_bits (fuel : nat) (pw : bytes) (i : nat) : bytes :=
  match fuel with
  | O => []
  | S fuel =>
      match i with
      | O => []
      | _ => (if Nat.odd i then NUL else hd NUL pw) :: apr_bits fuel pw (Nat.div2 i)
      end
  end.

(** src/bauth.c 142-166: [n] rounds starting with number i *)
Fixpoint apr_rounds (l : lib) (n : nat) (i : Z) (pw salt final : bytes) : bytes :=
  match n with
  | O => final
  | S n =>
      let odd := Z.odd i in
      let t := (if odd then pw else final)
               ++ (if (i mod 3 =? 0)%Z then [] else salt)
               ++ (if (i mod 7 =? 0)%Z then [] else pw)
               ++ (if odd then final else pw) in
      apr_rounds l n (i + 1) pw salt (md5 l t)
  end.

(** src/bauth.c 173-178 *)
Definition apr_text (final : bytes) : bytes :=
  let f i := code (nth i final NUL) in
  let w a b c := (f a * 65536 + f b * 256 + f c)%Z in
  to64 (w 0 6 12) 4 ++ to64 (w 1 7 13) 4 ++ to64 (w 2 8 14) 4
  ++ to64 (w 3 9 15) 4 ++ to64 (w 4 10 5) 4 ++ to64 (f 11) 2.

(** src/bauth.c 98-179: the hashed password, from the password and the salt *)
Definition apr_passwd (l : lib) (pw s : bytes) : bytes :=
  let plen := length pw in
  let final1 := md5 l (pw ++ s ++ pw) in
  let ctx := pw ++ APR1_ID_STR ++ s ++ apr_fill plen final1 plen ++ apr_bits plen pw plen in
  APR1_ID_STR ++ s ++ lit "$"%string ++ apr_text (apr_rounds l 1000 0 pw s (md5 l ctx)).

(** src/bauth.c 78-190; the digest size test (114-119, 135-140) cannot fail for
    MD5.  None: out of bounds (salt_len). *)
Definition apr_md5_encode (l : lib) (pw salt : bytes) (nbytes : nat) : option bytes :=
  let salt := match after_prefix APR1_ID_STR salt with Some s => s | None => salt end in
  match salt_len salt with
  | None => None
  | Some slen => Some (firstn (nbytes - 1) (apr_passwd l pw (firstn slen salt)))
  end.

(** The outcome of a comparison: equal, different, or not defined (reads outside
    of a string or of bytes that were not set). *)
Inductive check := Equal | Differ | Unset.

Definition strcmp (a b : bytes) : check := if bytes_eqb a b then Equal else Differ.

(** src/bauth.c 192-198 *)
Definition auth_apr (l : lib) (pass hash : bytes) : check :=
  match apr_md5_encode l pass hash 120 with
  | Some cp => strcmp cp hash
  | None => Unset
  end.

(** src/bauth.c 201-251.  [b64] is the decoding of what was written to the BIO.
    BIO_read takes at most 20 bytes, BIO_eof tells whether there were more.
    Unset: fewer than 20 bytes, all equal to those of the digest, so that memcmp
    goes on to bytes of hashbuf that were never set. *)
Definition SHA_DIGEST_LENGTH : nat := 20.
Definition auth_sha1 (l : lib) (pass hash : bytes) : check :=
  let dec := b64 l (skipn 5 hash ++ [LF]) in
  match dec with
  | [] => Differ
  | _ =>
      if Nat.ltb SHA_DIGEST_LENGTH (length dec) then Differ
      else
        let res := sha1 l pass in
        if bytes_eqb (firstn (length dec) res) dec
        then if Nat.eqb (length dec) SHA_DIGEST_LENGTH then Equal else Unset
        else Differ
  end.

(** src/bauth.c 32-44 *)
Definition auth_crypt (l : lib) (pass hash : bytes) : check :=
  match crypt l pass hash with
  | Some cp => strcmp cp hash
  | None => Differ
  end.

(** src/bauth.c 26-30 *)
Definition auth_plain (l : lib) (pass hash : bytes) : check := strcmp pass hash.

(** src/bauth.c 260-269 *)
Definition auth_match_tab : list (bytes * (lib -> bytes -> bytes -> check)) :=
  [ (lit "$apr1$", auth_apr); (lit "{SHA}", auth_sha1); ([], auth_crypt); ([], auth_plain) ]%string.

(** src/bauth.c 271-289 *)
Fixpoint auth_match_loop (tab : list (bytes * (lib -> bytes -> bytes -> check))) (l : lib) (pass hash : bytes) : check :=
  match tab with
  | [] => Differ
  | (pfx, f) :: tab =>
      if Nat.ltb (length pfx) (length hash) && match after_prefix pfx hash with Some _ => true | None => false end
      then match f l pass hash with
           | Equal => Equal
           | Unset => Unset
           | Differ => if Nat.ltb 0 (length pfx) then Differ else auth_match_loop tab l pass hash
           end
      else auth_match_loop tab l pass hash
  end.
Definition auth_match (l : lib) (pass hash : bytes) : check := auth_match_loop auth_match_tab l pass hash.

(** ** The password file *)

(** fgets (buf, n + 1, fp): at most n bytes, up to and including a newline *)
Fixpoint fgets (n : nat) (s : bytes) : bytes * bytes :=
  match n, s with
  | O, _ => ([], s)
  | _, [] => ([], [])
  | S n, c :: s => if beq c LF then ([c], s) else let (a, b) := fgets n s in (c :: a, b)
  end.

Definition drop_newline (p : bytes) : bytes :=
  match rev p with c :: r => if beq c LF then rev r else p | [] => p end.

(** src/bauth.c 360-382: user and password of a buffer *)
Definition pass_line (buf : bytes) : option (bytes * bytes) :=
  let p := snd (span (fun c => beq c SP || beq c TAB) (cut buf)) in
  match p with
  | [] => None
  | c :: _ =>
      if beq c "#"%char then None
      else match span (fun c => negb (beq c ":"%char)) (drop_newline p) with
           | (user, _ :: pass) => Some (user, pass)
           | (_, []) => None
           end
  end.

(** src/bauth.c 353-385; allocation does not fail *)
Fixpoint scan_file (fuel : nat) (s : bytes) : list (bytes * bytes) :=
  match fuel with
  | O => []
  | S fuel =>
      match s with
      | [] => []
      | _ =>
          let (buf, s) := fgets (MAXBUF - 1) s in
          match pass_line buf with
          | Some up => up :: scan_file fuel s
          | None => scan_file fuel s
          end
      end
  end.
Definition pass_entries (s : bytes) : list (bytes * bytes) := scan_file (length s) s.

(** struct pass_file: modification time and entries *)
Record pass_file := mkPwf { pw_mtim : Z * Z; pw_head : list (bytes * bytes) }.
Definition pwf_init : pass_file := mkPwf (0, 0)%Z [].

(** What the file system answers: no such file, another error of open, an error of
    fstat, or a file with modification time and contents. *)
Inductive fs_view := FsNone | FsError | FsStatError | FsFile (mtim : Z * Z) (text : bytes).

(** src/pound.h 282-294 *)
Definition timespec_cmp (a b : Z * Z) : Z :=
  (if fst a <? fst b then -1 else if fst a >? fst b then 1
   else if snd a <? snd b then -1 else if snd a >? snd b then 1 else 0)%Z.

(** src/bauth.c 302-389 *)
Definition pass_file_fill (pwf : pass_file) (fs : fs_view) : pass_file :=
  match fs with
  | FsNone => mkPwf (0, 0)%Z []
  | FsError | FsStatError => pwf
  | FsFile mtim text =>
      if (timespec_cmp (pw_mtim pwf) mtim =? 0)%Z then pwf
      else mkPwf mtim (pass_entries text)
  end.

(** src/bauth.c 397-403 *)
Fixpoint find_user (l : lib) (head : list (bytes * bytes)) (user pass : bytes) : check :=
  match head with
  | [] => Differ
  | (u, h) :: head => if bytes_eqb user u then auth_match l pass h else find_user l head user pass
  end.

(** ** The credentials *)

(** The result of get_basic_auth *)
Inductive cred := Creds (user pass : bytes) | NotBasic | BadCreds.

(** src/http.c 2844-2845: remove spaces from the end *)
Definition rtrim (s : bytes) : bytes := rev (snd (span is_space (rev s))).

(** src/http.c 2822-2906.  In the quoted form [hdrval[len]] is the character after
    the trimmed text. *)
Definition get_basic_auth (l : lib) (hdrval : bytes) : cred :=
  if negb (ci_eqb (firstn 5 hdrval) (lit "Basic"%string)) then NotBasic
  else
    let hdrval := snd (span is_space (skipn 5 hdrval)) in
    let decode (text : bytes) :=
      let buf := firstn MAXBUF (b64 l (text ++ [LF])) in
      match buf with
      | [] => BadCreds
      | _ =>
          match span (fun c => negb (beq c ":"%char)) buf with
          | (user, _ :: pass) => Creds (cut user) (cut pass)
          | (_, []) => BadCreds
          end
      end in
    match hdrval with
    | """"%char :: hdrval =>
        let t := rtrim hdrval in
        match t, nth_error hdrval (length t) with
        | [], _ => NotBasic
        | _, Some """"%char => decode (firstn (length t - 1) hdrval)
        | _, _ => NotBasic
        end
    | _ => decode hdrval
    end.

Definition is_authorization (c : hcode) : bool := match c with HEADER_AUTHORIZATION => true | _ => false end.

(** src/http.c 2914-2929 *)
Definition http_request_get_basic_auth (l : lib) (headers : list header) : cred :=
  match http_header_list_locate headers is_authorization with
  | Some h => get_basic_auth l (h_val h)
  | None => NotBasic
  end.

(** src/bauth.c 406-421 with 391-404: the return value (0 success, 1 failure, -1
    error; None undefined) and the new state of the file *)
Definition basic_auth (l : lib) (pwf : pass_file) (fs : fs_view) (headers : list header) : option Z * pass_file :=
  match http_request_get_basic_auth l headers with
  | NotBasic => (Some 1%Z, pwf)
  | BadCreds => (Some (-1)%Z, pwf)
  | Creds user pass =>
      let pwf := pass_file_fill pwf fs in
      (match find_user l (pw_head pwf) user pass with
       | Equal => Some 0%Z
       | Differ => Some 1%Z
       | Unset => None
       end, pwf)
  end.
