(** C01, C02 and part of C46: length fields are read exactly or refused. *)
From Coq Require Import Ascii String List ZArith.
From Verif Require Import Bytes ClenModel ClenSpec ClenProofs.
Import ListNotations.
Open Scope Z_scope.

(** C01: the accepted Content-Length values and their meaning. *)
Theorem C01_content_length_exact : forall (s : bytes) (n : Z),
  content_length_value s n <->
  (get_content_length s CL_HEADER = n /\ n <> NO_CONTENT_LENGTH).
Proof. exact header_length_iff. Qed.
Print Assumptions C01_content_length_exact.

Theorem C01_content_length_refused : forall s : bytes,
  get_content_length s CL_HEADER = NO_CONTENT_LENGTH <->
  (forall n, ~ content_length_value s n).
Proof. exact header_length_refused. Qed.
Print Assumptions C01_content_length_refused.

Theorem C01_content_length_bounds : forall (s : bytes) (n : Z),
  get_content_length s CL_HEADER = n -> n <> NO_CONTENT_LENGTH -> 0 <= n <= max_length.
Proof. exact header_length_bounds. Qed.
Print Assumptions C01_content_length_bounds.

(** The largest value with blanks and leading zeros is accepted, the next one,
    a sign, an empty value and a list are refused. *)
Example C01_ex_max :
  get_content_length (lit "  009223372036854775807 ") CL_HEADER = max_length.
Proof. vm_compute. reflexivity. Qed.
Example C01_ex_over : get_content_length (lit "9223372036854775808") CL_HEADER = -1.
Proof. vm_compute. reflexivity. Qed.
Example C01_ex_wrap : get_content_length (lit "18446744073709551617") CL_HEADER = -1.
Proof. vm_compute. reflexivity. Qed.
Example C01_ex_bad :
  map (fun s => get_content_length s CL_HEADER) [lit ""; lit " "; lit "+5"; lit "-5"; lit "5,5"; lit "0x10"]
  = [-1; -1; -1; -1; -1; -1].
Proof. vm_compute. reflexivity. Qed.

(** C02: the accepted chunk-size lines and their meaning. *)
Theorem C02_chunk_size_exact : forall (s : bytes) (n : Z),
  chunk_size_line s n <->
  (get_content_length s CL_CHUNK = n /\ n <> NO_CONTENT_LENGTH).
Proof. exact chunk_length_iff. Qed.
Print Assumptions C02_chunk_size_exact.

Theorem C02_chunk_size_refused : forall s : bytes,
  get_content_length s CL_CHUNK = NO_CONTENT_LENGTH <->
  (forall n, ~ chunk_size_line s n).
Proof. exact chunk_length_refused. Qed.
Print Assumptions C02_chunk_size_refused.

Theorem C02_chunk_size_bounds : forall (s : bytes) (n : Z),
  get_content_length s CL_CHUNK = n -> n <> NO_CONTENT_LENGTH -> 0 <= n <= max_length.
Proof. exact chunk_length_bounds. Qed.
Print Assumptions C02_chunk_size_bounds.

Example C02_ex_ext : get_content_length (lit "1aF  ;name=value") CL_CHUNK = 431.
Proof. vm_compute. reflexivity. Qed.
Example C02_ex_bad :
  map (fun s => get_content_length s CL_CHUNK)
      [lit ""; lit " 5"; lit "5 x"; lit "0x5"; lit "8000000000000000"; lit ";a"]
  = [-1; -1; -1; -1; -1; -1].
Proof. vm_compute. reflexivity. Qed.

(** C46 (lengths in the configuration, e.g. MaxRequest). *)
Theorem C46_config_length_exact : forall (s : bytes) (n : Z),
  assign_content_length s = Some n <-> config_length s n.
Proof. exact config_length_iff. Qed.
Print Assumptions C46_config_length_exact.

Example C46_ex_length : assign_content_length (lit "1048576") = Some 1048576.
Proof. vm_compute. reflexivity. Qed.
