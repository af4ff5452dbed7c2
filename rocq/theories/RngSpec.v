(** Terms of the statements about TLS options, renegotiation and waits. *)
From Coq Require Import String List ZArith Bool.
From Verif Require Import Bytes ClenSpec NumSpec RngModel.
Import ListNotations.
Local Open Scope list_scope.
Local Open Scope Z_scope.

(** What the directives of a listener say in the end: the mode of renegotiation, and the order of ciphers, if anything *)
Inductive says : list directive -> Z -> option bool -> Prop :=
| says_nothing : says [] 0 None
| says_mode : forall ds m h w n, says ds m h -> numeral decimal 10 w n -> n <= 2 -> says (ds ++ [AllowClientRenegotiation w]) n h
| says_yes : forall ds m h w, says ds m h -> In w [lit "1"; lit "yes"; lit "true"; lit "on"] -> says (ds ++ [HonorCipherOrder w]) m (Some true)
| says_no : forall ds m h w, says ds m h -> In w [lit "0"; lit "no"; lit "false"; lit "off"] -> says (ds ++ [HonorCipherOrder w]) m (Some false).

(** Bits of the options of the library: legacy renegotiation, order of ciphers of the server, no compression, legacy servers, no empty fragments *)
Definition legacy_bit : Z := 18.
Definition order_bit : Z := 22.
Definition compression_bit : Z := 17.
Definition named_bits : list Z := [legacy_bit; order_bit; compression_bit; 2; 11].

(** OpenSSL says that a handshake is complete; that it is at work as a server *)
Definition done (w : Z) : Prop := Z.testbit w 5 = true.
Definition serving (w : Z) : Prop := Z.testbit w 0 = true \/ Z.testbit w 13 = true.
(** It reads the first message of a client, in the numbering of releases before 1.1.0 *)
Definition hello (state : Z) : Prop := state = 0x2110 \/ state = 0x2210.

(** A second handshake begins after one was completed *)
Definition again (es : list event) : Prop :=
  exists es1 w s es2 w' s' es3, es = es1 ++ Info w s :: es2 ++ Info w' s' :: es3 /\ done w /\ serving w' /\ hello s'.

(** Results of what happens, and the connection afterwards *)
Definition results (es : list event) (k : conn) : list (event * option (result * Z)) := snd (run es k).
Definition after (es : list event) (k : conn) : conn := fst (run es k).

Definition transfer (c : cmd) : Prop := c <> BIO_CB_OTHER.

(** Longest timeout, in seconds, whose milliseconds are an int *)
Definition longest : Z := 2147483.

(** poll keeps to its timeout and is not interrupted by a signal *)
Definition timely (to : Z) (ps : list (polled * Z)) : Prop := Forall (fun p => fst p <> Failed true /\ 0 <= snd p <= to * 1000) ps.

(** A backend, if one is connected to, has a timeout of up to that many seconds *)
Definition bounded (e : event) : Prop := match e with Backend t => 0 < t <= longest | _ => True end.
Definition no_backend (e : event) : Prop := match e with Backend _ => False | _ => True end.
