(** C32, C33: JSON objects and texts. *)
From Coq Require Import Ascii String List ZArith Bool Sorted Lia.
From Verif Require Import Bytes JsonModel JsonSpec JsonProofs JsonTextProofs JsonGramProofs JsonMeanProofs.
Import ListNotations.
Local Open Scope nat_scope.
Local Open Scope string_scope.
Local Open Scope list_scope.

(** ** C32 *)

(** Setting keys in turn always gives an object; looking up a key in it gives the
    value last set for it and says "not found" if there is none. *)
Theorem C32_map : forall (V : Type) (ops : list (bytes * V)), exists o, set_all ops = Some o /\
  forall k, exists r, json_object_get o k = Some r /\ (forall v, r = Some v <-> last_set ops k v) /\ (r = None <-> ~ In k (map fst ops)).
Proof.
  intros V ops. destruct (set_all_spec ops) as (o & E & I & H). exists o. split; [auto|]. intros k.
  destruct (get_spec o k I) as (r & G & R). exists r. split; [auto|].
  assert (R' : forall v, r = Some v <-> last_set ops k v) by (intros v; rewrite R; apply H). split; [auto|].
  split.
  - intros -> K. destruct (last_exists V ops k K) as [v L]. apply R' in L. discriminate.
  - intros K. destruct r as [v|]; auto. exfalso. apply K. destruct (proj1 (R' v) eq_refl) as (pre & post & -> & _).
    rewrite map_app. apply in_or_app. right. left. auto.
Qed.
Print Assumptions C32_map.

(** The pairs are those last set, with distinct keys in order. *)
Theorem C32_sorted : forall (V : Type) (ops : list (bytes * V)), exists o, set_all ops = Some o /\
  StronglySorted precedes (map fst (pairs o)) /\ NoDup (map fst (pairs o)) /\
  pair_count o = length (pairs o) /\ forall k v, In (k, v) (pairs o) <-> last_set ops k v.
Proof.
  intros V ops. destruct (set_all_spec ops) as (o & E & [C S] & H). exists o.
  refine (conj E (conj _ (conj _ (conj C H)))).
  - apply lt_sorted. exact S.
  - apply sorted_nodup. exact S.
Qed.
Print Assumptions C32_sorted.

(** Setting a key leaves the values of the others as they are. *)
Theorem C32_other : forall (V : Type) (ops : list (bytes * V)) k k' v o o', k <> k' ->
  set_all ops = Some o -> set_all (ops ++ [(k, v)]) = Some o' -> json_object_get o' k' = json_object_get o k'.
Proof.
  intros V ops k k' v o o' D E E'. destruct (set_all_spec ops) as (o1 & E1 & I & _). destruct (set_all_spec (ops ++ [(k, v)])) as (o2 & E2 & I' & _).
  rewrite E in E1. injection E1 as <-. rewrite E' in E2. injection E2 as <-.
  unfold set_all in E'. rewrite fold_left_app in E'. fold (set_all ops) in E'. rewrite E in E'. cbn [fold_left fst snd] in E'.
  destruct (set_spec o k v I) as (o2 & X & _ & H). rewrite X in E'. injection E' as ->.
  destruct (get_spec o k' I) as (r & -> & R). destruct (get_spec o' k' I') as (r' & -> & R'). f_equal.
  destruct r as [w|].
  - apply R'. apply H. right. split; [auto|]. apply R. auto.
  - destruct r' as [w|]; auto. assert (Y : In (k', w) (pairs o')) by (apply R'; auto). apply H in Y as [[Y _]|[_ Y]]; [congruence|]. apply R in Y. discriminate.
Qed.
Print Assumptions C32_other.

(** After pairs were removed by json_object_filter a lookup dereferences a NULL
    pointer. *)
Theorem C32_filter_refuted : exists o : object nat, set_all [(lit "a", 1); (lit "b", 2)] = Some o /\
  json_object_get (json_object_filter o (fun _ _ => true)) (lit "a") = None /\
  json_object_set (json_object_filter o (fun _ _ => true)) (lit "a") 3 = None.
Proof. eexists. split; [vm_compute; reflexivity|]. split; vm_compute; reflexivity. Qed.
Print Assumptions C32_filter_refuted.

Example C32_ex : option_map pairs (set_all [(lit "peer", 1); (lit "addr", 2); (lit "peer", 3); (lit "port", 4); (lit "pee", 5)])
  = Some [(lit "addr", 2); (lit "pee", 5); (lit "peer", 3); (lit "port", 4)].
Proof. vm_compute. reflexivity. Qed.

(** ** C33 *)

(** What is written for a value is read back as the same value, whatever follows.
    Partial: not for strings in which a backspace or form feed is followed by three
    hexadecimal digits (C33_string_refuted); how numbers are converted is assumed. *)
Theorem C33_roundtrip_partial : forall N fmt v level rest, good N (f_precision fmt) v -> ends_value rest ->
  json_parse_string N (json_value_format N fmt v level ++ rest) = POk N (as_read N v) rest.
Proof. exact roundtrip. Qed.
Print Assumptions C33_roundtrip_partial.

(** What is written for a value is a JSON text.  Partial: not for strings with
    other control characters (C33_control_refuted). *)
Theorem C33_wellformed_partial : forall N fmt v level, writable N (f_precision fmt) v -> json_text (json_value_format N fmt v level).
Proof. exact value_text. Qed.
Print Assumptions C33_wellformed_partial.

(** The text written for a string means that string by the rules of JSON.  Partial as before. *)
Theorem C33_written_partial : forall N fmt s level, printable s ->
  exists t, json_value_format N fmt (JString N s) level = """"%char :: t ++ [""""%char] /\ denotes t s.
Proof. intros N fmt s level P. exists (escape_text s). split; [reflexivity|]. apply written_means. exact P. Qed.
Print Assumptions C33_written_partial.

(** The text of a string is read as the string it means by the rules of JSON.  Partial: without
    escapes of the form \uXXXX (C33_grammar_refuted), and not for the strings of C33_string_refuted. *)
Theorem C33_read_partial : forall N t s rest, denotes t s -> plain s ->
  json_parse_string N (""""%char :: t ++ """"%char :: rest) = POk N (JString N s) rest.
Proof. exact string_means. Qed.
Print Assumptions C33_read_partial.

(** The four hexadecimal digits that are understood after a backslash are converted to the UTF-8
    text of the code point they denote. *)
Theorem C33_code_point : forall a b c d va vb vc vd rest,
  digit_value a va -> digit_value b vb -> digit_value c vc -> digit_value d vd ->
  match rest with [] => True | x :: _ => ~ is_hex x end ->
  exists t, utf8_wctomb (wide_char (a :: b :: c :: d :: rest)) = Some t /\ utf8 (((va * 16 + vb) * 16 + vc) * 16 + vd)%Z t.
Proof.
  intros a b c d va vb vc vd rest A B C D R.
  destruct (four_digits a b c d va vb vc vd rest A B C D) as [-> L]; [|apply utf8_ok; exact L].
  destruct rest; [exact R|apply not_true_is_false; exact R].
Qed.
Print Assumptions C33_code_point.

(** Reading ends for every text. *)
Theorem C33_total : forall N input, stops_within N -> json_parse_string N input <> PFuel N.
Proof. intros N input S. apply total. exact S. Qed.
Print Assumptions C33_total.

(** Reading stays within bounds.  Partial: not for texts with four hexadecimal digits
    after a backslash (C33_string_refuted). *)
Theorem C33_bounds_partial : forall N input, stops_within N -> no_hex_escape input -> json_parse_string N input <> PCrash N.
Proof. intros N input S H. apply bounds; auto. Qed.
Print Assumptions C33_bounds_partial.

(** *** Examples: numbers in decimal *)
Fixpoint dec (fuel : nat) (n : Z) : bytes :=
  match fuel with
  | O => []
  | S fuel => (if n <? 10 then [] else dec fuel (n / 10))%Z ++ [ascii_of_N (Z.to_N (48 + n mod 10))]
  end.
Definition show (n : Z) : bytes := if (n <? 0)%Z then "-"%char :: dec 20 (- n) else dec 20 n.
Definition value_of (t : bytes) : Z := fold_left (fun a c => a * 10 + (code c - 48))%Z t 0%Z.
Definition decimal : numbers := mkNumbers Z show (fun _ => show)
  (fun t => match t with
            | "-"%char :: r => let (d, rest) := span is_digit r in (Some (- value_of d)%Z, rest)
            | _ => let (d, rest) := span is_digit t in (Some (value_of d), rest)
            end).

Lemma span_suffix : forall f (t : bytes), t = fst (span f t) ++ snd (span f t).
Proof. intros f t. induction t as [|c t IH]; cbn [span]; auto. destruct (f c); auto. destruct (span f t). cbn in *. congruence. Qed.
Example C33_ex_stops : stops_within decimal.
Proof.
  intros s d rest H. cbn [strtod decimal] in H.
  assert (G : forall t v r, (let (d, rest) := span is_digit t in (Some (v d : Z), rest)) = (Some d, r) -> exists p, t = p ++ r).
  { intros t v r K. pose proof (span_suffix is_digit t) as E. destruct (span is_digit t) as [a b]. cbn [fst snd] in E. injection K as _ <-. eauto. }
  assert (G1 := G (tl s) (fun d => - value_of d)%Z rest). assert (G2 := G s value_of rest).
  destruct s as [|c s]; [auto|]. cbn [tl] in G1.
  destruct (Ascii.eqb_spec c "-"%char) as [->|D].
  - destruct (G1 H) as [p ->]. exists ("-"%char :: p). auto.
  - apply G2. rewrite <- H. destruct c as [[] [] [] [] [] [] [] []]; try reflexivity. exfalso. apply D. reflexivity.
Qed.

(** A value like those of the control interface. *)
Definition sample : jv decimal := JObject decimal
  [ (lit "backends", JArray decimal [JNull decimal; JObject decimal [(lit "weight", JInteger decimal 5%Z)]; JArray decimal []]);
    (lit "name", JString decimal (lit "a ""b"" \ c" ++ [LF; "008"%char] ++ lit "ab x"));
    (lit "up", JBool decimal true); (lit "x", JInteger decimal (-120)%Z) ].
Example C33_ex_good : good decimal (-1) sample.
Proof.
  assert (P : forall s, existsb (fun c => beq c NUL || beq c "008"%char || beq c "012"%char) s = false -> plain s).
  { intros s H. split.
    - intros K. assert (X : existsb (fun c => beq c NUL || beq c "008"%char || beq c "012"%char) s = true) by (apply existsb_exists; exists NUL; auto). congruence.
    - intros pre c x y z post -> K. assert (X : existsb (fun c => beq c NUL || beq c "008"%char || beq c "012"%char) (pre ++ c :: x :: y :: z :: post) = true).
      { apply existsb_exists. exists c. split; [apply in_or_app; right; left; auto|]. destruct K as [->| ->]; reflexivity. } congruence. }
  assert (R : forall n t, show n = t -> (exists c r, t = c :: r /\ starts_number c = true) ->
    (forall rest, ends_value rest -> strtod decimal (t ++ rest) = (Some n, rest)) -> good decimal (-1) (JInteger decimal n)).
  { intros n t E A B. apply gd_integer. cbn [print_int decimal]. rewrite E. split; auto. }
  unfold sample. apply gd_object.
  - apply Forall_cons; [|apply Forall_cons; [|apply Forall_cons; [|apply Forall_cons; [|constructor]]]]; (split; [apply P; vm_compute; reflexivity|]); cbn [snd].
    + apply gd_array. apply Forall_cons; [apply gd_null|apply Forall_cons; [|apply Forall_cons; [|constructor]]].
      * apply gd_object; [|constructor; [constructor|constructor]]. constructor; [|constructor]. split; [apply P; vm_compute; reflexivity|]. cbn [snd].
        apply (R 5%Z (lit "5")); [reflexivity|eexists; eexists; split; reflexivity|]. intros [|c rest] H; [reflexivity|]. cbn [ends_value In] in H.
        repeat (destruct H as [<-|H]; [reflexivity|]). destruct H.
      * apply gd_array. constructor.
    + apply gd_string. split.
      * cbn. intros K. repeat (destruct K as [K|K]; [discriminate|]). destruct K.
      * intros pre c x y z post E K (X & Y & Z). unfold is_hex in *.
        assert (G : forall s, (forall p, existsb (fun i => match skipn i s with c :: x :: y :: z :: _ => (beq c "008"%char || beq c "012"%char) && is_xdigit x && is_xdigit y && is_xdigit z | _ => false end) (seq 0 (length s)) = p -> p = false) -> s <> pre ++ c :: x :: y :: z :: post).
        { intros s H ->. specialize (H true). assert (T : true = false); [apply H|discriminate]. apply existsb_exists. exists (length pre). split.
          - apply in_seq. rewrite app_length. cbn. lia.
          - rewrite skipn_app, skipn_all, Nat.sub_diag. cbn [app skipn]. rewrite X, Y, Z. destruct K as [->| ->]; reflexivity. }
        revert E. apply G. intros p <-. vm_compute. reflexivity.
    + apply gd_bool.
    + apply (R (-120)%Z (lit "-120")); [reflexivity|eexists; eexists; split; reflexivity|]. intros [|c rest] H; [reflexivity|]. cbn [ends_value In] in H.
      repeat (destruct H as [<-|H]; [reflexivity|]). destruct H.
  - cbn [map fst].
    assert (PR : forall p x y a b, (code x < code y)%Z -> precedes (p ++ x :: a) (p ++ y :: b)).
    { intros p x y a b H. right. exists p, x, y, a, b. auto. }
    repeat (apply SSorted_cons; [|repeat (apply Forall_cons; [apply (PR []); reflexivity|]); apply Forall_nil]). apply SSorted_nil.
Qed.
Example C33_ex : json_value_format decimal (mkFormat 0 (-1)) sample 0 =
  lit "{""backends"":[null, {""weight"":5}, []], ""name"":""a \""b\"" \\ c\n\bab x"", ""up"":true, ""x"":-120}".
Proof. vm_compute. reflexivity. Qed.
Example C33_ex_denotes : denotes (lit "a\""\/\n\t") (lit "a""/" ++ [LF; TAB]).
Proof.
  assert (E : forall e c t s, existsb (fun p => beq (fst p) e && beq (snd p) c) escapes = true -> denotes t s -> denotes ("\"%char :: e :: t) (c :: s)).
  { intros e c t s H. apply existsb_exists in H. destruct H as ([x y] & I & H). apply andb_prop in H. destruct H as [H1 H2].
    apply Ascii.eqb_eq in H1, H2. cbn in H1, H2. subst. apply dn_escape. exact I. }
  apply dn_char; [vm_compute; discriminate|discriminate|discriminate|]. apply E; [reflexivity|]. apply E; [reflexivity|]. apply E; [reflexivity|]. apply E; [reflexivity|]. constructor.
Qed.
Example C33_ex_euro : utf8_wctomb (wide_char (lit "20aC")) = Some ["226"%char; "130"%char; "172"%char] /\
  digit_value "a"%char 10%Z /\ digit_value "C"%char 12%Z.
Proof. split; [reflexivity|]. split; [left|right]; split; try reflexivity; lia. Qed.
Example C33_ex_read : json_parse_string decimal (json_value_format decimal (mkFormat 2 (-1)) sample 0) = POk decimal (as_read decimal sample) [].
Proof. rewrite <- (app_nil_r (json_value_format _ _ _ _)). apply C33_roundtrip_partial; [exact C33_ex_good|exact I]. Qed.

(** *** Findings *)

(** The string of a backspace and "abcX" is written in a way that the reader takes
    for a code point: it writes outside of the memory it allocated. *)
Theorem C33_string_refuted : forall N, exists s, ~ In NUL s /\
  json_parse_string N (json_value_format N (mkFormat 0 (-1)) (JString N s) 0) = PCrash N.
Proof. intros N. exists ("008"%char :: lit "abcX"). split; [|vm_compute; reflexivity]. cbn. intros K. repeat (destruct K as [K|K]; [discriminate|]). destruct K. Qed.
Print Assumptions C33_string_refuted.

(** Other control characters are written as they are, which JSON does not allow. *)
Theorem C33_control_refuted : forall N, exists s, ~ In NUL s /\
  ~ string_text (json_value_format N (mkFormat 0 (-1)) (JString N s) 0).
Proof.
  intros N. exists ["001"%char]. split; [cbn; intros [K|[]]; discriminate|]. cbn [json_value_format]. intros K.
  inversion K as [t C E]. assert (T : t = ["001"%char]).
  { change (t ++ [""""%char] = ["001"%char] ++ [""""%char]) in E. apply app_inj_tail in E as [E _]. auto. }
  subst t. inversion C as [|c t H _ _ _ E1| |]; subst. revert H. vm_compute. intros H. apply H. reflexivity.
Qed.
Print Assumptions C33_control_refuted.

(** An escape \uXXXX of JSON is not understood; a trailing comma is. *)
Theorem C33_grammar_refuted : forall N,
  string_text (lit """\u0041""") /\ json_parse_string N (lit """\u0041""") = POk N (JString N (lit "u0041")) [] /\
  json_parse_string N (lit "[null,]") = POk N (JArray N [JNull N]) [] /\
  json_parse_string N (lit "{""a"":}") = POk N (JObject N []) [].
Proof.
  intros N. split; [|repeat split; vm_compute; reflexivity]. apply (st_intro (lit "\u0041")). apply ch_unicode; try reflexivity. constructor.
Qed.
Print Assumptions C33_grammar_refuted.
