(** * PropertiesBigInt4: reading integers of JavaScript tracers from texts, numbers and lists of digits (C116) *)

From Verif Require Import BigIntParseProofs.
Local Open Scope Z_scope.

(** ** C116: integers are read as they are written *)

(** Whatever text is accepted, the object made is one of an integer. *)
Definition C116_statement : Prop :=
  forall number, reads_numbers number -> number [] = JInt 0 ->
  forall t i, parse_string_value number t = Some i -> exists z, stands_for i z.

(** Finding: [12345e], which JavaScript reads as no number at all, makes the object of 45 - not even in the form in which
    the library keeps 45, so that comparisons with it are wrong - instead of an error: the missing exponent counts as zero,
    and the first seven digits are cut at a negative place. *)
Theorem C116_refuted : ~ C116_statement.
Proof.
  intros H. specialize (H sample_number sample_reads eq_refl (txt "12345e") (Big [45] false) ltac:(vm_compute; reflexivity)).
  destruct H as (z & H). apply big_elim in H as (_ & _ & H & _). vm_compute in H. congruence.
Qed.
Print Assumptions C116_refuted.

(** What is missing: texts that are not those of integers, but are accepted.  Every text of an integer - digits, perhaps a
    point, perhaps an exponent that takes the point away - is read exactly, if [10] to its exponent has no more zeros than an
    array can have elements; with more it is refused.  A text without exponent is refused if it is empty or contains anything
    but digits after its sign and JavaScript reads in it no number below 2^53. *)
Theorem C116_texts_partial :
  forall number, reads_numbers number ->
  (forall n k z, denotes_integer n k z -> short_text n -> k <= 2 ^ 32 - 2 ->
     exists i, parse_string_value number (numeral_text n) = Some i /\ stands_for i z)
  /\ (forall n k z, denotes_integer n k z -> short_text n -> 2 ^ 32 - 2 < k -> 2 ^ 53 <= Z.abs z ->
     parse_string_value number (numeral_text n) = None)
  /\ (forall (minus : bool) t, ~ In x65 t -> ~ In x45 t -> hd_error t <> Some x2d ->
     (forall m, t <> [] -> text_value 10 0 t <> Some m) ->
     precise_number (number ((if minus then txt "-" else []) ++ t)) = false ->
     parse_string_value number ((if minus then txt "-" else []) ++ t) = None).
Proof.
  intros number Hnum. split; [intros n k z; by apply parse_string_value_spec|].
  split; [intros n k z; by apply parse_string_value_too_large|].
  intros minus t H1 H2 H3 H4 H5. apply parse_string_value_refuses; [| |by left|exact H5].
  - apply Forall_forall. intros b Hb. apply elem_of_list_In in Hb.
    destruct (Byte.eqb b x65) eqn:E; [apply Byte.byte_dec_bl in E as ->; contradiction|].
    destruct (Byte.eqb b x45) eqn:E'; [apply Byte.byte_dec_bl in E' as ->; contradiction|]. reflexivity.
  - destruct t as [|b t]; [by left|]. right. intros Hd. destruct (dec_value _ Hd 0) as (v & Hv). by apply (H4 v).
Qed.
Print Assumptions C116_texts_partial.

(** The texts of digits alone, which is how the tracer hands integers over, are read as everywhere else in this model. *)
Theorem C116_same_reading :
  forall number, reads_numbers number ->
  forall (minus : bool) ds m, ds <> [] -> text_value 10 0 ds = Some m -> Z.of_nat (length ds) < 2 ^ 51 ->
  exists i j, parse_string_value number ((if minus then txt "-" else []) ++ ds) = Some i
    /\ parse_string ((if minus then txt "-" else []) ++ ds) = Some j
    /\ stands_for i ((if minus then -1 else 1) * m) /\ stands_for j ((if minus then -1 else 1) * m).
Proof.
  intros number Hnum minus ds m H1 H2 H3.
  destruct (parse_string_value_spec number (plain minus ds) 0 _ Hnum (plain_denotes minus ds m H1 H2)) as (i & Ei & Hi); [|lia|].
  { unfold short_text. rewrite plain_text, app_length.
    assert (Hl : (length (if minus then txt "-" else []) <= 1)%nat) by (destruct minus; cbn; lia). lia. }
  rewrite plain_text in Ei. destruct (parse_string_spec ds m minus H1 H2) as (j & Ej & Hj).
  exists i, j. split; [exact Ei|]. split; [exact Ej|]. split; [exact Hi|]. eapply stands_eq; [exact Hj|].
  destruct minus; unfold signed; lia.
Qed.
Print Assumptions C116_same_reading.

(** Numbers: a number that is an integer is read as an integer that JavaScript rounds to it - itself below 2^53. *)
Theorem C116_numbers :
  forall number to_text, reads_numbers number -> writes_numbers to_text ->
  forall v, Z.abs v < 2 ^ 1024 -> rnd v = v ->
  exists i z, parse_number_value number to_text (JInt v) = Some i /\ stands_for i z /\ rnd z = v /\ (Z.abs v < 2 ^ 53 -> z = v).
Proof. intros number to_text H1 H2 v. by apply parse_number_value_spec. Qed.
Print Assumptions C116_numbers.

(** Finding: from 2^53 on it need not be the number itself: JavaScript writes 2^60 as 1152921504606847000. *)
Definition C116_numbers_statement : Prop :=
  forall number to_text, reads_numbers number -> writes_numbers to_text ->
  forall v i, Z.abs v < 2 ^ 1024 -> rnd v = v -> parse_number_value number to_text (JInt v) = Some i -> stands_for i v.
Theorem C116_numbers_refuted : ~ C116_numbers_statement.
Proof.
  intros H. specialize (H sample_number sample_text sample_reads sample_writes (2 ^ 60) (Big [6847000; 2150460; 11529] false)).
  assert (Hs : stands_for (Big [6847000; 2150460; 11529] false) (2 ^ 60)).
  { apply H; [vm_compute; reflexivity|vm_compute; reflexivity|vm_compute; reflexivity]. }
  apply big_elim in Hs as (_ & _ & _ & Hs & _). vm_compute in Hs. discriminate Hs.
Qed.
Print Assumptions C116_numbers_refuted.

(** Lists of digits: whatever integers are given as digits, and whatever base - ten if there is none, or if it is the number
    zero or the empty text -, the value of the list is made. *)
Theorem C116_digits :
  forall uk number to_text digits xs base b (minus : bool),
  Forall2 (means number to_text) digits xs ->
  match base with None | Some (ANumber (JInt 0)) | Some (AText []) => b = 10 | Some a => means number to_text a b end ->
  exists i, from_array uk number to_text digits base minus = Ok (Some i)
    /\ stands_for i (if minus then - horner b 0 xs else horner b 0 xs).
Proof. intros. by apply from_array_spec. Qed.
Print Assumptions C116_digits.

(** [-1.25e+20], the number 3, and the digits 1, 2^60 and -3 in base 1000. *)
Example C116_example :
  reads_numbers sample_number /\ writes_numbers sample_text
  /\ denotes_integer (Numeral true (txt "1") (Some (txt "25")) (Some (false, true, txt "20"))) 18 (-125 * 10 ^ 18)
  /\ numeral_text (Numeral true (txt "1") (Some (txt "25")) (Some (false, true, txt "20"))) = txt "-1.25e+20"
  /\ parse_string_value sample_number (txt "-1.25e+20") = Some (Big [0; 0; 1250000] true)
  /\ parse_string_value sample_number (txt "99999999999999999x") = None
  /\ parse_number_value sample_number sample_text (JInt 3) = Some (mk_small 3)
  /\ from_array (fun _ _ => false) sample_number sample_text
       [ANumber (JInt 1); AText (dec_text (2 ^ 60)); AInteger (mk_small (-3))] (Some (ANumber (JInt 1000))) true
     = Ok (parse_string (num_text (- (1000 ^ 2 + 2 ^ 60 * 1000 - 3)))).
Proof.
  split; [exact sample_reads|]. split; [exact sample_writes|].
  split. { split; [discriminate|]. split; [exists 20; split; [split; [discriminate|vm_compute; reflexivity]|vm_compute; split; [reflexivity|discriminate]]|].
           exists 125. split; vm_compute; reflexivity. }
  repeat (split; [vm_compute; reflexivity|]). vm_compute. reflexivity.
Qed.
