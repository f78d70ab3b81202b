(** * PropertiesBigInt: the integers of JavaScript tracers

    Every function takes and gives objects in proper form ([stands_for]), so the theorems apply to any chain of calls.
    [uk] stands for the library's choice between its two multiplications: the theorems hold for every choice. *)

From Verif Require Import SpecBigInt BigIntText.
Local Open Scope Z_scope.

(** ** C96: numbers reach a JavaScript tracer and leave it unchanged *)

(** What [to_bigint] hands to [bigint] is read as the very number; its texts are the numerals of that number in
    every radix; [toJSNumber] is the double nearest to it. *)
Theorem C96_words_are_exact :
  forall v : N, exists t i,
    to_bigint v = OBig t /\ parse_string t = Some i /\ stands_for i (Z.of_N v)
    /\ to_string i = t
    /\ (forall radix, 2 <= radix <= 36 -> exists u, to_string_radix i radix = Ok u /\ writes radix (Z.of_N v) u)
    /\ (exists d, to_js_number i = Z.of_N d /\ nearest v d).
Proof.
  intros v. exists (dec_text v). destruct (parse_string_spec (dec_text v) (Z.of_N v) false) as (i & Hp & Hi);
    [apply dec_text_nonempty|apply dec_text_value|]. cbn [app signed] in *. exists i.
  split; [reflexivity|]. split; [exact Hp|]. split; [exact Hi|].
  split.
  { apply (writes_fun 10 (Z.of_N v)); [lia|by apply to_string_writes|].
    pose proof (num_text_writes (Z.of_N v)) as H. unfold num_text in H.
    destruct (Z.ltb_spec (Z.of_N v) 0); [lia|]. cbn [app] in H. by rewrite Zabs2N.id in H. }
  split.
  - intros radix Hr. by apply to_string_radix_writes.
  - exists (f64_of v). split; [|apply f64_nearest]. rewrite (to_js_number_spec i _ Hi). unfold rnd.
    rewrite Zabs2N.id. destruct (Z.eq_dec (Z.of_N v) 0) as [E|E]; [|rewrite Z.sgn_pos by lia; lia].
    assert (v = 0%N) as -> by lia. reflexivity.
Qed.
Print Assumptions C96_words_are_exact.

(** Every decimal text, with or without a sign and leading zeros, is read as the number it denotes. *)
Theorem C96_texts_are_read :
  forall (minus : bool) ds n, ds <> [] -> text_value 10 0 ds = Some n ->
  exists i, parse_string ((if minus then txt "-" else []) ++ ds) = Some i /\ stands_for i (if minus then - n else n).
Proof. intros minus ds n Hne Hn. by apply parse_string_spec. Qed.
Print Assumptions C96_texts_are_read.

(** Every integer is written as its numeral, and reading that text gives it back. *)
Theorem C96_texts_are_exact :
  forall i x, stands_for i x ->
  writes 10 x (to_string i)
  /\ (forall radix, 2 <= radix <= 36 -> exists u, to_string_radix i radix = Ok u /\ writes radix x u)
  /\ exists i', parse_string (to_string i) = Some i' /\ stands_for i' x.
Proof.
  intros i x Hi. pose proof (to_string_writes i x Hi) as Hw. split; [exact Hw|].
  split; [intros radix Hr; by apply to_string_radix_writes|].
  destruct Hw as (ds & -> & H1 & H2 & _). destruct (parse_string_spec ds _ (x <? 0) H1 H2) as (i' & E & Hi').
  exists i'. split; [exact E|]. eapply stands_eq; [exact Hi'|]. unfold signed. destruct (Z.ltb_spec x 0); lia.
Qed.
Print Assumptions C96_texts_are_exact.

(** A number has one numeral: [writes] leaves no choice. *)
Theorem C96_one_numeral : forall radix x t u, 1 < radix -> writes radix x t -> writes radix x u -> t = u.
Proof. exact writes_fun. Qed.
Print Assumptions C96_one_numeral.

(** The largest word: twelve digits of base 10^7, and back; in base 16 it is 64 times [f]. *)
Example C96_example :
  exists i, parse_string (dec_text (2 ^ 256 - 1)) = Some i /\ stands_for i (2 ^ 256 - 1)
    /\ to_string i = dec_text (2 ^ 256 - 1) /\ to_string_radix i 16 = Ok (replicate 64 x66)
    /\ parse_string (txt "-0012") = Some (mk_small (-12)).
Proof.
  destruct (parse_string_spec (dec_text (2 ^ 256 - 1)) (2 ^ 256 - 1) false (dec_text_nonempty _) (dec_text_value _)) as (i & E & Hi).
  exists i. split; [exact E|]. split; [exact Hi|]. vm_compute in E. injection E as <-.
  split; [vm_compute; reflexivity|]. split; vm_compute; reflexivity.
Qed.

(** ** C97: addition, subtraction and comparison are exact *)

Theorem C97_addition :
  forall i j x y, stands_for i x -> stands_for j y ->
  stands_for (add i j) (x + y) /\ stands_for (subtract i j) (x - y)
  /\ stands_for (negate i) (- x) /\ stands_for (int_abs i) (Z.abs x)
  /\ stands_for (next i) (x + 1) /\ stands_for (prev i) (x - 1).
Proof.
  intros i j x y Hi Hj. split; [by apply add_spec|]. split; [by apply subtract_spec|]. split; [by apply negate_spec|].
  split; [by apply abs_spec|]. split; [by apply next_spec|by apply prev_spec].
Qed.
Print Assumptions C97_addition.

Theorem C97_comparison :
  forall i j x y, stands_for i x -> stands_for j y ->
  int_compare i j = comparison_number (x ?= y) /\ compare_abs i j = comparison_number (Z.abs x ?= Z.abs y)
  /\ equals i j = (x =? y) /\ greater i j = (y <? x) /\ lesser i j = (x <? y)
  /\ greater_or_equals i j = (y <=? x) /\ lesser_or_equals i j = (x <=? y)
  /\ is_positive i = (0 <? x) /\ is_negative i = (x <? 0) /\ is_zero i = (x =? 0) /\ is_unit i = (Z.abs x =? 1)
  /\ is_even i = Z.even x /\ is_odd i = Z.odd x.
Proof.
  intros i j x y Hi Hj. split; [by apply int_compare_spec|]. split; [by apply compare_abs_spec|].
  destruct (tests_spec i j x y Hi Hj) as (T1 & T2 & T3 & T4 & T5). destruct (signs_spec i x Hi) as (S1 & S2 & S3 & S4).
  destruct (parity_spec i x Hi) as (P1 & P2). split_and!; assumption.
Qed.
Print Assumptions C97_comparison.

(** At the boundary between the two representations: 2^53 - 1 and its successor; a 256-bit difference that is small. *)
Example C97_example :
  stands_for (mk_small (2 ^ 53 - 1)) (2 ^ 53 - 1)
  /\ next (mk_small (2 ^ 53 - 1)) = Big [4740992; 719925; 90] false
  /\ stands_for (Big [4740992; 719925; 90] false) (2 ^ 53)
  /\ prev (Big [4740992; 719925; 90] false) = mk_small (2 ^ 53 - 1)
  /\ add (mk_small (2 ^ 53 - 1)) (mk_small (2 ^ 53 - 1)) = Big [9481982; 1439850; 180] false
  /\ (exists i j, parse_string (dec_text (2 ^ 256 - 1)) = Some i /\ parse_string (dec_text (2 ^ 256 - 3)) = Some j
        /\ subtract j i = mk_small (-2) /\ int_compare j i = -1).
Proof.
  split; [apply mk_small_spec; lia|]. split; [vm_compute; reflexivity|].
  split; [cbn; repeat split; [repeat constructor; lia|discriminate|lia]|].
  split; [vm_compute; reflexivity|]. split; [vm_compute; reflexivity|].
  eexists _, _. split; [vm_compute; reflexivity|]. split; [vm_compute; reflexivity|]. split; vm_compute; reflexivity.
Qed.

(** ** C98: multiplication is exact *)

(** In particular it always ends: [multiply] is never out of fuel, whichever algorithm is chosen at each size. *)
Theorem C98_multiplication :
  forall uk i j x y, stands_for i x -> stands_for j y ->
  (exists r, multiply uk i j = Ok r /\ stands_for r (x * y)) /\ stands_for (int_square i) (x * x).
Proof. intros uk i j x y Hi Hj. split; [by apply multiply_spec|by apply BigIntProofs.square_spec]. Qed.
Print Assumptions C98_multiplication.

Example C98_example :
  exists i r, parse_string (dec_text (2 ^ 256 - 1)) = Some i /\ multiply (fun _ _ => false) i i = Ok r
    /\ to_string r = dec_text ((2 ^ 256 - 1) * (2 ^ 256 - 1)) /\ to_string (int_square i) = to_string r
    /\ multiply (fun _ _ => true) (mk_small (-3)) i = multiply (fun _ _ => false) i (mk_small (-3)).
Proof.
  eexists _, _. split; [vm_compute; reflexivity|]. split; [vm_compute; reflexivity|].
  split; [vm_compute; reflexivity|]. split; vm_compute; reflexivity.
Qed.

(** ** C99: division is exact, rounds towards zero and refuses zero *)

Theorem C99_division :
  forall i j x y, stands_for i x -> stands_for j y ->
  (y = 0 -> div_mod i j = Ok None)
  /\ (y <> 0 -> exists q r u v, div_mod i j = Ok (Some (q, r)) /\ stands_for q u /\ stands_for r v
       /\ x = u * y + v /\ Z.abs v < Z.abs y /\ 0 <= v * x).
Proof.
  intros i j x y Hi Hj. destruct (div_mod_spec i j x y Hi Hj) as [[H1 H2]|(H1 & q & r & E & Hq & Hr)].
  - split; [done|]. intros H. contradiction.
  - split; [intros H; contradiction|]. intros _. exists q, r, (Z.quot x y), (Z.rem x y).
    split; [exact E|]. split; [exact Hq|]. split; [exact Hr|]. pose proof (Z.quot_rem' x y).
    split; [lia|]. split; [by apply Z.rem_bound_abs|]. pose proof (Z.rem_sign_mul x y H1). lia.
Qed.
Print Assumptions C99_division.

(** The quotient and the remainder are determined: they are the ones of machine arithmetic. *)
Theorem C99_quotient :
  forall i j x y q r u v, stands_for i x -> stands_for j y -> y <> 0 ->
  div_mod i j = Ok (Some (q, r)) -> stands_for q u -> stands_for r v -> u = Z.quot x y /\ v = Z.rem x y.
Proof.
  intros i j x y q r u v Hi Hj Hy E Hq Hr. destruct (div_mod_spec i j x y Hi Hj) as [[H1 _]|(_ & q' & r' & E' & Hq' & Hr')].
  { contradiction. }
  rewrite E in E'. injection E' as <- <-. split; eapply stands_for_fun; eassumption.
Qed.
Print Assumptions C99_quotient.

Example C99_example :
  exists i j q r, parse_string (dec_text (2 ^ 256 - 1)) = Some i /\ parse_string (txt "-340282366920938463463374607431768211457") = Some j
    /\ div_mod i j = Ok (Some (q, r)) /\ to_string q = txt "-340282366920938463463374607431768211455" /\ r = mk_small 0
    /\ div_mod i (mk_small 0) = Ok None.
Proof.
  eexists _, _, _, _. split; [vm_compute; reflexivity|]. split; [vm_compute; reflexivity|]. split; [vm_compute; reflexivity|].
  split; [vm_compute; reflexivity|]. split; vm_compute; reflexivity.
Qed.

(** ** C100: shifts and bitwise functions *)

(** [and], [or], [xor] and [not] are the two's complement functions on integers of any size and sign. *)
Theorem C100_bitwise :
  forall uk i j x y, stands_for i x -> stands_for j y ->
  (exists r, int_and uk i j = Ok r /\ stands_for r (Z.land x y))
  /\ (exists r, int_or uk i j = Ok r /\ stands_for r (Z.lor x y))
  /\ (exists r, int_xor uk i j = Ok r /\ stands_for r (Z.lxor x y))
  /\ stands_for (int_not i) (Z.lnot x).
Proof.
  intros uk i j x y Hi Hj. split; [by apply bitwise_spec; [apply placewise_land| |]|].
  split; [by apply bitwise_spec; [apply placewise_lor| |]|]. split; [by apply bitwise_spec; [apply placewise_lxor| |]|].
  by apply not_spec.
Qed.
Print Assumptions C100_bitwise.

(** A shift by [n], given as a number or as an integer of the library, multiplies by 2^n (rounding down). *)
Definition C100_statement : Prop :=
  forall uk i x k n, stands_for i x -> Z.abs n <= 10000000 -> (k = ByNumber n \/ exists j, k = ByInteger j /\ stands_for j n) ->
  (exists r, shift_left uk i k = Ok (Some r) /\ stands_for r (Z.shiftl x n))
  /\ (exists r, shift_right uk i k = Ok (Some r) /\ stands_for r (Z.shiftr x n)).

(** The library tests [n instanceof BigInteger], which its small integers are not: [bigint(1).shiftLeft(bigint(1))]
    throws "1 is too large for shifting". *)
Theorem C100_refuted : ~ C100_statement.
Proof.
  intros H. destruct (H (fun _ _ => false) (mk_small 1) 1 (ByInteger (mk_small 1)) 1) as [(r & E & _) _].
  - apply mk_small_spec. lia.
  - lia.
  - right. exists (mk_small 1). split; [reflexivity|]. apply mk_small_spec. lia.
  - vm_compute in E. discriminate E.
Qed.
Print Assumptions C100_refuted.

(** By a number every shift is exact, up to the documented limit; by an integer every shift throws. *)
Theorem C100_shifts_partial :
  forall uk i x n, stands_for i x ->
  (Z.abs n <= 10000000 ->
     (exists r, shift_left uk i (ByNumber n) = Ok (Some r) /\ stands_for r (Z.shiftl x n))
     /\ (exists r, shift_right uk i (ByNumber n) = Ok (Some r) /\ stands_for r (Z.shiftr x n)))
  /\ (10000000 < Z.abs n -> shift_left uk i (ByNumber n) = Ok None /\ shift_right uk i (ByNumber n) = Ok None)
  /\ (forall j, stands_for j n -> shift_left uk i (ByInteger j) = Ok None /\ shift_right uk i (ByInteger j) = Ok None).
Proof.
  intros uk i x n Hi. split; [intros Hn; split; [by apply shift_left_spec|by apply shift_right_spec]|].
  split; [intros Hn; by apply shift_far|]. intros j Hj. unfold shift_left, shift_right.
  destruct j as [v s|v s]; cbn [shift_is_small]; [split; reflexivity|].
  apply big_elim in Hj as (J1 & J2 & J3 & _). pose proof (long_of_big v J1 J2 ltac:(lia)).
  destruct (Nat.leb_spec (length v) 1); [lia|]. split; reflexivity.
Qed.
Print Assumptions C100_shifts_partial.

(** The low 160 bits of a word (an address taken from the stack), and a negative number shifted right. *)
Example C100_example :
  exists i m r, parse_string (dec_text (2 ^ 256 - 2)) = Some i /\ parse_string (dec_text (2 ^ 160 - 1)) = Some m
    /\ int_and (fun _ _ => false) i m = Ok r /\ to_string r = dec_text (2 ^ 160 - 2)
    /\ shift_left (fun _ _ => false) (mk_small 1) (ByNumber 256) = Ok (parse_string (dec_text (2 ^ 256)))
    /\ shift_right (fun _ _ => false) (mk_small (-5)) (ByNumber 1) = Ok (Some (mk_small (-3))).
Proof.
  eexists _, _, _. split; [vm_compute; reflexivity|]. split; [vm_compute; reflexivity|]. split; [vm_compute; reflexivity|].
  split; [vm_compute; reflexivity|]. split; vm_compute; reflexivity.
Qed.
