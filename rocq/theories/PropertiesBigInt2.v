(** * PropertiesBigInt2: powers, divisors and texts in other radixes of the integers of JavaScript tracers *)

From Verif Require Import SpecBigIntMore BigIntBase BigIntInvProofs.
Local Open Scope Z_scope.

(** ** C102: powers are exact *)

(** Powers with an exponent of 2^53 or more (of a base other than -1, 0 and 1) are refused; a negative exponent gives
    the power rounded towards zero. *)
Theorem C102_powers :
  forall uk math_pow i j x y, faithful_pow math_pow -> stands_for i x -> stands_for j y ->
  (0 <= y -> Z.abs x <= 1 \/ y < 2 ^ 53 -> exists r, int_pow uk math_pow i j = Ok (Some r) /\ stands_for r (x ^ y))
  /\ (1 < Z.abs x -> 2 ^ 53 <= y -> int_pow uk math_pow i j = Ok None)
  /\ (y < 0 -> exists r, int_pow uk math_pow i j = Ok (Some r)
        /\ stands_for r (if Z.abs x =? 1 then x ^ (- y) else 0)).
Proof.
  intros uk math_pow i j x y Hp Hi Hj. destruct (int_pow_spec uk math_pow i j x y Hp Hi Hj) as (H1 & H2 & H3).
  split; [exact H1|]. split; [exact H3|exact H2].
Qed.
Print Assumptions C102_powers.

(** The rounded power is a possible [Math.pow]; with it, 3^40, a small power and a refusal. *)
Example C102_example :
  faithful_pow (fun a b => rnd (a ^ b))
  /\ stands_for (mk_small 3) 3 /\ stands_for (mk_small 40) 40
  /\ (exists r, int_pow (fun _ _ => false) (fun a b => rnd (a ^ b)) (mk_small 3) (mk_small 40) = Ok (Some r)
        /\ to_string r = dec_text (3 ^ 40))
  /\ int_pow (fun _ _ => false) (fun a b => rnd (a ^ b)) (mk_small (-2)) (mk_small 5) = Ok (Some (mk_small (-32)))
  /\ int_pow (fun _ _ => false) (fun a b => rnd (a ^ b)) (mk_small 2) (Big [4740992; 719925; 90] false) = Ok None.
Proof.
  split; [apply rounded_pow_faithful|]. split; [apply mk_small_spec; lia|]. split; [apply mk_small_spec; lia|].
  split; [eexists; split; vm_compute; reflexivity|]. split; vm_compute; reflexivity.
Qed.

(** ** C103: powers modulo a number *)

(** [x.modPow(e, m)] is the remainder of x^e by m. *)
Definition C103_statement : Prop :=
  forall uk xi ei mi x e m, stands_for xi x -> stands_for ei e -> stands_for mi m -> 0 <= e -> m <> 0 ->
  exists i, int_mod_pow uk xi ei mi = Ok (Some i) /\ stands_for i (Z.rem (x ^ e) m).

(** [bigint(5).modPow(0, 1)] is 1: the loop that reduces is not entered. *)
Theorem C103_refuted : ~ C103_statement.
Proof.
  intros H. destruct (H (fun _ _ => false) (mk_small 5) (mk_small 0) (mk_small 1) 5 0 1) as (i & E & Hi); try (apply mk_small_spec; lia); try lia.
  vm_compute in E. injection E as <-. destruct Hi as [Hi _]. vm_compute in Hi. discriminate Hi.
Qed.
Print Assumptions C103_refuted.

(** It is for every positive exponent, of any size; exponents up to zero (negative ones too) give 1, and a zero
    modulus is refused. *)
Theorem C103_mod_pow_partial :
  forall uk xi ei mi x e m, stands_for xi x -> stands_for ei e -> stands_for mi m ->
  (m <> 0 -> 0 < e -> exists i, int_mod_pow uk xi ei mi = Ok (Some i) /\ stands_for i (Z.rem (x ^ e) m))
  /\ (m <> 0 -> e <= 0 -> exists i, int_mod_pow uk xi ei mi = Ok (Some i) /\ stands_for i 1)
  /\ (m = 0 -> int_mod_pow uk xi ei mi = Ok None).
Proof.
  intros uk xi ei mi x e m Hx He Hm. destruct (int_mod_pow_spec uk xi ei mi x e m Hx He Hm) as [H1 H2].
  split; [|split; [|exact H1]].
  - intros H0 Hpos. destruct (H2 H0) as (i & E & Hi). exists i. split; [exact E|]. destruct (Z.ltb_spec 0 e); [exact Hi|lia].
  - intros H0 Hneg. destruct (H2 H0) as (i & E & Hi). exists i. split; [exact E|]. destruct (Z.ltb_spec 0 e); [lia|exact Hi].
Qed.
Print Assumptions C103_mod_pow_partial.

(** A modulus of 54 bits; a negative base keeps its sign. *)
Example C103_example :
  exists m, parse_string (dec_text (10 ^ 16 + 61)) = Some m
    /\ int_mod_pow (fun _ _ => false) (mk_small 12345) (mk_small 7) m = Ok (parse_string (dec_text (12345 ^ 7 mod (10 ^ 16 + 61))))
    /\ int_mod_pow (fun _ _ => false) (mk_small (-2)) (mk_small 5) (mk_small 7) = Ok (Some (mk_small (-4))).
Proof.
  eexists. split; [vm_compute; reflexivity|]. split; vm_compute; reflexivity.
Qed.

(** ** C104: inverses modulo a number *)

(** [x.modInv(m)] is an inverse of x modulo m, and is refused exactly when there is none. *)
Definition C104_statement : Prop :=
  forall uk xi mi x m, stands_for xi x -> stands_for mi m -> m <> 0 ->
  ((exists v, (m | x * v - 1)) -> exists i v, int_mod_inv uk xi mi = Ok (Some i) /\ stands_for i v /\ (m | x * v - 1))
  /\ (~ (exists v, (m | x * v - 1)) -> int_mod_inv uk xi mi = Ok None).

(** With a negative modulus the last remainder can be -1: [bigint(2).modInv(-3)] throws "2 and -3 are not co-prime". *)
Theorem C104_refuted : ~ C104_statement.
Proof.
  intros H. destruct (H (fun _ _ => false) (mk_small 2) (mk_small (-3)) 2 (-3)) as [H1 _]; try (apply mk_small_spec; lia); try lia.
  destruct H1 as (i & v & E & _); [exists 2; exists (-1); reflexivity|]. vm_compute in E. discriminate E.
Qed.
Print Assumptions C104_refuted.

Lemma inverse_iff x m : (exists v, (m | x * v - 1)) <-> Z.gcd x m = 1.
Proof.
  split.
  - intros (v & k & Hk). apply Z.divide_antisym_nonneg; [apply Z.gcd_nonneg|lia| |apply Z.divide_1_l].
    replace 1 with (x * v - k * m) by lia. apply Z.divide_sub_r.
    + apply Z.divide_mul_l, Z.gcd_divide_l.
    + apply Z.divide_mul_r, Z.gcd_divide_r.
  - intros Hg. destruct (Z.gcd_bezout x m 1) as (a & b & Hab); [exact Hg|]. exists a. exists (- b). lia.
Qed.

(** Every positive modulus is right; the inverse is below the modulus and has the sign of the number. *)
Theorem C104_mod_inv_partial :
  forall uk xi mi x m, stands_for xi x -> stands_for mi m -> 0 < m ->
  ((exists v, (m | x * v - 1)) -> exists i v, int_mod_inv uk xi mi = Ok (Some i) /\ stands_for i v /\ (m | x * v - 1)
     /\ (1 < m -> Z.abs v < m /\ 0 <= v * x))
  /\ (~ (exists v, (m | x * v - 1)) -> int_mod_inv uk xi mi = Ok None).
Proof.
  intros uk xi mi x m Hx Hm H0. rewrite inverse_iff. exact (int_mod_inv_spec uk xi mi x m Hx Hm H0).
Qed.
Print Assumptions C104_mod_inv_partial.

(** Every modulus, of either sign and zero: an answer is an inverse, and there is one exactly when there is an inverse
    and, for a negative modulus, Euclid's algorithm on the absolute values divides an odd number of times. *)
Theorem C104_any_modulus_partial :
  forall uk xi mi x m, stands_for xi x -> stands_for mi m ->
  exists n, divisions (Z.abs m) (Z.abs x) n
  /\ ((exists v, (m | x * v - 1)) /\ (m < 0 -> Nat.odd n = true) ->
      exists i v, int_mod_inv uk xi mi = Ok (Some i) /\ stands_for i v /\ (m | x * v - 1))
  /\ (~ ((exists v, (m | x * v - 1)) /\ (m < 0 -> Nat.odd n = true)) -> int_mod_inv uk xi mi = Ok None).
Proof.
  intros uk xi mi x m Hx Hm. destruct (int_mod_inv_any uk xi mi x m Hx Hm) as (n & H). exists n. rewrite inverse_iff. exact H.
Qed.
Print Assumptions C104_any_modulus_partial.

Example C104_example :
  int_mod_inv (fun _ _ => false) (mk_small 42) (mk_small 2017) = Ok (Some (mk_small 1969))
  /\ (2017 | 42 * 1969 - 1)
  /\ int_mod_inv (fun _ _ => false) (mk_small (-42)) (mk_small 2017) = Ok (Some (mk_small (-1969)))
  /\ int_mod_inv (fun _ _ => false) (mk_small 6) (mk_small 9) = Ok None
  /\ int_mod_inv (fun _ _ => false) (mk_small 7) (mk_small (-30)) = Ok (Some (mk_small 13)) /\ (-30 | 7 * 13 - 1)
  /\ divisions 30 7 3
  /\ int_mod_inv (fun _ _ => false) (mk_small 0) (mk_small 1) = Ok (Some (mk_small 0)).
Proof.
  split; [vm_compute; reflexivity|]. split; [exists 41; reflexivity|]. split; [vm_compute; reflexivity|].
  split; [vm_compute; reflexivity|]. split; [vm_compute; reflexivity|]. split; [exists (-3); reflexivity|].
  split; [|vm_compute; reflexivity].
  apply (one_division 30 7 2); [lia|]. apply (one_division 7 2 1); [lia|]. apply (one_division 2 1 0); [lia|]. constructor.
Qed.

(** ** C105: divisors, multiples and extremes *)

(** [gcd] is the greatest common divisor, [lcm] the least common multiple of numbers not both zero;
    [isDivisibleBy] tells whether the other number, not zero, is a divisor; [max] and [min] are the extremes. *)
Theorem C105_divisors :
  forall uk i j x y, stands_for i x -> stands_for j y ->
  (exists r g, int_gcd uk i j = Ok r /\ stands_for r g /\ 0 <= g /\ (g | x) /\ (g | y)
     /\ (forall d, (d | x) -> (d | y) -> (d | g)))
  /\ (x <> 0 \/ y <> 0 -> exists r l, int_lcm uk i j = Ok (Some r) /\ stands_for r l /\ 0 <= l /\ (x | l) /\ (y | l)
       /\ (forall k, (x | k) -> (y | k) -> (l | k)))
  /\ (x = 0 -> y = 0 -> int_lcm uk i j = Ok None)
  /\ (exists b, is_divisible_by i j = Ok b /\ (b = true <-> y <> 0 /\ (y | x)))
  /\ (exists m, stands_for (int_max i j) m /\ x <= m /\ y <= m /\ (m = x \/ m = y))
  /\ (exists m, stands_for (int_min i j) m /\ m <= x /\ m <= y /\ (m = x \/ m = y)).
Proof.
  intros uk i j x y Hi Hj. split.
  { destruct (int_gcd_spec uk i j x y Hi Hj) as (r & E & Hr). exists r, (Z.gcd x y). split; [exact E|]. split; [exact Hr|].
    split; [apply Z.gcd_nonneg|]. split; [apply Z.gcd_divide_l|]. split; [apply Z.gcd_divide_r|]. intros d. apply Z.gcd_greatest. }
  destruct (int_lcm_spec uk i j x y Hi Hj) as [L1 L2]. split.
  { intros H. destruct (L2 H) as (r & E & Hr). exists r, (Z.lcm x y). split; [exact E|]. split; [exact Hr|].
    split; [apply Z.lcm_nonneg|]. split; [apply Z.divide_lcm_l|]. split; [apply Z.divide_lcm_r|]. intros k. apply Z.lcm_least. }
  split; [exact L1|]. split.
  { eexists. split; [exact (divisible_spec i j x y Hi Hj)|]. destruct (Z.eqb_spec y 0) as [->|Hy].
    - split; [discriminate|]. intros [H _]. contradiction.
    - rewrite Z.eqb_eq, Z.rem_divide by exact Hy. split; [intros H; split; assumption|intros [_ H]; exact H]. }
  destruct (max_min_spec i j x y Hi Hj) as [M1 M2]. split.
  - exists (Z.max x y). split; [exact M1|]. lia.
  - exists (Z.min x y). split; [exact M2|]. lia.
Qed.
Print Assumptions C105_divisors.

Example C105_example :
  exists i j, parse_string (dec_text (2 ^ 60 * 3)) = Some i /\ parse_string (dec_text (2 ^ 55 * 5)) = Some j
    /\ int_gcd (fun _ _ => false) i j = Ok (default i (parse_string (dec_text (2 ^ 55))))
    /\ rmap (option_map to_string) (int_lcm (fun _ _ => false) i j) = Ok (Some (dec_text (2 ^ 60 * 3 * 5)))
    /\ is_divisible_by i (mk_small (-6)) = Ok true /\ is_divisible_by i (mk_small 0) = Ok false
    /\ int_max i j = i /\ int_min i j = j.
Proof.
  eexists _, _. split; [vm_compute; reflexivity|]. split; [vm_compute; reflexivity|]. split; [vm_compute; reflexivity|].
  split; [vm_compute; reflexivity|]. split; [vm_compute; reflexivity|]. split; [vm_compute; reflexivity|].
  split; vm_compute; reflexivity.
Qed.

(** ** C106: numbers from texts in other radixes *)

(** [bigint(text, radix)] reads exactly the numerals of the radix. *)
Definition C106_statement : Prop :=
  forall uk short radix t, 2 <= radix <= 36 -> short_enough radix short ->
  (forall z, denotes radix t z -> exists i, parse_base uk short t radix = Ok (Some i) /\ stands_for i z)
  /\ (forall i, parse_base uk short t radix = Ok (Some i) -> exists z, denotes radix t z /\ stands_for i z).

(** Short texts go to [parseInt], which stops at the first character that is no digit: [bigint("1-2", 16)] is 1. *)
Theorem C106_refuted : ~ C106_statement.
Proof.
  intros H. destruct (H (fun _ _ => false) (fun k => Nat.leb k 13) 16 (txt "1-2")) as [_ H2]; [lia| |].
  { intros k Hk. apply Nat.leb_le in Hk. apply Z.le_trans with (16 ^ 13); [apply Z.pow_le_mono_r; lia|vm_compute; discriminate]. }
  destruct (H2 (mk_small 1)) as (z & (minus & ds & n & Ht & _ & Hn & _) & _); [vm_compute; reflexivity|].
  destruct minus; cbn [app] in Ht.
  - discriminate Ht.
  - subst ds. vm_compute in Hn. discriminate Hn.
Qed.
Print Assumptions C106_refuted.

(** Every numeral is read as the number it denotes; a letter or digit that the radix does not have is refused
    wherever it stands; texts too long for [parseInt] without a [<] (see C117) are read only if they are numerals (or the sign alone, as 0). *)
Theorem C106_texts_partial :
  forall uk short radix t, 2 <= radix <= 36 -> short_enough radix short ->
  (forall z, denotes radix t z -> exists i, parse_base uk short t radix = Ok (Some i) /\ stands_for i z)
  /\ (radix <> 10 -> (exists b d, In b t /\ char_value (small_letter b) = Some d /\ radix <= d) ->
        parse_base uk short t radix = Ok None)
  /\ (radix <> 10 -> short (length t) = false -> ~ In x3c t ->
        forall i, parse_base uk short t radix = Ok (Some i) ->
        (exists z, denotes radix t z /\ stands_for i z) \/ ((t = [] \/ t = txt "-") /\ stands_for i 0)).
Proof.
  intros uk short radix t Hr Hs. split; [|split].
  - intros z (minus & ds & n & -> & Hne & Hn & ->). exact (parse_base_spec uk short radix ds n minus Hr Hs Hne Hn).
  - intros H10 (b & d & Hb & Hd & Hle). exact (parse_base_refuses uk short radix t b d Hr H10 Hb Hd Hle).
  - intros H10 Hl _ i Hi. destruct (parse_base_long uk short radix t i Hr H10 Hl Hi) as (s & ds & n & Ht & Hn & Hv).
    destruct ds as [|b ds].
    + right. cbn in Hn. injection Hn as <-. split; [destruct s; [right|left]; exact Ht|]. destruct s; exact Hv.
    + left. exists (if s then - n else n). split; [|exact Hv]. exists s, (b :: ds), n. split; [exact Ht|]. split; [discriminate|].
      split; [exact Hn|reflexivity].
Qed.
Print Assumptions C106_texts_partial.

(** Short texts are read as [parseInt] reads them: the digits after an optional sign, up to the first character that is
    neither letter nor digit; a sign without digits is refused. *)
Lemma parse_int_digits_stop r rest : (match rest with b :: _ => char_value (small_letter b) = None | [] => True end) ->
  forall ds acc n found, text_value r acc (map lower_case ds) = Some n ->
  parse_int_digits (ds ++ rest) r found acc = if bool_decide (ds = []) && negb found then None else Some n.
Proof.
  intros Hrest. induction ds as [|b ds IH]; intros acc n found; cbn [text_value map app].
  - intros [= <-]. rewrite bool_decide_eq_true_2 by done. cbn [andb]. destruct rest as [|b rest]; cbn [parse_int_digits]; [by destruct found|].
    change (base_digit (lower_case b)) with (char_value (small_letter b)). rewrite Hrest. by destruct found.
  - cbn [parse_int_digits]. change base_digit with char_value. destruct (char_value (lower_case b)) as [d|] eqn:E; [|discriminate].
    destruct (d <? r); [|discriminate]. intros H. rewrite (IH _ n true H). rewrite andb_false_r. by rewrite bool_decide_eq_false_2.
Qed.
Theorem C106_short_texts :
  forall uk short radix sign ds rest n, 2 <= radix <= 36 -> radix <> 10 -> short_enough radix short ->
  In sign [[]; txt "+"; txt "-"] -> short (length (sign ++ ds ++ rest)) = true ->
  text_value radix 0 (map small_letter ds) = Some n ->
  (forall b d, In b rest -> char_value (small_letter b) = Some d -> d < radix) ->
  (match rest with b :: _ => char_value (small_letter b) = None | [] => True end) ->
  (ds <> [] -> exists i, parse_base uk short (sign ++ ds ++ rest) radix = Ok (Some i)
     /\ stands_for i (if bool_decide (sign = txt "-") then - n else n))
  /\ (ds = [] -> sign <> [] -> parse_base uk short (sign ++ ds ++ rest) radix = Ok None).
Proof.
  intros uk short radix sign ds rest n Hr H10 Hs Hsign Hshort Hn Hvalid Hrest.
  assert (Hc : base_chars_valid (sign ++ ds ++ rest) radix = true).
  { unfold base_chars_valid. rewrite !forallb_app. apply andb_true_iff. split; [|apply andb_true_iff; split].
    - destruct Hsign as [<-|[<-|[<-|[]]]]; reflexivity.
    - exact (text_value_chars _ _ _ _ Hn).
    - apply forallb_forall. intros b Hb. specialize (Hvalid b). change (base_digit (lower_case b)) with (char_value (small_letter b)).
      destruct (char_value (small_letter b)) as [d|]; [|reflexivity]. specialize (Hvalid d Hb eq_refl). destruct (Z.leb_spec radix d); [lia|reflexivity]. }
  assert (Hp : parse_base uk short (sign ++ ds ++ rest) radix = Ok (option_map mk_small (parse_int (sign ++ ds ++ rest) radix))).
  { unfold parse_base. destruct (Z.eqb_spec radix 10); [contradiction|]. by rewrite Hc, Hshort. }
  rewrite Hp. pose proof (parse_int_digits_stop radix rest Hrest ds 0 n false Hn) as Hd. cbn [negb] in Hd. rewrite andb_true_r in Hd.
  assert (Hlt : 0 <= n < 2 ^ 53).
  { apply Hs in Hshort. apply text_value_acc in Hn as (w & Hw & Ew & Hb2); [|lia|lia]. rewrite map_length in Hb2.
    assert (radix ^ Z.of_nat (length ds) <= radix ^ Z.of_nat (length (sign ++ ds ++ rest))).
    { apply Z.pow_le_mono_r; [lia|]. rewrite !app_length. lia. } lia. }
  split.
  - intros Hne. rewrite bool_decide_eq_false_2 in Hd by done.
    exists (mk_small (if bool_decide (sign = txt "-") then - n else n)).
    split; [|apply mk_small_spec; destruct (bool_decide _); lia]. do 2 f_equal.
    destruct Hsign as [<-|[<-|[<-|[]]]].
    + cbn [app]. destruct ds as [|b ds]; [done|].
      assert (Hb : Byte.eqb b x2d = false /\ Byte.eqb b x2b = false).
      { cbn [map text_value] in Hn. destruct (char_value (small_letter b)) as [d|] eqn:E; [|discriminate]. exact (no_sign_first b d E). }
      destruct Hb as [Hb1 Hb2]. cbn [app parse_int]. rewrite Hb1, Hb2. change (b :: ds ++ rest) with ((b :: ds) ++ rest). by rewrite Hd.
    + change (txt "+" ++ ds ++ rest) with (x2b :: ds ++ rest). cbn [parse_int]. change (Byte.eqb x2b x2d) with false. change (Byte.eqb x2b x2b) with true.
      cbn iota. by rewrite Hd.
    + change (txt "-" ++ ds ++ rest) with (x2d :: ds ++ rest). cbn [parse_int]. change (Byte.eqb x2d x2d) with true. cbn iota. by rewrite Hd.
  - intros -> Hsn. rewrite bool_decide_eq_true_2 in Hd by done. cbn [app] in *. destruct Hsign as [<-|[<-|[<-|[]]]]; [done|..].
    + change (txt "+" ++ rest) with (x2b :: rest). cbn [parse_int]. change (Byte.eqb x2b x2d) with false. change (Byte.eqb x2b x2b) with true.
      cbn iota. by rewrite Hd.
    + change (txt "-" ++ rest) with (x2d :: rest). cbn [parse_int]. change (Byte.eqb x2d x2d) with true. cbn iota. by rewrite Hd.
Qed.
Print Assumptions C106_short_texts.

(** The texts [toString(radix)] writes are read back as the same number. *)
Theorem C106_round_trip :
  forall uk short radix i x, 2 <= radix <= 36 -> short_enough radix short -> stands_for i x ->
  exists t i', to_string_radix i radix = Ok t /\ parse_base uk short t radix = Ok (Some i') /\ stands_for i' x.
Proof.
  intros uk short radix i x Hr Hs Hi. destruct (to_string_radix_writes i x radix Hi Hr) as (t & Ht & Hw).
  destruct Hw as (ds & E & Hne & Hv & _). pose proof (text_value_lower radix ds 0 _ Hv) as El.
  destruct (parse_base_spec uk short radix ds (Z.abs x) (x <? 0) Hr Hs Hne) as (i' & E' & Hi'); [by rewrite El|].
  exists t, i'. split; [exact Ht|]. split; [by rewrite E|]. eapply stands_eq; [exact Hi'|]. destruct (Z.ltb_spec x 0); lia.
Qed.
Print Assumptions C106_round_trip.

Example C106_example :
  short_enough 16 (fun k => Nat.leb k 13)
  /\ denotes 16 (txt "-Ff") (-255)
  /\ parse_base (fun _ _ => false) (fun k => Nat.leb k 13) (txt "-Ff") 16 = Ok (Some (mk_small (-255)))
  /\ parse_base (fun _ _ => false) (fun k => Nat.leb k 13) (replicate 15 x66) 16 = Ok (parse_string (dec_text (2 ^ 60 - 1)))
  /\ parse_base (fun _ _ => false) (fun k => Nat.leb k 13) (txt "12g") 16 = Ok None
  /\ parse_base (fun _ _ => false) (fun k => Nat.leb k 13) (txt "0x1f") 16 = Ok None
  /\ parse_base (fun _ _ => false) (fun k => Nat.leb k 13) (txt "+1f.8") 16 = Ok (Some (mk_small 31)).
Proof.
  split.
  { intros k Hk. apply Nat.leb_le in Hk. apply Z.le_trans with (16 ^ 13); [apply Z.pow_le_mono_r; lia|vm_compute; discriminate]. }
  split; [exists true, (txt "Ff"), 255; split; [reflexivity|]; split; [discriminate|]; split; reflexivity|].
  repeat (split; [vm_compute; reflexivity|]). vm_compute. reflexivity.
Qed.
