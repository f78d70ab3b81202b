(** * BigIntDiv: division of arrays of digits *)

From Verif Require Export BigIntArr.
Local Open Scope Z_scope.

Lemma val_top2 l n : length l = S (S n) ->
  val l = val (take n l) + BASE ^ Z.of_nat n * (nth (S n) l 0 * 10000000 + nth n l 0).
Proof.
  intros Hl. rewrite (val_split' l n). f_equal. f_equal.
  assert (E : drop n l = [nth n l 0; nth (S n) l 0]).
  { revert l Hl. induction n as [|n IH]; intros l Hl.
    - destruct l as [|x [|y [|z l]]]; try discriminate. done.
    - destruct l as [|x l]; [discriminate|]. cbn [drop nth]. apply IH. by injection Hl. }
  rewrite E, !val_cons. change (val []) with 0. lia.
Qed.
Lemma val_top1 l n : length l = S n -> val l = val (take n l) + BASE ^ Z.of_nat n * nth n l 0.
Proof.
  intros Hl. rewrite (val_split' l n). f_equal. f_equal.
  assert (E : drop n l = [nth n l 0]).
  { revert l Hl. induction n as [|n IH]; intros l Hl.
    - destruct l as [|x [|y l]]; try discriminate. done.
    - destruct l as [|x l]; [discriminate|]. cbn [drop nth]. apply IH. by injection Hl. }
  rewrite E, val_cons. change (val []) with 0. lia.
Qed.
Lemma val_take_bound l n : digs l -> 0 <= val (take n l) < BASE ^ Z.of_nat n.
Proof.
  intros H. pose proof (val_bounds (take n l) (Forall_take _ _ _ H)) as [H1 H2]. split; [done|].
  eapply Z.lt_le_trans; [exact H2|]. apply Z.pow_le_mono_r; [done|]. rewrite take_length. lia.
Qed.
Lemma nth_digit l n : digs l -> digit (nth n l 0).
Proof.
  intros H. destruct (decide (n < length l)%nat) as [Hn|Hn].
  - apply (proj1 (List.Forall_forall _ _) H). by apply nth_In.
  - rewrite nth_overflow by lia. unfold digit. lia.
Qed.
Lemma BASE_pow_succ n : BASE ^ Z.of_nat (S n) = 10000000 * BASE ^ Z.of_nat n.
Proof. rewrite Nat2Z.inj_succ, Z.pow_succ_r by lia. done. Qed.

Lemma nth_take' (l : list Z) n i : (i < n)%nat -> nth i (take n l) 0 = nth i l 0.
Proof.
  revert l i. induction n as [|n IH]; intros l i H; [lia|]. destruct l as [|x l]; [by destruct i|].
  destruct i as [|i]; [done|]. cbn [take nth]. apply IH. lia.
Qed.
Lemma nth_skipn' (l : list Z) n i : nth i (drop n l) 0 = nth (n + i) l 0.
Proof.
  revert l. induction n as [|n IH]; intros l; [done|]. destruct l as [|x l]; [by destruct i|]. apply IH.
Qed.

(** ** [divMod1] *)

Lemma sub_mul_spec qd : 0 <= qd <= 9999999 -> forall divisor window carry borrow, digs divisor -> digs window ->
  length window = length divisor -> 0 <= carry <= 9999999 -> borrow = 0 \/ borrow = -1 ->
  exists co, let '(w, last) := sub_mul divisor window qd carry borrow in
    digs w /\ length w = length divisor /\ (last = 0 \/ last = -1)
    /\ 0 <= qd * val divisor + carry - BASE ^ Z.of_nat (length divisor) * co < BASE ^ Z.of_nat (length divisor)
    /\ val window + borrow - carry - qd * val divisor = val w + BASE ^ Z.of_nat (length divisor) * (last - co).
Proof.
  intros Hq. induction divisor as [|d divisor IH]; intros window carry borrow Hd Hw Hl Hc Hb.
  { destruct window; [|discriminate]. exists carry. cbn. split_and!; [constructor|done|done|lia|lia|lia]. }
  destruct window as [|r window]; [discriminate|]. injection Hl as Hl. inversion_clear Hd as [|? ? Hd0 Hd'].
  inversion_clear Hw as [|? ? Hr0 Hw']. unfold digit in Hd0, Hr0. cbn [sub_mul length]. rewrite !BASE_pow_succ.
  set (P := BASE ^ Z.of_nat (length divisor)) in *. rewrite BASE_eq.
  assert (Hp : 0 <= qd * d <= 9999999 * 9999999) by nia. rewrite (nmul_small qd) by lia. rewrite (nadd_small carry) by lia.
  set (p := qd * d) in *. assert (Hpe : p = qd * d) by done. clearbody p. rewrite floor_div_exact by lia.
  pose proof (Z.div_mod (carry + p) 10000000 ltac:(lia)) as Hdm.
  pose proof (Z.mod_pos_bound (carry + p) 10000000 ltac:(lia)) as Hr. set (q := (carry + p) / 10000000) in *.
  set (t := (carry + p) mod 10000000) in *. clearbody q t.
  rewrite (nmul_small q) by lia. rewrite (nsub_small (carry + p)) by lia. rewrite (nsub_small r) by lia.
  rewrite (nadd_small borrow) by lia. set (s := borrow + (r - (carry + p - q * 10000000))).
  assert (Hs : s = borrow + r - t) by (unfold s; lia). clearbody s.
  destruct (Z.ltb_spec s 0) as [Hneg|Hpos].
  - destruct (IH window q (-1) Hd' Hw' Hl ltac:(lia) ltac:(lia)) as (co & HI).
    destruct (sub_mul divisor window qd q (-1)) as [w last]. destruct HI as (I1 & I2 & I3 & I4 & I5).
    exists co. rewrite nadd_small by lia. split; [constructor; [unfold digit; lia|done]|].
    rewrite !val_cons. split; [cbn [length]; lia|]. split; [done|]. clearbody P. split; [|nia].
    assert (E : qd * (d + 10000000 * val divisor) + carry - 10000000 * P * co
            = t + 10000000 * (qd * val divisor + q - P * co)) by lia.
    rewrite E. lia.
  - destruct (IH window q 0 Hd' Hw' Hl ltac:(lia) ltac:(lia)) as (co & HI).
    destruct (sub_mul divisor window qd q 0) as [w last]. destruct HI as (I1 & I2 & I3 & I4 & I5).
    exists co. split; [constructor; [unfold digit; lia|done]|].
    rewrite !val_cons. split; [cbn [length]; lia|]. split; [done|]. clearbody P. split; [|nia].
    assert (E : qd * (d + 10000000 * val divisor) + carry - 10000000 * P * co
            = t + 10000000 * (qd * val divisor + q - P * co)) by lia.
    rewrite E. lia.
Qed.

Lemma add_back_spec divisor : forall window carry, digs divisor -> digs window -> length window = length divisor ->
  carry = 0 \/ carry = 1 ->
  let '(w, last) := add_back divisor window carry in
    digs w /\ length w = length divisor /\ (last = 0 \/ last = 1)
    /\ val w + BASE ^ Z.of_nat (length divisor) * last = val window + val divisor + carry.
Proof.
  induction divisor as [|d divisor IH]; intros window carry Hd Hw Hl Hc.
  { destruct window; [|discriminate]. cbn. split_and!; [constructor|done|lia|lia]. }
  destruct window as [|r window]; [discriminate|]. injection Hl as Hl. inversion_clear Hd as [|? ? Hd0 Hd'].
  inversion_clear Hw as [|? ? Hr0 Hw']. unfold digit in Hd0, Hr0. cbn [add_back length]. rewrite !BASE_pow_succ.
  set (P := BASE ^ Z.of_nat (length divisor)) in *. rewrite BASE_eq.
  rewrite (nsub_small r) by lia. rewrite (nadd_small (r - 10000000)) by lia. rewrite (nadd_small carry) by lia.
  destruct (Z.ltb_spec (carry + (r - 10000000 + d)) 0) as [Hneg|Hpos].
  - specialize (IH window 0 Hd' Hw' Hl ltac:(lia)). destruct (add_back divisor window 0) as [w last].
    destruct IH as (I1 & I2 & I3 & I4). rewrite nadd_small by lia. split; [constructor; [unfold digit; lia|done]|].
    rewrite !val_cons. split; [cbn [length]; lia|]. split; [done|]. clearbody P. lia.
  - specialize (IH window 1 Hd' Hw' Hl ltac:(lia)). destruct (add_back divisor window 1) as [w last].
    destruct IH as (I1 & I2 & I3 & I4). split; [constructor; [unfold digit; lia|done]|].
    rewrite !val_cons. split; [cbn [length]; lia|]. split; [done|]. clearbody P. lia.
Qed.

Lemma correct_spec divisor : digs divisor -> forall fuel window qd borrow, digs window ->
  length window = length divisor -> borrow = 0 \/ borrow = -1 -> 0 <= qd <= 9999999 ->
  0 <= qd * val divisor + (val window + BASE ^ Z.of_nat (length divisor) * borrow) ->
  - Z.of_nat fuel * val divisor <= val window + BASE ^ Z.of_nat (length divisor) * borrow < val divisor ->
  exists w q, correct fuel divisor window qd borrow = Ok (w, q) /\ digs w /\ length w = length divisor
    /\ 0 <= q <= qd /\ 0 <= val w < val divisor
    /\ q * val divisor + val w = qd * val divisor + (val window + BASE ^ Z.of_nat (length divisor) * borrow).
Proof.
  intros Hd. pose proof (val_nonneg divisor Hd) as HD. induction fuel as [|fuel IH]; intros window qd borrow Hw Hl Hb Hq Htot Hr.
  - pose proof (val_bounds window Hw) as Hwb. rewrite Hl in Hwb. set (P := BASE ^ Z.of_nat (length divisor)) in *. clearbody P.
    assert (borrow = 0) as -> by lia. cbn [correct]. change (0 =? 0) with true. cbv iota.
    exists window, qd. split_and!; try done; lia.
  - pose proof (val_bounds window Hw) as Hwb. rewrite Hl in Hwb. cbn [correct]. destruct Hb as [->| ->].
    { change (0 =? 0) with true. cbv iota. exists window, qd. split_and!; try done; lia. }
    change (-1 =? 0) with false. cbv iota. pose proof (add_back_spec divisor window 0 Hd Hw Hl ltac:(lia)) as HA.
    destruct (add_back divisor window 0) as [w last]. destruct HA as (A1 & A2 & A3 & A4).
    assert (Hq1 : 1 <= qd). { set (P := BASE ^ Z.of_nat (length divisor)) in *. clearbody P. nia. }
    rewrite (nsub_small qd) by lia. rewrite (nadd_small (-1)) by lia.
    destruct (IH w (qd - 1) (-1 + last) A1 A2 ltac:(lia) ltac:(lia)) as (w' & q & E & I1 & I2 & I3 & I4 & I5).
    + set (P := BASE ^ Z.of_nat (length divisor)) in *. clearbody P. lia.
    + set (P := BASE ^ Z.of_nat (length divisor)) in *. clearbody P. lia.
    + exists w', q. split; [exact E|]. split_and!; try done; try lia.
Qed.

Section div1.
  Context (bl : nat) (divisor : list Z) (msd : Z).
  Hypothesis Hbl : (1 <= bl)%nat.
  Hypothesis Hdig : digs divisor.
  Hypothesis Hlen : length divisor = S bl.
  Hypothesis Htop : nth bl divisor 0 = 0.
  Hypothesis Hmsd : nth (bl - 1) divisor 0 = msd.
  Hypothesis Hnorm : 5000000 <= msd.

  Lemma div1_divisor : val divisor < BASE ^ Z.of_nat bl
    /\ BASE ^ Z.of_nat (bl - 1) * msd <= val divisor < BASE ^ Z.of_nat (bl - 1) * (msd + 1).
  Proof.
    destruct bl as [|n]; [lia|]. replace (S n - 1)%nat with n in * by lia. pose proof (val_top2 divisor n Hlen) as Hv.
    rewrite Htop, Hmsd in Hv. pose proof (val_take_bound divisor n Hdig) as Hb.
    pose proof (nth_digit divisor n Hdig) as Hm. rewrite Hmsd in Hm. unfold digit in Hm. rewrite BASE_pow_succ.
    set (P := BASE ^ Z.of_nat n) in *. clearbody P. nia.
  Qed.

  (** one digit of the quotient *)
  Lemma div1_digit remainder shift : digs remainder -> (shift + S bl <= length remainder)%nat ->
    val (drop (S shift) remainder) < val divisor ->
    let top := nth (shift + bl) remainder 0 in
    let quotient_digit :=
      if top =? msd then BASE ⊖ 1 else floor_div (top ⊗ BASE ⊕ nth (shift + bl - 1) remainder 0) msd in
    let '(window, borrow) := sub_mul divisor (take (length divisor) (drop shift remainder)) quotient_digit 0 0 in
    exists w q, correct 4 divisor window quotient_digit borrow = Ok (w, q) /\ digs w /\ length w = length divisor
      /\ 0 <= q <= 9999999 /\ 0 <= val w < val divisor
      /\ val (drop shift remainder) = q * val divisor + val w
      /\ val (drop (shift + length divisor) remainder) = 0.
  Proof.
    intros Hr Hl Hinv. destruct div1_divisor as (HD1 & HD2 & HD3).
    assert (HW : val (drop shift remainder) < 10000000 * val divisor).
    { assert (E : drop shift remainder = nth shift remainder 0 :: drop (S shift) remainder).
      { clear -Hl. assert (H : (shift < length remainder)%nat) by lia. clear Hl. revert shift H.
        induction remainder as [|x l IH]; intros shift H; [cbn in H; lia|]. destruct shift as [|shift]; [done|].
        cbn [drop nth]. apply IH. cbn in H. lia. }
      rewrite E, val_cons. pose proof (nth_digit remainder shift Hr) as Hn. unfold digit in Hn. lia. }
    assert (Hrest : val (drop (shift + length divisor) remainder) = 0
                    /\ val (drop shift remainder) = val (take (length divisor) (drop shift remainder))).
    { pose proof (val_split' (drop shift remainder) (length divisor)) as Hs. rewrite drop_drop in Hs.
      pose proof (val_nonneg (drop (shift + length divisor) remainder) (Forall_drop _ _ _ Hr)) as H1.
      pose proof (val_nonneg (take (length divisor) (drop shift remainder)) (Forall_take _ _ _ (Forall_drop _ _ _ Hr))) as H2.
      rewrite Hlen, BASE_pow_succ in Hs. rewrite Hlen in H1, H2 |- *.
      set (P := BASE ^ Z.of_nat bl) in *. assert (0 < P) by (unfold P; apply BASE_pow_pos). clearbody P.
      set (x := val (drop (shift + S bl) remainder)) in *. set (y := val (take (S bl) (drop shift remainder))) in *.
      clearbody x y. assert (x = 0) by nia. subst x. lia. }
    destruct Hrest as [Hrest Hwin]. set (w0 := take (length divisor) (drop shift remainder)) in *.
    assert (Hw0 : digs w0) by (apply Forall_take, Forall_drop, Hr).
    assert (Hw0l : length w0 = length divisor) by (unfold w0; rewrite take_length, drop_length; lia).
    assert (Hn1 : nth (shift + bl) remainder 0 = nth bl w0 0).
    { unfold w0. rewrite nth_take' by lia. rewrite nth_skipn'. done. }
    assert (Hn2 : nth (shift + bl - 1) remainder 0 = nth (bl - 1) w0 0).
    { unfold w0. rewrite nth_take' by lia. rewrite nth_skipn'. f_equal. lia. }
    rewrite Hn1, Hn2. rewrite Hwin in HW. clearbody w0.
    destruct bl as [|n] eqn:Ebl; [lia|]. replace (S n - 1)%nat with n in * by lia.
    pose proof (val_top2 w0 n ltac:(lia)) as HWv. pose proof (val_take_bound w0 n Hw0) as Hlow.
    pose proof (nth_digit w0 n Hw0) as Ht0. pose proof (nth_digit w0 (S n) Hw0) as Ht1.
    set (low := val (take n w0)) in *. set (t0 := nth n w0 0) in *. set (t1 := nth (S n) w0 0) in *.
    unfold digit in Ht0, Ht1. clearbody low t0 t1.
    pose proof (nth_digit divisor n Hdig) as Hm. rewrite Hmsd in Hm. unfold digit in Hm.
    rewrite BASE_pow_succ in HD1. set (P := BASE ^ Z.of_nat n) in *. assert (HP : 0 < P) by (unfold P; apply BASE_pow_pos).
    set (D := val divisor) in *. set (W := val w0) in *.
    assert (Htm : t1 <= msd).
    { destruct (Z.le_gt_cases t1 msd) as [|Hgt]; [done|]. exfalso. assert (P * (msd + 1) * 10000000 <= W); [|nia].
      assert (P * (msd + 1) * 10000000 <= P * t1 * 10000000) by nia. nia. }
    cbv zeta. set (qd := if t1 =? msd then BASE ⊖ 1 else floor_div (t1 ⊗ BASE ⊕ t0) msd).
    assert (Hqd : 0 <= qd <= 9999999 /\ - 2 * D <= W - qd * D < D).
    { unfold qd. rewrite BASE_eq. destruct (Z.eqb_spec t1 msd) as [E|E].
      - rewrite nsub_small by lia. subst t1. change (10000000 - 1) with 9999999. split; [lia|]. split; [|lia].
        assert (P * (msd * 10000000) <= W) by nia. assert (9999999 * D <= 9999999 * (P * (msd + 1))) by lia.
        assert (P * msd * 2 >= P * 10000000) by nia. nia.
      - rewrite (nmul_small t1) by lia. rewrite nadd_small by lia.
        set (h := t1 * 10000000 + t0) in *. assert (Hh : 0 <= h < msd * 10000000) by (unfold h; lia).
        rewrite floor_div_exact by lia. pose proof (Z.div_mod h msd ltac:(lia)) as Hdm.
        pose proof (Z.mod_pos_bound h msd ltac:(lia)) as Hmr.
        assert (Hqb : 0 <= h / msd <= 9999999).
        { split; [apply Z.div_pos; lia|]. assert (h / msd < 10000000); [|lia]. apply Z.div_lt_upper_bound; lia. }
        set (q := h / msd) in *. set (r := h mod msd) in *. clearbody q r h. split; [lia|].
        assert (H1 : P * h <= W) by lia. assert (H2 : W < P * (h + 1)) by lia. split.
        + assert (H3 : q * D <= q * (P * (msd + 1))) by (apply Z.mul_le_mono_nonneg_l; lia).
          assert (H4 : q * (P * (msd + 1)) = P * (msd * q) + P * q) by ring.
          assert (H5 : P * (msd * q) <= P * h) by (apply Z.mul_le_mono_nonneg_l; lia).
          assert (H6 : P * q <= P * 10000000) by (apply Z.mul_le_mono_nonneg_l; lia).
          assert (H7 : P * 10000000 <= P * (2 * msd)) by (apply Z.mul_le_mono_nonneg_l; lia). lia.
        + assert (H3 : (q + 1) * (P * msd) <= (q + 1) * D) by (apply Z.mul_le_mono_nonneg_l; lia).
          assert (H4 : P * (h + 1) <= P * ((q + 1) * msd)) by (apply Z.mul_le_mono_nonneg_l; lia).
          assert (H5 : (q + 1) * (P * msd) = P * ((q + 1) * msd)) by ring. lia. }
    destruct Hqd as [Hqd HR]. clearbody qd.
    destruct (sub_mul_spec qd Hqd divisor w0 0 0 Hdig Hw0 Hw0l ltac:(lia) ltac:(lia)) as (co & HS).
    destruct (sub_mul divisor w0 qd 0 0) as [w last]. destruct HS as (S1 & S2 & S3 & S4 & S5).
    fold D W in S4, S5. rewrite Hlen, !BASE_pow_succ in S4, S5. fold P in S4, S5.
    assert (Hco : co = 0).
    { assert (Hx0 : 0 <= qd * D) by (apply Z.mul_nonneg_nonneg; lia).
      assert (Hx1 : qd * D <= 9999999 * D) by (apply Z.mul_le_mono_nonneg_r; lia).
      assert (Hx2 : qd * D < 10000000 * (10000000 * P)) by lia. clear -S4 Hx0 Hx2 HP.
      set (M := 10000000 * (10000000 * P)) in *. assert (HM : 0 < M) by lia. set (X := qd * D) in *. clearbody M X. nia. }
    subst co.
    destruct (correct_spec divisor Hdig 4 w qd last S1 S2 S3 Hqd) as (w' & q & E & C1 & C2 & C3 & C4 & C5).
    - rewrite Hlen, !BASE_pow_succ. fold P D. pose proof (val_nonneg w0 Hw0) as HW0. fold W in HW0.
      clearbody P D W. lia.
    - rewrite Hlen, !BASE_pow_succ. fold P D. pose proof (val_nonneg w0 Hw0) as HW0. fold W in HW0.
      assert (HDn : 0 <= D) by nia. clearbody P D W. lia.
    - exists w', q. split; [exact E|]. split_and!; try done; try lia.
      rewrite Hlen, !BASE_pow_succ in C5. fold P D in C5. fold D. clearbody P D W. lia.
  Qed.

  Lemma div1_loop_spec k : forall remainder result, digs remainder -> (k + bl <= length remainder)%nat ->
    val (drop k remainder) < val divisor ->
    exists qs rem, div1_loop k bl divisor msd remainder result = Ok (qs ++ result, rem)
      /\ length qs = k /\ digs qs /\ digs rem /\ 0 <= val rem < val divisor
      /\ val remainder = val qs * val divisor + val rem.
  Proof.
    induction k as [|shift IH]; intros remainder result Hr Hl Hinv.
    { exists [], remainder. cbn [div1_loop]. change (drop 0 remainder) with remainder in Hinv.
      pose proof (val_nonneg _ Hr). change (val []) with 0. split_and!; try done; try lia. }
    cbn [div1_loop]. pose proof (div1_digit remainder shift Hr ltac:(lia) Hinv) as HD. cbv zeta in HD.
    set (qd := if nth (shift + bl) remainder 0 =? msd then _ else _) in *. clearbody qd.
    destruct (sub_mul divisor (take (length divisor) (drop shift remainder)) qd 0 0) as [window borrow].
    destruct HD as (w & q & -> & D1 & D2 & D3 & D4 & D5 & D6). cbn [rbind].
    set (rest := drop (shift + length divisor) remainder) in *.
    assert (Hrest : digs rest) by (by apply Forall_drop).
    assert (Hts : length (take shift remainder) = shift) by (rewrite take_length; lia).
    set (rem' := take shift remainder ++ w ++ rest).
    assert (Hrem' : digs rem') by (apply Forall_app; split; [by apply Forall_take|by apply Forall_app]).
    assert (Hd' : drop shift rem' = w ++ rest) by (unfold rem'; by rewrite drop_app_alt).
    assert (Hvw : val (w ++ rest) = val w) by (rewrite val_app, D6; lia).
    destruct (IH rem' (q :: result) Hrem') as (qs & rem & E & I1 & I2 & I3 & I4 & I5).
    - unfold rem', rest. rewrite !app_length, Hts, drop_length. lia.
    - rewrite Hd', Hvw. lia.
    - exists (qs ++ [q]), rem. rewrite E. rewrite <- app_assoc. split; [done|].
      split; [rewrite app_length; cbn; lia|]. split; [apply Forall_app; split; [done|repeat constructor; unfold digit; lia]|].
      split; [done|]. split; [done|]. rewrite (val_split' remainder shift), D5.
      rewrite (val_split' rem' shift), Hd', Hvw in I5. unfold rem' in I5. rewrite take_app_alt in I5 by done.
      rewrite val_app, I1. rewrite val_cons. change (val []) with 0.
      set (P := BASE ^ Z.of_nat shift) in *. clearbody P. lia.
  Qed.
End div1.

Lemma mul_small_loop_length a b : forall carry, (length a <= length (mul_small_loop a b carry))%nat.
Proof. induction a as [|x a IH]; intros carry; cbn [mul_small_loop length]; [lia|]. specialize (IH (floor_div (x ⊗ b ⊕ carry) BASE)). lia. Qed.

(** The factor that normalises a divisor. *)
Lemma lambda_spec m : 1 <= m < 10000000 ->
  exists lambda, ceil_div BASE (2 ⊗ m) = lambda /\ 1 <= lambda <= 5000000 /\ 10000000 <= lambda * (2 * m)
    /\ lambda * (m + 1) <= 10000000.
Proof.
  intros Hm. exists (ceil_div BASE (2 ⊗ m)). split; [done|]. rewrite (nmul_small 2) by lia. rewrite BASE_eq.
  rewrite ceil_div_exact by lia. pose proof (Z.div_mod (- (10000000)) (2 * m) ltac:(lia)) as Hdm.
  pose proof (Z.mod_pos_bound (- (10000000)) (2 * m) ltac:(lia)) as Hr.
  set (q := - (10000000) / (2 * m)) in *. set (r := - (10000000) mod (2 * m)) in *. clearbody q r.
  set (l := - q). assert (Hl : 10000000 + r = l * (2 * m)) by (unfold l; lia). clearbody l. clear q Hdm.
  assert (H1 : 1 <= l) by nia. assert (H2 : l <= 5000000) by nia. split; [lia|]. split; [lia|].
  destruct (decide (m = 1)) as [->|]; [lia|]. destruct (decide (5000000 <= m)) as [Hbig|Hbig].
  { assert (l = 1) by nia. nia. }
  (* between 2 and 4999999: l <= (10^7 - 1) / 2m + 1 *)
  assert (Hlb : l * (2 * m) <= 9999999 + 2 * m) by lia.
  assert (Hg : 2 * m * (l * (m + 1)) <= (9999999 + 2 * m) * (m + 1)) by nia.
  destruct (decide (m = 4999999)) as [->|]; [nia|].
  assert (Hc : (9999999 + 2 * m) * (m + 1) <= 2 * m * 10000000).
  { assert ((m - 2) * (4999998 - m) >= 0) by nia. nia. }
  nia.
Qed.

Lemma div_mod1_spec a b : digs a -> digs b -> canon b -> b <> [] -> val b <= val a ->
  exists q r, div_mod1 a b = Ok (q, r) /\ array_value q (val a / val b) /\ array_value r (val a mod val b).
Proof.
  intros Ha Hb Hcb Hne Hle. pose proof (canon_length b a Hb Hcb Ha Hle) as Hll. unfold div_mod1.
  set (bl := length b) in *. assert (Hbl : (1 <= bl)%nat) by (unfold bl; destruct b; [done|cbn; lia]).
  assert (Hbl' : length b = S (bl - 1)) by (unfold bl in *; lia).
  pose proof (nth_digit b (bl - 1) Hb) as Hm0. unfold digit in Hm0.
  assert (Hm : nth (bl - 1) b 0 <> 0).
  { pose proof (canon_lower b Hb Hcb Hne) as Hlow. pose proof (val_top1 b (bl - 1) Hbl') as Hv. fold bl in Hlow.
    pose proof (val_take_bound b (bl - 1) Hb). intros Hz. rewrite Hz in Hv. lia. }
  destruct (lambda_spec (nth (bl - 1) b 0) ltac:(lia)) as (lambda & -> & Hlam1 & Hlam2 & Hlam3).
  set (m := nth (bl - 1) b 0) in *.
  destruct (mul_small_spec a lambda ltac:(lia) Ha) as (Hra & Vra & _).
  destruct (mul_small_spec b lambda ltac:(lia) Hb) as (Hrb & Vrb & Crb). specialize (Crb ltac:(lia) Hcb).
  pose proof (val_top1 b (bl - 1) Hbl') as Hvb. fold m in Hvb. pose proof (val_take_bound b (bl - 1) Hb) as Htb.
  assert (Hbpow : BASE ^ Z.of_nat bl = 10000000 * BASE ^ Z.of_nat (bl - 1)).
  { replace bl with (S (bl - 1)) at 1 by lia. apply BASE_pow_succ. }
  set (P := BASE ^ Z.of_nat (bl - 1)) in *. assert (HP : 0 < P) by apply BASE_pow_pos.
  assert (Hlb : length (mul_small b lambda) = bl).
  { assert (H1 : (bl <= length (mul_small b lambda))%nat) by apply mul_small_loop_length.
    assert (H2 : val (mul_small b lambda) < BASE ^ Z.of_nat bl).
    { rewrite Vrb, Hbpow. assert (val b < P * (m + 1)) by lia. assert (val b * lambda < P * (m + 1) * lambda) by nia. nia. }
    destruct (decide (length (mul_small b lambda) <= bl)%nat); [lia|]. exfalso.
    pose proof (canon_lower _ Hrb Crb ltac:(intros E; rewrite E in H1; cbn in H1; lia)) as H3.
    assert (BASE ^ Z.of_nat bl <= BASE ^ Z.of_nat (length (mul_small b lambda) - 1)); [|lia].
    apply Z.pow_le_mono_r; [done|lia]. }
  set (divisor := mul_small b lambda ++ [0]). set (rem0 := mul_small a lambda) in *.
  set (remainder := if (length rem0 <=? length a)%nat then rem0 ++ [0] else rem0).
  assert (Hdl : length divisor = S bl) by (unfold divisor; rewrite app_length; cbn; lia).
  assert (Hdd : digs divisor) by (apply Forall_app; split; [done|repeat constructor; unfold digit; lia]).
  assert (Hdv : val divisor = val b * lambda).
  { unfold divisor. rewrite val_app. change (val [0]) with 0. lia. }
  assert (Hdt : nth bl divisor 0 = 0).
  { unfold divisor. rewrite app_nth2 by lia. by replace (bl - length (mul_small b lambda))%nat with 0%nat by lia. }
  assert (Hdm : nth (bl - 1) divisor 0 = nth (bl - 1) (mul_small b lambda) 0) by (unfold divisor; rewrite app_nth1 by lia; done).
  assert (Hrl : (length a + 1 <= length remainder)%nat).
  { unfold remainder. assert (length a <= length rem0)%nat by apply mul_small_loop_length.
    destruct (Nat.leb_spec (length rem0) (length a)); [rewrite app_length; cbn|]; lia. }
  assert (Hrd : digs remainder).
  { unfold remainder. destruct (length rem0 <=? length a)%nat; [apply Forall_app; split; [done|repeat constructor; unfold digit; lia]|done]. }
  assert (Hrv : val remainder = val a * lambda).
  { unfold remainder. destruct (length rem0 <=? length a)%nat; [rewrite val_app; change (val [0]) with 0; lia|done]. }
  set (msd := nth (bl - 1) divisor 0) in *.
  assert (Hnorm : 5000000 <= msd).
  { pose proof (val_top1 (mul_small b lambda) (bl - 1) ltac:(lia)) as Hv. rewrite <- Hdm in Hv. fold msd P in Hv.
    pose proof (val_take_bound (mul_small b lambda) (bl - 1) Hrb) as Ht. fold P in Ht.
    assert (P * m * lambda <= val b * lambda) by nia. nia. }
  set (k := (length a - bl + 1)%nat).
  assert (Hk0 : val (drop k remainder) < val divisor).
  { pose proof (val_split' remainder k) as Hs. pose proof (val_take_bound remainder k Hrd) as Ht.
    assert (Hab : val a < BASE ^ Z.of_nat (length a)) by by apply val_bounds.
    assert (Hpk : BASE ^ Z.of_nat (length a) = BASE ^ Z.of_nat k * P).
    { unfold P. rewrite <- Z.pow_add_r by lia. f_equal. unfold k. lia. }
    rewrite Hpk in Hab. rewrite Hrv in Hs. rewrite Hdv. set (K := BASE ^ Z.of_nat k) in *.
    assert (HK : 0 < K) by apply BASE_pow_pos. clearbody K. set (x := val (drop k remainder)) in *.
    assert (P <= val b) by nia. assert (Hx : K * x < K * (P * lambda)) by nia.
    assert (x < P * lambda) by nia. nia. }
  assert (Hrl2 : (k + bl <= length remainder)%nat) by (unfold k; lia).
  destruct (div1_loop_spec bl divisor msd Hbl Hdd Hdl Hdt eq_refl Hnorm k remainder [] Hrd Hrl2 Hk0)
    as (qs & rem & E & L1 & L2 & L3 & L4 & L5).
  rewrite E. cbn [rbind]. rewrite app_nil_r. clear E.
  rewrite Hrv, Hdv in L5. rewrite Hdv in L4.
  destruct (div_small_spec rem lambda ltac:(lia) L3) as (S1 & S2 & S3).
  set (q2 := fst (div_small rem lambda)) in *. set (r2 := snd (div_small rem lambda)) in *.
  assert (Hb0 : 0 < val b) by by apply canon_pos.
  assert (Hr2 : r2 = 0).
  { assert (Hr2 : r2 = lambda * (val a - val qs * val b - val q2)) by lia.
    set (z := val a - val qs * val b - val q2) in *. clearbody z r2. clear -Hr2 S3 Hlam1.
    assert (z = 0) by nia. subst z. lia. }
  assert (Hval : val a = val b * val qs + val q2).
  { apply (Z.mul_reg_l _ _ lambda); [lia|]. lia. }
  assert (Hbnd : 0 <= val q2 < val b).
  { split; [by apply val_nonneg|]. apply (Z.mul_lt_mono_pos_r lambda); [lia|]. lia. }
  assert (Hq : val a / val b = val qs) by (symmetry; by apply Z.div_unique with (val q2); [lia|]).
  assert (Hr : val a mod val b = val q2) by (symmetry; by apply Z.mod_unique with (val qs); [lia|]).
  rewrite Hq, Hr. eexists _, _. split; [reflexivity|]. split.
  - assert (Hv : val qs = val (qs ++ create_array (bl - length qs))) by (rewrite val_app, val_create; lia).
    rewrite Hv. apply array_to_small_spec. apply Forall_app. split; [done|apply digs_create].
  - by apply array_to_small_spec.
Qed.

(** ** [divMod2] *)

Lemma guess_bounds X Y q : 10000000 <= Y < 2 ^ 53 -> 0 < X <= 20000000 * Y -> 0 <= q <= 10000000 -> q * Y <= X ->
  q <= ceil_div (rnd X) Y <= 100000000.
Proof.
  intros HY HX Hq Hle. set (x := rnd X).
  assert (Hx : 2 ^ 53 * x <= (2 ^ 53 + 1) * X /\ (2 ^ 53 - 1) * X <= 2 ^ 53 * x /\ 0 < x).
  { unfold x, rnd. pose proof (f64_err (Z.abs_N X)) as [H1 H2].
    rewrite Z.sgn_pos by lia. set (f := f64_of (Z.abs_N X)) in *. lia. }
  destruct Hx as (Hx1 & Hx2 & Hx3). clearbody x. unfold ceil_div, floor_div.
  destruct (Z.leb_spec 0 (- x)) as [H|_]; [lia|]. rewrite Z.opp_involutive, quo_eq.
  pose proof (quo_arg_bounds (Z.abs_N (- x)) (Z.abs_N Y) ltac:(lia)) as [Hn1 Hn2].
  pose proof (f64_err (quo_arg (Z.abs_N (- x)) (Z.abs_N Y))) as [Hf1 Hf2].
  set (n := quo_arg (Z.abs_N (- x)) (Z.abs_N Y)) in *. set (f := f64_of n) in *. clearbody n f.
  set (d := Z.abs_N Y) in *. assert (Hd : Z.of_N d = Y) by lia. assert (Hd0 : (0 < d)%N) by lia. clearbody d.
  set (xn := Z.abs_N (- x)) in *. assert (Hxn : Z.of_N xn = x) by lia. clearbody xn. subst Y x.
  assert (Hf1' : (2 ^ 53 * (f * d) <= (2 ^ 53 + 1) * (n * d))%N) by nia.
  assert (Hf2' : ((2 ^ 53 - 1) * (n * d) <= 2 ^ 53 * (f * d))%N) by nia. clear Hf1 Hf2.
  assert (HQ : q * Z.of_N d <= 10000000 * Z.of_N d) by nia.
  assert (HfL : (q - 1) * Z.of_N d * 2 ^ 121 < Z.of_N (f * d)).
  { set (F := (f * d)%N) in *. set (M := (n * d)%N) in *. clearbody F M.
    replace ((q - 1) * Z.of_N d * 2 ^ 121) with ((q * Z.of_N d - Z.of_N d) * 2 ^ 121) by ring.
    set (Q := q * Z.of_N d) in *. clearbody Q. change (2 ^ 121) with 2658455991569831745807614120560689152.
    change (2 ^ 121)%N with 2658455991569831745807614120560689152%N in *.
    change (2 ^ 53)%N with 9007199254740992%N in *. change (2 ^ 53) with 9007199254740992 in *. lia. }
  assert (HfU : Z.of_N (f * d) <= 99999999 * Z.of_N d * 2 ^ 121).
  { set (F := (f * d)%N) in *. set (M := (n * d)%N) in *. clearbody F M.
    change (2 ^ 121) with 2658455991569831745807614120560689152.
    change (2 ^ 121)%N with 2658455991569831745807614120560689152%N in *.
    change (2 ^ 53)%N with 9007199254740992%N in *. change (2 ^ 53) with 9007199254740992 in *. lia. }
  assert (HfL' : (q - 1) * 2 ^ 121 < Z.of_N f).
  { apply (Z.mul_lt_mono_pos_r (Z.of_N d)); [lia|]. lia. }
  assert (HfU' : Z.of_N f <= 99999999 * 2 ^ 121).
  { apply (Z.mul_le_mono_pos_r _ _ (Z.of_N d)); [lia|]. lia. }
  rewrite N2Z.inj_div. replace (Z.of_N (f + 2 ^ 121 - 1)) with (Z.of_N f + 2 ^ 121 - 1) by lia.
  change (Z.of_N (2 ^ 121)) with (2 ^ 121). split.
  - apply Z.div_le_lower_bound; lia.
  - apply Z.div_le_upper_bound; lia.
Qed.

Lemma find_guess_spec part b q : digs part -> canon part -> digs b -> canon b -> b <> [] ->
  1 <= q -> q * val b <= val part < (q + 1) * val b ->
  forall fuel guess, q <= guess <= 100000000 -> guess - q < Z.of_nat fuel ->
  find_guess fuel part b guess = Ok (q, mul_small b q).
Proof.
  intros Hp Hcp Hb Hcb Hne Hq Hqb. pose proof (canon_pos b Hb Hcb Hne) as Hb0.
  induction fuel as [|fuel IH]; intros guess Hg Hf; [lia|]. cbn [find_guess].
  destruct (mul_small_spec b guess ltac:(lia) Hb) as (M1 & M2 & M3). specialize (M3 ltac:(lia) Hcb).
  rewrite (compare_arrays_spec _ _ M1 M3 Hp Hcp), M2.
  destruct (Z.compare_spec (val b * guess) (val part)) as [E|E|E]; cbn [comparison_number].
  - change (0 <=? 0) with true. cbv iota. assert (guess = q) as -> by nia. done.
  - change (-1 <=? 0) with true. cbv iota. assert (guess = q) as -> by nia. done.
  - change (1 <=? 0) with false. cbv iota. assert (q <> guess) by (intros ->; lia).
    rewrite nsub_small by lia. destruct (Z.eqb_spec (guess - 1) 0); [lia|]. apply IH; lia.
Qed.

Lemma div2_guess part b : digs part -> canon part -> digs b -> canon b -> (2 <= length b)%nat ->
  val b <= val part < 10000000 * val b ->
  let xlen := length part in
  let highx := nth (xlen - 1) part 0 ⊗ BASE ⊕ nth (xlen - 2) part 0 in
  let highy := nth (length b - 1) b 0 ⊗ BASE ⊕ nth (length b - 2) b 0 in
  let highx := if (length b <? xlen)%nat then (highx ⊕ 1) ⊗ BASE else highx in
  val part / val b <= ceil_div highx highy <= 100000000.
Proof.
  intros Hp Hcp Hb Hcb Hlb Hle. cbv zeta. set (q := val part / val b).
  assert (Hb0 : 0 < val b) by (apply canon_pos; try done; intros ->; cbn in Hlb; lia).
  pose proof (Z.div_mod (val part) (val b) ltac:(lia)) as Hdm. pose proof (Z.mod_pos_bound (val part) (val b) ltac:(lia)) as Hr.
  fold q in Hdm. set (r := val part mod val b) in *. clearbody q r.
  assert (Hq : 0 <= q <= 9999999).
  { split; [nia|]. assert (q < 10000000); [nia|lia]. }
  assert (Hl1 : (length b <= length part)%nat) by (apply canon_length; try done; lia).
  assert (Hl2 : (length part <= S (length b))%nat).
  { destruct (decide (length part <= S (length b))%nat); [done|]. exfalso.
    pose proof (canon_lower part Hp Hcp ltac:(intros ->; cbn in *; lia)) as H1. pose proof (val_bounds b Hb) as [_ H2].
    assert (BASE ^ Z.of_nat (S (length b)) <= BASE ^ Z.of_nat (length part - 1)) as H3 by (apply Z.pow_le_mono_r; [done|lia]).
    rewrite BASE_pow_succ in H3. lia. }
  set (n := (length b - 2)%nat). assert (Hn : length b = S (S n)) by lia.
  pose proof (val_top2 b n Hn) as Vb. pose proof (val_take_bound b n Hb) as Tb.
  pose proof (nth_digit b n Hb) as B0. pose proof (nth_digit b (S n) Hb) as B1. unfold digit in B0, B1.
  replace (length b - 1)%nat with (S n) by lia. 
  assert (Hb1 : nth (S n) b 0 <> 0).
  { pose proof (canon_lower b Hb Hcb ltac:(intros ->; cbn in *; lia)) as H1. rewrite Hn in H1.
    replace (S (S n) - 1)%nat with (S n) in H1 by lia. rewrite BASE_pow_succ in H1. intros Hz. rewrite Hz in Vb.
    set (P := BASE ^ Z.of_nat n) in *. clearbody P. nia. }
  set (b0 := nth n b 0) in *. set (b1 := nth (S n) b 0) in *. clearbody b0 b1.
  rewrite (nmul_small b1) by (rewrite BASE_eq; lia). rewrite BASE_eq. rewrite (nadd_small (b1 * 10000000)) by lia.
  set (highy := b1 * 10000000 + b0) in *. assert (Hy : 10000000 <= highy < 100000000000000) by (unfold highy; lia).
  clearbody highy. clear B0 B1 Hb1.
  set (p := (length part - 2)%nat). assert (Hpl : length part = S (S p)) by lia.
  pose proof (val_top2 part p Hpl) as Vp. pose proof (val_take_bound part p Hp) as Tp.
  pose proof (nth_digit part p Hp) as P0. pose proof (nth_digit part (S p) Hp) as P1. unfold digit in P0, P1.
  replace (length part - 1)%nat with (S p) by lia.
  set (x0 := nth p part 0) in *. set (x1 := nth (S p) part 0) in *. clearbody x0 x1.
  rewrite (nmul_small x1) by lia. rewrite (nadd_small (x1 * 10000000)) by lia.
  set (highx := x1 * 10000000 + x0) in *. assert (Hx : 0 <= highx < 100000000000000) by (unfold highx; lia).
  clearbody highx. clear P0 P1.
  set (P := BASE ^ Z.of_nat n) in *. assert (HP : 0 < P) by apply BASE_pow_pos.
  destruct (Nat.ltb_spec (length b) (length part)) as [Hlt|Hge].
  - assert (p = S n) as -> by lia. rewrite BASE_pow_succ in Vp, Tp. fold P in Vp, Tp.
    rewrite (nadd_small highx) by lia. unfold nmul. clearbody P.
    assert (Hxy : highx < highy + 1).
    { assert (10000000 * P * highx < 10000000 * (P * (highy + 1))) by lia. nia. }
    apply guess_bounds; [lia|lia|lia|].
    assert (q * (P * highy) <= q * val b) by nia. assert (P * (q * highy) < P * ((highx + 1) * 10000000)) by lia. nia.
  - assert (p = n) as -> by lia. fold P in Vp, Tp. clearbody P. rewrite ceil_div_exact by lia.
    pose proof (Z.div_mod (- highx) highy ltac:(lia)) as Gdm. pose proof (Z.mod_pos_bound (- highx) highy ltac:(lia)) as Gr.
    set (g := - highx / highy) in *. set (gr := - highx mod highy) in *. clearbody g gr.
    assert (Hqx : q * highy <= highx).
    { assert (q * (P * highy) <= q * val b) by nia. assert (P * (q * highy) < P * (highx + 1)) by lia. nia. }
    split; nia.
Qed.

Lemma div2_loop_spec b : digs b -> canon b -> (2 <= length b)%nat ->
  forall a part result, digs a -> digs part -> canon part -> val part < val b ->
  exists qs rem, div2_loop a b part result = Ok (qs ++ result, rem)
    /\ length qs = length a /\ digs qs /\ digs rem /\ canon rem /\ 0 <= val rem < val b
    /\ val (rev a) + BASE ^ Z.of_nat (length a) * val part = val qs * val b + val rem.
Proof.
  intros Hb Hcb Hlb. assert (Hne : b <> []) by (intros ->; cbn in Hlb; lia).
  assert (Hb0 : 0 < val b) by by apply canon_pos.
  induction a as [|x a IH]; intros part result Ha Hp Hcp Hlt.
  { exists [], part. cbn [div2_loop]. pose proof (val_nonneg part Hp). split; [done|]. split; [done|].
    split; [constructor|]. split; [done|]. split; [done|]. split; [lia|]. cbn [rev length]. change (val []) with 0.
    change (BASE ^ Z.of_nat 0) with 1. lia. }
  inversion_clear Ha as [|? ? Hx Ha']. cbn [div2_loop].
  assert (Hp1 : digs (trim (x :: part))) by (apply trim_digs; by constructor).
  pose proof (trim_canon (x :: part)) as Hcp1. pose proof (trim_val (x :: part)) as Hv1. rewrite val_cons in Hv1.
  set (part1 := trim (x :: part)) in *. clearbody part1. unfold digit in Hx.
  pose proof (val_nonneg part Hp) as Hpn.
  assert (Hstep : forall q part2, 0 <= q <= 9999999 -> digs part2 -> canon part2 -> 0 <= val part2 < val b ->
            val part1 = q * val b + val part2 ->
            exists qs rem, div2_loop a b part2 (q :: result) = Ok (qs ++ result, rem)
              /\ length qs = length (x :: a) /\ digs qs /\ digs rem /\ canon rem /\ 0 <= val rem < val b
              /\ val (rev (x :: a)) + BASE ^ Z.of_nat (length (x :: a)) * val part = val qs * val b + val rem).
  { intros q part2 Hq Hp2 Hcp2 Hlt2 Heq.
    destruct (IH part2 (q :: result) Ha' Hp2 Hcp2 ltac:(lia)) as (qs & rem & E & I1 & I2 & I3 & I4 & I5 & I6).
    exists (qs ++ [q]), rem. rewrite E, <- app_assoc. split; [done|].
    split; [rewrite app_length; cbn [length]; lia|].
    split; [apply Forall_app; split; [done|repeat constructor; unfold digit; lia]|].
    split; [done|]. split; [done|]. split; [done|]. cbn [rev length]. rewrite !val_app, rev_length, I1, BASE_pow_succ.
    rewrite !val_cons. change (val []) with 0. set (P := BASE ^ Z.of_nat (length a)) in *. clearbody P.
    assert (P * val part1 = P * (q * val b + val part2)) by (f_equal; done). lia. }
  rewrite (compare_arrays_spec part1 b Hp1 Hcp1 Hb Hcb).
  destruct (Z.compare_spec (val part1) (val b)) as [E|E|E]; cbn [comparison_number].
  2: { change (-1 <? 0) with true. cbv iota. apply Hstep; try done; lia. }
  all: match goal with |- context [?c <? 0] => change (c <? 0) with false end; cbv iota.
  all: pose proof (div2_guess part1 b Hp1 Hcp1 Hb Hcb Hlb ltac:(lia)) as HG; cbv zeta in HG.
  all: set (g := ceil_div _ _) in *; clearbody g.
  all: pose proof (Z.div_mod (val part1) (val b) ltac:(lia)) as Hdm;
       pose proof (Z.mod_pos_bound (val part1) (val b) ltac:(lia)) as Hr.
  all: set (q := val part1 / val b) in *; set (r := val part1 mod val b) in *; clearbody q r.
  all: assert (Hq1 : 1 <= q <= 9999999) by (split; [nia|]; assert (q < 10000000); [nia|lia]).
  all: rewrite (find_guess_spec part1 b q Hp1 Hcp1 Hb Hcb Hne ltac:(lia) ltac:(lia) (S (Z.to_nat g)) g ltac:(lia) ltac:(lia)).
  all: cbn [rbind]; destruct (mul_small_spec b q ltac:(lia) Hb) as (M1 & M2 & M3); specialize (M3 ltac:(lia) Hcb).
  all: destruct (sub_arrays_spec part1 (mul_small b q) Hp1 M1 M3 ltac:(lia)) as (S1 & S2 & S3).
  all: apply Hstep; try done; lia.
Qed.

Lemma div_mod2_spec a b : digs a -> digs b -> canon b -> (2 <= length b)%nat ->
  exists q r, div_mod2 a b = Ok (q, r) /\ array_value q (val a / val b) /\ array_value r (val a mod val b).
Proof.
  intros Ha Hb Hcb Hlb. unfold div_mod2.
  assert (Hne : b <> []) by (intros ->; cbn in Hlb; lia). assert (Hb0 : 0 < val b) by by apply canon_pos.
  destruct (div2_loop_spec b Hb Hcb Hlb (rev a) [] [] ltac:(by apply Forall_rev) ltac:(constructor) I Hb0)
    as (qs & rem & -> & I1 & I2 & I3 & I4 & I5 & I6).
  cbn [rbind]. rewrite app_nil_r. rewrite rev_involutive in I6. change (val []) with 0 in I6. rewrite Z.mul_0_r, Z.add_0_r in I6.
  eexists _, _. split; [reflexivity|].
  assert (Hq : val a / val b = val qs) by (symmetry; apply Z.div_unique with (val rem); lia).
  assert (Hr : val a mod val b = val rem) by (symmetry; apply Z.mod_unique with (val qs); lia).
  rewrite Hq, Hr. split; by apply array_to_small_spec.
Qed.
