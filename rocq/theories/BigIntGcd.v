(** * BigIntGcd: divisors, and texts in other radixes *)

From Verif Require Export BigIntMoreProofs.
Local Open Scope Z_scope.

Lemma divisible_spec i j x y : stands_for i x -> stands_for j y ->
  is_divisible_by i j = Ok (if y =? 0 then false else Z.rem x y =? 0).
Proof.
  intros Hi Hj. unfold is_divisible_by.
  rewrite (is_value_spec j y 0 Hj), (is_value_spec j y 1 Hj), (is_value_spec j y 2 Hj) by lia.
  destruct (Z.eqb_spec y 0) as [->|H0]; [reflexivity|]. destruct (Z.eqb_spec y 1) as [->|H1].
  { by rewrite Z.rem_1_r. }
  destruct (Z.eqb_spec y 2) as [->|H2].
  { destruct (parity_spec i x Hi) as [-> _]. f_equal. destruct (Z.even x) eqn:E.
    - apply Z.even_spec in E as [k ->]. rewrite Z.mul_comm, Z.rem_mul by lia. reflexivity.
    - symmetry. apply Z.eqb_neq. intros Hr. apply Z.rem_divide in Hr as [k ->]; [|lia].
      rewrite Z.even_mul in E. cbn in E. by rewrite orb_true_r in E. }
  destruct (int_mod_spec i j x y Hi Hj H0) as (r & -> & Hr). cbn [rbind].
  destruct (tests_spec r (mk_small 0) _ 0 Hr zero_spec) as (-> & _). reflexivity.
Qed.

Lemma max_min_spec i j x y : stands_for i x -> stands_for j y ->
  stands_for (int_max i j) (Z.max x y) /\ stands_for (int_min i j) (Z.min x y).
Proof.
  intros Hi Hj. unfold int_max, int_min. destruct (tests_spec i j x y Hi Hj) as (_ & -> & -> & _). split.
  - destruct (Z.ltb_spec y x); (eapply stands_eq; [eassumption|lia]).
  - destruct (Z.ltb_spec x y); (eapply stands_eq; [eassumption|lia]).
Qed.

(** ** The lowest bit *)
Lemma odd_part w : w <> 0 -> exists e k, 0 <= e /\ w = 2 ^ e * (2 * k + 1).
Proof.
  intros Hw. assert (H : forall n, 0 <= n -> forall w, Z.abs w <= n -> w <> 0 -> exists e k, 0 <= e /\ w = 2 ^ e * (2 * k + 1)).
  { apply (natlike_ind (fun n => forall w, Z.abs w <= n -> w <> 0 -> exists e k, 0 <= e /\ w = 2 ^ e * (2 * k + 1))); [lia|].
    intros n Hn IH v Hv Hv0. destruct (Z.even v) eqn:E.
    - apply Z.even_spec in E as [u ->]. destruct (IH u) as (e & k & He & Hu); [lia|lia|].
      exists (Z.succ e), k. split; [lia|]. rewrite Z.pow_succ_r by lia. lia.
    - assert (O : Z.odd v = true) by (by rewrite <-Z.negb_even, E). apply Z.odd_spec in O as [k ->].
      exists 0, k. split; [lia|]. rewrite Z.pow_0_r. lia. }
  apply (H (Z.abs w)); lia.
Qed.
Lemma lowest_bit e k : 0 <= e -> Z.land (2 ^ e * (2 * k + 1)) (- (2 ^ e * (2 * k + 1))) = 2 ^ e.
Proof.
  intros He. replace (- (2 ^ e * (2 * k + 1))) with (2 ^ e * (- (2 * k + 1))) by ring.
  rewrite !(Z.mul_comm (2 ^ e)), <-!Z.shiftl_mul_pow2, <-Z.shiftl_land, Z.shiftl_mul_pow2 by exact He.
  replace (- (2 * k + 1)) with (Z.lnot (2 * k)) by (unfold Z.lnot; lia). rewrite <-Z.ldiff_land.
  replace (Z.ldiff (2 * k + 1) (2 * k)) with 1; [lia|]. symmetry. apply Z.bits_inj'. intros n Hn. rewrite Z.ldiff_spec.
  destruct (Z.eq_dec n 0) as [->|Hn0].
  - rewrite Z.testbit_odd_0, Z.testbit_even_0. reflexivity.
  - replace n with (Z.succ (n - 1)) by lia. rewrite Z.testbit_odd_succ, Z.testbit_even_succ by lia.
    rewrite andb_negb_r. symmetry. change 1 with (2 * 0 + 1). rewrite Z.testbit_odd_succ by lia. apply Z.testbit_0_l.
Qed.
Lemma to_int32_mod s : to_int32 s mod 2 ^ 32 = s mod 2 ^ 32.
Proof.
  unfold to_int32. rewrite <-Zminus_mod_idemp_l, Z.mod_mod by lia. rewrite Zminus_mod_idemp_l. f_equal. lia.
Qed.
Lemma to_int32_range s : - 2 ^ 31 <= to_int32 s < 2 ^ 31.
Proof. unfold to_int32. pose proof (Z.mod_pos_bound (s + 2 ^ 31) (2 ^ 32) ltac:(lia)). lia. Qed.
Lemma to_int32_id s : - 2 ^ 31 <= s < 2 ^ 31 -> to_int32 s = s.
Proof. intros H. unfold to_int32. rewrite Z.mod_small by lia. lia. Qed.
Lemma to_int32_bits s n : 0 <= n < 32 -> Z.testbit (to_int32 s) n = Z.testbit s n.
Proof.
  intros Hn. rewrite <-(Z.mod_pow2_bits_low (to_int32 s) 32 n), <-(Z.mod_pow2_bits_low s 32 n) by lia.
  by rewrite to_int32_mod.
Qed.
Lemma divide_bits e s : 0 <= e -> (forall n, 0 <= n < e -> Z.testbit s n = false) -> (2 ^ e | s).
Proof.
  intros He H. apply Z.mod_divide; [apply Z.pow_nonzero; lia|]. apply Z.bits_inj'. intros n Hn. rewrite Z.testbit_0_l.
  destruct (Z.lt_ge_cases n e); [rewrite Z.mod_pow2_bits_low by lia; apply H; lia|]. apply Z.mod_pow2_bits_high. lia.
Qed.

Lemma lob_spec s mask top : 0 < top <= 30 -> Z.testbit mask top = true -> Z.testbit mask 0 = false -> 0 <= mask < 2 ^ 31 ->
  exists e, 0 <= e <= top /\ Z.land (Z.lor (to_int32 s) mask) (to_int32 (- Z.lor (to_int32 s) mask)) = 2 ^ e /\ (2 ^ e | s)
    /\ (Z.even s = true -> 1 <= e).
Proof.
  intros Ht Hb H0 Hm. set (w := Z.lor (to_int32 s) mask).
  assert (Hbit : Z.testbit w top = true) by (unfold w; rewrite Z.lor_spec, Hb; apply orb_true_r).
  assert (Hw0 : w <> 0) by (intros E; rewrite E, Z.testbit_0_l in Hbit; discriminate).
  assert (Hr : - 2 ^ 31 <= w < 2 ^ 31).
  { pose proof (to_int32_range s) as Hr.
    assert (E : Z.shiftr w 31 = Z.shiftr (to_int32 s) 31).
    { unfold w. rewrite Z.shiftr_lor. rewrite (Z.shiftr_div_pow2 mask) by lia. rewrite (Z.div_small mask) by lia. apply Z.lor_0_r. }
    rewrite !Z.shiftr_div_pow2 in E by lia. pose proof (Z.div_mod w (2 ^ 31) ltac:(lia)). pose proof (Z.mod_pos_bound w (2 ^ 31) ltac:(lia)).
    pose proof (Z.div_mod (to_int32 s) (2 ^ 31) ltac:(lia)). pose proof (Z.mod_pos_bound (to_int32 s) (2 ^ 31) ltac:(lia)). lia. }
  assert (Hmin : w <> - 2 ^ 31).
  { intros E. rewrite E in Hbit.
    replace (- 2 ^ 31) with (2 ^ 31 * (-1)) in Hbit by lia. rewrite Z.mul_comm, Z.mul_pow2_bits_low in Hbit by lia. discriminate. }
  destruct (odd_part w Hw0) as (e & k & He & Ew).
  assert (Hle : e <= top).
  { destruct (Z.le_gt_cases e top); [assumption|]. rewrite Ew, Z.mul_comm, Z.mul_pow2_bits_low in Hbit by lia. discriminate. }
  assert (Hlow : forall n, 0 <= n < e -> Z.testbit s n = false).
  { intros n Hn. assert (Hwn : Z.testbit w n = false) by (rewrite Ew, Z.mul_comm; apply Z.mul_pow2_bits_low; lia).
    unfold w in Hwn. rewrite Z.lor_spec in Hwn. apply orb_false_iff in Hwn as [Hwn _]. rewrite to_int32_bits in Hwn by lia. exact Hwn. }
  exists e. split; [lia|]. split.
  - rewrite to_int32_id by lia. rewrite Ew. by apply lowest_bit.
  - split; [by apply divide_bits|]. intros Hev. destruct (Z.eq_dec e 0) as [->|]; [|lia]. exfalso.
    assert (Hw1 : Z.testbit w 0 = true). { rewrite Ew, Z.pow_0_r, Z.mul_1_l. apply Z.testbit_odd_0. }
    unfold w in Hw1. rewrite Z.lor_spec, H0, orb_false_r, to_int32_bits in Hw1 by lia.
    rewrite Z.bit0_odd in Hw1. rewrite <-Z.negb_even, Hev in Hw1. discriminate.
Qed.

Lemma rough_lob_spec i x : stands_for i x -> exists e, 0 <= e <= 30 /\ rough_lob i = 2 ^ e /\ (2 ^ e | x) /\ (Z.even x = true -> 1 <= e).
Proof.
  intros H. unfold rough_lob. destruct i as [v s|v s].
  - apply small_elim in H as (-> & _). apply lob_spec; try reflexivity; try lia. vm_compute. split; congruence.
  - apply big_elim in H as (H1 & H2 & H3 & -> & H4). pose proof (long_of_big v H1 H2 ltac:(lia)) as Hl.
    destruct v as [|d0 [|d1 v]]; [cbn in Hl; lia|cbn in Hl; lia|]. cbn [nth].
    inversion H1 as [|? ? D0 H1']. inversion H1' as [|? ? D1 H1'']. unfold digit in D0, D1. subst.
    rewrite (nmul_small d1), (nadd_small d0) by (rewrite BASE_eq; lia).
    destruct (lob_spec (d0 + d1 * BASE) LOBMASK_BI 14) as (e & He & -> & Hd & Hev); try reflexivity; try lia.
    { vm_compute. split; congruence. }
    exists e. split; [lia|]. split; [reflexivity|].
    assert (Hval : val (d0 :: d1 :: v) = d0 + d1 * BASE + BASE * BASE * val v) by (rewrite !val_cons, BASE_eq; lia).
    assert (Hb2 : (2 ^ e | BASE * BASE * val v)).
    { apply Z.divide_mul_l. apply Z.divide_trans with (2 ^ 14).
      - exists (2 ^ (14 - e)). rewrite <-Z.pow_add_r by lia. f_equal. lia.
      - exists 6103515625. reflexivity. }
    assert (Hdv : (2 ^ e | val (d0 :: d1 :: v))) by (rewrite Hval; by apply Z.divide_add_r).
    split; [destruct s; cbn [signed]; [by apply Z.divide_opp_r|exact Hdv]|].
    intros Ev. apply Hev. assert (Ev' : Z.even (val (d0 :: d1 :: v)) = true) by (destruct s; cbn [signed] in Ev; [by rewrite Z.even_opp in Ev|exact Ev]).
    rewrite Hval, Z.even_add, (Z.even_mul (BASE * BASE)) in Ev'. change (Z.even (BASE * BASE)) with true in Ev'. cbn [orb] in Ev'.
    by destruct (Z.even (d0 + d1 * BASE)).
Qed.
Lemma lob_small e : 0 <= e <= 30 -> stands_for (mk_small (2 ^ e)) (2 ^ e) /\ 2 ^ e <> 0.
Proof.
  intros He. pose proof (Z.pow_pos_nonneg 2 e ltac:(lia) ltac:(lia)). pose proof (Z.pow_le_mono_r 2 e 30 ltac:(lia) ltac:(lia)).
  split; [apply mk_small_spec; lia|lia].
Qed.
Lemma quot_power x e : 0 <= e -> (2 ^ e | x) -> x = 2 ^ e * Z.quot x (2 ^ e).
Proof.
  intros He [k ->]. pose proof (Z.pow_pos_nonneg 2 e ltac:(lia) ltac:(lia)). rewrite Z.quot_mul by lia. lia.
Qed.

(** ** The greatest common divisor *)
Lemma make_odd_spec fuel : forall i x, stands_for i x -> 0 < x < 2 ^ Z.of_nat fuel ->
  exists r y e, gcd_make_odd fuel i = Ok r /\ stands_for r y /\ Z.odd y = true /\ 0 <= e /\ x = 2 ^ e * y /\ 0 < y
    /\ (Z.even x = true -> 1 <= e).
Proof.
  induction fuel as [|fuel IH]; intros i x Hi Hx; cbn [gcd_make_odd].
  { change (2 ^ Z.of_nat 0) with 1 in Hx. lia. }
  destruct (parity_spec i x Hi) as [-> _]. destruct (Z.even x) eqn:Ev.
  - destruct (rough_lob_spec i x Hi) as (e & He & -> & Hd & H1). specialize (H1 Ev).
    destruct (lob_small e He) as [Hm Hn]. destruct (int_divide_spec i _ x _ Hi Hm Hn) as (q & -> & Hq). cbn [rbind].
    pose proof (quot_power x e ltac:(lia) Hd) as Hx'. set (u := Z.quot x (2 ^ e)) in *.
    assert (H2 : 2 <= 2 ^ e) by (change 2 with (2 ^ 1) at 1; apply Z.pow_le_mono_r; lia).
    assert (Hu : 0 < u) by (destruct (Z.lt_ge_cases 0 u); [assumption|]; assert (2 ^ e * u <= 0) by (apply Z.mul_nonneg_nonpos; lia); lia).
    destruct (IH q u Hq) as (r & y & f & -> & Hr & Ho & Hf & Hy & Hy0 & _).
    { split; [lia|]. rewrite Nat2Z.inj_succ, Z.pow_succ_r in Hx by lia. assert (2 * u <= 2 ^ e * u) by (apply Z.mul_le_mono_nonneg_r; lia). lia. }
    exists r, y, (e + f). split; [reflexivity|]. split; [exact Hr|]. split; [exact Ho|]. split; [lia|]. split.
    { rewrite Z.pow_add_r by lia. rewrite Hx', Hy. ring. } split; [exact Hy0|lia].
  - exists i, x, 0. split; [reflexivity|]. split; [exact Hi|]. split; [by rewrite <-Z.negb_even, Ev|]. split; [lia|].
    split; [lia|]. split; [lia|discriminate].
Qed.

Lemma both_even_spec uk fuel : forall ai bi ci a b c, stands_for ai a -> stands_for bi b -> stands_for ci c ->
  0 < a < 2 ^ Z.of_nat fuel -> 0 < b ->
  exists ai' bi' ci' a' b' d, gcd_both_even uk fuel ai bi ci = Ok (ai', bi', ci') /\ stands_for ai' a' /\ stands_for bi' b'
    /\ stands_for ci' (c * d) /\ a = d * a' /\ b = d * b' /\ 0 < d /\ 0 < a' /\ 0 < b' /\ Z.even a' && Z.even b' = false.
Proof.
  induction fuel as [|fuel IH]; intros ai bi ci a b c Ha Hb Hc Hf Hb0; cbn [gcd_both_even].
  { change (2 ^ Z.of_nat 0) with 1 in Hf. lia. }
  destruct (parity_spec ai a Ha) as [-> _]. destruct (parity_spec bi b Hb) as [-> _]. destruct (Z.even a && Z.even b) eqn:Ev.
  2:{ exists ai, bi, ci, a, b, 1. split; [reflexivity|]. split; [exact Ha|]. split; [exact Hb|].
      split; [eapply stands_eq; [exact Hc|lia]|]. split; [lia|]. split; [lia|]. split; [lia|]. split; [lia|]. split; [lia|exact Ev]. }
  apply andb_true_iff in Ev as [Ea Eb].
  destruct (rough_lob_spec ai a Ha) as (e1 & He1 & -> & Hd1 & H1). specialize (H1 Ea).
  destruct (rough_lob_spec bi b Hb) as (e2 & He2 & -> & Hd2 & H2). specialize (H2 Eb).
  set (e := Z.min e1 e2). assert (He : 1 <= e <= 30) by lia.
  assert (Emin : Z.min (2 ^ e1) (2 ^ e2) = 2 ^ e).
  { unfold e. destruct (Z.le_ge_cases e1 e2) as [L|L].
    - rewrite (Z.min_l e1 e2) by lia. apply Z.min_l, Z.pow_le_mono_r; lia.
    - rewrite (Z.min_r e1 e2) by lia. apply Z.min_r, Z.pow_le_mono_r; lia. }
  rewrite Emin.
  assert (Hda : (2 ^ e | a)) by (apply Z.divide_trans with (2 ^ e1); [|exact Hd1]; exists (2 ^ (e1 - e)); rewrite <-Z.pow_add_r by lia; f_equal; lia).
  assert (Hdb : (2 ^ e | b)) by (apply Z.divide_trans with (2 ^ e2); [|exact Hd2]; exists (2 ^ (e2 - e)); rewrite <-Z.pow_add_r by lia; f_equal; lia).
  destruct (lob_small e ltac:(lia)) as [Hm Hn].
  destruct (int_divide_spec ai _ a _ Ha Hm Hn) as (qa & -> & Hqa). cbn [rbind].
  destruct (int_divide_spec bi _ b _ Hb Hm Hn) as (qb & -> & Hqb). cbn [rbind].
  destruct (multiply_spec uk ci _ c _ Hc Hm) as (c' & -> & Hc'). cbn [rbind].
  pose proof (quot_power a e ltac:(lia) Hda) as Xa. pose proof (quot_power b e ltac:(lia) Hdb) as Xb.
  set (u := Z.quot a (2 ^ e)) in *. set (v := Z.quot b (2 ^ e)) in *.
  assert (P2 : 2 <= 2 ^ e) by (change 2 with (2 ^ 1) at 1; apply Z.pow_le_mono_r; lia).
  assert (Hu : 0 < u) by (destruct (Z.lt_ge_cases 0 u); [assumption|]; assert (2 ^ e * u <= 0) by (apply Z.mul_nonneg_nonpos; lia); lia).
  assert (Hv : 0 < v) by (destruct (Z.lt_ge_cases 0 v); [assumption|]; assert (2 ^ e * v <= 0) by (apply Z.mul_nonneg_nonpos; lia); lia).
  destruct (IH qa qb c' u v _ Hqa Hqb Hc') as (ai' & bi' & ci' & a' & b' & d & -> & R1 & R2 & R3 & R4 & R5 & R6 & R7 & R8 & R9); [|exact Hv|].
  { split; [exact Hu|]. rewrite Nat2Z.inj_succ, Z.pow_succ_r in Hf by lia. assert (2 * u <= 2 ^ e * u) by (apply Z.mul_le_mono_nonneg_r; lia). lia. }
  exists ai', bi', ci', a', b', (2 ^ e * d). split; [reflexivity|]. split; [exact R1|]. split; [exact R2|].
  split; [eapply stands_eq; [exact R3|ring]|]. split; [rewrite Xa, R4; ring|]. split; [rewrite Xb, R5; ring|].
  split; [apply Z.mul_pos_pos; lia|]. split; [exact R7|]. split; [exact R8|exact R9].
Qed.

Lemma gcd_odd_power a e b : Z.odd a = true -> 0 <= e -> Z.gcd a (2 ^ e * b) = Z.gcd a b.
Proof.
  intros Ho He. assert (Hc : Z.gcd a 2 = 1).
  { pose proof (Z.gcd_divide_l a 2) as D1. pose proof (Z.gcd_divide_r a 2) as D2. pose proof (Z.gcd_nonneg a 2) as N.
    apply Z.divide_pos_le in D2 as L; [|lia]. assert (Hcase : Z.gcd a 2 = 0 \/ Z.gcd a 2 = 1 \/ Z.gcd a 2 = 2) by lia.
    destruct Hcase as [E|[E|E]]; [|exact E|].
    - apply Z.gcd_eq_0_r in E. lia.
    - rewrite E in D1. destruct D1 as [k ->]. rewrite Z.odd_mul in Ho. cbn in Ho. by rewrite andb_false_r in Ho. }
  revert e He. apply natlike_ind; [rewrite Z.pow_0_r, Z.mul_1_l; reflexivity|]. intros e He IH. rewrite Z.pow_succ_r by exact He.
  rewrite <-IH. rewrite <-Z.mul_assoc. set (c := 2 ^ e * b).
  apply Z.divide_antisym_nonneg; [apply Z.gcd_nonneg|apply Z.gcd_nonneg| |].
  - apply Z.gcd_greatest; [apply Z.gcd_divide_l|]. apply (Z.gauss _ 2 c); [apply Z.gcd_divide_r|].
    apply Z.divide_antisym_nonneg; [apply Z.gcd_nonneg|lia| |apply Z.divide_1_l].
    rewrite <-Hc. apply Z.gcd_greatest; [|apply Z.gcd_divide_r]. eapply Z.divide_trans; [apply Z.gcd_divide_l|apply Z.gcd_divide_l].
  - apply Z.gcd_greatest; [apply Z.gcd_divide_l|]. apply Z.divide_mul_r, Z.gcd_divide_r.
Qed.

Lemma gcd_loop_spec fuel : forall ai bi a b n, stands_for ai a -> stands_for bi b -> 0 < a -> 0 < b -> Z.odd a = true ->
  0 <= n -> a * b < 2 ^ n -> (n < Z.of_nat fuel \/ Z.even b = true /\ n <= Z.of_nat fuel) ->
  exists i, gcd_loop fuel ai bi = Ok i /\ stands_for i (Z.gcd a b).
Proof.
  induction fuel as [|fuel IH]; intros ai bi a b n Ha Hb Ha0 Hb0 Ho Hn Hp Hf; cbn [gcd_loop].
  { exfalso. assert (n = 0) as -> by lia. change (2 ^ 0) with 1 in Hp. assert (0 < a * b) by (apply Z.mul_pos_pos; lia). lia. }
  destruct (make_odd_spec (S (text_fuel bi)) bi b Hb) as (bi' & b' & e & -> & Hb' & Ho' & He & Eb & Hb'0 & Hev).
  { pose proof (bits_spec bi b Hb). lia. }
  cbn [rbind]. destruct (tests_spec ai bi' a b' Ha Hb') as (_ & -> & _).
  assert (Hg : Z.gcd a b = Z.gcd a b') by (rewrite Eb; by apply gcd_odd_power).
  assert (P1 : 1 <= 2 ^ e) by (pose proof (Z.pow_pos_nonneg 2 e); lia).
  assert (Hab : a * b' <= a * b) by (apply Z.mul_le_mono_nonneg_l; [lia|]; rewrite Eb; assert (1 * b' <= 2 ^ e * b') by (apply Z.mul_le_mono_nonneg_r; lia); lia).
  assert (Hab2 : Z.even b = true -> 2 * (a * b') <= a * b).
  { intros H. specialize (Hev H). assert (2 <= 2 ^ e) by (change 2 with (2 ^ 1) at 1; apply Z.pow_le_mono_r; lia).
    replace (2 * (a * b')) with (a * (2 * b')) by ring. apply Z.mul_le_mono_nonneg_l; [lia|]. rewrite Eb. apply Z.mul_le_mono_nonneg_r; lia. }
  assert (Hrec : forall pi qi p q, stands_for pi p -> stands_for qi q -> 0 < p -> p <= q -> Z.odd p = true -> Z.odd q = true ->
    p * q = a * b' -> Z.gcd p q = Z.gcd a b' ->
    exists i, (if is_zero (subtract qi pi) then Ok pi else gcd_loop fuel pi (subtract qi pi)) = Ok i /\ stands_for i (Z.gcd a b)).
  { intros pi qi p q Hpi Hqi Hp0 Hpq Op Oq Hprod Hgpq. pose proof (subtract_spec qi pi q p Hqi Hpi) as Hs.
    destruct (signs_spec _ _ Hs) as (_ & _ & -> & _). destruct (Z.eqb_spec (q - p) 0) as [E|E].
    - exists pi. split; [reflexivity|]. eapply stands_eq; [exact Hpi|]. assert (q = p) as -> by lia.
      rewrite Hg, <-Hgpq, Z.gcd_diag. lia.
    - assert (Hevn : Z.even (q - p) = true) by (rewrite Z.even_sub, <-!Z.negb_odd, Op, Oq; reflexivity).
      assert (Hlt : p * (q - p) < a * b') by (rewrite <-Hprod; apply Z.mul_lt_mono_pos_l; lia).
      assert (exists m, 0 <= m /\ p * (q - p) < 2 ^ m /\ m <= Z.of_nat fuel) as (m & Hm & Hm1 & Hm2).
      { destruct Hf as [Hf|[Hf1 Hf2]]; [exists n; split; [lia|]; split; lia|].
        specialize (Hab2 Hf1). assert (0 < a * b') by (apply Z.mul_pos_pos; lia).
        assert (Hn1 : n <> 0) by (intros ->; change (2 ^ 0) with 1 in Hp; lia).
        exists (n - 1). split; [lia|]. replace n with (Z.succ (n - 1)) in Hp by lia. rewrite Z.pow_succ_r in Hp by lia. lia. }
      destruct (IH pi (subtract qi pi) p (q - p) m Hpi Hs Hp0 ltac:(lia) Op Hm Hm1 ltac:(right; split; assumption)) as (i & -> & Hi).
      exists i. split; [reflexivity|]. eapply stands_eq; [exact Hi|]. rewrite Hg, <-Hgpq, Z.gcd_sub_diag_r. reflexivity. }
  destruct (Z.ltb_spec b' a) as [L|L].
  - apply (Hrec bi' ai b' a); try assumption; try lia. apply Z.gcd_comm.
  - apply (Hrec ai bi' a b'); try assumption; try lia; reflexivity.
Qed.

Lemma int_gcd_spec uk i j x y : stands_for i x -> stands_for j y ->
  exists r, int_gcd uk i j = Ok r /\ stands_for r (Z.gcd x y).
Proof.
  intros Hi Hj. unfold int_gcd. pose proof (abs_spec i x Hi) as Ha. pose proof (abs_spec j y Hj) as Hb.
  destruct (tests_spec _ _ _ _ Ha Hb) as (-> & _). destruct (signs_spec _ _ Ha) as (_ & _ & -> & _).
  destruct (signs_spec _ _ Hb) as (_ & _ & -> & _).
  rewrite <-(Z.gcd_abs_l x y), <-(Z.gcd_abs_r (Z.abs x) y). set (a := Z.abs x) in *. set (b := Z.abs y) in *.
  assert (Ha0 : 0 <= a) by (unfold a; lia). assert (Hb0 : 0 <= b) by (unfold b; lia).
  destruct (Z.eqb_spec a b) as [E|E].
  { eexists. split; [reflexivity|]. eapply stands_eq; [exact Ha|]. rewrite <-E, Z.gcd_diag. lia. }
  destruct (Z.eqb_spec a 0) as [E1|E1].
  { eexists. split; [reflexivity|]. eapply stands_eq; [exact Hb|]. rewrite E1, Z.gcd_0_l. lia. }
  destruct (Z.eqb_spec b 0) as [E2|E2].
  { eexists. split; [reflexivity|]. eapply stands_eq; [exact Ha|]. rewrite E2, Z.gcd_0_r. lia. }
  destruct (both_even_spec uk (S (text_fuel (int_abs i))) _ _ (mk_small 1) a b 1 Ha Hb one_spec)
    as (ai' & bi' & ci' & a' & b' & d & -> & R1 & R2 & R3 & R4 & R5 & R6 & R7 & R8 & R9); [|lia|].
  { pose proof (bits_spec _ _ Ha). lia. }
  cbn [rbind]. destruct (make_odd_spec (S (text_fuel ai')) ai' a' R1) as (ao & a'' & e & -> & Hao & Ho & He & Ea & Ha'' & Hev).
  { pose proof (bits_spec _ _ R1). lia. }
  cbn [rbind]. destruct (gcd_loop_spec (S (S (text_fuel ao) + S (text_fuel bi'))) ao bi' a'' b'
    (Z.of_nat (S (text_fuel ao) + S (text_fuel bi'))) Hao R2 Ha'' R8 Ho ltac:(lia)) as (g & -> & Hgg); [|lia|].
  { rewrite Nat2Z.inj_add, Z.pow_add_r by lia. pose proof (bits_spec _ _ Hao). pose proof (bits_spec _ _ R2).
    apply Z.mul_lt_mono_nonneg; lia. }
  cbn [rbind].
  assert (Hgcd : Z.gcd a b = d * Z.gcd a'' b').
  { rewrite R4, R5, Z.gcd_mul_mono_l_nonneg by lia. f_equal. rewrite Ea. destruct (Z.even a') eqn:Ev.
    - cbn [andb] in R9. rewrite Z.gcd_comm, gcd_odd_power by (try lia; by rewrite <-Z.negb_even, R9). apply Z.gcd_comm.
    - assert (e = 0) as ->; [|by rewrite Z.pow_0_r, Z.mul_1_l].
      destruct (Z.eq_dec e 0) as [|Hne]; [assumption|]. exfalso. rewrite Ea in Ev. replace e with (Z.succ (e - 1)) in Ev by lia.
      rewrite Z.pow_succ_r, !Z.even_mul in Ev by lia. cbn in Ev. discriminate. }
  rewrite Z.mul_1_l in R3. destruct (signs_spec _ _ R3) as (_ & _ & _ & ->). destruct (Z.eqb_spec (Z.abs d) 1) as [Ed|Ed].
  - eexists. split; [reflexivity|]. eapply stands_eq; [exact Hgg|]. rewrite Hgcd. replace d with 1 by lia. lia.
  - destruct (multiply_spec uk g ci' _ _ Hgg R3) as (r & -> & Hr). exists r. split; [reflexivity|].
    eapply stands_eq; [exact Hr|]. rewrite Hgcd. ring.
Qed.

Lemma int_lcm_spec uk i j x y : stands_for i x -> stands_for j y ->
  (x = 0 -> y = 0 -> int_lcm uk i j = Ok None)
  /\ (x <> 0 \/ y <> 0 -> exists r, int_lcm uk i j = Ok (Some r) /\ stands_for r (Z.lcm x y)).
Proof.
  intros Hi Hj. unfold int_lcm. pose proof (abs_spec i x Hi) as Ha. pose proof (abs_spec j y Hj) as Hb.
  destruct (int_gcd_spec uk _ _ _ _ Ha Hb) as (g & -> & Hg). cbn [rbind]. rewrite Z.gcd_abs_l, Z.gcd_abs_r in Hg.
  destruct (div_mod_spec _ g _ _ Ha Hg) as [[H1 H2]|(H1 & q & r & E & Hq & _)].
  - rewrite H2. cbn [rbind]. split; [reflexivity|]. pose proof (Z.gcd_eq_0_l _ _ H1). pose proof (Z.gcd_eq_0_r _ _ H1). lia.
  - rewrite E. cbn [rbind]. split.
    { intros -> ->. contradiction. }
    intros _. destruct (multiply_spec uk q _ _ _ Hq Hb) as (p & -> & Hp). exists p. split; [reflexivity|].
    eapply stands_eq; [exact Hp|]. unfold Z.lcm. pose proof (Z.gcd_nonneg x y). rewrite Z.abs_mul.
    destruct (Z.gcd_divide_l x y) as [k Hk]. destruct (Z.gcd_divide_r x y) as [l Hl].
    set (d := Z.gcd x y) in *. rewrite Z.quot_div_nonneg by lia.
    assert (E1 : Z.abs x / d = Z.abs k) by (rewrite Hk, Z.abs_mul, (Z.abs_eq d), Z.div_mul by lia; reflexivity).
    assert (E2 : y / d = l) by (rewrite Hl, Z.div_mul by lia; reflexivity).
    rewrite E1, E2. rewrite Hk, Hl, !Z.abs_mul, (Z.abs_eq d) by lia. ring.
Qed.
