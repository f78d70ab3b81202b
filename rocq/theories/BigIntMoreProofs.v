(** * BigIntMoreProofs: powers, divisors and texts in other radixes are exact *)

From Coq Require Import Znumtheory.
From Verif Require Export SpecBigIntMore BigIntMore BigIntText.
Local Open Scope Z_scope.

Lemma int_divide_spec i j x y : stands_for i x -> stands_for j y -> y <> 0 ->
  exists r, int_divide i j = Ok r /\ stands_for r (Z.quot x y).
Proof.
  intros Hi Hj Hy. destruct (div_mod_spec i j x y Hi Hj) as [[H1 _]|(_ & q & r & E & Hq & _)]; [contradiction|].
  exists q. unfold int_divide. rewrite E. split; [reflexivity|exact Hq].
Qed.
Lemma int_mod_spec i j x y : stands_for i x -> stands_for j y -> y <> 0 ->
  exists r, int_mod i j = Ok r /\ stands_for r (Z.rem x y).
Proof.
  intros Hi Hj Hy. destruct (div_mod_spec i j x y Hi Hj) as [[H1 _]|(_ & q & r & E & _ & Hr)]; [contradiction|].
  exists r. unfold int_mod. rewrite E. split; [reflexivity|exact Hr].
Qed.
Lemma is_value_spec i x c : stands_for i x -> - 2 ^ 53 < c < 2 ^ 53 -> is_value i c = (x =? c).
Proof.
  intros H Hc. destruct i as [v s|v s]; cbn [is_value].
  - apply small_elim in H as (-> & _). reflexivity.
  - apply big_elim in H as (H1 & _ & H3 & -> & _). symmetry. apply Z.eqb_neq. destruct s; cbn [signed]; lia.
Qed.
Lemma bits_spec i x : stands_for i x -> Z.abs x < 2 ^ Z.of_nat (S (text_fuel i)).
Proof. intros H. apply text_fuel_spec; [exact H|lia]. Qed.
Lemma one_spec : stands_for (mk_small 1) 1.
Proof. apply mk_small_spec. lia. Qed.
Lemma zero_spec : stands_for (mk_small 0) 0.
Proof. apply mk_small_spec. lia. Qed.
Lemma two_spec : stands_for (mk_small 2) 2.
Proof. apply mk_small_spec. lia. Qed.

(** ** Powers *)
Section Powers.
  Context (uk : nat -> nat -> bool).

  Lemma pow_loop_spec fuel : forall i j x y b, stands_for i x -> stands_for j y -> 0 <= b < 2 ^ Z.of_nat (S fuel) -> b < 2 ^ 53 ->
    exists r, pow_loop uk fuel i j b = Ok r /\ stands_for r (y * x ^ b).
  Proof.
    induction fuel as [|fuel IH]; intros i j x y b Hi Hj Hb Hb'; cbn [pow_loop]; rewrite land1.
    - change (2 ^ Z.of_nat 1) with 2 in Hb. assert (b = 0 \/ b = 1) as [->| ->] by lia.
      + change (0 mod 2 =? 1) with false. cbn [rbind]. change (0 =? 0) with true. cbv iota. eexists. split; [reflexivity|].
        eapply stands_eq; [exact Hj|]. rewrite Z.pow_0_r. lia.
      + change (1 mod 2 =? 1) with true. cbv iota. destruct (multiply_spec uk j i y x Hj Hi) as (r & -> & Hr). cbn [rbind].
        rewrite nsub_small by lia. change (1 - 1 =? 0) with true. cbv iota. eexists. split; [reflexivity|].
        eapply stands_eq; [exact Hr|]. rewrite Z.pow_1_r. lia.
    - pose proof (Z.mod_pos_bound b 2 ltac:(lia)) as Hm. pose proof (Z.div_mod b 2 ltac:(lia)) as Hd.
      assert (Hq : 0 <= b / 2 < 2 ^ Z.of_nat (S fuel)).
      { rewrite (Nat2Z.inj_succ (S fuel)), Z.pow_succ_r in Hb by lia. split; [apply Z.div_pos; lia|]. lia. }
      pose proof (BigIntProofs.square_spec i x Hi) as Hs.
      destruct (Z.eqb_spec (b mod 2) 1) as [E|E].
      + destruct (multiply_spec uk j i y x Hj Hi) as (r & -> & Hr). cbn [rbind]. rewrite nsub_small by lia.
        destruct (Z.eqb_spec (b - 1) 0) as [E1|E1].
        { eexists. split; [reflexivity|]. eapply stands_eq; [exact Hr|]. replace b with 1 by lia. rewrite Z.pow_1_r. lia. }
        replace ((b - 1) / 2) with (b / 2) by (replace (b - 1) with (b / 2 * 2) by lia; rewrite Z.div_mul; lia).
        destruct (IH _ _ _ _ (b / 2) Hs Hr Hq ltac:(lia)) as (r' & -> & Hr'). exists r'. split; [reflexivity|].
        eapply stands_eq; [exact Hr'|]. rewrite <-Z.pow_2_r, <-Z.pow_mul_r by lia.
        replace b with (Z.succ (2 * (b / 2))) at 2 by lia. rewrite Z.pow_succ_r by lia. lia.
      + cbn [rbind]. destruct (Z.eqb_spec b 0) as [->|E1].
        { eexists. split; [reflexivity|]. eapply stands_eq; [exact Hj|]. rewrite Z.pow_0_r. lia. }
        destruct (IH _ _ _ _ (b / 2) Hs Hj Hq ltac:(lia)) as (r' & -> & Hr'). exists r'. split; [reflexivity|].
        eapply stands_eq; [exact Hr'|]. rewrite <-Z.pow_2_r, <-Z.pow_mul_r by lia. do 2 f_equal. lia.
  Qed.

  Lemma minus_one_pow y : 0 <= y -> (-1) ^ y = if Z.even y then 1 else -1.
  Proof.
    intros Hy. destruct (Z.even y) eqn:E.
    - apply Z.even_spec in E as [k ->]. rewrite Z.pow_mul_r by lia. change ((-1) ^ 2) with 1. apply Z.pow_1_l. lia.
    - assert (O : Z.odd y = true) by (by rewrite <-Z.negb_even, E). apply Z.odd_spec in O as [k ->].
      rewrite Z.pow_add_r, Z.pow_mul_r by lia. change ((-1) ^ 2) with 1. rewrite Z.pow_1_l by lia. reflexivity.
  Qed.

  Lemma int_pow_spec math_pow i j x y : faithful_pow math_pow -> stands_for i x -> stands_for j y ->
    (0 <= y -> Z.abs x <= 1 \/ y < 2 ^ 53 -> exists r, int_pow uk math_pow i j = Ok (Some r) /\ stands_for r (x ^ y))
    /\ (y < 0 -> exists r, int_pow uk math_pow i j = Ok (Some r) /\ stands_for r (if Z.abs x =? 1 then x ^ (- y) else 0))
    /\ (1 < Z.abs x -> 2 ^ 53 <= y -> int_pow uk math_pow i j = Ok None).
  Proof.
    intros Hf Hi Hj. unfold int_pow. rewrite (is_value_spec j y 0 Hj), (is_value_spec i x 0 Hi), (is_value_spec i x 1 Hi), (is_value_spec i x (-1) Hi) by lia.
    destruct (parity_spec j y Hj) as [-> _].
    destruct (Z.eqb_spec y 0) as [->|Hy].
    { split; [|split; lia]. intros _ _. eexists. split; [reflexivity|]. rewrite Z.pow_0_r. exact one_spec. }
    destruct (Z.eqb_spec x 0) as [->|Hx0].
    { split; [|split; [|lia]].
      - intros H1 _. eexists. split; [reflexivity|]. rewrite Z.pow_0_l by lia. exact zero_spec.
      - intros _. eexists. split; [reflexivity|]. exact zero_spec. }
    destruct (Z.eqb_spec x 1) as [->|Hx1].
    { split; [|split; [|lia]].
      - intros H1 _. eexists. split; [reflexivity|]. rewrite Z.pow_1_l by lia. exact one_spec.
      - intros H1. eexists. split; [reflexivity|]. change (Z.abs 1 =? 1) with true. cbv iota. rewrite Z.pow_1_l by lia. exact one_spec. }
    destruct (Z.eqb_spec x (-1)) as [->|Hx2].
    { assert (Hm : stands_for (mk_small (-1)) (-1)) by (apply mk_small_spec; lia).
      split; [|split; [|lia]].
      - intros H1 _. eexists. split; [reflexivity|]. rewrite minus_one_pow by lia. destruct (Z.even y); [exact one_spec|exact Hm].
      - intros H1. eexists. split; [reflexivity|]. change (Z.abs (-1) =? 1) with true. cbv iota. rewrite minus_one_pow by lia.
        rewrite Z.even_opp. destruct (Z.even y); [exact one_spec|exact Hm]. }
    assert (Hab : 1 < Z.abs x) by lia.
    assert (Hs : int_sign j = (y <? 0)).
    { destruct j as [v s|v s]; cbn [int_sign].
      - apply small_elim in Hj as (-> & _ & Hj). by apply Hj.
      - apply big_elim in Hj as (_ & _ & H3 & -> & _). destruct s; cbn [signed]; symmetry; [apply Z.ltb_lt|apply Z.ltb_ge]; lia. }
    rewrite Hs. destruct (Z.ltb_spec y 0) as [Hneg|Hpos].
    { split; [lia|]. split; [|lia]. intros _. eexists. split; [reflexivity|]. destruct (Z.eqb_spec (Z.abs x) 1); [lia|]. exact zero_spec. }
    split; [|split; [lia|]].
    - intros _ [H|H]; [lia|]. destruct j as [b s|v s].
      2:{ apply big_elim in Hj as (_ & _ & H3 & -> & _). destruct s; cbn [signed] in *; lia. }
      assert (y = b) as -> by (by apply small_elim in Hj as (-> & _)).
      destruct (pow_loop_spec (text_fuel (Small b s)) i (mk_small 1) x 1 b Hi one_spec) as (r & -> & Hr); [|exact H|].
      { split; [lia|]. pose proof (bits_spec _ _ Hj). lia. }
      rewrite Z.mul_1_l in Hr. cbn [rmap].
      destruct i as [a s'|v s']; [|exists r; split; [reflexivity|exact Hr]].
      assert (x = a) as -> by (by apply small_elim in Hi as (-> & _)).
      destruct (Hf a b Hab ltac:(lia)) as [F1 F2].
      destruct (is_precise (math_pow a b)) eqn:Ep; [|exists r; split; [reflexivity|exact Hr]].
      apply is_precise_spec in Ep. destruct (Z.lt_ge_cases (Z.abs (a ^ b)) (2 ^ 53)) as [Hl|Hl].
      + rewrite (F1 Hl) in *. eexists. split; [reflexivity|]. by apply mk_small_spec.
      + specialize (F2 Hl). lia.
    - intros _ H. destruct j as [b s|v s]; [|reflexivity]. apply small_elim in Hj as (-> & Hj & _). lia.
  Qed.

  (** The double nearest to the power is a faithful [Math.pow]. *)
  Lemma rounded_pow_faithful : faithful_pow (fun a b => rnd (a ^ b)).
  Proof.
    intros a b _ _. split; intros H; [apply rnd_small; lia|].
    destruct (is_precise (rnd (a ^ b))) eqn:E.
    - apply rnd_precise in E as [_ E]. lia.
    - assert (E' : ~ (- 2 ^ 53 < rnd (a ^ b) < 2 ^ 53)) by (intros Hc; apply is_precise_spec in Hc; congruence). lia.
  Qed.

  Lemma rem_pow a m k : m <> 0 -> 0 <= k -> Z.rem (Z.rem a m ^ k) m = Z.rem (a ^ k) m.
  Proof.
    intros Hm Hk. revert k Hk. apply natlike_ind; [reflexivity|]. intros k Hk IH. rewrite !Z.pow_succ_r by exact Hk.
    rewrite Z.mul_rem by exact Hm. rewrite IH, Z.rem_rem by exact Hm. symmetry. by apply Z.mul_rem.
  Qed.
  Lemma rem_mul_pow r a m k : m <> 0 -> 0 <= k -> Z.rem (r * Z.rem a m ^ k) m = Z.rem (r * a ^ k) m.
  Proof. intros Hm Hk. rewrite Z.mul_rem, rem_pow by done. symmetry. by apply Z.mul_rem. Qed.

  Lemma mod_pow_loop_spec fuel : forall ei bi ri mi e b r m,
    stands_for ei e -> stands_for bi b -> stands_for ri r -> stands_for mi m -> m <> 0 -> e < 2 ^ Z.of_nat fuel ->
    exists i, mod_pow_loop uk fuel ei bi ri mi = Ok i /\ stands_for i (if 0 <? e then Z.rem (r * b ^ e) m else r).
  Proof.
    induction fuel as [|fuel IH]; intros ei bi ri mi e b r m He Hb Hr Hm Hm0 Hf; cbn [mod_pow_loop].
    all: destruct (signs_spec ei e He) as (-> & _ & _ & _); destruct (signs_spec bi b Hb) as (_ & _ & -> & _).
    { change (2 ^ Z.of_nat 0) with 1 in Hf. destruct (Z.ltb_spec 0 e); [lia|]. eexists. split; [reflexivity|exact Hr]. }
    destruct (Z.ltb_spec 0 e) as [Hpos|Hneg]; [|eexists; split; [reflexivity|exact Hr]].
    destruct (Z.eqb_spec b 0) as [->|Hb0].
    { eexists. split; [reflexivity|]. rewrite Z.pow_0_l, Z.mul_0_r, Z.rem_0_l by lia. exact zero_spec. }
    rewrite Nat2Z.inj_succ, Z.pow_succ_r in Hf by lia.
    destruct (parity_spec ei e He) as [_ ->].
    destruct (int_divide_spec ei (mk_small 2) e 2 He two_spec ltac:(lia)) as (e' & E1 & He').
    pose proof (BigIntProofs.square_spec bi b Hb) as Hsq.
    destruct (int_mod_spec _ mi _ m Hsq Hm Hm0) as (b' & E2 & Hb').
    rewrite Z.quot_div_nonneg in He' by lia.
    assert (Hd : 0 <= e / 2) by (apply Z.div_pos; lia).
    pose proof (Z.div_mod e 2 ltac:(lia)) as Hdm. rewrite Zmod_odd in Hdm.
    assert (He2 : e / 2 < 2 ^ Z.of_nat fuel) by (destruct (Z.odd e); lia).
    assert (Hp : b * b = b ^ 2) by (rewrite Z.pow_2_r; reflexivity).
    destruct (Z.odd e).
    - destruct (multiply_spec uk ri bi r b Hr Hb) as (p & -> & Hp'). cbn [rbind].
      destruct (int_mod_spec p mi _ m Hp' Hm Hm0) as (r' & -> & Hr'). cbn [rbind]. rewrite E1. cbn [rbind]. rewrite E2. cbn [rbind].
      destruct (IH e' b' r' mi _ _ _ m He' Hb' Hr' Hm Hm0 He2) as (i & -> & Hi). exists i. split; [reflexivity|].
      eapply stands_eq; [exact Hi|]. destruct (Z.ltb_spec 0 (e / 2)) as [H2|H2].
      + rewrite rem_mul_pow, Z.mul_rem_idemp_l by lia. f_equal. rewrite Hp, <-Z.pow_mul_r by lia.
        rewrite Hdm at 2. rewrite Z.pow_add_r, Z.pow_1_r by lia. lia.
      + replace e with 1 by lia. rewrite Z.pow_1_r. reflexivity.
    - cbn [rbind]. rewrite E1. cbn [rbind]. rewrite E2. cbn [rbind].
      destruct (IH e' b' ri mi _ _ _ m He' Hb' Hr Hm Hm0 He2) as (i & -> & Hi). exists i. split; [reflexivity|].
      eapply stands_eq; [exact Hi|]. destruct (Z.ltb_spec 0 (e / 2)) as [H2|H2]; [|lia].
      rewrite rem_mul_pow by lia. f_equal. rewrite Hp, <-Z.pow_mul_r by lia. do 2 f_equal. lia.
  Qed.

  Lemma int_mod_pow_spec xi ei mi x e m : stands_for xi x -> stands_for ei e -> stands_for mi m ->
    (m = 0 -> int_mod_pow uk xi ei mi = Ok None)
    /\ (m <> 0 -> exists i, int_mod_pow uk xi ei mi = Ok (Some i) /\ stands_for i (if 0 <? e then Z.rem (x ^ e) m else 1)).
  Proof.
    intros Hx He Hm. unfold int_mod_pow. destruct (signs_spec mi m Hm) as (_ & _ & -> & _). split.
    { intros ->. reflexivity. }
    intros Hm0. destruct (Z.eqb_spec m 0); [lia|]. destruct (int_mod_spec xi mi x m Hx Hm Hm0) as (b & -> & Hb). cbn [rbind].
    destruct (mod_pow_loop_spec (S (text_fuel ei)) ei b (mk_small 1) mi e _ 1 m He Hb one_spec Hm Hm0) as (i & -> & Hi).
    { pose proof (bits_spec ei e He). lia. }
    exists i. split; [reflexivity|]. eapply stands_eq; [exact Hi|]. destruct (Z.ltb_spec 0 e); [|reflexivity].
    rewrite Z.mul_1_l. apply rem_pow; lia.
  Qed.

  (** *** Inverses *)
  Lemma mod_inv_loop_spec X M fuel : forall ti nti ri nri t nt r nr s k,
    stands_for ti t -> stands_for nti nt -> stands_for ri r -> stands_for nri nr ->
    (M | t * X - r) -> (M | nt * X - nr) -> 0 < r -> 0 <= nr -> Z.gcd r nr = Z.gcd M X ->
    (s = 1 \/ s = -1) -> 0 <= - s * t -> 0 <= s * nt -> - s * t * nr + s * nt * r = M ->
    0 <= k -> (nr < 2 ^ k /\ 2 * k <= Z.of_nat fuel) \/ (nr < r < 2 ^ k /\ 2 * k <= Z.of_nat fuel + 1) ->
    (nr < r \/ r = M) -> (nr = 0 -> r = 1 -> 1 < M -> Z.abs t < M) ->
    exists oi ri' o, mod_inv_loop uk fuel ti nti ri nri = Ok (oi, ri') /\ stands_for oi o /\ stands_for ri' (Z.gcd M X)
      /\ (M | o * X - Z.gcd M X) /\ (Z.gcd M X = 1 -> 1 < M -> Z.abs o < M).
  Proof.
    induction fuel as [|fuel IH]; intros ti nti ri nri t nt r nr s k Ht Hnt Hr Hnr D1 D2 Hrp Hnrp Hg Hs S1 S2 Hsum Hk Hfuel Hlt Hend;
      cbn [mod_inv_loop]; destruct (tests_spec nri (mk_small 0) nr 0 Hnr zero_spec) as (-> & _);
      destruct (Z.eqb_spec nr 0) as [->|Hnr0].
    1,3: rewrite Z.gcd_0_r, Z.abs_eq in Hg by lia; exists ti, ri, t; rewrite <-Hg;
         split; [reflexivity|]; split; [exact Ht|]; split; [exact Hr|]; split; [exact D1|]; intros; by apply Hend.
    - exfalso. change (Z.of_nat 0) with 0 in Hfuel. assert (k = 0) as -> by lia. change (2 ^ 0) with 1 in Hfuel. lia.
    - destruct (int_divide_spec ri nri r nr Hr Hnr Hnr0) as (qi & -> & Hq). cbn [rbind].
      rewrite Z.quot_div_nonneg in Hq by lia. set (q := r / nr) in *.
      destruct (multiply_spec uk qi nti q nt Hq Hnt) as (pi & -> & Hp). cbn [rbind].
      destruct (multiply_spec uk qi nri q nr Hq Hnr) as (si & -> & Hsi). cbn [rbind].
      pose proof (subtract_spec ti pi _ _ Ht Hp) as Ht'. pose proof (subtract_spec ri si _ _ Hr Hsi) as Hr'.
      pose proof (Z.div_mod r nr Hnr0) as Hdm. fold q in Hdm. pose proof (Z.mod_pos_bound r nr ltac:(lia)) as Hmb.
      assert (Hmod : r - q * nr = r mod nr) by lia.
      assert (Hqp : 0 <= q) by (apply Z.div_pos; lia).
      assert (exists k', 0 <= k' /\ ((r - q * nr < 2 ^ k' /\ 2 * k' <= Z.of_nat fuel) \/ (r - q * nr < nr < 2 ^ k' /\ 2 * k' <= Z.of_nat fuel + 1)))
        as (k' & Hk' & Hfuel').
      { destruct Hfuel as [[F1 F2]|[F1 F2]].
        - exists k. split; [exact Hk|]. right. lia.
        - assert (Hk1 : k <> 0) by (intros ->; change (2 ^ 0) with 1 in F1; lia).
          assert (Hq1 : 1 <= q) by (apply Z.div_le_lower_bound; lia).
          exists (k - 1). split; [lia|]. left. replace k with (Z.succ (k - 1)) in F1 by lia. rewrite Z.pow_succ_r in F1 by lia.
          split; [|lia]. assert (1 * nr <= q * nr) by (apply Z.mul_le_mono_nonneg_r; lia). lia. }
      destruct (IH nti (subtract ti pi) nri (subtract ri si) nt (t - q * nt) nr (r - q * nr) (- s) k') as (oi & ri' & o & E & H1 & H2 & H3 & H4); try assumption.
      + replace ((t - q * nt) * X - (r - q * nr)) with ((t * X - r) - q * (nt * X - nr)) by ring.
        apply Z.divide_sub_r; [exact D1|]. by apply Z.divide_mul_r.
      + lia.
      + lia.
      + rewrite <-Hg. rewrite Hmod, Z.gcd_comm, Z.gcd_mod by exact Hnr0. apply Z.gcd_comm.
      + lia.
      + lia.
      + assert (0 <= q * (s * nt)) by (apply Z.mul_nonneg_nonneg; lia). lia.
      + rewrite <-Hsum. ring.
      + left. lia.
      + intros E0 Hnr1 HM.
        assert (Hst : s * nt * r <= M) by (assert (0 <= - s * t * nr) by (apply Z.mul_nonneg_nonneg; lia); lia).
        assert (Habs : Z.abs nt = s * nt) by (destruct Hs as [->| ->]; lia).
        assert (Hr2 : 2 <= r) by lia.
        assert (Z.abs nt * 2 <= Z.abs nt * r) by (apply Z.mul_le_mono_nonneg_l; lia). lia.
      + exists oi, ri', o. split; [exact E|]. split; [exact H1|]. split; [exact H2|]. split; [exact H3|exact H4].
  Qed.

  Lemma int_mod_inv_spec xi mi x m : stands_for xi x -> stands_for mi m -> 0 < m ->
    (Z.gcd x m = 1 -> exists i v, int_mod_inv uk xi mi = Ok (Some i) /\ stands_for i v /\ (m | x * v - 1)
                                  /\ (1 < m -> Z.abs v < m /\ 0 <= v * x))
    /\ (Z.gcd x m <> 1 -> int_mod_inv uk xi mi = Ok None).
  Proof.
    intros Hx Hm Hpos. unfold int_mod_inv. pose proof (abs_spec xi x Hx) as Ha.
    destruct (mod_inv_loop_spec (Z.abs x) m (2 * S (text_fuel xi)) (mk_small 0) (mk_small 1) mi (int_abs xi) 0 1 m (Z.abs x) 1
                (Z.of_nat (S (text_fuel xi)))) as (oi & ri & o & -> & Ho & Hr & D & B); try lia.
    { exact zero_spec. } { exact one_spec. } { exact Hm. } { exact Ha. }
    { exists (-1). lia. } { exists 0. lia. }
    { left. split; [by apply bits_spec|]. lia. }
    cbn [rbind]. destruct (tests_spec ri (mk_small 1) _ 1 Hr one_spec) as (-> & _).
    rewrite (Z.gcd_comm m), Z.gcd_abs_l in *. split.
    - intros Hg. rewrite Hg in *. change (1 =? 1) with true. cbn [negb]. rewrite (int_compare_spec oi (mk_small 0) o 0 Ho zero_spec).
      destruct (signs_spec xi x Hx) as (_ & -> & _ & _).
      set (v := if o <? 0 then o + m else o).
      assert (Hv : stands_for (if comparison_number (o ?= 0) =? -1 then add oi mi else oi) v).
      { unfold v, Z.ltb. destruct (o ?= 0) eqn:E; cbn [comparison_number]; cbv [Z.eqb Pos.eqb]; try exact Ho. by apply add_spec. }
      assert (Dv : (m | v * Z.abs x - 1)).
      { unfold v. destruct (o <? 0); [|exact D]. replace ((o + m) * Z.abs x - 1) with (o * Z.abs x - 1 + m * Z.abs x) by ring.
        apply Z.divide_add_r; [exact D|]. apply Z.divide_factor_l. }
      assert (Bv : 1 < m -> 0 <= v < m) by (intros H1; specialize (B eq_refl H1); unfold v; destruct (Z.ltb_spec o 0); lia).
      exists (if x <? 0 then negate (if comparison_number (o ?= 0) =? -1 then add oi mi else oi)
              else (if comparison_number (o ?= 0) =? -1 then add oi mi else oi)), (if x <? 0 then - v else v).
      split; [reflexivity|]. split; [destruct (x <? 0); [by apply negate_spec|exact Hv]|].
      destruct (Z.ltb_spec x 0) as [H|H].
      + split; [replace (x * - v - 1) with (v * Z.abs x - 1) by (rewrite Z.abs_neq by lia; ring); exact Dv|].
        intros H1. specialize (Bv H1). split; [lia|]. rewrite Z.mul_opp_l, <-Z.mul_opp_r. apply Z.mul_nonneg_nonneg; lia.
      + split; [replace (x * v - 1) with (v * Z.abs x - 1) by (rewrite Z.abs_eq by lia; ring); exact Dv|].
        intros H1. specialize (Bv H1). split; [lia|]. apply Z.mul_nonneg_nonneg; lia.
    - intros Hg. destruct (Z.eqb_spec (Z.gcd x m) 1); [contradiction|]. reflexivity.
  Qed.
End Powers.
