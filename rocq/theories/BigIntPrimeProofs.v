(** * BigIntPrimeProofs: primes are told to be prime, random integers are in their range *)

From Coq Require Import Znumtheory Zpow_facts.
From Verif Require Export Fermat BigIntPrime BigIntGcd.
Local Open Scope Z_scope.

(** ** Small primes *)
Lemma small_prime p : 1 < p < 25 -> ~ (2 | p) -> ~ (3 | p) -> prime p.
Proof.
  intros Hp H2 H3. apply prime_alt. split; [lia|]. intros n Hn [k Hk].
  assert (Hc : p = 5 \/ p = 7 \/ p = 11 \/ p = 13 \/ p = 17 \/ p = 19 \/ p = 23 \/ (p mod 2 = 0 \/ p mod 3 = 0)).
  { assert (p <> 25) by lia. pose proof (Z.div_mod p 2). pose proof (Z.div_mod p 3).
    pose proof (Z.mod_pos_bound p 2). pose proof (Z.mod_pos_bound p 3).
    assert (p = 2 \/ p = 3 \/ p = 4 \/ p = 5 \/ p = 6 \/ p = 7 \/ p = 8 \/ p = 9 \/ p = 10 \/ p = 11 \/ p = 12 \/ p = 13 \/ p = 14
      \/ p = 15 \/ p = 16 \/ p = 17 \/ p = 18 \/ p = 19 \/ p = 20 \/ p = 21 \/ p = 22 \/ p = 23 \/ p = 24) as C by lia.
    repeat (destruct C as [->|C]; [try lia; try (right; right; right; right; right; right; right; (left; reflexivity) || (right; reflexivity))|]).
    rewrite C. right; right; right; right; right; right; right; left; reflexivity. }
  assert (Hn' : n = 2 \/ n = 3 \/ n = 4 \/ n = 5 \/ n = 6 \/ n = 7 \/ n = 8 \/ n = 9 \/ n = 10 \/ n = 11 \/ n = 12 \/ n = 13 \/ n = 14
      \/ n = 15 \/ n = 16 \/ n = 17 \/ n = 18 \/ n = 19 \/ n = 20 \/ n = 21 \/ n = 22 \/ n = 23 \/ n = 24) by lia.
  destruct Hc as [->|[->|[->|[->|[->|[->|[->|[Hc|Hc]]]]]]]].
  8: { apply H2, Z.mod_divide; [lia|exact Hc]. }
  8: { apply H3, Z.mod_divide; [lia|exact Hc]. }
  all: repeat (destruct Hn' as [->|Hn']; [lia|]); subst n; lia.
Qed.
Lemma prime_by p d : prime p -> 1 < d -> (d | p) -> p = d.
Proof.
  intros Hp Hd D. pose proof (prime_ge_2 p Hp). apply prime_divisors in D as [D|[D|[D|D]]]; [lia|lia|lia|lia|exact Hp].
Qed.

Lemma is_basic_prime_spec i x : stands_for i x ->
  exists o, is_basic_prime i = Ok o
    /\ match o with
       | Some b => b = true <-> prime (Z.abs x)
       | None => 25 <= Z.abs x /\ ~ (2 | x) /\ ~ (3 | x) /\ ~ (5 | x)
       end.
Proof.
  intros Hi. unfold is_basic_prime. pose proof (abs_spec i x Hi) as Ha. set (n := int_abs i) in *.
  assert (Hn : 0 <= Z.abs x) by lia. assert (Hd : forall d, (d | Z.abs x) <-> (d | x)) by (intros d; apply Z.divide_abs_r).
  set (y := Z.abs x) in *. clearbody y n.
  destruct (signs_spec n y Ha) as (_ & _ & _ & ->). rewrite (Z.abs_eq y) by exact Hn.
  destruct (Z.eqb_spec y 1) as [->|H1].
  { eexists. split; [reflexivity|]. split; [discriminate|]. intros H. pose proof (prime_ge_2 1 H). lia. }
  assert (S2 : stands_for (mk_small 2) 2) by (apply mk_small_spec; lia). assert (S3 : stands_for (mk_small 3) 3) by (apply mk_small_spec; lia).
  assert (S5 : stands_for (mk_small 5) 5) by (apply mk_small_spec; lia). assert (S25 : stands_for (mk_small 25) 25) by (apply mk_small_spec; lia).
  destruct (tests_spec n _ y 2 Ha S2) as (-> & _). destruct (tests_spec n _ y 3 Ha S3) as (-> & _).
  destruct (tests_spec n _ y 5 Ha S5) as (-> & _). destruct (tests_spec n _ y 25 Ha S25) as (_ & _ & -> & _).
  rewrite (divisible_spec n _ y 3 Ha S3), (divisible_spec n _ y 5 Ha S5). cbn [rbind].
  change (3 =? 0) with false. change (5 =? 0) with false. cbv iota.
  destruct (parity_spec n y Ha) as [-> _].
  destruct (Z.eqb_spec y 2) as [->|H2]. { eexists. split; [reflexivity|]. split; [intros _; exact prime_2|reflexivity]. }
  destruct (Z.eqb_spec y 3) as [->|H3]. { eexists. split; [reflexivity|]. split; [intros _; exact prime_3|reflexivity]. }
  destruct (Z.eqb_spec y 5) as [->|H5].
  { eexists. split; [reflexivity|]. split; [|reflexivity]. intros _. apply small_prime; [lia| |]; intros [k Hk]; lia. }
  cbn [orb].
  assert (E2 : Z.even y = true <-> (2 | y)).
  { rewrite Z.even_spec. split; intros [k ->]; [exists k|exists k]; lia. }
  assert (E3 : (Z.rem y 3 =? 0) = true <-> (3 | y)) by (rewrite Z.eqb_eq, Z.rem_divide by lia; reflexivity).
  assert (E5 : (Z.rem y 5 =? 0) = true <-> (5 | y)) by (rewrite Z.eqb_eq, Z.rem_divide by lia; reflexivity).
  destruct (Z.even y) eqn:B2; [|destruct (Z.rem y 3 =? 0) eqn:B3; [|destruct (Z.rem y 5 =? 0) eqn:B5]]; cbn [orb].
  - eexists. split; [reflexivity|]. split; [discriminate|]. intros H. apply (prime_by y 2) in H; [lia|lia|by apply E2].
  - eexists. split; [reflexivity|]. split; [discriminate|]. intros H. apply (prime_by y 3) in H; [lia|lia|by apply E3].
  - eexists. split; [reflexivity|]. split; [discriminate|]. intros H. apply (prime_by y 5) in H; [lia|lia|by apply E5].
  - assert (N2 : ~ (2 | y)) by (intros H; apply E2 in H; discriminate). assert (N3 : ~ (3 | y)) by (intros H; apply E3 in H; discriminate).
    assert (N5 : ~ (5 | y)) by (intros H; apply E5 in H; discriminate).
    destruct (Z.ltb_spec y 25) as [L|L].
    + eexists. split; [reflexivity|]. split; [|reflexivity]. intros _. apply small_prime; [|exact N2|exact N3].
      assert (y <> 0) by (intros ->; apply N2; apply Z.divide_0_r). lia.
    + eexists. split; [reflexivity|]. cbn iota. rewrite <-!Hd. split; [exact L|]. split; [exact N2|]. split; [exact N3|exact N5].
Qed.

(** ** Miller and Rabin's test *)
Lemma halve_spec fuel : forall i x, stands_for i x -> 0 < x < 2 ^ Z.of_nat fuel ->
  exists r y e, halve_loop fuel i = Ok r /\ stands_for r y /\ 0 <= e /\ x = 2 ^ e * y /\ 0 < y /\ Z.odd y = true.
Proof.
  induction fuel as [|fuel IH]; intros i x Hi Hx; cbn [halve_loop].
  { change (2 ^ Z.of_nat 0) with 1 in Hx. lia. }
  destruct (parity_spec i x Hi) as [-> _]. destruct (Z.even x) eqn:Ev.
  - destruct (int_divide_spec i (mk_small 2) x 2 Hi two_spec ltac:(lia)) as (q & -> & Hq). cbn [rbind].
    apply Z.even_spec in Ev as [k ->]. rewrite Z.mul_comm, Z.quot_mul in Hq by lia.
    destruct (IH q k Hq) as (r & y & e & -> & Hr & He & Ey & Hy & Hod).
    { rewrite Nat2Z.inj_succ, Z.pow_succ_r in Hx by lia. lia. }
    exists r, y, (Z.succ e). split; [reflexivity|]. split; [exact Hr|]. split; [lia|]. split; [|split; [exact Hy|exact Hod]].
    rewrite Z.pow_succ_r by exact He. rewrite Ey at 1. ring.
  - exists i, x, 0. split; [reflexivity|]. split; [exact Hi|]. split; [lia|]. split; [lia|]. split; [lia|].
    by rewrite <-Z.negb_even, Ev.
Qed.

Lemma mod_one x n : 1 < n -> 0 <= x < n -> x mod n = 1 -> x = 1.
Proof. intros Hn Hx H. by rewrite Z.mod_small in H. Qed.

Lemma square_loop_spec uk ni pi n fuel : stands_for ni n -> stands_for pi (n - 1) -> 1 < n ->
  forall xi di x d, stands_for xi x -> stands_for di d -> 0 <= x < n -> 0 < d -> n - 1 <= d * 2 ^ Z.of_nat fuel ->
  exists b, square_loop uk fuel xi di ni pi = Ok b
    /\ (prime n -> x <> 1 -> x <> n - 1 -> forall k, 0 <= k -> d * 2 ^ k = n - 1 -> x ^ (2 ^ k) mod n = 1 -> b = false).
Proof.
  intros Hn Hp H1.
  assert (Hend : forall x d, 0 <= x < n -> 0 < d -> n - 1 <= d -> x <> 1 ->
    forall k, 0 <= k -> d * 2 ^ k = n - 1 -> x ^ (2 ^ k) mod n = 1 -> False).
  { intros x d Hx Hd Hle Hx1 k Hk Ek Hm. assert (P : 1 <= 2 ^ k) by (pose proof (Z.pow_pos_nonneg 2 k); lia).
    assert (E1 : 2 ^ k = 1).
    { assert (d * 2 ^ k <= d * 1) by lia. apply Z.mul_le_mono_pos_l in H; lia. }
    rewrite E1, Z.pow_1_r in Hm. apply Hx1. by apply (mod_one x n). }
  induction fuel as [|fuel IH]; intros xi di x d Hx Hd Hxr Hd0 Hf; cbn [square_loop];
    destruct (tests_spec di pi d (n - 1) Hd Hp) as (_ & _ & -> & _).
  { change (2 ^ Z.of_nat 0) with 1 in Hf. destruct (Z.ltb_spec d (n - 1)); [lia|]. exists true. split; [reflexivity|].
    intros Pr X1 X2 k Hk Ek Hm. exfalso. by apply (Hend x d Hxr Hd0 ltac:(lia) X1 k Hk Ek Hm). }
  destruct (Z.ltb_spec d (n - 1)) as [L|L].
  2:{ exists true. split; [reflexivity|]. intros Pr X1 X2 k Hk Ek Hm. exfalso. by apply (Hend x d Hxr Hd0 L X1 k Hk Ek Hm). }
  destruct (int_mod_spec _ ni _ n (BigIntProofs.square_spec xi x Hx) Hn ltac:(lia)) as (si & -> & Hs). cbn [rbind].
  assert (Hsq : 0 <= x * x) by (apply Z.mul_nonneg_nonneg; lia).
  rewrite Z.rem_mod_nonneg in Hs by lia. pose proof (Z.mod_pos_bound (x * x) n ltac:(lia)) as Hsr.
  destruct (tests_spec si pi _ _ Hs Hp) as (-> & _). destruct (Z.eqb_spec ((x * x) mod n) (n - 1)) as [E|E].
  { exists false. split; [reflexivity|]. reflexivity. }
  destruct (multiply_spec uk di _ _ _ Hd two_spec) as (d2 & -> & Hd2). cbn [rbind].
  destruct (IH si d2 _ _ Hs Hd2 Hsr ltac:(lia)) as (b & -> & Hb).
  { rewrite Nat2Z.inj_succ, Z.pow_succ_r in Hf by lia. lia. }
  exists b. split; [reflexivity|]. intros Pr X1 X2 k Hk Ek Hm.
  assert (Hk1 : k <> 0) by (intros ->; change (2 ^ 0) with 1 in Ek; lia).
  apply (Hb Pr) with (k := k - 1); [|exact E|lia| |].
  - intros E1. assert (D : (n | (x - 1) * (x + 1))).
    { replace ((x - 1) * (x + 1)) with (x * x - 1) by ring. exists (x * x / n). pose proof (Z.div_mod (x * x) n ltac:(lia)). lia. }
    apply prime_mult in D as [[q Hq]|[q Hq]]; [| |exact Pr].
    + assert (q = 0) by nia. subst q. lia.
    + assert (q = 1) by nia. subst q. lia.
  - rewrite <-Ek. replace k with (Z.succ (k - 1)) at 2 by lia. rewrite Z.pow_succ_r by lia. ring.
  - rewrite <-Zpower_mod by lia. replace (x ^ (2 ^ k)) with ((x * x) ^ (2 ^ (k - 1))) in Hm; [exact Hm|].
    replace (2 ^ k) with (2 * 2 ^ (k - 1)) by (rewrite <-Z.pow_succ_r by lia; f_equal; lia).
    rewrite Z.pow_mul_r by (try lia; apply Z.pow_nonneg; lia). rewrite Z.pow_2_r. reflexivity.
Qed.

Lemma fermat_unit n a : prime n -> 0 < a < n -> a ^ (n - 1) mod n = 1.
Proof.
  intros Hn Ha. destruct (fermat n a Hn Ha) as [q Hq].
  replace (a ^ (n - 1)) with (1 + q * n) by lia. rewrite Z.mod_add by lia. apply Z.mod_small. lia.
Qed.

Lemma bases_loop_spec uk bi ni pi b n s : stands_for bi b -> stands_for ni n -> stands_for pi (n - 1) -> 25 <= n ->
  0 < b -> 0 <= s -> b * 2 ^ s = n - 1 ->
  forall bases, Forall (fun a => 0 < a < 25) bases ->
  exists r, bases_loop uk bases bi ni pi = Ok r /\ (prime n -> r = true).
Proof.
  intros Hb Hn Hp H25 Hb0 Hs Es. induction 1 as [|a bases Ha Hall IH]; cbn [bases_loop].
  { exists true. split; reflexivity. }
  assert (Hai : stands_for (mk_small a) a) by (apply mk_small_spec; lia).
  destruct (int_mod_pow_spec uk _ _ _ a b n Hai Hb Hn) as [_ Hmp]. destruct (Hmp ltac:(lia)) as (xi & -> & Hx). cbn [rbind expect].
  destruct (Z.ltb_spec 0 b); [|lia]. assert (Hab : 0 <= a ^ b) by (apply Z.pow_nonneg; lia).
  rewrite Z.rem_mod_nonneg in Hx by lia. pose proof (Z.mod_pos_bound (a ^ b) n ltac:(lia)) as Hxr.
  destruct (tests_spec xi _ _ 1 Hx one_spec) as (-> & _). destruct (tests_spec xi pi _ _ Hx Hp) as (-> & _).
  destruct (Z.eqb_spec ((a ^ b) mod n) 1) as [E1|E1]; [exact IH|]. destruct (Z.eqb_spec ((a ^ b) mod n) (n - 1)) as [E2|E2]; [exact IH|].
  cbn [orb]. destruct (square_loop_spec uk ni pi n (S (text_fuel pi)) Hn Hp ltac:(lia) xi bi _ b Hx Hb Hxr Hb0) as (t & -> & Ht).
  { pose proof (bits_spec pi _ Hp) as B. assert (2 ^ Z.of_nat (S (text_fuel pi)) <= b * 2 ^ Z.of_nat (S (text_fuel pi))).
    { rewrite <-(Z.mul_1_l (2 ^ _)) at 1. apply Z.mul_le_mono_nonneg_r; [apply Z.pow_nonneg; lia|lia]. } lia. }
  cbn [rbind]. destruct t; [|exact IH]. exists false. split; [reflexivity|]. intros Pr. exfalso.
  assert (true = false) as H'; [|discriminate]. apply (Ht Pr E1 E2 s Hs Es).
  rewrite <-Zpower_mod by lia. rewrite <-Z.pow_mul_r by (try lia; apply Z.pow_nonneg; lia). rewrite Es. apply fermat_unit; [exact Pr|lia].
Qed.

Theorem is_prime_spec uk i x : stands_for i x ->
  exists b, is_prime uk i = Ok b /\ (prime (Z.abs x) -> b = true)
    /\ (b = true -> Z.abs x < 25 \/ (2 | x) \/ (3 | x) \/ (5 | x) -> prime (Z.abs x)).
Proof.
  intros Hi. unfold is_prime. destruct (is_basic_prime_spec i x Hi) as (o & -> & Ho). cbn [rbind]. destruct o as [b|].
  { exists b. split; [reflexivity|]. split; [apply Ho|]. intros Hb _. by apply Ho. }
  destruct Ho as (H25 & N2 & N3 & N5). pose proof (abs_spec i x Hi) as Ha. pose proof (prev_spec _ _ Ha) as Hp.
  set (n := Z.abs x) in *.
  destruct (halve_spec (S (text_fuel (prev (int_abs i)))) _ _ Hp) as (bi & b & s & -> & Hb & Hs & Es & Hb0 & _).
  { pose proof (bits_spec _ _ Hp). lia. }
  cbn [rbind]. destruct (bases_loop_spec uk bi (int_abs i) (prev (int_abs i)) b n s Hb Ha Hp H25 Hb0 Hs ltac:(lia)
    [2; 3; 5; 7; 11; 13; 17; 19]) as (r & -> & Hr); [repeat constructor; lia|].
  exists r. split; [reflexivity|]. split; [exact Hr|]. intros _ [H|[H|[H|H]]]; [lia|contradiction|contradiction|contradiction].
Qed.

(** ** The test exactly *)

Lemma square_loop_exact uk ni pi n fuel : stands_for ni n -> stands_for pi (n - 1) -> 1 < n ->
  forall xi di x d, stands_for xi x -> stands_for di d -> 0 <= x < n -> 0 < d -> n - 1 <= d * 2 ^ Z.of_nat fuel ->
  exists b, square_loop uk fuel xi di ni pi = Ok b
    /\ (b = false <-> exists j, 0 <= j /\ d * 2 ^ j < n - 1 /\ (x ^ (2 ^ (j + 1))) mod n = n - 1).
Proof.
  intros Hn Hp H1.
  assert (Hend : forall d, 0 < d -> n - 1 <= d -> forall j, 0 <= j -> d * 2 ^ j < n - 1 -> False).
  { intros d Hd Hle j Hj Hlt. assert (P : 1 <= 2 ^ j) by (pose proof (Z.pow_pos_nonneg 2 j); lia). nia. }
  induction fuel as [|fuel IH]; intros xi di x d Hx Hd Hxr Hd0 Hf; cbn [square_loop];
    destruct (tests_spec di pi d (n - 1) Hd Hp) as (_ & _ & -> & _).
  { change (2 ^ Z.of_nat 0) with 1 in Hf. destruct (Z.ltb_spec d (n - 1)); [lia|]. exists true. split; [reflexivity|].
    split; [discriminate|]. intros (j & Hj & Hlt & _). exfalso. by apply (Hend d Hd0 ltac:(lia) j Hj Hlt). }
  destruct (Z.ltb_spec d (n - 1)) as [L|L].
  2:{ exists true. split; [reflexivity|]. split; [discriminate|]. intros (j & Hj & Hlt & _). exfalso. by apply (Hend d Hd0 L j Hj Hlt). }
  destruct (int_mod_spec _ ni _ n (BigIntProofs.square_spec xi x Hx) Hn ltac:(lia)) as (si & -> & Hs). cbn [rbind].
  assert (Hsq : 0 <= x * x) by (apply Z.mul_nonneg_nonneg; lia).
  rewrite Z.rem_mod_nonneg in Hs by lia. pose proof (Z.mod_pos_bound (x * x) n ltac:(lia)) as Hsr.
  destruct (tests_spec si pi _ _ Hs Hp) as (-> & _). destruct (Z.eqb_spec ((x * x) mod n) (n - 1)) as [E|E].
  { exists false. split; [reflexivity|]. split; [|reflexivity]. intros _. exists 0. split; [lia|]. change (2 ^ 0) with 1. split; [lia|].
    change (2 ^ (0 + 1)) with 2. rewrite Z.pow_2_r. exact E. }
  destruct (multiply_spec uk di _ _ _ Hd two_spec) as (d2 & -> & Hd2). cbn [rbind].
  destruct (IH si d2 _ _ Hs Hd2 Hsr ltac:(lia)) as (b & -> & Hb).
  { rewrite Nat2Z.inj_succ, Z.pow_succ_r in Hf by lia. lia. }
  exists b. split; [reflexivity|]. rewrite Hb.
  assert (Hpow : forall j, 0 <= j -> ((x * x) mod n) ^ (2 ^ (j + 1)) mod n = (x ^ (2 ^ (j + 1 + 1))) mod n).
  { intros j Hj. rewrite <-Zpower_mod by lia. f_equal.
    replace (2 ^ (j + 1 + 1)) with (2 * 2 ^ (j + 1)) by (rewrite <-Z.pow_succ_r by lia; f_equal; lia).
    rewrite Z.pow_mul_r by (try lia; apply Z.pow_nonneg; lia). by rewrite Z.pow_2_r. }
  assert (Hdj : forall j, 0 <= j -> d * 2 * 2 ^ j = d * 2 ^ (j + 1)).
  { intros j Hj. rewrite Z.pow_add_r by lia. change (2 ^ 1) with 2. ring. }
  split.
  - intros (j & Hj & Hlt & Hm). exists (j + 1). rewrite <-(Hdj j Hj), <-(Hpow j Hj). split; [lia|]. done.
  - intros (j & Hj & Hlt & Hm). destruct (Z.eq_dec j 0) as [->|Hne].
    + change (2 ^ (0 + 1)) with 2 in Hm. rewrite Z.pow_2_r in Hm. contradiction.
    + exists (j - 1). rewrite (Hdj (j - 1)) by lia. rewrite (Hpow (j - 1)) by lia. replace (j - 1 + 1) with j by lia. split; [lia|]. done.
Qed.

Lemma odd_part s b t c : 0 <= s -> 0 <= t -> Z.odd b = true -> Z.odd c = true -> 2 ^ s * b = 2 ^ t * c -> s = t /\ b = c.
Proof.
  assert (W : forall s b t c, 0 <= s -> s <= t -> Z.odd b = true -> Z.odd c = true -> 2 ^ s * b = 2 ^ t * c -> s = t /\ b = c).
  { clear. intros s b t c Hs Hst Hb Hc E. assert (P : 0 < 2 ^ s) by (apply Z.pow_pos_nonneg; lia).
    assert (E' : b = 2 ^ (t - s) * c).
    { apply (Z.mul_reg_l _ _ (2 ^ s)); [lia|]. rewrite E, Z.mul_assoc, <-Z.pow_add_r by lia. do 2 f_equal. lia. }
    destruct (Z.eq_dec t s) as [->|Hne].
    - split; [reflexivity|]. rewrite E', Z.sub_diag. change (2 ^ 0) with 1. lia.
    - exfalso. rewrite E', Z.odd_mul, Z.odd_pow in Hb by lia. discriminate. }
  intros Hs Ht Hb Hc E. destruct (Z.le_ge_cases s t) as [H|H]; [by apply W|].
  destruct (W t c s b) as [-> ->]; auto.
Qed.

Lemma bases_loop_exact uk bi ni pi b n s : stands_for bi b -> stands_for ni n -> stands_for pi (n - 1) -> 25 <= n ->
  0 < b -> 0 <= s -> Z.odd b = true -> n - 1 = 2 ^ s * b ->
  forall bases, Forall (fun a => 0 < a < 25) bases ->
  exists r, bases_loop uk bases bi ni pi = Ok r /\ (r = true <-> Forall (passes_miller n) bases).
Proof.
  intros Hb Hn Hp H25 Hb0 Hs Hod Es. induction 1 as [|a bases Ha Hall IH]; cbn [bases_loop].
  { exists true. split; [reflexivity|]. split; [constructor|reflexivity]. }
  assert (Hai : stands_for (mk_small a) a) by (apply mk_small_spec; lia).
  destruct (int_mod_pow_spec uk _ _ _ a b n Hai Hb Hn) as [_ Hmp]. destruct (Hmp ltac:(lia)) as (xi & -> & Hx). cbn [rbind expect].
  destruct (Z.ltb_spec 0 b); [|lia]. assert (Hab : 0 <= a ^ b) by (apply Z.pow_nonneg; lia).
  rewrite Z.rem_mod_nonneg in Hx by lia. pose proof (Z.mod_pos_bound (a ^ b) n ltac:(lia)) as Hxr.
  destruct (tests_spec xi _ _ 1 Hx one_spec) as (-> & _). destruct (tests_spec xi pi _ _ Hx Hp) as (-> & _).
  assert (Hgo : passes_miller n a -> exists r, bases_loop uk bases bi ni pi = Ok r /\ (r = true <-> Forall (passes_miller n) (a :: bases))).
  { intros Hpa. destruct IH as (r & -> & Hr). exists r. split; [reflexivity|]. rewrite Hr, Forall_cons. tauto. }
  destruct (Z.eqb_spec ((a ^ b) mod n) 1) as [E1|E1].
  { apply Hgo. exists s, b. split_and!; try done. by left. }
  destruct (Z.eqb_spec ((a ^ b) mod n) (n - 1)) as [E2|E2].
  { apply Hgo. exists s, b. split_and!; try done. right. exists 0. split; [lia|]. change (2 ^ 0) with 1. by rewrite Z.mul_1_r. }
  cbn [orb]. destruct (square_loop_exact uk ni pi n (S (text_fuel pi)) Hn Hp ltac:(lia) xi bi _ b Hx Hb Hxr Hb0) as (t & -> & Ht).
  { pose proof (bits_spec pi _ Hp) as B. assert (2 ^ Z.of_nat (S (text_fuel pi)) <= b * 2 ^ Z.of_nat (S (text_fuel pi))).
    { rewrite <-(Z.mul_1_l (2 ^ _)) at 1. apply Z.mul_le_mono_nonneg_r; [apply Z.pow_nonneg; lia|lia]. } lia. }
  assert (Hpw : forall k, 0 <= k -> ((a ^ b) mod n) ^ (2 ^ k) mod n = (a ^ (b * 2 ^ k)) mod n).
  { intros k Hk. rewrite <-Zpower_mod by lia. by rewrite <-Z.pow_mul_r by (try lia; apply Z.pow_nonneg; lia). }
  cbn [rbind]. destruct t.
  - exists false. split; [reflexivity|]. split; [discriminate|]. intros Hpa. exfalso. apply Forall_cons_1 in Hpa as [Hpa _].
    destruct Hpa as (s' & b' & Hs' & Hod' & Es' & Hpa). destruct (odd_part s b s' b') as [<- <-]; try done; [lia|].
    destruct Hpa as [Hpa|(k & Hk & Hpa)]; [contradiction|].
    destruct (Z.eq_dec k 0) as [->|Hne]. { change (2 ^ 0) with 1 in Hpa. rewrite Z.mul_1_r in Hpa. contradiction. }
    assert (true = false); [|discriminate]. apply Ht. exists (k - 1). split; [lia|]. split.
    + rewrite Es, (Z.mul_comm (2 ^ s)). apply Z.mul_lt_mono_pos_l; [lia|]. apply Z.pow_lt_mono_r; lia.
    + replace (k - 1 + 1) with k by lia. by rewrite Hpw by lia.
  - apply Hgo. exists s, b. split_and!; try done. right. destruct (proj1 Ht eq_refl) as (j & Hj & Hlt & Hm).
    exists (j + 1). rewrite Hpw in Hm by lia. split; [|exact Hm].
    rewrite Es, (Z.mul_comm (2 ^ s)) in Hlt. apply Z.mul_lt_mono_pos_l in Hlt; [|lia]. apply Z.pow_lt_mono_r_iff in Hlt; lia.
Qed.

Theorem is_prime_exact uk i x : stands_for i x -> 25 <= Z.abs x -> ~ (2 | x) -> ~ (3 | x) -> ~ (5 | x) ->
  exists b, is_prime uk i = Ok b /\ (b = true <-> Forall (passes_miller (Z.abs x)) [2; 3; 5; 7; 11; 13; 17; 19]).
Proof.
  intros Hi H25 N2 N3 N5. unfold is_prime.
  pose proof (abs_spec i x Hi) as Ha. pose proof (prev_spec _ _ Ha) as Hp. set (n := Z.abs x) in *.
  assert (is_basic_prime i = Ok None) as ->.
  { unfold is_basic_prime. assert (Hd : forall d, (d | n) <-> (d | x)) by (intros d; apply Z.divide_abs_r).
    destruct (signs_spec _ n Ha) as (_ & _ & _ & ->). rewrite (Z.abs_eq n) by lia.
    assert (S2 : stands_for (mk_small 2) 2) by (apply mk_small_spec; lia). assert (S3 : stands_for (mk_small 3) 3) by (apply mk_small_spec; lia).
    assert (S5 : stands_for (mk_small 5) 5) by (apply mk_small_spec; lia). assert (S25 : stands_for (mk_small 25) 25) by (apply mk_small_spec; lia).
    destruct (tests_spec _ _ n 2 Ha S2) as (-> & _). destruct (tests_spec _ _ n 3 Ha S3) as (-> & _).
    destruct (tests_spec _ _ n 5 Ha S5) as (-> & _). destruct (tests_spec _ _ n 25 Ha S25) as (_ & _ & -> & _).
    rewrite (divisible_spec _ _ n 3 Ha S3), (divisible_spec _ _ n 5 Ha S5). cbn [rbind].
    change (3 =? 0) with false. change (5 =? 0) with false. cbv iota. destruct (parity_spec _ n Ha) as [-> _].
    destruct (Z.eqb_spec n 1); [lia|]. destruct (Z.eqb_spec n 2); [lia|]. destruct (Z.eqb_spec n 3); [lia|]. destruct (Z.eqb_spec n 5); [lia|].
    cbn [orb]. destruct (Z.even n) eqn:B2.
    { exfalso. apply N2, Hd. apply Z.even_spec in B2 as [k ->]. exists k. lia. }
    destruct (Z.eqb_spec (Z.rem n 3) 0) as [B3|_]. { exfalso. by apply N3, Hd, Z.rem_divide. }
    destruct (Z.eqb_spec (Z.rem n 5) 0) as [B5|_]. { exfalso. by apply N5, Hd, Z.rem_divide. }
    cbn [orb]. destruct (Z.ltb_spec n 25); [lia|]. reflexivity. }
  cbn [rbind]. destruct (halve_spec (S (text_fuel (prev (int_abs i)))) _ _ Hp) as (bi & b & s & -> & Hb & Hs & Es & Hb0 & Hod).
  { pose proof (bits_spec _ _ Hp). lia. }
  cbn [rbind]. apply (bases_loop_exact uk bi _ _ b n s Hb Ha Hp ltac:(lia) Hb0 Hs Hod Es).
  repeat constructor; lia.
Qed.

(** Powers modulo n by squaring, on Coq's own integers: quick enough to look at one large number. *)
Fixpoint pow_mod_pos (n a : Z) (e : positive) : Z :=
  match e with
  | xH => a mod n
  | xO e => let t := pow_mod_pos n a e in (t * t) mod n
  | xI e => let t := pow_mod_pos n a e in (((t * t) mod n) * a) mod n
  end.

Lemma pow_mod_pos_spec n a e : pow_mod_pos n a e = (a ^ Zpos e) mod n.
Proof.
  induction e as [e IH|e IH|]; cbn [pow_mod_pos].
  - rewrite IH, <-Zmult_mod, Zmult_mod_idemp_l. f_equal.
    rewrite (Pos2Z.inj_xI e). rewrite Z.pow_add_r, (Z.mul_comm 2), Z.pow_mul_r by lia. rewrite Z.pow_2_r, Z.pow_1_r. reflexivity.
  - rewrite IH, <-Zmult_mod. f_equal. rewrite (Pos2Z.inj_xO e). rewrite (Z.mul_comm 2), Z.pow_mul_r by lia. by rewrite Z.pow_2_r.
  - by rewrite Z.pow_1_r.
Qed.

Definition passes_check (n a s : Z) (b k : positive) : bool :=
  (pow_mod_pos n a b =? 1) || (pow_mod_pos n a b =? n - 1) || ((Zpos k <=? s) && (pow_mod_pos n a (b * 2 ^ k) =? n - 1)).

Lemma passes_checked n a s b k : 0 <= s -> Z.odd (Zpos b) = true -> n - 1 = 2 ^ s * Zpos b -> passes_check n a s b k = true -> passes_miller n a.
Proof.
  intros Hs Hod E H. exists s, (Zpos b). split; [exact Hs|]. split; [exact Hod|]. split; [exact E|].
  unfold passes_check in H. apply orb_true_iff in H as [H|H]; [apply orb_true_iff in H as [H|H]|].
  - left. apply Z.eqb_eq in H. by rewrite pow_mod_pos_spec in H.
  - right. exists 0. split; [lia|]. apply Z.eqb_eq in H. rewrite pow_mod_pos_spec in H. change (2 ^ 0) with 1. by rewrite Z.mul_1_r.
  - right. apply andb_true_iff in H as [Hk H]. apply Z.leb_le in Hk. exists (Zpos k). split; [lia|]. apply Z.eqb_eq in H.
    rewrite pow_mod_pos_spec in H. by rewrite Pos2Z.inj_mul, Pos2Z.inj_pow in H.
Qed.

(** ** Random integers *)
Lemma random_digits_length random : forall tops k res, length (random_digits random k res tops) = length tops.
Proof. induction tops as [|t tops IH]; intros k res; cbn [random_digits]; [reflexivity|]. rewrite app_length, IH. cbn. lia. Qed.
Lemma random_digits_free random : drawn_below random -> forall tops k, digs (random_digits random k false tops).
Proof.
  intros Hr. induction tops as [|t tops IH]; intros k; cbn [random_digits andb]; [constructor|]. apply Forall_app. split; [apply IH|].
  constructor; [|constructor]. destruct (Hr k BASE) as (H1 & H2 & _); [rewrite BASE_eq; lia|]. unfold digit. rewrite BASE_eq in *. lia.
Qed.
Lemma random_digits_spec random : drawn_below random -> forall tops k, digs tops ->
  digs (random_digits random k true tops) /\ (val (random_digits random k true tops) < val (rev tops) \/ val (random_digits random k true tops) = 0).
Proof.
  intros Hr. induction tops as [|t tops IH]; intros k Hd; [split; [constructor|right; reflexivity]|].
  inversion_clear Hd as [|? ? Ht Hd']. unfold digit in Ht. cbn [random_digits rev andb]. destruct (Hr k t) as (H1 & H2 & H3); [lia|].
  rewrite !val_app, random_digits_length, rev_length. rewrite !val_cons. change (val []) with 0.
  pose proof (Z.pow_pos_nonneg BASE (Z.of_nat (length tops)) ltac:(rewrite BASE_eq; lia) ltac:(lia)) as Hpos.
  destruct (Z.ltb_spec (random k t) t) as [L|L]; cbn [negb].
  - pose proof (random_digits_free random Hr tops (S k)) as Hf. split; [apply Forall_app; split; [exact Hf|]; constructor; [unfold digit; lia|constructor]|].
    left. pose proof (val_bounds _ Hf) as B. rewrite random_digits_length in B.
    pose proof (val_nonneg (rev tops) ltac:(by apply Forall_rev)) as B'. set (P := BASE ^ Z.of_nat (length tops)) in *.
    assert (P * (random k t + 1) <= P * t) by (apply Z.mul_le_mono_nonneg_l; lia). lia.
  - assert (t = 0) as -> by lia. rewrite H3 by reflexivity. destruct (IH (S k) Hd') as [I1 I2].
    split; [apply Forall_app; split; [exact I1|]; constructor; [unfold digit; lia|constructor]|]. lia.
Qed.

Theorem rand_between_spec random k i j x y : drawn_below random -> stands_for i x -> stands_for j y ->
  exists z, stands_for (rand_between random k i j) z /\ Z.min x y <= z <= Z.max x y.
Proof.
  intros Hr Hi Hj. unfold rand_between. destruct (max_min_spec i j x y Hi Hj) as [M1 M2].
  pose proof (add_spec _ _ _ _ (subtract_spec _ _ _ _ M1 M2) one_spec) as HR.
  set (low := int_min i j) in *. set (range := add (subtract (int_max i j) low) (mk_small 1)) in *. clearbody range.
  destruct range as [v s|v s].
  - apply small_elim in HR as (Ev & Hv & _). destruct (Hr k v) as (H1 & H2 & _); [lia|].
    exists (Z.min x y + random k v). split; [|lia]. apply add_spec; [exact M2|]. apply mk_small_spec. lia.
  - apply big_elim in HR as (D1 & D2 & D3 & Ev & _). destruct s; cbn [signed] in Ev; [lia|].
    destruct (random_digits_spec random Hr (rev v) k ltac:(by apply Forall_rev)) as [R1 R2]. rewrite rev_involutive in R2.
    pose proof (val_nonneg _ R1) as R3. pose proof (mk_integer_spec _ false _ (array_to_small_spec _ R1)) as HI. cbn [signed] in HI.
    eexists. split; [apply add_spec; [exact M2|exact HI]|]. lia.
Qed.

Lemma probable_loop_spec uk random ni n : (forall i, drawn_below (random i)) -> stands_for ni n -> 25 <= n ->
  forall rounds i, exists r, probable_loop uk random i rounds ni = Ok r /\ (prime n -> r = true).
Proof.
  intros Hr Hn H25. induction rounds as [|rounds IH]; intros i; cbn [probable_loop]; [exists true; split; reflexivity|].
  pose proof (subtract_spec ni _ n 2 Hn two_spec) as Hm.
  destruct (rand_between_spec (random i) 0 (mk_small 2) _ 2 _ (Hr i) two_spec Hm) as (a & Ha & Hb).
  destruct (int_mod_pow_spec uk _ _ _ a (n - 1) n Ha (prev_spec ni n Hn) Hn) as [_ Hmp].
  destruct (Hmp ltac:(lia)) as (p & -> & Hp). cbn [rbind expect]. destruct (Z.ltb_spec 0 (n - 1)); [|lia].
  destruct (signs_spec p _ Hp) as (_ & _ & _ & ->).
  destruct (Z.eqb_spec (Z.abs (Z.rem (a ^ (n - 1)) n)) 1) as [E|E]; cbn [negb]; [apply IH|].
  exists false. split; [reflexivity|]. intros Pr. exfalso. apply E. rewrite Z.rem_mod_nonneg by (try lia; apply Z.pow_nonneg; lia).
  rewrite fermat_unit by (try exact Pr; lia). reflexivity.
Qed.
Theorem is_probable_prime_spec uk random iterations i x : (forall k, drawn_below (random k)) -> stands_for i x ->
  exists b, is_probable_prime uk random iterations i = Ok b /\ (prime (Z.abs x) -> b = true)
    /\ (b = true -> Z.abs x < 25 \/ (2 | x) \/ (3 | x) \/ (5 | x) -> prime (Z.abs x)).
Proof.
  intros Hr Hi. unfold is_probable_prime. destruct (is_basic_prime_spec i x Hi) as (o & -> & Ho). cbn [rbind]. destruct o as [b|].
  { exists b. split; [reflexivity|]. split; [apply Ho|]. intros Hb _. by apply Ho. }
  destruct Ho as (H25 & N2 & N3 & N5). destruct (probable_loop_spec uk random (int_abs i) _ Hr (abs_spec i x Hi) H25 (default 5%nat iterations) 0)
    as (r & -> & Hp).
  exists r. split; [reflexivity|]. split; [exact Hp|]. intros _ [H|[H|[H|H]]]; [lia|contradiction|contradiction|contradiction].
Qed.
