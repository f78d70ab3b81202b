(** * BigIntNum: when the arithmetic of doubles is exact *)

From Verif Require Export BigInt JsObjectProofs.
Local Open Scope N_scope.

Lemma f64_small v : v <= 2 ^ 53 -> f64_of v = v.
Proof. intros H. eapply nearest_exact; [apply f64_nearest|by apply double_small]. Qed.
Lemma f64_double v : double v -> f64_of v = v.
Proof. intros H. eapply nearest_exact; [apply f64_nearest|done]. Qed.

(** The rounding error is at most one part in 2^53. *)
Lemma f64_err v : 2 ^ 53 * f64_of v <= (2 ^ 53 + 1) * v /\ (2 ^ 53 - 1) * v <= 2 ^ 53 * f64_of v.
Proof.
  destruct (decide (v <= 2 ^ 53)) as [H|H]; [rewrite (f64_small _ H); lia|].
  assert (Hv : 0 < v) by lia. unfold f64_of.
  pose proof (N.log2_spec v Hv) as [Hlo Hhi].
  assert (Hl : 52 < N.log2 v).
  { apply N.lt_le_trans with 53; [done|]. apply N.log2_le_pow2; [done|]. lia. }
  set (e := N.log2 v - 52). replace (N.log2 v) with (52 + e) in Hlo by (unfold e; lia). clearbody e. clear Hl Hhi.
  rewrite N.pow_add_r in Hlo. set (P := 2 ^ e) in *. assert (HP : 0 < P) by (apply N.neq_0_lt_0, N.pow_nonzero; done).
  clearbody P. pose proof (N.div_mod v P ltac:(lia)) as Hdm. pose proof (N.mod_lt v P ltac:(lia)) as Hr.
  set (q := v / P) in *. set (r := v mod P) in *. clearbody q r.
  assert (Hup : exists up, match 2 * r ?= P with Lt => 0 | Eq => if N.odd q then 1 else 0 | Gt => 1 end = up
                /\ ((up = 0 /\ 2 * r <= P) \/ (up = 1 /\ P <= 2 * r))).
  { eexists; split; [reflexivity|]. destruct (N.compare_spec (2 * r) P); [|left; lia|right; lia].
    destruct (N.odd q); [right|left]; lia. }
  destruct Hup as (up & -> & [[-> Hup]|[-> Hup]]).
  - rewrite N.add_0_r. change (2 ^ 53) with (2 ^ 52 * 2) in *. lia.
  - rewrite N.mul_add_distr_r. change (2 ^ 53) with (2 ^ 52 * 2) in *. lia.
Qed.

Lemma f64_large v : 2 ^ 53 <= v -> 2 ^ 53 <= f64_of v.
Proof.
  intros H. destruct (N.le_gt_cases (2 ^ 53) (f64_of v)) as [|Hf]; [done|].
  destruct (f64_nearest v) as [_ Hn]. specialize (Hn (2 ^ 53) (double_small _ (N.le_refl _))).
  unfold distance in Hn. lia.
Qed.
Lemma f64_above v c : double c -> c <= v -> c <= f64_of v.
Proof.
  intros Hc H. destruct (N.le_gt_cases c (f64_of v)) as [|Hf]; [done|].
  destruct (f64_nearest v) as [_ Hn]. specialize (Hn c Hc). unfold distance in Hn. lia.
Qed.

(** ** Quotients *)

Definition quo_arg (x d : N) : N := 2 * (2 ^ 120 * x / d) + (if 2 ^ 120 * x mod d =? 0 then 0 else 1).
Lemma quo_eq x y : quo x y = f64_of (quo_arg (Z.abs_N x) (Z.abs_N y)).
Proof. done. Qed.
Lemma quo_arg_bounds x d : 0 < d -> quo_arg x d * d <= 2 ^ 121 * x + d /\ 2 ^ 121 * x <= quo_arg x d * d + d.
Proof.
  intros Hd. unfold quo_arg. change (2 ^ 121) with (2 * 2 ^ 120).
  pose proof (N.div_mod (2 ^ 120 * x) d ltac:(lia)) as Hdm. pose proof (N.mod_lt (2 ^ 120 * x) d ltac:(lia)) as Hr.
  set (q := 2 ^ 120 * x / d) in *. set (r := (2 ^ 120 * x) mod d) in *. clearbody q r.
  replace ((2 * q + (if r =? 0 then 0 else 1)) * d) with (2 * (d * q) + (if r =? 0 then 0 else d)).
  2: { destruct (r =? 0); ring. }
  destruct (N.eqb_spec r 0); lia.
Qed.

Lemma quo_floor x d : x < 2 ^ 53 -> 0 < d -> d < 2 ^ 60 -> f64_of (quo_arg x d) / 2 ^ 121 = x / d.
Proof.
  intros Hx Hd Hd'. pose proof (quo_arg_bounds x d Hd) as [Hn _].
  pose proof (N.div_mod x d ltac:(lia)) as Hdm. pose proof (N.mod_lt x d ltac:(lia)) as Hr.
  set (k := x / d) in *. set (r := x mod d) in *. assert (Hk : k < 2 ^ 53).
  { apply N.le_lt_trans with x; [|done]. apply N.div_le_upper_bound; nia. }
  assert (Hlow : k * 2 ^ 121 <= quo_arg x d).
  { unfold quo_arg. assert (k * 2 ^ 120 <= 2 ^ 120 * x / d).
    { apply N.div_le_lower_bound; [lia|]. rewrite Hdm. lia. }
    change (2 ^ 121) with (2 * 2 ^ 120). lia. }
  clearbody k r. pose proof (f64_err (quo_arg x d)) as [He _].
  pose proof (f64_above _ (k * 2 ^ 121) ltac:(exists k, 121; done) Hlow) as Hf.
  set (f := f64_of (quo_arg x d)) in *. set (n := quo_arg x d) in *. clearbody f n.
  symmetry. apply N.div_unique with (f - k * 2 ^ 121); [|lia].
  assert (f < (k + 1) * 2 ^ 121); [|lia]. clear Hlow Hf.
  apply (N.mul_lt_mono_pos_l (2 ^ 53 * d)); [lia|].
  apply N.le_lt_trans with ((2 ^ 53 + 1) * (n * d)); [nia|].
  apply N.le_lt_trans with ((2 ^ 53 + 1) * (2 ^ 121 * x + d)); [nia|].
  apply N.lt_le_trans with (2 ^ 174 * (x + 1)).
  - assert (2 ^ 121 * x <= 2 ^ 121 * (2 ^ 53 - 1)) by lia.
    change (2 ^ 174) with (2 ^ 53 * 2 ^ 121). assert ((2 ^ 53 + 1) * d < 2 ^ 121) by lia. lia.
  - replace (2 ^ 53 * d * ((k + 1) * 2 ^ 121)) with (2 ^ 174 * (d * k + d)) by (change (2 ^ 174) with (2 ^ 53 * 2 ^ 121); ring).
    apply N.mul_le_mono_l. lia.
Qed.

Lemma quo_ceil x d : x < 2 ^ 53 -> 0 < d -> d < 2 ^ 60 ->
  (f64_of (quo_arg x d) + 2 ^ 121 - 1) / 2 ^ 121 = (x + d - 1) / d.
Proof.
  intros Hx Hd Hd'. pose proof (quo_floor x d Hx Hd Hd') as Hfl. pose proof (quo_arg_bounds x d Hd) as [_ Hn].
  pose proof (N.div_mod x d ltac:(lia)) as Hdm. pose proof (N.mod_lt x d ltac:(lia)) as Hr.
  pose proof (N.div_mod (f64_of (quo_arg x d)) (2 ^ 121) ltac:(lia)) as Hfm. rewrite Hfl in Hfm.
  pose proof (N.mod_lt (f64_of (quo_arg x d)) (2 ^ 121) ltac:(lia)) as Hfr.
  set (k := x / d) in *. set (r := x mod d) in *. set (g := f64_of (quo_arg x d) mod 2 ^ 121) in *.
  assert (Hk : k < 2 ^ 53).
  { apply N.le_lt_trans with x; [|done]. apply N.div_le_upper_bound; nia. }
  destruct (decide (r = 0)) as [Hr0|Hr0].
  - (* divisible *)
    assert (Hq : quo_arg x d = k * 2 ^ 121).
    { unfold quo_arg. assert (Hx2 : 2 ^ 120 * x = (2 ^ 120 * k) * d) by (rewrite Hdm, Hr0; ring).
      rewrite Hx2, N.div_mul, N.mod_mul by lia. change (0 =? 0) with true. cbv iota.
      change (2 ^ 121) with (2 * 2 ^ 120). lia. }
    assert (Hf : f64_of (quo_arg x d) = k * 2 ^ 121).
    { rewrite Hq. apply f64_double. exists k, 121. done. }
    rewrite Hf. clear Hf Hfm Hfr Hfl g. rewrite Hdm, Hr0. clearbody k.
    replace (k * 2 ^ 121 + 2 ^ 121 - 1) with (2 ^ 121 - 1 + k * 2 ^ 121) by lia.
    replace (d * k + 0 + d - 1) with (d - 1 + k * d) by lia.
    rewrite !N.div_add by lia. rewrite !N.div_small by lia. done.
  - assert (Hg : 0 < g).
    { pose proof (f64_err (quo_arg x d)) as [_ He].
      set (f := f64_of (quo_arg x d)) in *. set (n := quo_arg x d) in *. clearbody f n k r g.
      assert (2 ^ 121 * k < f); [|lia].
      apply (N.mul_lt_mono_pos_l (2 ^ 53 * d)); [lia|].
      apply N.lt_le_trans with ((2 ^ 53 - 1) * (n * d)); [|nia].
      apply N.lt_le_trans with ((2 ^ 53 - 1) * (2 ^ 121 * x - d)); [|apply N.mul_le_mono_l; lia].
      replace (2 ^ 53 * d * (2 ^ 121 * k)) with (2 ^ 174 * (d * k)) by (change (2 ^ 174) with (2 ^ 53 * 2 ^ 121); ring).
      assert (Hdk : d * k + 1 <= x) by lia.
      assert (2 ^ 174 * (d * k + 1) <= 2 ^ 174 * x) by (apply N.mul_le_mono_l; lia).
      change (2 ^ 174) with (2 ^ 53 * 2 ^ 121) in *. lia. }
    rewrite Hfm. clearbody k r g.
    replace ((2 ^ 121 * k + g + 2 ^ 121 - 1)) with (g - 1 + (k + 1) * 2 ^ 121) by lia.
    replace (x + d - 1) with (r - 1 + (k + 1) * d) by lia.
    rewrite !N.div_add by lia. rewrite !N.div_small by lia. done.
Qed.

Local Open Scope Z_scope.

Lemma rnd_small z : - 2 ^ 53 <= z <= 2 ^ 53 -> rnd z = z.
Proof. intros H. unfold rnd. rewrite f64_small by lia. lia. Qed.
Lemma nadd_small a b : - 2 ^ 53 <= a + b <= 2 ^ 53 -> a ⊕ b = a + b.
Proof. apply rnd_small. Qed.
Lemma nsub_small a b : - 2 ^ 53 <= a - b <= 2 ^ 53 -> a ⊖ b = a - b.
Proof. apply rnd_small. Qed.
Lemma nmul_small a b : - 2 ^ 53 <= a * b <= 2 ^ 53 -> a ⊗ b = a * b.
Proof. apply rnd_small. Qed.

Lemma is_precise_spec z : is_precise z = true <-> - 2 ^ 53 < z < 2 ^ 53.
Proof. unfold is_precise. rewrite andb_true_iff, !Z.ltb_lt. change MAX_INT with (2 ^ 53). done. Qed.
Lemma rnd_precise z : is_precise (rnd z) = true -> rnd z = z /\ - 2 ^ 53 < z < 2 ^ 53.
Proof.
  rewrite is_precise_spec. intros H. destruct (decide (- 2 ^ 53 <= z <= 2 ^ 53)) as [Hz|Hz].
  { rewrite rnd_small in * by done. done. }
  exfalso. unfold rnd in H. pose proof (f64_large (Z.abs_N z) ltac:(lia)) as Hf. lia.
Qed.
Lemma rnd_imprecise z : is_precise (rnd z) = false -> 2 ^ 53 <= Z.abs z.
Proof.
  intros H. destruct (decide (2 ^ 53 <= Z.abs z)); [done|]. exfalso. rewrite rnd_small in H by lia.
  assert (is_precise z = true) by (apply is_precise_spec; lia). congruence.
Qed.

Lemma floor_div_exact x y : - 2 ^ 53 < x < 2 ^ 53 -> 0 < y < 2 ^ 60 -> floor_div x y = x / y.
Proof.
  intros Hx Hy. unfold floor_div. rewrite !quo_eq. destruct (Z.leb_spec 0 x) as [H|H].
  - rewrite quo_floor by lia. rewrite N2Z.inj_div, !N2Z.inj_abs_N. by rewrite !Z.abs_eq by lia.
  - rewrite quo_ceil by lia. rewrite N2Z.inj_div.
    replace (Z.of_N (Z.abs_N x + Z.abs_N y - 1)) with (- x + y - 1) by lia. rewrite N2Z.inj_abs_N, (Z.abs_eq y) by lia.
    pose proof (Z.div_mod x y ltac:(lia)) as Hdm. pose proof (Z.mod_pos_bound x y ltac:(lia)) as Hr.
    set (k := x / y) in *. set (r := x mod y) in *. clearbody k r.
    replace (- x + y - 1) with (y - 1 - r + (- k) * y) by lia. rewrite Z.div_add, Z.div_small by lia. lia.
Qed.
Lemma ceil_div_exact x y : - 2 ^ 53 < x < 2 ^ 53 -> 0 < y < 2 ^ 60 -> ceil_div x y = - (- x / y).
Proof. intros Hx Hy. unfold ceil_div. by rewrite floor_div_exact by lia. Qed.
Lemma trunc_div_exact x y : - 2 ^ 53 < x < 2 ^ 53 -> y <> 0 -> - 2 ^ 60 < y < 2 ^ 60 -> trunc_div x y = Z.quot x y.
Proof.
  intros Hx Hy Hy'. unfold trunc_div. rewrite floor_div_exact by lia.
  pose proof (Z.quot_div x y Hy). nia.
Qed.

Lemma BASE_eq : BASE = 10000000.
Proof. done. Qed.
Lemma pow53 : 2 ^ 53 = 9007199254740992.
Proof. done. Qed.
