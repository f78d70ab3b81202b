(** * BigIntBits: shifts and bitwise functions of the integers of JavaScript tracers *)

From Verif Require Export BigIntProofs.
Local Open Scope Z_scope.

(** ** Shifts *)

Lemma power_entry n : 0 <= n < 24 -> nth (Z.to_nat n) powers_of_two 0 = 2 ^ n.
Proof.
  intros H. unfold powers_of_two. apply nth_lookup_Some.
  rewrite list_lookup_fmap, lookup_seq_lt by lia. cbn [fmap option_fmap option_map]. f_equal. f_equal. lia.
Qed.
Lemma pow2_small n : 0 <= n < 24 -> 0 < 2 ^ n < 2 ^ 53.
Proof. intros H. split; [apply Z.pow_pos_nonneg; lia|apply Z.pow_lt_mono_r; lia]. Qed.
Lemma highest_eq : highest_power2 = 2 ^ 23.
Proof. reflexivity. Qed.

Lemma shl_loop_spec uk fuel : forall i x n, stands_for i x -> 0 <= n <= 10000000 -> n <= Z.of_nat fuel ->
  exists r, shl_loop uk fuel i n = Ok r /\ stands_for r (x * 2 ^ n).
Proof.
  induction fuel as [|fuel IH]; intros i x n Hi Hn Hf; cbn [shl_loop].
  - assert (n = 0) as -> by lia. change (0 <? 24) with true. cbv iota. rewrite power_entry by lia.
    apply multiply_spec; [exact Hi|]. apply mk_small_spec. pose proof (pow2_small 0). lia.
  - destruct (Z.ltb_spec n 24) as [H|H].
    + rewrite power_entry by lia. apply multiply_spec; [exact Hi|]. apply mk_small_spec. pose proof (pow2_small n). lia.
    + destruct (multiply_spec uk i (mk_small highest_power2) x highest_power2 Hi) as (r & -> & Hr).
      { apply mk_small_spec. rewrite highest_eq. pose proof (pow2_small 23). lia. }
      cbn [rbind]. rewrite nsub_small by lia.
      destruct (IH r (x * highest_power2) (n - 23) Hr ltac:(lia) ltac:(lia)) as (r' & E & Hr').
      exists r'. split; [exact E|]. eapply stands_eq; [exact Hr'|]. rewrite highest_eq, <- Z.mul_assoc, <- Z.pow_add_r by lia.
      do 2 f_equal. lia.
Qed.

Lemma floor_quot x d : 0 < d -> x / d = (if Z.rem x d <? 0 then Z.quot x d - 1 else Z.quot x d).
Proof.
  intros Hd. pose proof (Z.quot_rem' x d) as H1. pose proof (Z.rem_bound_abs x d ltac:(lia)) as H2.
  destruct (Z.ltb_spec (Z.rem x d) 0).
  - symmetry. apply Z.div_unique with (Z.rem x d + d); lia.
  - symmetry. apply Z.div_unique with (Z.rem x d); lia.
Qed.
Lemma shr_step_spec i x d : stands_for i x -> 0 < d < 2 ^ 53 ->
  exists r, shr_step i d = Ok r /\ stands_for r (x / d).
Proof.
  intros Hi Hd. unfold shr_step. destruct (div_mod_spec i (mk_small d) x d Hi (mk_small_spec d ltac:(lia)))
    as [[Hz _]|(_ & q & r & -> & Hq & Hr)]; [lia|]. cbn [rbind expect fst snd].
  destruct (signs_spec r _ Hr) as (_ & -> & _ & _). eexists. split; [reflexivity|]. rewrite floor_quot by lia.
  destruct (Z.rem x d <? 0); [by apply prev_spec|exact Hq].
Qed.
Lemma shr_loop_spec fuel : forall i x n, stands_for i x -> 0 <= n <= 10000000 -> n <= Z.of_nat fuel ->
  exists r, shr_loop fuel i n = Ok r /\ stands_for r (x / 2 ^ n).
Proof.
  induction fuel as [|fuel IH]; intros i x n Hi Hn Hf; cbn [shr_loop].
  - assert (n = 0) as -> by lia. change (0 <? 24) with true. cbv iota. rewrite power_entry by lia.
    apply shr_step_spec; [exact Hi|]. apply pow2_small. lia.
  - destruct (Z.ltb_spec n 24) as [H|H].
    + rewrite power_entry by lia. apply shr_step_spec; [exact Hi|]. apply pow2_small. lia.
    + destruct (signs_spec i _ Hi) as (_ & _ & -> & _). destruct (Z.eqb_spec x 0) as [->|Hx].
      { exists i. split; [reflexivity|]. eapply stands_eq; [exact Hi|]. symmetry. apply Z.div_0_l.
        pose proof (Z.pow_pos_nonneg 2 n). lia. }
      destruct (shr_step_spec i x highest_power2 Hi) as (r & -> & Hr).
      { rewrite highest_eq. apply pow2_small. lia. }
      cbn [rbind]. rewrite nsub_small by lia.
      destruct (IH r _ (n - 23) Hr ltac:(lia) ltac:(lia)) as (r' & E & Hr').
      exists r'. split; [exact E|]. eapply stands_eq; [exact Hr'|]. rewrite highest_eq.
      rewrite Z.div_div; [|pose proof (pow2_small 23); lia|apply Z.pow_pos_nonneg; lia].
      rewrite <- Z.pow_add_r by lia. do 2 f_equal. lia.
Qed.

Theorem shift_left_spec uk i x n : stands_for i x -> Z.abs n <= 10000000 ->
  exists r, shift_left uk i (ByNumber n) = Ok (Some r) /\ stands_for r (Z.shiftl x n).
Proof.
  intros Hi Hn. unfold shift_left. cbn [shift_is_small shift_number]. rewrite BASE_eq.
  destruct (Z.leb_spec (Z.abs n) 10000000); [|lia]. destruct (Z.ltb_spec n 0).
  - destruct (shr_loop_spec (Z.to_nat (- n)) i x (- n) Hi ltac:(lia) ltac:(lia)) as (r & -> & Hr).
    exists r. split; [reflexivity|]. eapply stands_eq; [exact Hr|]. rewrite Z.shiftl_div_pow2 by lia. reflexivity.
  - destruct (shl_loop_spec uk (Z.to_nat n) i x n Hi ltac:(lia) ltac:(lia)) as (r & -> & Hr).
    exists r. split; [reflexivity|]. eapply stands_eq; [exact Hr|]. by rewrite Z.shiftl_mul_pow2 by lia.
Qed.
Theorem shift_right_spec uk i x n : stands_for i x -> Z.abs n <= 10000000 ->
  exists r, shift_right uk i (ByNumber n) = Ok (Some r) /\ stands_for r (Z.shiftr x n).
Proof.
  intros Hi Hn. unfold shift_right. cbn [shift_is_small shift_number]. rewrite BASE_eq.
  destruct (Z.leb_spec (Z.abs n) 10000000); [|lia]. destruct (Z.ltb_spec n 0).
  - destruct (shl_loop_spec uk (Z.to_nat (- n)) i x (- n) Hi ltac:(lia) ltac:(lia)) as (r & -> & Hr).
    exists r. split; [reflexivity|]. eapply stands_eq; [exact Hr|]. by rewrite Z.shiftr_mul_pow2 by lia.
  - destruct (shr_loop_spec (Z.to_nat n) i x n Hi ltac:(lia) ltac:(lia)) as (r & -> & Hr).
    exists r. split; [reflexivity|]. eapply stands_eq; [exact Hr|]. by rewrite Z.shiftr_div_pow2 by lia.
Qed.
Theorem shift_far uk i n : 10000000 < Z.abs n ->
  shift_left uk i (ByNumber n) = Ok None /\ shift_right uk i (ByNumber n) = Ok None.
Proof.
  intros Hn. unfold shift_left, shift_right. cbn [shift_is_small]. rewrite BASE_eq.
  destruct (Z.leb_spec (Z.abs n) 10000000); [lia|]. split; reflexivity.
Qed.

(** ** Numbers *)

Lemma foldr_val v : foldr (fun d r => d + BASE * r) 0 v = val v.
Proof. induction v as [|d v IH]; [reflexivity|]. cbn [foldr]. rewrite IH, val_cons, BASE_eq. reflexivity. Qed.
Theorem to_js_number_spec i x : stands_for i x -> to_js_number i = rnd x.
Proof.
  intros H. destruct i as [v s|v s]; cbn [to_js_number].
  - apply small_elim in H as (-> & H & _). by rewrite rnd_small by lia.
  - apply big_elim in H as (_ & _ & _ & -> & _). rewrite foldr_val. f_equal. destruct s; cbn [signed]; lia.
Qed.

(** ** Bitwise functions *)

Theorem not_spec i x : stands_for i x -> stands_for (int_not i) (Z.lnot x).
Proof. intros H. unfold int_not. eapply stands_eq; [apply prev_spec, negate_spec, H|]. unfold Z.lnot. lia. Qed.

(** A function that works on each binary place. *)
Definition placewise (fn : Z -> Z -> Z) : Prop :=
  exists op : bool -> bool -> bool, op false false = false
    /\ (forall a b n, 0 <= n -> Z.testbit (fn a b) n = op (Z.testbit a n) (Z.testbit b n)).
Lemma placewise_land : placewise Z.land.
Proof. exists andb. split; [reflexivity|]. intros a b n Hn. apply Z.land_spec. Qed.
Lemma placewise_lor : placewise Z.lor.
Proof. exists orb. split; [reflexivity|]. intros a b n Hn. apply Z.lor_spec. Qed.
Lemma placewise_lxor : placewise Z.lxor.
Proof. exists xorb. split; [reflexivity|]. intros a b n Hn. apply Z.lxor_spec. Qed.

Section placewise.
  Context (fn : Z -> Z -> Z) (Hfn : placewise fn).
  Lemma placewise_mod a b k : 0 <= k -> fn a b mod 2 ^ k = fn (a mod 2 ^ k) (b mod 2 ^ k).
  Proof.
    intros Hk. destruct Hfn as (op & H0 & H). apply Z.bits_inj'. intros n Hn. rewrite H by lia.
    destruct (Z.lt_ge_cases n k).
    - rewrite !Z.mod_pow2_bits_low by lia. apply H. lia.
    - by rewrite !Z.mod_pow2_bits_high by lia.
  Qed.
  Lemma placewise_div a b k : 0 <= k -> fn a b / 2 ^ k = fn (a / 2 ^ k) (b / 2 ^ k).
  Proof.
    intros Hk. destruct Hfn as (op & H0 & H). apply Z.bits_inj'. intros n Hn. rewrite H by lia.
    rewrite !Z.div_pow2_bits by lia. apply H. lia.
  Qed.
  Lemma placewise_split a b k : 0 <= k ->
    fn a b = fn (a mod 2 ^ k) (b mod 2 ^ k) + 2 ^ k * fn (a / 2 ^ k) (b / 2 ^ k).
  Proof.
    intros Hk. rewrite <- placewise_mod, <- placewise_div by lia.
    pose proof (Z.div_mod (fn a b) (2 ^ k)). pose proof (Z.pow_pos_nonneg 2 k). lia.
  Qed.
  Lemma placewise_range a b k : 0 <= k -> 0 <= fn (a mod 2 ^ k) (b mod 2 ^ k) < 2 ^ k.
  Proof. intros Hk. rewrite <- placewise_mod by lia. apply Z.mod_pos_bound. apply Z.pow_pos_nonneg; lia. Qed.
  Lemma placewise_zero : fn 0 0 = 0.
  Proof. destruct Hfn as (op & H0 & H). apply Z.bits_inj'. intros n Hn. rewrite H by lia. by rewrite !Z.testbit_0_l. Qed.
  Lemma placewise_signs (s t : bool) :
    (if fn (if s then 1 else 0) (if t then 1 else 0) =? 0 then 0 else -1) = fn (if s then -1 else 0) (if t then -1 else 0).
  Proof.
    destruct Hfn as (op & H0 & H).
    assert (H1 : fn (if s then 1 else 0) (if t then 1 else 0) = if op s t then 1 else 0).
    { apply Z.bits_inj'. intros n Hn. rewrite H by lia. destruct (Z.eq_dec n 0) as [->|Hz].
      - assert (Hb : forall u : bool, Z.testbit (if u then 1 else 0) 0 = u) by by intros [|].
        by rewrite !Hb.
      - assert (Hb : forall u : bool, Z.testbit (if u then 1 else 0) n = false).
        { intros [|]; [|apply Z.testbit_0_l]. change 1 with (2 ^ 0). apply Z.pow2_bits_false. lia. }
        by rewrite !Hb, H0. }
    assert (H2 : fn (if s then -1 else 0) (if t then -1 else 0) = if op s t then -1 else 0).
    { apply Z.bits_inj'. intros n Hn. rewrite H by lia.
      assert (Hb : forall u : bool, Z.testbit (if u then -1 else 0) n = u).
      { intros [|]; [by apply Z.bits_m1|apply Z.testbit_0_l]. }
      by rewrite !Hb. }
    rewrite H1, H2. by destruct (op s t).
  Qed.
End placewise.

(** The value whose digits [bitwise] takes apart: the remaining part, complemented for a negative number. *)
Definition flipped (s : bool) (x : Z) : Z := if s then Z.lnot x else x.
Lemma flipped_mod s x k : 0 <= k -> 0 <= x -> flipped s x mod 2 ^ k = if s then 2 ^ k - 1 - x mod 2 ^ k else x mod 2 ^ k.
Proof.
  intros Hk Hx. destruct s; [|reflexivity]. cbn [flipped]. pose proof (Z.pow_pos_nonneg 2 k ltac:(lia) Hk) as Hp.
  pose proof (Z.div_mod x (2 ^ k) ltac:(lia)) as H1. pose proof (Z.mod_pos_bound x (2 ^ k) Hp) as H2.
  symmetry. apply Z.mod_unique with (- (x / 2 ^ k) - 1); [lia|]. unfold Z.lnot. lia.
Qed.
Lemma flipped_div s x k : 0 <= k -> flipped s x / 2 ^ k = flipped s (x / 2 ^ k).
Proof.
  intros Hk. destruct s; [|reflexivity]. cbn [flipped]. rewrite <- !Z.shiftr_div_pow2 by lia.
  apply Z.bits_inj'. intros n Hn. rewrite Z.shiftr_spec, !Z.lnot_spec, Z.shiftr_spec by lia. reflexivity.
Qed.

Fixpoint places (ds : list Z) (top : Z) : Z := match ds with [] => top | d :: ds => d + 2 ^ 23 * places ds top end.

Lemma number_small i x : stands_for i x -> - 2 ^ 53 < x < 2 ^ 53 -> to_js_number i = x.
Proof. intros H Hx. rewrite (to_js_number_spec i x H). apply rnd_small. lia. Qed.

Lemma bitwise_loop_spec fn xs ys : placewise fn -> forall fuel xi yi x y, stands_for xi x -> stands_for yi y ->
  0 <= x < (2 ^ 23) ^ Z.of_nat fuel -> 0 <= y < (2 ^ 23) ^ Z.of_nat fuel ->
  exists ds, bitwise_loop fuel xs ys fn xi yi = Ok ds /\ Forall (fun d => 0 <= d < 2 ^ 23) ds
    /\ places ds (fn (if xs then -1 else 0) (if ys then -1 else 0)) = fn (flipped xs x) (flipped ys y).
Proof.
  intros Hfn. induction fuel as [|fuel IH]; intros xi yi x y Hx Hy Bx By; cbn [bitwise_loop];
    destruct (signs_spec xi x Hx) as (_ & _ & -> & _); destruct (signs_spec yi y Hy) as (_ & _ & -> & _).
  - change ((2 ^ 23) ^ Z.of_nat 0) with 1 in *. assert (x = 0) as -> by lia. assert (y = 0) as -> by lia.
    exists []. split; [reflexivity|]. split; [constructor|]. cbn [places flipped]. by destruct xs, ys.
  - destruct (Z.eqb_spec x 0) as [Ex|Ex], (Z.eqb_spec y 0) as [Ey|Ey]; cbn [andb].
    { subst x y. exists []. split; [reflexivity|]. split; [constructor|]. cbn [places flipped]. by destruct xs, ys. }
    all: clear Ex Ey.
    all: rewrite Nat2Z.inj_succ, Z.pow_succ_r in Bx, By by lia.
    all: assert (H23 : stands_for (mk_small highest_power2) (2 ^ 23)) by (apply mk_small_spec; pose proof (pow2_small 23); lia).
    all: destruct (div_mod_spec xi _ x _ Hx H23) as [[Hz _]|(_ & xq & xr & -> & Xq & Xr)]; [discriminate Hz|].
    all: destruct (div_mod_spec yi _ y _ Hy H23) as [[Hz _]|(_ & yq & yr & -> & Yq & Yr)]; [discriminate Hz|].
    all: rewrite Z.quot_div_nonneg in Xq, Yq by lia; rewrite Z.rem_mod_nonneg in Xr, Yr by lia.
    all: cbn [rbind expect fst snd].
    all: pose proof (Z.mod_pos_bound x (2 ^ 23) ltac:(lia)) as Mx; pose proof (Z.mod_pos_bound y (2 ^ 23) ltac:(lia)) as My.
    all: pose proof (pow2_small 23 ltac:(lia)) as P23.
    all: rewrite (number_small xr _ Xr), (number_small yr _ Yr) by lia.
    all: destruct (IH xq yq _ _ Xq Yq) as (ds & -> & I1 & I2);
      [split; [apply Z.div_pos; lia|apply Z.div_lt_upper_bound; lia]
      |split; [apply Z.div_pos; lia|apply Z.div_lt_upper_bound; lia]|].
    all: cbn [rbind].
    all: assert (Dx : (if xs then highest_power2 ⊖ 1 ⊖ x mod 2 ^ 23 else x mod 2 ^ 23) = flipped xs x mod 2 ^ 23)
      by (rewrite flipped_mod by lia; destruct xs; [|reflexivity]; rewrite highest_eq; rewrite (nsub_small (2 ^ 23)) by lia;
          rewrite nsub_small by lia; reflexivity).
    all: assert (Dy : (if ys then highest_power2 ⊖ 1 ⊖ y mod 2 ^ 23 else y mod 2 ^ 23) = flipped ys y mod 2 ^ 23)
      by (rewrite flipped_mod by lia; destruct ys; [|reflexivity]; rewrite highest_eq; rewrite (nsub_small (2 ^ 23)) by lia;
          rewrite nsub_small by lia; reflexivity).
    all: rewrite Dx, Dy; eexists; split; [reflexivity|].
    all: split; [constructor; [apply placewise_range; [exact Hfn|lia]|exact I1]|].
    all: cbn [places]; rewrite I2, <- !flipped_div by lia; symmetry; apply placewise_split; [exact Hfn|lia].
Qed.

Lemma bitwise_sum_spec uk top t : stands_for top t -> forall ds, Forall (fun d => 0 <= d < 2 ^ 23) ds ->
  exists r, bitwise_sum uk ds top = Ok r /\ stands_for r (places ds t).
Proof.
  intros Ht. induction 1 as [|d ds Hd Hds IH]; cbn [bitwise_sum places]; [eexists; split; [reflexivity|exact Ht]|].
  destruct IH as (r & -> & Hr). cbn [rbind]. pose proof (pow2_small 23 ltac:(lia)) as P23.
  destruct (multiply_spec uk r (mk_small highest_power2) _ (2 ^ 23) Hr) as (p & -> & Hp).
  { apply mk_small_spec. lia. }
  cbn [rbind]. eexists. split; [reflexivity|]. eapply stands_eq; [apply (add_spec _ _ _ d Hp); apply mk_small_spec; lia|]. lia.
Qed.

Lemma bit_fuel_spec i x : stands_for i x -> 0 <= x -> x < (2 ^ 23) ^ Z.of_nat (bit_fuel i).
Proof.
  intros H Hx. destruct i as [v s|v s]; cbn [bit_fuel].
  - apply small_elim in H as (-> & H & _). change (Z.of_nat 4) with 4. rewrite <- Z.pow_mul_r by lia.
    pose proof (Z.pow_lt_mono_r 2 53 (23 * 4) ltac:(lia) ltac:(lia) ltac:(lia)). lia.
  - apply big_elim in H as (H1 & _ & _ & -> & _). destruct s; cbn [signed] in *.
    { pose proof (val_nonneg v H1). pose proof (Z.pow_pos_nonneg (2 ^ 23) (Z.of_nat (2 * length v + 4))). lia. }
    pose proof (val_bounds v H1) as [_ H2].
    assert (H3 : BASE ^ Z.of_nat (length v) <= (2 ^ 24) ^ Z.of_nat (length v)) by (apply Z.pow_le_mono_l; rewrite BASE_eq; lia).
    rewrite <- Z.pow_mul_r in H3 by lia. rewrite <- Z.pow_mul_r by lia.
    assert (H4 : 2 ^ (24 * Z.of_nat (length v)) <= 2 ^ (23 * Z.of_nat (2 * length v + 4))) by (apply Z.pow_le_mono_r; lia).
    lia.
Qed.

Theorem bitwise_spec uk fn xi yi x y : placewise fn -> stands_for xi x -> stands_for yi y ->
  exists r, int_bitwise uk fn xi yi = Ok r /\ stands_for r (fn x y).
Proof.
  intros Hfn Hx Hy. unfold int_bitwise.
  destruct (signs_spec xi x Hx) as (_ & -> & _ & _). destruct (signs_spec yi y Hy) as (_ & -> & _ & _). cbv zeta.
  assert (Fx : exists x', stands_for (if x <? 0 then int_not xi else xi) x' /\ 0 <= x' /\ flipped (x <? 0) x' = x).
  { destruct (Z.ltb_spec x 0).
    - exists (Z.lnot x). split; [by apply not_spec|]. cbn [flipped]. unfold Z.lnot. lia.
    - exists x. split; [exact Hx|]. split; [lia|reflexivity]. }
  assert (Fy : exists y', stands_for (if y <? 0 then int_not yi else yi) y' /\ 0 <= y' /\ flipped (y <? 0) y' = y).
  { destruct (Z.ltb_spec y 0).
    - exists (Z.lnot y). split; [by apply not_spec|]. cbn [flipped]. unfold Z.lnot. lia.
    - exists y. split; [exact Hy|]. split; [lia|reflexivity]. }
  destruct Fx as (x' & Sx & Nx & Ex). destruct Fy as (y' & Sy & Ny & Ey).
  set (xs := x <? 0) in *. set (ys := y <? 0) in *.
  set (xr := if xs then int_not xi else xi) in *. set (yr := if ys then int_not yi else yi) in *. clearbody xs ys xr yr.
  pose proof (bit_fuel_spec xr x' Sx Nx) as Bx. pose proof (bit_fuel_spec yr y' Sy Ny) as By.
  assert (Mono : forall a b, (2 ^ 23) ^ Z.of_nat a <= (2 ^ 23) ^ Z.of_nat (a + b)
                           /\ (2 ^ 23) ^ Z.of_nat b <= (2 ^ 23) ^ Z.of_nat (a + b)).
  { intros a b. split; apply Z.pow_le_mono_r; lia. }
  destruct (Mono (bit_fuel xr) (bit_fuel yr)) as [M1 M2].
  destruct (bitwise_loop_spec fn xs ys Hfn (bit_fuel xr + bit_fuel yr) xr yr x' y' Sx Sy ltac:(lia) ltac:(lia))
    as (ds & -> & D1 & D2). cbn [rbind]. rewrite Ex, Ey in D2. rewrite <- D2.
  apply bitwise_sum_spec; [|exact D1]. rewrite <- (placewise_signs fn Hfn xs ys).
  destruct (_ =? 0); apply mk_small_spec; lia.
Qed.
