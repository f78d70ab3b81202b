(** * BigIntProofs: the integers of JavaScript tracers stand for the right values *)

From Verif Require Export BigIntDiv.
Local Open Scope Z_scope.

(** ** Proper form *)

Definition signed (s : bool) (z : Z) : Z := if s then - z else z.
Lemma signed_negb s z : signed (negb s) z = - signed s z.
Proof. destruct s; cbn; lia. Qed.
Lemma signed_abs s z : 0 <= z -> Z.abs (signed s z) = z.
Proof. destruct s; cbn; lia. Qed.
Lemma signed_xor s s' x y : signed (negb (Bool.eqb s s')) (x * y) = signed s x * signed s' y.
Proof. destruct s, s'; cbn; ring. Qed.

Lemma big_intro ds s : digs ds -> canon ds -> 2 ^ 53 <= val ds -> stands_for (Big ds s) (signed s (val ds)).
Proof.
  intros H1 H2 H3. cbn [stands_for]. split; [reflexivity|]. split; [exact H1|]. split; [by apply canon_last|exact H3].
Qed.
Lemma big_elim ds s z : stands_for (Big ds s) z ->
  digs ds /\ canon ds /\ 2 ^ 53 <= val ds /\ z = signed s (val ds) /\ ds <> [].
Proof.
  cbn [stands_for]. intros (H1 & H2 & H3 & H4). split; [exact H2|]. split; [by apply canon_last|]. split; [exact H4|].
  split; [exact H1|]. intros ->. cbn in H4. lia.
Qed.
Lemma small_elim v s z : stands_for (Small v s) z -> z = v /\ - 2 ^ 53 < v < 2 ^ 53 /\ (v <> 0 -> s = (v <? 0)).
Proof. cbn [stands_for]. intros (H1 & H2 & H3). split; [exact H1|]. split; [lia|exact H3]. Qed.
Lemma small_intro v s : - 2 ^ 53 < v < 2 ^ 53 -> (v <> 0 -> s = (v <? 0)) -> stands_for (Small v s) v.
Proof. intros H H'. cbn [stands_for]. split; [reflexivity|]. split; [lia|exact H']. Qed.
Lemma mk_small_spec v : - 2 ^ 53 < v < 2 ^ 53 -> stands_for (mk_small v) v.
Proof. intros H. apply small_intro; [exact H|reflexivity]. Qed.
Lemma mk_integer_spec x s z : array_value x z -> stands_for (mk_integer x s) (signed s z).
Proof.
  destruct x as [n|v]; cbn [array_value mk_integer].
  - intros (-> & H). destruct s; cbn [signed]; apply mk_small_spec; lia.
  - intros (H1 & H2 & H3 & H4). rewrite <- H3. apply big_intro; [exact H1|exact H2|lia].
Qed.
Lemma stands_eq i z z' : stands_for i z -> z = z' -> stands_for i z'.
Proof. intros H <-. exact H. Qed.

Lemma digs_val_small v : digs v -> canon v -> v <> [] -> val v < 2 ^ 53 -> (length v < 4)%nat.
Proof.
  intros H1 H2 H3 H4. pose proof (canon_lower v H1 H2 H3) as H5.
  destruct (decide (length v < 4)%nat); [done|]. exfalso.
  assert (BASE ^ 3 <= BASE ^ Z.of_nat (length v - 1)) by (apply Z.pow_le_mono_r; [done|lia]).
  change (BASE ^ 3) with 1000000000000000000000 in *. change (2 ^ 53) with 9007199254740992 in *. lia.
Qed.

(** Every integer has at most one proper form, but for the sign flag of 0. *)
Lemma stands_for_fun i z z' : stands_for i z -> stands_for i z' -> z = z'.
Proof. destruct i; cbn [stands_for]; intros (-> & _) (-> & _); reflexivity. Qed.

(** ** [negate], [abs] *)

Lemma negate_spec n y : stands_for n y -> stands_for (negate n) (- y).
Proof.
  destruct n as [v s|ds s]; cbn [negate]; intros H.
  - apply small_elim in H as (-> & H1 & H2). apply small_intro; [lia|]. intros H3. rewrite H2 by lia.
    destruct (Z.ltb_spec v 0), (Z.ltb_spec (- v) 0); cbn; lia || reflexivity.
  - apply big_elim in H as (H1 & H2 & H3 & -> & _). rewrite <- signed_negb. by apply big_intro.
Qed.
Lemma abs_spec n y : stands_for n y -> stands_for (int_abs n) (Z.abs y).
Proof.
  destruct n as [v s|ds s]; cbn [int_abs]; intros H.
  - apply small_elim in H as (-> & H1 & H2). apply mk_small_spec. lia.
  - apply big_elim in H as (H1 & H2 & H3 & -> & _). rewrite signed_abs by lia. by apply (big_intro ds false).
Qed.

(** ** Addition *)

Lemma sub_any_spec a b s : digs a -> canon a -> digs b -> canon b ->
  stands_for (sub_any a b s) (signed s (val a - val b)).
Proof.
  intros Ha Hca Hb Hcb. unfold sub_any. rewrite (compare_arrays_spec a b Ha Hca Hb Hcb).
  destruct (Z.compare_spec (val a) (val b)) as [E|E|E]; cbn [comparison_number].
  - change (0 <=? 0) with true. cbv iota.
    destruct (sub_arrays_spec a b Ha Hb Hcb ltac:(lia)) as (S1 & S2 & S3). rewrite <- S2.
    apply mk_integer_spec. by apply array_to_small_spec.
  - change (0 <=? -1) with false. cbv iota.
    destruct (sub_arrays_spec b a Hb Ha Hca ltac:(lia)) as (S1 & S2 & S3).
    replace (signed s (val a - val b)) with (signed (negb s) (val b - val a)) by (destruct s; cbn; lia).
    rewrite <- S2. apply mk_integer_spec. by apply array_to_small_spec.
  - change (0 <=? 1) with true. cbv iota.
    destruct (sub_arrays_spec a b Ha Hb Hcb ltac:(lia)) as (S1 & S2 & S3). rewrite <- S2.
    apply mk_integer_spec. by apply array_to_small_spec.
Qed.
Lemma sub_small_spec a b s : digs a -> 0 <= b < 2 ^ 53 -> b <= val a ->
  stands_for (sub_small a b s) (signed s (val a - b)).
Proof.
  intros Ha Hb Hle. unfold sub_small.
  destruct (sub_small_loop_spec a (- b) Ha ltac:(lia) ltac:(lia)) as (S1 & S2).
  replace (val a - b) with (val a + - b) by lia. rewrite <- S2. apply mk_integer_spec. by apply array_to_small_spec.
Qed.

Lemma add_same_spec this n x y : stands_for this x -> stands_for n y -> this_sign this = int_sign n ->
  stands_for (add_same this n) (x + y).
Proof.
  intros Hx Hy. destruct this as [a s|a s], n as [b s'|b s']; cbn [add_same this_sign int_sign]; intros Hs.
  - apply small_elim in Hx as (-> & A1 & A2). apply small_elim in Hy as (-> & B1 & B2). unfold nadd.
    destruct (is_precise (rnd (a + b))) eqn:Hp.
    { apply rnd_precise in Hp as (-> & Hp). by apply mk_small_spec. }
    apply rnd_imprecise in Hp. assert (Hb : b <> 0) by lia. specialize (B2 Hb). subst s'.
    destruct (small_to_array_spec (Z.abs b) ltac:(lia)) as (T1 & T2 & T3). specialize (T3 ltac:(lia)).
    destruct (add_small_spec (small_to_array (Z.abs b)) (Z.abs a) T1 ltac:(lia)) as (S1 & S2 & S3). specialize (S3 T3).
    eapply stands_eq; [apply big_intro; [exact S1|exact S3|]|].
    + rewrite S2, T2. destruct (Z.ltb_spec a 0), (Z.ltb_spec b 0); (discriminate || lia).
    + rewrite S2, T2. destruct (Z.ltb_spec a 0), (Z.ltb_spec b 0); cbn [signed]; (discriminate || lia).
  - apply small_elim in Hx as (-> & A1 & A2). apply big_elim in Hy as (B1 & B2 & B3 & -> & _).
    destruct (add_small_spec b (Z.abs a) B1 ltac:(lia)) as (S1 & S2 & S3). specialize (S3 B2).
    eapply stands_eq; [apply big_intro; [exact S1|exact S3|lia]|]. rewrite S2, <- Hs.
    destruct (Z.ltb_spec a 0); cbn [signed]; lia.
  - apply big_elim in Hx as (A1 & A2 & A3 & -> & _). apply small_elim in Hy as (-> & B1 & B2).
    destruct (add_small_spec a (Z.abs b) A1 ltac:(lia)) as (S1 & S2 & S3). specialize (S3 A2).
    eapply stands_eq; [apply big_intro; [exact S1|exact S3|lia]|]. rewrite S2. subst s'.
    destruct (Z.eq_dec b 0) as [->|Hb]; [destruct s; cbn [signed]; lia|]. rewrite (B2 Hb).
    destruct (Z.ltb_spec b 0); cbn [signed]; lia.
  - apply big_elim in Hx as (A1 & A2 & A3 & -> & _). apply big_elim in Hy as (B1 & B2 & B3 & -> & _).
    destruct (add_any_spec a b A1 B1) as (S1 & S2 & S3). specialize (S3 A2 B2).
    eapply stands_eq; [apply big_intro; [exact S1|exact S3|lia]|]. rewrite S2. subst s'. destruct s; cbn [signed]; lia.
Qed.
Lemma sub_same_spec this n x y : stands_for this x -> stands_for n y -> this_sign this = int_sign n ->
  stands_for (sub_same this n) (x - y).
Proof.
  intros Hx Hy. destruct this as [a s|a s], n as [b s'|b s']; cbn [sub_same this_sign int_sign]; intros Hs.
  - apply small_elim in Hx as (-> & A1 & A2). apply small_elim in Hy as (-> & B1 & B2).
    assert (Hd : - 2 ^ 53 < a - b < 2 ^ 53).
    { destruct (Z.eq_dec b 0) as [->|Hb]; [lia|]. rewrite (B2 Hb) in Hs.
      destruct (Z.ltb_spec a 0), (Z.ltb_spec b 0); (discriminate || lia). }
    rewrite nsub_small by lia. by apply mk_small_spec.
  - apply small_elim in Hx as (-> & A1 & A2). apply big_elim in Hy as (B1 & B2 & B3 & -> & _).
    eapply stands_eq; [apply sub_small_spec; [exact B1|lia|lia]|]. rewrite <- Hs.
    destruct (Z.ltb_spec a 0), (Z.leb_spec 0 a); cbn [signed]; lia.
  - apply big_elim in Hx as (A1 & A2 & A3 & -> & _). apply small_elim in Hy as (-> & B1 & B2).
    eapply stands_eq; [apply sub_small_spec; [exact A1|lia|lia]|]. subst s'.
    destruct (Z.eq_dec b 0) as [->|Hb]; [destruct s; cbn [signed]; lia|]. rewrite (B2 Hb).
    destruct (Z.ltb_spec b 0); cbn [signed]; lia.
  - apply big_elim in Hx as (A1 & A2 & A3 & -> & _). apply big_elim in Hy as (B1 & B2 & B3 & -> & _).
    eapply stands_eq; [by apply sub_any_spec|]. subst s'. destruct s; cbn [signed]; lia.
Qed.
Lemma negate_sign n : int_sign (negate n) = negb (int_sign n).
Proof. by destruct n. Qed.

Theorem add_spec this n x y : stands_for this x -> stands_for n y -> stands_for (add this n) (x + y).
Proof.
  intros Hx Hy. unfold add. destruct (Bool.eqb_spec (this_sign this) (int_sign n)) as [E|E].
  - by apply add_same_spec.
  - eapply stands_eq; [apply (sub_same_spec _ _ _ _ Hx (negate_spec _ _ Hy))|lia]. rewrite negate_sign.
    destruct (this_sign this), (int_sign n); (reflexivity || (exfalso; apply E; reflexivity)).
Qed.
Theorem subtract_spec this n x y : stands_for this x -> stands_for n y -> stands_for (subtract this n) (x - y).
Proof.
  intros Hx Hy. unfold subtract. destruct (Bool.eqb_spec (this_sign this) (int_sign n)) as [E|E].
  - by apply sub_same_spec.
  - eapply stands_eq; [apply (add_same_spec _ _ _ _ Hx (negate_spec _ _ Hy))|lia]. rewrite negate_sign.
    destruct (this_sign this), (int_sign n); (reflexivity || (exfalso; apply E; reflexivity)).
Qed.

Lemma max_int_arr : digs MAX_INT_ARR /\ val MAX_INT_ARR = 2 ^ 53 /\ canon MAX_INT_ARR.
Proof.
  destruct (small_to_array_spec MAX_INT) as (Hd & Hv & Hc); [by vm_compute|]. specialize (Hc ltac:(done)).
  split; [exact Hd|]. split; [exact Hv|exact Hc].
Qed.
Theorem next_spec n x : stands_for n x -> stands_for (next n) (x + 1).
Proof.
  destruct n as [v s|ds s]; cbn [next]; intros H.
  - apply small_elim in H as (-> & H1 & _). rewrite nadd_small by lia.
    destruct (Z.ltb_spec (v + 1) MAX_INT) as [E|E]; change MAX_INT with (2 ^ 53) in E.
    + apply mk_small_spec. lia.
    + destruct max_int_arr as (M1 & M2 & M3). eapply stands_eq; [apply big_intro; [exact M1|exact M3|lia]|].
      cbn [signed]. lia.
  - apply big_elim in H as (H1 & H2 & H3 & -> & _). destruct s.
    + eapply stands_eq; [apply sub_small_spec; [exact H1|lia|lia]|]. cbn [signed]. lia.
    + destruct (add_small_spec ds 1 H1 ltac:(lia)) as (S1 & S2 & S3). specialize (S3 H2).
      eapply stands_eq; [apply big_intro; [exact S1|exact S3|lia]|]. cbn [signed]. lia.
Qed.
Theorem prev_spec n x : stands_for n x -> stands_for (prev n) (x - 1).
Proof.
  destruct n as [v s|ds s]; cbn [prev]; intros H.
  - apply small_elim in H as (-> & H1 & _). rewrite nsub_small by lia.
    destruct (Z.ltb_spec (- MAX_INT) (v - 1)) as [E|E]; change MAX_INT with (2 ^ 53) in E.
    + apply mk_small_spec. lia.
    + destruct max_int_arr as (M1 & M2 & M3). eapply stands_eq; [apply big_intro; [exact M1|exact M3|lia]|].
      cbn [signed]. lia.
  - apply big_elim in H as (H1 & H2 & H3 & -> & _). destruct s.
    + destruct (add_small_spec ds 1 H1 ltac:(lia)) as (S1 & S2 & S3). specialize (S3 H2).
      eapply stands_eq; [apply big_intro; [exact S1|exact S3|lia]|]. cbn [signed]. lia.
    + eapply stands_eq; [apply sub_small_spec; [exact H1|lia|lia]|]. cbn [signed]. lia.
Qed.

(** ** Comparison *)

Theorem compare_abs_spec this n x y : stands_for this x -> stands_for n y ->
  compare_abs this n = comparison_number (Z.abs x ?= Z.abs y).
Proof.
  intros Hx Hy. destruct this as [a s|a s], n as [b s'|b s']; cbn [compare_abs].
  - apply small_elim in Hx as (-> & A1 & A2). apply small_elim in Hy as (-> & B1 & B2).
    destruct (Z.compare_spec (Z.abs a) (Z.abs b)), (Z.eqb_spec (Z.abs a) (Z.abs b)), (Z.ltb_spec (Z.abs b) (Z.abs a));
      cbn; lia || reflexivity.
  - apply small_elim in Hx as (-> & A1 & A2). apply big_elim in Hy as (B1 & B2 & B3 & -> & _).
    rewrite signed_abs by lia. destruct (Z.compare_spec (Z.abs a) (val b)); cbn; lia || reflexivity.
  - apply big_elim in Hx as (A1 & A2 & A3 & -> & _). apply small_elim in Hy as (-> & B1 & B2).
    rewrite signed_abs by lia. destruct (Z.compare_spec (val a) (Z.abs b)); cbn; lia || reflexivity.
  - apply big_elim in Hx as (A1 & A2 & A3 & -> & _). apply big_elim in Hy as (B1 & B2 & B3 & -> & _).
    rewrite !signed_abs by lia. by apply compare_arrays_spec.
Qed.
Theorem int_compare_spec this n x y : stands_for this x -> stands_for n y ->
  int_compare this n = comparison_number (x ?= y).
Proof.
  intros Hx Hy. destruct this as [a s|a s], n as [b s'|b s']; cbn [int_compare int_sign].
  - apply small_elim in Hx as (-> & A1 & A2). apply small_elim in Hy as (-> & B1 & B2).
    destruct (Z.compare_spec a b), (Z.eqb_spec a b), (Z.ltb_spec b a); cbn; lia || reflexivity.
  - apply small_elim in Hx as (-> & A1 & A2). apply big_elim in Hy as (B1 & B2 & B3 & -> & _).
    destruct (Z.ltb_spec a 0), s'; cbn [signed Bool.eqb negb];
      match goal with |- context [?u ?= ?v] => destruct (Z.compare_spec u v) end; cbn; lia || reflexivity.
  - apply big_elim in Hx as (A1 & A2 & A3 & -> & _). apply small_elim in Hy as (-> & B1 & B2).
    destruct s, s'; cbn [signed Bool.eqb negb];
      match goal with |- context [?u ?= ?v] => destruct (Z.compare_spec u v) end; cbn; lia || reflexivity.
  - apply big_elim in Hx as (A1 & A2 & A3 & -> & _). apply big_elim in Hy as (B1 & B2 & B3 & -> & _).
    rewrite (compare_arrays_spec a b A1 A2 B1 B2).
    destruct s, s'; cbn [signed Bool.eqb negb].
    + destruct (Z.compare_spec (val a) (val b)), (Z.compare_spec (- val a) (- val b)); cbn; lia || reflexivity.
    + destruct (Z.compare_spec (- val a) (val b)); cbn; lia || reflexivity.
    + destruct (Z.compare_spec (val a) (- val b)); cbn; lia || reflexivity.
    + lia.
Qed.
Theorem tests_spec this n x y : stands_for this x -> stands_for n y ->
  equals this n = (x =? y) /\ greater this n = (y <? x) /\ lesser this n = (x <? y)
  /\ greater_or_equals this n = (y <=? x) /\ lesser_or_equals this n = (x <=? y).
Proof.
  intros Hx Hy. unfold equals, greater, lesser, greater_or_equals, lesser_or_equals. rewrite (int_compare_spec _ _ _ _ Hx Hy).
  destruct (Z.compare_spec x y), (Z.eqb_spec x y), (Z.ltb_spec x y), (Z.ltb_spec y x), (Z.leb_spec x y), (Z.leb_spec y x);
    (lia || (split_and!; reflexivity)).
Qed.

Lemma land1 v : Z.land v 1 = v mod 2.
Proof. change 1 with (Z.ones 1) at 1. rewrite Z.land_ones by lia. done. Qed.
Theorem parity_spec n x : stands_for n x -> is_even n = Z.even x /\ is_odd n = Z.odd x.
Proof.
  intros H. assert (Hm : exists v, is_even n = (v mod 2 =? 0) /\ is_odd n = (v mod 2 =? 1) /\ v mod 2 = x mod 2).
  { destruct n as [v s|ds s]; cbn [is_even is_odd]; rewrite land1.
    - exists v. apply small_elim in H as (-> & _). split_and!; reflexivity.
    - exists (nth 0 ds 0). apply big_elim in H as (_ & _ & _ & -> & Hne). destruct ds as [|d ds]; [done|].
      split; [reflexivity|]. split; [reflexivity|]. rewrite val_cons. cbn [nth].
      destruct s; cbn [signed].
      + replace (- (d + 10000000 * val ds)) with (d + (- d - 5000000 * val ds) * 2) by lia. by rewrite Z_mod_plus_full.
      + replace (d + 10000000 * val ds) with (d + (5000000 * val ds) * 2) by lia. by rewrite Z_mod_plus_full. }
  destruct Hm as (v & -> & -> & ->). rewrite Zmod_odd, <- Z.negb_odd. by destruct (Z.odd x).
Qed.
Theorem signs_spec n x : stands_for n x ->
  is_positive n = (0 <? x) /\ is_negative n = (x <? 0) /\ is_zero n = (x =? 0) /\ is_unit n = (Z.abs x =? 1).
Proof.
  destruct n as [v s|ds s]; cbn [is_positive is_negative is_zero is_unit]; intros H.
  - apply small_elim in H as (-> & _). split_and!; reflexivity.
  - apply big_elim in H as (_ & _ & H3 & -> & _). destruct s; cbn [signed negb];
    repeat match goal with |- context [?u <? ?v] => destruct (Z.ltb_spec u v) | |- context [?u =? ?v] => destruct (Z.eqb_spec u v) end;
      (lia || (split_and!; reflexivity)).
Qed.

(** ** Multiplication *)

Lemma mul_big_size a b : 2 ^ 53 <= a -> 1 <= b -> 2 ^ 53 <= a * b.
Proof. intros H1 H2. pose proof (Z.mul_le_mono_nonneg_l 1 b a ltac:(lia) H2). lia. Qed.

Lemma mul_small_and_array_spec a b s : 0 < a < 2 ^ 53 -> digs b -> canon b -> 2 ^ 53 <= a * val b ->
  stands_for (mul_small_and_array a b s) (signed s (a * val b)).
Proof.
  intros Ha Hb Hcb Hsz. unfold mul_small_and_array. rewrite BASE_eq. destruct (Z.ltb_spec a 10000000) as [E|E].
  - destruct (mul_small_spec b a ltac:(lia) Hb) as (M1 & M2 & M3). specialize (M3 ltac:(lia) Hcb).
    eapply stands_eq; [apply big_intro; [exact M1|exact M3|lia]|]. f_equal. lia.
  - destruct (small_to_array_spec a ltac:(lia)) as (T1 & T2 & T3). specialize (T3 ltac:(lia)).
    destruct (mul_long_spec b (small_to_array a) Hb T1) as (M1 & M2 & M3). rewrite T2 in M2.
    eapply stands_eq; [apply big_intro; [exact M1|exact M3|lia]|]. f_equal. lia.
Qed.
Lemma mul_big_spec uk a b s : digs a -> digs b -> 2 ^ 53 <= val a * val b ->
  exists r, mul_big uk a b s = Ok r /\ stands_for r (signed s (val a * val b)).
Proof.
  intros Ha Hb Hsz. unfold mul_big. destruct (uk (length a) (length b)).
  - destruct (mul_karatsuba_spec (Nat.max (length a) (length b)) a b Ha Hb ltac:(lia) ltac:(lia)) as (r & -> & M1 & M2 & M3).
    cbn [rbind]. eexists. split; [reflexivity|]. rewrite <- M2. apply big_intro; [exact M1|exact M3|lia].
  - destruct (mul_long_spec a b Ha Hb) as (M1 & M2 & M3). eexists. split; [reflexivity|]. rewrite <- M2.
    apply big_intro; [exact M1|exact M3|lia].
Qed.

Theorem multiply_spec uk this n x y : stands_for this x -> stands_for n y ->
  exists r, multiply uk this n = Ok r /\ stands_for r (x * y).
Proof.
  intros Hx Hy. destruct this as [a s|a s], n as [b s'|b s']; cbn [multiply].
  - apply small_elim in Hx as (-> & A1 & A2). apply small_elim in Hy as (-> & B1 & B2). unfold nmul.
    destruct (is_precise (rnd (a * b))) eqn:Hp.
    { apply rnd_precise in Hp as (-> & Hp). eexists. split; [reflexivity|]. by apply mk_small_spec. }
    apply rnd_imprecise in Hp. assert (Ha0 : a <> 0) by (intros ->; lia). assert (Hb0 : b <> 0) by (intros ->; rewrite Z.mul_0_r in Hp; lia).
    rewrite (A2 Ha0), (B2 Hb0). rewrite Z.abs_mul in Hp.
    destruct (small_to_array_spec (Z.abs b) ltac:(lia)) as (T1 & T2 & T3). specialize (T3 ltac:(lia)).
    eexists. split; [reflexivity|]. eapply stands_eq; [apply mul_small_and_array_spec; [lia|exact T1|exact T3|lia]|].
    rewrite T2, Z.mul_comm, signed_xor, Z.mul_comm. f_equal.
    + destruct (Z.ltb_spec a 0); cbn [signed]; lia.
    + destruct (Z.ltb_spec b 0); cbn [signed]; lia.
  - apply small_elim in Hx as (-> & A1 & A2). pose proof Hy as Hy'. apply big_elim in Hy as (B1 & B2 & B3 & -> & _).
    destruct (Z.eqb_spec a 0) as [->|Ha0]; [eexists; split; [reflexivity|]; apply mk_small_spec; lia|].
    destruct (Z.eqb_spec a 1) as [->|Ha1]; [eexists; split; [reflexivity|]; eapply stands_eq; [exact Hy'|lia]|].
    destruct (Z.eqb_spec a (-1)) as [->|Ha2].
    { eexists; split; [reflexivity|]; eapply stands_eq; [exact (negate_spec _ _ Hy')|lia]. }
    eexists. split; [reflexivity|]. rewrite (A2 Ha0).
    eapply stands_eq; [apply mul_small_and_array_spec; [lia|exact B1|exact B2|]|].
    + rewrite Z.mul_comm. apply mul_big_size; lia.
    + rewrite Z.mul_comm, signed_xor, Z.mul_comm. f_equal. destruct (Z.ltb_spec a 0); cbn [signed]; lia.
  - pose proof Hx as Hx'. apply big_elim in Hx as (A1 & A2 & A3 & -> & _). apply small_elim in Hy as (-> & B1 & B2).
    destruct (Z.eqb_spec b 0) as [->|Hb0]; [eexists; split; [reflexivity|]; eapply stands_eq; [apply mk_small_spec; lia|lia]|].
    destruct (Z.eqb_spec b 1) as [->|Hb1]; [eexists; split; [reflexivity|]; eapply stands_eq; [exact Hx'|lia]|].
    destruct (Z.eqb_spec b (-1)) as [->|Hb2].
    { eexists; split; [reflexivity|]; eapply stands_eq; [exact (negate_spec _ _ Hx')|lia]. }
    cbv zeta. rewrite (B2 Hb0), BASE_eq.
    assert (Hsg : signed s (val a) * b = signed (negb (Bool.eqb s (b <? 0))) (val a * Z.abs b)).
    { rewrite signed_xor. f_equal. destruct (Z.ltb_spec b 0); cbn [signed]; lia. }
    rewrite Hsg. assert (Hsz : 2 ^ 53 <= val a * Z.abs b) by (apply mul_big_size; lia).
    destruct (Z.ltb_spec (Z.abs b) 10000000) as [E|E].
    + destruct (mul_small_spec a (Z.abs b) ltac:(lia) A1) as (M1 & M2 & M3). specialize (M3 ltac:(lia) A2).
      eexists. split; [reflexivity|]. rewrite <- M2. apply big_intro; [exact M1|exact M3|lia].
    + destruct (small_to_array_spec (Z.abs b) ltac:(lia)) as (T1 & T2 & T3).
      destruct (mul_big_spec uk a (small_to_array (Z.abs b)) (negb (Bool.eqb s (b <? 0))) A1 T1 ltac:(lia)) as (r & E1 & E2).
      exists r. split; [exact E1|]. rewrite T2 in E2. exact E2.
  - apply big_elim in Hx as (A1 & A2 & A3 & -> & _). apply big_elim in Hy as (B1 & B2 & B3 & -> & _).
    rewrite <- signed_xor. apply mul_big_spec; [exact A1|exact B1|]. apply mul_big_size; lia.
Qed.
Lemma square_array_spec a : digs a -> digs (square_array a) /\ val (square_array a) = val a * val a /\ canon (square_array a).
Proof. intros Ha. exact (mul_long_spec a a Ha Ha). Qed.
Theorem square_spec this x : stands_for this x -> stands_for (int_square this) (x * x).
Proof.
  intros Hx. destruct this as [a s|a s]; cbn [int_square].
  - apply small_elim in Hx as (-> & A1 & A2). unfold nmul. cbv zeta. destruct (is_precise (rnd (a * a))) eqn:Hp.
    { apply rnd_precise in Hp as (-> & Hp). by apply mk_small_spec. }
    apply rnd_imprecise in Hp. rewrite Z.abs_mul in Hp.
    destruct (small_to_array_spec (Z.abs a) ltac:(lia)) as (T1 & T2 & T3).
    destruct (square_array_spec _ T1) as (M1 & M2 & M3). rewrite T2 in M2.
    eapply stands_eq; [apply (big_intro _ false); [exact M1|exact M3|lia]|]. cbn [signed]. rewrite M2. apply Z.abs_square.
  - apply big_elim in Hx as (A1 & A2 & A3 & -> & _). destruct (square_array_spec _ A1) as (M1 & M2 & M3).
    eapply stands_eq; [apply (big_intro _ false); [exact M1|exact M3|]|].
    + rewrite M2. apply mul_big_size; lia.
    + cbn [signed]. rewrite M2. destruct s; cbn [signed]; ring.
Qed.

(** ** Division *)

Lemma quot_signed s s' a b : 0 <= a -> 0 < b ->
  Z.quot (signed s a) (signed s' b) = signed (negb (Bool.eqb s s')) (a / b)
  /\ Z.rem (signed s a) (signed s' b) = signed s (a mod b).
Proof.
  intros Ha Hb. rewrite <- (Z.quot_div_nonneg a b), <- (Z.rem_mod_nonneg a b) by lia.
  destruct s, s'; cbn [signed Bool.eqb negb].
  - rewrite Z.quot_opp_opp, Z.rem_opp_opp by lia. split; reflexivity.
  - rewrite Z.quot_opp_l, Z.rem_opp_l by lia. split; reflexivity.
  - rewrite Z.quot_opp_r, Z.rem_opp_r by lia. split; reflexivity.
  - split; reflexivity.
Qed.

Lemma div_mod_arrays_spec self n a b x y :
  stands_for self x -> digs a -> canon a -> x = signed (int_sign self) (val a) ->
  digs b -> canon b -> b <> [] -> (2 <= length b)%nat -> y = signed (int_sign n) (val b) ->
  exists q r, div_mod_arrays self n a b = Ok (q, r) /\ stands_for q (Z.quot x y) /\ stands_for r (Z.rem x y).
Proof.
  intros Hself Ha Hca Hx Hb Hcb Hne Hlb Hy. unfold div_mod_arrays. cbv zeta. rewrite (compare_arrays_spec a b Ha Hca Hb Hcb).
  pose proof (canon_pos b Hb Hcb Hne) as Hb0. pose proof (val_nonneg a Ha) as Ha0.
  destruct (quot_signed (int_sign self) (int_sign n) (val a) (val b) Ha0 Hb0) as [Q1 Q2]. rewrite <- Hx, <- Hy in Q1, Q2.
  destruct (Z.compare_spec (val a) (val b)) as [E|E|E]; cbn [comparison_number].
  - change (0 =? -1) with false. change (0 =? 0) with true. cbv iota. eexists _, _. split; [reflexivity|].
    rewrite Q1, Q2, E, Z.div_same, Z.mod_same by lia. split.
    + destruct (Bool.eqb (int_sign self) (int_sign n)); apply mk_small_spec; cbn; lia.
    + destruct (int_sign self); apply mk_small_spec; cbn; lia.
  - change (-1 =? -1) with true. cbv iota. eexists _, _. split; [reflexivity|].
    rewrite Q1, Q2, Z.div_small, Z.mod_small by lia. split.
    + eapply stands_eq; [apply mk_small_spec; lia|]. by destruct (negb (Bool.eqb (int_sign self) (int_sign n))).
    + by rewrite <- Hx.
  - change (1 =? -1) with false. change (1 =? 0) with false. cbv iota.
    assert (D : exists q r, (if (length a + length b <=? 200)%nat then div_mod1 a b else div_mod2 a b) = Ok (q, r)
              /\ array_value q (val a / val b) /\ array_value r (val a mod val b)).
    { destruct (length a + length b <=? 200)%nat; [apply div_mod1_spec; try assumption; lia|by apply div_mod2_spec]. }
    destruct D as (q & r & -> & D1 & D2). cbn [rbind fst snd]. eexists _, _. split; [reflexivity|].
    rewrite Q1, Q2. split; by apply mk_integer_spec.
Qed.
Lemma long_of_big ds : digs ds -> canon ds -> 10000000 <= val ds -> (2 <= length ds)%nat.
Proof.
  intros H1 H2 H3. pose proof (val_bounds ds H1) as [_ H4]. destruct (decide (2 <= length ds)%nat); [done|]. exfalso.
  assert (BASE ^ Z.of_nat (length ds) <= BASE ^ 1) by (apply Z.pow_le_mono_r; [done|lia]).
  change (BASE ^ 1) with 10000000 in *. lia.
Qed.

Theorem div_mod_spec self n x y : stands_for self x -> stands_for n y ->
  (y = 0 /\ div_mod self n = Ok None)
  \/ (y <> 0 /\ exists q r, div_mod self n = Ok (Some (q, r)) /\ stands_for q (Z.quot x y) /\ stands_for r (Z.rem x y)).
Proof.
  intros Hx Hy. destruct self as [a s|a s], n as [b s'|b s']; cbn [div_mod].
  - apply small_elim in Hx as (-> & A1 & A2). apply small_elim in Hy as (-> & B1 & B2).
    destruct (Z.eqb_spec b 0) as [E|E]; [left; split; [exact E|reflexivity]|]. right. split; [exact E|].
    eexists _, _. split; [reflexivity|]. rewrite trunc_div_exact by lia. split; apply mk_small_spec.
    + pose proof (Z.quot_abs a b E). pose proof (Z.quot_le_upper_bound (Z.abs a) (Z.abs b) (Z.abs a) ltac:(lia) ltac:(nia)).
      lia.
    + pose proof (Z.rem_bound_abs a b E). lia.
  - right. pose proof Hx as Hx'. apply small_elim in Hx as (-> & A1 & A2). apply big_elim in Hy as (B1 & B2 & B3 & -> & _).
    assert (Hy0 : signed s' (val b) <> 0) by (destruct s'; cbn [signed]; lia). split; [exact Hy0|].
    eexists _, _. split; [reflexivity|].
    assert (Hlt : Z.abs a < Z.abs (signed s' (val b))) by (rewrite signed_abs; lia).
    set (y := signed s' (val b)) in *. clearbody y.
    assert (Z.quot a y = 0) as Hq by (apply Z.quot_small_iff; [exact Hy0|exact Hlt]).
    assert (Z.rem a y = a) as Hr by (apply Z.rem_small_iff; [exact Hy0|exact Hlt]).
    rewrite Hq, Hr. split; [apply mk_small_spec; lia|exact Hx'].
  - pose proof Hx as Hx'. apply big_elim in Hx as (A1 & A2 & A3 & -> & _). apply small_elim in Hy as (-> & B1 & B2).
    destruct (Z.eqb_spec b 0) as [E|E]; [left; split; [exact E|reflexivity]|]. right. split; [exact E|].
    destruct (Z.eqb_spec b 1) as [->|Hb1].
    { eexists _, _. split; [reflexivity|]. rewrite Z.quot_1_r, Z.rem_1_r. split; [exact Hx'|apply mk_small_spec; lia]. }
    destruct (Z.eqb_spec b (-1)) as [->|Hb2].
    { eexists _, _. split; [reflexivity|]. change (-1) with (- (1)). rewrite Z.quot_opp_r, Z.rem_opp_r, Z.quot_1_r, Z.rem_1_r by lia.
      split; [by apply negate_spec|apply mk_small_spec; lia]. }
    cbv zeta. rewrite (B2 E), BASE_eq.
    assert (Hbs : b = signed (b <? 0) (Z.abs b)) by (destruct (Z.ltb_spec b 0); cbn [signed]; lia).
    destruct (Z.ltb_spec (Z.abs b) 10000000) as [L|L].
    + destruct (div_small_spec a (Z.abs b) ltac:(lia) A1) as (D1 & D2 & D3). destruct (div_small a (Z.abs b)) as [qd rd].
      cbn [fst snd] in *. eexists _, _. split; [reflexivity|].
      destruct (quot_signed s (b <? 0) (val a) (Z.abs b) ltac:(lia) ltac:(lia)) as [Q1 Q2]. rewrite <- Hbs in Q1, Q2.
      rewrite Q1, Q2.
      assert (val a / Z.abs b = val qd) as -> by (symmetry; apply Z.div_unique with rd; lia).
      assert (val a mod Z.abs b = rd) as -> by (symmetry; apply Z.mod_unique with (val qd); lia).
      split; [apply mk_integer_spec; by apply array_to_small_spec|].
      destruct s; cbn [signed]; apply mk_small_spec; lia.
    + destruct (small_to_array_spec (Z.abs b) ltac:(lia)) as (T1 & T2 & T3). specialize (T3 ltac:(lia)).
      destruct (div_mod_arrays_spec (Big a s) (Small b (b <? 0)) a (small_to_array (Z.abs b)) (signed s (val a)) b)
        as (q & r & -> & D1 & D2); try assumption.
      * reflexivity.
      * intros Hn. rewrite Hn in T2. cbn in T2. lia.
      * apply long_of_big; [exact T1|exact T3|lia].
      * cbn [int_sign]. by rewrite T2.
      * cbn [rbind]. eexists _, _. split; [reflexivity|]. split; assumption.
  - right. pose proof Hx as Hx'. apply big_elim in Hx as (A1 & A2 & A3 & -> & _).
    apply big_elim in Hy as (B1 & B2 & B3 & -> & Hne). split; [destruct s'; cbn [signed]; lia|].
    destruct (div_mod_arrays_spec (Big a s) (Big b s') a b (signed s (val a)) (signed s' (val b)))
      as (q & r & -> & D1 & D2); try assumption.
    + reflexivity.
    + apply long_of_big; [exact B1|exact B2|lia].
    + reflexivity.
    + cbn [rbind]. eexists _, _. split; [reflexivity|]. split; assumption.
Qed.
