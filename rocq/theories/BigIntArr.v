(** * BigIntArr: arithmetic on arrays of digits *)

From Verif Require Export SpecBigInt BigIntNum.
Local Open Scope Z_scope.

Definition digit (d : Z) : Prop := 0 <= d < 10000000.
Notation digs := (Forall digit).
Notation val := digits_value.

(** No leading zero, by recursion. *)
Fixpoint canon (l : list Z) : Prop :=
  match l with [] => True | [d] => d <> 0 | _ :: l => canon l end.
Lemma canon_cons d l : l <> [] -> canon (d :: l) <-> canon l.
Proof. by destruct l. Qed.
Lemma canon_step x x' a d l : canon (x :: x' :: a) -> (length (x' :: a) <= length l)%nat -> (canon (x' :: a) -> canon l) ->
  canon (d :: l).
Proof. intros H1 H2 H3. destruct l; [cbn in H2; lia|]. exact (H3 H1). Qed.
Lemma canon_last l : canon l <-> last l <> Some 0.
Proof.
  induction l as [|d l IH]; [done|]. destruct l as [|d' l].
  - cbn. split; congruence.
  - rewrite canon_cons by done. exact IH.
Qed.

Lemma val_cons d l : val (d :: l) = d + 10000000 * val l.
Proof. done. Qed.
Lemma val_app a b : val (a ++ b) = val a + BASE ^ Z.of_nat (length a) * val b.
Proof.
  induction a as [|d a IH]; [cbn [app length]; change (val []) with 0; rewrite Z.pow_0_r; lia|].
  cbn [app length]. rewrite !val_cons, IH, Nat2Z.inj_succ, Z.pow_succ_r by lia. rewrite BASE_eq. ring.
Qed.
Lemma BASE_pow_pos n : 0 < BASE ^ Z.of_nat n.
Proof. apply Z.pow_pos_nonneg; [done|lia]. Qed.
Lemma val_bounds l : digs l -> 0 <= val l < BASE ^ Z.of_nat (length l).
Proof.
  induction 1 as [|d l Hd Hl IH]; [cbn; lia|]. rewrite val_cons. cbn [length].
  rewrite Nat2Z.inj_succ, Z.pow_succ_r by lia. change (10000000) with BASE in *. unfold digit in Hd. rewrite BASE_eq in *. lia.
Qed.
Lemma val_nonneg l : digs l -> 0 <= val l.
Proof. intros H. by apply val_bounds. Qed.
Lemma canon_lower l : digs l -> canon l -> l <> [] -> BASE ^ Z.of_nat (length l - 1) <= val l.
Proof.
  induction 1 as [|d l Hd Hl IH]; [done|]. intros Hc _. rewrite val_cons. destruct l as [|d' l].
  - cbn in *. unfold digit in Hd. lia.
  - rewrite canon_cons in Hc by done. specialize (IH Hc ltac:(done)). cbn [length] in *.
    replace (Z.of_nat (S (S (length l)) - 1)) with (Z.succ (Z.of_nat (S (length l) - 1))) by lia.
    rewrite Z.pow_succ_r by lia. unfold digit in Hd. rewrite BASE_eq in *. lia.
Qed.
Lemma canon_pos l : digs l -> canon l -> l <> [] -> 0 < val l.
Proof. intros H1 H2 H3. pose proof (canon_lower l H1 H2 H3). pose proof (BASE_pow_pos (length l - 1)). lia. Qed.
Lemma canon_length a b : digs a -> canon a -> digs b -> val a <= val b -> (length a <= length b)%nat.
Proof.
  intros Ha Hc Hb Hle. destruct (decide (a = [])) as [->|Hne]; [cbn; lia|].
  pose proof (canon_lower a Ha Hc Hne). pose proof (val_bounds b Hb) as [_ Hub].
  destruct (decide (length a <= length b)%nat); [done|]. exfalso.
  assert (BASE ^ Z.of_nat (length b) <= BASE ^ Z.of_nat (length a - 1)); [|lia].
  apply Z.pow_le_mono_r; [done|lia].
Qed.
Lemma canon_of_lower l : digs l -> (l <> [] -> BASE ^ Z.of_nat (length l - 1) <= val l) -> canon l.
Proof.
  induction 1 as [|d l Hd Hl IH]; [done|]. intros H. specialize (H ltac:(done)). rewrite val_cons in H.
  destruct l as [|d' l].
  - cbn in *. lia.
  - rewrite canon_cons by done. apply IH. intros _. cbn [length] in *.
    replace (Z.of_nat (S (S (length l)) - 1)) with (Z.succ (Z.of_nat (S (length l) - 1))) in H by lia.
    rewrite Z.pow_succ_r in H by lia. unfold digit in Hd. rewrite BASE_eq in *.
    set (p := 10000000 ^ Z.of_nat (S (length l) - 1)) in *. clearbody p. lia.
Qed.

(** ** [trim] *)

Lemma trim_val l : val (trim l) = val l.
Proof.
  induction l as [|d l IH]; [done|]. cbn [trim]. rewrite val_cons, <- IH. destruct (trim l) as [|d' l'].
  - destruct (Z.eqb_spec d 0) as [->|]; cbn; lia.
  - by rewrite val_cons.
Qed.
Lemma trim_digs l : digs l -> digs (trim l).
Proof.
  induction 1 as [|d l Hd Hl IH]; [constructor|]. cbn [trim]. destruct (trim l).
  - destruct (d =? 0); [constructor|by constructor].
  - by constructor.
Qed.
Lemma trim_canon l : canon (trim l).
Proof.
  induction l as [|d l IH]; [done|]. cbn [trim]. destruct (trim l) as [|d' l'].
  - destruct (Z.eqb_spec d 0); done.
  - by rewrite canon_cons.
Qed.
Lemma trim_id l : canon l -> trim l = l.
Proof.
  induction l as [|d l IH]; [done|]. intros H. cbn [trim]. destruct l as [|d' l].
  - cbn in *. by destruct (Z.eqb_spec d 0).
  - rewrite canon_cons in H by done. by rewrite (IH H).
Qed.
Lemma val_create n : val (create_array n) = 0.
Proof. unfold create_array. induction n as [|n IH]; [done|]. cbn [replicate]. rewrite val_cons, IH. lia. Qed.
Lemma digs_create n : digs (create_array n).
Proof. apply Forall_replicate. unfold digit. lia. Qed.

(** ** [compareAbs] *)

Lemma compare_digits_rev a : forall b, digs a -> digs b -> length a = length b ->
  compare_digits (rev a) (rev b) = comparison_number (val a ?= val b).
Proof.
  induction a as [|x a IH] using rev_ind; intros b Ha Hb Hl.
  { destruct b; [done|discriminate]. }
  destruct b as [|y b _] using rev_ind; [rewrite app_length in Hl; cbn in Hl; lia|].
  rewrite !app_length in Hl. cbn in Hl. apply Forall_app in Ha as [Ha Hx], Hb as [Hb Hy].
  inversion_clear Hx as [|? ? Hx' _]. inversion_clear Hy as [|? ? Hy' _].
  rewrite !rev_app_distr. cbn [rev app compare_digits]. assert (Hl' : length a = length b) by lia.
  rewrite !val_app, Hl'. change (val [x]) with (x + 10 ^ 7 * 0). change (val [y]) with (y + 10 ^ 7 * 0).
  pose proof (val_bounds a Ha) as Hva. pose proof (val_bounds b Hb) as Hvb. rewrite Hl' in Hva.
  specialize (IH b Ha Hb Hl'). set (p := BASE ^ Z.of_nat (length b)) in *. clearbody p.
  destruct (Z.eqb_spec x y) as [->|Hne].
  - rewrite IH. f_equal. destruct (Z.compare_spec (val a) (val b)) as [Hc|Hc|Hc]; symmetry;
      [apply Z.compare_eq_iff|apply Z.compare_lt_iff|apply Z.compare_gt_iff]; lia.
  - destruct (Z.ltb_spec y x) as [Hlt|Hge].
    + assert (E : val a + p * (x + 10 ^ 7 * 0) ?= val b + p * (y + 10 ^ 7 * 0) = Gt) by (apply Z.compare_gt_iff; nia).
      by rewrite E.
    + assert (E : val a + p * (x + 10 ^ 7 * 0) ?= val b + p * (y + 10 ^ 7 * 0) = Lt) by (apply Z.compare_lt_iff; nia).
      by rewrite E.
Qed.

Lemma compare_arrays_spec a b : digs a -> canon a -> digs b -> canon b ->
  compare_arrays a b = comparison_number (val a ?= val b).
Proof.
  intros Ha Hca Hb Hcb. unfold compare_arrays. destruct (Nat.eqb_spec (length a) (length b)) as [E|E].
  { by apply compare_digits_rev. }
  destruct (Nat.ltb_spec (length b) (length a)) as [H|H].
  - assert (val a ?= val b = Gt) as ->; [|done]. apply Z.compare_gt_iff.
    destruct (Z.le_gt_cases (val a) (val b)) as [Hle|]; [|done]. pose proof (canon_length a b Ha Hca Hb Hle). lia.
  - assert (val a ?= val b = Lt) as ->; [|done]. apply Z.compare_lt_iff.
    destruct (Z.le_gt_cases (val b) (val a)) as [Hle|]; [|lia]. pose proof (canon_length b a Hb Hcb Ha Hle). lia.
Qed.
Lemma canon_inj a b : digs a -> canon a -> digs b -> canon b -> val a = val b -> a = b.
Proof.
  revert b. induction a as [|x a IH]; intros b Ha Hca Hb Hcb E.
  { destruct b as [|y b]; [done|]. pose proof (canon_pos _ Hb Hcb ltac:(done)). change (val []) with 0 in E. lia. }
  destruct b as [|y b]. { pose proof (canon_pos _ Ha Hca ltac:(done)). change (val []) with 0 in E. lia. }
  rewrite !val_cons in E. inversion_clear Ha as [|? ? Hx Ha']. inversion_clear Hb as [|? ? Hy Hb'].
  unfold digit in Hx, Hy. assert (x = y /\ val a = val b) as [-> E'] by lia. f_equal. apply IH; try done.
  - destruct a; [done|]. by rewrite canon_cons in Hca.
  - destruct b; [done|]. by rewrite canon_cons in Hcb.
Qed.

(** ** Small numbers as arrays *)

Lemma small_to_array_spec n : 0 <= n <= 2 ^ 53 ->
  digs (small_to_array n) /\ val (small_to_array n) = n /\ (0 < n -> canon (small_to_array n)).
Proof.
  rewrite pow53. intros Hn. unfold small_to_array. destruct (Z.ltb_spec n 10000000) as [H1|H1].
  { split; [repeat constructor; unfold digit; lia|]. cbn. lia. }
  assert (Hq : floor_div n 10000000 = n / 10000000).
  { destruct (decide (n = 2 ^ 53)) as [->|]; [by vm_compute|]. apply floor_div_exact; lia. }
  rewrite Hq. rewrite Z.rem_mod_nonneg by lia.
  pose proof (Z.div_mod n 10000000 ltac:(lia)) as Hdm. pose proof (Z.mod_pos_bound n 10000000 ltac:(lia)) as Hr.
  destruct (Z.ltb_spec n 100000000000000) as [H2|H2].
  { set (q := n / 10000000) in *. set (r := n mod 10000000) in *. clearbody q r.
    split; [|rewrite !val_cons; change (val []) with 0; cbn [canon]; lia].
    repeat constructor; unfold digit; lia. }
  assert (Hq2 : floor_div n 100000000000000 = n / 100000000000000).
  { destruct (decide (n = 2 ^ 53)) as [->|]; [by vm_compute|]. apply floor_div_exact; lia. }
  rewrite Hq2. rewrite Z.rem_mod_nonneg; [|apply Z.div_pos; lia|lia].
  assert (Hd : n / 100000000000000 = n / 10000000 / 10000000) by (rewrite Z.div_div by lia; done). rewrite Hd.
  set (q := n / 10000000) in *. set (r := n mod 10000000) in *. clearbody q r.
  pose proof (Z.div_mod q 10000000 ltac:(lia)) as Hdm'. pose proof (Z.mod_pos_bound q 10000000 ltac:(lia)) as Hr'.
  set (q' := q / 10000000) in *. set (r' := q mod 10000000) in *. clearbody q' r'.
  split; [|rewrite !val_cons; change (val []) with 0; cbn [canon]; lia].
  repeat constructor; unfold digit; lia.
Qed.

Definition array_value (x : num_or_array) (z : Z) : Prop :=
  match x with
  | ANum n => n = z /\ 0 <= n < 2 ^ 53
  | AArr v => digs v /\ canon v /\ val v = z /\ 2 ^ 53 <= z
  end.
Lemma array_to_small_spec arr : digs arr -> array_value (array_to_small arr) (val arr).
Proof.
  intros Ha. unfold array_to_small. pose proof (trim_digs arr Ha) as Hd. pose proof (trim_canon arr) as Hc.
  rewrite <- (trim_val arr). set (v := trim arr) in *. clearbody v.
  destruct (small_to_array_spec MAX_INT) as (Hd2 & Hv2 & Hc2); [by vm_compute|]. specialize (Hc2 ltac:(done)).
  fold MAX_INT_ARR in *. rewrite (compare_arrays_spec v MAX_INT_ARR) by done. rewrite Hv2. change MAX_INT with (2 ^ 53).
  destruct (Nat.ltb_spec (length v) 4) as [Hl|Hl]; cbn [andb].
  - destruct (Z.compare_spec (val v) (2 ^ 53)) as [E|E|E]; cbn [comparison_number Z.ltb Z.compare].
    + cbn [array_value]. split; [exact Hd|]. split; [exact Hc|]. split; [reflexivity|lia].
    + rewrite pow53 in E. destruct v as [|d0 [|d1 [|d2 [|d3 v]]]]; [|..|cbn in Hl; lia].
      * cbn. lia.
      * inversion_clear Hd as [|? ? H0 _]. rewrite val_cons in *. change (val []) with 0 in *. unfold digit in *.
        cbn [array_value]. lia.
      * inversion_clear Hd as [|? ? H0 Hd']. inversion_clear Hd' as [|? ? H1 _]. rewrite !val_cons in *.
        change (val []) with 0 in *. unfold digit in *. cbn [array_value]. rewrite BASE_eq.
        rewrite (nmul_small d1) by lia. rewrite nadd_small by lia. lia.
      * inversion_clear Hd as [|? ? H0 Hd']. inversion_clear Hd' as [|? ? H1 Hd'']. inversion_clear Hd'' as [|? ? H2 _].
        rewrite !val_cons in *. change (val []) with 0 in *. unfold digit in *. cbn [array_value]. rewrite BASE_eq.
        rewrite (nmul_small d2) by lia. rewrite (nadd_small d1) by lia. rewrite nmul_small by lia.
        rewrite nadd_small by lia. lia.
    + cbn [array_value]. split; [exact Hd|]. split; [exact Hc|]. split; [reflexivity|lia].
  - cbn [array_value]. split; [exact Hd|]. split; [exact Hc|]. split; [reflexivity|].
    destruct (Z.le_gt_cases (2 ^ 53) (val v)) as [|Hlt]; [done|].
    pose proof (canon_length v MAX_INT_ARR Hd Hc Hd2). rewrite Hv2 in H. change MAX_INT with (2 ^ 53) in H.
    specialize (H ltac:(lia)). change (length MAX_INT_ARR) with 3%nat in H. lia.
Qed.

(** ** Addition *)

Lemma add_loop_spec a : forall b carry, digs a -> digs b -> (length b <= length a)%nat -> carry = 0 \/ carry = 1 ->
  digs (add_loop a b carry) /\ val (add_loop a b carry) = val a + val b + carry
  /\ (length a <= length (add_loop a b carry))%nat /\ (canon a -> canon (add_loop a b carry)).
Proof.
  induction a as [|x a IH]; intros b carry Ha Hb Hl Hc.
  { destruct b; [|cbn in Hl; lia]. cbn [add_loop]. destruct Hc as [->| ->]; cbn.
    - split; [constructor|]. split; [lia|]. split; [lia|done].
    - split; [constructor; [unfold digit; lia|constructor]|]. split; [lia|]. split; [lia|done]. }
  inversion_clear Ha as [|? ? Hx Ha']. unfold digit in Hx. destruct b as [|y b].
  - cbn [add_loop]. rewrite (nadd_small x) by lia. rewrite BASE_eq.
    destruct (Z.eqb_spec (x + carry) 10000000) as [E|E].
    + rewrite (nmul_small 1), nsub_small by lia.
      specialize (IH [] 1 Ha' Hb ltac:(cbn; lia) ltac:(lia)) as (I1 & I2 & I3 & I4).
      split; [constructor; [unfold digit; lia|done]|]. split; [rewrite !val_cons, I2; change (val []) with 0; lia|].
      split; [cbn [length]; lia|]. intros Hcn. destruct a as [|x' a]; [done|].
      exact (canon_step x x' a _ _ Hcn I3 I4).
    + rewrite (nmul_small 0), nsub_small by lia.
      specialize (IH [] 0 Ha' Hb ltac:(cbn; lia) ltac:(lia)) as (I1 & I2 & I3 & I4).
      split; [constructor; [unfold digit; lia|done]|]. split; [rewrite !val_cons, I2; change (val []) with 0; lia|].
      split; [cbn [length]; lia|]. intros Hcn. destruct a as [|x' a]; [cbn in *; lia|].
      exact (canon_step x x' a _ _ Hcn I3 I4).
  - inversion_clear Hb as [|? ? Hy Hb']. unfold digit in Hy. cbn [add_loop length] in *.
    rewrite (nadd_small x), (nadd_small (x + y)) by lia. rewrite BASE_eq.
    destruct (Z.leb_spec 10000000 (x + y + carry)) as [E|E].
    + rewrite (nmul_small 1), nsub_small by lia.
      specialize (IH b 1 Ha' Hb' ltac:(lia) ltac:(lia)) as (I1 & I2 & I3 & I4).
      split; [constructor; [unfold digit; lia|done]|]. split; [rewrite !val_cons, I2; lia|].
      split; [cbn [length]; lia|]. intros Hcn. destruct a as [|x' a].
      { destruct b; [done|cbn in Hl; lia]. }
      exact (canon_step x x' a _ _ Hcn I3 I4).
    + rewrite (nmul_small 0), nsub_small by lia.
      specialize (IH b 0 Ha' Hb' ltac:(lia) ltac:(lia)) as (I1 & I2 & I3 & I4).
      split; [constructor; [unfold digit; lia|done]|]. split; [rewrite !val_cons, I2; lia|].
      split; [cbn [length]; lia|]. intros Hcn. destruct a as [|x' a].
      { destruct b; [cbn in *; lia|cbn in Hl; lia]. }
      exact (canon_step x x' a _ _ Hcn I3 I4).
Qed.
Lemma add_any_spec a b : digs a -> digs b ->
  digs (add_any a b) /\ val (add_any a b) = val a + val b /\ (canon a -> canon b -> canon (add_any a b)).
Proof.
  intros Ha Hb. unfold add_any, add_arrays. destruct (Nat.leb_spec (length b) (length a)).
  - pose proof (add_loop_spec a b 0 Ha Hb ltac:(lia) ltac:(lia)) as (H1 & H2 & _ & H3). split_and!; [done|lia|auto].
  - pose proof (add_loop_spec b a 0 Hb Ha ltac:(lia) ltac:(lia)) as (H1 & H2 & _ & H3). split_and!; [done|lia|auto].
Qed.
Lemma add_loop_length a : forall b carry, (length b <= length a)%nat -> (length (add_loop a b carry) <= S (length a))%nat.
Proof.
  induction a as [|x a IH]; intros b carry Hl.
  { destruct b; [|cbn in Hl; lia]. cbn [add_loop]. destruct (0 <? carry); cbn; lia. }
  destruct b as [|y b]; cbn [add_loop length] in *.
  - set (c := if x ⊕ carry =? BASE then 1 else 0). specialize (IH [] c ltac:(cbn; lia)). lia.
  - set (c := if BASE <=? x ⊕ y ⊕ carry then 1 else 0). specialize (IH b c ltac:(lia)). lia.
Qed.
Lemma add_any_length a b : (length (add_any a b) <= S (Nat.max (length a) (length b)))%nat.
Proof.
  unfold add_any, add_arrays. destruct (Nat.leb_spec (length b) (length a)).
  - pose proof (add_loop_length a b 0 ltac:(lia)). lia.
  - pose proof (add_loop_length b a 0 ltac:(lia)). lia.
Qed.

Lemma push_carry_spec fuel : forall c, 0 <= c < 2 ^ 53 -> c < BASE ^ Z.of_nat fuel ->
  digs (push_carry fuel c) /\ val (push_carry fuel c) = c /\ canon (push_carry fuel c).
Proof.
  induction fuel as [|fuel IH]; intros c Hc Hlt.
  { change (BASE ^ Z.of_nat 0) with 1 in Hlt. assert (c = 0) by lia. subst c. repeat split; constructor. }
  cbn [push_carry]. destruct (Z.ltb_spec 0 c) as [Hp|Hp].
  2: { assert (c = 0) by lia. subst c. repeat split; constructor. }
  rewrite Nat2Z.inj_succ, Z.pow_succ_r in Hlt by lia. rewrite BASE_eq in *.
  rewrite floor_div_exact, Z.rem_mod_nonneg by lia.
  pose proof (Z.div_mod c 10000000 ltac:(lia)) as Hdm. pose proof (Z.mod_pos_bound c 10000000 ltac:(lia)) as Hr.
  set (q := c / 10000000) in *. set (r := c mod 10000000) in *. clearbody q r.
  destruct (IH q) as (I1 & I2 & I3); [lia|lia|].
  split; [by constructor|]. split; [rewrite val_cons; lia|].
  destruct (push_carry fuel q) as [|d l] eqn:E.
  - change (val []) with 0 in I2. cbn. lia.
  - by rewrite canon_cons.
Qed.
Lemma push_carry4 c : 0 <= c < 2 ^ 53 -> digs (push_carry 4 c) /\ val (push_carry 4 c) = c /\ canon (push_carry 4 c).
Proof. intros H. apply push_carry_spec; [done|]. change (BASE ^ Z.of_nat 4) with (10000000 ^ 4). lia. Qed.

Lemma add_small_spec a : forall carry, digs a -> 0 <= carry < 2 ^ 53 ->
  digs (add_small a carry) /\ val (add_small a carry) = val a + carry /\ (canon a -> canon (add_small a carry)).
Proof.
  induction a as [|x a IH]; intros carry Ha Hc.
  { cbn [add_small]. destruct (push_carry4 carry Hc) as (H1 & H2 & H3). split_and!; [done|done|auto]. }
  inversion_clear Ha as [|? ? Hx Ha']. unfold digit in Hx. cbn [add_small]. rewrite BASE_eq. rewrite pow53 in Hc.
  rewrite (nsub_small x) by lia. rewrite nadd_small by lia. rewrite floor_div_exact by lia.
  set (s := x - 10000000 + carry). pose proof (Z.div_mod s 10000000 ltac:(lia)) as Hdm.
  pose proof (Z.mod_pos_bound s 10000000 ltac:(lia)) as Hr. set (q := s / 10000000) in *. set (r := s mod 10000000) in *.
  assert (Hs : s = x - 10000000 + carry) by done. clearbody q r s.
  rewrite (nmul_small q) by lia. rewrite nsub_small by lia. rewrite nadd_small by lia.
  destruct (IH (q + 1) Ha' ltac:(lia)) as (I1 & I2 & I3).
  split; [constructor; [unfold digit; lia|done]|]. split; [rewrite !val_cons, I2; lia|].
  intros Hcn. destruct (add_small a (q + 1)) as [|d l] eqn:E.
  - change (val []) with 0 in I2. pose proof (val_nonneg a Ha'). destruct a; [|pose proof (canon_pos _ Ha' ltac:(by rewrite canon_cons in Hcn) ltac:(done)); lia].
    cbn in *. lia.
  - rewrite canon_cons by done. apply I3. destruct a; [done|]. by rewrite canon_cons in Hcn.
Qed.

(** ** Subtraction *)

Lemma sub_rest_spec a : forall borrow, digs a -> borrow = 0 \/ borrow = 1 -> borrow <= val a ->
  digs (sub_rest a borrow) /\ val (sub_rest a borrow) = val a - borrow.
Proof.
  induction a as [|x a IH]; intros borrow Ha Hb Hle.
  { change (val []) with 0 in Hle. cbn. split; [constructor|lia]. }
  inversion_clear Ha as [|? ? Hx Ha']. unfold digit in Hx. cbn [sub_rest]. rewrite val_cons in *.
  rewrite (nsub_small x) by lia. rewrite BASE_eq. destruct (Z.ltb_spec (x - borrow) 0) as [H|H].
  - rewrite nadd_small by lia. destruct (IH borrow Ha' Hb ltac:(lia)) as (I1 & I2).
    split; [constructor; [unfold digit; lia|done]|]. rewrite val_cons. lia.
  - split; [constructor; [unfold digit; lia|done]|]. rewrite val_cons. lia.
Qed.
Lemma sub_loop_spec a : forall b borrow, digs a -> digs b -> (length b <= length a)%nat -> borrow = 0 \/ borrow = 1 ->
  val b + borrow <= val a ->
  digs (sub_loop a b borrow) /\ val (sub_loop a b borrow) = val a - val b - borrow.
Proof.
  induction a as [|x a IH]; intros b borrow Ha Hb Hl Hc Hle.
  { destruct b; [|cbn in Hl; lia]. change (val []) with 0 in *. cbn. split; [constructor|lia]. }
  destruct b as [|y b].
  { cbn [sub_loop]. change (val []) with 0 in *. destruct (sub_rest_spec (x :: a) borrow Ha Hc ltac:(lia)) as (I1 & I2).
    split; [done|lia]. }
  inversion_clear Ha as [|? ? Hx Ha']. inversion_clear Hb as [|? ? Hy Hb']. unfold digit in Hx, Hy.
  cbn [sub_loop length] in *. rewrite !val_cons in *. rewrite (nsub_small x), nsub_small by lia. rewrite BASE_eq.
  destruct (Z.ltb_spec (x - borrow - y) 0) as [H|H].
  - rewrite nadd_small by lia. destruct (IH b 1 Ha' Hb' ltac:(lia) ltac:(lia) ltac:(lia)) as (I1 & I2).
    split; [constructor; [unfold digit; lia|done]|]. rewrite val_cons. lia.
  - destruct (IH b 0 Ha' Hb' ltac:(lia) ltac:(lia) ltac:(lia)) as (I1 & I2).
    split; [constructor; [unfold digit; lia|done]|]. rewrite val_cons. lia.
Qed.
Lemma sub_arrays_spec a b : digs a -> digs b -> canon b -> val b <= val a ->
  digs (sub_arrays a b) /\ val (sub_arrays a b) = val a - val b /\ canon (sub_arrays a b).
Proof.
  intros Ha Hb Hc Hle. unfold sub_arrays. pose proof (canon_length b a Hb Hc Ha Hle) as Hl.
  destruct (sub_loop_spec a b 0 Ha Hb Hl ltac:(lia) ltac:(lia)) as (H1 & H2).
  split_and!; [by apply trim_digs|rewrite trim_val; lia|apply trim_canon].
Qed.
Lemma sub_small_loop_spec a : forall carry, digs a -> - 2 ^ 53 < carry <= 0 -> 0 <= val a + carry ->
  digs (sub_small_loop a carry) /\ val (sub_small_loop a carry) = val a + carry.
Proof.
  induction a as [|x a IH]; intros carry Ha Hc Hle.
  { change (val []) with 0 in *. cbn. split; [constructor|lia]. }
  inversion_clear Ha as [|? ? Hx Ha']. unfold digit in Hx. cbn [sub_small_loop]. rewrite val_cons in *. rewrite pow53 in Hc.
  rewrite (nadd_small x) by lia. rewrite BASE_eq. rewrite floor_div_exact by lia.
  set (s := x + carry). assert (Hs : s = x + carry) by done. clearbody s.
  assert (Hd : (if Z.rem s 10000000 <? 0 then Z.rem s 10000000 ⊕ 10000000 else Z.rem s 10000000) = s mod 10000000).
  { pose proof (Z.quot_rem s 10000000 ltac:(lia)) as Hqr. destruct (Z.le_gt_cases 0 s) as [Hp|Hp].
    - rewrite Z.rem_mod_nonneg by lia. pose proof (Z.mod_pos_bound s 10000000 ltac:(lia)).
      destruct (Z.ltb_spec (s mod 10000000) 0); [lia|done].
    - pose proof (Z.rem_bound_pos_neg s 10000000 ltac:(lia) ltac:(lia)) as Hrb.
      destruct (Z.ltb_spec (Z.rem s 10000000) 0) as [Hn|Hn].
      + rewrite nadd_small by lia. apply Z.mod_unique with (Z.quot s 10000000 - 1); lia.
      + apply Z.mod_unique with (Z.quot s 10000000); lia. }
  rewrite Hd. pose proof (Z.div_mod s 10000000 ltac:(lia)) as Hdm.
  pose proof (Z.mod_pos_bound s 10000000 ltac:(lia)) as Hr. set (q := s / 10000000) in *. set (r := s mod 10000000) in *.
  clearbody q r. destruct (IH q Ha' ltac:(lia) ltac:(lia)) as (I1 & I2).
  split; [by constructor|]. rewrite val_cons. lia.
Qed.

(** ** Multiplication *)

Lemma mul_small_loop_spec a b : 0 <= b <= 100000000 -> forall carry, digs a -> 0 <= carry <= 100000000 ->
  digs (mul_small_loop a b carry) /\ val (mul_small_loop a b carry) = val a * b + carry
  /\ (0 < b -> canon a -> canon (mul_small_loop a b carry)).
Proof.
  intros Hb. induction a as [|x a IH]; intros carry Ha Hc.
  { cbn [mul_small_loop]. destruct (push_carry4 carry ltac:(lia)) as (H1 & H2 & H3). change (val []) with 0.
    split_and!; [done|lia|auto]. }
  inversion_clear Ha as [|? ? Hx Ha']. unfold digit in Hx. cbn [mul_small_loop]. rewrite BASE_eq.
  rewrite (nmul_small x) by nia. rewrite nadd_small by nia. set (s := x * b + carry).
  assert (Hs : 0 <= s <= 9999999 * b + carry) by (unfold s; nia). assert (Hse : s = x * b + carry) by done. clearbody s.
  rewrite floor_div_exact by lia. pose proof (Z.div_mod s 10000000 ltac:(lia)) as Hdm.
  pose proof (Z.mod_pos_bound s 10000000 ltac:(lia)) as Hr. set (q := s / 10000000) in *. set (r := s mod 10000000) in *.
  clearbody q r. rewrite nmul_small by lia. rewrite nsub_small by lia.
  destruct (IH q Ha' ltac:(lia)) as (I1 & I2 & I3).
  split; [constructor; [unfold digit; lia|done]|]. split; [rewrite !val_cons, I2; lia|].
  intros Hp Hcn. destruct (mul_small_loop a b q) as [|d l] eqn:E.
  - change (val []) with 0 in I2. destruct a as [|x' a].
    + cbn in *. nia.
    + exfalso. pose proof (canon_pos _ Ha' ltac:(by rewrite canon_cons in Hcn) ltac:(done)). nia.
  - rewrite canon_cons by done. apply I3; [done|]. destruct a; [done|]. by rewrite canon_cons in Hcn.
Qed.
Lemma mul_small_spec a b : 0 <= b <= 100000000 -> digs a ->
  digs (mul_small a b) /\ val (mul_small a b) = val a * b /\ (0 < b -> canon a -> canon (mul_small a b)).
Proof.
  intros Hb Ha. destruct (mul_small_loop_spec a b Hb 0 Ha ltac:(lia)) as (H1 & H2 & H3).
  split_and!; [done|unfold mul_small; lia|done].
Qed.

Lemma mul_row_spec a_i : 0 <= a_i < 10000000 -> forall b r0 rs, digs b -> 0 <= r0 <= 19999998 -> digs rs ->
  (length b <= length rs)%nat -> (b = [] -> r0 < 10000000) -> (b <> [] -> nth (length b - 1) rs 0 = 0) ->
  digs (mul_row a_i b (r0 :: rs)) /\ val (mul_row a_i b (r0 :: rs)) = a_i * val b + r0 + 10000000 * val rs
  /\ length (mul_row a_i b (r0 :: rs)) = S (length rs)
  /\ drop (S (length b)) (mul_row a_i b (r0 :: rs)) = drop (length b) rs.
Proof.
  intros Ha. induction b as [|bj b IH]; intros r0 rs Hb Hr0 Hrs Hl Hnil Hz.
  { cbn [mul_row length]. specialize (Hnil eq_refl). split; [constructor; [unfold digit; lia|done]|].
    rewrite val_cons. change (val []) with 0. split_and!; [lia|done|done]. }
  inversion_clear Hb as [|? ? Hbj Hb']. unfold digit in Hbj. destruct rs as [|r1 rs]; [cbn in Hl; lia|].
  inversion_clear Hrs as [|? ? Hr1 Hrs']. unfold digit in Hr1. cbn [mul_row length] in *. rewrite BASE_eq.
  assert (Hp : 0 <= a_i * bj <= 9999999 * 9999999) by nia. rewrite (nmul_small a_i) by lia. rewrite nadd_small by lia.
  set (p := a_i * bj) in *. assert (Hpe : p = a_i * bj) by done. clearbody p.
  rewrite floor_div_exact by lia. pose proof (Z.div_mod (p + r0) 10000000 ltac:(lia)) as Hdm.
  pose proof (Z.mod_pos_bound (p + r0) 10000000 ltac:(lia)) as Hr. set (q := (p + r0) / 10000000) in *.
  set (r := (p + r0) mod 10000000) in *. clearbody q r. rewrite nmul_small by lia. rewrite nsub_small by lia.
  rewrite (nadd_small r1) by lia. specialize (Hz ltac:(done)).
  destruct (IH (r1 + q) rs Hb' ltac:(lia) Hrs' ltac:(lia)) as (I1 & I2 & I3 & I4).
  - intros ->. cbn in Hz. lia.
  - intros Hne. destruct b as [|b0 b]; [done|]. cbn [length] in *. replace (S (S (length b)) - 1)%nat with (S (length b)) in Hz by lia.
    replace (S (length b) - 1)%nat with (length b) by lia. exact Hz.
  - split; [constructor; [unfold digit; lia|done]|]. split; [rewrite !val_cons, I2; lia|].
    split; [cbn [length]; lia|]. cbn [drop]. exact I4.
Qed.
Lemma mul_loop_spec b : digs b -> forall a r, digs a -> digs r -> length r = (length a + length b)%nat ->
  val (drop (length b) r) = 0 ->
  digs (mul_loop a b r) /\ val (mul_loop a b r) = val r + val a * val b.
Proof.
  intros Hb. induction a as [|x a IH]; intros r Ha Hr Hl Hz.
  { cbn [mul_loop]. change (val []) with 0. split; [done|lia]. }
  inversion_clear Ha as [|? ? Hx Ha']. unfold digit in Hx. destruct r as [|r0 rs]; [cbn in Hl; lia|].
  inversion_clear Hr as [|? ? Hr0 Hrs]. unfold digit in Hr0. cbn [mul_loop length] in *.
  assert (Hzero : forall l, digs l -> val l = 0 -> Forall (fun d => d = 0) l).
  { clear. induction l as [|d l IH]; intros Hd Hv; [constructor|]. inversion_clear Hd as [|? ? Hd' Hl].
    rewrite val_cons in Hv. pose proof (val_nonneg l Hl). unfold digit in Hd'. constructor; [lia|]. apply IH; [done|lia]. }
  destruct (mul_row_spec x ltac:(lia) b r0 rs Hb ltac:(lia) Hrs ltac:(lia)) as (I1 & I2 & I3 & I4).
  - intros ->. lia.
  - intros Hne. destruct b as [|b0 b]; [done|]. cbn [length drop] in *. replace (S (length b) - 1)%nat with (length b) by lia.
    assert (Hd : digs (drop (length b) rs)) by by apply Forall_drop. specialize (Hzero _ Hd Hz).
    destruct (drop (length b) rs) as [|d l] eqn:E.
    { apply (f_equal length) in E. rewrite drop_length in E. cbn in E. lia. }
    inversion_clear Hzero. subst d. rewrite <- (take_drop (length b) rs), E. rewrite app_nth2; rewrite take_length; [|lia].
    by replace (length b - length b `min` length rs)%nat with 0%nat by lia.
  - destruct (mul_row x b (r0 :: rs)) as [|d l] eqn:E; [done|]. cbn [drop length] in *.
    inversion_clear I1 as [|? ? Hd' Hl']. unfold digit in Hd'.
    destruct (IH l Ha' Hl' ltac:(lia)) as (J1 & J2).
    { rewrite I4. destruct b as [|b0 b]; [change (r0 + 10000000 * val rs = 0) in Hz; change (val rs = 0); pose proof (val_nonneg rs Hrs); lia|].
      cbn [length drop] in *. assert (Hd : digs (drop (length b) rs)) by by apply Forall_drop.
      specialize (Hzero _ Hd Hz). destruct rs as [|r1 rs']; [by destruct (length b)|].
      assert (Hd2 : digs (drop (S (length b)) (r1 :: rs'))) by by apply Forall_drop.
      destruct (drop (length b) (r1 :: rs')) as [|d0 l0] eqn:E0.
      { apply (f_equal length) in E0. rewrite drop_length in E0. cbn [length] in *. lia. }
      assert (E1 : drop (S (length b)) (r1 :: rs') = l0).
      { replace (S (length b)) with (length b + 1)%nat by lia. rewrite <- drop_drop, E0. done. }
      rewrite E1 in *. inversion_clear Hzero as [|? ? _ Hl0]. clear -Hl0. induction Hl0 as [|d l -> _ IH]; [done|].
      rewrite val_cons. lia. }
    split; [by constructor|]. rewrite !val_cons in *. lia.
Qed.
Lemma mul_long_spec a b : digs a -> digs b ->
  digs (mul_long a b) /\ val (mul_long a b) = val a * val b /\ canon (mul_long a b).
Proof.
  intros Ha Hb. unfold mul_long. destruct (mul_loop_spec b Hb a (create_array (length a + length b)) Ha) as (H1 & H2).
  - apply digs_create.
  - unfold create_array. by rewrite replicate_length.
  - unfold create_array. rewrite drop_replicate. apply (val_create).
  - split_and!; [by apply trim_digs|rewrite trim_val, H2, val_create; lia|apply trim_canon].
Qed.

Lemma val_shift x n : val (shift_array x n) = BASE ^ Z.of_nat n * val x.
Proof. unfold shift_array. rewrite val_app, replicate_length. fold (create_array n). rewrite val_create. lia. Qed.
Lemma digs_shift x n : digs x -> digs (shift_array x n).
Proof. intros H. apply Forall_app. split; [apply digs_create|done]. Qed.
Lemma val_split x n : val x = val (take n x) + BASE ^ Z.of_nat (Nat.min n (length x)) * val (drop n x).
Proof. rewrite <- (take_drop n x) at 1. rewrite val_app, take_length. done. Qed.
Lemma val_split' x n : val x = val (take n x) + BASE ^ Z.of_nat n * val (drop n x).
Proof.
  rewrite (val_split x n). destruct (decide (n <= length x)%nat) as [H|H].
  - by rewrite Nat.min_l by lia.
  - rewrite (drop_ge x n) by lia. change (val []) with 0. lia.
Qed.

Lemma mul_karatsuba_spec fuel : forall x y, digs x -> digs y ->
  (length x <= fuel + 30)%nat -> (length y <= fuel + 30)%nat ->
  exists r, mul_karatsuba fuel x y = Ok r /\ digs r /\ val r = val x * val y /\ canon r.
Proof.
  induction fuel as [|fuel IH]; intros x y Hx Hy Hlx Hly.
  { cbn [mul_karatsuba]. destruct (Nat.leb_spec (Nat.max (length x) (length y)) 30); [|lia].
    eexists; split; [done|]. by apply mul_long_spec. }
  cbn [mul_karatsuba]. destruct (Nat.leb_spec (Nat.max (length x) (length y)) 30) as [Hs|Hs].
  { eexists; split; [done|]. by apply mul_long_spec. }
  set (m := Nat.max (length x) (length y)) in *. set (n := Nat.div2 (S m)).
  assert (Hn : (n + 1 <= fuel + 30)%nat /\ (m <= 2 * n)%nat).
  { unfold n. pose proof (Nat.div2_odd (S m)) as Hdo. destruct (Nat.odd (S m)); cbn [Nat.b2n] in Hdo; lia. }
  destruct Hn as [Hn Hm]. clearbody n.
  assert (Ha : digs (take n x)) by by apply Forall_take. assert (Hb : digs (drop n x)) by by apply Forall_drop.
  assert (Hc : digs (take n y)) by by apply Forall_take. assert (Hd : digs (drop n y)) by by apply Forall_drop.
  pose proof (val_split' x n) as Ex. pose proof (val_split' y n) as Ey.
  assert (La : (length (take n x) <= n)%nat) by (rewrite take_length; lia).
  assert (Lb : (length (drop n x) <= n)%nat) by (rewrite drop_length; lia).
  assert (Lc : (length (take n y) <= n)%nat) by (rewrite take_length; lia).
  assert (Ld : (length (drop n y) <= n)%nat) by (rewrite drop_length; lia).
  set (a := take n x) in *. set (b := drop n x) in *. set (c := take n y) in *. set (d := drop n y) in *. clearbody a b c d.
  destruct (add_any_spec a b Ha Hb) as (Hab & Vab & _). pose proof (add_any_length a b) as Lab.
  destruct (add_any_spec c d Hc Hd) as (Hcd & Vcd & _). pose proof (add_any_length c d) as Lcd.
  set (ab := add_any a b) in *. set (cd := add_any c d) in *. clearbody ab cd.
  destruct (IH a c Ha Hc ltac:(lia) ltac:(lia)) as (ac & -> & Hac & Vac & Cac). cbn [rbind].
  destruct (IH b d Hb Hd ltac:(lia) ltac:(lia)) as (bd & -> & Hbd & Vbd & Cbd). cbn [rbind].
  destruct (IH ab cd Hab Hcd ltac:(lia) ltac:(lia)) as (abcd & -> & Habcd & Vabcd & _). cbn [rbind].
  pose proof (val_nonneg a Ha). pose proof (val_nonneg b Hb). pose proof (val_nonneg c Hc). pose proof (val_nonneg d Hd).
  destruct (sub_arrays_spec abcd ac Habcd Hac Cac) as (Hs1 & Vs1 & _); [nia|].
  set (s1 := sub_arrays abcd ac) in *. clearbody s1.
  destruct (sub_arrays_spec s1 bd Hs1 Hbd Cbd) as (Hs2 & Vs2 & _); [nia|].
  set (s2 := sub_arrays s1 bd) in *. clearbody s2.
  destruct (add_any_spec ac (shift_array s2 n) Hac (digs_shift s2 n Hs2)) as (Hp1 & Vp1 & _).
  set (p1 := add_any ac (shift_array s2 n)) in *. clearbody p1.
  destruct (add_any_spec p1 (shift_array bd (2 * n)) Hp1 (digs_shift bd _ Hbd)) as (Hp & Vp & _).
  set (p := add_any p1 (shift_array bd (2 * n))) in *. clearbody p.
  eexists; split; [reflexivity|]. split_and!; [by apply trim_digs| |apply trim_canon].
  rewrite trim_val, Vp, Vp1, !val_shift, Vs2, Vs1, Vabcd, Vab, Vcd, Vac, Vbd, Ex, Ey.
  replace (Z.of_nat (2 * n)) with (Z.of_nat n + Z.of_nat n) by lia. rewrite Z.pow_add_r by lia. ring.
Qed.

(** ** Division by a small number *)

Lemma div_small_spec v lambda : 0 < lambda <= 10000000 -> digs v ->
  digs (fst (div_small v lambda)) /\ val v = val (fst (div_small v lambda)) * lambda + snd (div_small v lambda)
  /\ 0 <= snd (div_small v lambda) < lambda.
Proof.
  intros Hl. unfold div_small. induction 1 as [|d v Hd Hv IH].
  { cbn. split_and!; [constructor|lia|lia|lia]. }
  cbn [div_small_loop]. destruct (div_small_loop v lambda) as [q rem]. cbn [fst snd] in *.
  destruct IH as (I1 & I2 & I3). unfold digit in Hd. rewrite BASE_eq. rewrite (nmul_small rem) by lia.
  rewrite nadd_small by lia. set (s := rem * 10000000 + d). assert (Hs : s = rem * 10000000 + d) by done.
  assert (Hs2 : 0 <= s < lambda * 10000000) by lia. clearbody s. rewrite trunc_div_exact by lia.
  rewrite Z.quot_div_nonneg by lia. pose proof (Z.div_mod s lambda ltac:(lia)) as Hdm.
  pose proof (Z.mod_pos_bound s lambda ltac:(lia)) as Hr.
  assert (Hq : 0 <= s / lambda < 10000000).
  { split; [apply Z.div_pos; lia|]. apply Z.div_lt_upper_bound; lia. }
  set (t := s / lambda) in *. set (r := s mod lambda) in *. clearbody t r.
  rewrite nmul_small by nia. rewrite nsub_small by nia.
  split; [by constructor|]. rewrite !val_cons. split; nia.
Qed.
Lemma div_small_length v lambda : length (fst (div_small v lambda)) = length v.
Proof.
  unfold div_small. induction v as [|d v IH]; [done|]. cbn [div_small_loop]. destruct (div_small_loop v lambda).
  cbn [fst length] in *. lia.
Qed.
