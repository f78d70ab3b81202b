(** * BigIntRadixProofs: texts in any radix *)

From Verif Require Export BigIntParseProofs SpecBigIntRadix.
Local Open Scope Z_scope.

Lemma horner_snoc b d : forall ds acc, horner b acc (ds ++ [d]) = b * horner b acc ds + d.
Proof. induction ds as [|e ds IH]; intros acc; cbn [horner app]; [reflexivity|]. apply IH. Qed.

(** ** Writing *)

Lemma stringify_written d : 0 <= d -> digit_written d (stringify d).
Proof.
  intros Hd. destruct (Z.leb_spec d 35) as [H|H].
  - left. split; [lia|]. destruct (stringify_value d ltac:(lia)) as (b & -> & Hb). by exists b.
  - right. split; [lia|]. unfold stringify. destruct (Z.leb_spec d 35); [lia|]. exists (num_text d). split; [reflexivity|].
    apply num_text_writes.
Qed.
Lemma stringify_small i d : stands_for i d -> 0 <= d < 2 ^ 53 -> digit_written d (stringify_any i).
Proof.
  intros Hi Hd. destruct i as [v s|v s]; cbn [stringify_any].
  - apply small_elim in Hi as (-> & _). apply stringify_written. lia.
  - apply big_elim in Hi as (_ & _ & H3 & -> & _). destruct s; cbn [signed] in Hd; lia.
Qed.
(** One turn of the loop: the new number and the digit. *)
Lemma base_step n base x b : stands_for n x -> stands_for base b -> 2 <= Z.abs b -> (0 < b -> 0 <= x) ->
  exists q d qi di, div_mod n base = Ok (Some (q, d))
    /\ (if is_negative d then (next q, int_abs (subtract base d)) else (q, d)) = (qi, di)
    /\ exists x' e, stands_for qi x' /\ stands_for di e /\ x = b * x' + e /\ 0 <= e < Z.abs b
        /\ (0 < b -> 0 <= x') /\ (x < 0 \/ Z.abs b <= x -> x' <> 0)
        /\ (0 <= x -> Z.abs x' <= x / 2) /\ (x < 0 -> 0 <= x' <= Z.abs x).
Proof.
  intros Hn Hb Hb2 Hpos. destruct (div_mod_spec n base x b Hn Hb) as [[H _]|(_ & q & r & E & Hq & Hr)]; [lia|].
  exists q, r. destruct (signs_spec r _ Hr) as (_ & -> & _ & _).
  pose proof (Z.quot_rem x b ltac:(lia)) as Hqr.
  pose proof (Z.rem_bound_abs x b ltac:(lia)) as Hrb.
  assert (Hsign : 0 <= Z.rem x b * x) by (apply Z.rem_sign_mul; lia).
  assert (Hqx : Z.abs (Z.quot x b) * Z.abs b <= Z.abs x).
  { pose proof (Z.quot_abs x b ltac:(lia)) as Ha. rewrite <- Ha, Z.mul_comm. apply Z.mul_quot_le; lia. }
  destruct (Z.ltb_spec (Z.rem x b) 0) as [Hneg|Hneg].
  - eexists _, _. split; [exact E|]. split; [reflexivity|]. exists (Z.quot x b + 1), (Z.abs (b - Z.rem x b)).
    assert (Hx0 : x < 0) by nia. assert (Hb0 : b < 0) by (destruct (decide (0 < b)); [specialize (Hpos ltac:(lia)); lia|lia]).
    assert (Hq0 : 0 <= Z.quot x b) by (rewrite <- Z.quot_opp_opp by lia; apply Z.quot_pos; lia).
    split; [by apply next_spec|]. split; [apply abs_spec; by apply subtract_spec|].
    split; [lia|]. split; [lia|]. split; [lia|]. split; [lia|]. split; [lia|]. intros _. split; [lia|]. nia.
  - eexists _, _. split; [exact E|]. split; [reflexivity|]. exists (Z.quot x b), (Z.rem x b).
    split; [exact Hq|]. split; [exact Hr|]. split; [lia|]. split; [lia|].
    split. { intros Hb0. specialize (Hpos Hb0). apply Z.quot_pos; lia. }
    split. { intros [H|H]; nia. }
    split.
    + intros Hx. apply Z.div_le_lower_bound; nia.
    + intros Hx. split; [|nia]. destruct (decide (0 < b)) as [Hb0|Hb0]; [specialize (Hpos Hb0); lia|].
      rewrite <- Z.quot_opp_opp by lia. apply Z.quot_pos; lia.
Qed.
Lemma to_base_any_loop_gen (W : Z -> list byte -> Prop) base b : stands_for base b -> 2 <= Z.abs b ->
  (forall i d, stands_for i d -> 0 <= d < Z.abs b -> W d (stringify_any i)) ->
  forall k n x fuel, stands_for n x -> (0 < b -> 0 <= x) -> Z.abs x < 2 ^ Z.of_nat k ->
  (fuel >= 2 * k + (if (x <? 0)%Z then 1 else 0))%nat ->
  exists t ds us, to_base_any_loop fuel n base = Ok t /\ t = concat us /\ Forall2 W ds us
    /\ Forall (digit_of b) ds /\ ds <> [] /\ horner b 0 ds = x /\ (hd_error ds = Some 0 -> ds = [0]).
Proof.
  intros Hb Hb2 HW.
  assert (Hlast : forall n x fuel, stands_for n x -> 0 <= x < Z.abs b ->
            exists t ds us, to_base_any_loop fuel n base = Ok t /\ t = concat us /\ Forall2 W ds us
              /\ Forall (digit_of b) ds /\ ds <> [] /\ horner b 0 ds = x /\ (hd_error ds = Some 0 -> ds = [0])).
  { intros n x fuel Hn Hx.
    assert (E : to_base_any_loop fuel n base = Ok (stringify_any n)).
    { destruct (signs_spec n x Hn) as (_ & Hneg & _ & _).
      assert (Hc : (0 <=? compare_abs n base) = false).
      { rewrite (compare_abs_spec n base x b Hn Hb), (Z.abs_eq x) by lia. destruct (Z.compare_spec x (Z.abs b)); [lia|reflexivity|lia]. }
      destruct fuel; cbn [to_base_any_loop]; rewrite Hneg, Hc; destruct (Z.ltb_spec x 0); (lia || reflexivity). }
    exists (stringify_any n), [x], [stringify_any n]. split; [exact E|]. cbn [concat]. split; [by rewrite app_nil_r|].
    split; [constructor; [apply HW; [exact Hn|lia]|constructor]|].
    split; [constructor; [unfold digit_of; lia|constructor]|]. split; [done|]. cbn [horner]. split; [lia|]. cbn. congruence. }
  assert (Hstep : forall n x fuel, stands_for n x -> (0 < b -> 0 <= x) -> x < 0 \/ Z.abs b <= x ->
            (forall qi x', stands_for qi x' -> (0 < b -> 0 <= x') -> x' <> 0 ->
               (0 <= x -> Z.abs x' <= x / 2) -> (x < 0 -> 0 <= x' <= Z.abs x) ->
               exists t ds us, to_base_any_loop fuel qi base = Ok t /\ t = concat us /\ Forall2 W ds us
                 /\ Forall (digit_of b) ds /\ ds <> [] /\ horner b 0 ds = x' /\ (hd_error ds = Some 0 -> ds = [0])) ->
            exists t ds us, to_base_any_loop (S fuel) n base = Ok t /\ t = concat us /\ Forall2 W ds us
              /\ Forall (digit_of b) ds /\ ds <> [] /\ horner b 0 ds = x /\ (hd_error ds = Some 0 -> ds = [0])).
  { intros n x fuel Hn Hpos Hx Hrec.
    destruct (base_step n base x b Hn Hb ltac:(lia) Hpos) as (q & d & qi & di & E1 & E2 & x' & e & Hq & Hd & Hxe & He & P1 & P2 & P3 & P4).
    destruct (Hrec qi x' Hq P1 (P2 Hx) P3 P4) as (t & ds & us & E & -> & F1 & F2 & F3 & F4 & F5).
    assert (Hcond : is_negative n || (0 <=? compare_abs n base) = true).
    { destruct (signs_spec n x Hn) as (_ & -> & _ & _). rewrite (compare_abs_spec n base x b Hn Hb).
      destruct (Z.ltb_spec x 0); [reflexivity|]. destruct Hx as [Hx|Hx]; [lia|]. rewrite (Z.abs_eq x) by lia.
      destruct (Z.compare_spec x (Z.abs b)); [reflexivity|lia|reflexivity]. }
    exists (concat us ++ stringify_any di), (ds ++ [e]), (us ++ [stringify_any di]).
    split. { cbn [to_base_any_loop]. rewrite Hcond, E1. cbn [rbind expect]. rewrite E2, E. reflexivity. }
    split; [rewrite concat_app; cbn [concat]; by rewrite app_nil_r|].
    split; [apply Forall2_app; [exact F1|]; constructor; [apply HW; [exact Hd|lia]|constructor]|].
    split; [apply Forall_app; split; [exact F2|]; constructor; [unfold digit_of; lia|constructor]|].
    split; [by destruct ds|]. split; [rewrite horner_snoc, F4; lia|].
    intros H. destruct ds as [|e0 ds]; [done|]. cbn [app hd_error] in H. injection H as ->.
    specialize (F5 eq_refl). rewrite F5 in F4. cbn [horner] in F4. specialize (P2 Hx). lia. }
  induction k as [|k IH]; intros n x fuel Hn Hpos Hk Hf.
  { change (2 ^ Z.of_nat 0) with 1 in Hk. apply Hlast; [exact Hn|lia]. }
  destruct (decide (0 <= x < Z.abs b)) as [Hx|Hx]; [by apply Hlast|].
  assert (Hcase : x < 0 \/ Z.abs b <= x) by lia. rewrite Nat2Z.inj_succ, Z.pow_succ_r in Hk by lia.
  assert (Hnn : forall n x fuel, stands_for n x -> 0 <= x -> Z.abs x < 2 * 2 ^ Z.of_nat k -> (fuel >= 2 * S k)%nat ->
            exists t ds us, to_base_any_loop fuel n base = Ok t /\ t = concat us /\ Forall2 W ds us
              /\ Forall (digit_of b) ds /\ ds <> [] /\ horner b 0 ds = x /\ (hd_error ds = Some 0 -> ds = [0])).
  { clear n x fuel Hn Hpos Hk Hf Hx Hcase. intros n x fuel Hn Hx Hk Hf.
    destruct (decide (x < Z.abs b)) as [Hlt|Hge]; [apply Hlast; [exact Hn|lia]|].
    destruct fuel as [|fuel]; [lia|].
    destruct (Hstep n x fuel Hn ltac:(lia) ltac:(lia)) as (t & ds & us & E & R); [|exists t, ds, us; tauto].
    intros qi x' Hq P1 P2 P3 P4. specialize (P3 Hx). apply IH; [exact Hq|exact P1| |].
    - assert (x / 2 < 2 ^ Z.of_nat k) by (apply Z.div_lt_upper_bound; lia). lia.
    - destruct (Z.ltb_spec x' 0); lia. }
  destruct Hcase as [Hneg|Hge].
  - destruct (Z.ltb_spec x 0); [|lia]. destruct fuel as [|fuel]; [lia|].
    destruct (Hstep n x fuel Hn Hpos ltac:(lia)) as (t & ds & us & E & R); [|exists t, ds, us; tauto].
    intros qi x' Hq P1 P2 P3 P4. specialize (P4 Hneg). apply Hnn; [exact Hq|lia|lia|lia].
  - apply Hnn; [exact Hn|lia|exact Hk|]. destruct (x <? 0)%Z; lia.
Qed.

(** Texts of single characters. *)
Lemma text_digits r t : r <= 36 -> forall acc v, text_value r acc t = Some v ->
  exists ds, Forall2 digit_written ds (map (fun c => [c]) t) /\ Forall (fun d => 0 <= d < r) ds /\ horner r acc ds = v
    /\ (hd_error ds = Some 0 -> hd_error t = Some x30).
Proof.
  intros Hr. induction t as [|c t IH]; intros acc v; cbn [text_value map].
  { intros [= <-]. exists []. split; [constructor|]. split; [constructor|]. split; [reflexivity|]. done. }
  destruct (char_value c) as [d|] eqn:E; [|discriminate]. destruct (Z.ltb_spec d r) as [L|L]; [|discriminate]. intros H.
  destruct (IH _ _ H) as (ds & H1 & H2 & H3 & _). pose proof (char_value_nonneg _ _ E) as Hd. exists (d :: ds).
  split; [constructor; [|exact H1]; left; split; [lia|by exists c]|]. split; [constructor; [lia|exact H2]|]. split; [exact H3|].
  cbn [hd_error]. intros [= ->]. f_equal. destruct c; vm_compute in E; (discriminate E || reflexivity).
Qed.
Lemma concat_singles (t : list byte) : concat (map (fun c => [c]) t) = t.
Proof. induction t as [|c t IH]; cbn; [reflexivity|by rewrite IH]. Qed.
Lemma written_text r : r <= 36 -> forall ds us acc, Forall2 digit_written ds us -> Forall (fun d => 0 <= d < r) ds ->
  text_value r acc (concat us) = Some (horner r acc ds).
Proof.
  intros Hr ds us acc H. revert acc. induction H as [|d u ds us Hd _ IH]; intros acc Hf; cbn [concat horner]; [reflexivity|].
  apply Forall_cons in Hf as [Hd2 Hf]. destruct Hd as [(_ & c & -> & Hc)|[Hd _]]; [|lia]. cbn [app text_value]. rewrite Hc.
  destruct (Z.ltb_spec d r); [|lia]. by apply IH.
Qed.
Lemma writes_writes_any r x t : 2 <= r <= 36 -> writes r x t -> writes_any r x t /\ no_leading_zero r x t.
Proof.
  intros Hr (s & -> & Hne & Hv & Hz). destruct (text_digits r s ltac:(lia) 0 _ Hv) as (ds & H1 & H2 & H3 & H4). split.
  - exists ds, (map (fun c => [c]) s). destruct (Z.ltb_spec 0 r); [|lia]. cbn [andb]. rewrite concat_singles.
    split; [reflexivity|]. split; [exact H1|]. split.
    { eapply Forall_impl; [exact H2|]. unfold digit_of. intros d Hd. lia. }
    split; [|exact H3]. intros ->. inversion H1 as [E|]. destruct s; [done|discriminate].
  - unfold no_leading_zero. destruct (Z.ltb_spec 0 r); [|lia]. cbn [andb]. destruct (Z.ltb_spec x 0).
    + change (drop 1 (txt "-" ++ s)) with (drop 0 s). rewrite drop_0. intros E. apply Hz in E. lia.
    + cbn [app]. exact Hz.
Qed.
(** The first character of a digit. *)
Lemma digit_first d u : digit_written d u -> exists c r, u = c :: r /\ Byte.eqb c x2d = false /\ (c = x30 -> d = 0 /\ r = []).
Proof.
  intros [(Hd & c & -> & Hc)|(Hd & t & -> & _)].
  - exists c, []. split; [reflexivity|]. destruct c; vm_compute in Hc; try discriminate Hc; injection Hc as <-; (split; [reflexivity|]);
      intros E; (discriminate E || done).
  - exists x3c, (t ++ txt ">"). split; [reflexivity|]. split; [reflexivity|]. discriminate.
Qed.
Lemma no_leading_zero_written b x ds us : Forall2 digit_written ds us -> (hd_error ds = Some 0 -> ds = [0]) ->
  horner b 0 ds = (if 0 <? b then Z.abs x else x) ->
  no_leading_zero b x ((if (0 <? b) && (x <? 0) then txt "-" else []) ++ concat us).
Proof.
  intros H Hz Hv. unfold no_leading_zero.
  assert (K : hd_error (concat us) = Some x30 -> x = 0 /\ length (concat us) = 1%nat).
  { intros E. destruct H as [|d u ds us Hd H]; [discriminate|]. destruct (digit_first d u Hd) as (c & r & -> & _ & Hc).
    cbn [concat app hd_error] in E. injection E as E. destruct (Hc E) as [-> ->]. specialize (Hz eq_refl). injection Hz as ->.
    apply Forall2_nil_inv_l in H as ->. cbn [horner] in Hv. split; [|reflexivity]. destruct (0 <? b); lia. }
  destruct ((0 <? b) && (x <? 0)) eqn:E.
  - change (drop 1 (txt "-" ++ concat us)) with (drop 0 (concat us)). rewrite drop_0. intros H1. apply K in H1.
    apply andb_true_iff in E as [_ E]. apply Z.ltb_lt in E. lia.
  - cbn [app]. exact K.
Qed.

(** Radixes 1 and -1. *)
Lemma ones n : forall acc, horner 1 acc (replicate n 1) = acc + Z.of_nat n.
Proof. induction n as [|n IH]; intros acc; cbn [replicate horner]; [lia|]. rewrite IH. lia. Qed.
Lemma ones_zeros n : forall acc, horner (-1) acc (concat (replicate n [1; 0])) = acc - Z.of_nat n.
Proof. induction n as [|n IH]; intros acc; cbn [replicate concat app horner]; [lia|]. rewrite IH. lia. Qed.
Lemma zeros_ones n : forall acc, horner (-1) acc (concat (replicate n [0; 1])) = acc + Z.of_nat n.
Proof. induction n as [|n IH]; intros acc; cbn [replicate concat app horner]; [lia|]. rewrite IH. lia. Qed.
Lemma written_0 : digit_written 0 [x30].
Proof. left. split; [lia|]. by exists x30. Qed.
Lemma written_1 : digit_written 1 [x31].
Proof. left. split; [lia|]. by exists x31. Qed.
Lemma concat_concat {A} (l : list (list (list A))) : concat (concat l) = concat (map (@concat A) l).
Proof. induction l as [|a l IH]; cbn; [reflexivity|]. by rewrite concat_app, IH. Qed.
Lemma written_blocks n (block : list Z) us : Forall2 digit_written block us ->
  Forall2 digit_written (concat (replicate n block)) (concat (replicate n us)).
Proof. intros H. induction n; cbn; [constructor|]. by apply Forall2_app. Qed.
Lemma digits_blocks b n (block : list Z) : Forall (digit_of b) block -> Forall (digit_of b) (concat (replicate n block)).
Proof. intros H. induction n; cbn; [constructor|]. by apply Forall_app. Qed.
Lemma text_blocks {A} n (us : list (list A)) : concat (concat (replicate n us)) = concat (replicate n (concat us)).
Proof. rewrite concat_concat. f_equal. induction n; cbn; [reflexivity|by f_equal]. Qed.
Lemma array_join_ok n t : 0 <= n <= 2 ^ 32 - 1 -> array_join n t = Some (concat (replicate (Z.to_nat (n - 1)) t)).
Proof. intros H. unfold array_join. destruct (Z.leb_spec 0 n); [|lia]. destruct (Z.leb_spec n (2 ^ 32 - 1)); [reflexivity|lia]. Qed.
Lemma zero_written b x : x = 0 -> writes_any b x (txt "0").
Proof.
  intros ->. exists [0], [[x30]]. split; [by rewrite andb_false_r|]. split; [constructor; [exact written_0|constructor]|].
  split; [constructor; [unfold digit_of; lia|constructor]|]. split; [done|]. cbn [horner]. destruct (0 <? b); lia.
Qed.
Theorem to_base_any_unary n base x b : stands_for n x -> stands_for base b -> Z.abs b = 1 ->
  Z.abs x <= 2 ^ 32 - 2 \/ (b = -1 /\ x = 2 ^ 32 - 1) ->
  exists t, to_base_any n base = Ok (Some t) /\ writes_any b x t.
Proof.
  intros Hn Hb Hb1 Hx. unfold to_base_any.
  destruct (signs_spec base b Hb) as (Hbp & _ & Hbz & _). destruct (signs_spec n x Hn) as (_ & Hneg & Hz & _).
  destruct (tests_spec base (mk_small (-1)) b (-1) Hb (mk_small_spec (-1) ltac:(lia))) as (Eq1 & _).
  destruct (tests_spec base (mk_small 1) b 1 Hb (mk_small_spec 1 ltac:(lia))) as (Eq2 & _).
  rewrite Hbz, Eq1, Eq2, Hz, Hneg, Hbp. destruct (Z.eqb_spec b 0) as [|_]; [lia|].
  destruct (Z.eqb_spec b (-1)) as [->|Hb2].
  - destruct (Z.eqb_spec x 0) as [->|Hx0]; [eexists; split; [reflexivity|]; by apply zero_written|].
    rewrite (number_small n x Hn) by lia. destruct (Z.ltb_spec x 0).
    + rewrite nsub_small, array_join_ok by lia. eexists. split; [reflexivity|]. replace (1 - x - 1) with (- x) by lia.
      exists (concat (replicate (Z.to_nat (- x)) [1; 0])), (concat (replicate (Z.to_nat (- x)) [[x31]; [x30]])).
      split; [cbn [Z.ltb andb app]; rewrite text_blocks; reflexivity|].
      split; [apply written_blocks; constructor; [exact written_1|]; constructor; [exact written_0|constructor]|].
      split; [apply digits_blocks; repeat constructor; unfold digit_of; lia|].
      split; [destruct (Z.to_nat (- x)) eqn:E; [lia|discriminate]|]. rewrite ones_zeros. change (0 <? -1) with false. cbv iota. lia.
    + rewrite array_join_ok by lia. eexists. split; [reflexivity|].
      exists (1 :: concat (replicate (Z.to_nat (x - 1)) [0; 1])), ([x31] :: concat (replicate (Z.to_nat (x - 1)) [[x30]; [x31]])).
      split; [cbn [Z.ltb andb app concat]; rewrite text_blocks; reflexivity|].
      split; [constructor; [exact written_1|]; apply written_blocks; constructor; [exact written_0|]; constructor; [exact written_1|constructor]|].
      split; [constructor; [unfold digit_of; lia|]; apply digits_blocks; repeat constructor; unfold digit_of; lia|].
      split; [discriminate|]. cbn [horner]. rewrite zeros_ones. change (0 <? -1) with false. cbv iota. lia.
  - assert (b = 1) as -> by lia. change (0 <? 1) with true. rewrite andb_true_r. change (1 =? 1) with true. cbv zeta.
    set (m := if x <? 0 then int_abs n else n).
    assert (Hm : stands_for m (Z.abs x)).
    { subst m. destruct (Z.ltb_spec x 0); [by apply abs_spec|]. eapply stands_eq; [exact Hn|lia]. }
    destruct (signs_spec m _ Hm) as (_ & _ & -> & _). cbv iota. destruct (Z.eqb_spec (Z.abs x) 0) as [Hx0|Hx0].
    { eexists. split; [reflexivity|]. apply zero_written. lia. }
    rewrite (number_small m _ Hm) by lia. rewrite nadd_small, array_join_ok by lia. cbn [option_map]. eexists. split; [reflexivity|].
    replace (Z.abs x + 1 - 1) with (Z.abs x) by lia.
    exists (replicate (Z.to_nat (Z.abs x)) 1), (replicate (Z.to_nat (Z.abs x)) [x31]). split; [reflexivity|].
    split; [induction (Z.to_nat (Z.abs x)); constructor; [exact written_1|done]|].
    split; [apply Forall_replicate; unfold digit_of; lia|]. split; [destruct (Z.to_nat (Z.abs x)) eqn:E; [lia|discriminate]|].
    rewrite ones. change (0 <? 1) with true. cbv iota. lia.
Qed.
Theorem to_base_any_zero n base x : stands_for n x -> stands_for base 0 ->
  to_base_any n base = Ok (if x =? 0 then Some (txt "0") else None).
Proof.
  intros Hn Hb. unfold to_base_any. destruct (signs_spec base 0 Hb) as (_ & _ & -> & _). destruct (signs_spec n x Hn) as (_ & _ & -> & _).
  reflexivity.
Qed.
Lemma to_base_any_gen (W : Z -> list byte -> Prop) n base x b : stands_for n x -> stands_for base b -> 2 <= Z.abs b ->
  (forall i d, stands_for i d -> 0 <= d < Z.abs b -> W d (stringify_any i)) ->
  exists t ds us, to_base_any n base = Ok (Some t) /\ t = (if (0 <? b) && (x <? 0) then txt "-" else []) ++ concat us
    /\ Forall2 W ds us /\ Forall (digit_of b) ds /\ ds <> [] /\ horner b 0 ds = (if 0 <? b then Z.abs x else x)
    /\ (hd_error ds = Some 0 -> ds = [0]).
Proof.
  intros Hn Hb Hb2 HW. unfold to_base_any.
  destruct (signs_spec base b Hb) as (Hbp & _ & Hbz & _). destruct (signs_spec n x Hn) as (_ & Hneg & _ & _).
  destruct (tests_spec base (mk_small (-1)) b (-1) Hb (mk_small_spec (-1) ltac:(lia))) as (Eq1 & _).
  destruct (tests_spec base (mk_small 1) b 1 Hb (mk_small_spec 1 ltac:(lia))) as (Eq2 & _).
  rewrite Hbz, Eq1, Eq2, Hneg, Hbp. destruct (Z.eqb_spec b 0) as [|_]; [lia|].
  destruct (Z.eqb_spec b (-1)) as [|_]; [lia|]. destruct (Z.eqb_spec b 1) as [|_]; [lia|]. cbv zeta. rewrite (andb_comm (x <? 0)).
  set (m := if (0 <? b) && (x <? 0) then int_abs n else n).
  assert (Hm : stands_for m (if 0 <? b then Z.abs x else x)).
  { subst m. destruct (0 <? b); cbn [andb]; [|exact Hn]. destruct (Z.ltb_spec x 0); [by apply abs_spec|]. eapply stands_eq; [exact Hn|lia]. }
  clearbody m. set (y := if 0 <? b then Z.abs x else x) in *. pose proof (text_fuel_spec m y 2 Hm ltac:(lia)) as Hf.
  destruct (to_base_any_loop_gen W base b Hb Hb2 HW (S (text_fuel m)) m y (S (2 * S (text_fuel m))) Hm) as (t & ds & us & E & -> & H1 & H2 & H3 & H4 & H5).
  { subst y. intros H. destruct (Z.ltb_spec 0 b); lia. }
  { exact Hf. }
  { destruct (y <? 0)%Z; lia. }
  rewrite E. cbn [rbind]. eexists _, ds, us. split; [reflexivity|]. done.
Qed.
Theorem to_string_any_spec n base x b : stands_for n x -> stands_for base b -> 2 <= Z.abs b < 2 ^ 53 ->
  exists t, to_string_any n base = Ok (Some t) /\ writes_any b x t /\ no_leading_zero b x t.
Proof.
  intros Hn Hb Hb2. unfold to_string_any.
  destruct (tests_spec base (mk_small 10) b 10 Hb (mk_small_spec 10 ltac:(lia))) as (-> & _).
  destruct (Z.eqb_spec b 10) as [->|_].
  { eexists. split; [reflexivity|]. apply writes_writes_any; [lia|]. by apply to_string_writes. }
  destruct (to_base_any_gen digit_written n base x b Hn Hb ltac:(lia)) as (t & ds & us & E & -> & H1 & H2 & H3 & H4 & H5).
  { intros i d Hi Hd. apply stringify_small; [exact Hi|lia]. }
  rewrite E. eexists. split; [reflexivity|]. split; [by exists ds, us|]. by apply no_leading_zero_written with ds.
Qed.
Lemma array_text_commas v : array_text v = with_commas (map num_text v).
Proof.
  induction v as [|d v IH]; [reflexivity|]. destruct v as [|e v]; [reflexivity|].
  cbn [array_text map with_commas] in *. by rewrite IH.
Qed.
Lemma stringify_shown i d : stands_for i d -> 0 <= d -> digit_shown d (stringify_any i).
Proof.
  intros Hi Hd. destruct (decide (d < 2 ^ 53)) as [Hs|Hs].
  { left. split; [exact Hs|]. apply stringify_small; [exact Hi|lia]. }
  right. split; [lia|]. destruct i as [v s|v s]; cbn [stringify_any].
  { apply small_elim in Hi as (-> & ? & _). lia. }
  apply big_elim in Hi as (H1 & H2 & H3 & -> & H4).
  destruct s; cbn [signed] in *; [lia|].
  exists v, (map num_text v). split.
  { destruct v as [|e [|e' v]]; [done| |by rewrite <- array_text_commas].
    exfalso. pose proof (long_of_big [e] H1 H2 ltac:(lia)) as Hl. cbn in Hl. lia. }
  split; [clear; induction v; constructor; [apply num_text_writes|done]|]. split; [exact H1|].
  split; [by apply canon_last|]. clear. induction v as [|e v IH]; [reflexivity|]. cbn [rev]. rewrite horner_snoc, IH.
  change (val (e :: v)) with (e + 10 ^ 7 * val v). lia.
Qed.
Theorem to_string_any_huge n base x b : stands_for n x -> stands_for base b -> 2 ^ 53 <= Z.abs b ->
  exists t, to_string_any n base = Ok (Some t) /\ shows_any b x t.
Proof.
  intros Hn Hb Hb2. unfold to_string_any.
  destruct (tests_spec base (mk_small 10) b 10 Hb (mk_small_spec 10 ltac:(lia))) as (-> & _).
  destruct (Z.eqb_spec b 10) as [->|_]; [vm_compute in Hb2; congruence|].
  destruct (to_base_any_gen digit_shown n base x b Hn Hb ltac:(lia)) as (t & ds & us & E & -> & H1 & H2 & H3 & H4 & H5).
  { intros i d Hi Hd. apply stringify_shown; [exact Hi|lia]. }
  rewrite E. eexists. split; [reflexivity|]. by exists ds, us.
Qed.
Lemma rnd_ge z : 2 ^ 53 <= z -> 2 ^ 53 <= rnd z.
Proof.
  intros H. destruct (decide (z = 2 ^ 53)) as [->|Hz]; [rewrite rnd_small; lia|]. unfold rnd.
  pose proof (f64_large (Z.abs_N z) ltac:(lia)) as Hf. lia.
Qed.
Lemma rnd_le z : z <= - 2 ^ 53 -> rnd z <= - 2 ^ 53.
Proof.
  intros H. destruct (decide (z = - 2 ^ 53)) as [->|Hz]; [rewrite rnd_small; lia|]. unfold rnd.
  pose proof (f64_large (Z.abs_N z) ltac:(lia)) as Hf. lia.
Qed.
Lemma rnd_big z : 2 ^ 32 <= z -> 2 ^ 32 <= rnd z.
Proof.
  intros H. destruct (decide (z <= 2 ^ 53)); [rewrite rnd_small; lia|]. pose proof (rnd_ge z ltac:(lia)).
  assert (2 ^ 32 <= 2 ^ 53) by (vm_compute; discriminate). lia.
Qed.
Lemma rnd_neg_big z : z <= - 2 ^ 32 -> rnd z <= - 2 ^ 32.
Proof.
  intros H. destruct (decide (- 2 ^ 53 <= z)); [rewrite rnd_small; lia|]. pose proof (rnd_le z ltac:(lia)).
  assert (2 ^ 32 <= 2 ^ 53) by (vm_compute; discriminate). lia.
Qed.
Lemma array_join_none n t : 2 ^ 32 <= n -> array_join n t = None.
Proof. intros H. unfold array_join. destruct (Z.leb_spec n (2 ^ 32 - 1)); [lia|]. by rewrite andb_false_r. Qed.
Theorem to_base_any_unary_none n base x b : stands_for n x -> stands_for base b -> Z.abs b = 1 ->
  ~ (Z.abs x <= 2 ^ 32 - 2 \/ (b = -1 /\ x = 2 ^ 32 - 1)) ->
  to_base_any n base = Ok None.
Proof.
  intros Hn Hb Hb1 Hx. unfold to_base_any.
  destruct (signs_spec base b Hb) as (Hbp & _ & Hbz & _). destruct (signs_spec n x Hn) as (_ & Hneg & Hz & _).
  destruct (tests_spec base (mk_small (-1)) b (-1) Hb (mk_small_spec (-1) ltac:(lia))) as (Eq1 & _).
  destruct (tests_spec base (mk_small 1) b 1 Hb (mk_small_spec 1 ltac:(lia))) as (Eq2 & _).
  rewrite Hbz, Eq1, Eq2, Hz, Hneg, Hbp. destruct (Z.eqb_spec b 0) as [|_]; [lia|]. destruct (Z.eqb_spec x 0) as [|_]; [lia|].
  rewrite (to_js_number_spec n x Hn).
  destruct (Z.eqb_spec b (-1)) as [->|Hb2].
  - destruct (Z.ltb_spec x 0).
    + assert (H1 : rnd x <= - (2 ^ 32 - 1)).
      { destruct (decide (x = - (2 ^ 32 - 1))) as [->|]; [rewrite rnd_small; lia|]. pose proof (rnd_neg_big x ltac:(lia)). lia. }
      pose proof (rnd_big (1 - rnd x) ltac:(lia)) as H2.
      rewrite array_join_none; [reflexivity|exact H2].
    + pose proof (rnd_big x ltac:(lia)) as H1. by rewrite array_join_none.
  - assert (b = 1) as -> by lia. change (0 <? 1) with true. rewrite andb_true_r. change (1 =? 1) with true. cbv zeta.
    set (m := if x <? 0 then int_abs n else n).
    assert (Hm : stands_for m (Z.abs x)).
    { subst m. destruct (Z.ltb_spec x 0); [by apply abs_spec|]. eapply stands_eq; [exact Hn|lia]. }
    destruct (signs_spec m _ Hm) as (_ & _ & -> & _). cbv iota. destruct (Z.eqb_spec (Z.abs x) 0) as [Hx0|Hx0]; [lia|].
    rewrite (to_js_number_spec m _ Hm).
    assert (H1 : 2 ^ 32 - 1 <= rnd (Z.abs x)).
    { destruct (decide (Z.abs x = 2 ^ 32 - 1)) as [->|]; [rewrite rnd_small; lia|]. pose proof (rnd_big (Z.abs x) ltac:(lia)). lia. }
    pose proof (rnd_big (rnd (Z.abs x) + 1) ltac:(lia)) as H2. rewrite array_join_none; [reflexivity|exact H2].
Qed.

(** ** Reading *)

Lemma split_gt_spec t r : Forall (fun c => Byte.eqb c x3e = false) t -> split_gt (t ++ x3e :: r) = Some (t, r).
Proof. induction 1 as [|c t Hc _ IH]; cbn [split_gt app]; [reflexivity|]. by rewrite Hc, IH. Qed.
Lemma dec_no_gt t : Forall dec t -> Forall (fun c => Byte.eqb c x3e = false) t.
Proof.
  intros H. eapply Forall_impl; [exact H|]. intros c (d & E & _). destruct c; vm_compute in E; try discriminate E; reflexivity.
Qed.
Lemma char_lower c d : char_value c = Some d -> base_digit (lower_case c) = Some d.
Proof. destruct c; vm_compute; intros H; exact H || discriminate H. Qed.
Lemma base_digits_any_spec number ds us : reads_numbers number -> Forall2 digit_written ds us ->
  Z.of_nat (length (concat us)) < 2 ^ 52 -> forall fuel, (fuel >= length (concat us))%nat ->
  exists l, base_digits_any number fuel (concat us) = Some l /\ Forall2 stands_for l ds.
Proof.
  intros Hnum H. induction H as [|d u ds us Hd _ IH]; intros Hl fuel Hf.
  { exists []. cbn [concat]. destruct fuel; split; (reflexivity || constructor). }
  cbn [concat] in *. rewrite app_length in Hl, Hf. destruct Hd as [(Hd & c & -> & Hc)|(Hd & t & -> & Hw)].
  - cbn [length] in Hf, Hl. destruct fuel as [|fuel]; [lia|]. destruct (IH ltac:(lia) fuel ltac:(lia)) as (l & E & Hll).
    exists (mk_small d :: l). cbn [app base_digits_any]. rewrite (char_lower c d Hc), E. split; [reflexivity|].
    constructor; [apply mk_small_spec; lia|exact Hll].
  - destruct Hw as (s & -> & Hne & Hv & _). destruct (Z.ltb_spec d 0); [lia|]. cbn [app] in *.
    rewrite Z.abs_eq in Hv by lia.
    change (txt "<" ++ s ++ txt ">") with (x3c :: (s ++ [x3e])) in *. cbn [length] in Hf, Hl. rewrite app_length in Hf, Hl. cbn [length] in Hf, Hl.
    destruct fuel as [|fuel]; [lia|]. destruct (IH ltac:(lia) fuel ltac:(lia)) as (l & E & Hll).
    destruct (parse_string_value_spec number (plain false s) 0 d Hnum) as (i & Ei & Hi).
    { pose proof (plain_denotes false s d Hne Hv) as Hp. by rewrite Z.mul_1_l in Hp. }
    { unfold short_text. rewrite plain_text. cbn [app]. lia. }
    { lia. }
    rewrite plain_text in Ei. cbn [app] in Ei.
    exists (i :: l). split; [|by constructor]. cbn [app base_digits_any]. change (base_digit (lower_case x3c)) with (@None Z).
    change (Byte.eqb x3c x3c) with true. cbv iota. rewrite <- app_assoc. cbn [app].
    rewrite split_gt_spec; [|apply dec_no_gt; by apply value_dec in Hv]. by rewrite Ei, E.
Qed.
Lemma chars_valid_any b ds us : Forall2 digit_written ds us -> Forall (digit_of b) ds -> b <> 0 ->
  forall a, (a = Z.abs b \/ 2 ^ 53 <= a) -> base_chars_valid_any (concat us) a = true.
Proof.
  intros H Hf Hb0 a Ha. revert Hf. unfold base_chars_valid_any. induction H as [|d u ds us Hd _ IH]; intros Hf; [reflexivity|].
  apply Forall_cons in Hf as [Hd2 Hf]. cbn [concat]. rewrite forallb_app. apply andb_true_iff. split; [|by apply IH].
  destruct Hd as [(Hd & c & -> & Hc)|(Hd & t & -> & Hw)].
  - cbn [forallb]. rewrite andb_true_r, (char_lower c d Hc). unfold digit_of in Hd2. destruct (Z.leb_spec a d) as [L|L]; [|reflexivity].
    assert (a = 1 /\ d = 1) as [-> ->] by (destruct Ha; lia). cbn [negb orb].
    destruct c; vm_compute in Hc; try discriminate Hc; reflexivity.
  - destruct Hw as (s & -> & _ & Hv & _). destruct (Z.ltb_spec d 0); [lia|]. cbn [app].
    change (txt "<" ++ s ++ txt ">") with (x3c :: (s ++ [x3e])). cbn [forallb]. rewrite forallb_app. cbn [forallb].
    change (base_digit (lower_case x3c)) with (@None Z). change (base_digit (lower_case x3e)) with (@None Z). cbn [andb].
    rewrite andb_true_r. apply forallb_forall. intros c Hin. apply value_dec in Hv. rewrite List.Forall_forall in Hv.
    destruct (Hv c Hin) as (e & Ec & He). rewrite (char_lower c e Ec). unfold digit_of in Hd2.
    destruct (Z.leb_spec a e); [|reflexivity]. lia.
Qed.
Lemma base_chars_same t r : 2 <= r -> base_chars_valid_any t r = base_chars_valid t r.
Proof.
  intros Hr. unfold base_chars_valid_any, base_chars_valid. induction t as [|c t IH]; cbn [forallb]; [reflexivity|]. rewrite IH. f_equal.
  destruct (base_digit (lower_case c)); [|reflexivity]. destruct (Z.eqb_spec r 1); [lia|]. by rewrite andb_false_r, orb_false_r.
Qed.
Theorem parse_base_any_spec uk number short t base b x : reads_numbers number -> stands_for base b -> b <> 0 ->
  (forall r, 2 <= r <= 36 -> short_enough r (short r)) -> writes_any b x t -> Z.of_nat (length t) < 2 ^ 52 ->
  exists i, parse_base_any uk number short t base = Ok (Some i) /\ stands_for i x.
Proof.
  intros Hnum Hb Hb0 Hs (ds & us & -> & H1 & H2 & H3 & H4) Hl. set (minus := (0 <? b) && (x <? 0)) in *.
  assert (Hx : x = if minus then - horner b 0 ds else horner b 0 ds).
  { rewrite H4. subst minus. destruct (0 <? b), (Z.ltb_spec x 0); cbn [andb]; lia. }
  unfold parse_base_any. rewrite (to_js_number_spec base b Hb).
  assert (Hr : rnd b = b /\ Z.abs b < 2 ^ 53 \/ 2 ^ 53 <= Z.abs (rnd b) /\ 2 ^ 53 <= Z.abs b).
  { destruct (decide (Z.abs b < 2 ^ 53)); [left; split; [apply rnd_small; lia|done]|]. right. split; [|lia].
    destruct (decide (0 < b)); [pose proof (rnd_ge b ltac:(lia))|pose proof (rnd_le b ltac:(lia))]; lia. }
  assert (Hu : exists c r, concat us = c :: r /\ Byte.eqb c x2d = false).
  { destruct H1 as [|d u ds us Hd _]; [done|]. destruct (digit_first d u Hd) as (c & r & -> & Hc & _). by exists c, (r ++ concat us). }
  assert (Hdigits : rnd b <= 36 -> 0 < rnd b -> Forall (fun d => 0 <= d < Z.max 2 b) ds /\ rnd b = b).
  { intros R1 R2. assert (2 ^ 53 > 36) by (vm_compute; reflexivity). destruct Hr as [[R3 R4]|[R3 R4]]; [|lia]. split; [|exact R3].
    eapply Forall_impl; [exact H2|]. unfold digit_of. intros d Hd. lia. }
  destruct (Z.eqb_spec (rnd b) 10) as [E10|E10].
  { destruct (Hdigits ltac:(lia) ltac:(lia)) as [Hd Eb]. rewrite E10 in Eb. subst b.
    destruct Hu as (c & r & Hu & _).
    destruct (parse_string_value_spec number (plain minus (concat us)) 0 x Hnum) as (i & Ei & Hi).
    { pose proof (plain_denotes minus (concat us) _ ltac:(by rewrite Hu) (written_text 10 ltac:(lia) ds us 0 H1 Hd)) as Hp.
      rewrite Hx. destruct minus; rewrite ?Z.mul_1_l in Hp; [|exact Hp].
      replace (- horner 10 0 ds) with (-1 * horner 10 0 ds) by lia. exact Hp. }
    { unfold short_text. by rewrite plain_text. }
    { lia. }
    rewrite plain_text in Ei. rewrite Ei. by exists i. }
  assert (Hvalid : base_chars_valid_any ((if minus then txt "-" else []) ++ concat us) (Z.abs (rnd b)) = true).
  { unfold base_chars_valid_any. rewrite forallb_app. apply andb_true_iff. split; [by destruct minus|].
    apply (chars_valid_any b ds us H1 H2 Hb0). destruct Hr as [[-> _]|[? _]]; [by left|by right]. }
  rewrite Hvalid. cbn [negb].
  destruct ((2 <=? rnd b) && (rnd b <=? 36) && short (rnd b) (length ((if minus then txt "-" else []) ++ concat us))) eqn:Esh.
  - apply andb_true_iff in Esh as [Esh Esh3]. apply andb_true_iff in Esh as [Esh1 Esh2].
    apply Z.leb_le in Esh1, Esh2. destruct (Hdigits ltac:(lia) ltac:(lia)) as [Hd Eb]. rewrite Eb in *.
    replace (Z.max 2 b) with b in Hd by lia.
    pose proof (written_text b ltac:(lia) ds us 0 H1 Hd) as Hv. apply text_value_lower in Hv as Hv'.
    destruct Hu as (c & r & Hu & _).
    destruct (parse_base_spec uk (short b) b (concat us) (horner b 0 ds) minus ltac:(lia) (Hs b ltac:(lia)) ltac:(by rewrite Hu) ltac:(by rewrite Hv'))
      as (i & Ei & Hi).
    unfold parse_base in Ei. destruct (Z.eqb_spec b 10); [contradiction|]. rewrite <- base_chars_same in Ei by lia.
    rewrite Z.abs_eq in Hvalid by lia. rewrite Hvalid, Esh3 in Ei. cbn [negb] in Ei. exists i. split; [exact Ei|]. rewrite Hx. exact Hi.
  - assert (Hsign : match (if minus then txt "-" else []) ++ concat us with b :: _ => Byte.eqb b x2d | [] => false end = minus).
    { destruct minus; [reflexivity|]. destruct Hu as (c & r & -> & Hc). exact Hc. }
    rewrite Hsign. cbv zeta.
    assert (Hbody : (if minus then drop 1 ((if minus then txt "-" else []) ++ concat us) else (if minus then txt "-" else []) ++ concat us) = concat us)
      by by destruct minus.
    rewrite Hbody. rewrite app_length in Hl |- *.
    destruct (base_digits_any_spec number ds us Hnum H1 ltac:(lia) (length (if minus then txt "-" else []) + length (concat us)) ltac:(lia))
      as (l & -> & Hll).
    destruct (parse_base_from_array_spec uk l ds base b minus Hll Hb) as (i & -> & Hi). exists i. split; [reflexivity|]. by rewrite Hx.
Qed.

(** For radixes from 2 to 36 and texts without [<], this is the reading of [parse_base]. *)
Lemma base_digits_same number t : ~ In x3c t -> forall fuel, (fuel >= length t)%nat -> base_digits_any number fuel t = base_digits t.
Proof.
  induction t as [|c t IH]; intros Hin fuel Hf; cbn [length] in Hf; [by destruct fuel|].
  destruct fuel as [|fuel]; [lia|]. cbn [base_digits_any base_digits]. cbn [In] in Hin. rewrite IH by (tauto || lia).
  destruct (base_digit (lower_case c)); [by destruct (base_digits t)|].
  destruct (Byte.eqb c x3c) eqn:E; [|reflexivity]. apply Byte.byte_dec_bl in E. tauto.
Qed.
Lemma parse_base_any_same uk number short t r : 2 <= r <= 36 -> r <> 10 -> ~ In x3c t ->
  parse_base_any uk number short t (mk_small r) = parse_base uk (short r) t r.
Proof.
  intros Hr H10 Hin. unfold parse_base_any, parse_base. change (to_js_number (mk_small r)) with r.
  destruct (Z.eqb_spec r 10); [contradiction|]. rewrite Z.abs_eq, base_chars_same by lia.
  destruct (Z.leb_spec 2 r); [|lia]. destruct (Z.leb_spec r 36); [|lia]. cbn [andb].
  destruct (negb (base_chars_valid t r)); [reflexivity|]. destruct (short r (length t)); [reflexivity|]. cbv zeta.
  set (s := match t with b :: _ => Byte.eqb b x2d | [] => false end). rewrite base_digits_same; [reflexivity| |].
  - destruct s; [|exact Hin]. intros Hi. apply Hin. rewrite <- (take_drop 1 t). apply in_or_app. by right.
  - destruct s; [rewrite drop_length; lia|lia].
Qed.
