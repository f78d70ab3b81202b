(** * BigIntInvProofs: [modInv] with moduli of either sign *)

From Verif Require Export SpecBigIntInv BigIntMoreProofs.
Local Open Scope Z_scope.

Lemma divisions_fun a b n m : divisions a b n -> divisions a b m -> n = m.
Proof.
  intros H. revert m. induction H as [a|a b n Hb H IH]; intros m Hm; inversion Hm; subst; try congruence.
  f_equal. by apply IH.
Qed.

Section Inverses.
  Context (uk : nat -> nat -> bool).

  Lemma mod_inv_loop_any X M fuel : forall ti nti ri nri t nt r nr k,
    stands_for ti t -> stands_for nti nt -> stands_for ri r -> stands_for nri nr ->
    (M | t * X - r) -> (M | nt * X - nr) ->
    0 <= k -> (Z.abs nr < 2 ^ k /\ 2 * k <= Z.of_nat fuel) \/ (Z.abs nr < Z.abs r < 2 ^ k /\ 2 * k <= Z.of_nat fuel + 1) ->
    exists oi ri' o n, mod_inv_loop uk fuel ti nti ri nri = Ok (oi, ri') /\ divisions (Z.abs r) (Z.abs nr) n
      /\ stands_for oi o
      /\ stands_for ri' (Z.sgn (if Nat.even n then r else nr) * Z.gcd r nr)
      /\ (M | o * X - Z.sgn (if Nat.even n then r else nr) * Z.gcd r nr).
  Proof.
    induction fuel as [|fuel IH]; intros ti nti ri nri t nt r nr k Ht Hnt Hr Hnr D1 D2 Hk Hfuel;
      cbn [mod_inv_loop]; destruct (tests_spec nri (mk_small 0) nr 0 Hnr zero_spec) as (-> & _);
      destruct (Z.eqb_spec nr 0) as [->|Hnr0].
    1,3: exists ti, ri, t, O; split; [reflexivity|]; split; [constructor|]; cbn [Nat.even];
         rewrite Z.gcd_0_r, Z.mul_comm, Z.abs_sgn; done.
    - exfalso. change (Z.of_nat 0) with 0 in Hfuel. assert (k = 0) as -> by lia. change (2 ^ 0) with 1 in Hfuel. lia.
    - destruct (int_divide_spec ri nri r nr Hr Hnr Hnr0) as (qi & -> & Hq). cbn [rbind].
      set (q := Z.quot r nr) in *.
      destruct (multiply_spec uk qi nti q nt Hq Hnt) as (pi & -> & Hp). cbn [rbind].
      destruct (multiply_spec uk qi nri q nr Hq Hnr) as (si & -> & Hsi). cbn [rbind].
      pose proof (subtract_spec ti pi _ _ Ht Hp) as Ht'. pose proof (subtract_spec ri si _ _ Hr Hsi) as Hr'.
      assert (Hrem : r - q * nr = Z.rem r nr) by (pose proof (Z.quot_rem r nr Hnr0) as E; fold q in E; lia).
      rewrite Hrem in Hr'.
      assert (Habs : Z.abs (Z.rem r nr) = Z.abs r mod Z.abs nr).
      { rewrite <-Z.rem_abs by exact Hnr0. apply Z.rem_mod_nonneg; lia. }
      assert (Hb : 0 <= Z.abs (Z.rem r nr) < Z.abs nr) by (rewrite Habs; apply Z.mod_pos_bound; lia).
      assert (exists k', 0 <= k' /\ ((Z.abs (Z.rem r nr) < 2 ^ k' /\ 2 * k' <= Z.of_nat fuel)
                                     \/ (Z.abs (Z.rem r nr) < Z.abs nr < 2 ^ k' /\ 2 * k' <= Z.of_nat fuel + 1)))
        as (k' & Hk' & Hfuel').
      { destruct Hfuel as [[F1 F2]|[F1 F2]].
        - exists k. split; [exact Hk|]. right. lia.
        - assert (Hk1 : k <> 0) by (intros ->; change (2 ^ 0) with 1 in F1; lia).
          exists (k - 1). split; [lia|]. left. replace k with (Z.succ (k - 1)) in F1 by lia. rewrite Z.pow_succ_r in F1 by lia.
          split; [|lia]. rewrite Habs in *.
          pose proof (Z.div_mod (Z.abs r) (Z.abs nr) ltac:(lia)) as Hdm.
          assert (1 <= Z.abs r / Z.abs nr) by (apply Z.div_le_lower_bound; lia).
          assert (Z.abs nr * 1 <= Z.abs nr * (Z.abs r / Z.abs nr)) by (apply Z.mul_le_mono_nonneg_l; lia). lia. }
      assert (D3 : (M | (t - q * nt) * X - Z.rem r nr)).
      { rewrite <-Hrem. replace ((t - q * nt) * X - (r - q * nr)) with ((t * X - r) - q * (nt * X - nr)) by ring.
        apply Z.divide_sub_r; [exact D1|]. by apply Z.divide_mul_r. }
      destruct (IH nti (subtract ti pi) nri (subtract ri si) nt (t - q * nt) nr (Z.rem r nr) k')
        as (oi & ri' & o & n & E & Hd & Ho & Hri & D); try assumption.
      exists oi, ri', o, (S n). rewrite E. split; [reflexivity|]. rewrite Habs in Hd. split; [constructor; [lia|exact Hd]|].
      split; [exact Ho|].
      assert (Z.sgn (if Nat.even n then nr else Z.rem r nr) * Z.gcd nr (Z.rem r nr)
              = Z.sgn (if Nat.even (S n) then r else nr) * Z.gcd r nr) as <-; [|split; assumption].
      f_equal.
      + rewrite Nat.even_succ, <-Nat.negb_even. destruct (Nat.even n) eqn:En; [reflexivity|]. cbn [negb].
        assert (Hz : Z.rem r nr <> 0).
        { intros Hz. rewrite <-Habs, Hz in Hd. change (Z.abs 0) with 0 in Hd. inversion Hd; subst; [discriminate En|congruence]. }
        pose proof (Z.rem_sign_mul r nr Hnr0). pose proof (Z.rem_sign_nz r nr Hnr0 Hz). lia.
      + rewrite <-Hrem, Z.gcd_comm. rewrite (Z.gcd_comm r).
        replace (r - q * nr) with (r + (- q) * nr) by ring. rewrite Z.gcd_comm, Z.gcd_add_mult_diag_r. reflexivity.
  Qed.

  Lemma int_mod_inv_any xi mi x m : stands_for xi x -> stands_for mi m ->
    exists n, divisions (Z.abs m) (Z.abs x) n
      /\ ((Z.gcd x m = 1 /\ (m < 0 -> Nat.odd n = true) ->
           exists i v, int_mod_inv uk xi mi = Ok (Some i) /\ stands_for i v /\ (m | x * v - 1))
          /\ (~ (Z.gcd x m = 1 /\ (m < 0 -> Nat.odd n = true)) -> int_mod_inv uk xi mi = Ok None)).
  Proof.
    intros Hx Hm. unfold int_mod_inv. pose proof (abs_spec xi x Hx) as Ha.
    destruct (mod_inv_loop_any (Z.abs x) m (2 * S (text_fuel xi)) (mk_small 0) (mk_small 1) mi (int_abs xi) 0 1 m (Z.abs x)
                (Z.of_nat (S (text_fuel xi)))) as (oi & ri & o & n & -> & Hd & Ho & Hr & D); try lia.
    { exact zero_spec. } { exact one_spec. } { exact Hm. } { exact Ha. }
    { exists (-1). lia. } { exists 0. lia. }
    { left. split; [rewrite Z.abs_involutive; by apply bits_spec|]. lia. }
    rewrite Z.abs_involutive in Hd. exists n. split; [exact Hd|].
    rewrite Z.gcd_abs_r, (Z.gcd_comm m) in Hr, D.
    cbn [rbind]. destruct (tests_spec ri (mk_small 1) _ 1 Hr one_spec) as (-> & _).
    set (s := Z.sgn (if Nat.even n then m else Z.abs x)) in *.
    assert (Hiff : s * Z.gcd x m = 1 <-> Z.gcd x m = 1 /\ (m < 0 -> Nat.odd n = true)).
    { assert (Hs : Z.gcd x m = 1 -> (s = 1 <-> (m < 0 -> Nat.odd n = true))).
      { intros Hg. unfold s. rewrite <-Nat.negb_even. destruct (Nat.even n) eqn:En; cbn [negb].
        - destruct (Z.sgn_spec m) as [[H ->]|[[H ->]|[H ->]]]; split; try lia; try discriminate.
          + intros _. exfalso. subst m. rewrite Z.gcd_0_r in Hg.
            inversion Hd as [a E1 E2 E3|a b n' Hb Hd' E1 E2 E3]; subst; [lia|].
            change (Z.abs 0) with 0 in Hd'. rewrite Z.mod_0_l in Hd' by lia. inversion Hd'; subst; [discriminate En|lia].
        - split; [reflexivity|]. intros _. assert (Z.abs x <> 0); [|lia]. intros Hz. rewrite Hz in Hd. inversion Hd; subst; [discriminate En|lia]. }
      assert (0 <= Z.gcd x m) by apply Z.gcd_nonneg.
      split.
      - intros E. assert (Z.gcd x m = 1).
        { unfold s in E. destruct (Z.sgn_spec (if Nat.even n then m else Z.abs x)) as [[_ E1]|[[_ E1]|[_ E1]]]; rewrite E1 in E; lia. }
        split; [assumption|]. apply Hs; [assumption|]. rewrite H0 in E. lia.
      - intros [E1 E2]. apply (Hs E1) in E2. rewrite E1, E2. reflexivity. }
    split; intros Hc; rewrite <-Hiff in Hc.
    - rewrite Hc in *. change (1 =? 1) with true. cbn [negb]. rewrite (int_compare_spec oi (mk_small 0) o 0 Ho zero_spec).
      destruct (signs_spec xi x Hx) as (_ & -> & _ & _).
      set (v := if o <? 0 then o + m else o).
      assert (Hv : stands_for (if comparison_number (o ?= 0) =? -1 then add oi mi else oi) v).
      { unfold v, Z.ltb. destruct (o ?= 0) eqn:E; cbn [comparison_number]; cbv [Z.eqb Pos.eqb]; try exact Ho. by apply add_spec. }
      assert (Dv : (m | v * Z.abs x - 1)).
      { unfold v. destruct (o <? 0); [|exact D]. replace ((o + m) * Z.abs x - 1) with (o * Z.abs x - 1 + m * Z.abs x) by ring.
        apply Z.divide_add_r; [exact D|]. apply Z.divide_factor_l. }
      exists (if x <? 0 then negate (if comparison_number (o ?= 0) =? -1 then add oi mi else oi)
              else (if comparison_number (o ?= 0) =? -1 then add oi mi else oi)), (if x <? 0 then - v else v).
      split; [reflexivity|]. split; [destruct (x <? 0); [by apply negate_spec|exact Hv]|].
      destruct (Z.ltb_spec x 0) as [H|H].
      + replace (x * - v - 1) with (v * Z.abs x - 1) by (rewrite Z.abs_neq by lia; ring); exact Dv.
      + replace (x * v - 1) with (v * Z.abs x - 1) by (rewrite Z.abs_eq by lia; ring); exact Dv.
    - destruct (Z.eqb_spec (s * Z.gcd x m) 1); [contradiction|]. reflexivity.
  Qed.
End Inverses.
