(** * BigIntBase: texts in other radixes *)

From Verif Require Export BigIntGcd.
Local Open Scope Z_scope.

Lemma base_digit_char b : base_digit b = char_value b.
Proof. reflexivity. Qed.
Lemma lower_case_char b d : char_value b = Some d -> lower_case b = b.
Proof. destruct b; vm_compute; try reflexivity; discriminate. Qed.
Lemma lower_case_decimal b d : char_value (lower_case b) = Some d -> d < 10 -> lower_case b = b.
Proof. destruct b; vm_compute; try reflexivity; try discriminate; intros [= <-] H; exfalso; discriminate H. Qed.

Lemma text_value_lower r ds : forall acc n, text_value r acc ds = Some n -> map lower_case ds = ds.
Proof.
  induction ds as [|b ds IH]; intros acc n; cbn [text_value map]; [reflexivity|].
  destruct (char_value b) as [d|] eqn:E; [|discriminate]. destruct (d <? r); [|discriminate]. intros H.
  rewrite (lower_case_char b d E), (IH _ _ H). reflexivity.
Qed.
Lemma text_value_decimal ds : forall acc n, text_value 10 acc (map lower_case ds) = Some n -> map lower_case ds = ds.
Proof.
  induction ds as [|b ds IH]; intros acc n; cbn [text_value map]; [reflexivity|].
  destruct (char_value (lower_case b)) as [d|] eqn:E; [|discriminate]. destruct (Z.ltb_spec d 10) as [L|L]; [|discriminate]. intros H.
  rewrite (lower_case_decimal b d E L), (IH _ _ H). reflexivity.
Qed.
Lemma text_value_chars r ds : forall acc n, text_value r acc (map lower_case ds) = Some n -> base_chars_valid ds r = true.
Proof.
  induction ds as [|b ds IH]; intros acc n; cbn [text_value map base_chars_valid forallb]; [reflexivity|].
  change base_digit with char_value. destruct (char_value (lower_case b)) as [d|] eqn:E; [|discriminate].
  destruct (Z.ltb_spec d r) as [L|L]; [|discriminate]. intros H. apply andb_true_iff. split; [|exact (IH _ _ H)].
  destruct (Z.leb_spec r d); [lia|reflexivity].
Qed.
Lemma parse_int_digits_spec r ds : forall acc n found, text_value r acc (map lower_case ds) = Some n -> (ds <> [] \/ found = true) ->
  parse_int_digits ds r found acc = Some n.
Proof.
  induction ds as [|b ds IH]; intros acc n found; cbn [text_value map parse_int_digits].
  - intros [= <-] [H| ->]; [contradiction|reflexivity].
  - change base_digit with char_value. destruct (char_value (lower_case b)) as [d|] eqn:E; [|discriminate].
    destruct (d <? r); [|discriminate]. intros H _. apply IH; [exact H|by right].
Qed.
Lemma no_sign_first b d : char_value (lower_case b) = Some d -> Byte.eqb b x2d = false /\ Byte.eqb b x2b = false.
Proof. destruct b; vm_compute; intros H; try discriminate H; split; reflexivity. Qed.

Lemma from_digits_spec uk r ds : 2 <= r <= 36 -> forall n, text_value r 0 (map lower_case ds) = Some n ->
  exists l v p, base_digits ds = Some l /\ from_digits_loop uk l (mk_small r) = Ok (v, p) /\ stands_for v n
    /\ stands_for p (r ^ Z.of_nat (length ds)).
Proof.
  intros Hr. induction ds as [|b ds IH]; intros n; cbn [text_value map base_digits].
  - intros [= <-]. exists [], (mk_small 0), (mk_small 1). split; [reflexivity|]. split; [reflexivity|].
    split; [exact zero_spec|exact one_spec].
  - change base_digit with char_value. destruct (char_value (lower_case b)) as [d|] eqn:E; [|discriminate].
    destruct (Z.ltb_spec d r) as [L|L]; [|discriminate]. intros H. pose proof (char_value_nonneg _ _ E) as Hd.
    apply text_value_acc in H as (w & Hw & Hn & _); [|lia|lia]. rewrite map_length in Hn.
    destruct (IH w Hw) as (l & v & p & -> & E2 & Hv & Hp).
    assert (Hds : stands_for (mk_small d) d) by (apply mk_small_spec; lia).
    assert (Hrs : stands_for (mk_small r) r) by (apply mk_small_spec; lia).
    destruct (multiply_spec uk _ p _ _ Hds Hp) as (dp & E3 & Hdp). destruct (multiply_spec uk p _ _ _ Hp Hrs) as (p' & E4 & Hp').
    exists (mk_small d :: l), (add v dp), p'. split; [reflexivity|]. cbn [from_digits_loop]. rewrite E2. cbn [rbind]. rewrite E3. cbn [rbind].
    rewrite E4. cbn [rbind]. split; [reflexivity|]. split.
    + eapply stands_eq; [apply add_spec; [exact Hv|exact Hdp]|]. lia.
    + eapply stands_eq; [exact Hp'|]. cbn [length]. rewrite Nat2Z.inj_succ, Z.pow_succ_r by lia. ring.
Qed.

Theorem parse_base_spec uk short r ds n (s : bool) : 2 <= r <= 36 -> (forall k, short k = true -> r ^ Z.of_nat k <= 2 ^ 53) ->
  ds <> [] -> text_value r 0 (map lower_case ds) = Some n ->
  exists i, parse_base uk short ((if s then txt "-" else []) ++ ds) r = Ok (Some i) /\ stands_for i (if s then - n else n).
Proof.
  intros Hr Hs Hne Hn. unfold parse_base. destruct (Z.eqb_spec r 10) as [->|Hr10].
  { pose proof (text_value_decimal _ _ _ Hn) as El. rewrite El in Hn.
    destruct (parse_string_spec ds n s Hne Hn) as (i & E & Hi). exists i. rewrite E. split; [reflexivity|exact Hi]. }
  assert (Hc : base_chars_valid ((if s then txt "-" else []) ++ ds) r = true).
  { unfold base_chars_valid. rewrite forallb_app. apply andb_true_iff. split; [by destruct s|exact (text_value_chars _ _ _ _ Hn)]. }
  rewrite Hc. cbn [negb].
  assert (Hb : exists b ds', ds = b :: ds' /\ Byte.eqb b x2d = false /\ Byte.eqb b x2b = false).
  { destruct ds as [|b ds']; [contradiction|]. exists b, ds'. split; [reflexivity|]. cbn [map text_value] in Hn.
    destruct (char_value (lower_case b)) as [d|] eqn:E; [|discriminate]. exact (no_sign_first b d E). }
  destruct (short (length ((if s then txt "-" else []) ++ ds))) eqn:Es.
  - apply Hs in Es. apply text_value_acc in Hn as Hn'; [|lia|lia]. destruct Hn' as (w & Hw & Ew & Hb2). rewrite map_length in Hb2.
    assert (Hlt : n < 2 ^ 53).
    { assert (r ^ Z.of_nat (length ds) <= r ^ Z.of_nat (length ((if s then txt "-" else []) ++ ds))).
      { apply Z.pow_le_mono_r; [lia|]. rewrite app_length. lia. } lia. }
    pose proof (parse_int_digits_spec r ds 0 n false Hn (or_introl Hne)) as Hp.
    exists (mk_small (if s then - n else n)). split; [|apply mk_small_spec; destruct s; lia].
    f_equal. destruct s; cbn [app].
    + change (txt "-" ++ ds) with (x2d :: ds). cbn [parse_int]. change (Byte.eqb x2d x2d) with true. cbn iota. rewrite Hp. reflexivity.
    + destruct Hb as (b & ds' & -> & H1 & H2). cbn [parse_int]. rewrite H1, H2, Hp. reflexivity.
  - destruct (from_digits_spec uk r ds Hr n Hn) as (l & v & p & E1 & E2 & Hv & _).
    assert (Hbase : parse_base_from_array uk l (mk_small r) s = Ok (if s then negate v else v)).
    { unfold parse_base_from_array. rewrite E2. by destruct s. }
    exists (if s then negate v else v). split; [|destruct s; [by apply negate_spec|exact Hv]]. destruct s; cbn [app].
    + change (txt "-" ++ ds) with (x2d :: ds). change (match base_digits ds with Some digits => rmap Some (parse_base_from_array uk digits (mk_small r) true) | None => Ok None end = Ok (Some (negate v))). rewrite E1, Hbase. reflexivity.
    + destruct Hb as (b & ds' & -> & H1 & H2). rewrite H1, E1, Hbase. reflexivity.
Qed.

Theorem parse_base_refuses uk short r t b d : 2 <= r <= 36 -> r <> 10 -> In b t -> char_value (lower_case b) = Some d -> r <= d ->
  parse_base uk short t r = Ok None.
Proof.
  intros Hr H10 Hin Hd Hle. unfold parse_base. destruct (Z.eqb_spec r 10) as [|_]; [contradiction|].
  destruct (base_chars_valid t r) eqn:E; [|reflexivity]. unfold base_chars_valid in E. rewrite forallb_forall in E.
  specialize (E b Hin). change base_digit with char_value in E. rewrite Hd in E. destruct (Z.leb_spec r d); [discriminate|lia].
Qed.

(** What is read otherwise: longer texts are read only if they are numerals. *)
Lemma base_digits_value r t : forall l, base_chars_valid t r = true -> base_digits t = Some l ->
  forall acc, exists n, text_value r acc (map lower_case t) = Some n.
Proof.
  induction t as [|b t IH]; intros l Hc Hl acc; [by eexists|]. cbn [base_digits] in Hl. cbn [base_chars_valid forallb] in Hc.
  apply andb_true_iff in Hc as [Hc1 Hc2]. cbn [map text_value]. change base_digit with char_value in *.
  destruct (char_value (lower_case b)) as [d|]; [|discriminate]. destruct (Z.leb_spec r d); [discriminate|].
  destruct (Z.ltb_spec d r); [|lia]. destruct (base_digits t) as [l'|]; [|discriminate]. by apply (IH l').
Qed.
Theorem parse_base_long uk short r t i : 2 <= r <= 36 -> r <> 10 -> short (length t) = false ->
  parse_base uk short t r = Ok (Some i) ->
  exists (s : bool) ds n, t = (if s then txt "-" else []) ++ ds /\ text_value r 0 (map lower_case ds) = Some n
    /\ stands_for i (if s then - n else n).
Proof.
  intros Hr H10 Hs. unfold parse_base. destruct (Z.eqb_spec r 10) as [|_]; [contradiction|]. rewrite Hs.
  destruct (base_chars_valid t r) eqn:Hc; [|discriminate]. cbn [negb].
  set (s := match t with b :: _ => Byte.eqb b x2d | [] => false end). set (ds := if s then drop 1 t else t).
  destruct (base_digits ds) as [l|] eqn:E; [|discriminate]. intros H.
  assert (Ht : t = (if s then txt "-" else []) ++ ds).
  { unfold ds. destruct s eqn:Es; [|reflexivity]. unfold s in Es. destruct t as [|b t]; [discriminate|].
    apply Byte.byte_dec_bl in Es. subst b. reflexivity. }
  assert (Hcd : base_chars_valid ds r = true).
  { rewrite Ht in Hc. unfold base_chars_valid in Hc |- *. rewrite forallb_app in Hc. by apply andb_true_iff in Hc as [_ Hc]. }
  destruct (base_digits_value r ds l Hcd E 0) as (n & Hn). destruct (from_digits_spec uk r ds Hr n Hn) as (l' & v & p & E1 & E2 & Hv & _).
  rewrite E in E1. injection E1 as <-. exists s, ds, n. split; [exact Ht|]. split; [exact Hn|].
  unfold parse_base_from_array in H. rewrite E2 in H. cbn in H. injection H as <-. destruct s; [by apply negate_spec|exact Hv].
Qed.
