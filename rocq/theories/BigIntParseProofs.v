(** * BigIntParseProofs: reading integers from texts, numbers and lists of digits *)

From Verif Require Export BigIntBase SpecBigIntParse.
Local Open Scope Z_scope.

(** ** Decimal digits *)

Definition dec (b : byte) : Prop := exists d, char_value b = Some d /\ d < 10.
Lemma dec_not b : dec b ->
  Byte.eqb b x65 = false /\ Byte.eqb b x45 = false /\ Byte.eqb b x2e = false /\ Byte.eqb b x2b = false /\ Byte.eqb b x2d = false.
Proof.
  intros (d & H & Hd). destruct b; vm_compute in H; try discriminate H; try (injection H as <-; lia).
  all: repeat split; reflexivity.
Qed.
Lemma value_dec t : forall acc v, text_value 10 acc t = Some v -> Forall dec t.
Proof.
  induction t as [|b t IH]; intros acc v; cbn [text_value]; [constructor|].
  destruct (char_value b) as [d|] eqn:E; [|discriminate]. destruct (Z.ltb_spec d 10); [|discriminate].
  intros H1. constructor; [by exists d|by apply IH in H1].
Qed.
Lemma dec_value t : Forall dec t -> forall acc, exists v, text_value 10 acc t = Some v.
Proof.
  induction 1 as [|b t (d & E & Hd) _ IH]; intros acc; cbn [text_value]; [by eexists|].
  rewrite E. destruct (Z.ltb_spec d 10); [|lia]. apply IH.
Qed.
Lemma digits_number_value t : forall acc v, digits_number t acc = Some v -> text_value 10 acc t = Some v.
Proof.
  induction t as [|b t IH]; intros acc v; cbn [text_value digits_number]; [done|].
  destruct (BigInt.digit_value b) as [d|] eqn:E; [|discriminate].
  assert (Hc : char_value b = Some d /\ d < 10).
  { destruct b; vm_compute in E; try discriminate E; injection E as <-; split; reflexivity. }
  destruct Hc as [-> Hd]. destruct (Z.ltb_spec d 10); [|lia]. apply IH.
Qed.
Lemma zeros_dec k : Forall dec (replicate k x30).
Proof. induction k; constructor; [|done]. exists 0. split; [reflexivity|lia]. Qed.
Lemma zeros_after k : forall acc, text_value 10 acc (replicate k x30) = Some (acc * 10 ^ Z.of_nat k).
Proof.
  induction k as [|k IH]; intros acc; cbn [replicate text_value].
  - f_equal. change (10 ^ Z.of_nat 0) with 1. lia.
  - change (char_value x30) with (Some 0). change (0 <? 10) with true. cbv iota. rewrite IH. f_equal.
    rewrite Nat2Z.inj_succ, Z.pow_succ_r by lia. ring.
Qed.

(** ** Splitting at [e] and at the point *)

Definition no_e (t : list byte) : Prop := Forall (fun b => Byte.eqb b x65 || Byte.eqb b x45 = false) t.
Lemma split_none t : no_e t -> split_e t = [t].
Proof. induction 1 as [|b t H _ IH]; cbn [split_e]; [reflexivity|]. by rewrite H, IH. Qed.
Lemma split_once t b u : no_e t -> no_e u -> Byte.eqb b x65 || Byte.eqb b x45 = true -> split_e (t ++ b :: u) = [t; u].
Proof.
  intros Ht Hu Hb. induction Ht as [|c t H _ IH]; cbn [split_e app]; [by rewrite Hb, split_none|]. by rewrite H, IH.
Qed.
Lemma dec_no_e t : Forall dec t -> no_e t.
Proof. intros H. eapply Forall_impl; [exact H|]. intros b Hb. apply dec_not in Hb as (-> & -> & _). reflexivity. Qed.
Lemma point_none t : Forall dec t -> index_of_point t = None.
Proof. induction 1 as [|b t H _ IH]; cbn [index_of_point]; [reflexivity|]. apply dec_not in H as (_ & _ & -> & _). by rewrite IH. Qed.
Lemma point_at t u : Forall dec t -> index_of_point (t ++ x2e :: u) = Some (length t).
Proof.
  induction 1 as [|b t H _ IH]; cbn [index_of_point app length]; [reflexivity|]. apply dec_not in H as (_ & _ & -> & _). by rewrite IH.
Qed.

(** ** Cutting into digits of base 10^7 *)

Lemma js_cut_loop v : forall fuel m, (m <= length v)%nat -> (m <= fuel)%nat ->
  js_cut fuel v (if Z.of_nat m - 7 <? 0 then 0 else Z.of_nat m - 7) (Z.of_nat m) = cut_digits fuel (take m v).
Proof.
  induction fuel as [|fuel IH]; intros m Hm Hf; cbn [js_cut cut_digits]; [reflexivity|].
  destruct (Z.leb_spec (Z.of_nat m) 0) as [H0|H0]. { assert (m = 0%nat) as -> by lia. by rewrite take_0. }
  destruct (take m v) as [|b t] eqn:Et.
  { exfalso. apply (f_equal length) in Et. rewrite take_length in Et. cbn [length] in Et. lia. }
  rewrite <- Et. assert (Hl : length (take m v) = m) by (rewrite take_length; lia).
  assert (Hslice : js_slice v (if Z.of_nat m - 7 <? 0 then 0 else Z.of_nat m - 7) (Z.of_nat m) = drop (m - 7) (take m v)).
  { unfold js_slice. rewrite <- skipn_firstn_comm || idtac.
    destruct (Z.ltb_spec (Z.of_nat m - 7) 0) as [H7|H7].
    - change (0 <? 0) with false. cbv iota. rewrite Z.sub_0_r, Nat2Z.id. change (Z.to_nat 0) with 0%nat.
      replace (m - 7)%nat with 0%nat by lia. by rewrite !drop_0.
    - destruct (Z.ltb_spec (Z.of_nat m - 7) 0); [lia|]. replace (Z.to_nat (Z.of_nat m - 7)) with (m - 7)%nat by lia.
      replace (Z.to_nat (Z.of_nat m - (Z.of_nat m - 7))) with 7%nat by lia.
      rewrite take_drop_commute. f_equal. f_equal. lia. }
  rewrite Hslice, Hl. f_equal. rewrite take_take, Nat.min_l by lia.
  destruct (decide (m <= 7)%nat) as [Hs|Hs].
  - replace (m - 7)%nat with 0%nat by lia. rewrite take_0. destruct fuel; cbn [js_cut cut_digits]; [reflexivity|].
    destruct (Z.leb_spec (Z.of_nat m - 7) 0); [reflexivity|lia].
  - rewrite <- (IH (m - 7)%nat) by lia. destruct (Z.ltb_spec (Z.of_nat m - 7) 0); [lia|].
    replace (Z.of_nat (m - 7)) with (Z.of_nat m - 7) by lia. reflexivity.
Qed.
Lemma js_cut_spec v : (7 <= length v)%nat ->
  js_cut (length v) v (Z.of_nat (length v) - 7) (Z.of_nat (length v)) = cut_digits (length v) v.
Proof.
  intros H. pose proof (js_cut_loop v (length v) (length v) ltac:(lia) ltac:(lia)) as E.
  destruct (Z.ltb_spec (Z.of_nat (length v) - 7) 0); [lia|]. rewrite E. f_equal. rewrite firstn_all. reflexivity.
Qed.

(** ** The numbers JavaScript reads *)

Lemma nearest_precise r z : nearest r z -> precise_number r = true -> r = JInt z /\ - 2 ^ 53 < z < 2 ^ 53.
Proof.
  intros [-> |[_ ->]]; [|discriminate]. cbn [precise_number]. intros H. apply rnd_precise in H as [-> H]. done.
Qed.
Lemma nearest_imprecise r z : nearest r z -> precise_number r = false -> 2 ^ 53 <= Z.abs z.
Proof.
  intros [-> |[H _]] Hp; [by apply rnd_imprecise|]. pose proof (Z.pow_le_mono_r 2 53 1023 ltac:(lia) ltac:(lia)). lia.
Qed.
(** A text of digits alone, as a numeral. *)
Definition plain (minus : bool) (ds : list byte) : numeral := Numeral minus ds None None.
Lemma plain_text minus ds : numeral_text (plain minus ds) = (if minus then txt "-" else []) ++ ds.
Proof. unfold numeral_text. cbn. by rewrite !app_nil_r. Qed.
Lemma plain_denotes minus ds m : ds <> [] -> text_value 10 0 ds = Some m ->
  denotes_integer (plain minus ds) 0 ((if minus then -1 else 1) * m).
Proof.
  intros H1 H2. unfold denotes_integer, numeral_digits. cbn [plain nm_digits nm_point nm_exponent nm_minus default from_option].
  rewrite app_nil_r. split; [exact H1|]. split; [exists 0; repeat split; lia|]. exists m. split; [exact H2|].
  change (10 ^ 0) with 1. by rewrite Z.mul_1_r.
Qed.

(** ** Exponents *)

Lemma unsigned_split n k z : denotes_integer n k z -> exists body,
  numeral_text n = (if nm_minus n then txt "-" else []) ++ body
  /\ body <> [] /\ hd_error body <> Some x2d
  /\ body = nm_digits n ++ match nm_point n with Some fs => txt "." ++ fs | None => [] end
       ++ match nm_exponent n with
          | Some (capital, plus, ks) => (if (capital : bool) then txt "E" else txt "e") ++ (if (plus : bool) then txt "+" else []) ++ ks
          | None => [] end.
Proof.
  intros (H1 & _ & m & H2 & _). eexists. split; [reflexivity|]. split; [|split; [|reflexivity]].
  - unfold numeral_digits in H1. destruct (nm_digits n); [|done]. cbn [app] in *.
    destruct (nm_point n); [done|]. done.
  - pose proof (value_dec _ _ _ H2) as Hd. unfold numeral_digits in *. destruct (nm_digits n) as [|b ds].
    + cbn [app] in *. destruct (nm_point n); [cbn; congruence|done].
    + cbn [app hd_error]. intros [= ->]. cbn [app] in Hd. apply Forall_cons in Hd as [Hd _]. by apply dec_not in Hd as (_ & _ & _ & _ & Hd).
Qed.
Definition mantissa (n : numeral) : list byte := nm_digits n ++ match nm_point n with Some fs => txt "." ++ fs | None => [] end.
Lemma mantissa_no_e n : Forall dec (numeral_digits n) -> no_e (mantissa n).
Proof.
  intros H. apply Forall_app in H as [Hd1 Hd2]. apply Forall_app. split; [by apply dec_no_e|]. destruct (nm_point n); [|constructor].
  constructor; [reflexivity|by apply dec_no_e].
Qed.
Lemma mantissa_point n e : Forall dec (numeral_digits n) ->
  match index_of_point (mantissa n) with
  | Some at_ => (e - (Z.of_nat (length (mantissa n)) - Z.of_nat at_ - 1), take at_ (mantissa n) ++ drop (S at_) (mantissa n))
  | None => (e, mantissa n)
  end = (e - Z.of_nat (length (default [] (nm_point n))), numeral_digits n).
Proof.
  intros H. apply Forall_app in H as [Hd1 Hd2]. unfold mantissa, numeral_digits.
  destruct (nm_point n) as [fs|] eqn:Ep; cbn [default from_option] in *; unfold id in *.
  - change (txt "." ++ fs) with (x2e :: fs). rewrite (point_at _ _ Hd1). rewrite app_length. cbn [length]. f_equal; [lia|].
    rewrite firstn_app, Nat.sub_diag, firstn_all. cbn [firstn]. rewrite app_nil_r. f_equal.
    change (drop (S (length (nm_digits n))) (nm_digits n ++ x2e :: fs)) with (skipn (S (length (nm_digits n))) (nm_digits n ++ x2e :: fs)).
    rewrite skipn_app, skipn_all2 by lia. replace (S (length (nm_digits n)) - length (nm_digits n))%nat with 1%nat by lia. reflexivity.
  - rewrite !app_nil_r in *. rewrite (point_none _ Hd1). cbn [length]. f_equal. lia.
Qed.
Lemma exponent_split n (capital plus : bool) ks : Forall dec (numeral_digits n) -> Forall dec ks ->
  split_e (nm_digits n ++ match nm_point n with Some fs => txt "." ++ fs | None => [] end
             ++ (if capital then txt "E" else txt "e") ++ (if plus then txt "+" else []) ++ ks)
  = [mantissa n; (if plus then txt "+" else []) ++ ks].
Proof.
  intros Hd Hk. rewrite app_assoc. fold (mantissa n). pose proof (mantissa_no_e n Hd) as Hm.
  assert (Hr : no_e ((if plus then txt "+" else []) ++ ks)).
  { apply Forall_app. split; [|by apply dec_no_e]. destruct plus; [constructor; [reflexivity|constructor]|constructor]. }
  destruct capital; apply split_once; done || reflexivity.
Qed.
Lemma exponent_plus (plus : bool) ks : Forall dec ks ->
  match (if plus then txt "+" else []) ++ ks with
  | b :: t => if Byte.eqb b x2b then t else (if plus then txt "+" else []) ++ ks
  | [] => (if plus then txt "+" else []) ++ ks
  end = ks.
Proof.
  intros Hk. destruct plus; [reflexivity|]. cbn [app]. destruct ks as [|b ks]; [done|].
  apply Forall_cons in Hk as [Hb _]. apply dec_not in Hb as (_ & _ & _ & -> & _). reflexivity.
Qed.
Lemma expand_spec number n k z body : reads_numbers number -> denotes_integer n k z -> short_text n ->
  body = nm_digits n ++ match nm_point n with Some fs => txt "." ++ fs | None => [] end
       ++ match nm_exponent n with
          | Some (capital, plus, ks) => (if (capital : bool) then txt "E" else txt "e") ++ (if (plus : bool) then txt "+" else []) ++ ks
          | None => [] end ->
  expand_exponent number body = if k <=? 2 ^ 32 - 2 then Some (numeral_digits n ++ replicate (Z.to_nat k) x30) else None.
Proof.
  intros Hnum (H1 & (e & H3 & Hk & Hk0) & m & H2 & Hz) Hsh ->. unfold expand_exponent.
  pose proof (value_dec _ _ _ H2) as Hd.
  destruct (nm_exponent n) as [[[capital plus] ks]|].
  2:{ destruct H3 as [-> Hp]. unfold numeral_digits in *. rewrite Hp in *. cbn [default from_option length] in *. rewrite !app_nil_r in *.
      assert (k = 0) as -> by lia. rewrite (split_none _ (dec_no_e _ Hd)). cbn [replicate Z.to_nat]. by rewrite app_nil_r. }
  destruct H3 as [Hks He]. pose proof (value_dec _ _ _ He) as Hkd.
  rewrite (exponent_split n capital plus ks Hd Hkd), (exponent_plus plus ks Hkd).
  pose proof (Hnum _ _ _ (plain_denotes false ks e Hks He)) as Hn. rewrite plain_text in Hn. cbn [app] in Hn.
  rewrite Z.mul_1_l in Hn. pose proof (mantissa_point n e Hd) as Hmant. rewrite <- Hk in Hmant.
  assert (Hfs : Z.of_nat (length (default [] (nm_point n))) < 2 ^ 52).
  { unfold short_text, numeral_text in Hsh. rewrite !app_length in Hsh. destruct (nm_point n); [|cbn; lia].
    cbn [default from_option]. unfold id. rewrite app_length in Hsh. lia. }
  destruct (precise_number (number ks)) eqn:Hp.
  - apply nearest_precise in Hn as [Hn He']; [|exact Hp]. rewrite Hn in *. cbn [precise_number] in Hp. rewrite Hp. cbn [negb].
    rewrite Hmant. destruct (Z.ltb_spec k 0); [lia|]. destruct (Z.ltb_spec (2 ^ 32 - 1) (k + 1)), (Z.leb_spec k (2 ^ 32 - 2)); try lia; reflexivity.
  - pose proof (nearest_imprecise _ _ Hn Hp) as He'. destruct (number ks) as [x| |]; [|discriminate|].
    all: pose proof (text_value_acc 10 ks ltac:(lia) 0 e ltac:(lia) He) as (w & Hw & _ & Hw0); rewrite He in Hw; injection Hw as <-.
    all: destruct (Z.leb_spec k (2 ^ 32 - 2)); [lia|].
    + cbn [precise_number] in Hp. rewrite Hp. reflexivity.
    + reflexivity.
Qed.
Lemma digits_positive ds m : text_value 10 0 ds = Some m -> 0 <= m < 10 ^ Z.of_nat (length ds).
Proof.
  intros H. pose proof (text_value_acc 10 ds ltac:(lia) 0 m ltac:(lia) H) as (w & Hw & _ & Hw0). rewrite H in Hw. by injection Hw as <-.
Qed.
Lemma parse_long number n k z : reads_numbers number -> denotes_integer n k z -> short_text n ->
  precise_number (number (numeral_text n)) = false ->
  parse_string_value number (numeral_text n) =
    if k <=? 2 ^ 32 - 2
    then let v := numeral_digits n ++ replicate (Z.to_nat k) x30 in Some (Big (trim (cut_digits (length v) v)) (nm_minus n))
    else None.
Proof.
  intros Hnum Hden Hsh Hp. unfold parse_string_value. rewrite Hp.
  destruct (unsigned_split n k z Hden) as (body & Ht & Hb1 & Hb2 & Hb3).
  assert (Hsign : match numeral_text n with b :: _ => Byte.eqb b x2d | [] => false end = nm_minus n).
  { rewrite Ht. destruct (nm_minus n); [reflexivity|]. cbn [app]. destruct body as [|b t]; [done|]. cbn [hd_error] in Hb2.
    destruct (Byte.eqb b x2d) eqn:E; [|reflexivity]. apply Byte.byte_dec_bl in E. congruence. }
  rewrite Hsign. cbv zeta.
  assert (Hbody : (if nm_minus n then drop 1 (numeral_text n) else numeral_text n) = body) by (rewrite Ht; by destruct (nm_minus n)).
  rewrite Hbody, (expand_spec number n k z body Hnum Hden Hsh Hb3).
  destruct (Z.leb_spec k (2 ^ 32 - 2)) as [Hk|Hk]; [|reflexivity].
  pose proof (nearest_imprecise _ _ (Hnum _ _ _ Hden) Hp) as Hz.
  destruct Hden as (H1 & (e & _ & _ & Hk0) & m & H2 & Hzm). set (v := numeral_digits n ++ replicate (Z.to_nat k) x30).
  assert (Hv : text_value 10 0 v = Some (m * 10 ^ k)).
  { subst v. rewrite text_value_app, H2, zeros_after, Z2Nat.id by lia. reflexivity. }
  pose proof (digits_positive _ _ Hv) as Hb. pose proof (digits_number_text _ _ _ Hv) as Hdn.
  assert (Hl : (7 <= length v)%nat).
  { destruct (decide (7 <= length v)%nat) as [|Hl]; [done|]. exfalso.
    assert (10 ^ Z.of_nat (length v) <= 10 ^ 7) by (apply Z.pow_le_mono_r; lia).
    assert (Z.abs z = m * 10 ^ k) by (rewrite Hzm; destruct (nm_minus n); lia).
    change (10 ^ 7) with 10000000 in *. change (2 ^ 53) with 9007199254740992 in *. lia. }
  rewrite js_cut_spec by exact Hl. clearbody v. destruct v; [cbn in Hl; lia|]. by rewrite Hdn.
Qed.

Theorem parse_string_value_spec number n k z : reads_numbers number -> denotes_integer n k z -> short_text n -> k <= 2 ^ 32 - 2 ->
  exists i, parse_string_value number (numeral_text n) = Some i /\ stands_for i z.
Proof.
  intros Hnum Hden Hsh Hk. destruct (precise_number (number (numeral_text n))) eqn:Hp.
  - destruct (nearest_precise _ _ (Hnum _ _ _ Hden) Hp) as [E Hz]. unfold parse_string_value. rewrite Hp, E.
    eexists. split; [reflexivity|]. apply mk_small_spec. lia.
  - rewrite (parse_long number n k z Hnum Hden Hsh Hp). destruct (Z.leb_spec k (2 ^ 32 - 2)); [|lia]. cbv zeta.
    eexists. split; [reflexivity|]. pose proof (nearest_imprecise _ _ (Hnum _ _ _ Hden) Hp) as Hz.
    destruct Hden as (H1 & (e & _ & _ & Hk0) & m & H2 & Hzm). set (v := numeral_digits n ++ replicate (Z.to_nat k) x30).
    assert (Hv : text_value 10 0 v = Some (m * 10 ^ k)).
    { subst v. rewrite text_value_app, H2, zeros_after, Z2Nat.id by lia. reflexivity. }
    pose proof (digits_positive _ _ Hv) as Hb.
    destruct (cut_digits_spec (length v) v _ ltac:(lia) Hv) as (C1 & C2).
    assert (Ha : Z.abs z = m * 10 ^ k) by (rewrite Hzm; destruct (nm_minus n); lia).
    eapply stands_eq; [apply big_intro; [by apply trim_digs|apply trim_canon|]|].
    + rewrite trim_val, C2. lia.
    + rewrite trim_val, C2, Hzm. destruct (nm_minus n); unfold signed; lia.
Qed.
Theorem parse_string_value_too_large number n k z : reads_numbers number -> denotes_integer n k z -> short_text n -> 2 ^ 32 - 2 < k ->
  2 ^ 53 <= Z.abs z -> parse_string_value number (numeral_text n) = None.
Proof.
  intros Hnum Hden Hsh Hk Hz. destruct (precise_number (number (numeral_text n))) eqn:Hp.
  { destruct (nearest_precise _ _ (Hnum _ _ _ Hden) Hp). lia. }
  rewrite (parse_long number n k z Hnum Hden Hsh Hp). destruct (Z.leb_spec k (2 ^ 32 - 2)); [lia|reflexivity].
Qed.
Theorem parse_string_value_refuses number (minus : bool) t : no_e t -> (t = [] \/ ~ Forall dec t) -> hd_error t <> Some x2d \/ minus = true ->
  precise_number (number ((if minus then txt "-" else []) ++ t)) = false ->
  parse_string_value number ((if minus then txt "-" else []) ++ t) = None.
Proof.
  intros Hne Hbad Hh Hp. unfold parse_string_value. rewrite Hp.
  assert (Hsign : match (if minus then txt "-" else []) ++ t with b :: _ => Byte.eqb b x2d | [] => false end = minus).
  { destruct minus; [reflexivity|]. cbn [app]. destruct t as [|b t]; [reflexivity|]. destruct Hh as [Hh|]; [|discriminate].
    cbn [hd_error] in Hh. destruct (Byte.eqb b x2d) eqn:E; [|reflexivity]. apply Byte.byte_dec_bl in E. congruence. }
  rewrite Hsign. cbv zeta.
  assert (Hbody : (if minus then drop 1 ((if minus then txt "-" else []) ++ t) else (if minus then txt "-" else []) ++ t) = t) by by destruct minus.
  rewrite Hbody. unfold expand_exponent. rewrite (split_none _ Hne). destruct t as [|b t]; [reflexivity|].
  destruct Hbad as [|Hbad]; [discriminate|]. destruct (digits_number (b :: t) 0) as [x|] eqn:E; [|reflexivity].
  exfalso. apply Hbad. apply digits_number_value in E. by apply value_dec in E.
Qed.

(** ** Numbers *)

Theorem parse_number_value_spec number to_text v : reads_numbers number -> writes_numbers to_text ->
  Z.abs v < 2 ^ 1024 -> rnd v = v ->
  exists i z, parse_number_value number to_text (JInt v) = Some i /\ stands_for i z /\ rnd z = v /\ (Z.abs v < 2 ^ 53 -> z = v).
Proof.
  intros Hnum Htext Hv Hr. unfold parse_number_value. cbn [precise_number]. destruct (is_precise v) eqn:Hp.
  - apply is_precise_spec in Hp. exists (mk_small v), v. split; [reflexivity|]. split; [apply mk_small_spec; lia|]. done.
  - assert (H53 : 2 ^ 53 <= Z.abs v).
    { destruct (decide (2 ^ 53 <= Z.abs v)); [done|]. exfalso.
      assert (is_precise v = true) by (apply is_precise_spec; lia). congruence. }
    destruct (Htext v ltac:(lia) Hr) as (n & k & z & -> & Hden & Hsh & Hk & Hz).
    destruct (parse_string_value_spec number n k z Hnum Hden Hsh Hk) as (i & E & Hi). exists i, z. split; [exact E|].
    split; [exact Hi|]. split; [exact Hz|]. lia.
Qed.

(** ** Lists of digits *)

Lemma horner_acc b : forall ds acc, horner b acc ds = acc * b ^ Z.of_nat (length ds) + horner b 0 ds.
Proof.
  induction ds as [|d ds IH]; intros acc; cbn [horner length]; [change (b ^ Z.of_nat 0) with 1; lia|].
  rewrite IH, (IH (b * 0 + d)), Nat2Z.inj_succ, Z.pow_succ_r by lia. ring.
Qed.
Lemma from_digits_any uk ds xs base b : Forall2 stands_for ds xs -> stands_for base b ->
  exists v p, from_digits_loop uk ds base = Ok (v, p) /\ stands_for v (horner b 0 xs) /\ stands_for p (b ^ Z.of_nat (length xs)).
Proof.
  intros H Hb. induction H as [|d x ds xs Hd _ (v & p & E & Hv & Hp)]; cbn [from_digits_loop horner length].
  { exists (mk_small 0), (mk_small 1). split; [reflexivity|]. split; [exact zero_spec|exact one_spec]. }
  rewrite E. cbn [rbind]. destruct (multiply_spec uk _ p _ _ Hd Hp) as (dp & -> & Hdp). cbn [rbind].
  destruct (multiply_spec uk p _ _ _ Hp Hb) as (p' & -> & Hp'). cbn [rbind]. eexists _, _. split; [reflexivity|]. split.
  - eapply stands_eq; [apply add_spec; [exact Hv|exact Hdp]|]. rewrite (horner_acc b xs (b * 0 + x)). ring.
  - eapply stands_eq; [exact Hp'|]. rewrite Nat2Z.inj_succ, Z.pow_succ_r by lia. ring.
Qed.
Theorem parse_base_from_array_spec uk ds xs base b (minus : bool) : Forall2 stands_for ds xs -> stands_for base b ->
  exists i, parse_base_from_array uk ds base minus = Ok i /\ stands_for i (if minus then - horner b 0 xs else horner b 0 xs).
Proof.
  intros H Hb. destruct (from_digits_any uk ds xs base b H Hb) as (v & p & E & Hv & _). unfold parse_base_from_array.
  rewrite E. cbn [rbind fst]. eexists. split; [reflexivity|]. destruct minus; [by apply negate_spec|exact Hv].
Qed.
Theorem from_array_spec uk number to_text digits xs base b (minus : bool) :
  Forall2 (means number to_text) digits xs ->
  match base with None | Some (ANumber (JInt 0)) | Some (AText []) => b = 10 | Some a => means number to_text a b end ->
  exists i, from_array uk number to_text digits base minus = Ok (Some i) /\ stands_for i (if minus then - horner b 0 xs else horner b 0 xs).
Proof.
  intros Hds Hb. unfold from_array.
  set (base' := match base with None | Some (ANumber (JInt 0)) | Some (AText []) => ANumber (JInt 10) | Some b => b end).
  assert (Hb' : means number to_text base' b).
  { assert (H10 : b = 10 -> means number to_text (ANumber (JInt 10)) b).
    { intros ->. exists (mk_small 10). split; [reflexivity|]. apply mk_small_spec. lia. }
    subst base'. destruct base as [[[[| |]| |]|[|]|]|]; auto. }
  assert (Hmap : exists l, mapM (parse_value number to_text) digits = Some l /\ Forall2 stands_for l xs).
  { clear Hb Hb' base'. induction Hds as [|a x digits xs (i & E & Hi) _ (l & El & Hl)]; [by exists []|].
    exists (i :: l). cbn [mapM]. rewrite E. cbn [mbind option_bind]. rewrite El. cbn. split; [reflexivity|by constructor]. }
  destruct Hmap as (l & -> & Hl). destruct Hb' as (ib & -> & Hib).
  destruct (parse_base_from_array_spec uk l xs ib b minus Hl Hib) as (i & -> & Hi). exists i. split; [reflexivity|exact Hi].
Qed.

(** ** A reading of numbers *)

(** A number for every text of an integer, zero for the empty text, and no number for others. *)
Definition sample_number (t : list byte) : js_number :=
  let sign := match t with b :: _ => Byte.eqb b x2d | [] => false end in
  let body := if sign then drop 1 t else t in
  let signed_number v := JInt (rnd ((if sign then -1 else 1) * v)) in
  match split_e body with
  | [m] => match digits_number m 0 with Some v => signed_number v | None => JNotFinite end
  | [m; exp] =>
      let exp := match exp with b :: t => if Byte.eqb b x2b then t else exp | [] => exp end in
      match exp, digits_number exp 0 with
      | [], _ | _, None => JNotFinite
      | _, Some e =>
          let '(k, m) := match index_of_point m with
                         | Some at_ => (e - (Z.of_nat (length m) - Z.of_nat at_ - 1), take at_ m ++ drop (S at_) m)
                         | None => (e, m)
                         end in
          match digits_number m 0 with Some v => signed_number (v * 10 ^ k) | None => JNotFinite end
      end
  | _ => JNotFinite
  end.
Lemma sample_reads : reads_numbers sample_number.
Proof.
  intros n k z Hden. left. destruct (unsigned_split n k z Hden) as (body & Ht & Hb1 & Hb2 & Hb3).
  unfold sample_number.
  assert (Hsign : match numeral_text n with b :: _ => Byte.eqb b x2d | [] => false end = nm_minus n).
  { rewrite Ht. destruct (nm_minus n); [reflexivity|]. cbn [app]. destruct body as [|b t]; [done|]. cbn [hd_error] in Hb2.
    destruct (Byte.eqb b x2d) eqn:E; [|reflexivity]. apply Byte.byte_dec_bl in E. congruence. }
  rewrite Hsign. cbv zeta.
  assert (Hbody : (if nm_minus n then drop 1 (numeral_text n) else numeral_text n) = body) by (rewrite Ht; by destruct (nm_minus n)).
  rewrite Hbody, Hb3. clear Hsign Hbody Hb3 Hb2 Hb1 Ht body.
  destruct Hden as (H1 & (e & H3 & Hk & Hk0) & m & H2 & ->). pose proof (value_dec _ _ _ H2) as Hd.
  destruct (nm_exponent n) as [[[capital plus] ks]|].
  - destruct H3 as [Hks He]. pose proof (value_dec _ _ _ He) as Hkd.
    rewrite (exponent_split n capital plus ks Hd Hkd), (exponent_plus plus ks Hkd).
    pose proof (digits_number_text _ _ _ He) as Hn. destruct ks as [|b ks]; [done|]. rewrite Hn.
    by rewrite (mantissa_point n e Hd), <- Hk, (digits_number_text _ _ _ H2).
  - destruct H3 as [-> Hp]. unfold numeral_digits in *. rewrite Hp in *. cbn [default from_option length] in *. rewrite !app_nil_r in *.
    assert (k = 0) as -> by lia. rewrite (split_none _ (dec_no_e _ Hd)), (digits_number_text _ _ _ H2). change (10 ^ 0) with 1. by rewrite Z.mul_1_r.
Qed.
(** The exact numeral of every number, but for 2^60 its shortest one. *)
Definition sample_text (v : js_number) : list byte :=
  match v with
  | JInt z => if z =? 2 ^ 60 then txt "1152921504606847000" else num_text z
  | _ => txt "NaN"
  end.
Lemma sample_writes : writes_numbers sample_text.
Proof.
  intros v Hv Hr. unfold sample_text. destruct (Z.eqb_spec v (2 ^ 60)) as [->|_].
  - exists (plain false (txt "1152921504606847000")), 0, 1152921504606847000. rewrite plain_text.
    split; [reflexivity|]. split; [apply (plain_denotes false _ 1152921504606847000); [discriminate|vm_compute; reflexivity]|].
    split; [unfold short_text; vm_compute; reflexivity|]. split; [lia|]. vm_compute. reflexivity.
  - destruct (num_text_writes v) as (ds & E & Hne & Hval & Hlead). exists (plain (v <? 0) ds), 0, v. rewrite plain_text.
    split; [exact E|]. split; [|split; [|split; [lia|exact Hr]]].
    + pose proof (plain_denotes (v <? 0) ds _ Hne Hval) as H. replace ((if v <? 0 then -1 else 1) * Z.abs v) with v in H; [exact H|].
      destruct (Z.ltb_spec v 0); lia.
    + unfold short_text. rewrite plain_text, app_length.
      assert (Hl : (length (if (v <? 0)%Z then txt "-" else []) <= 1)%nat) by (destruct (v <? 0); cbn; lia).
      assert (Hz : hd_error ds <> Some x30) by (intros H; apply Hlead in H as [-> _]; lia).
      pose proof (text_value_lead 10 ds _ ltac:(lia) Hne Hz Hval) as L.
      assert (H10 : 2 ^ 1024 < 10 ^ 1024) by (vm_compute; reflexivity).
      assert (Z.of_nat (length ds - 1) < 1024).
      { apply (Z.pow_lt_mono_r_iff 10); [lia|lia|]. lia. }
      change (2 ^ 52) with 4503599627370496. lia.
Qed.
