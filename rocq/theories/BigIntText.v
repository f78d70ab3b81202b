(** * BigIntText: the texts of the integers of JavaScript tracers *)

From Verif Require Export BigIntBits SimpleProofs JsObjectProofs.
Local Open Scope Z_scope.

(** ** Numerals *)

Lemma text_value_app r t u : forall acc, text_value r acc (t ++ u) =
  match text_value r acc t with Some v => text_value r v u | None => None end.
Proof.
  induction t as [|b t IH]; intros acc; [reflexivity|]. cbn [app text_value].
  destruct (char_value b) as [d|]; [|reflexivity]. destruct (d <? r); [apply IH|reflexivity].
Qed.
Lemma char_value_nonneg b d : char_value b = Some d -> 0 <= d.
Proof.
  unfold char_value. set (c := Z.of_N (Byte.to_N b)). clearbody c.
  destruct (Z.leb_spec 48 c), (Z.leb_spec c 57), (Z.leb_spec 97 c), (Z.leb_spec c 122); cbn [andb]; intros [= <-]; lia.
Qed.
Lemma text_value_acc r t : 0 < r -> forall acc v, 0 <= acc -> text_value r acc t = Some v ->
  exists w, text_value r 0 t = Some w /\ v = acc * r ^ Z.of_nat (length t) + w /\ 0 <= w < r ^ Z.of_nat (length t).
Proof.
  intros Hr. induction t as [|b t IH] using rev_ind; intros acc v Ha.
  - cbn. intros [= <-]. exists 0. split; [reflexivity|]. lia.
  - rewrite text_value_app. destruct (text_value r acc t) as [v'|] eqn:E; [|discriminate].
    destruct (IH acc v' Ha E) as (w & W1 & W2 & W3). rewrite text_value_app, W1. cbn [text_value].
    destruct (char_value b) as [d|] eqn:Ed; [|discriminate]. destruct (Z.ltb_spec d r); [|discriminate]. intros [= <-].
    exists (r * w + d). split; [reflexivity|]. rewrite app_length. cbn [length]. rewrite Nat2Z.inj_add. cbn [Z.of_nat].
    rewrite Z.pow_add_r by lia. change (Z.pos (Pos.of_succ_nat 0)) with 1. rewrite Z.pow_1_r.
    apply char_value_nonneg in Ed. set (P := r ^ Z.of_nat (length t)) in *. clearbody P. subst v'. split; [lia|nia].
Qed.
Lemma text_value_shift r t w acc : 0 < r -> text_value r 0 t = Some w ->
  text_value r acc t = Some (acc * r ^ Z.of_nat (length t) + w).
Proof.
  intros Hr. revert w. induction t as [|b t IH] using rev_ind; intros w.
  - cbn. intros [= <-]. f_equal. lia.
  - rewrite !text_value_app. destruct (text_value r 0 t) as [v'|] eqn:E; [|discriminate].
    rewrite (IH v' eq_refl). cbn [text_value].
    destruct (char_value b) as [d|] eqn:Ed; [|discriminate]. destruct (Z.ltb_spec d r); [|discriminate]. intros [= <-].
    f_equal. rewrite app_length. cbn [length]. rewrite Nat2Z.inj_add.
    rewrite Z.pow_add_r by lia. change (Z.of_nat 1) with 1. rewrite Z.pow_1_r. ring.
Qed.

(** A numeral determines its text. *)
Lemma char_value_inj b c d : char_value b = Some d -> char_value c = Some d -> b = c.
Proof.
  unfold char_value. intros Hb Hc. enough (Byte.to_N b = Byte.to_N c) as E.
  { pose proof (Byte.of_to_N b) as E1. rewrite E, Byte.of_to_N in E1. congruence. }
  set (x := Byte.to_N b) in *. set (y := Byte.to_N c) in *. clearbody x y.
  destruct (Z.leb_spec 48 (Z.of_N x)), (Z.leb_spec (Z.of_N x) 57), (Z.leb_spec 97 (Z.of_N x)), (Z.leb_spec (Z.of_N x) 122),
    (Z.leb_spec 48 (Z.of_N y)), (Z.leb_spec (Z.of_N y) 57), (Z.leb_spec 97 (Z.of_N y)), (Z.leb_spec (Z.of_N y) 122);
    cbn [andb] in *; try discriminate; injection Hb; injection Hc; lia.
Qed.
Lemma text_value_same r t : 0 < r -> forall u v, length t = length u -> text_value r 0 t = Some v -> text_value r 0 u = Some v ->
  t = u.
Proof.
  intros Hr. induction t as [|b t IH] using rev_ind; intros u v Hl Ht Hu.
  { destruct u; [reflexivity|discriminate]. }
  destruct u as [|c u _] using rev_ind; [rewrite app_length in Hl; cbn in Hl; lia|]. rewrite !app_length in Hl. cbn [length] in Hl.
  rewrite text_value_app in Ht, Hu.
  destruct (text_value r 0 t) as [v1|] eqn:E1; [|discriminate]. destruct (text_value r 0 u) as [v2|] eqn:E2; [|discriminate].
  cbn [text_value] in Ht, Hu.
  destruct (char_value b) as [d|] eqn:Eb; [|discriminate]. destruct (char_value c) as [e|] eqn:Ec; [|discriminate].
  destruct (Z.ltb_spec d r); [|discriminate]. destruct (Z.ltb_spec e r); [|discriminate].
  pose proof (char_value_nonneg _ _ Eb). pose proof (char_value_nonneg _ _ Ec).
  injection Ht as Ht. injection Hu as Hu. assert (v1 = v2) by nia. assert (d = e) by nia. subst v2 e.
  rewrite (IH u v1 ltac:(lia) eq_refl E2). by rewrite (char_value_inj b c d Eb Ec).
Qed.
Lemma text_value_lead r t v : 0 < r -> t <> [] -> hd_error t <> Some x30 -> text_value r 0 t = Some v ->
  r ^ Z.of_nat (length t - 1) <= v.
Proof.
  intros Hr Hne Hhd. destruct t as [|b t]; [done|]. cbn [hd_error] in Hhd. cbn [text_value length].
  destruct (char_value b) as [d|] eqn:Eb; [|discriminate]. destruct (Z.ltb_spec d r); [|discriminate].
  pose proof (char_value_nonneg _ _ Eb) as Hd. assert (d <> 0).
  { intros ->. apply Hhd. f_equal. by apply (char_value_inj _ _ 0). }
  intros E. apply text_value_acc in E as (w & _ & E & W); [|lia|lia]. replace (S (length t) - 1)%nat with (length t) by lia.
  set (P := r ^ Z.of_nat (length t)) in *. clearbody P. nia.
Qed.
Lemma writes_fun r z t u : 1 < r -> writes r z t -> writes r z u -> t = u.
Proof.
  intros Hr (t' & -> & T1 & T2 & T3) (u' & -> & U1 & U2 & U3). f_equal.
  assert (Hlen : length t' = length u').
  { destruct (Z.eq_dec z 0) as [->|Hz].
    - assert (L : forall s, s <> [] -> text_value r 0 s = Some (Z.abs 0) -> (hd_error s = Some x30 -> 0 = 0 /\ length s = 1%nat) ->
                    length s = 1%nat).
      { intros s S1 S2 S3. destruct (decide (hd_error s = Some x30)) as [H|H]; [by apply S3|].
        pose proof (text_value_lead r s _ ltac:(lia) S1 H S2) as L.
        pose proof (Z.pow_pos_nonneg r (Z.of_nat (length s - 1))). lia. }
      rewrite (L t'), (L u') by assumption. reflexivity.
    - assert (Ht : hd_error t' <> Some x30) by (intros H; by apply T3 in H as [? _]).
      assert (Hu : hd_error u' <> Some x30) by (intros H; by apply U3 in H as [? _]).
      pose proof (text_value_lead r t' _ ltac:(lia) T1 Ht T2) as LT. pose proof (text_value_lead r u' _ ltac:(lia) U1 Hu U2) as LU.
      pose proof (text_value_acc r t' ltac:(lia) 0 _ ltac:(lia) T2) as (w & E1 & _ & WT). rewrite E1 in T2. injection T2 as ->.
      pose proof (text_value_acc r u' ltac:(lia) 0 _ ltac:(lia) U2) as (w & E2 & _ & WU). rewrite E2 in U2. injection U2 as ->.
      destruct (decide (length t' < length u')%nat).
      { pose proof (Z.pow_le_mono_r r (Z.of_nat (length t')) (Z.of_nat (length u' - 1)) ltac:(lia) ltac:(lia)). lia. }
      destruct (decide (length u' < length t')%nat).
      { pose proof (Z.pow_le_mono_r r (Z.of_nat (length u')) (Z.of_nat (length t' - 1)) ltac:(lia) ltac:(lia)). lia. }
      lia. }
  by apply (text_value_same r t' ltac:(lia) u' (Z.abs z)).
Qed.

(** ** [toString] *)

Lemma numeral_text l : forall acc v, numeral acc l = Some v -> text_value 10 (Z.of_N acc) l = Some (Z.of_N v).
Proof.
  induction l as [|c l IH]; intros acc v; cbn [numeral text_value]; [intros [= ->]; reflexivity|]. unfold char_value.
  destruct (N.leb_spec 48 (Byte.to_N c)), (N.leb_spec (Byte.to_N c) 57); cbn [andb]; try discriminate. intros Hn.
  destruct (Z.leb_spec 48 (Z.of_N (Byte.to_N c))), (Z.leb_spec (Z.of_N (Byte.to_N c)) 57); cbn [andb]; try lia.
  destruct (Z.ltb_spec (Z.of_N (Byte.to_N c) - 48) 10); [|lia]. apply IH in Hn. rewrite <- Hn. f_equal. lia.
Qed.
Lemma dec_text_value n : text_value 10 0 (dec_text n) = Some (Z.of_N n).
Proof. apply (numeral_text _ 0%N). rewrite numeral_parse. apply dec_text_spec. Qed.
Lemma num_text_digit d : 0 <= d -> num_text d = dec_text (Z.abs_N d).
Proof. intros H. unfold num_text. destruct (Z.ltb_spec d 0); [lia|reflexivity]. Qed.
Lemma num_text_writes z : writes 10 z (num_text z).
Proof.
  exists (dec_text (Z.abs_N z)). split; [reflexivity|]. split; [apply dec_text_nonempty|].
  split; [rewrite dec_text_value; f_equal; lia|]. intros H. apply dec_text_no_leading_zero in H. split; [lia|]. by rewrite H.
Qed.
Lemma zeros_value n acc : text_value 10 acc (take n (txt "0000000")) = Some (acc * 10 ^ Z.of_nat (Nat.min n 7)).
Proof.
  do 8 (destruct n as [|n]; [cbn [take]; cbn; f_equal; lia|]). cbn [take]. cbn -[Nat.min].
  replace (Nat.min (S (S (S (S (S (S (S (S n)))))))) 7) with 7%nat by lia. change (10 ^ Z.of_nat 7) with 10000000. f_equal. lia.
Qed.
Lemma pad_digit_value d acc : digit d -> text_value 10 acc (pad_digit d) = Some (acc * 10000000 + d).
Proof.
  intros Hd. unfold digit in Hd. unfold pad_digit. rewrite num_text_digit by lia. cbv zeta.
  set (t := dec_text (Z.abs_N d)). assert (Ht : text_value 10 0 t = Some d) by (unfold t; rewrite dec_text_value; f_equal; lia).
  assert (Hl : (length t <= 7)%nat).
  { destruct (decide (hd_error t = Some x30)) as [H|H].
    - apply dec_text_no_leading_zero in H. unfold t. rewrite H. cbn. lia.
    - pose proof (text_value_lead 10 t d ltac:(lia) (dec_text_nonempty _) H Ht) as L.
      destruct (decide (length t <= 7)%nat); [done|]. exfalso.
      pose proof (Z.pow_le_mono_r 10 7 (Z.of_nat (length t - 1)) ltac:(lia) ltac:(lia)) as P. change (10 ^ 7) with 10000000 in P. lia. }
  assert (Hz : drop (length t) (txt "0000000") = take (7 - length t) (txt "0000000")).
  { clear -Hl. generalize dependent (length t). intros n Hl.
    do 8 (destruct n as [|n]; [reflexivity|]). lia. }
  rewrite Hz, text_value_app, zeros_value, (text_value_shift 10 t d) by (lia || exact Ht). f_equal.
  replace (Nat.min (7 - length t) 7) with (7 - length t)%nat by lia. rewrite <- Z.mul_assoc, <- Z.pow_add_r by lia.
  replace (Z.of_nat (7 - length t) + Z.of_nat (length t)) with 7 by lia. reflexivity.
Qed.
Lemma pads_value rest : digs rest -> forall acc,
  text_value 10 acc (concat (pad_digit <$> rest)) = Some (acc * BASE ^ Z.of_nat (length rest) + val (rev rest)).
Proof.
  induction 1 as [|d rest Hd Hr IH]; intros acc.
  - cbn [fmap list_fmap concat text_value length rev]. change (BASE ^ Z.of_nat 0) with 1. change (val []) with 0. f_equal. lia.
  - cbn [fmap list_fmap concat]. rewrite text_value_app, pad_digit_value by exact Hd. rewrite IH. cbn [rev length].
    rewrite val_app, rev_length, BASE_pow_succ, val_cons. change (val []) with 0. f_equal. ring.
Qed.
Theorem to_string_writes i x : stands_for i x -> writes 10 x (to_string i).
Proof.
  intros H. destruct i as [v s|v s]; cbn [to_string].
  - apply small_elim in H as (-> & _). apply num_text_writes.
  - apply big_elim in H as (H1 & H2 & H3 & -> & Hne).
    assert (Hs : (signed s (val v) <? 0) = s).
    { destruct s; cbn [signed]; [apply Z.ltb_lt|apply Z.ltb_ge]; lia. }
    destruct (rev v) as [|top rest] eqn:Er.
    { exfalso. apply Hne. rewrite <- (rev_involutive v), Er. reflexivity. }
    assert (Ev : v = rev rest ++ [top]) by (rewrite <- (rev_involutive v), Er; reflexivity).
    assert (Ht : digit top /\ digs rest).
    { rewrite Ev in H1. apply Forall_app in H1 as [H4 H5]. apply Forall_cons in H5 as [H5 _].
      split; [exact H5|]. apply Forall_rev in H4. by rewrite rev_involutive in H4. }
    destruct Ht as [Htop Hrest]. unfold digit in Htop.
    assert (Htop0 : top <> 0).
    { apply canon_last in H2. rewrite Ev, last_snoc in H2. congruence. }
    rewrite num_text_digit by lia. eexists. rewrite Hs. split; [reflexivity|].
    split; [intros E; apply app_eq_nil in E as [E _]; by apply dec_text_nonempty in E|].
    split.
    + rewrite text_value_app, dec_text_value, pads_value by exact Hrest. rewrite signed_abs by lia. f_equal.
      rewrite Ev at 1. rewrite val_app, rev_length, val_cons. change (val []) with 0.
      replace (Z.of_N (Z.abs_N top)) with top by lia. ring.
    + intros E. exfalso. apply Htop0. enough (Z.abs_N top = 0%N) by lia. apply dec_text_no_leading_zero.
      pose proof (dec_text_nonempty (Z.abs_N top)) as Hn. destruct (dec_text (Z.abs_N top)); [done|]. exact E.
Qed.

(** ** [toString(radix)] *)

Lemma stringify_value d : 0 <= d <= 35 -> exists b, stringify d = [b] /\ char_value b = Some d.
Proof.
  intros Hd. unfold stringify. destruct (Z.leb_spec d 35); [|lia].
  assert (Hall : forallb (fun k => match take 1 (drop k (txt "0123456789abcdefghijklmnopqrstuvwxyz")) with
                                   | [b] => match char_value b with Some e => e =? Z.of_nat k | None => false end
                                   | _ => false end) (seq 0 36) = true) by (vm_compute; reflexivity).
  rewrite forallb_forall in Hall. specialize (Hall (Z.to_nat d) ltac:(apply in_seq; lia)).
  destruct (take 1 (drop (Z.to_nat d) _)) as [|b [|]]; try discriminate. exists b. split; [reflexivity|].
  destruct (char_value b) as [e|]; [|discriminate]. apply Z.eqb_eq in Hall. f_equal. lia.
Qed.
Lemma to_base_loop_spec base : 2 <= base <= 36 -> forall fuel i x, stands_for i x -> 0 <= x < base ^ Z.of_nat (S fuel) ->
  exists t, to_base_loop fuel i (mk_small base) = Ok t /\ t <> [] /\ text_value base 0 t = Some x
    /\ (hd_error t = Some x30 -> x = 0 /\ length t = 1%nat).
Proof.
  intros Hb. assert (H53 : 36 < 2 ^ 53) by lia. assert (Hbase : stands_for (mk_small base) base) by (apply mk_small_spec; lia).
  assert (Hdig : forall i x, stands_for i x -> 0 <= x < base ->
            exists t, stringify (to_js_number i) = t /\ t <> [] /\ text_value base 0 t = Some x
              /\ (hd_error t = Some x30 -> x = 0 /\ length t = 1%nat)).
  { intros i x Hi Hx. rewrite (number_small i x Hi) by lia. destruct (stringify_value x ltac:(lia)) as (b & -> & Hc).
    eexists. split; [reflexivity|]. split; [done|]. cbn [text_value]. rewrite Hc. destruct (Z.ltb_spec x base); [|lia].
    split; [f_equal; lia|]. cbn. intros [= ->]. split; [|reflexivity]. by injection Hc as <-. }
  induction fuel as [|fuel IH]; intros i x Hi Hx; cbn [to_base_loop];
    rewrite (compare_abs_spec i _ x base Hi Hbase), (Z.abs_eq x), (Z.abs_eq base) by lia.
  - change (Z.of_nat 1) with 1 in Hx. rewrite Z.pow_1_r in Hx. destruct (Z.compare_spec x base); [lia| |lia].
    cbn [comparison_number]. change (-1 <? 0) with true. cbv iota.
    destruct (Hdig i x Hi ltac:(lia)) as (t & E & T). exists t. split; [by rewrite E|exact T].
  - rewrite Nat2Z.inj_succ, Z.pow_succ_r in Hx by lia.
    assert (Hcase : x < base \/ base <= x) by lia. destruct Hcase as [Hlt|Hge].
    { destruct (Z.compare_spec x base); [lia| |lia]. cbn [comparison_number]. change (-1 <? 0) with true. cbv iota.
      destruct (Hdig i x Hi ltac:(lia)) as (t & E & T). exists t. split; [by rewrite E|exact T]. }
    assert (Hc : comparison_number (x ?= base) <? 0 = false).
    { destruct (Z.compare_spec x base); [reflexivity|lia|reflexivity]. }
    rewrite Hc. destruct (div_mod_spec i _ x _ Hi Hbase) as [[Hz _]|(_ & q & r & -> & Hq & Hr)]; [lia|].
    rewrite Z.quot_div_nonneg in Hq by lia. rewrite Z.rem_mod_nonneg in Hr by lia. cbn [rbind expect fst snd].
    pose proof (Z.mod_pos_bound x base ltac:(lia)) as Hm. pose proof (Z.div_mod x base ltac:(lia)) as Hdm.
    assert (Hq1 : 1 <= x / base) by (apply Z.div_le_lower_bound; lia).
    destruct (IH q _ Hq) as (t & -> & T1 & T2 & T3); [split; [lia|apply Z.div_lt_upper_bound; lia]|].
    destruct (Hdig r _ Hr Hm) as (u & -> & U1 & U2 & U3). cbn [rbind]. eexists. split; [reflexivity|].
    split; [intros E; apply app_eq_nil in E as [E _]; contradiction|].
    rewrite text_value_app, T2, (text_value_shift base u _ _ ltac:(lia) U2).
    assert (Hu : length u = 1%nat).
    { destruct (stringify_value (x mod base) ltac:(lia)) as (b & _ & Hc').
      destruct u as [|b1 [|b2 u]]; [done|reflexivity|]. exfalso.
      destruct (decide (hd_error (b1 :: b2 :: u) = Some x30)) as [H|H]; [apply U3 in H as [_ H]; discriminate|].
      pose proof (text_value_lead base _ _ ltac:(lia) U1 H U2) as L. cbn [length] in L.
      pose proof (Z.pow_le_mono_r base 1 (Z.of_nat (S (S (length u)) - 1)) ltac:(lia) ltac:(lia)). lia. }
    rewrite Hu. change (Z.of_nat 1) with 1. rewrite Z.pow_1_r. split; [f_equal; lia|].
    intros E. exfalso. destruct t as [|b t]; [done|]. cbn [app hd_error] in E. destruct (T3 E) as [T4 _]. lia.
Qed.
Lemma text_fuel_spec i x base : stands_for i x -> 2 <= base -> Z.abs x < base ^ Z.of_nat (S (text_fuel i)).
Proof.
  intros H Hb. apply Z.lt_le_trans with (2 ^ Z.of_nat (S (text_fuel i))); [|apply Z.pow_le_mono_l; lia].
  destruct i as [v s|v s]; cbn [text_fuel].
  - apply small_elim in H as (-> & H & _). change (Z.of_nat 61) with 61.
    pose proof (Z.pow_lt_mono_r 2 53 61 ltac:(lia) ltac:(lia) ltac:(lia)). lia.
  - apply big_elim in H as (H1 & _ & H3 & -> & _). rewrite signed_abs by lia. pose proof (val_bounds v H1) as [_ H2].
    assert (H4 : BASE ^ Z.of_nat (length v) <= (2 ^ 24) ^ Z.of_nat (length v)) by (apply Z.pow_le_mono_l; rewrite BASE_eq; lia).
    rewrite <- Z.pow_mul_r in H4 by lia.
    assert (H5 : 2 ^ (24 * Z.of_nat (length v)) <= 2 ^ Z.of_nat (S (24 * length v + 60))) by (apply Z.pow_le_mono_r; lia).
    lia.
Qed.
Theorem to_string_radix_writes i x radix : stands_for i x -> 2 <= radix <= 36 ->
  exists t, to_string_radix i radix = Ok t /\ writes radix x t.
Proof.
  intros Hi Hr. unfold to_string_radix. destruct (Z.eqb_spec radix 10) as [->|_].
  { eexists. split; [reflexivity|]. by apply to_string_writes. }
  unfold to_base. destruct (signs_spec i x Hi) as (_ & -> & _ & _).
  assert (Ha : stands_for (if x <? 0 then int_abs i else i) (Z.abs x)).
  { destruct (Z.ltb_spec x 0); [by apply abs_spec|]. eapply stands_eq; [exact Hi|lia]. }
  destruct (to_base_loop_spec radix Hr (text_fuel i) _ _ Ha) as (t & -> & T1 & T2 & T3).
  { split; [lia|]. apply (text_fuel_spec i x radix Hi); lia. }
  cbn [rbind]. eexists. split; [reflexivity|]. exists t. split; [reflexivity|]. split; [exact T1|]. split; [exact T2|].
  intros H. apply T3 in H as [H1 H2]. split; [lia|exact H2].
Qed.

(** ** [bigint(text)] *)

Lemma digits_number_text t : forall acc v, text_value 10 acc t = Some v -> digits_number t acc = Some v.
Proof.
  induction t as [|b t IH]; intros acc v; cbn [text_value digits_number]; [done|]. unfold char_value, BigInt.digit_value.
  set (c := Z.of_N (Byte.to_N b)). destruct (Z.leb_spec 48 c), (Z.leb_spec c 57); cbn [andb].
  all: try (destruct (Z.ltb_spec (c - 48) 10); [|lia]; apply IH).
  all: destruct (Z.leb_spec 97 c), (Z.leb_spec c 122); cbn [andb]; try discriminate; destruct (Z.ltb_spec (c - 87) 10); [lia|discriminate].
Qed.
Lemma cut_digits_spec : forall fuel v n, (length v <= fuel)%nat -> text_value 10 0 v = Some n ->
  digs (cut_digits fuel v) /\ val (cut_digits fuel v) = n.
Proof.
  induction fuel as [|fuel IH]; intros v n Hl Hv; cbn [cut_digits].
  { destruct v; [|cbn in Hl; lia]. cbn in Hv. injection Hv as <-. split; [constructor|reflexivity]. }
  destruct v as [|b v0] eqn:Ev. { cbn in Hv. injection Hv as <-. split; [constructor|reflexivity]. }
  rewrite <- Ev in *. assert (Hv0 : (0 < length v)%nat) by (rewrite Ev; cbn; lia). clear Ev b v0.
  set (min := (length v - 7)%nat). rewrite <- (take_drop min v) in Hv. rewrite text_value_app in Hv.
  destruct (text_value 10 0 (take min v)) as [hi|] eqn:Ehi; [|discriminate].
  pose proof (text_value_acc 10 (take min v) ltac:(lia) 0 hi ltac:(lia) Ehi) as (hi' & Ehi' & _ & Hhi).
  rewrite Ehi in Ehi'. injection Ehi' as <-.
  destruct (text_value_acc 10 (drop min v) ltac:(lia) hi n ltac:(lia) Hv) as (lo & Elo & En & Hlo).
  rewrite (digits_number_text _ _ _ Elo). cbn [default from_option]. unfold id.
  assert (Hlen : (length (drop min v) <= 7)%nat) by (rewrite drop_length; lia).
  assert (P : 10 ^ Z.of_nat (length (drop min v)) <= 10 ^ 7) by (apply Z.pow_le_mono_r; lia). change (10 ^ 7) with 10000000 in P.
  destruct (IH (take min v) hi) as (I1 & I2); [rewrite take_length; lia|exact Ehi|].
  split; [constructor; [unfold digit; lia|exact I1]|]. rewrite val_cons, I2.
  destruct (decide (7 <= length v)%nat) as [H7|H7].
  - assert (length (drop min v) = 7%nat) as L7 by (rewrite drop_length; lia). rewrite L7 in En.
    change (10 ^ Z.of_nat 7) with 10000000 in En. lia.
  - assert (min = 0%nat) as Hmin by lia. rewrite Hmin in Ehi. cbn in Ehi. injection Ehi as <-. lia.
Qed.
Lemma minus_not_digit t v r : text_value r 0 t = Some v -> hd_error t <> Some x2d.
Proof. destruct t as [|b t]; [done|]. cbn [text_value hd_error]. intros H [= ->]. discriminate H. Qed.

Theorem parse_string_spec ds n s : ds <> [] -> text_value 10 0 ds = Some n ->
  exists i, parse_string ((if (s : bool) then txt "-" else []) ++ ds) = Some i /\ stands_for i (signed s n).
Proof.
  intros Hne Hn. unfold parse_string.
  assert (Hsign : match (if s then txt "-" else []) ++ ds with b :: _ => Byte.eqb b x2d | [] => false end = s).
  { destruct s; [reflexivity|]. cbn [app]. destruct ds as [|b ds]; [done|].
    pose proof (minus_not_digit _ _ _ Hn) as H. cbn [hd_error] in H. destruct (Byte.eqb b x2d) eqn:E; [|reflexivity].
    apply Byte.byte_dec_bl in E. congruence. }
  rewrite Hsign. cbv zeta.
  assert (Hds : (if s then drop 1 ((if s then txt "-" else []) ++ ds) else (if s then txt "-" else []) ++ ds) = ds) by by destruct s.
  rewrite Hds. pose proof (digits_number_text _ _ _ Hn) as Hdn.
  pose proof (text_value_acc 10 ds ltac:(lia) 0 n ltac:(lia) Hn) as (n' & En & _ & Hn0). rewrite Hn in En. injection En as <-.
  destruct ds as [|b ds0] eqn:Eds; [done|]. rewrite Hdn, <- Eds in *.
  change (if s then - n else n) with (signed s n). destruct (is_precise (rnd (signed s n))) eqn:Hp.
  - apply rnd_precise in Hp as (Hx & Hp). rewrite Hx. eexists. split; [reflexivity|]. by apply mk_small_spec.
  - apply rnd_imprecise in Hp. rewrite signed_abs in Hp by lia.
    destruct (cut_digits_spec (length ds) ds n ltac:(lia) Hn) as (C1 & C2).
    eexists. split; [reflexivity|]. eapply stands_eq; [apply big_intro; [by apply trim_digs|apply trim_canon|]|].
    + rewrite trim_val, C2. lia.
    + by rewrite trim_val, C2.
Qed.
