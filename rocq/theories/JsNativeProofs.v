(** * JsNativeProofs: numbers, buffers, memory, stack and database access *)

From Verif Require Export SpecJs.
Local Open Scope N_scope.

(** ** Numbers *)

Lemma Qle_int z q : (inject_Z z <= q)%Q <-> (z * Zpos (Qden q) <= Qnum q)%Z.
Proof. unfold Qle, inject_Z. cbn. by rewrite Z.mul_1_r. Qed.
Lemma Qlt_int z q : (q < inject_Z z)%Q <-> (Qnum q < z * Zpos (Qden q))%Z.
Proof. unfold Qlt, inject_Z. cbn. by rewrite Z.mul_1_r. Qed.
Lemma jlt_zero q : jlt (JFinite q) jzero = true <-> (Qnum q < 0)%Z.
Proof.
  cbn [jlt jzero]. unfold jzero. rewrite negb_true_iff. destruct (Qle_bool 0 q) eqn:E.
  - apply Qle_bool_iff in E. unfold Qle in E. cbn in E. split; [done|]. lia.
  - split; [|done]. intros _. destruct (Z.lt_ge_cases (Qnum q) 0) as [|H]; [done|]. exfalso.
    assert (H' : Qle_bool 0 q = true); [|congruence]. apply Qle_bool_iff. unfold Qle. cbn. lia.
Qed.

Lemma position_floor q i : position (JFinite q) i <-> (0 <= Qnum q)%Z /\ i = Z.to_N (Qnum q / Zpos (Qden q)).
Proof.
  split.
  - intros H. inversion_clear H as [|? ? H1 H2]. apply Qle_int in H1. apply Qlt_int in H2. split; [nia|].
    rewrite <- (Z.div_unique (Qnum q) (Zpos (Qden q)) (Z.of_N i) (Qnum q - Z.of_N i * Zpos (Qden q))); [by rewrite N2Z.id|left|]; lia.
  - intros [H ->]. assert (H0 : (0 <= Qnum q / Zpos (Qden q))%Z) by (by apply Z.div_pos).
    constructor; rewrite Z2N.id by done; [apply Qle_int|apply Qlt_int];
      pose proof (Z.div_mod (Qnum q) (Zpos (Qden q)) ltac:(done)); pose proof (Z.mod_pos_bound (Qnum q) (Zpos (Qden q)) ltac:(done)); nia.
Qed.

Lemma position_cast n i max : position n i -> jcast max n = N.min max i /\ jlt n jzero = false.
Proof.
  intros H. destruct n as [| | |q]; try by inversion H.
  - inversion H. split; [cbn; lia|done].
  - apply position_floor in H as [H ->]. split.
    + cbn. rewrite Z.quot_div_nonneg by lia. done.
    + apply not_true_is_false. rewrite jlt_zero. lia.
Qed.
Lemma position_exists n : jlt n jzero = false -> n <> JPosInf -> exists i, position n i.
Proof.
  intros H Hi. destruct n as [| | |q]; [exists 0; constructor|done|done|].
  eexists. apply position_floor. split; [|done]. destruct (Z.lt_ge_cases (Qnum q) 0) as [Hl|]; [|done].
  apply jlt_zero in Hl. congruence.
Qed.
Lemma position_neg n i : position n i -> jlt n jzero = false.
Proof. intros H. by apply (position_cast n i 0) in H as [_ H]. Qed.
Lemma position_usize n i : position n i -> i <= USIZE_MAX -> as_usize n = i.
Proof. intros H Hi. apply (position_cast n i USIZE_MAX) in H as [H _]. unfold as_usize. rewrite H. lia. Qed.
Lemma position_usize_big n i : position n i -> USIZE_MAX < i -> as_usize n = USIZE_MAX.
Proof. intros H Hi. apply (position_cast n i USIZE_MAX) in H as [H _]. unfold as_usize. rewrite H. lia. Qed.
Lemma jcast_max max n : jcast max n <= max.
Proof. destruct n; cbn; lia. Qed.
Lemma position_fun n i j : position n i -> position n j -> i = j.
Proof.
  destruct n as [| | |q]; [|by inversion 1|by inversion 1|]; [inversion 1; by inversion 1|].
  intros [_ ->]%position_floor [_ ->]%position_floor. done.
Qed.

(** ** Buffers *)

Lemma be_value_from l : forall a, fold_left (fun acc b => 256 * acc + Byte.to_N b) l a = a * 256 ^ N.of_nat (length l) + be_value l.
Proof.
  unfold be_value. induction l as [|b l IH]; intros a; cbn [fold_left length].
  - cbn. lia.
  - rewrite IH, (IH (256 * 0 + _)), Nat2N.inj_succ, N.pow_succ_r'. ring.
Qed.
Lemma be_value_app a b : be_value (a ++ b) = be_value a * 256 ^ N.of_nat (length b) + be_value b.
Proof. unfold be_value at 1. rewrite fold_left_app. apply be_value_from. Qed.
Lemma byte_lt b : Byte.to_N b < 256.
Proof. pose proof (Byte.to_N_bounded b). lia. Qed.
Lemma be_value_lt l : be_value l < 256 ^ N.of_nat (length l).
Proof.
  induction l as [|b l IH]; [done|]. change (b :: l) with ([b] ++ l). rewrite be_value_app, app_length.
  cbn [length]. rewrite Nat.add_1_l, Nat2N.inj_succ, N.pow_succ_r'. unfold be_value at 1. cbn [fold_left].
  pose proof (byte_lt b). nia.
Qed.
Lemma be_value_zeros n : be_value (replicate n x00) = 0.
Proof. induction n as [|n IH]; [done|]. cbn [replicate]. change (x00 :: ?l) with ([x00] ++ l). rewrite be_value_app, IH. done. Qed.
Lemma be_value_inj a : forall b, length a = length b -> be_value a = be_value b -> a = b.
Proof.
  induction a as [|x a IH]; intros [|y b] Hl Hv; try done. injection Hl as Hl.
  change (x :: a) with ([x] ++ a) in Hv. change (y :: b) with ([y] ++ b) in Hv. rewrite !be_value_app, Hl in Hv.
  pose proof (be_value_lt a) as Ha. pose proof (be_value_lt b) as Hb. rewrite Hl in Ha.
  unfold be_value at 1 3 in Hv. cbn [fold_left] in Hv.
  assert (Hxy : Byte.to_N x = Byte.to_N y) by nia. f_equal; [|apply IH; [done|nia]].
  apply (f_equal Byte.of_N) in Hxy. rewrite !Byte.of_to_N in Hxy. congruence.
Qed.

(** Right alignment: zeros, then the last [n] bytes. *)
Lemma bytes_to_array_eq n buf : bytes_to_array n buf = Ok (replicate (n - length buf) x00 ++ drop (length buf - n) buf).
Proof.
  unfold bytes_to_array. destruct (Nat.ltb_spec n (length buf)) as [H|H].
  - assert (Hl : length (drop (length buf - n) buf) = n) by (rewrite drop_length; lia).
    rewrite Hl. destruct (Nat.ltb_spec n n); [lia|]. unfold copy_tail. rewrite replicate_length, Hl.
    destruct (Nat.ltb_spec n (n - n)); [lia|]. destruct (Nat.eqb_spec (n - (n - n)) n); [|lia].
    rewrite Nat.sub_diag. replace (n - length buf)%nat with 0%nat by lia. done.
  - destruct (Nat.ltb_spec n (length buf)); [lia|]. unfold copy_tail. rewrite replicate_length.
    destruct (Nat.ltb_spec n (n - length buf)); [lia|]. destruct (Nat.eqb_spec (n - (n - length buf)) (length buf)); [|lia].
    rewrite take_replicate. replace (length buf - n)%nat with 0%nat by lia. rewrite drop_0.
    f_equal. f_equal. f_equal. lia.
Qed.
Lemma bytes_to_array_spec n buf : exists a, bytes_to_array n buf = Ok a /\ length a = n /\
  be_value a = be_value buf mod 256 ^ N.of_nat n.
Proof.
  eexists. split; [apply bytes_to_array_eq|]. split.
  - rewrite app_length, replicate_length, drop_length. lia.
  - rewrite be_value_app, be_value_zeros, N.mul_0_l, N.add_0_l.
    assert (Hp : 256 ^ N.of_nat n <> 0) by (by apply N.pow_nonzero).
    destruct (Nat.le_gt_cases (length buf) n) as [H|H].
    + replace (length buf - n)%nat with 0%nat by lia. rewrite drop_0. symmetry. apply N.mod_small.
      eapply N.lt_le_trans; [apply be_value_lt|]. apply N.pow_le_mono_r; [done|lia].
    + replace (be_value buf) with (be_value (take (length buf - n) buf ++ drop (length buf - n) buf)) by (by rewrite take_drop).
      rewrite be_value_app, drop_length.
      replace (length buf - (length buf - n))%nat with n by lia.
      rewrite N.add_comm, N.mod_add by done. symmetry. apply N.mod_small.
      eapply N.lt_le_trans; [apply be_value_lt|]. rewrite drop_length. apply N.pow_le_mono_r; [done|lia].
Qed.

(** The bytes a number array stands for. *)
Definition num_byte (b : byte) : jsnum := JFinite (inject_Z (Z.of_N (Byte.to_N b))).
Lemma u8_byte_num b : u8_byte (num_byte b) = b.
Proof.
  unfold u8_byte, as_u8, num_byte. cbn. rewrite Z.quot_1_r, N2Z.id. pose proof (byte_lt b).
  rewrite N.min_r by lia. by rewrite Byte.of_to_N.
Qed.
Lemma map_u8_byte l : map u8_byte (map num_byte l) = l.
Proof. rewrite map_map. induction l as [|b l IH]; [done|]. cbn [map]. by rewrite u8_byte_num, IH. Qed.
Lemma array_bytes_num l : array_bytes (map (fun b => Some (num_byte b)) l) = JReturn l.
Proof. induction l as [|b l IH]; [done|]. cbn [map array_bytes]. rewrite IH. cbn [jbind]. by rewrite u8_byte_num. Qed.

(** ** Hex *)

Lemma hex_digit_value n : n < 16 -> hex_value (hex_digit n) = Some n.
Proof.
  intros H. assert (Hc : n ∈ [0;1;2;3;4;5;6;7;8;9;10;11;12;13;14;15]).
  { assert (n = 0 \/ n = 1 \/ n = 2 \/ n = 3 \/ n = 4 \/ n = 5 \/ n = 6 \/ n = 7 \/ n = 8 \/ n = 9 \/ n = 10 \/ n = 11 \/ n = 12 \/ n = 13 \/ n = 14 \/ n = 15) by lia.
    set_solver. }
  repeat (apply elem_of_cons in Hc as [->|Hc]; [reflexivity|]). by apply elem_of_nil in Hc.
Qed.
Lemma hex_pairs_encode l : hex_pairs (hex_encode l) = Some l.
Proof.
  induction l as [|b l IH]; [done|]. change (hex_encode (b :: l)) with
    (hex_digit (Byte.to_N b / 16) :: hex_digit (Byte.to_N b mod 16) :: hex_encode l). cbn [hex_pairs].
  pose proof (byte_lt b). rewrite !hex_digit_value, IH; [|by apply N.mod_lt|by apply N.div_lt_upper_bound].
  rewrite <- N.div_mod by done. by rewrite Byte.of_to_N.
Qed.
Lemma hex_digit_not_x n : n < 16 -> hex_digit n <> x78.
Proof. intros H He. pose proof (hex_digit_value n H) as Hv. rewrite He in Hv. done. Qed.
Lemma strip_0x_encode l : strip_0x (hex_encode l) = hex_encode l.
Proof.
  destruct l as [|b l]; [done|]. change (hex_encode (b :: l)) with
    (hex_digit (Byte.to_N b / 16) :: hex_digit (Byte.to_N b mod 16) :: hex_encode l).
  assert (Hn : hex_digit (Byte.to_N b mod 16) <> x78) by (apply hex_digit_not_x; by apply N.mod_lt).
  destruct (hex_digit (Byte.to_N b / 16)); try done. destruct (hex_digit (Byte.to_N b mod 16)); done.
Qed.
Lemma hex_decode_encode l : hex_decode (hex_encode l) = Some l.
Proof. unfold hex_decode. by rewrite strip_0x_encode, hex_pairs_encode. Qed.
Lemma hex_decode_prefixed l : hex_decode (x30 :: x78 :: hex_encode l) = Some l.
Proof. unfold hex_decode. cbn [strip_0x]. apply hex_pairs_encode. Qed.

(** ** Which bytes a value stands for *)

Lemma u8_byte_spec n b : byte_of_num n b <-> u8_byte n = b.
Proof.
  assert (Hof : forall m, m <= 255 -> exists c, Byte.of_N m = Some c /\ Byte.to_N c = m).
  { intros m Hm. destruct (Byte.of_N m) as [c|] eqn:E.
    - exists c. split; [done|]. by apply Byte.to_of_N.
    - apply Byte.of_N_None_iff in E. lia. }
  assert (Hinj : forall c d, Byte.to_N c = Byte.to_N d -> c = d).
  { intros c d E. assert (Some c = Some d) by (rewrite <-(Byte.of_to_N c), <-(Byte.of_to_N d); by rewrite E). congruence. }
  unfold u8_byte, as_u8. split.
  - intros H. destruct H as [n b Hp|q Hq|q Hq| |]; [| | |done|done].
    + destruct (position_cast n (Byte.to_N b) 255 Hp) as [Hc _]. rewrite Hc.
      assert (N.min 255 (Byte.to_N b) = Byte.to_N b) as -> by (pose proof (byte_lt b); lia). by rewrite Byte.of_to_N.
    + cbn [jcast]. assert (Hz : Z.to_N (Z.quot (Qnum q) (Zpos (Qden q))) = 0).
      { assert (Hn : (Qnum q <= 0)%Z). { unfold Qlt in Hq. cbn in Hq. lia. }
        assert (Z.quot (Qnum q) (Zpos (Qden q)) <= 0)%Z; [|lia].
        rewrite <-(Z.opp_involutive (Qnum q)), Z.quot_opp_l by done. pose proof (Z.quot_pos (- Qnum q) (Zpos (Qden q)) ltac:(lia) ltac:(lia)). lia. }
      rewrite Hz. done.
    + cbn [jcast]. apply Qle_int in Hq. assert (Hz : 256 <= Z.to_N (Z.quot (Qnum q) (Zpos (Qden q)))).
      { assert (256 <= Z.quot (Qnum q) (Zpos (Qden q)))%Z; [|lia].
        rewrite <-(Z.quot_mul 256 (Zpos (Qden q))) by done. apply Z.quot_le_mono; lia. }
      rewrite N.min_l by lia. done.
  - intros <-. destruct n as [| | |q]; cbn [jcast].
    + apply bn_position. cbn. constructor.
    + cbn. apply bn_pos_inf.
    + cbn. apply bn_neg_inf.
    + destruct (Z.lt_ge_cases (Qnum q) 0) as [Hn|Hn].
      * assert (Hz : Z.to_N (Z.quot (Qnum q) (Zpos (Qden q))) = 0).
        { assert (Z.quot (Qnum q) (Zpos (Qden q)) <= 0)%Z; [|lia].
          rewrite <-(Z.opp_involutive (Qnum q)), Z.quot_opp_l by done. pose proof (Z.quot_pos (- Qnum q) (Zpos (Qden q)) ltac:(lia) ltac:(lia)). lia. }
        rewrite Hz. cbn. apply bn_below. unfold Qlt. cbn. lia.
      * assert (Hd : Z.quot (Qnum q) (Zpos (Qden q)) = (Qnum q / Zpos (Qden q))%Z) by (apply Z.quot_div_nonneg; lia).
        rewrite Hd. destruct (Z.lt_ge_cases (Qnum q / Zpos (Qden q)) 256) as [Hs|Hs].
        -- rewrite N.min_r by lia. destruct (Hof (Z.to_N (Qnum q / Zpos (Qden q)))) as (c & -> & Hc); [lia|]. change (default x00 (Some c)) with c.
           apply bn_position. rewrite Hc. by apply position_floor.
        -- rewrite N.min_l by lia. cbn. apply bn_above. apply Qle_int.
           pose proof (Z.mul_div_le (Qnum q) (Zpos (Qden q)) ltac:(lia)). nia.
Qed.

Lemma digit_value c n : digit_of c n <-> hex_value c = Some (N.of_nat n).
Proof.
  split.
  - unfold digit_of. intros H. assert (Hn : (n < 16)%nat).
    { destruct H as [H|H]; apply lookup_lt_Some in H; exact H. }
    do 16 (destruct n as [|n]; [destruct H as [H|H]; cbn in H; injection H as <-; reflexivity|]). lia.
  - intros H. remember (N.of_nat n) as m eqn:Hm. assert (n = N.to_nat m) as -> by lia. clear Hm. revert H.
    unfold digit_of. destruct c; cbv [hex_value Byte.to_N Byte.to_bits]; intros H; vm_compute in H; try discriminate H;
      injection H as <-; vm_compute; (by left) || by right.
Qed.
Lemma hex_value_lt c n : hex_value c = Some n -> n < 16.
Proof. destruct c; vm_compute; intros H; try discriminate H; injection H as <-; reflexivity. Qed.
Lemma hex_pairs_digits s : forall d, hex_pairs s = Some d <-> digits_of s d.
Proof.
  assert (Hw : forall n (s : list byte), (length s <= n)%nat -> forall d, hex_pairs s = Some d <-> digits_of s d); [|by apply (Hw (length s))].
  clear s. induction n as [|n IH]; intros s Hn d.
  { destruct s; [|cbn in Hn; lia]. cbn. split; [intros [= <-]; constructor|intros H; by inversion H]. }
  destruct s as [|c1 [|c2 s]].
  - cbn. split; [intros [= <-]; constructor|intros H; by inversion H].
  - cbn. split; [done|intros H; by inversion H].
  - change (hex_pairs (c1 :: c2 :: s)) with (match hex_value c1, hex_value c2, hex_pairs s with
      | Some x, Some y, Some l => Some (default x00 (Byte.of_N (16 * x + y)) :: l) | _, _, _ => None end).
    cbn in Hn. split.
    + destruct (hex_value c1) as [x|] eqn:E1; [|done]. destruct (hex_value c2) as [y|] eqn:E2; [|done].
      destruct (hex_pairs s) as [l|] eqn:E3; [|done]. intros Hd. apply (inj Some) in Hd. subst d.
      pose proof (hex_value_lt _ _ E1). pose proof (hex_value_lt _ _ E2).
      apply (dg_cons _ _ (N.to_nat x) (N.to_nat y)).
      * apply digit_value. by rewrite N2Nat.id.
      * apply digit_value. by rewrite N2Nat.id.
      * destruct (Byte.of_N (16 * x + y)) as [c|] eqn:E; [|apply Byte.of_N_None_iff in E; lia].
        change (default x00 (Some c)) with c. apply Byte.to_of_N in E. rewrite E. lia.
      * apply IH; [lia|done].
    + intros H. inversion H as [|? ? h l b ? d' H1 H2 Hb H3]; subst.
      apply digit_value in H1, H2. rewrite H1, H2. apply IH in H3; [|lia]. rewrite H3.
      assert (16 * N.of_nat h + N.of_nat l = Byte.to_N b) as -> by lia. by rewrite Byte.of_to_N.
Qed.
Lemma strip_0x_cases s : (exists s', s = x30 :: x78 :: s' /\ strip_0x s = s') \/ (strip_0x s = s /\ forall s', s <> x30 :: x78 :: s').
Proof.
  destruct s as [|c1 [|c2 s]]; [by right|right; split; [by destruct c1|done]|].
  destruct (decide (c1 = x30)) as [->|Hn]; [|right; split; [by destruct c1|congruence]].
  destruct (decide (c2 = x78)) as [->|Hn]; [left; by eexists|right; split; [by destruct c2|congruence]].
Qed.
Lemma hex_decode_spec s d : hex_decode s = Some d <-> hex_text s d.
Proof.
  unfold hex_decode, hex_text. destruct (strip_0x_cases s) as [(s' & -> & ->)|[-> Hn]].
  - rewrite hex_pairs_digits. split; [intros H; right; by eexists|]. intros [H|(s'' & [= <-] & H)]; [|done].
    inversion H as [|? ? h l b ? d' H1 H2 Hb H3]; subst. apply digit_value in H2. discriminate H2.
  - rewrite hex_pairs_digits. split; [by left|]. intros [H|(s' & -> & _)]; [done|]. by destruct (Hn s').
Qed.
Lemma from_buf_value_spec v d : from_buf_value v = JReturn d <-> bytes_of_val v d.
Proof.
  destruct v as [l|[b|]|[s|]|l|[s|]|]; cbn [from_buf_value]; unfold hex_decode_js_string.
  - split.
    + revert d. induction l as [|[n|] l IH]; intros d; cbn [array_bytes].
      * intros [= <-]. constructor. constructor.
      * destruct (array_bytes l) as [r|] eqn:E; [|done]. cbn [jbind]. intros [= <-].
        specialize (IH r eq_refl). inversion IH as [? ? Hf| | | |]; subst. constructor. constructor; [|done].
        exists n. split; [done|]. by apply u8_byte_spec.
      * done.
    + intros H. inversion H as [? ? Hf| | | |]; subst. clear H. induction Hf as [|e b l d (n & -> & Hb) Hf IH]; [done|].
      cbn [array_bytes]. rewrite IH. cbn [jbind]. apply u8_byte_spec in Hb. by rewrite Hb.
  - split; [intros [= <-]; constructor|intros H; by inversion H].
  - split; [done|intros H; by inversion H].
  - split.
    + destruct (hex_decode s) eqn:E; [|done]. intros [= <-]. constructor. by apply hex_decode_spec.
    + intros H. inversion H as [| | | |? ? Ht]; subst. apply hex_decode_spec in Ht. by rewrite Ht.
  - split; [done|intros H; by inversion H].
  - split.
    + revert d. induction l as [|[n|] l IH]; intros d; cbn [array_bytes].
      * intros [= <-]. constructor. constructor.
      * destruct (array_bytes l) as [r|] eqn:E; [|done]. cbn [jbind]. intros [= <-].
        specialize (IH r eq_refl). inversion IH as [| |? ? Hf| |]; subst. constructor. constructor; [|done].
        exists n. split; [done|]. by apply u8_byte_spec.
      * done.
    + intros H. inversion H as [| |? ? Hf| |]; subst. clear H. induction Hf as [|e b l d (n & -> & Hb) Hf IH]; [done|].
      cbn [array_bytes]. rewrite IH. cbn [jbind]. apply u8_byte_spec in Hb. by rewrite Hb.
  - split.
    + destruct (hex_decode s) eqn:E; [|done]. intros [= <-]. constructor. by apply hex_decode_spec.
    + intros H. inversion H as [| | |? ? Ht|]; subst. apply hex_decode_spec in Ht. by rewrite Ht.
  - split; [done|intros H; by inversion H].
  - split; [done|intros H; by inversion H].
Qed.

(** ** Memory and stack *)

Lemma sm_slice_ok mem o n : o + n <= N.of_nat (length mem) -> sm_slice mem o n = Ok (range mem o (o + n)).
Proof.
  intros H. unfold sm_slice, range. destruct (N.leb_spec (o + n) (N.of_nat (length mem))); [|lia].
  do 2 f_equal. lia.
Qed.

Lemma get_uint_in mem n i : N.of_nat (length mem) <= USIZE_MAX -> position n i -> i + 32 <= N.of_nat (length mem) ->
  mem_get_uint (Some mem) (Some n) = Ok (JReturn (range mem i (i + 32))).
Proof.
  intros Hu Hp Hi. unfold mem_get_uint. rewrite (position_usize n i) by (done || lia).
  destruct (N.ltb_spec USIZE_MAX (i + 32)); [lia|]. cbn [mem_len mem_read].
  destruct (N.ltb_spec (N.of_nat (length mem)) (i + 32)); [lia|]. rewrite (position_neg n i) by done.
  rewrite sm_slice_ok by lia. done.
Qed.
Lemma get_uint_out mem n : N.of_nat (length mem) <= USIZE_MAX -> as_usize n + 32 <= USIZE_MAX ->
  (~ exists i, position n i /\ i + 32 <= N.of_nat (length mem)) -> mem_get_uint (Some mem) (Some n) = Ok JThrow.
Proof.
  intros Hu Ho Hn. unfold mem_get_uint. destruct (N.ltb_spec USIZE_MAX (as_usize n + 32)); [lia|]. cbn [mem_len mem_read].
  destruct (N.ltb_spec (N.of_nat (length mem)) (as_usize n + 32)) as [H1|H1]; [done|]. cbn [orb].
  destruct (jlt n jzero) eqn:Hj; [done|]. exfalso. apply Hn.
  destruct (position_exists n Hj) as [i Hi].
  { intros ->. cbn in Ho. unfold USIZE_MAX in Ho. lia. }
  exists i. split; [done|]. destruct (N.le_gt_cases i USIZE_MAX) as [Hle|Hgt].
  - by rewrite (position_usize n i) in H1.
  - rewrite (position_usize_big n i) in Ho by done. lia.
Qed.

Lemma peek_in st n i : N.of_nat (length st) <= USIZE_MAX -> position n i -> i < N.of_nat (length st) ->
  exists v, st !! (length st - 1 - N.to_nat i)%nat = Some v /\
  stack_peek (N.of_nat (length st)) (Some st) (Some n) = JReturn v.
Proof.
  intros Hu Hp Hi. destruct (lookup_lt_is_Some_2 st (length st - 1 - N.to_nat i)) as [v Hv]; [lia|].
  exists v. split; [done|]. unfold stack_peek. rewrite (position_usize n i) by (done || lia).
  destruct (N.leb_spec (N.of_nat (length st)) i); [lia|]. rewrite (position_neg n i) by done. cbn [orb stack_ref_peek].
  unfold stack_peek_rs. destruct (N.leb_spec (N.of_nat (length st)) i); [lia|].
  replace (length st - N.to_nat i - 1)%nat with (length st - 1 - N.to_nat i)%nat by lia. by rewrite Hv.
Qed.
Lemma peek_out st n : N.of_nat (length st) <= USIZE_MAX ->
  (~ exists i, position n i /\ i < N.of_nat (length st)) -> stack_peek (N.of_nat (length st)) (Some st) (Some n) = JThrow.
Proof.
  intros Hu Hn. unfold stack_peek. destruct (N.leb_spec (N.of_nat (length st)) (as_usize n)) as [|Hl]; [done|]. cbn [orb].
  destruct (jlt n jzero) eqn:Hj; [done|]. exfalso. apply Hn. destruct (position_exists n Hj) as [i Hi].
  { intros ->. cbn in Hl. lia. }
  exists i. split; [done|]. destruct (N.le_gt_cases i USIZE_MAX) as [Hle|Hgt].
  - by rewrite (position_usize n i) in Hl.
  - rewrite (position_usize_big n i) in Hl by done. lia.
Qed.

(** ** Ranges *)

Lemma jlt_finite p q : jlt (JFinite p) (JFinite q) = true <-> (p < q)%Q.
Proof.
  cbn [jlt]. rewrite negb_true_iff. split.
  - intros H. apply Qnot_le_lt. intros Hl. apply Qle_bool_iff in Hl. congruence.
  - intros H. apply not_true_is_false. intros Hl%Qle_bool_iff. by apply Qle_not_lt in Hl.
Qed.
Lemma jlt_number a b : jlt a b = true <-> number_lt a b.
Proof.
  split.
  - destruct a as [| | |p], b as [| | |q]; intros H; try discriminate H; try constructor. by apply jlt_finite.
  - intros H. inversion H; subst; try reflexivity. by apply jlt_finite.
Qed.
Lemma jlt_number_false a b : jlt a b = false <-> ~ number_lt a b.
Proof. by rewrite <- jlt_number, not_true_iff_false. Qed.
Lemma jlt_finite_false p q : jlt (JFinite p) (JFinite q) = false <-> (q <= p)%Q.
Proof.
  rewrite <- not_true_iff_false, jlt_finite. split; [apply Qnot_lt_le|apply Qle_not_lt].
Qed.
Lemma position_mono p q i j : (p <= q)%Q -> position (JFinite p) i -> position (JFinite q) j -> i <= j.
Proof.
  intros Hpq Hi Hj. inversion_clear Hi as [|? ? H1 H2]. inversion_clear Hj as [|? ? H3 H4].
  assert (H : (inject_Z (Z.of_N i) < inject_Z (Z.of_N j + 1))%Q).
  { eapply Qle_lt_trans; [exact H1|]. by eapply Qle_lt_trans. }
  apply Qlt_int in H. cbn in H. lia.
Qed.
Lemma position_bound q len i : (q <= inject_Z (Z.of_N len))%Q -> position (JFinite q) i -> i <= len.
Proof.
  intros Hq Hi. inversion_clear Hi as [|? ? H1 H2].
  assert (H : (inject_Z (Z.of_N i) <= inject_Z (Z.of_N len))%Q) by (by eapply Qle_trans). apply Qle_int in H. cbn in H. lia.
Qed.

(** ** Retained objects *)

Lemma mem_slice_dead s e : (exists r, mem_slice None s e = Ok r) \/ mem_slice None s e = Panic PUnderflow.
Proof.
  unfold mem_slice. destruct s as [s|]; [|left; by eexists]. destruct e as [e|]; [|left; by eexists].
  destruct (jlt e s || _ || _); [left; by eexists|]. destruct (as_usize e <? as_usize s); [by right|]. cbn. left. by eexists.
Qed.

Lemma slice_to_end mem start end_ i : N.of_nat (length mem) <= USIZE_MAX ->
  in_range start end_ (N.of_nat (length mem)) i (N.of_nat (length mem)) ->
  mem_slice (Some mem) (Some start) (Some end_) = Ok (JReturn (range mem i (N.of_nat (length mem)))).
Proof.
  intros Hu (p & q & -> & -> & Hp & Hpq & Hq & Hi & Hj). unfold mem_slice.
  pose proof (position_mono p q _ _ Hpq Hi Hj) as Hle.
  rewrite (position_usize _ _ Hi) by lia. rewrite (position_usize _ _ Hj) by lia. cbn [mem_len mem_read].
  rewrite N.ltb_irrefl, orb_false_r. rewrite (position_neg _ _ Hi), orb_false_r.
  assert (Hj' : jlt (JFinite q) (JFinite p) = false) by (by apply jlt_finite_false). rewrite Hj'.
  destruct (N.ltb_spec (N.of_nat (length mem)) i); [lia|]. rewrite sm_slice_ok by lia. cbn [rbind].
  replace (i + (N.of_nat (length mem) - i)) with (N.of_nat (length mem)) by lia. done.
Qed.
Lemma slice_short mem start end_ j : N.of_nat (length mem) <= USIZE_MAX -> position end_ j -> j < N.of_nat (length mem) ->
  mem_slice (Some mem) (Some start) (Some end_) = Ok JThrow.
Proof.
  intros Hu Hj Hl. unfold mem_slice. rewrite (position_usize _ _ Hj) by lia. cbn [mem_len].
  destruct (N.ltb_spec j (N.of_nat (length mem))); [|lia]. by rewrite orb_true_r.
Qed.
