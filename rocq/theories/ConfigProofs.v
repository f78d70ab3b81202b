(** * ConfigProofs: lemmas about config.rs and utils.rs *)

From Verif Require Export Config Utils SpecOpcodes.
Local Open Scope N_scope.

(** ** Opcode filter *)

Lemma two64_pow : two64 = 2 ^ 64.
Proof. reflexivity. Qed.

Lemma from_limbs_testbit l : Forall (fun x => x < two64) l -> forall i,
  N.testbit (from_limbs l) i = match l !! N.to_nat (i / 64) with Some x => N.testbit x (i mod 64) | None => false end.
Proof.
  induction l as [|x l IH]; intros Hl i; [by rewrite N.bits_0|].
  inversion_clear Hl as [|? ? Hx Hl']. specialize (IH Hl').
  change (from_limbs (x :: l)) with (x + two64 * from_limbs l). set (acc := from_limbs l) in *.
  rewrite two64_pow in *.
  destruct (N.lt_ge_cases i 64) as [Hi|Hi].
  - rewrite N.div_small by done. cbn [N.to_nat lookup list_lookup]. rewrite N.mod_small by done.
    rewrite <-(N.mod_pow2_bits_low _ 64) by done.
    rewrite N.mul_comm, N.mod_add, N.mod_small by done. done.
  - replace i with (i - 64 + 64) by lia.
    rewrite <-N.div_pow2_bits.
    rewrite N.mul_comm, N.div_add, N.div_small, N.add_0_l by done. rewrite IH.
    replace (i - 64 + 64) with (i - 64 + 1 * 64) by lia.
    rewrite N.div_add, N.mod_add by done.
    rewrite N2Nat.inj_add, Nat.add_1_r. done.
Qed.

Lemma into_limbs_bound f : Forall (fun x => x < two64) (into_limbs f).
Proof. repeat constructor; by apply N.mod_lt. Qed.

Lemma into_limbs_lookup f k : (k < 4)%nat ->
  into_limbs f !! k = Some ((f / 2 ^ (64 * N.of_nat k)) mod 2 ^ 64).
Proof.
  intros Hk. destruct k as [|[|[|[|k]]]]; [..|lia]; cbn [into_limbs lookup list_lookup]; try done.
  by rewrite N.div_1_r.
Qed.

Lemma limb_testbit f k b : b < 64 -> N.testbit ((f / 2 ^ (64 * k)) mod 2 ^ 64) b = N.testbit f (64 * k + b).
Proof.
  intros Hb. rewrite N.mod_pow2_bits_low by done. rewrite N.div_pow2_bits. f_equal. lia.
Qed.

Lemma high_testbit f i : f < 2 ^ 256 -> 256 <= i -> N.testbit f i = false.
Proof.
  intros Hf Hi. destruct (N.eq_dec f 0) as [->|Hz]; [by rewrite N.bits_0|].
  apply N.bits_above_log2. apply N.log2_lt_pow2; [lia|].
  eapply N.lt_le_trans; [exact Hf|]. apply N.pow_le_mono_r; lia.
Qed.

Lemma lor_bound x b : x < two64 -> b < 64 -> N.lor x (N.shiftl 1 b) < two64.
Proof.
  intros Hx Hb. rewrite two64_pow in *.
  rewrite N.shiftl_1_l.
  destruct (N.eq_dec (N.lor x (2 ^ b)) 0) as [->|Hz]; [done|].
  apply N.log2_lt_pow2; [lia|]. rewrite N.log2_lor, N.log2_pow2 by lia.
  apply N.max_lub_lt; [|done].
  destruct (N.eq_dec x 0) as [->|Hx0]; [done|]. apply N.log2_lt_pow2; lia.
Qed.

Lemma filter_enabled_testbit f op i : f < 2 ^ 256 -> op < 256 ->
  N.testbit (filter_enabled f op) i = (op =? i) || N.testbit f i.
Proof.
  intros Hf Hop. unfold filter_enabled.
  assert (Hlimb : (N.to_nat (op / 64) < 4)%nat).
  { assert (op / 64 < 4) by (apply N.div_lt_upper_bound; lia). lia. }
  assert (Hbit : op mod 64 < 64) by (by apply N.mod_lt).
  rewrite from_limbs_testbit.
  2: { apply Forall_lookup. intros k x. destruct (decide (N.to_nat (op / 64) = k)) as [<-|Hne].
       - rewrite list_lookup_alter. destruct (into_limbs f !! N.to_nat (op / 64)) as [y|] eqn:Hy; [|done].
         intros [= <-]. apply lor_bound; [|done]. eapply (Forall_lookup_1 _ _ _ _ (into_limbs_bound f) Hy).
       - rewrite list_lookup_alter_ne by done. intros Hx.
         eapply (Forall_lookup_1 _ _ _ _ (into_limbs_bound f) Hx). }
  assert (Hi : i = 64 * (i / 64) + i mod 64) by (by apply N.div_mod).
  assert (Ho : op = 64 * (op / 64) + op mod 64) by (by apply N.div_mod).
  assert (Him : i mod 64 < 64) by (by apply N.mod_lt).
  destruct (N.lt_ge_cases i 256) as [Hlt|Hge].
  - assert (Hk : (N.to_nat (i / 64) < 4)%nat).
    { assert (i / 64 < 4) by (apply N.div_lt_upper_bound; lia). lia. }
    destruct (decide (N.to_nat (op / 64) = N.to_nat (i / 64))) as [He|Hne].
    + rewrite He, list_lookup_alter, into_limbs_lookup by done. cbn [fmap option_fmap option_map].
      rewrite N2Nat.id, N.lor_spec, limb_testbit by done. rewrite <-Hi, orb_comm. f_equal.
      rewrite N.shiftl_1_l, N.pow2_bits_eqb.
      destruct (N.eqb_spec (op mod 64) (i mod 64)); destruct (N.eqb_spec op i); try done; exfalso; [lia|congruence].
    + rewrite list_lookup_alter_ne by done. rewrite into_limbs_lookup by done.
      rewrite N2Nat.id, limb_testbit by done. rewrite <-Hi.
      destruct (N.eqb_spec op i) as [->|]; [done|]. done.
  - rewrite (high_testbit f i Hf Hge), orb_false_r.
    destruct (N.eqb_spec op i) as [->|]; [lia|].
    assert (Hge4 : (4 <= N.to_nat (i / 64))%nat).
    { assert (4 <= i / 64) by (apply N.div_le_lower_bound; lia). lia. }
    rewrite lookup_ge_None_2; [done|]. rewrite alter_length. done.
Qed.

Lemma filter_enable_testbit f op i : op < 256 ->
  N.testbit (filter_enable f op) i = (op =? i) || N.testbit f i.
Proof.
  intros Hop. unfold filter_enable. apply N.ltb_lt in Hop as ->.
  by rewrite N.setbit_eqb.
Qed.

Lemma bits_bound x : (forall i, 256 <= i -> N.testbit x i = false) -> x < 2 ^ 256.
Proof.
  intros H. destruct (N.eq_dec x 0) as [->|Hz]; [done|]. apply N.log2_lt_pow2; [lia|].
  destruct (N.lt_ge_cases (N.log2 x) 256) as [|Hge]; [done|].
  specialize (H _ Hge). by rewrite N.bit_log2 in H.
Qed.

Lemma filter_variants f op : f < 2 ^ 256 -> op < 256 -> filter_enabled f op = filter_enable f op.
Proof.
  intros Hf Hop. apply N.bits_inj. intros i. rewrite filter_enabled_testbit, filter_enable_testbit by done. done.
Qed.

Lemma filter_enable_bound f op : f < 2 ^ 256 -> op < 256 -> filter_enable f op < 2 ^ 256.
Proof.
  intros Hf Hop. apply bits_bound. intros i Hi. rewrite filter_enable_testbit by done.
  rewrite (high_testbit f i Hf Hi). destruct (N.eqb_spec op i); [lia|done].
Qed.

(** ** Hex *)

Lemma hex_byte_decode b : exists x y, hex_byte b = [x; y] /\ hex_value x = Some (Byte.to_N b / 16) /\
  hex_value y = Some (Byte.to_N b mod 16).
Proof. destruct b; do 2 eexists; (split; [reflexivity|]); split; reflexivity. Qed.

Lemma hex_encode_decode l : hex_decode (hex_encode l) = Some l.
Proof.
  induction l as [|b l IH]; [done|]. unfold hex_encode. cbn [flat_map].
  destruct (hex_byte_decode b) as (x & y & -> & Hx & Hy). cbn [app hex_decode]. fold (hex_encode l).
  rewrite Hx, Hy, IH. rewrite <-N.div_mod by done. by rewrite Byte.of_to_N.
Qed.

Lemma hex_encode_length l : length (hex_encode l) = (2 * length l)%nat.
Proof. induction l as [|b l IH]; [done|]. unfold hex_encode in *. cbn [flat_map app length hex_byte]. rewrite IH. lia. Qed.

Lemma hex_encode_digits l : Forall (fun c => hex_value c <> None) (hex_encode l).
Proof.
  induction l as [|b l IH]; [constructor|]. unfold hex_encode. cbn [flat_map].
  destruct (hex_byte_decode b) as (x & y & -> & Hx & Hy).
  constructor; [congruence|]. constructor; [congruence|]. done.
Qed.

Local Open Scope nat_scope.
(** Characterisation of the chunk loop: the data padded to a multiple of 32, cut into 32-byte pieces. *)
Lemma convert_chunks_spec fuel : forall data, length data < fuel ->
  exists chunks, convert_chunks fuel data = map hex_encode chunks /\ Forall (fun c => length c = 32) chunks /\
    concat chunks = data ++ replicate (32 * length chunks - length data) x00 /\
    length data <= 32 * length chunks < length data + 32.
Proof.
  induction fuel as [|fuel IH]; intros data Hlt; [lia|]. cbn [convert_chunks].
  destruct (Nat.leb_spec 32 (length data)) as [Hge|Hlt32].
  - destruct (IH (drop 32 data)) as (cs & Hcs & Hall & Hcat & Hlen); [rewrite drop_length; lia|].
    exists (take 32 data :: cs). cbn [map concat length]. rewrite Hcs, Hcat.
    split; [done|]. rewrite drop_length in *. split; [|split].
    + constructor; [|done]. rewrite take_length. lia.
    + rewrite app_assoc, take_drop. f_equal. f_equal. lia.
    + lia.
  - destruct data as [|b data]; [exists []; cbn; repeat split; [constructor|lia..]|].
    exists [(b :: data) ++ replicate (32 - length (b :: data)) x00]. split; [done|]. split; [|split].
    + constructor; [|constructor]. rewrite app_length, replicate_length. lia.
    + cbn [concat]. by rewrite app_nil_r.
    + cbn [length] in *. lia.
Qed.
