(** * ReasonProofs: the decoder of revert data *)

From Verif Require Import AgreeProofs WriterUtf8.
From Verif Require Export SpecReason.
Local Open Scope N_scope.

(** ** Numbers *)

Lemma be_value_snoc l b : be_value (l ++ [b]) = be_value l * 256 + Byte.to_N b.
Proof. unfold be_value. by rewrite fold_left_app. Qed.
Lemma big_endian_length k n : length (big_endian k n) = k.
Proof. revert n. induction k as [|k IH]; intros n; [done|]. cbn [big_endian]. rewrite app_length, IH. cbn. lia. Qed.
Lemma byte_of_to n : n < 256 -> Byte.to_N (default x00 (Byte.of_N n)) = n.
Proof.
  intros H. destruct (Byte.of_N n) as [b|] eqn:E; cbn [default from_option id].
  - by apply Byte.to_of_N.
  - apply Byte.of_N_None_iff in E. lia.
Qed.
Lemma byte_bound b : Byte.to_N b < 256.
Proof. pose proof (Byte.to_N_bounded b). lia. Qed.
Lemma be_value_big_endian k n : n < 256 ^ N.of_nat k -> be_value (big_endian k n) = n.
Proof.
  revert n. induction k as [|k IH]; intros n H.
  - cbn in H. cbn. lia.
  - cbn [big_endian]. rewrite be_value_snoc, byte_of_to by (apply N.mod_lt; lia).
    rewrite Nat2N.inj_succ, N.pow_succ_r' in H.
    rewrite IH by (apply N.div_lt_upper_bound; lia). pose proof (N.div_mod n 256). lia.
Qed.
Lemma big_endian_be_value l : big_endian (length l) (be_value l) = l.
Proof.
  induction l as [|b l IH] using rev_ind; [done|]. rewrite app_length, Nat.add_comm. cbn [length Nat.add big_endian].
  rewrite be_value_snoc. pose proof (byte_bound b).
  assert (E1 : (be_value l * 256 + Byte.to_N b) / 256 = be_value l).
  { rewrite N.div_add_l by lia. rewrite N.div_small by done. lia. }
  assert (E2 : (be_value l * 256 + Byte.to_N b) mod 256 = Byte.to_N b).
  { rewrite N.add_comm, N.mod_add by lia. by apply N.mod_small. }
  rewrite E1, E2, IH, Byte.of_to_N. done.
Qed.
Lemma be_value_bound l : be_value l < 256 ^ N.of_nat (length l).
Proof.
  induction l as [|b l IH] using rev_ind; [cbn; lia|]. rewrite be_value_snoc, app_length, Nat.add_comm. cbn [length Nat.add].
  rewrite Nat2N.inj_succ, N.pow_succ_r'. pose proof (byte_bound b). lia.
Qed.

(** ** Characters *)

Ltac range_cases :=
  repeat match goal with
  | |- context [(?a <=? ?b)] => destruct (N.leb_spec a b)
  | |- context [match ?l !! ?k with _ => _ end] => destruct (l !! k) eqn:?
  end.

Lemma chunk_char c s : utf8_char c -> utf8_chunk (c ++ s) = (true, length c).
Proof.
  intros H. unfold utf8_chunk. inversion H; subst; unfold in_range in *; cbn [app lookup list_lookup length];
  repeat match goal with
  | |- context [?a <=? ?b] => first [rewrite (proj2 (N.leb_le a b)) by lia | rewrite (proj2 (N.leb_gt a b)) by lia]
  end; try reflexivity;
  cbn [andb orb]; repeat match goal with
  | |- context [?a <=? ?b] => destruct (N.leb_spec a b); try lia
  end; reflexivity.
Qed.

Ltac split_tests H :=
  repeat (match type of H with
  | context [?x <=? ?y] => destruct (N.leb_spec x y); try (exfalso; lia); cbn [andb orb] in H
  end).
Ltac a_char :=
  cbn [take];
  first [apply u1; unfold in_range; lia|apply u2; unfold in_range; lia|apply u3_e0; unfold in_range; lia
        |apply u3; [left; unfold in_range; lia|unfold in_range; lia..]
        |apply u3; [right; unfold in_range; lia|unfold in_range; lia..]
        |apply u3_ed; unfold in_range; lia|apply u4_f0; unfold in_range; lia|apply u4; unfold in_range; lia
        |apply u4_f4; unfold in_range; lia].

Lemma chunk_true l n : utf8_chunk l = (true, n) -> utf8_char (take n l) /\ (1 <= n <= length l)%nat.
Proof.
  intros H. unfold utf8_chunk in H.
  destruct l as [|a [|b [|c [|d r]]]]; cbn [lookup list_lookup] in H; cbn [andb orb] in H;
  split_tests H; try discriminate H; injection H as <-; (split; [a_char|cbn [length]; lia]).
Qed.

(** An invalid sequence: not the start of a character, and the longest beginning of one (or a single byte). *)
Lemma chunk_false l n : l <> [] -> utf8_chunk l = (false, n) ->
  (1 <= n <= length l)%nat /\ (n = 1%nat \/ begins_char (take n l)) /\
  (forall b u, drop n l = b :: u -> ~ begins_char (take n l ++ [b])).
Proof.
  intros Hl H. unfold utf8_chunk in H.
  destruct l as [|a [|b [|c [|d r]]]]; [done|..]; cbn [lookup list_lookup] in H; cbn [andb orb] in H;
  split_tests H; try discriminate H; injection H as <-; cbn [length take drop app].
  all: split; [lia|split; [first [by left|right]|]].
  all: try (intros b' u [= <- <-] [y Hy]; cbn [app] in Hy; inversion Hy; subst; unfold in_range in *; lia).
  all: try (intros b' u E; discriminate E).
  all: assert (H80 : Byte.to_N x80 = 128) by reflexivity.
  all: first [exists [x80]; cbn [app]; a_char|exists [x80; x80]; cbn [app]; a_char].
Qed.

Lemma no_char_of_false l n c u : utf8_chunk l = (false, n) -> utf8_char c -> l <> c ++ u.
Proof. intros H Hc ->. by rewrite chunk_char in H. Qed.

Lemma chunk_nonempty c : utf8_char c -> c <> [].
Proof. by inversion 1. Qed.
Lemma chunk_drop (l : list byte) n : (1 <= n <= length l)%nat -> (length (drop n l) < length l)%nat.
Proof. intros H. rewrite drop_length. lia. Qed.

(** ** Texts *)

Lemma utf8_loop_spec fuel l : (length l <= fuel)%nat -> utf8_loop fuel l = true <-> utf8 l.
Proof.
  revert l. induction fuel as [|fuel IH]; intros l Hl.
  - destruct l; [|cbn in Hl; lia]. split; [constructor|done].
  - destruct l as [|a l]; [split; [constructor|done]|]. cbn [utf8_loop]. set (t := a :: l) in *.
    destruct (utf8_chunk t) as [[] n] eqn:E; cbn [andb].
    + destruct (chunk_true _ _ E) as [Hc Hn]. rewrite IH by (pose proof (chunk_drop t n Hn); lia). split.
      * intros H. rewrite <- (take_drop n t). by constructor.
      * intros H. inversion H as [|c s Hc' Hs Ht]. rewrite <- Ht in E. rewrite chunk_char in E by done.
        injection E as <-. by rewrite drop_app.
    + split; [done|]. intros H. inversion H as [|c s Hc Hs Ht].
      exfalso. by apply (no_char_of_false t n c s E Hc).
Qed.
Lemma from_utf8_spec l t : from_utf8 l = Some t <-> utf8 l /\ t = l.
Proof.
  unfold from_utf8. pose proof (utf8_loop_spec (length l) l (le_n _)) as H.
  destruct (utf8_loop _ _); [|split; [done|]; intros [Hu _]; by apply H in Hu].
  split; [intros [= <-]; split; [by apply H|done]|by intros [_ ->]].
Qed.

Lemma lossy_replaced fuel l : (length l <= fuel)%nat -> replaced l (lossy_loop fuel l).
Proof.
  revert l. induction fuel as [|fuel IH]; intros l Hl.
  - destruct l; [|cbn in Hl; lia]. constructor.
  - destruct l as [|a l]; [constructor|]. cbn [lossy_loop]. set (t := a :: l) in *.
    destruct (utf8_chunk t) as [[] n] eqn:E.
    + destruct (chunk_true _ _ E) as [Hc Hn]. rewrite <- (take_drop n t) at 1.
      apply rp_char; [done|]. apply IH. pose proof (chunk_drop t n Hn); lia.
    + destruct (chunk_false t n) as (Hn & Hb & Hm); [done|done|]. rewrite <- (take_drop n t) at 1. apply rp_bad.
      * intros c u Hc. rewrite take_drop. by apply no_char_of_false with (n := n).
      * intros Ht. apply (f_equal length) in Ht. rewrite take_length in Ht. cbn [length] in Ht. lia.
      * destruct Hb as [->|Hb]; [left|by right]. rewrite take_length. lia.
      * exact Hm.
      * apply IH. pose proof (chunk_drop t n Hn); lia.
Qed.

Lemma replaced_inv l t : replaced l t ->
  (l = [] /\ t = []) \/
  (exists c s u, l = c ++ s /\ t = c ++ u /\ utf8_char c /\ replaced s u) \/
  (exists x s u, l = x ++ s /\ t = [xef; xbf; xbd] ++ u /\ (forall c v, utf8_char c -> x ++ s <> c ++ v) /\
     x <> [] /\ (length x = 1%nat \/ begins_char x) /\ (forall b v, s = b :: v -> ~ begins_char (x ++ [b])) /\ replaced s u).
Proof.
  destruct 1 as [|c s t Hc Hs|x s t Hno Hx Hb Hm Hs]; [by left|right; left; by exists c, s, t|].
  right; right. exists x, s, t. by split_and!.
Qed.

(** Of two invalid sequences at the same place neither is shorter. *)
Lemma bad_not_shorter (x s x2 s2 : list byte) : x ++ s = x2 ++ s2 -> x2 <> [] ->
  (length x = 1%nat \/ begins_char x) -> (forall b u, s2 = b :: u -> ~ begins_char (x2 ++ [b])) ->
  (length x <= length x2)%nat.
Proof.
  intros Hl Hx2 Hb Hm. destruct (le_lt_dec (length x) (length x2)) as [L|L]; [done|exfalso].
  assert (E : x2 = take (length x2) x).
  { rewrite <- (take_app x2 s2) at 1. rewrite <- Hl, take_app_le by lia. done. }
  rewrite E in Hl. rewrite <- (take_drop (length x2) x), <- E in Hl at 1. rewrite <- app_assoc, <- E in Hl.
  apply app_inv_head in Hl. destruct (drop (length x2) x) as [|b k] eqn:Ed.
  { apply (f_equal length) in Ed. rewrite drop_length in Ed. cbn in Ed. lia. }
  apply (Hm b (k ++ s)); [by rewrite <- Hl|]. destruct Hb as [Hb|[y Hb]].
  - destruct x2; [done|cbn in L; lia].
  - exists (k ++ y). rewrite <- (take_drop (length x2) x), <- E, Ed, <- app_assoc in Hb. by rewrite <- app_assoc.
Qed.

Lemma replaced_functional l t : replaced l t -> forall t', replaced l t' -> t = t'.
Proof.
  induction 1 as [|c s t Hc Hs IH|x s t Hno Hx Hb Hm Hs IH]; intros t' H'; apply replaced_inv in H';
    destruct H' as [[Hl ->]|[(c2 & s2 & u & Hl & -> & Hc2 & Hs2)|(x2 & s2 & u & Hl & -> & Hno2 & Hx2 & Hb2 & Hm2 & Hs2)]].
  - done.
  - exfalso. symmetry in Hl. apply app_eq_nil in Hl as [E _]. by apply (chunk_nonempty c2 Hc2).
  - exfalso. symmetry in Hl. apply app_eq_nil in Hl as [E _]. by apply Hx2.
  - exfalso. apply app_eq_nil in Hl as [E _]. by apply (chunk_nonempty c Hc).
  - assert (E : length c = length c2).
    { pose proof (chunk_char c s Hc) as E1. pose proof (chunk_char c2 s2 Hc2) as E2. rewrite <- Hl in E2. congruence. }
    apply app_inj_1 in Hl as [<- <-]; [|done]. f_equal. by apply IH.
  - exfalso. by apply (Hno2 c s Hc).
  - exfalso. apply app_eq_nil in Hl as [E _]. by apply Hx.
  - exfalso. by apply (Hno c2 s2 Hc2).
  - assert (E : length x = length x2).
    { pose proof (bad_not_shorter x s x2 s2 Hl Hx2 Hb Hm2). pose proof (bad_not_shorter x2 s2 x s (eq_sym Hl) Hx Hb2 Hm). lia. }
    apply app_inj_1 in Hl as [<- <-]; [|done]. f_equal. by apply IH.
Qed.
Lemma lossy_spec l t : replaced l t <-> t = from_utf8_lossy l.
Proof.
  split.
  - intros H. by apply (replaced_functional l t H), lossy_replaced.
  - intros ->. by apply lossy_replaced.
Qed.
Lemma replaced_utf8 l : utf8 l -> replaced l l.
Proof. induction 1; [constructor|by apply rp_char]. Qed.

(** ** Revert data *)

Lemma slice_spec buf pos len s : slice buf pos len = Some s <->
  pos + len <= N.of_nat (length buf) /\ s = take (N.to_nat len) (drop (N.to_nat pos) buf).
Proof.
  unfold slice. destruct (N.leb_spec (pos + len) (N.of_nat (length buf))) as [H|H].
  - split; [by intros [= <-]|by intros [_ ->]].
  - split; [done|]. intros [H' _]. lia.
Qed.
Lemma low_bytes (buf : list byte) pos n : take_offset buf pos = Some n <->
  pos + 32 <= N.of_nat (length buf) /\ take 8 (drop (N.to_nat pos + 24) buf) = big_endian 8 n /\ n < 2 ^ 64.
Proof.
  unfold take_offset. destruct (slice buf pos 32) as [w|] eqn:E.
  - apply slice_spec in E as [H ->]. change (N.to_nat 32) with (24 + 8)%nat.
    rewrite <- take_drop_commute, drop_drop.
    set (l := take 8 (drop (N.to_nat pos + 24) buf)).
    assert (Hl : length l = 8%nat) by (unfold l; rewrite take_length, drop_length; lia).
    split.
    + intros [= <-]. split_and!; [done| |]; [rewrite <- Hl; by rewrite big_endian_be_value|].
      pose proof (be_value_bound l) as Hb. rewrite Hl in Hb. exact Hb.
    + intros (_ & -> & Hn). by rewrite be_value_big_endian.
  - split; [done|]. intros (H & _). unfold slice in E. destruct (N.leb_spec (pos + 32) (N.of_nat (length buf))); [done|lia].
Qed.

Lemma decode_string_spec body s : decode_string body = Some s <-> body_string body s.
Proof.
  unfold decode_string, body_string. split.
  - destruct (take_offset body 0) as [p|] eqn:E1; [|done]. apply low_bytes in E1 as (L1 & E1 & B1).
    destruct (N.leb_spec p (N.of_nat (length body))) as [Hp|]; [|done].
    destruct (take_offset _ 0) as [n|] eqn:E2; [|done]. apply low_bytes in E2 as (L2 & E2 & B2).
    intros [H ->]%slice_spec. rewrite !drop_drop in *. rewrite drop_length in *.
    exists p, n. split_and!; [done..| |done]. lia.
  - intros (p & n & E1 & B1 & E2 & B2 & Hl & ->).
    assert (L1 : 0 + 32 <= N.of_nat (length body)).
    { apply (f_equal length) in E1. rewrite take_length, drop_length, big_endian_length in E1. lia. }
    rewrite (proj2 (low_bytes body 0 p)) by done.
    destruct (N.leb_spec p (N.of_nat (length body))) as [Hp|]; [|lia].
    rewrite (proj2 (low_bytes (drop (N.to_nat p) body) 0 n)).
    + apply slice_spec. rewrite drop_drop, drop_length. split; [lia|done].
    + rewrite drop_drop, drop_length. split_and!; [lia|done..].
Qed.

Lemma strip_prefix_spec p l r : strip_prefix p l = Some r <-> l = p ++ r.
Proof.
  revert l. induction p as [|a p IH]; intros l.
  - cbn. split; [by intros [= ->]|by intros ->].
  - destruct l as [|b l]; [done|]. cbn [strip_prefix app]. destruct (Byte.eqb a b) eqn:E.
    + apply Byte.byte_dec_bl in E as ->. rewrite IH. split; [by intros ->|by intros [= ->]].
    + split; [done|]. intros [= -> ->]. by rewrite Byte.byte_dec_lb in E.
Qed.

Lemma txt_str l : txt (str l) = l.
Proof. apply String.list_byte_of_string_of_list_byte. Qed.
Lemma str_txt s : str (txt s) = s.
Proof. apply String.string_of_list_byte_of_string. Qed.

Lemma error_selector_no_text body : ~ utf8 ([x08; xc3; x79; xa0] ++ body).
Proof.
  intros H. apply (utf8_loop_spec (length ([x08; xc3; x79; xa0] ++ body))) in H; [|done].
  discriminate H.
Qed.

(** A body that is long enough for the code of a panic. *)
Lemma panic_body out code rest : out = panic_data code ++ rest -> code < 2 ^ 256 ->
  exists body, strip_prefix [x4e; x48; x7b; x71] out = Some body /\ exists w, slice body 0 32 = Some w /\ be_value w = code.
Proof.
  intros -> Hc. exists (word code ++ rest). split; [apply strip_prefix_spec; unfold panic_data; by rewrite <- app_assoc|].
  exists (word code). split.
  - apply slice_spec. unfold word. rewrite app_length, big_endian_length. split; [lia|].
    change (N.to_nat 0) with 0%nat. change (N.to_nat 32) with 32%nat. rewrite drop_0, take_app_alt; [done|]. by rewrite big_endian_length.
  - by apply be_value_big_endian.
Qed.

Lemma panic_body_inv body w : slice body 0 32 = Some w ->
  be_value w < 2 ^ 256 /\ exists rest, [x4e; x48; x7b; x71] ++ body = panic_data (be_value w) ++ rest.
Proof.
  intros [H ->]%slice_spec. change (N.to_nat 0) with 0%nat. change (N.to_nat 32) with 32%nat. rewrite drop_0.
  assert (Hl : length (take 32 body) = 32%nat) by (rewrite take_length; lia). split.
  - pose proof (be_value_bound (take 32 body)) as Hb. rewrite Hl in Hb. exact Hb.
  - exists (drop 32 body). unfold panic_data, word. rewrite <- Hl at 1. rewrite big_endian_be_value, <- app_assoc. by rewrite take_drop.
Qed.

Section decoder.
Context (panic_text : N -> string).
Let decode := alloy_decode panic_text.

Lemma decodes_error out text : decode out = Some (ContractRevert text) <->
  exists body s, out = [x08; xc3; x79; xa0] ++ body /\ body_string body s /\ replaced s (txt text).
Proof.
  unfold decode, alloy_decode, contract_error. split.
  - destruct out as [|a l]; [done|]. set (out := a :: l).
    destruct (strip_prefix [x08; xc3; x79; xa0] out) as [body|] eqn:E1.
    + apply strip_prefix_spec in E1. destruct (decode_string body) as [s|] eqn:E2.
      * intros [= <-]. exists body, s. split_and!; [done|by apply decode_string_spec|]. rewrite txt_str. by apply lossy_spec.
      * by destruct (from_utf8 out).
    + destruct (strip_prefix [x4e; x48; x7b; x71] out) as [body|]; [destruct (slice body 0 32); [done|]|];
        by destruct (from_utf8 out).
  - intros (body & s & -> & Hs & Hr). rewrite (proj2 (strip_prefix_spec _ _ body)) by done.
    apply decode_string_spec in Hs. rewrite Hs. apply lossy_spec in Hr. by rewrite <- Hr, str_txt.
Qed.

Lemma decodes_panic out text : decode out = Some (ContractOther text) <->
  exists code rest, code < 2 ^ 256 /\ out = panic_data code ++ rest /\ text = panic_text code.
Proof.
  unfold decode, alloy_decode, contract_error. split.
  - destruct out as [|a l]; [done|]. set (out := a :: l).
    destruct (strip_prefix [x08; xc3; x79; xa0] out) as [body|] eqn:E1.
    + destruct (decode_string body); [done|]. by destruct (from_utf8 out).
    + destruct (strip_prefix [x4e; x48; x7b; x71] out) as [body|] eqn:E2; [|by destruct (from_utf8 out)].
      destruct (slice body 0 32) as [w|] eqn:E3; [|by destruct (from_utf8 out)].
      intros [= <-]. apply strip_prefix_spec in E2. destruct (panic_body_inv body w E3) as [Hc [rest Hr]].
      exists (be_value w), rest. split_and!; [done| |done]. by rewrite E2.
  - intros (code & rest & Hc & E & ->).
    destruct (panic_body out code rest E Hc) as (body & Hb & w & Hw & Hv).
    assert (E1 : strip_prefix [x08; xc3; x79; xa0] out = None) by (rewrite E; reflexivity).
    rewrite E1, Hb, Hw, Hv. destruct out; [done|]. done.
Qed.

Lemma decodes_text out text : text <> "" -> decode out = Some (RawString text) <->
  utf8 out /\ out = txt text /\ (forall code rest, out <> panic_data code ++ rest).
Proof.
  intros Ht. unfold decode, alloy_decode, contract_error. split.
  - destruct out as [|a l]; [done|]. set (out := a :: l).
    assert (Hraw : match from_utf8 out with Some s => Some (RawString (str s)) | None => None end = Some (RawString text) ->
                   utf8 out /\ out = txt text).
    { destruct (from_utf8 out) as [s|] eqn:E; [|done]. apply from_utf8_spec in E as [Hu ->]. intros [= <-].
      by rewrite txt_str. }
    destruct (strip_prefix [x08; xc3; x79; xa0] out) as [body|] eqn:E1.
    + destruct (decode_string body); [done|]. intros [Hu _]%Hraw. apply strip_prefix_spec in E1. rewrite E1 in Hu.
      by apply error_selector_no_text in Hu.
    + destruct (strip_prefix [x4e; x48; x7b; x71] out) as [body|] eqn:E2.
      * destruct (slice body 0 32) as [w|] eqn:E3; [done|]. intros [Hu He]%Hraw. split_and!; [done..|].
        intros code rest E. unfold panic_data in E. apply strip_prefix_spec in E2. rewrite E2, <- app_assoc in E.
        apply app_inv_head in E. subst body.
        assert (is_Some (slice (word code ++ rest) 0 32)) as [? ?]; [|congruence].
        eexists. apply slice_spec. split; [|done]. unfold word. rewrite app_length, big_endian_length. lia.
      * intros [Hu He]%Hraw. split_and!; [done..|]. intros code rest E. unfold panic_data in E. rewrite <- app_assoc in E.
        apply (strip_prefix_spec [x4e; x48; x7b; x71] out) in E. congruence.
  - intros (Hu & E & Hno). destruct out as [|a l] eqn:Eo.
    { destruct text; [done|]. by cbn in E. }
    rewrite <- Eo in *. clear Eo.
    assert (Hraw : match from_utf8 out with Some s => Some (RawString (str s)) | None => None end = Some (RawString text)).
    { rewrite (proj2 (from_utf8_spec out out)) by done. by rewrite E, str_txt. }
    destruct (strip_prefix [x08; xc3; x79; xa0] out) as [body|] eqn:E1.
    { apply strip_prefix_spec in E1. rewrite E1 in Hu. by apply error_selector_no_text in Hu. }
    destruct (strip_prefix [x4e; x48; x7b; x71] out) as [body|] eqn:E2; [|done].
    destruct (slice body 0 32) as [w|] eqn:E3; [|done]. apply strip_prefix_spec in E2.
    destruct (panic_body_inv body w E3) as [_ [rest Hr]]. exfalso. apply (Hno (be_value w) rest). by rewrite E2.
Qed.

Lemma shown_spec out text : text <> "" -> decodes_to decode out text <-> shown_reason panic_text out text.
Proof.
  intros Ht. unfold decodes_to. rewrite decodes_error, decodes_panic, decodes_text by done. split.
  - intros [(body & s & H1 & H2 & H3)|[(code & rest & H1 & H2 & H3)|(H1 & H2 & H3)]].
    + by apply (sh_error _ _ _ body s).
    + by apply (sh_panic _ _ _ code rest).
    + by apply sh_text.
  - intros [body s H1 H2 H3|code rest H1 H2 H3|H1 H2 H3].
    + left. by exists body, s.
    + right; left. by exists code, rest.
    + by right; right.
Qed.
End decoder.

(** ** Reasons given by contracts *)

Lemma big_endian_split j k n : big_endian (k + j) n = big_endian j (n / 256 ^ N.of_nat k) ++ big_endian k n.
Proof.
  revert n. induction k as [|k IH]; intros n.
  - cbn [Nat.add big_endian]. rewrite app_nil_r. f_equal. change (256 ^ N.of_nat 0) with 1. by rewrite N.div_1_r.
  - cbn [Nat.add big_endian]. rewrite IH, <- app_assoc. f_equal. f_equal.
    rewrite Nat2N.inj_succ, N.pow_succ_r', N.div_div by lia. done.
Qed.
Lemma word_low m rest : take 8 (drop 24 (word m ++ rest)) = big_endian 8 m.
Proof.
  unfold word. change 32%nat with (8 + 24)%nat. rewrite big_endian_split, <- app_assoc.
  rewrite drop_app_alt by (by rewrite big_endian_length). by rewrite take_app_alt by (by rewrite big_endian_length).
Qed.

Lemma error_data_string reason rest : N.of_nat (length reason) < 2 ^ 64 ->
  exists body, error_data reason ++ rest = [x08; xc3; x79; xa0] ++ body /\ body_string body reason.
Proof.
  intros Hn. unfold error_data. rewrite <- app_assoc. eexists. split; [reflexivity|]. rewrite <- !app_assoc.
  set (r := replicate _ _ ++ rest). clearbody r. set (n := N.of_nat (length reason)) in *.
  assert (Hl : forall m, length (word m) = 32%nat) by (intros m; apply big_endian_length).
  exists 32, n. split_and!.
  - apply word_low.
  - done.
  - change (N.to_nat 32 + 24)%nat with (32 + 24)%nat. rewrite <- drop_drop, drop_app_alt by (by rewrite Hl). apply word_low.
  - done.
  - rewrite !app_length, !Hl. unfold n. lia.
  - change (N.to_nat 32 + 32)%nat with (32 + 32)%nat. rewrite <- drop_drop, !drop_app_alt by (by rewrite Hl).
    unfold n. rewrite Nat2N.id. by rewrite take_app_alt.
Qed.
