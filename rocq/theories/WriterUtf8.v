(** * WriterUtf8: renderings are UTF-8 *)

From Verif Require Export WriterFacts.
Local Open Scope N_scope.

Lemma utf8_app a b : utf8 a -> utf8 b -> utf8 (a ++ b).
Proof. induction 1 as [|c s Hc _ IH]; intros Hb; [done|]. rewrite <-app_assoc. constructor; auto. Qed.
Ltac u8 := repeat match goal with |- utf8 (_ ++ _) => apply utf8_app end.
Definition asciib (l : list byte) : bool := forallb (fun b => Byte.to_N b <=? 127) l.
Lemma utf8_ascii l : asciib l = true -> utf8 l.
Proof.
  induction l as [|b l IH]; intros H; [constructor|]. cbn in H. apply andb_true_iff in H as [Hb Hl]. apply (utf8_cons [b] l); [|by apply IH].
  constructor. unfold in_range. apply N.leb_le in Hb. lia.
Qed.
Lemma utf8_char_app c : utf8_char c -> utf8 c.
Proof. intros H. rewrite <-(app_nil_r c). constructor; [done|constructor]. Qed.
Lemma utf8_concat l : Forall utf8 l -> utf8 (concat l).
Proof. induction 1; cbn; [constructor|by apply utf8_app]. Qed.

Lemma of_N_ascii n : n < 128 -> Byte.to_N (default x00 (Byte.of_N n)) <= 127.
Proof.
  intros H. destruct (Byte.of_N n) as [b|] eqn:E; cbn; [|lia]. apply Byte.to_of_N in E. lia.
Qed.
Lemma dec_digit_ascii n : n < 10 -> Byte.to_N (dec_digit n) <= 127.
Proof. intros H. apply of_N_ascii. lia. Qed.
Lemma utf8_dec n : utf8 (dec_text n).
Proof.
  apply utf8_ascii. unfold dec_text. generalize (S (N.to_nat (N.log2 n))) as f. intros f.
  assert (H : forall acc, asciib acc = true -> asciib (dec_digits f n acc) = true); [|by apply H].
  revert n. induction f as [|f IH]; intros n acc Ha; [done|]. cbn [dec_digits].
  assert (Ha' : asciib (dec_digit (n mod 10) :: acc) = true).
  { cbn. apply andb_true_iff. split; [|done]. apply N.leb_le, dec_digit_ascii, N.mod_lt. lia. }
  destruct (n / 10 =? 0); [done|by apply IH].
Qed.
Lemma hex_digit_ascii n : n < 16 -> Byte.to_N (hex_digit n) <= 127.
Proof. intros H. apply of_N_ascii. destruct (n <? 10); lia. Qed.
Lemma utf8_hex l : utf8 (hex_encode l).
Proof.
  apply utf8_ascii. induction l as [|b l IH]; [done|]. cbn [hex_encode flat_map hex_byte app asciib forallb].
  assert (Hb : Byte.to_N b < 256) by (by destruct b).
  rewrite !andb_true_iff. split_and!; [..|exact IH]; apply N.leb_le, hex_digit_ascii.
  - apply N.div_lt_upper_bound; lia.
  - apply N.mod_lt. lia.
Qed.
Lemma utf8_show_bytes l : utf8 (show_bytes l).
Proof. apply utf8_app; [by apply utf8_ascii|apply utf8_hex]. Qed.
Lemma utf8_show_word n : utf8 (show_word n).
Proof. apply utf8_app; [by apply utf8_ascii|apply utf8_hex]. Qed.
Lemma utf8_debug r : utf8 (txt (ir_debug r)).
Proof. apply utf8_ascii. by destruct r. Qed.

Lemma in_range_refl b : in_range (Byte.to_N b) (Byte.to_N b) b.
Proof. unfold in_range. lia. Qed.
Lemma utf8_pipe : utf8 (txt "  │ ").
Proof.
  change (txt "  │ ") with ([x20; x20] ++ [xe2; x94; x82] ++ [x20]).
  apply utf8_app; [by apply utf8_ascii|]. apply utf8_app; [|by apply utf8_ascii]. apply utf8_char_app. apply u3; [left|..]; split; vm_compute; discriminate.
Qed.
Lemma utf8_edge : utf8 (txt "  └─ ").
Proof.
  change (txt "  └─ ") with ([x20; x20] ++ [xe2; x94; x94] ++ [xe2; x94; x80] ++ [x20]).
  apply utf8_app; [by apply utf8_ascii|]. apply utf8_app; [|apply utf8_app; [|by apply utf8_ascii]]; apply utf8_char_app; (apply u3; [left|..]; split; vm_compute; discriminate).
Qed.
Lemma utf8_tee : utf8 (txt "  ├─ ").
Proof.
  change (txt "  ├─ ") with ([x20; x20] ++ [xe2; x94; x9c] ++ [xe2; x94; x80] ++ [x20]).
  apply utf8_app; [by apply utf8_ascii|]. apply utf8_app; [|apply utf8_app; [|by apply utf8_ascii]]; apply utf8_char_app; (apply u3; [left|..]; split; vm_compute; discriminate).
Qed.
Lemma utf8_left s : asciib s = true -> utf8 ([xe2; x86; x90] ++ s).
Proof. intros H. apply utf8_app; [|by apply utf8_ascii]. apply utf8_char_app. apply u3; [left|..]; split; vm_compute; discriminate. Qed.
Lemma utf8_right s : asciib s = true -> utf8 ([xe2; x86; x92] ++ s).
Proof. intros H. apply utf8_app; [|by apply utf8_ascii]. apply utf8_char_app. apply u3; [left|..]; split; vm_compute; discriminate. Qed.

Lemma utf8_commas l : Forall utf8 l -> utf8 (commas l).
Proof.
  induction l as [|s [|s' l] IH]; intros H; [constructor|by inversion H|]. inversion_clear H.
  change (commas (s :: s' :: l)) with (s ++ txt ", " ++ commas (s' :: l)).
  apply utf8_app; [done|]. apply utf8_app; [by apply utf8_ascii|by apply IH].
Qed.
Lemma utf8_list_txt l : utf8_list l -> Forall utf8 (map txt l).
Proof. induction 1; cbn; constructor; done. Qed.

(** A multi-byte character does not contain the byte of an ASCII one, so cutting at it leaves UTF-8. *)
Lemma not_paren b : 0x80 <= Byte.to_N b -> Byte.eqb b x28 = false.
Proof. intros H. destruct (Byte.eqb b x28) eqn:E; [|done]. apply Byte.byte_dec_bl in E. subst b. cbn in H. lia. Qed.
Lemma before_paren_skip c s : Forall (fun b => 0x80 <= Byte.to_N b) c -> before_paren (c ++ s) = c ++ before_paren s.
Proof. induction 1 as [|b c Hb _ IH]; [done|]. cbn. by rewrite (not_paren b Hb), IH. Qed.
Lemma utf8_before_paren s : utf8 s -> utf8 (before_paren s).
Proof.
  induction 1 as [|c s Hc _ IH]; [constructor|].
  assert (H : (exists a, c = [a]) \/ Forall (fun b => 0x80 <= Byte.to_N b) c).
  { destruct Hc; [left; by eexists|right..]; unfold in_range in *; repeat constructor; lia. }
  destruct H as [[a ->]|H].
  - cbn. destruct (Byte.eqb a x28); [constructor|]. by apply (utf8_cons [a]).
  - rewrite before_paren_skip by done. by constructor.
Qed.

Section Text.
  Context (to_checksum : address -> list byte) (colors cheatcodes : bool) (ns : list CallTraceNode).
  Context (Hck : forall a, utf8 (to_checksum a)) (Hns : Forall utf8_node ns).

  Lemma utf8_color c s : utf8 s -> utf8 (spec_color colors c s).
  Proof.
    intros Hs. unfold spec_color. destruct colors; [|done].
    u8; try done; try apply utf8_dec; by apply utf8_ascii.
  Qed.
  Lemma utf8_indent k : utf8 (spec_indent k).
  Proof.
    apply utf8_app; [by apply utf8_ascii|]. apply utf8_concat. apply Forall_replicate. apply utf8_pipe.
  Qed.
  Lemma utf8_branch k : utf8 (spec_branch k).
  Proof. apply utf8_app; [apply utf8_indent|]. destruct (k =? 0); [constructor|apply utf8_tee]. Qed.

  Lemma utf8_header n : utf8_node n -> utf8 (spec_header to_checksum colors cheatcodes (nd_trace n)).
  Proof.
    intros [Hl Hr Hc _ _]. unfold spec_header. set (t := nd_trace n) in *.
    assert (Hf : utf8 (fst (spec_function t)) /\ utf8 (snd (spec_function t))).
    { unfold spec_function. rewrite !spec_hex_eq. destruct (dct_call_data (tr_decoded t)) as [d|] eqn:E.
      - destruct (Hc d eq_refl) as [H1 H2]. split; [rewrite spec_name_eq; by apply utf8_before_paren|]. by apply utf8_commas, utf8_list_txt.
      - destruct (_ <? _)%nat; split; try apply utf8_hex. by apply utf8_ascii. }
    destruct Hf as [Hf1 Hf2].
    assert (Hlab : utf8 (match dct_label (tr_decoded t) with Some l => txt l | None => to_checksum (tr_address t) end)).
    { unfold utf8_opt in Hl. destruct (dct_label _); [done|apply Hck]. }
    assert (Hlab' : utf8 (match dct_label (tr_decoded t) with Some l => txt l | None => txt "<unknown>" end)).
    { unfold utf8_opt in Hl. destruct (dct_label _); [done|by apply utf8_ascii]. }
    u8; try apply utf8_dec; try by apply utf8_ascii.
    destruct (tr_kind t); rewrite ?bool_decide_true, ?bool_decide_false by done;
      u8; try apply utf8_color; try apply utf8_dec; try done; try apply Hck; try (by apply utf8_ascii);
      try (destruct (tr_value t =? 0); [constructor|u8; try apply utf8_dec; by apply utf8_ascii]).
    all: by apply (utf8_right (txt " new")).
  Qed.

  Lemma utf8_footer n : utf8_node n -> utf8 (spec_footer colors cheatcodes (nd_trace n)).
  Proof.
    intros [_ Hr _ _ _]. unfold spec_footer. set (t := nd_trace n) in *. apply utf8_app.
    - apply utf8_color. apply utf8_app; [by apply (utf8_left (txt " ["))|]. apply utf8_app; [apply utf8_debug|by apply utf8_ascii].
    - unfold utf8_opt in Hr. destruct (dct_return_data _); [done|].
      assert (H0 : utf8 match tr_output t with [] => [] | o => txt "0x" ++ spec_hex o end).
      { destruct (tr_output t) as [|b o]; [constructor|]. rewrite spec_hex_eq. apply utf8_app; [by apply utf8_ascii|apply utf8_hex]. }
      assert (H1 : utf8 (dec_text (N.of_nat (length (tr_output t))) ++ txt " bytes of code")).
      { apply utf8_app; [apply utf8_dec|by apply utf8_ascii]. }
      destruct (tr_kind t); assumption.
  Qed.

  Lemma utf8_log n l k : utf8_node n -> In l (nd_logs n) -> utf8 (spec_log colors k l).
  Proof.
    intros [_ _ _ Hlog _] Hin. destruct (Hlog l Hin) as [Hn Hp]. unfold spec_log. apply utf8_app; [apply utf8_branch|].
    unfold utf8_opt in Hn. destruct (dcl_name _).
    - u8; try done; try (by apply utf8_ascii). apply utf8_color, utf8_commas. clear -Hp.
      induction Hp as [|[a b] ps [H1 H2] _ IH]; [constructor|]. rewrite map_cons. constructor; [|exact IH]. cbn [fst snd].
      apply utf8_app; [exact H1|]. apply utf8_app; [by apply utf8_ascii|exact H2].
    - u8; try (by apply utf8_ascii).
      + apply utf8_concat. apply Forall_lookup. intros j x Hx. rewrite list_lookup_imap in Hx.
        destruct (cl_topics l !! j) as [tp|] eqn:E; [|done]. injection Hx as <-. unfold spec_topic.
        u8; try (by apply utf8_ascii); [|apply utf8_color; rewrite spec_word_eq; apply utf8_show_word].
        destruct (j =? 0)%nat; [by apply utf8_ascii|]. u8; try apply utf8_indent; try apply utf8_pipe; try apply utf8_dec; by apply utf8_ascii.
      + destruct (bool_decide _); [constructor|]. apply utf8_app; [apply utf8_indent|apply utf8_pipe].
      + apply utf8_color. rewrite spec_hex_eq. apply utf8_show_bytes.
  Qed.

  Lemma utf8_chunk c : utf8 (chunk_text to_checksum colors cheatcodes ns c).
  Proof.
    rewrite Forall_lookup in Hns. destruct c as [k p]. unfold chunk_text. cbn [fst snd].
    assert (Hstep : forall i s st d, node_step ns i s = Some st -> st_decoded st = Some d -> utf8_step d).
    { intros i s st d Hs Hd. unfold node_step in Hs. destruct (ns !! i) as [n|] eqn:E; [|done]. cbn in Hs.
      destruct (Hns i n E) as [_ _ _ _ Hu]. apply (Hu st d); [|done]. apply elem_of_list_In. by eapply elem_of_list_lookup_2. }
    destruct p as [i|i|i j|i s|i s|i s|i s]; cbn [part_text].
    - destruct (ns !! i) as [n|] eqn:E; [|constructor]. pose proof (Hns i n E).
      u8; [apply utf8_branch|by apply utf8_header|by apply utf8_ascii].
    - destruct (ns !! i) as [n|] eqn:E; [|constructor]. pose proof (Hns i n E).
      u8; [apply utf8_indent|apply utf8_edge|by apply utf8_footer|by apply utf8_ascii].
    - destruct (ns !! i) as [n|] eqn:E; [|constructor]. destruct (nd_logs n !! j) as [l|] eqn:El; [|constructor].
      apply (utf8_log n); [by eapply Hns|]. apply elem_of_list_In. by eapply elem_of_list_lookup_2.
    - destruct (node_step ns i s) as [st|] eqn:E; [|constructor]. destruct (st_decoded st) as [[]|] eqn:Ed; try exact utf8_nil.
      pose proof (Hstep _ _ _ _ E Ed). u8; [apply utf8_branch|done|by apply utf8_ascii].
    - apply utf8_branch.
    - destruct (node_step ns i s) as [st|] eqn:E; [|constructor]. destruct (st_decoded st) as [[call e|]|] eqn:Ed; try exact utf8_nil.
      destruct (node_step ns i e) as [en|] eqn:En; [|constructor]. destruct (Hstep _ _ _ _ E Ed) as (H1 & H2 & H3).
      u8; try apply utf8_dec; try done; try (by apply utf8_ascii).
      destruct (dic_args call); [|constructor]. u8; try (by apply utf8_ascii). by apply utf8_commas, utf8_list_txt.
    - destruct (node_step ns i s) as [st|] eqn:E; [|constructor]. destruct (st_decoded st) as [[call e|]|] eqn:Ed; try exact utf8_nil.
      destruct (Hstep _ _ _ _ E Ed) as (H1 & H2 & H3).
      u8; try apply utf8_indent; try apply utf8_edge; try (by apply utf8_ascii); [by apply (utf8_left (txt " "))|].
      by apply utf8_commas, utf8_list_txt.
  Qed.

  Lemma utf8_rendering cs : utf8 (rendering to_checksum colors cheatcodes ns cs).
  Proof. apply utf8_concat. induction cs as [|c cs IH]; cbn; constructor; [apply utf8_chunk|done]. Qed.
End Text.

(** ** Decorations do not matter for the tree *)
Lemma decorates_lookup ns ns' i n : decorates ns ns' -> ns !! i = Some n -> exists n', ns' !! i = Some n' /\ plain_node n = plain_node n'.
Proof.
  intros Hd Hi. assert (H : map plain_node ns !! i = Some (plain_node n)) by (by rewrite list_lookup_fmap, Hi).
  rewrite Hd, list_lookup_fmap in H. destruct (ns' !! i) as [n'|]; [|done]. apply (inj Some) in H. by exists n'.
Qed.
Lemma decorates_shape ns ns' : decorates ns ns' -> map shape ns' = map shape ns.
Proof.
  intros Hd. assert (H : forall l, map shape l = map shape (map plain_node l)).
  { intros l. rewrite map_map. apply map_ext. done. }
  by rewrite (H ns'), (H ns), Hd.
Qed.
Lemma decorates_ordered ns ns' : decorates ns ns' -> Forall ordering_complete ns' -> Forall ordering_complete ns.
Proof.
  intros Hd Ho. rewrite Forall_lookup in *. intros i n Hi. destruct (decorates_lookup ns ns' i n Hd Hi) as (n' & Hn' & He).
  destruct (Ho i n' Hn') as [H1 H2 H3].
  assert (Eo : nd_ordering n = nd_ordering n') by (by apply (f_equal nd_ordering) in He).
  constructor; rewrite Eo; [rewrite H1|rewrite H2|rewrite H3]; f_equal.
  - apply (f_equal (fun n => length (nd_logs n))) in He. cbn in He. by rewrite !map_length in He.
  - by apply (f_equal (fun n => length (nd_children n))) in He.
  - apply (f_equal (fun n => length (tr_steps (nd_trace n)))) in He. cbn in He. by rewrite !map_length in He.
Qed.
Lemma decorates_depth ns ns' i n : decorates ns ns' -> ns !! i = Some n -> exists n', ns' !! i = Some n' /\ tr_depth (nd_trace n) = tr_depth (nd_trace n').
Proof.
  intros Hd Hi. destruct (decorates_lookup ns ns' i n Hd Hi) as (n' & Hn' & He). exists n'. split; [done|].
  by apply (f_equal (fun n => tr_depth (nd_trace n))) in He.
Qed.
(** A node without decoded internal calls is well nested. *)
Lemma plain_well_nested n l : (forall st call e, In st (tr_steps (nd_trace n)) -> st_decoded st <> Some (InternalCall call e)) -> well_nested n 0 l.
Proof.
  intros H. induction l as [|[j|j|s] l IH]; constructor; try done. intros st call e Hs. apply H. apply elem_of_list_In. by eapply elem_of_list_lookup_2.
Qed.
