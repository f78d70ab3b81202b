(** * WriterProofs: the writer emits the layout, chunk by chunk *)

From Verif Require Export SpecWriter TreeProofs OrderingProofs.
Local Open Scope N_scope.

(** ** Texts *)

Lemma hex_digit_eq n : n < 16 -> hex_digit n = spec_digit n.
Proof.
  intros H. assert (E : exists k, (k < 16)%nat /\ n = N.of_nat k) by (exists (N.to_nat n); lia).
  destruct E as (k & Hk & ->). do 16 (destruct k as [|k]; [reflexivity|]). lia.
Qed.
Lemma spec_hex_eq l : spec_hex l = hex_encode l.
Proof.
  unfold spec_hex, hex_encode. rewrite flat_map_concat_map. f_equal. apply map_ext. intros b. unfold hex_byte.
  assert (Hb : Byte.to_N b < 256) by (by destruct b).
  rewrite !hex_digit_eq; [done|apply N.mod_lt; lia|apply N.div_lt_upper_bound; lia].
Qed.
Lemma hex_be_bytes len n :
  hex_encode (be_bytes len n) = map (fun place => spec_digit (n / 16 ^ N.of_nat place mod 16)) (rev (seq 0 (2 * len))).
Proof.
  revert n. induction len as [|len IH]; intros n; [done|]. cbn [be_bytes].
  replace (2 * S len)%nat with (2 + 2 * len)%nat by lia. rewrite seq_app, rev_app_distr, map_app.
  unfold hex_encode at 1. rewrite flat_map_app. fold (hex_encode (be_bytes len (n / 256))). rewrite IH. f_equal.
  - change (0 + 2)%nat with 2%nat. rewrite <-(seq_shift (2 * len) 1), <-(seq_shift (2 * len) 0), map_map, <-map_rev, map_map. apply map_ext. intros i.
    do 2 f_equal. rewrite N.div_div by (try apply N.pow_nonzero; lia). f_equal.
    replace (N.of_nat (S (S i))) with (2 + N.of_nat i) by lia. by rewrite N.pow_add_r.
  - assert (Hm : n mod 256 < 256) by (apply N.mod_lt; lia).
    destruct (Byte.of_N (n mod 256)) as [b|] eqn:Eb.
    2:{ apply Byte.of_N_None_iff in Eb. lia. }
    apply Byte.to_of_N in Eb. cbn [default from_option flat_map hex_byte seq rev map app]. unfold id. rewrite Eb.
    change (16 ^ N.of_nat 1) with 16. change (16 ^ N.of_nat 0) with 1. rewrite N.div_1_r.
    assert (E : n mod 256 = n mod 16 + 16 * ((n / 16) mod 16)) by (change 256 with (16 * 16); by rewrite N.mod_mul_r by done).
    assert (n mod 16 < 16) by (apply N.mod_lt; lia). assert ((n / 16) mod 16 < 16) by (apply N.mod_lt; lia).
    rewrite E. rewrite N.mul_comm, N.div_add, N.mod_add by lia. rewrite (N.div_small (n mod 16)), (N.mod_small (n mod 16)) by done.
    rewrite !hex_digit_eq by done. by rewrite N.add_0_l.
Qed.
Lemma spec_word_eq n : spec_word n = show_word n.
Proof. unfold spec_word, show_word. by rewrite hex_be_bytes. Qed.
Lemma spec_name_eq s : spec_name s = before_paren s.
Proof.
  unfold spec_name. induction s as [|b s IH]; [done|]. cbn [list_find before_paren]. case_decide as E.
  - subst b. done.
  - assert (Hb : Byte.eqb b x28 = false) by (destruct (Byte.eqb b x28) eqn:Q; [apply Byte.byte_dec_bl in Q|]; done).
    rewrite Hb, <-IH. destruct (list_find _ s) as [[i c]|]; done.
Qed.

(** ** Emitting bytes at levels *)

Definition put (b : list byte) (w : TraceWriter) : TraceWriter * bool :=
  match write_all b w with Ok (w, Some _) => (w, true) | Ok (w, None) => (w, false) | _ => (w, false) end.

Lemma write_all_put b w : write_all b w = Ok (fst (put b w), if snd (put b w) then Some tt else None).
Proof. unfold put, write_all. destruct (tw_budget w); [|done]. by destruct (_ <=? _)%nat. Qed.

Lemma put_conf b w : tw_use_colors (fst (put b w)) = tw_use_colors w /\ tw_color_cheatcodes (fst (put b w)) = tw_color_cheatcodes w /\
  tw_level (fst (put b w)) = tw_level w /\ tw_flush (fst (put b w)) = tw_flush w.
Proof. unfold put, write_all. destruct (tw_budget w); [|done]. by destruct (_ <=? _)%nat. Qed.

Lemma put_nil w : put [] w = (w, true).
Proof. unfold put, write_all. destruct w as [o [n|] f c cc l]; cbn; rewrite app_nil_r; [|done]. by rewrite Nat.sub_0_r. Qed.

Lemma put_app a b w : put (a ++ b) w = if snd (put a w) then put b (fst (put a w)) else put a w.
Proof.
  unfold put, write_all. destruct w as [o [n|] f c cc l]; cbn [tw_budget tw_out tw_flush tw_use_colors tw_color_cheatcodes tw_level].
  2:{ cbn. by rewrite app_assoc. }
  rewrite app_length. destruct (Nat.leb_spec (length a) n) as [Ha|Ha]; cbn [fst snd tw_budget tw_out tw_flush tw_use_colors tw_color_cheatcodes tw_level].
  - destruct (Nat.leb_spec (length a + length b) n) as [H1|H1], (Nat.leb_spec (length b) (n - length a)) as [H2|H2]; try lia.
    + rewrite app_assoc. do 3 f_equal. lia.
    + rewrite take_app_ge by lia. by rewrite app_assoc.
  - destruct (Nat.leb_spec (length a + length b) n) as [H1|H1]; [lia|]. cbn [fst snd]. by rewrite take_app_le by lia.
Qed.

Fixpoint emit (ps : list (N * list byte)) (w : TraceWriter) : TraceWriter * bool :=
  match ps with
  | [] => (w, true)
  | (k, b) :: ps => let w1 := put b (tw_set_level w k) in if snd w1 then emit ps (fst w1) else w1
  end.

Lemma emit_app ps qs w : emit (ps ++ qs) w = if snd (emit ps w) then emit qs (fst (emit ps w)) else emit ps w.
Proof.
  revert w. induction ps as [|[k b] ps IH]; intros w; [done|]. cbn [emit app].
  destruct (snd (put b (tw_set_level w k))) eqn:E; [|by rewrite E]. apply IH.
Qed.

Lemma emit_conf ps w : tw_use_colors (fst (emit ps w)) = tw_use_colors w /\ tw_color_cheatcodes (fst (emit ps w)) = tw_color_cheatcodes w.
Proof.
  revert w. induction ps as [|[k b] ps IH]; intros w; [done|]. cbn [emit].
  destruct (put_conf b (tw_set_level w k)) as (H1 & H2 & _). destruct (snd _); [|by rewrite H1, H2].
  destruct (IH (fst (put b (tw_set_level w k)))) as [-> ->]. by rewrite H1, H2.
Qed.

Lemma set_level_same w : tw_set_level w (tw_level w) = w.
Proof. by destruct w. Qed.

Section Emits.
  Context (colors cheatcodes : bool).

  (** From level [k], the computation emits [ps], ends at level [k'] and returns [v]. *)
  Definition emits {A} (m : io A) (k k' : N) (ps : list (N * list byte)) (v : A) : Prop :=
    forall w, tw_use_colors w = colors -> tw_color_cheatcodes w = cheatcodes -> tw_level w = k ->
    m w = Ok (if snd (emit ps w) then (tw_set_level (fst (emit ps w)) k', Some v) else (fst (emit ps w), None)).
  Definition says {A} (m : io A) (k : N) (b : list byte) (v : A) : Prop := emits m k k [(k, b)] v.

  Lemma emits_ret {A} (v : A) k : emits (io_ret v) k k [] v.
  Proof. intros w _ _ <-. cbn. by rewrite set_level_same. Qed.

  Lemma emits_bind {A B} (m : io A) (f : A -> io B) k k1 k2 ps qs v r :
    emits m k k1 ps v -> emits (f v) k1 k2 qs r -> emits (io_bind m f) k k2 (ps ++ qs) r.
  Proof.
    intros Hm Hf w H1 H2 H3. unfold io_bind. rewrite (Hm w H1 H2 H3), emit_app.
    destruct (emit_conf ps w) as [Hc1 Hc2].
    destruct (snd (emit ps w)) eqn:Es.
    - rewrite (Hf (tw_set_level (fst (emit ps w)) k1)); [|by cbn; congruence..|done].
      destruct qs as [|[k' b] qs]; [done|]. cbn [emit]. done.
    - by rewrite Es.
  Qed.

  Lemma emits_lift {A} (r : res A) v k : r = Ok v -> emits (io_lift r) k k [] v.
  Proof. intros -> w _ _ <-. cbn. by rewrite set_level_same. Qed.
  Lemma emits_lift_bind {A B} (r : res A) (f : A -> io B) v k k' ps x : r = Ok v -> emits (f v) k k' ps x -> emits (io_bind (io_lift r) f) k k' ps x.
  Proof. intros Hr Hf. apply (emits_bind _ _ k k k' [] ps v x); [by apply emits_lift|done]. Qed.
  Lemma emits_get_bind {A B} (g : TraceWriter -> A) (f : A -> io B) v k k' ps x :
    (forall w, tw_use_colors w = colors -> tw_color_cheatcodes w = cheatcodes -> tw_level w = k -> g w = v) ->
    emits (f v) k k' ps x -> emits (io_bind (io_get g) f) k k' ps x.
  Proof. intros Hg Hf w H1 H2 H3. unfold io_bind, io_get. rewrite Hg by done. by apply Hf. Qed.

  Lemma emits_up k : k < 65535 -> emits level_up k (k + 1) [] tt.
  Proof. intros Hk w _ _ <-. unfold level_up. by rewrite (proj2 (N.ltb_lt _ _) Hk). Qed.
  Lemma emits_down k : emits level_down (k + 1) k [] tt.
  Proof.
    intros w _ _ Hl. unfold level_down. rewrite Hl. destruct (N.eqb_spec (k + 1) 0); [lia|]. cbn. do 3 f_equal. lia.
  Qed.

  Lemma says_ret {A} (v : A) k : says (io_ret v) k [] v.
  Proof. intros w _ _ <-. cbn [emit]. rewrite set_level_same, put_nil. cbn. by rewrite set_level_same. Qed.
  Lemma says_write b k : says (write_all b) k b tt.
  Proof.
    intros w _ _ <-. cbn [emit]. rewrite set_level_same, write_all_put. destruct (put_conf b w) as (_ & _ & Hl & _).
    destruct (snd (put b w)) eqn:E; cbn; rewrite ?E; [|done]. by rewrite <-Hl, set_level_same.
  Qed.
  Lemma emits_merge {A} (m : io A) k k' p a b qs v : emits m k k' ((p, a) :: (p, b) :: qs) v <-> emits m k k' ((p, a ++ b) :: qs) v.
  Proof.
    assert (H : forall w, emit ((p, a) :: (p, b) :: qs) w = emit ((p, a ++ b) :: qs) w).
    { intros w. cbn [emit]. rewrite put_app. destruct (snd (put a (tw_set_level w p))) eqn:E; [|by rewrite E].
      destruct (put_conf a (tw_set_level w p)) as (_ & _ & Hl & _). cbn [tw_level tw_set_level] in Hl.
      assert (Hs : tw_set_level (fst (put a (tw_set_level w p))) p = fst (put a (tw_set_level w p))) by (rewrite <-Hl at 2; apply set_level_same).
      by rewrite Hs. }
    unfold emits. split; intros He w H1 H2 H3; rewrite He by done; by rewrite H.
  Qed.
  Lemma says_bind {A B} (m : io A) (f : A -> io B) k a b v r : says m k a v -> says (f v) k b r -> says (io_bind m f) k (a ++ b) r.
  Proof. intros Hm Hf. apply emits_merge. by apply (emits_bind m f k k k [(k, a)] [(k, b)] v r). Qed.
  Lemma says_get_bind {A B} (g : TraceWriter -> A) (f : A -> io B) v k b x :
    (forall w, tw_use_colors w = colors -> tw_color_cheatcodes w = cheatcodes -> tw_level w = k -> g w = v) ->
    says (f v) k b x -> says (io_bind (io_get g) f) k b x.
  Proof. apply emits_get_bind. Qed.
  Lemma says_lift_bind {A B} (r : res A) (f : A -> io B) v k b x : r = Ok v -> says (f v) k b x -> says (io_bind (io_lift r) f) k b x.
  Proof. apply emits_lift_bind. Qed.
  Lemma says_eq {A} (m : io A) k a b v : says m k a v -> a = b -> says m k b v.
  Proof. by intros ? <-. Qed.

  (** ** Lines *)

  Lemma says_indentation k : says write_indentation k (spec_indent k) tt.
  Proof.
    unfold write_indentation, spec_indent. apply says_bind with (v := tt); [apply says_write|].
    apply says_get_bind with (v := k); [done|]. induction (N.to_nat (k - 1)) as [|m IH]; cbn [replicate concat]; [apply says_ret|].
    apply says_bind with (v := tt); [apply says_write|exact IH].
  Qed.
  Lemma says_branch k : says write_branch k (spec_branch k) tt.
  Proof.
    unfold write_branch, spec_branch. apply says_bind with (v := tt); [apply says_indentation|].
    apply says_get_bind with (v := k); [done|]. destruct (k =? 0); [apply says_ret|apply says_write].
  Qed.
  Lemma says_pipes k : says write_pipes k (spec_indent k ++ txt "  │ ") tt.
  Proof. apply says_bind with (v := tt); [apply says_indentation|apply says_write]. Qed.
  Lemma says_edge k : says write_edge k (spec_indent k ++ txt "  └─ ") tt.
  Proof. apply says_bind with (v := tt); [apply says_indentation|apply says_write]. Qed.

  Lemma join_commas_spec l : join_commas l = commas (map txt l).
  Proof. induction l as [|s [|s' l] IH]; [done|done|]. cbn [join_commas map commas] in *. by rewrite IH. Qed.

  Context (to_checksum : address -> list byte).
  Notation color := (spec_color colors).

  Lemma color_eq c s : style_on (if colors then Some c else None) ++ s ++ style_off (if colors then Some c else None) = color c s.
  Proof. unfold spec_color. destruct colors; cbn; by rewrite ?app_nil_r, <-?app_assoc. Qed.

  Lemma trace_style_eq t w : tw_use_colors w = colors -> tw_color_cheatcodes w = cheatcodes ->
    trace_style t w = if colors then Some (spec_trace_color cheatcodes t) else None.
  Proof. intros H1 H2. unfold trace_style, spec_trace_color. rewrite H1, H2. by destruct colors. Qed.
  Lemma kind_style_eq w : tw_use_colors w = colors -> trace_kind_style w = if colors then Some 33 else None.
  Proof. intros H1. unfold trace_kind_style. rewrite H1. by destruct colors. Qed.
  Lemma log_style_eq w : tw_use_colors w = colors -> log_style w = if colors then Some 36 else None.
  Proof. intros H1. unfold log_style. rewrite H1. by destruct colors. Qed.

  Lemma spec_function_eq t : func_and_inputs t = spec_function t.
  Proof. unfold func_and_inputs, spec_function. rewrite !spec_hex_eq. destruct (dct_call_data _); [by rewrite spec_name_eq, join_commas_spec|done]. Qed.

  Lemma says_header t k : says (write_trace_header to_checksum t) k (spec_header to_checksum colors cheatcodes t) tt.
  Proof.
    unfold write_trace_header, spec_header.
    match goal with |- says _ _ (?a ++ ?b ++ ?c ++ ?r) _ => replace (a ++ b ++ c ++ r) with ((a ++ b ++ c) ++ r) by (by rewrite <-!app_assoc) end.
    apply says_bind with (v := tt); [apply says_write|].
    apply says_get_bind with (v := if colors then Some 33 else None); [by intros; apply kind_style_eq|].
    apply says_get_bind with (v := if colors then Some (spec_trace_color cheatcodes t) else None); [by intros; apply trace_style_eq|].
    cbv zeta.
    set (lab := match dct_label (tr_decoded t) with Some l => txt l | None => to_checksum (tr_address t) end).
    assert (Hcall : forall (r : io unit) x, says r k x tt ->
      says (let '(func_name, inputs) := func_and_inputs t in
            io_bind (write_all (style_on (if colors then Some (spec_trace_color cheatcodes t) else None) ++ lab ++
                       style_off (if colors then Some (spec_trace_color cheatcodes t) else None) ++
                 txt "::" ++ style_on (if colors then Some (spec_trace_color cheatcodes t) else None) ++ func_name ++
                       style_off (if colors then Some (spec_trace_color cheatcodes t) else None))) (fun _ =>
            io_bind (if tr_value t =? 0 then io_ret tt else write_all (txt "{value: " ++ dec_text (tr_value t) ++ txt "}")) (fun _ =>
            io_bind (write_all (txt "(" ++ inputs ++ txt ")")) (fun _ => r)))) k
        (color (spec_trace_color cheatcodes t) lab ++ txt "::" ++ color (spec_trace_color cheatcodes t) (fst (spec_function t)) ++
        (if tr_value t =? 0 then [] else txt "{value: " ++ dec_text (tr_value t) ++ txt "}") ++
        txt "(" ++ snd (spec_function t) ++ txt ")" ++ x) tt).
    { intros r x Hr. rewrite spec_function_eq. destruct (spec_function t) as [fn inp]. cbn [fst snd].
      rewrite <-(color_eq _ lab), <-(color_eq _ fn).
      eapply says_eq.
      { apply says_bind with (v := tt); [apply says_write|].
        apply says_bind with (v := tt) (a := if tr_value t =? 0 then [] else txt "{value: " ++ dec_text (tr_value t) ++ txt "}");
          [destruct (tr_value t =? 0); [apply says_ret|apply says_write]|].
        apply says_bind with (v := tt); [apply says_write|exact Hr]. }
      rewrite <-!app_assoc. done. }
    assert (Hnew : says (write_all (style_on (if colors then Some 33 else None) ++ CALL ++ txt "new" ++ style_off (if colors then Some 33 else None) ++ txt " " ++
                 match dct_label (tr_decoded t) with Some l => txt l | None => txt "<unknown>" end ++ txt "@" ++ to_checksum (tr_address t))) k
        (color 33 (txt "→ new") ++ txt " " ++
        match dct_label (tr_decoded t) with Some l => txt l | None => txt "<unknown>" end ++ txt "@" ++ to_checksum (tr_address t)) tt).
    { eapply says_eq; [apply says_write|]. rewrite <-color_eq.
      change (txt "→ new") with (CALL ++ txt "new"). by rewrite <-!app_assoc. }
    assert (Hact : forall a, says (write_all (style_on (if colors then Some 33 else None) ++ txt a ++ style_off (if colors then Some 33 else None))) k
        (color 33 (txt a)) tt).
    { intros a. eapply says_eq; [apply says_write|]. apply color_eq. }
    destruct (tr_kind t) eqn:Ek; cbn [is_any_create].
    all: first [exact Hnew | apply Hcall; eapply says_lift_bind; [reflexivity|]; cbv iota beta].
    all: rewrite ?bool_decide_true by done; rewrite ?bool_decide_false by done; first [apply Hact|apply says_ret].
  Qed.

  Lemma says_footer t k : says (write_trace_footer t) k (spec_footer colors cheatcodes t) tt.
  Proof.
    unfold write_trace_footer, spec_footer.
    apply says_get_bind with (v := if colors then Some (spec_trace_color cheatcodes t) else None); [by intros; apply trace_style_eq|].
    apply says_bind with (v := tt).
    - eapply says_eq; [apply says_write|]. rewrite <-color_eq.
      change (txt "← [") with (RETURN ++ txt "["). by rewrite <-!app_assoc.
    - destruct (dct_return_data _); [apply says_write|].
      destruct (tr_kind t); cbn [is_any_create]; try apply says_write; destruct (tr_output t); rewrite ?spec_hex_eq; first [apply says_ret|apply says_write].
  Qed.

  Lemma says_params i ps k : says (write_params i ps) k
    ((if (0 <? i)%nat && negb (bool_decide (ps = [])) then txt ", " else []) ++ commas (map (fun p => txt (fst p) ++ txt ": " ++ txt (snd p)) ps)) tt.
  Proof.
    revert i. induction ps as [|[name value] ps IH]; intros i; cbn [write_params map commas].
    { rewrite bool_decide_true by done. rewrite andb_false_r. apply says_ret. }
    rewrite bool_decide_false by done. rewrite andb_true_r.
    apply says_bind with (v := tt); [destruct (0 <? i)%nat; [apply says_write|apply says_ret]|].
    eapply says_eq; [apply says_bind with (v := tt); [apply says_write|apply IH]|].
    cbn [fst snd]. destruct ps as [|p ps]; [by rewrite bool_decide_true, andb_false_r, !app_nil_r by done|].
    rewrite bool_decide_false by done. done.
  Qed.

  Lemma says_topics i ts k : says (write_topics i ts) k (concat (imap (fun j => spec_topic colors k (i + j)%nat) ts)) tt.
  Proof.
    revert i. induction ts as [|t ts IH]; intros i; [apply says_ret|]. cbn [write_topics imap concat].
    rewrite Nat.add_0_r. unfold spec_topic at 1. rewrite <-app_assoc, spec_word_eq.
    apply says_bind with (v := tt).
    { destruct (i =? 0)%nat; [apply says_write|]. rewrite app_assoc. apply says_bind with (v := tt); [apply says_pipes|apply says_write]. }
    apply says_get_bind with (v := if colors then Some 36 else None); [by intros; apply log_style_eq|].
    apply says_bind with (v := tt).
    { eapply says_eq; [apply says_write|]. rewrite <-color_eq. by rewrite <-!app_assoc. }
    eapply says_eq; [apply IH|]. f_equal. apply imap_ext. intros j x _. unfold compose. by rewrite Nat.add_succ_comm.
  Qed.

  Lemma says_log l k : says (write_log l) k (spec_log colors k l) tt.
  Proof.
    unfold write_log, spec_log. rewrite spec_hex_eq.
    apply says_get_bind with (v := if colors then Some 36 else None); [by intros; apply log_style_eq|].
    apply says_bind with (v := tt); [apply says_branch|].
    destruct (dcl_name _) as [name|].
    - eapply says_eq.
      { apply says_bind with (v := tt); [apply says_write|]. apply says_bind with (v := tt); [|apply says_write].
        instantiate (1 := commas (map (fun p => txt (fst p) ++ txt ": " ++ txt (snd p)) (default [] (dcl_params (cl_decoded l))))).
        destruct (dcl_params _) as [ps|]; [|apply says_ret]. apply (says_params 0). }
      rewrite <-color_eq. by rewrite <-!app_assoc.
    - apply says_bind with (v := tt); [apply says_topics|].
      apply says_bind with (v := tt).
      { destruct (cl_topics l); [rewrite bool_decide_true by done; apply says_ret|rewrite bool_decide_false by done; apply says_pipes]. }
      eapply says_eq; [apply says_write|]. rewrite <-color_eq. by rewrite <-!app_assoc.
  Qed.

  (** ** The layout *)
  Context (ns : list CallTraceNode).
  Context (Hdown : forall i n j c, ns !! i = Some n -> nd_children n !! j = Some c -> (i < c)%nat).
  Notation texts := (map (fun c => (fst c, chunk_text to_checksum colors cheatcodes ns c))).

  Lemma emits_eq {A} (m : io A) k k' ps qs v : emits m k k' ps v -> ps = qs -> emits m k k' qs v.
  Proof. by intros ? <-. Qed.

  Definition need (i : nat) : nat := writer_fuel (drop i ns).
  Lemma need_step i n : ns !! i = Some n -> need i = (4 * length (nd_ordering n) + 4 + need (S i))%nat.
  Proof. intros H. unfold need. by rewrite (drop_S _ _ _ H). Qed.
  Lemma need_le i j : (i <= j)%nat -> (need j <= need i)%nat.
  Proof.
    intros H. induction H as [|j H IH]; [done|]. destruct (ns !! j) as [n|] eqn:E; [rewrite (need_step j n E) in IH; lia|].
    apply lookup_ge_None in E. unfold need. rewrite (drop_ge ns (S j)) by lia. cbn. lia.
  Qed.

  Scheme node_layout_mut := Minimality for node_layout Sort Prop
    with members_layout_mut := Minimality for members_layout Sort Prop.

  Lemma write_item_S fuel nodes node_idx item_idx : write_item to_checksum (S fuel) nodes node_idx item_idx =
        let? node := io_lift (index nodes node_idx) in
        let? member := io_lift (index node.(nd_ordering) item_idx) in
        match member with
        | OLog i =>
            let? log := io_lift (index node.(nd_logs) i) in
            let? _ := write_log log in
            io_ret (S item_idx)
        | OCall i =>
            let? child := io_lift (index node.(nd_children) i) in
            let? _ := write_node to_checksum fuel nodes child in
            io_ret (S item_idx)
        | OStep i => write_step to_checksum fuel nodes node_idx item_idx i
        end.
  Proof. reflexivity. Qed.
  Lemma write_items_until_S fuel nodes node_idx item_idx f : write_items_until to_checksum (S fuel) nodes node_idx item_idx f =
        let? stop := io_lift (f item_idx) in
        if stop : bool then io_ret item_idx
        else
          let? item_idx := write_item to_checksum fuel nodes node_idx item_idx in
          write_items_until to_checksum fuel nodes node_idx item_idx f.
  Proof. reflexivity. Qed.
  Lemma write_node_S fuel nodes idx : write_node to_checksum (S fuel) nodes idx =
        let? node := io_lift (index nodes idx) in
        let? _ := write_branch in
        let? _ := write_trace_header to_checksum node.(nd_trace) in
        let? _ := write_all newline in
        let? _ := level_up in
        let items_cnt := length node.(nd_ordering) in
        let? _ := write_items_until to_checksum fuel nodes idx 0 (fun i => Ok (i =? items_cnt)%nat) in
        let? _ := write_edge in
        let? _ := write_trace_footer node.(nd_trace) in
        let? _ := write_all newline in
        level_down.
  Proof. reflexivity. Qed.
  Lemma write_step_S fuel nodes node_idx item_idx step_idx : write_step to_checksum (S fuel) nodes node_idx item_idx step_idx =
        let? node := io_lift (index nodes node_idx) in
        let? step := io_lift (index node.(nd_trace).(tr_steps) step_idx) in
        match step.(st_decoded) with
        | None => io_ret (S item_idx)
        | Some (InternalCall call end_idx) =>
            let? end_step := io_lift (index node.(nd_trace).(tr_steps) end_idx) in
            let gas_used := end_step.(st_gas_used) - step.(st_gas_used) in
            let? _ := write_branch in
            let? _ := level_up in
            let? _ := write_all (txt "[" ++ dec_text gas_used ++ txt "] " ++ txt call.(dic_func_name) ++
                       match call.(dic_args) with Some v => txt "(" ++ join_commas v ++ txt ")" | None => [] end ++ newline) in
            let? end_item_idx :=
              write_items_until to_checksum fuel nodes node_idx (S item_idx) (fun item_idx =>
                let! m := index node.(nd_ordering) item_idx in
                Ok match m with OStep idx => (idx =? end_idx)%nat | _ => false end) in
            let? _ := write_edge in
            let? _ := write_all RETURN in
            let? _ := match call.(dic_return_data) with Some outputs => write_all (join_commas outputs) | None => io_ret tt end in
            let? _ := write_all newline in
            let? _ := level_down in
            io_ret (S end_item_idx)
        | Some (Line line) =>
            let? _ := write_branch in
            let? _ := write_all (txt line ++ newline) in
            io_ret (S item_idx)
        end.
  Proof. reflexivity. Qed.
  Lemma emits_cons {A B} (m : io A) (f : A -> io B) k k2 b qs v r :
    says m k b v -> emits (f v) k k2 qs r -> emits (io_bind m f) k k2 ((k, b) :: qs) r.
  Proof. intros Hm Hf. by apply (emits_bind m f k k k2 [(k, b)] qs v r). Qed.
  Lemma emits_same {A B} (m : io A) (f : A -> io B) k k1 k2 qs v r :
    emits m k k1 [] v -> emits (f v) k1 k2 qs r -> emits (io_bind m f) k k2 qs r.
  Proof. intros Hm Hf. by apply (emits_bind m f k k1 k2 [] qs v r). Qed.
  (** One round of the loop. *)
  Lemma items_round fuel i p p' stop k ps qs v :
    stop p = Ok false -> emits (write_item to_checksum fuel ns i p) k k ps p' ->
    emits (write_items_until to_checksum fuel ns i p' stop) k k qs v ->
    emits (write_items_until to_checksum (S fuel) ns i p stop) k k (ps ++ qs) v.
  Proof.
    intros Hs Hi Hr. rewrite write_items_until_S. eapply emits_lift_bind; [exact Hs|]. cbv iota. by eapply emits_bind.
  Qed.
  Lemma items_stop fuel i p stop k : stop p = Ok true -> emits (write_items_until to_checksum (S fuel) ns i p stop) k k [] p.
  Proof. intros Hs. rewrite write_items_until_S. eapply emits_lift_bind; [exact Hs|]. apply emits_ret. Qed.

  Lemma index_at {A} (pre : list A) x post l : l = pre ++ x :: post -> index l (length pre) = Ok x.
  Proof. intros ->. unfold index. by rewrite list_lookup_middle. Qed.
  Lemma index_ok {A} (l : list A) i x : l !! i = Some x -> index l i = Ok x.
  Proof. unfold index. by intros ->. Qed.

  Definition node_goal (k : N) (i : nat) (cs : list chunk) : Prop :=
    forall fuel, (need i <= fuel)%nat -> emits (write_node to_checksum fuel ns i) k k (texts cs) tt.
  Definition members_goal (k : N) (i : nat) (n : CallTraceNode) (l : list TraceMemberOrder) (cs : list chunk) : Prop :=
    forall pre post stop fuel, ns !! i = Some n -> nd_ordering n = pre ++ l ++ post ->
    (forall p, (length pre <= p < length pre + length l)%nat -> stop p = Ok false) ->
    stop (length pre + length l)%nat = Ok true ->
    (4 * (length l + length post) + 1 + need (S i) <= fuel)%nat ->
    emits (write_items_until to_checksum fuel ns i (length pre) stop) k k (texts cs) (length pre + length l)%nat.

  Lemma write_node_layout k i cs : node_layout ns k i cs -> node_goal k i cs.
  Proof.
    revert k i cs.
    apply (node_layout_mut ns node_goal members_goal).
    - (* node *)
      intros k i n body Hn Hk _ IH fuel Hf. rewrite (need_step i n Hn) in Hf.
      destruct fuel as [|fuel]; [lia|]. rewrite write_node_S.
      eapply emits_lift_bind; [by apply index_ok|].
      rewrite !map_cons. unfold chunk_text at 1, part_text. cbn [fst snd]. rewrite Hn.
      apply emits_merge, emits_cons with (v := tt); [apply says_branch|].
      apply emits_merge, emits_cons with (v := tt); [apply says_header|].
      apply emits_cons with (v := tt); [apply says_write|].
      apply emits_same with (k1 := k + 1) (v := tt); [by apply emits_up|].
      rewrite map_app.
      apply emits_bind with (k1 := k + 1) (v := length (nd_ordering n)).
      { apply (IH [] []); cbn [length app]; rewrite ?app_nil_r, ?Nat.add_0_l, ?Nat.add_0_r; try done; try lia.
        - intros p Hp. f_equal. apply Nat.eqb_neq. lia.
        - by rewrite Nat.eqb_refl. }
      rewrite !map_cons. unfold chunk_text, part_text. cbn [fst snd]. rewrite Hn. rewrite app_assoc.
      apply emits_merge, emits_cons with (v := tt); [apply says_edge|].
      apply emits_merge, emits_cons with (v := tt); [apply says_footer|].
      apply emits_cons with (v := tt); [apply says_write|].
      apply emits_down.
    - (* nil *)
      intros k i n pre post stop fuel Hn Ho Hno Hyes Hf. cbn [length] in *. rewrite Nat.add_0_r in *.
      destruct fuel as [|fuel]; [lia|]. by apply items_stop.
    - (* log *)
      intros k i n j l rest cs Hl _ IH pre post stop fuel Hn Ho Hno Hyes Hf. cbn [length] in *.
      destruct fuel as [|[|fuel]]; [lia..|].
      apply (items_round _ i (length pre) (S (length pre)) stop k [(k, _)] (texts cs)); [apply Hno; lia| |].
      + rewrite write_item_S. eapply emits_lift_bind; [by apply index_ok|].
        eapply emits_lift_bind; [by apply (index_at pre _ (rest ++ post))|]. cbv iota.
        eapply emits_lift_bind; [by apply index_ok|].
        unfold chunk_text, part_text. cbn [fst snd]. rewrite Hn, Hl.
        apply emits_cons with (v := tt); [apply says_log|apply emits_ret].
      + specialize (IH (pre ++ [OLog j]) post stop (S fuel)). rewrite app_length in IH. cbn [length] in IH.
        rewrite Nat.add_1_r in IH. replace (length pre + S (length rest))%nat with (S (length pre) + length rest)%nat by lia.
        apply IH; [done|by rewrite <-app_assoc|intros; apply Hno; lia| |lia].
        by replace (S (length pre) + length rest)%nat with (length pre + S (length rest))%nat by lia.
    - (* call *)
      intros k i n j c rest cs1 cs2 Hc _ IH1 _ IH2 pre post stop fuel Hn Ho Hno Hyes Hf. cbn [length] in *.
      destruct fuel as [|[|fuel]]; [lia..|]. rewrite map_app.
      apply (items_round _ i (length pre) (S (length pre)) stop k (texts cs1) (texts cs2)); [apply Hno; lia| |].
      + rewrite write_item_S. eapply emits_lift_bind; [by apply index_ok|].
        eapply emits_lift_bind; [by apply (index_at pre _ (rest ++ post))|]. cbv iota.
        eapply emits_lift_bind; [by apply index_ok|].
        rewrite <-(app_nil_r (texts cs1)).
        apply emits_bind with (k1 := k) (v := tt); [|apply emits_ret].
        apply IH1. pose proof (Hdown i n j c Hn Hc). pose proof (need_le (S i) c). lia.
      + specialize (IH2 (pre ++ [OCall j]) post stop (S fuel)). rewrite app_length in IH2. cbn [length] in IH2.
        rewrite Nat.add_1_r in IH2. replace (length pre + S (length rest))%nat with (S (length pre) + length rest)%nat by lia.
        apply IH2; [done|by rewrite <-app_assoc|intros; apply Hno; lia| |lia].
        by replace (S (length pre) + length rest)%nat with (length pre + S (length rest))%nat by lia.
    - (* plain *)
      intros k i n s st rest cs Hst Hd _ IH pre post stop fuel Hn Ho Hno Hyes Hf. cbn [length] in *.
      destruct fuel as [|[|[|fuel]]]; [lia..|].
      apply (items_round _ i (length pre) (S (length pre)) stop k [] (texts cs)); [apply Hno; lia| |].
      + rewrite write_item_S. eapply emits_lift_bind; [by apply index_ok|].
        eapply emits_lift_bind; [by apply (index_at pre _ (rest ++ post))|]. cbv iota. rewrite write_step_S.
        eapply emits_lift_bind; [by apply index_ok|]. eapply emits_lift_bind; [by apply index_ok|].
        rewrite Hd. apply emits_ret.
      + specialize (IH (pre ++ [OStep s]) post stop (S (S fuel))). rewrite app_length in IH. cbn [length] in IH.
        rewrite Nat.add_1_r in IH. replace (length pre + S (length rest))%nat with (S (length pre) + length rest)%nat by lia.
        apply IH; [done|by rewrite <-app_assoc|intros; apply Hno; lia| |lia].
        by replace (S (length pre) + length rest)%nat with (length pre + S (length rest))%nat by lia.
    - (* line *)
      intros k i n s st line rest cs Hst Hd _ IH pre post stop fuel Hn Ho Hno Hyes Hf. cbn [length] in *.
      destruct fuel as [|[|[|fuel]]]; [lia..|].
      apply (items_round _ i (length pre) (S (length pre)) stop k [(k, _)] (texts cs)); [apply Hno; lia| |].
      + rewrite write_item_S. eapply emits_lift_bind; [by apply index_ok|].
        eapply emits_lift_bind; [by apply (index_at pre _ (rest ++ post))|]. cbv iota. rewrite write_step_S.
        eapply emits_lift_bind; [by apply index_ok|]. eapply emits_lift_bind; [by apply index_ok|].
        rewrite Hd. unfold chunk_text, part_text, node_step. cbn [fst snd]. rewrite Hn. cbn [mbind option_bind]. rewrite Hst, Hd.
        apply emits_merge, emits_cons with (v := tt); [apply says_branch|].
        apply emits_cons with (v := tt); [apply says_write|apply emits_ret].
      + specialize (IH (pre ++ [OStep s]) post stop (S (S fuel))). rewrite app_length in IH. cbn [length] in IH.
        rewrite Nat.add_1_r in IH. replace (length pre + S (length rest))%nat with (S (length pre) + length rest)%nat by lia.
        apply IH; [done|by rewrite <-app_assoc|intros; apply Hno; lia| |lia].
        by replace (S (length pre) + length rest)%nat with (length pre + S (length rest))%nat by lia.
    - (* internal *)
      intros k i n s st call e en inner rest cs1 cs2 Hst Hd Hen Hni Hk _ IH1 _ IH2 pre post stop fuel Hn Ho Hno Hyes Hf.
      cbn [length] in *. rewrite app_length in *. cbn [length] in *.
      destruct fuel as [|[|[|fuel]]]; [lia..|].
      eapply emits_eq.
      { apply (items_round _ i (length pre) (S (S (length pre + length inner)))%nat stop k
          ((k, spec_branch k) :: (k + 1, chunk_text to_checksum colors cheatcodes ns (k + 1, InternalHead i s)) :: texts cs1 ++
           [(k + 1, chunk_text to_checksum colors cheatcodes ns (k + 1, InternalClose i s))]) (texts cs2)); [apply Hno; lia| |].
        - rewrite write_item_S. eapply emits_lift_bind; [by apply index_ok|].
          eapply emits_lift_bind; [by eapply (index_at pre)|]. cbv iota. rewrite write_step_S.
          eapply emits_lift_bind; [by apply index_ok|]. eapply emits_lift_bind; [by apply index_ok|].
          rewrite Hd. eapply emits_lift_bind; [by apply index_ok|]. cbv zeta.
          change (chunk_text to_checksum colors cheatcodes ns (k + 1, InternalHead i s)) with (part_text to_checksum colors cheatcodes ns (k + 1) (InternalHead i s)).
          change (chunk_text to_checksum colors cheatcodes ns (k + 1, InternalClose i s)) with (part_text to_checksum colors cheatcodes ns (k + 1) (InternalClose i s)).
          unfold part_text, node_step. rewrite Hn. cbn [mbind option_bind]. rewrite Hst, Hd, Hen.
          apply emits_cons with (v := tt); [apply says_branch|].
          apply emits_same with (k1 := k + 1) (v := tt); [by apply emits_up|].
          apply emits_cons with (v := tt).
          { eapply says_eq; [apply says_write|]. repeat f_equal. destruct (dic_args call); [by rewrite join_commas_spec|done]. }
          apply emits_bind with (k1 := k + 1) (v := (S (length pre) + length inner)%nat).
          { specialize (IH1 (pre ++ [OStep s]) (OStep e :: rest ++ post)
              (fun item_idx => let! m := index (nd_ordering n) item_idx in Ok match m with OStep idx => (idx =? e)%nat | _ => false end) fuel).
            rewrite app_length in IH1. cbn [length] in IH1. rewrite Nat.add_1_r in IH1. apply IH1; [done| | | |].
            - rewrite Ho. rewrite <-!app_assoc. cbn. by rewrite <-!app_assoc.
            - intros p Hp. unfold index.
              assert (Hq : exists m, inner !! (p - S (length pre))%nat = Some m) by (apply lookup_lt_is_Some; lia).
              destruct Hq as [m Hq].
              assert (Hm : nd_ordering n !! p = Some m).
              { rewrite Ho. rewrite lookup_app_r by lia. cbn. destruct (p - length pre)%nat as [|q] eqn:Eq; [lia|].
                cbn. replace q with (p - S (length pre))%nat by lia. rewrite <-app_assoc. by apply lookup_app_l_Some. }
              rewrite Hm. cbn. destruct m as [|m|m]; [done..|]. f_equal. apply Nat.eqb_neq. intros ->. apply Hni.
              apply elem_of_list_In. by eapply elem_of_list_lookup_2.
            - unfold index. assert (Hm : nd_ordering n !! (S (length pre) + length inner)%nat = Some (OStep e)).
              { rewrite Ho. rewrite lookup_app_r by lia. replace (S (length pre) + length inner - length pre)%nat with (S (length inner)) by lia.
                cbn. rewrite <-app_assoc. by apply list_lookup_middle. }
              rewrite Hm. cbn. by rewrite Nat.eqb_refl.
            - cbn [length]. rewrite app_length. lia. }
          rewrite app_assoc.
          apply emits_merge, emits_cons with (v := tt); [apply says_edge|].
          apply emits_merge, emits_cons with (v := tt); [apply says_write|].
          apply emits_merge, emits_cons with (v := tt).
          { destruct (dic_return_data call); [|apply says_ret]. eapply says_eq; [apply says_write|]. apply join_commas_spec. }
          apply emits_cons with (v := tt); [apply says_write|].
          apply emits_same with (k1 := k) (v := tt); [apply emits_down|]. apply emits_ret.
        - specialize (IH2 (pre ++ OStep s :: inner ++ [OStep e]) post stop (S (S fuel))).
          assert (Hlen : length (pre ++ OStep s :: inner ++ [OStep e]) = S (S (length pre + length inner))).
          { rewrite app_length. cbn. rewrite app_length. cbn. lia. }
          rewrite Hlen in IH2.
          replace (length pre + S (length inner + S (length rest)))%nat with (S (S (length pre + length inner)) + length rest)%nat by lia.
          apply IH2; [done| |intros; apply Hno; lia| |lia].
          + rewrite Ho. rewrite <-!app_assoc. cbn. by rewrite <-!app_assoc.
          + by replace (S (S (length pre + length inner)) + length rest)%nat with (length pre + S (length inner + S (length rest)))%nat by lia. }
      rewrite !map_cons. cbn [app]. f_equal. f_equal. rewrite map_app. rewrite <-app_assoc. done.
  Qed.
End Emits.
