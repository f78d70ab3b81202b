(** * TxTextProofs: the written trace of a whole execution *)

From Verif Require Export SpecTxText TxTraceProofs WriterFacts.

(** ** The exact ordering of a recorded node *)
Section ordering.
  Context (cfg : TracingInspectorConfig) (w : world).

  Definition hook_ords (lg : nat) (hs : list hook) : list TraceMemberOrder :=
    if record_logs cfg then map OLog (seq lg (length (logs_of hs))) else [].
  Definition shown_count (hs : list hook) : nat := if record_logs cfg then length (logs_of hs) else 0.
  Fixpoint body_ords (v : U256) (lg ch st : nat) (l : list item) : list TraceMemberOrder :=
    match l with
    | [] => []
    | IOp o :: r =>
        (if ExecProofs.recorded cfg o then [OStep st] else []) ++ hook_ords lg (op_hooks o) ++
        body_ords v (lg + shown_count (op_hooks o)) ch (if ExecProofs.recorded cfg o then S st else st) r
    | IHook h :: r => hook_ords lg [h] ++ body_ords v (lg + shown_count [h]) ch st r
    | ISub g :: r =>
        if excluded cfg w (f_start g) (Some v) then body_ords v lg ch st r
        else OCall ch :: body_ords v lg (S ch) st r
    end.

  Lemma logs_of_app a b : logs_of (a ++ b) = logs_of a ++ logs_of b.
  Proof. unfold logs_of. by rewrite flat_map_app. Qed.
  Lemma apply_hooks_ords hs : forall n,
    nd_ordering (apply_hooks cfg n hs) = nd_ordering n ++ hook_ords (length (nd_logs n)) hs /\
    length (nd_logs (apply_hooks cfg n hs)) = length (nd_logs n) + shown_count hs.
  Proof.
    unfold hook_ords, shown_count. induction hs as [|[j l|a b x] hs IH]; intros n.
    - cbn. destruct (record_logs cfg); cbn; rewrite ?app_nil_r; split; lia || done.
    - change (apply_hooks cfg n (HLog j l :: hs)) with (apply_hooks cfg (apply_hook cfg n (HLog j l)) hs).
      destruct (IH (apply_hook cfg n (HLog j l))) as [-> ->]. cbn [apply_hook logs_of flat_map app length seq map].
      destruct (record_logs cfg); [|done]. cbn [push_log nd_ordering nd_logs]. rewrite app_length. cbn [length].
      rewrite <-app_assoc. cbn [app]. split; [by rewrite Nat.add_1_r|]. fold (logs_of hs). lia.
    - change (apply_hooks cfg n (HSelfdestruct a b x :: hs)) with (apply_hooks cfg (mark_selfdestruct a b x n) hs).
      by destruct (IH (mark_selfdestruct a b x n)) as [-> ->].
  Qed.
  Lemma apply_hooks_children hs n : nd_children (apply_hooks cfg n hs) = nd_children n.
  Proof. apply apply_hooks_pres. intros m [j lg|a b x]; cbn; [by destruct (record_logs cfg)|done]. Qed.
  Lemma apply_hooks_steps' hs n : tr_steps (nd_trace (apply_hooks cfg n hs)) = tr_steps (nd_trace n).
  Proof. apply (apply_hooks_pres cfg (fun n => tr_steps (nd_trace n))). intros m [j lg|a b x]; cbn; [by destruct (record_logs cfg)|done]. Qed.

  Lemma node_after_ords l : forall d v n next,
    nd_ordering (node_after cfg w d v n next l) =
    nd_ordering n ++ body_ords v (length (nd_logs n)) (length (nd_children n)) (length (tr_steps (nd_trace n))) l.
  Proof.
    induction l as [|[o|h|g] r IH]; intros d v n next; cbn [ExecProofs.node_after body_ords].
    - by rewrite app_nil_r.
    - rewrite IH. unfold ExecProofs.apply_instr. destruct (ExecProofs.recorded cfg o).
      all: rewrite apply_hooks_children, apply_hooks_steps'.
      all: match goal with |- context [apply_hooks cfg ?m _] => destruct (apply_hooks_ords (op_hooks o) m) as [-> ->] end.
      + cbn [push_step nd_ordering nd_logs nd_children nd_trace tr_set_steps tr_steps]. rewrite app_length, Nat.add_1_r. by rewrite <-!app_assoc.
      + by rewrite <-app_assoc.
    - rewrite IH. change (apply_hook cfg n h) with (apply_hooks cfg n [h]). rewrite apply_hooks_children, apply_hooks_steps'.
      destruct (apply_hooks_ords [h] n) as [-> ->]. by rewrite <-app_assoc.
    - rewrite IH. destruct (excluded _ _ _ _); [done|]. cbn [attach_child nd_ordering nd_logs nd_children nd_trace].
      rewrite app_length, Nat.add_1_r. by rewrite <-app_assoc.
  Qed.
  Lemma node_of_ords x : nd_ordering (node_of cfg w x) = body_ords (value_of (f_start (en_frame x)) (en_inherited x)) 0 0 0 (f_body (en_frame x)).
  Proof. unfold node_of, finish. cbn [nd_set_trace nd_ordering]. by rewrite node_after_ords. Qed.
  Lemma node_of_steps x : tr_steps (nd_trace (node_of cfg w x)) = steps_from cfg w (S (en_depth x)) None (instrs (f_body (en_frame x))).
  Proof. unfold node_of, finish. cbn [nd_set_trace nd_trace fill_trace tr_steps]. by rewrite node_after_steps. Qed.

  Lemma steps_from_length d os : forall prev, length (steps_from cfg w d prev os) = length (List.filter (ExecProofs.recorded cfg) os).
  Proof. induction os as [|o os IH]; intros prev; cbn; [done|]. destruct (ExecProofs.recorded cfg o); cbn; by rewrite IH. Qed.
  Lemma step_of_decoded d prev o : st_decoded (step_of cfg w d prev o) = None.
  Proof.
    unfold step_of. destruct (fill_step _ _ _ _) eqn:E; [|done..]. apply fill_step_fields in E. destruct_and? E.
    match goal with H : st_decoded _ = st_decoded _ |- _ => rewrite H end. done.
  Qed.
  Lemma steps_from_decoded d os : forall prev, Forall (fun st => st_decoded st = None) (steps_from cfg w d prev os).
  Proof.
    induction os as [|o os IH]; intros prev; cbn; [constructor|]. destruct (ExecProofs.recorded cfg o); [|done].
    constructor; [apply step_of_decoded|done].
  Qed.
End ordering.

(** ** The layout of a placed frame *)
Section layout.
  Context (ck : address -> list byte) (colors cheat : bool) (cfg : TracingInspectorConfig) (w : world) (ns : list CallTraceNode).
  Notation placed := (placed cfg w ns).
  Notation rendering := (rendering ck colors cheat ns).
  Notation call_text := (call_text ck colors cheat cfg w).
  Notation hook_lines := (hook_lines colors cfg).

  Fixpoint body_text (v : U256) (k : N) (l : list item) : list byte :=
    match l with
    | [] => []
    | IOp o :: r => hook_lines k (op_hooks o) ++ body_text v k r
    | IHook h :: r => hook_lines k [h] ++ body_text v k r
    | ISub h :: r =>
        if hidden_call cfg w v (f_start h) then body_text v k r
        else call_text false (call_value v (f_start h)) k h ++ body_text v k r
    end.
  Lemma call_text_eq root v k s body e : call_text root v k (Frame s body e) =
    spec_branch k ++ first_line ck colors cheat w root v (Frame s body e) ++ [x0a] ++ body_text v (k + 1)%N body ++
    spec_indent (k + 1) ++ txt "  └─ " ++ last_line colors cheat (Frame s body e) ++ [x0a].
  Proof.
    cbn [SpecTxText.call_text]. do 4 f_equal. induction body as [|[o|h|g] r IH]; cbn; [done|by rewrite IH..|].
    rewrite IH. by destruct (hidden_call _ _ _ _).
  Qed.
  Fixpoint subs_nesting (l : list item) : nat :=
    match l with [] => O | ISub g :: r => Nat.max (nesting g) (subs_nesting r) | _ :: r => subs_nesting r end.
  Lemma nesting_eq s body e : nesting (Frame s body e) = S (subs_nesting body).
  Proof. done. Qed.

  Lemma rendering_app a b : rendering (a ++ b) = rendering a ++ rendering b.
  Proof. unfold SpecWriter.rendering. by rewrite map_app, concat_app. Qed.

  Definition laid_out (g : frame) : Prop := forall par pos d inh k,
    (pos =? 0) = (match inh with None => true | Some _ => false end) ->
    (pos = 0 -> evm_refund g) -> (k + N.of_nat (nesting g) <= 65535)%N ->
    placed pos (entries par pos d inh g) ->
    exists cs, node_layout ns k pos cs /\ rendering cs = call_text (pos =? 0) (value_of (f_start g) inh) k g.

  Lemma log_text k l : spec_log colors k (calllog_of l) = log_lines colors k l.
  Proof. done. Qed.

  Lemma hook_layout k pos n hs : ns !! pos = Some n -> forall pre post rest cs,
    nd_logs n = pre ++ (if record_logs cfg then map calllog_of (logs_of hs) else []) ++ post ->
    members_layout ns k pos n rest cs ->
    exists cs', members_layout ns k pos n (hook_ords cfg (length pre) hs ++ rest) cs' /\
      rendering cs' = hook_lines k hs ++ rendering cs.
  Proof.
    intros Hn pre post rest cs. unfold hook_ords, SpecTxText.hook_lines. destruct (record_logs cfg); [|by exists cs].
    revert pre. induction (logs_of hs) as [|l ls IH]; intros pre Hl Hm; [by exists cs|].
    destruct (IH (pre ++ [calllog_of l])) as (cs' & H1 & H2); [by rewrite Hl, <-app_assoc|done|].
    rewrite app_length, Nat.add_1_r in H1. cbn [length seq map app].
    assert (Hj : nd_logs n !! length pre = Some (calllog_of l)).
    { rewrite Hl, lookup_app_r by done. by rewrite Nat.sub_diag. }
    exists ((k, OneLog pos (length pre)) :: cs'). split; [by eapply ml_log|].
    change (rendering (?x :: cs')) with (chunk_text ck colors cheat ns x ++ rendering cs'). rewrite H2. unfold chunk_text. cbn [fst snd part_text].
    rewrite Hn, Hj, log_text. cbn [concat map]. by rewrite <-app_assoc.
  Qed.

  Lemma body_layout pos d v k n : ns !! pos = Some n -> Forall (fun st => st_decoded st = None) (tr_steps (nd_trace n)) ->
    forall body preL preC st next,
    Forall laid_out (subs body) -> (k + N.of_nat (subs_nesting body) <= 65535)%N -> 0 < next ->
    placed next (sub_entries pos d v next body) ->
    nd_logs n = preL ++ (if record_logs cfg then map calllog_of (logs_of (hooks body)) else []) ->
    nd_children n = preC ++ child_positions cfg w v next body ->
    length (tr_steps (nd_trace n)) = st + length (List.filter (ExecProofs.recorded cfg) (instrs body)) ->
    exists cs, members_layout ns k pos n (body_ords cfg w v (length preL) (length preC) st body) cs /\
      rendering cs = body_text v k body.
  Proof.
    intros Hn Hdec. induction body as [|[o|h|g] r IH]; intros preL preC st next Hf Hk Hpos Hpl Hl Hc Hs; cbn [body_ords body_text].
    - exists []. split; [constructor|done].
    - cbn [hooks flat_map] in Hl. fold (hooks r) in Hl. rewrite logs_of_app in Hl.
      assert (Hl' : nd_logs n = preL ++ (if record_logs cfg then map calllog_of (logs_of (op_hooks o)) else []) ++
                                (if record_logs cfg then map calllog_of (logs_of (hooks r)) else [])).
      { rewrite Hl. destruct (record_logs cfg); [by rewrite map_app|done]. }
      cbn [instrs flat_map app List.filter] in Hs. fold (instrs r) in Hs.
      destruct (IH (preL ++ (if record_logs cfg then map calllog_of (logs_of (op_hooks o)) else [])) preC
                  (if ExecProofs.recorded cfg o then S st else st) next) as (cs & H1 & H2); try done.
      { by rewrite Hl', <-app_assoc. }
      { destruct (ExecProofs.recorded cfg o); cbn [length] in Hs; lia. }
      destruct (hook_layout k pos n (op_hooks o) Hn preL _ _ cs Hl' H1) as (cs' & H3 & H4).
      rewrite <-H2, <-H4. exists cs'. split; [|done].
      rewrite app_length in H3. unfold shown_count.
      assert (He : length (if record_logs cfg then map calllog_of (logs_of (op_hooks o)) else []) =
                   (if record_logs cfg then length (logs_of (op_hooks o)) else 0)).
      { destruct (record_logs cfg); [apply map_length|done]. }
      rewrite He in H3. destruct (ExecProofs.recorded cfg o); [|done]. cbn [app length] in *.
      destruct (lookup_lt_is_Some_2 (tr_steps (nd_trace n)) st) as [x Hx]; [lia|].
      eapply ml_plain; [done| |exact H3]. by eapply Forall_lookup_1 in Hdec.
    - cbn [hooks flat_map] in Hl. fold (hooks r) in Hl. rewrite logs_of_app in Hl.
      assert (Hl' : nd_logs n = preL ++ (if record_logs cfg then map calllog_of (logs_of [h]) else []) ++
                                (if record_logs cfg then map calllog_of (logs_of (hooks r)) else [])).
      { rewrite Hl. destruct (record_logs cfg); [by rewrite map_app|done]. }
      destruct (IH (preL ++ (if record_logs cfg then map calllog_of (logs_of [h]) else [])) preC st next) as (cs & H1 & H2); try done.
      { by rewrite Hl', <-app_assoc. }
      destruct (hook_layout k pos n [h] Hn preL _ _ cs Hl' H1) as (cs' & H3 & H4).
      rewrite <-H2, <-H4. exists cs'. split; [|done].
      rewrite app_length in H3. unfold shown_count.
      assert (He : length (if record_logs cfg then map calllog_of (logs_of [h]) else []) =
                   (if record_logs cfg then length (logs_of [h]) else 0)).
      { destruct (record_logs cfg); [apply map_length|done]. }
      by rewrite He in H3.
    - cbn [subs flat_map app] in Hf. fold (subs r) in *. inversion_clear Hf as [|? ? Hfg Hfr].
      cbn [subs_nesting] in Hk. cbn [sub_entries] in Hpl. apply placed_app in Hpl as [Hp1 Hp2]. rewrite entries_length in Hp2.
      cbn [child_positions] in Hc. rewrite <-excluded_hidden. destruct (excluded cfg w (f_start g) (Some v)) eqn:Ex.
      + apply (IH preL preC st (next + frame_size g)); [done|lia|lia|done|done|done|done].
      + destruct (Hfg (Some pos) next (S d) (Some v) k) as (cs1 & H1 & H2); [apply Nat.eqb_neq; lia|lia|lia|done|].
        destruct (IH preL (preC ++ [next]) st (next + frame_size g)) as (cs2 & H3 & H4); [done|lia|lia|done|done|by rewrite Hc, <-app_assoc|done|].
        rewrite app_length, Nat.add_1_r in H3.
        exists (cs1 ++ cs2). split.
        * eapply ml_call; [|exact H1|exact H3]. rewrite Hc, lookup_app_r by done. by rewrite Nat.sub_diag.
        * rewrite rendering_app, H2, H4. replace (next =? 0) with false by (symmetry; apply Nat.eqb_neq; lia). by rewrite value_of_call.
  Qed.

  Lemma header_text par pos d inh g : (pos =? 0) = (match inh with None => true | Some _ => false end) ->
    (pos = 0 -> evm_refund g) ->
    let n := node_of cfg w (mkEntry par pos d inh g) in
    spec_header ck colors cheat (nd_trace n) = first_line ck colors cheat w (pos =? 0) (value_of (f_start g) inh) g /\
    spec_footer colors cheat (nd_trace n) = last_line colors cheat g.
  Proof.
    intros Hp Hz. set (x := mkEntry par pos d inh g). cbn zeta.
    destruct (node_of_start cfg w par pos d inh g Hp) as (Hk & _ & Hd & _ & Hv). fold x in Hk, Hd, Hv.
    destruct (node_of_marks cfg w x) as [Ha _]. destruct (node_of_end cfg w x) as (Hst & Hsu & Hout & Hgas). specialize (Hgas Hz).
    destruct (node_of_static cfg w x) as (_ & _ & _ & _ & _ & _ & _ & _ & _ & Hdc).
    cbn [x en_frame en_pos] in *. fold x in Hst, Hsu, Hgas, Hout, Ha, Hdc.
    generalize dependent (node_of cfg w x). intros n. intros.
    assert (Hcol : spec_trace_color cheat (nd_trace n) = call_color cheat g) by (unfold spec_trace_color, call_color; by rewrite Ha, Hsu).
    unfold spec_header, first_line, spec_footer, last_line, spec_function. rewrite Hcol, Hk, Hd, Hv, Ha, Hst, Hout, Hgas, Hdc.
    cbn [decoded_none dct_label dct_call_data dct_return_data].
    destruct (f_start g) as [j c|j c]; cbn [spec_kind is_call]; [destruct (ci_scheme c)|destruct (cr_scheme c)].
    all: (split; [do 3 f_equal|try (destruct (ir_output _); done); done]).
    all: cbn [spec_input]; try (destruct (length _ <? 4)%nat; done); try done.
  Qed.

  Lemma laid_out_all g : laid_out g.
  Proof.
    induction g as [s body e IH] using frame_ind'. intros par pos d inh k Hp Hz Hk Hpl.
    rewrite entries_eq in Hpl. apply placed_cons in Hpl as [Hn Hpl]. set (x := mkEntry par pos d inh (Frame s body e)) in *.
    destruct (header_text par pos d inh (Frame s body e) Hp Hz) as [Hh Hf]. fold x in Hh, Hf.
    pose proof (node_of_ords cfg w x) as Ho. pose proof (node_of_logs cfg w x) as Hl. pose proof (node_of_children cfg w x) as Hc.
    pose proof (node_of_steps cfg w x) as Hs. cbn [x en_frame f_start f_body en_inherited en_pos en_depth] in Ho, Hl, Hc, Hs. fold x in Ho, Hl, Hc, Hs.
    rewrite nesting_eq in Hk. generalize dependent (node_of cfg w x). intros n. intros.
    destruct (body_layout pos d (value_of s inh) (k + 1)%N n Hn) with (body := body) (preL := @nil CallLog) (preC := @nil nat) (st := 0) (next := S pos)
      as (cs & H1 & H2); try done.
    - rewrite Hs. apply steps_from_decoded.
    - lia.
    - lia.
    - rewrite Hs. apply steps_from_length.
    - cbn [length] in H1. rewrite <-Ho in H1. eexists. split; [eapply nl_node; [exact Hn|lia|exact H1]|].
      rewrite call_text_eq. change (rendering ?y) with (concat (map (chunk_text ck colors cheat ns) y)). rewrite map_cons, map_app, concat_cons, concat_app.
      change (concat (map (chunk_text ck colors cheat ns) cs)) with (rendering cs). rewrite H2. cbn [map concat]. unfold chunk_text.
      cbn [fst snd part_text]. rewrite Hn, Hh, Hf. cbn [f_start]. by rewrite app_nil_r, <-!app_assoc.
  Qed.
End layout.

(** ** Writing *)
Theorem tx_written ck cfg w f s wr : env_ok cfg w f -> evm_refund f ->
  ti_run (ti_new cfg) (tx_events w f) = Ok s -> (tw_level wr + N.of_nat (nesting f) <= 65535)%N ->
  let text := tx_text ck (tw_use_colors wr) (tw_color_cheatcodes wr) cfg w (tw_level wr) f in
  exists wr' result, write_arena ck (ti_traces s) wr = Ok (wr', result) /\
    tw_out wr' = tw_out wr ++ match tw_budget wr with None => text | Some b => take b text end /\
    (result = Some tt <-> tw_flush wr = true /\ forall b, tw_budget wr = Some b -> length text <= b) /\
    (result = Some tt -> tw_level wr' = tw_level wr).
Proof.
  intros Henv Hz Hrun Hk text.
  pose proof (tx_traces _ _ _ _ Henv Hrun) as Hns. pose proof (tx_tree _ _ _ _ Hrun) as Ht.
  assert (Hpl : placed cfg w (ti_traces s) 0 (entries None 0 0 None f)).
  { intros k x Hx. rewrite Hns. unfold layout. by rewrite list_lookup_fmap, Nat.add_0_l, Hx. }
  destruct (laid_out_all ck (tw_use_colors wr) (tw_color_cheatcodes wr) cfg w (ti_traces s) f None 0 0 None (tw_level wr) eq_refl (fun _ => Hz) Hk Hpl)
    as (cs & Hl & Htext). rewrite value_of_root in Htext. cbn [Nat.eqb] in Htext. fold (tx_text ck (tw_use_colors wr) (tw_color_cheatcodes wr) cfg w (tw_level wr) f) in Htext.
  fold text in Htext.
  set (ps := map (fun c => (fst c, chunk_text ck (tw_use_colors wr) (tw_color_cheatcodes wr) (ti_traces s) c)) cs).
  assert (Hps : concat (map snd ps) = text).
  { rewrite <-Htext. unfold ps, rendering. rewrite map_map. done. }
  assert (Hdown : forall i n j c, ti_traces s !! i = Some n -> nd_children n !! j = Some c -> i < c).
  { intros i n j c Hi Hc. by destruct (child_lookup _ Ht i n j c Hi Hc) as (_ & _ & _ & _ & ? & _). }
  pose proof (write_node_layout (tw_use_colors wr) (tw_color_cheatcodes wr) ck (ti_traces s) Hdown _ _ _ Hl (writer_fuel (ti_traces s))) as He.
  assert (Hw : write_arena ck (ti_traces s) wr =
    Ok (if snd (emit ps wr) then (tw_set_level (fst (emit ps wr)) (tw_level wr), if tw_flush wr then Some tt else None)
        else (fst (emit ps wr), None))).
  { unfold write_arena, io_bind. rewrite He by done. fold ps. pose proof (emit_budget ps wr) as [_ Hfl].
    destruct (snd (emit ps wr)); [|done]. unfold flush. cbn [tw_flush tw_set_level]. by rewrite Hfl. }
  rewrite Hw. do 2 eexists. split; [by rewrite <-surjective_pairing|].
  pose proof (emit_budget ps wr) as [Hb _]. rewrite Hps in Hb. destruct (tw_budget wr) as [b|].
  - destruct Hb as [(H1 & -> & H3 & _)|(H1 & -> & ps1 & k & t & ps2 & H3 & _ & H4 & H5)]; cbn [fst snd].
    + split_and!; [cbn; by rewrite take_ge, H3| |done]. split; [intros; destruct (tw_flush wr); [|done]; split; [done|]; by intros ? [= <-]|]. by intros [-> _].
    + split_and!; [|split; [done|]|done].
      * rewrite H5. f_equal. rewrite <-Hps, H3, map_app, concat_app. cbn [map concat snd]. rewrite take_app_ge by lia. f_equal.
        rewrite take_app_le by lia. done.
      * intros [_ H]. specialize (H b eq_refl). lia.
  - destruct Hb as (-> & H2 & _). cbn [fst snd]. split_and!; [done| |done]. split; [intros; destruct (tw_flush wr); done|]. by intros [-> _].
Qed.

(** The text depends on the configuration only through logs and hidden precompile calls. *)
Lemma hidden_same cfg cfg' w v s : exclude_precompile_calls cfg = exclude_precompile_calls cfg' ->
  hidden_call cfg w v s = hidden_call cfg' w v s.
Proof. unfold hidden_call. by intros ->. Qed.
Lemma call_text_same ck colors cheat cfg cfg' w g :
  record_logs cfg = record_logs cfg' -> exclude_precompile_calls cfg = exclude_precompile_calls cfg' ->
  forall root v k, call_text ck colors cheat cfg w root v k g = call_text ck colors cheat cfg' w root v k g.
Proof.
  intros H1 H2. induction g as [s body e IH] using frame_ind'. intros root v k. rewrite !call_text_eq. do 4 f_equal.
  clear root. induction body as [|[o|h|g] r IHr]; cbn [body_text]; [done|..].
  - rewrite IHr by done. unfold hook_lines. by rewrite H1.
  - rewrite IHr by done. unfold hook_lines. by rewrite H1.
  - cbn [subs flat_map app] in IH. inversion_clear IH as [|? ? Hg Hr]. rewrite (hidden_same cfg cfg') by done.
    rewrite IHr by done. by rewrite Hg.
Qed.
