(** * TxTraceProofs: the parity traces and call frames of a whole execution *)

From Verif Require Export SpecTx GethProofs ParityProofs TxFacts.

Section nodes.
  Context (cfg : TracingInspectorConfig) (w : world).

  (** ** The node of an entry, in terms of its frame *)

  Lemma node_of_marks x :
    let n := node_of cfg w x in
    tr_address (nd_trace n) = spec_address (en_frame x) /\
    (tr_selfdestruct_refund_target (nd_trace n), tr_selfdestruct_transferred_value (nd_trace n)) =
    match last (selfdestructs_of (hooks (f_body (en_frame x)))) with
    | Some (_, target, value) => (Some target, Some value)
    | None => (None, None)
    end.
  Proof.
    destruct x as [par pos d inh g]. cbn zeta. cbn [en_frame]. unfold node_of, finish.
    cbn [en_frame en_pos en_depth en_inherited nd_set_trace nd_trace fill_trace tr_address
      tr_selfdestruct_refund_target tr_selfdestruct_transferred_value].
    set (m := node_after _ _ _ _ _ _ _).
    assert (Hm : marks m = match last (selfdestructs_of (hooks (f_body g))) with
                           | Some x => mark_of (code_address (f_start g), None, None) x
                           | None => (code_address (f_start g), None, None) end).
    { unfold m. rewrite node_after_marks, fold_marks_last. done. }
    unfold marks in Hm. unfold spec_address, end_address.
    destruct (last _) as [[[a b] v]|]; cbn in Hm; injection Hm as -> -> ->; split; try done;
      destruct (f_start g); try done; by destruct (fe_address (f_end g)).
  Qed.

  Lemma node_of_end x :
    let n := node_of cfg w x in
    let e := f_end (en_frame x) in
    tr_status (nd_trace n) = status e /\ tr_success (nd_trace n) = spec_success (status e) /\
    tr_output (nd_trace n) = ir_output (fe_result e) /\
    ((en_pos x = 0 -> (0 <= g_refunded (ir_gas (fe_result e)) < 9223372036854775808)%Z) ->
     tr_gas_used (nd_trace n) = frame_gas_used w (en_pos x =? 0) e).
  Proof.
    destruct x as [par pos d inh g]. cbn zeta. cbn [en_frame en_pos]. unfold node_of, finish.
    cbn [en_frame en_pos nd_set_trace nd_trace fill_trace tr_status tr_success tr_output tr_gas_used].
    split_and!; try done. intros Hz. unfold frame_gas_used, gas_spent. destruct (Nat.eqb_spec pos 0) as [->|]; [|done].
    rewrite gas_used_spec, i64_as_u64_nonneg; [done|]. specialize (Hz eq_refl). lia.
  Qed.

  Lemma node_of_children x : nd_children (node_of cfg w x) =
    child_positions cfg w (value_of (f_start (en_frame x)) (en_inherited x)) (S (en_pos x)) (f_body (en_frame x)).
  Proof. unfold node_of, finish. cbn [nd_set_trace nd_children]. by rewrite node_after_children. Qed.

  Lemma node_of_precompile x : nd_is_precompile (node_of cfg w x) = excluded cfg w (f_start (en_frame x)) (en_inherited x).
  Proof.
    destruct (node_of_static cfg w x) as (_ & _ & _ & _ & _ & _ & _ & _ & Hm & _). unfold nd_is_precompile, excluded. by rewrite Hm.
  Qed.

  Lemma excluded_hidden s v : excluded cfg w s (Some v) = hidden_call cfg w v s.
  Proof.
    unfold excluded, hidden_call, mp_of. destruct s as [j c|j c]; cbn [is_call default].
    2: { by rewrite andb_false_r. }
    destruct (exclude_precompile_calls cfg); [|done]. cbn [default andb].
    destruct (w_precompiles w _); [|done]. cbn [andb]. unfold value_of, is_delegatecall, spec_value.
    destruct (ci_scheme c); done.
  Qed.

  Lemma value_of_call s v : value_of s (Some v) = call_value v s.
  Proof.
    unfold value_of, call_value, is_delegatecall, spec_value. destruct s as [j c|j c]; [|done].
    unfold ci_call_value. by destruct (ci_scheme c), (ci_value c).
  Qed.
  Lemma value_of_root s : value_of s None = spec_value s.
  Proof. unfold value_of, spec_value, ci_call_value. destruct s as [j c|j c]; [|done]. by destruct (ci_scheme c), (ci_value c). Qed.

  (** Start data; [inh] is [None] exactly for the root. *)
  Lemma node_of_start par pos d inh g : (pos =? 0) = (match inh with None => true | Some _ => false end) ->
    let n := node_of cfg w (mkEntry par pos d inh g) in
    tr_kind (nd_trace n) = spec_kind (f_start g) /\ tr_caller (nd_trace n) = spec_caller (f_start g) /\
    tr_data (nd_trace n) = spec_input (f_start g) /\ tr_gas_limit (nd_trace n) = spec_gas_limit w (pos =? 0) (f_start g) /\
    tr_value (nd_trace n) = value_of (f_start g) inh.
  Proof.
    intros Hp. destruct (node_of_static cfg w (mkEntry par pos d inh g)) as (_ & _ & _ & Hk & Hc & Hv & Hd & Hg & _).
    cbn [en_frame en_inherited] in *. cbn zeta. rewrite Hk, Hc, Hd, Hg, Hv, Hp. split_and!; try done.
    unfold spec_gas_limit. destruct inh; [|done]. by destruct (f_start g).
  Qed.

  Lemma spec_kind_create s : spec_is_create (spec_kind s) = negb (is_call s).
  Proof. destruct s as [j c|j c]; cbn; [by destruct (ci_scheme c)|by destruct (cr_scheme c)]. Qed.

  Lemma is_selfdestruct_spec x :
    nd_is_selfdestruct (node_of cfg w x) = match refund_of (en_frame x) with Some _ => true | None => false end.
  Proof.
    destruct (node_of_marks x) as [_ Hm]. destruct (node_of_end x) as (Hst & _).
    unfold nd_is_selfdestruct, tr_is_selfdestruct. rewrite Hst.
    apply (f_equal fst) in Hm. cbn [fst] in Hm. rewrite Hm. clear Hm Hst. unfold refund_of.
    destruct (last _) as [[[a b] v]|]; cbn [fst]; by destruct (status _).
  Qed.

  (** The parity entries of one node. *)
  Lemma node_entries par pos d inh g addr : (pos =? 0) = (match inh with None => true | Some _ => false end) ->
    (pos = 0 -> (0 <= g_refunded (ir_gas (fe_result (f_end g))) < 9223372036854775808)%Z) ->
    let n := node_of cfg w (mkEntry par pos d inh g) in
    trace_iter_items (n, addr) = frame_entries w (pos =? 0) (value_of (f_start g) inh) addr (length (nd_children n)) g.
  Proof.
    intros Hp Hz. set (x := mkEntry par pos d inh g). cbn zeta.
    destruct (node_of_start par pos d inh g Hp) as (Hk & Hc & Hd & Hg & Hv). fold x in Hk, Hc, Hd, Hg, Hv.
    destruct (node_of_marks x) as [Ha Hm]. destruct (node_of_end x) as (Hst & _ & Hout & Hgas). specialize (Hgas Hz).
    pose proof (is_selfdestruct_spec x) as His. cbn [x en_frame en_pos] in *. fold x in Hst, Hgas, Hout, Ha, Hm, His.
    generalize dependent (node_of cfg w x). intros n. intros.
    assert (Hentry : forall k, mkTT (parity_action n) (tr_as_error_msg (nd_trace n) StyleParity)
              (if tr_is_error (nd_trace n) && negb (tr_is_revert (nd_trace n)) then None else Some (parity_trace_output n)) addr k
              = spec_entry w (pos =? 0) (value_of (f_start g) inh) addr k g).
    { intros k. unfold spec_entry. f_equal.
      - unfold parity_action, spec_action. rewrite Hc, Ha, Hv, Hg, Hd, Hk. 
        destruct (f_start g) as [j c|j c]; cbn [spec_kind is_call]; [by destruct (ci_scheme c)|by destruct (cr_scheme c)].
      - unfold tr_as_error_msg, tr_is_error, tr_is_revert. rewrite Hst. by destruct (status (f_end g)).
      - assert (Ho : parity_trace_output n = spec_output w (pos =? 0) g).
        { unfold parity_trace_output, spec_output. rewrite Hk, Hgas, Hout, Ha.
          destruct (f_start g) as [j c|j c]; cbn [spec_kind is_call]; [by destruct (ci_scheme c)|by destruct (cr_scheme c)]. }
        rewrite Ho. unfold tr_is_error, tr_is_revert. rewrite Hst. by destruct (status (f_end g)). }
    unfold trace_iter_items, frame_entries. rewrite His.
    assert (Hm' : forall r, refund_of g = Some r -> tr_selfdestruct_refund_target (nd_trace n) = option_map fst r /\
      tr_selfdestruct_transferred_value (nd_trace n) = option_map snd r).
    { intros r. unfold refund_of. destruct (last _) as [[[a b] v]|]; injection Hm as -> ->; [by intros [= <-]|].
      destruct (status (f_end g)); try done; by intros [= <-]. }
    destruct (refund_of g) as [r|].
    - destruct (Hm' r eq_refl) as [Hm1 Hm2]. unfold parity_transaction_trace, tt_inc_subtraces. cbn [tt_action tt_error tt_result tt_address tt_subtraces].
      rewrite Nat.add_1_r. rewrite Hentry. cbn [opt_list]. unfold parity_selfdestruct_trace, parity_selfdestruct_action. rewrite His.
      rewrite Hm1, Hm2, Ha. by destruct r as [[b v]|].
    - unfold parity_transaction_trace. by rewrite Hentry.
  Qed.
End nodes.

Lemma every_frame_head P g : every_frame P g -> P g.
Proof. by destruct 1. Qed.

(** ** Parity traces of a placed frame *)

Section parity.
  Context (cfg : TracingInspectorConfig) (w : world) (ns : list CallTraceNode) (Hinv : tree_inv ns).
  Let Ht : arena_tree ns := inv_tree _ Hinv.
  Notation placed := (placed cfg w ns).

  Fixpoint body_traces (v : U256) (addr : list nat) (k : nat) (l : list item) : list TransactionTrace :=
    match l with
    | [] => []
    | ISub h :: r =>
        if hidden_call cfg w v (f_start h) then body_traces v addr k r
        else spec_traces cfg w false (call_value v (f_start h)) (addr ++ [k]) h ++ body_traces v addr (S k) r
    | _ :: r => body_traces v addr k r
    end.
  Lemma spec_traces_eq root v addr s body e : spec_traces cfg w root v addr (Frame s body e) =
    frame_entries w root v addr (length (List.filter (fun h => negb (hidden_call cfg w v (f_start h))) (subs body))) (Frame s body e)
      ++ body_traces v addr 0 body.
  Proof.
    cbn [spec_traces]. f_equal. generalize 0. induction body as [|[o|h|g] r IH]; intros k; cbn; [done|by apply IH..|].
    destruct (hidden_call _ _ _ _); [done|]. f_equal. by apply IH.
  Qed.

  Lemma child_positions_length v l : forall next,
    length (child_positions cfg w v next l) = length (List.filter (fun h => negb (hidden_call cfg w v (f_start h))) (subs l)).
  Proof.
    induction l as [|[o|h|g] r IH]; intros next; cbn; [done|apply IH..|]. rewrite excluded_hidden, app_length.
    destruct (hidden_call _ _ _ _); cbn; by rewrite IH.
  Qed.

  Definition items (xs : list entry) : list TransactionTrace :=
    flat_map (node_items ns) (List.filter (fun n => negb (nd_is_precompile n)) (map (node_of cfg w) xs)).
  Lemma items_app xs ys : items (xs ++ ys) = items xs ++ items ys.
  Proof. unfold items. by rewrite map_app, List.filter_app, flat_map_app. Qed.

  Definition frame_traces (g : frame) : Prop := forall par pos d inh addr,
    (pos =? 0) = (match inh with None => true | Some _ => false end) ->
    leaves_ok cfg w g -> (pos = 0 -> evm_refund g) ->
    excluded cfg w (f_start g) inh = false ->
    placed pos (entries par pos d inh g) -> follow ns 0 addr = Some pos ->
    items (entries par pos d inh g) = spec_traces cfg w (pos =? 0) (value_of (f_start g) inh) addr g.

  Lemma body_items pos d v addr n : follow ns 0 addr = Some pos -> ns !! pos = Some n -> forall body pre next,
    Forall frame_traces (subs body) -> Forall (leaves_ok cfg w) (subs body) ->
    0 < next -> placed next (sub_entries pos d v next body) ->
    nd_children n = pre ++ child_positions cfg w v next body ->
    items (sub_entries pos d v next body) = body_traces v addr (length pre) body.
  Proof.
    intros Ha Hn. induction body as [|[o|h|g] r IH]; intros pre next Hf Hl Hpos Hpl Hch; cbn [sub_entries body_traces].
    - done.
    - by apply IH.
    - by apply IH.
    - cbn [subs flat_map app] in Hf, Hl. fold (subs r) in *. inversion_clear Hf as [|? ? Hfg Hfr].
      inversion_clear Hl as [|? ? Hlg Hlr].
      cbn [sub_entries] in Hpl. apply placed_app in Hpl as [Hp1 Hp2]. rewrite entries_length in Hp2.
      cbn [child_positions] in Hch. rewrite items_app. rewrite <-excluded_hidden.
      destruct (excluded cfg w (f_start g) (Some v)) eqn:Ex.
      + assert (Hg : items (entries (Some pos) next (S d) (Some v) g) = []).
        { destruct (excluded_spec _ _ _ _ Ex) as (H1 & H2 & H3). specialize (Hlg H1). apply every_frame_head in Hlg.
          destruct g as [s0 b0 e0]. cbn [f_start f_body] in *. specialize (Hlg H2 H3). rewrite entries_eq.
          assert (Hb : forall k, sub_entries next (S d) (value_of s0 (Some v)) k b0 = []).
          { clear -Hlg. induction b0 as [|[o|h|g] r IH]; intros k; cbn in *; [done|by apply IH..|done]. }
          rewrite Hb. unfold items. cbn [map List.filter]. rewrite node_of_precompile. cbn [en_frame f_start en_inherited]. by rewrite Ex. }
        rewrite Hg. cbn [app]. apply IH; try done. lia.
      + rewrite (Hfg (Some pos) next (S d) (Some v) (addr ++ [length pre])); try done.
        * replace (next =? 0) with false by (symmetry; apply Nat.eqb_neq; lia). rewrite value_of_call. f_equal.
          specialize (IH (pre ++ [next]) (next + frame_size g)). rewrite app_length, Nat.add_1_r in IH. apply IH; try done; [lia|].
          rewrite Hch. by rewrite <-app_assoc.
        * apply Nat.eqb_neq. lia.
        * lia.
        * apply follow_snoc. exists pos, n. split_and!; try done. rewrite Hch, lookup_app_r by lia. by rewrite Nat.sub_diag.
  Qed.

  Lemma frame_traces_all g : frame_traces g.
  Proof.
    induction g as [s body e IH] using frame_ind'. intros par pos d inh addr Hp Hl Hz Hex Hpl Ha.
    rewrite entries_eq in Hpl |- *. apply placed_cons in Hpl as [Hn Hpl].
    change (mkEntry par pos d inh (Frame s body e) :: ?l) with ([mkEntry par pos d inh (Frame s body e)] ++ l).
    rewrite items_app, spec_traces_eq. pose proof (node_of_children cfg w (mkEntry par pos d inh (Frame s body e))) as Hch.
    cbn [en_frame f_start f_body en_inherited en_pos] in Hch. f_equal.
    - unfold items. cbn [map List.filter]. rewrite node_of_precompile. cbn [en_frame en_inherited]. rewrite Hex. cbn [negb flat_map].
      rewrite app_nil_r. unfold node_items. rewrite (at_idx _ Ht _ _ Hn).
      assert (Hadd : ParityProofs.addr ns pos = addr).
      { unfold ParityProofs.addr. by rewrite (trace_address_follow _ Hinv _ _ Ha). }
      rewrite Hadd, node_entries; try done.
      cbn [f_start]. rewrite Hch. by rewrite child_positions_length.
    - replace 0 with (length (@nil nat)) by done. eapply body_items; try done.
      + by apply leaves_inv in Hl.
      + lia.
  Qed.
End parity.

(** The parity traces of a transaction. *)
Theorem tx_parity cfg w f s : env_ok cfg w f -> evm_refund f ->
  ti_run (ti_new cfg) (tx_events w f) = Ok s ->
  into_transaction_traces (ti_traces s) = Ok (spec_traces cfg w true (spec_value (f_start f)) [] f).
Proof.
  intros Henv Hz Hrun. assert (Hex : excluded cfg w (f_start f) None = false).
  { unfold excluded, mp_of. destruct (f_start f); [|done]. destruct (exclude_precompile_calls cfg); [|done]. cbn. by destruct (w_precompiles _ _). }
  pose proof (run_tree_inv _ _ _ Hrun) as Hinv.
  rewrite (into_transaction_traces_ok _ Hinv). f_equal. unfold parity_list, shown.
  pose proof (tx_traces _ _ _ _ Henv Hrun) as Hns.
  assert (Hpl : placed cfg w (ti_traces s) 0 (entries None 0 0 None f)).
  { intros k x Hk. rewrite Hns. unfold layout. by rewrite list_lookup_fmap, Nat.add_0_l, Hk. }
  pose proof (frame_traces_all cfg w (ti_traces s) Hinv f None 0 0 None [] eq_refl (proj1 Henv) (fun _ => Hz) Hex Hpl eq_refl) as H.
  rewrite value_of_root in H. cbn [Nat.eqb] in H. rewrite <-H. unfold items. rewrite Hns at 2. done.
Qed.

(** ** The call tree of a placed frame *)

Section geth.
  Context (rr : bytes -> option string) (cfg : TracingInspectorConfig) (w : world) (ns : list CallTraceNode) (Ht : arena_tree ns).
  Context (logs : bool) (gas : u64).
  Notation placed := (placed cfg w ns).

  Lemma execution_address par pos d inh g :
    Forall (fun x => x.1.1 = executing_account (f_start g)) (selfdestructs_of (hooks (f_body g))) ->
    (forall a, is_call (f_start g) = false -> fe_address (f_end g) = Some a -> a = executing_account (f_start g)) ->
    nd_execution_address (node_of cfg w (mkEntry par pos d inh g)) = executing_account (f_start g).
  Proof.
    intros Hsd Hcr. destruct (node_of_static cfg w (mkEntry par pos d inh g)) as (_ & _ & _ & Hk & Hc & _).
    destruct (node_of_marks cfg w (mkEntry par pos d inh g)) as [Ha _]. cbn [en_frame] in *.
    unfold nd_execution_address. rewrite Hk, Hc, Ha. unfold spec_address.
    assert (Hlast : forall x, last (selfdestructs_of (hooks (f_body g))) = Some x -> fst (fst x) = executing_account (f_start g)).
    { intros x Hx. apply last_Some in Hx as [l' Hx]. rewrite Hx in Hsd. apply Forall_app in Hsd as [_ Hsd]. by inversion_clear Hsd. }
    destruct (f_start g) as [j c|j c] eqn:Ef; cbn [kind_of from_of executing_account is_call code_address] in *.
    - destruct (ci_scheme c); cbn; try done;
        (destruct (last _) as [[[a b] v]|] eqn:El; [by specialize (Hlast _ eq_refl)|done]).
    - assert (Hown : match last (selfdestructs_of (hooks (f_body g))) with Some (a, _, _) => a | None => cr_created_address c end = cr_created_address c).
      { destruct (last _) as [[[a b] v]|] eqn:El; [by specialize (Hlast _ eq_refl)|done]. }
      destruct (cr_scheme c); cbn; (destruct (fe_address (f_end g)) as [a|] eqn:Ea; [by apply Hcr|exact Hown]).
  Qed.

  Lemma info_spec par pos d inh g ok : (pos =? 0) = (match inh with None => true | Some _ => false end) ->
    Forall (fun l => lg_address l = executing_account (f_start g)) (logs_of (hooks (f_body g))) ->
    nd_execution_address (node_of cfg w (mkEntry par pos d inh g)) = executing_account (f_start g) ->
    ns !! pos = Some (node_of cfg w (mkEntry par pos d inh g)) ->
    (ok && spec_success (status (f_end g)) = true <-> chain_succeeded ns pos) ->
    info_of rr ns logs gas pos =
    spec_info rr cfg w (pos =? 0) gas (value_of (f_start g) inh)
      (logs && ((pos =? 0) || (ok && spec_success (status (f_end g))))) g.
  Proof.
    intros Hp Hla Hex Hn Hok. set (x := mkEntry par pos d inh g) in *.
    destruct (node_of_start cfg w par pos d inh g Hp) as (Hk & Hc & Hd & Hg & Hv). fold x in Hk, Hc, Hd, Hg, Hv.
    destruct (node_of_marks cfg w x) as [Ha _]. destruct (node_of_end cfg w x) as (Hst & Hsu & Hout & Hgas).
    pose proof (node_of_logs cfg w x) as Hl. cbn [x en_frame en_pos] in Hst, Hsu, Hout, Hgas, Ha, Hl. fold x in Hst, Hsu, Hout, Hgas, Ha, Hl.
    assert (Hfail : negb (failedb ns (node_of cfg w x)) = ok && spec_success (status (f_end g))).
    { destruct (call_or_parent_failed_ok ns Ht pos _ Hn) as (b & Hb & Hiff). unfold failedb. rewrite Hb.
      destruct b, (ok && _); try done; cbn.
      - symmetry. by apply Hiff, Hok.
      - symmetry. by apply Hok, Hiff. }
    assert (Hu : (pos =? 0) = false -> tr_gas_used (nd_trace (node_of cfg w x)) = gas_spent (f_end g)).
    { intros H0. rewrite Hgas; [by rewrite H0|]. intros ->. done. }
    clear Hgas Hok. unfold info_of. rewrite Hn, Hfail. 
    assert (Hmain : forall b, cf_info (geth_empty_call_frame rr (node_of cfg w x) b) =
       fi_set_gas_used (spec_info rr cfg w (pos =? 0) gas (value_of (f_start g) inh) b g) (tr_gas_used (nd_trace (node_of cfg w x)))).
    { clearbody x. generalize dependent (node_of cfg w x). intros n. intros. unfold geth_empty_call_frame, spec_info, fi_set_gas_used. cbn [cf_info].
      cbn [fi_typ fi_from fi_to fi_value fi_gas fi_input fi_output fi_error fi_revert_reason fi_logs].
      rewrite Hk, Hc, Hd, Hg, Hv, Ha, Hout, Hsu. f_equal.
      - by destruct (spec_kind (f_start g)).
      - by destruct (ir_output _).
      - unfold tr_as_error_msg, tr_is_error. rewrite Hst. by destruct (status (f_end g)).
      - by destruct (spec_success _).
      - destruct b; [|done]. rewrite Hl, Hex. destruct (record_logs cfg); [|done]. cbn [andb]. rewrite map_map.
        clear -Hla. induction Hla as [|l ls H _ IH]; cbn [map]; [done|]. rewrite IH. by rewrite H. }
    rewrite !Hmain. destruct (pos =? 0) eqn:E0.
    - cbn [orb]. by rewrite andb_true_r.
    - cbn [orb]. rewrite (Hu eq_refl). done.
  Qed.

  (** *** Who calls whom *)

  Lemma entries_par g : forall par pos d inh k x, entries par pos d inh g !! k = Some x ->
    (k = 0 /\ en_par x = par) \/ (k <> 0 /\ exists p, en_par x = Some p /\ pos <= p).
  Proof.
    intros par pos d inh k x Hk. destruct (entries_linked _ _ _ _ _ _ _ Hk) as [(? & _ & ?)|(? & p & y & ? & ? & _)]; [by left|].
    right. split; [done|]. by exists p.
  Qed.
  Lemma sub_entries_par pos d v l : forall next k x, sub_entries pos d v next l !! k = Some x ->
    exists p, en_par x = Some p /\ (p = pos \/ next <= p).
  Proof.
    induction l as [|[o|h|g] r IH]; intros next k x; cbn [sub_entries]; [done|apply IH..|].
    rewrite lookup_app_Some. intros [Hk|[_ Hk]].
    - apply entries_par in Hk as [[_ ->]|(_ & p & -> & ?)]; eauto.
    - apply IH in Hk as (p & -> & [?|?]); exists p; split; [done|by left|done|right; lia].
  Qed.

  (** Nodes called from within a range lie in it. *)
  Definition closed (a b : nat) : Prop := forall j n p, ns !! j = Some n -> nd_parent n = Some p -> a <= p -> p < b -> j < b.

  Lemma parent_below j n p : ns !! j = Some n -> nd_parent n = Some p -> p < j.
  Proof.
    intros Hn Hp. assert (j <> 0). { intros ->. destruct (at_root _ Ht) as (r & Hr & Hpr & _). congruence. }
    destruct (at_parent _ Ht j n Hn) as (p' & pn & Hp' & Hlt & _); [done|]. assert (p' = p) by congruence. lia.
  Qed.
  Lemma closed_from a a' b : closed a b -> a <= a' -> closed a' b.
  Proof. intros H Ha j n p Hn Hp H1 H2. eapply H; try done. lia. Qed.
  Lemma closed_sub pos d v next g r b : pos < next ->
    placed next (sub_entries pos d v next (ISub g :: r)) -> b = next + subs_size (ISub g :: r) ->
    closed next b -> closed next (next + frame_size g).
  Proof.
    intros Hpos Hpl -> Hc j n p Hn Hp H1 H2. assert (Hsz : subs_size (ISub g :: r) = frame_size g + subs_size r) by done.
    assert (Hj : j < next + subs_size (ISub g :: r)) by (eapply Hc; try done; lia). rewrite Hsz in Hj.
    destruct (Nat.lt_ge_cases j (next + frame_size g)) as [|Hge]; [done|]. exfalso.
    cbn [sub_entries] in Hpl. apply placed_app in Hpl as [_ Hpl]. rewrite entries_length in Hpl.
    assert (Hlt : j - (next + frame_size g) < length (sub_entries pos d v (next + frame_size g) r)).
    { rewrite sub_entries_length. lia. }
    destruct (lookup_lt_is_Some_2 _ _ Hlt) as [x Hx]. specialize (Hpl _ _ Hx).
    replace (next + frame_size g + (j - (next + frame_size g))) with j in Hpl by lia.
    assert (n = node_of cfg w x) as -> by congruence. destruct (node_of_static cfg w x) as (Hpar & _). rewrite Hp in Hpar.
    destruct (sub_entries_par _ _ _ _ _ _ _ Hx) as (p' & Hp' & [?|?]).
    - assert (p' = p) by congruence. lia.
    - assert (p' = p) by congruence. lia.
  Qed.

  Fixpoint sub_positions (next : nat) (l : list item) : list nat :=
    match l with
    | [] => []
    | ISub g :: r => next :: sub_positions (next + frame_size g) r
    | _ :: r => sub_positions next r
    end.

  Lemma frame_size_pos g : 0 < frame_size g.
  Proof. destruct g. rewrite frame_size_eq. lia. Qed.

  Lemma filter_none (p : nat -> bool) m : forall k, (forall j, k <= j -> j < k + m -> p j = false) -> List.filter p (seq k m) = [].
  Proof.
    induction m as [|m IH]; intros k H; cbn; [done|]. rewrite H by lia. apply IH. intros. apply H; lia.
  Qed.

  Lemma calls_in_body pos d v l : forall next, pos < next -> placed next (sub_entries pos d v next l) ->
    List.filter (calls_p ns pos) (seq next (subs_size l)) = sub_positions next l.
  Proof.
    induction l as [|[o|h|g] r IH]; intros next Hn Hpl; [done|by apply IH..|].
    cbn [sub_entries] in Hpl. apply placed_app in Hpl as [Hp1 Hp2]. rewrite entries_length in Hp2.
    change (subs_size (ISub g :: r)) with (frame_size g + subs_size r). rewrite seq_app, List.filter_app, IH by (try done; lia).
    cbn [sub_positions]. change (next :: ?l) with ([next] ++ l). f_equal. destruct g as [s body e]. rewrite frame_size_eq.
    cbn [seq List.filter]. 
    assert (Hall : forall j, next <= j -> j < next + frame_size (Frame s body e) -> calls_p ns pos j = (j =? next)).
    { intros j H1 H2. assert (Hlt : j - next < length (entries (Some pos) next (S d) (Some v) (Frame s body e))) by (rewrite entries_length; lia).
      destruct (lookup_lt_is_Some_2 _ _ Hlt) as [x Hx]. pose proof (Hp1 _ _ Hx) as Hj. replace (next + (j - next)) with j in Hj by lia.
      unfold calls_p. rewrite Hj. destruct (node_of_static cfg w x) as (-> & _).
      destruct (entries_par _ _ _ _ _ _ _ Hx) as [[Hz ->]|(Hz & p & -> & Hle)].
      - replace j with next by lia. rewrite Nat.eqb_refl. by apply bool_decide_eq_true.
      - replace (j =? next) with false by (symmetry; apply Nat.eqb_neq; lia). apply bool_decide_eq_false. intros [= ->]. lia. }
    rewrite Hall by (rewrite ?frame_size_eq; lia). rewrite Nat.eqb_refl. f_equal. apply filter_none. intros j H1 H2.
    rewrite Hall by (rewrite ?frame_size_eq; lia). apply Nat.eqb_neq. lia.
  Qed.

  Lemma called_by_frame par pos d inh s body e : closed pos (pos + frame_size (Frame s body e)) ->
    placed pos (entries par pos d inh (Frame s body e)) -> called_by ns pos = sub_positions (S pos) body.
  Proof.
    intros Hc Hpl. rewrite frame_size_eq in Hc. rewrite entries_eq in Hpl. 
    assert (Hlen : pos + S (subs_size body) <= length ns).
    { assert (Hl : subs_size body < length (mkEntry par pos d inh (Frame s body e) :: sub_entries pos d (value_of s inh) (S pos) body)).
      { cbn [length]. rewrite sub_entries_length. lia. }
      destruct (lookup_lt_is_Some_2 _ _ Hl) as [x Hx]. apply Hpl, lookup_lt_Some in Hx. lia. }
    apply placed_cons in Hpl as [_ Hpl]. rewrite called_by_from by (try done; lia).
    replace (length ns - S pos) with (subs_size body + (length ns - S pos - subs_size body)) by lia.
    rewrite seq_app, List.filter_app, (calls_in_body pos d (value_of s inh)) by (try done; lia).
    rewrite filter_none, app_nil_r; [done|]. intros j H1 H2. unfold calls_p. destruct (ns !! j) as [n|] eqn:Hj; [|done].
    apply bool_decide_eq_false. intros Hp. specialize (Hc j n pos Hj Hp). lia.
  Qed.

  Lemma chain_step pos par d inh g : ns !! pos = Some (node_of cfg w (mkEntry par pos d inh g)) ->
    chain_succeeded ns pos <->
    (match par with None => True | Some p => chain_succeeded ns p end) /\ spec_success (status (f_end g)) = true.
  Proof.
    intros Hn. destruct (node_of_end cfg w (mkEntry par pos d inh g)) as (Hst & _).
    destruct (node_of_static cfg w (mkEntry par pos d inh g)) as (Hp & _). cbn [en_frame en_par] in *. unfold chain_succeeded. split.
    - intros H. split.
      + destruct par as [p|]; [|done]. intros j n He Hj. apply (H j n); [|done]. by eapply encloses_parent.
      + specialize (H pos _ (encloses_self _ _) Hn). by rewrite Hst in H.
    - intros [H1 H2] j n He Hj. inversion He as [|? ? n' p Hn' Hp' He']; subst.
      + assert (n = node_of cfg w (mkEntry par pos d inh g)) as -> by congruence. by rewrite Hst.
      + assert (n' = node_of cfg w (mkEntry par pos d inh g)) as -> by congruence. rewrite Hp' in Hp. subst par. by eapply H1.
  Qed.

  Notation P_of := (fun i x e => x = info_of rr ns logs gas i /\ e = extra_of ns (ns !! 0) i).

  Fixpoint body_calls (ok : bool) (v : U256) (l : list item) : list CallFrame :=
    match l with
    | [] => []
    | ISub h :: r => spec_calls rr cfg w logs gas false ok (call_value v (f_start h)) h :: body_calls ok v r
    | _ :: r => body_calls ok v r
    end.
  Lemma spec_calls_eq root ok v s body e : spec_calls rr cfg w logs gas root ok v (Frame s body e) =
    mkCF (spec_info rr cfg w root gas v (logs && (root || (ok && spec_success (status e)))) (Frame s body e))
      (body_calls (ok && spec_success (status e)) v body).
  Proof. cbn [spec_calls]. f_equal. induction body as [|[o|h|g] r IH]; cbn; [done|apply IH..|]. f_equal. apply IH. Qed.

  Fixpoint without_sd (l : list CallFrame) : list CallFrame :=
    match l with
    | [] => []
    | x :: r => if bool_decide (fi_typ (cf_info x) = "SELFDESTRUCT") then without_sd r else without_selfdestructs x :: without_sd r
    end.
  Lemma without_eq i calls : without_selfdestructs (mkCF i calls) = mkCF i (without_sd calls).
  Proof. done. Qed.
  Lemma without_sd_app a b : without_sd (a ++ b) = without_sd a ++ without_sd b.
  Proof. induction a as [|x r IH]; cbn; [done|]. destruct (bool_decide _); [done|]. cbn. by rewrite IH. Qed.
  Lemma without_sd_synthetic l : Forall (fun x => fi_typ x = "SELFDESTRUCT") l -> without_sd (map synthetic l) = [].
  Proof. induction 1 as [|x l H _ IH]; cbn; [done|]. by rewrite bool_decide_true. Qed.
  Lemma spec_info_typ root v b g : fi_typ (spec_info rr cfg w root gas v b g) <> "SELFDESTRUCT".
  Proof. cbn. by destruct (spec_kind (f_start g)). Qed.

  Definition frame_calls (g : frame) : Prop := forall par pos d inh ok c,
    (pos =? 0) = (match inh with None => true | Some _ => false end) -> evm_addresses g ->
    (match par with None => ok = true | Some p => (ok = true <-> chain_succeeded ns p) end) ->
    closed pos (pos + frame_size g) -> placed pos (entries par pos d inh g) -> call_tree ns P_of pos c ->
    fi_typ (cf_info c) <> "SELFDESTRUCT" /\
    without_selfdestructs c = spec_calls rr cfg w logs gas (pos =? 0) ok (value_of (f_start g) inh) g /\
    ((forall i, extra_of ns (ns !! 0) i = []) -> without_selfdestructs c = c).

  Lemma body_calls_all pos d v ok : (ok = true <-> chain_succeeded ns pos) -> forall body next calls,
    Forall frame_calls (subs body) -> Forall evm_addresses (subs body) -> pos < next ->
    closed next (next + subs_size body) -> placed next (sub_entries pos d v next body) ->
    Forall2 (call_tree ns P_of) (sub_positions next body) calls ->
    without_sd calls = body_calls ok v body /\ ((forall i, extra_of ns (ns !! 0) i = []) -> without_sd calls = calls).
  Proof.
    intros Hok. induction body as [|[o|h|g] r IH]; intros next calls Hf Ha Hpos Hcl Hpl Hall.
    - cbn in Hall. by inversion Hall.
    - by apply (IH next).
    - by apply (IH next).
    - cbn [subs flat_map app] in Hf, Ha. fold (subs r) in *. inversion_clear Hf as [|? ? Hfg Hfr].
      inversion_clear Ha as [|? ? Hag Har]. pose proof (closed_sub _ _ _ _ _ _ _ Hpos Hpl eq_refl Hcl) as Hcg.
      pose proof Hpl as Hpl'. cbn [sub_entries] in Hpl'. apply placed_app in Hpl' as [Hp1 Hp2]. rewrite entries_length in Hp2.
      cbn [sub_positions] in Hall. inversion Hall as [|? c ? cs Hc Hcs]; subst. cbn [body_calls without_sd].
      assert (Hn0 : (next =? 0) = false) by (apply Nat.eqb_neq; lia).
      destruct (Hfg (Some pos) next (S d) (Some v) ok c) as (H1 & H2 & H3); try done.
      rewrite bool_decide_false by done. 
      enough (without_sd cs = body_calls ok v r /\ ((forall i, extra_of ns (ns !! 0) i = []) -> without_sd cs = cs)) as [H4 H5].
      { split; [by rewrite H2, Hn0, value_of_call, H4|]. intros H. by rewrite H3, H5. }
      apply (IH (next + frame_size g)); try done; [lia|]. change (subs_size (ISub g :: r)) with (frame_size g + subs_size r) in Hcl.
      eapply closed_from; [|shelve]. rewrite <-Nat.add_assoc. exact Hcl. Unshelve. lia.
  Qed.

  Lemma frame_calls_all g : frame_calls g.
  Proof.
    induction g as [s body e IH] using frame_ind'. intros par pos d inh ok c Hp Haddr Hok Hcl Hpl Hc.
    pose proof (called_by_frame _ _ _ _ _ _ _ Hcl Hpl) as Hcb. rewrite entries_eq in Hpl. apply placed_cons in Hpl as [Hn Hpl].
    pose proof (every_frame_head _ _ Haddr) as (Hlogs & Hsd & Hcr).
    assert (Hchain : ok && spec_success (status (f_end (Frame s body e))) = true <-> chain_succeeded ns pos).
    { rewrite andb_true_iff, (chain_step _ _ _ _ _ Hn). destruct par as [p|]; [by rewrite Hok|]. subst ok. tauto. }
    inversion Hc as [? info calls extra [-> ->] Hcalls Hx]; subst. rewrite without_eq, spec_calls_eq. cbn [cf_info].
    rewrite (info_spec par pos d inh (Frame s body e) ok Hp Hlogs (execution_address par pos d inh _ Hsd Hcr) Hn Hchain).
    split; [apply spec_info_typ|].
    rewrite without_sd_app, (without_sd_synthetic _ Hx), app_nil_r. rewrite Hcb in Hcalls.
    enough (without_sd calls = body_calls (ok && spec_success (status e)) (value_of s inh) body /\
      ((forall i, extra_of ns (ns !! 0) i = []) -> without_sd calls = calls)) as [H1 H2].
    { split; [by rewrite H1|]. intros H. rewrite H2, H by done. by rewrite app_nil_r. }
    apply (body_calls_all pos d (value_of s inh) _ Hchain body (S pos)); try done; try lia.
    - apply every_frame_inv in Haddr. apply Haddr.
    - eapply closed_from; [|shelve]. rewrite frame_size_eq in Hcl. replace (S pos + subs_size body) with (pos + S (subs_size body)) by lia. exact Hcl.
      Unshelve. lia.
  Qed.
End geth.

(** The call tree of a transaction. *)
Theorem tx_calls rr cfg w f s opts gas : env_ok cfg w f -> evm_addresses f ->
  ti_run (ti_new cfg) (tx_events w f) = Ok s -> unwrap_or_default_bool (only_top_call opts) = false ->
  exists r, geth_call_traces rr (ti_traces s) opts gas = Ok r /\
    without_selfdestructs r = spec_calls rr cfg w (unwrap_or_default_bool (with_log opts)) gas true true (spec_value (f_start f)) f /\
    (every_frame (fun g => status (f_end g) <> SelfDestruct /\ selfdestructs_of (hooks (f_body g)) = []) f -> without_selfdestructs r = r).
Proof.
  intros Henv Haddr Hrun Htop. pose proof (run_tree_inv _ _ _ Hrun) as Hinv. pose proof (inv_tree _ Hinv) as Ht.
  destruct (geth_call_traces_ok rr (ti_traces s) Ht opts gas Htop) as (r & Hr & Hc). exists r. split; [done|].
  pose proof (tx_traces _ _ _ _ Henv Hrun) as Hns.
  assert (Hpl : placed cfg w (ti_traces s) 0 (entries None 0 0 None f)).
  { intros k x Hk. rewrite Hns. unfold layout. by rewrite list_lookup_fmap, Nat.add_0_l, Hk. }
  destruct (frame_calls_all rr cfg w (ti_traces s) Ht (unwrap_or_default_bool (with_log opts)) gas f None 0 0 None true r eq_refl Haddr eq_refl) as (_ & H & Hno); try done.
  - intros j n p Hj _ _ _. apply lookup_lt_Some in Hj. rewrite (tx_length cfg w f s Henv Hrun) in Hj. lia.
  - rewrite value_of_root in H. split; [done|]. intros Hsd. apply Hno. 
    assert (Hall : forall i, sd_infos (ti_traces s !! i) = []).
    { intros i. destruct (ti_traces s !! i) as [n|] eqn:Hi; [|done]. cbn.
      assert (He : i < length (entered None 0 0 f)).
      { rewrite entered_length, <-(tx_length cfg w f s Henv Hrun). by eapply lookup_lt_Some. }
      destruct (lookup_lt_is_Some_2 _ _ He) as [[[par d] g] Hg].
      destruct (every_entered _ _ Hsd _ _ _ _ _ _ _ Hg) as [Hs1 Hs2].
      destruct (tx_node cfg w f s Henv Hrun _ _ _ _ _ Hg Hi) as (inh & -> & _). unfold geth_selfdestruct_call_trace.
      rewrite is_selfdestruct_spec. cbn [en_frame]. unfold refund_of. rewrite Hs2. cbn [last]. by destruct (status (f_end g)). }
    intros i. unfold extra_of. rewrite !Hall. by destruct (i =? 0).
Qed.
