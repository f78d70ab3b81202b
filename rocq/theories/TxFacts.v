(** * TxFacts: the recorded arena of a whole transaction, field by field *)

From Verif Require Export ExecFacts.

Section tx.
Context (cfg : TracingInspectorConfig) (w : world) (f : frame) (s : TracingInspector).
Hypothesis Henv : env_ok cfg w f.
Hypothesis Hrun : ti_run (ti_new cfg) (tx_events w f) = Ok s.

Lemma tx_state : ti_traces s = layout cfg w f /\ ti_trace_stack s = [] /\ ti_step_stack s = []
  /\ ti_spec_id s = Some (w_spec w) /\ ti_config s = cfg.
Proof. destruct (tx_layout cfg w f Henv) as (lr & H). rewrite Hrun in H. by injection H as ->. Qed.

Lemma tx_traces : ti_traces s = layout cfg w f.
Proof. apply tx_state. Qed.

Lemma tx_tree : arena_tree (ti_traces s).
Proof. eapply run_tree; [|exact Hrun]. apply arena_tree_default. Qed.

Lemma node_of_static x :
  let n := node_of cfg w x in
  nd_parent n = en_par x /\ nd_idx n = en_pos x /\ tr_depth (nd_trace n) = en_depth x /\
  tr_kind (nd_trace n) = kind_of (f_start (en_frame x)) /\
  tr_caller (nd_trace n) = from_of (f_start (en_frame x)) /\
  tr_value (nd_trace n) = value_of (f_start (en_frame x)) (en_inherited x) /\
  tr_data (nd_trace n) = input_of (f_start (en_frame x)) /\
  tr_gas_limit (nd_trace n) =
    (match en_inherited x with None => w_tx_gas_limit w | Some _ => gas_limit_of (f_start (en_frame x)) end) /\
  tr_maybe_precompile (nd_trace n) = mp_of cfg w (f_start (en_frame x)) (en_inherited x) /\
  tr_decoded (nd_trace n) = decoded_none.
Proof.
  destruct x as [par pos d inh [s0 body e]]. unfold node_of, finish.
  cbn [en_par en_pos en_depth en_frame en_inherited f_start f_end f_body
       nd_set_trace nd_parent nd_idx nd_trace fill_trace tr_depth tr_kind tr_caller tr_value tr_data
       tr_gas_limit tr_maybe_precompile tr_decoded].
  assert (Hk : forall A (pi : CallTraceNode -> A),
    (forall n h, pi (apply_hook cfg n h) = pi n) -> (forall n st, pi (push_step st n) = pi n) ->
    (forall n i, pi (attach_child i n) = pi n) ->
    forall m, pi (node_after cfg w (S d) (value_of s0 inh) m (S pos) body) = pi m).
  { intros A pi H1 H2 H3 m. by apply node_after_pres. }
  split_and!.
  - rewrite (Hk _ nd_parent); [done|intros n [? ?|? ? ?]; cbn; [by destruct (record_logs cfg)|done]|done|done].
  - rewrite (Hk _ nd_idx); [done|intros n [? ?|? ? ?]; cbn; [by destruct (record_logs cfg)|done]|done|done].
  - rewrite (Hk _ (fun n => tr_depth (nd_trace n))); [done|intros n [? ?|? ? ?]; cbn; [by destruct (record_logs cfg)|done]|done|done].
  - rewrite (Hk _ (fun n => tr_kind (nd_trace n))); [done|intros n [? ?|? ? ?]; cbn; [by destruct (record_logs cfg)|done]|done|done].
  - rewrite (Hk _ (fun n => tr_caller (nd_trace n))); [done|intros n [? ?|? ? ?]; cbn; [by destruct (record_logs cfg)|done]|done|done].
  - rewrite (Hk _ (fun n => tr_value (nd_trace n))); [done|intros n [? ?|? ? ?]; cbn; [by destruct (record_logs cfg)|done]|done|done].
  - rewrite (Hk _ (fun n => tr_data (nd_trace n))); [done|intros n [? ?|? ? ?]; cbn; [by destruct (record_logs cfg)|done]|done|done].
  - rewrite (Hk _ (fun n => tr_gas_limit (nd_trace n))); [done|intros n [? ?|? ? ?]; cbn; [by destruct (record_logs cfg)|done]|done|done].
  - rewrite (Hk _ (fun n => tr_maybe_precompile (nd_trace n))); [done|intros n [? ?|? ? ?]; cbn; [by destruct (record_logs cfg)|done]|done|done].
  - rewrite (Hk _ (fun n => tr_decoded (nd_trace n))); [done|intros n [? ?|? ? ?]; cbn; [by destruct (record_logs cfg)|done]|done|done].
Qed.

(** The node of the [i]-th entered frame. *)
Lemma tx_node i par d g n :
  entered None 0 0 f !! i = Some (par, d, g) -> ti_traces s !! i = Some n ->
  exists inh, n = node_of cfg w (mkEntry par i d inh g) /\
    (i = 0 -> inh = None /\ par = None) /\
    (i <> 0 -> exists p pn, par = Some p /\ ti_traces s !! p = Some pn /\ inh = Some (tr_value (nd_trace pn))).
Proof.
  intros He Hn. rewrite tx_traces in *. unfold layout in *.
  rewrite <-(entries_entered f None 0 0 None), list_lookup_fmap in He.
  rewrite list_lookup_fmap in Hn.
  destruct (entries None 0 0 None f !! i) as [x|] eqn:Hx; [|done].
  cbn in He, Hn. injection He as <- <- <-. injection Hn as <-.
  exists (en_inherited x). pose proof (entries_pos _ _ _ _ _ _ _ Hx) as Hpos. cbn in Hpos.
  split_and!.
  - f_equal. destruct x; cbn in *. by subst.
  - intros ->. destruct (entries_linked _ _ _ _ _ _ _ Hx) as [(_ & H1 & H2)|[H _]]; done.
  - intros Hi. destruct (entries_linked _ _ _ _ _ _ _ Hx) as [(H & _)|[_ (p & y & H1 & H2 & H3 & H4)]]; [done|].
    rewrite Nat.sub_0_r in H3.
    exists p, (node_of cfg w y). split; [done|]. rewrite list_lookup_fmap, H3. split; [done|].
    rewrite H4. f_equal. symmetry. apply node_of_static.
Qed.

Lemma tx_length : length (ti_traces s) = frame_size f.
Proof. rewrite tx_traces. unfold layout. rewrite map_length. apply entries_length. Qed.

Lemma tx_lookup i x : entered None 0 0 f !! i = Some x -> exists n, ti_traces s !! i = Some n.
Proof.
  intros H. apply lookup_lt_is_Some_2. rewrite tx_length, <-(entered_length None 0 0).
  by eapply lookup_lt_Some.
Qed.

Lemma tx_shape i par d g n :
  entered None 0 0 f !! i = Some (par, d, g) -> ti_traces s !! i = Some n ->
  nd_parent n = par /\ tr_depth (nd_trace n) = d /\ nd_idx n = i.
Proof.
  intros He Hn. destruct (tx_node _ _ _ _ _ He Hn) as (inh & -> & _).
  destruct (node_of_static (mkEntry par i d inh g)) as (H1 & H2 & H3 & _). done.
Qed.

(** *** Start and end data *)

Lemma root_inherited i par d g n inh :
  entered None 0 0 f !! i = Some (par, d, g) -> ti_traces s !! i = Some n ->
  (i = 0 -> inh = None /\ par = @None nat) ->
  (i <> 0 -> exists p pn, par = Some p /\ ti_traces s !! p = Some pn /\ inh = Some (tr_value (nd_trace pn))) ->
  (if i =? 0 then true else false) = match inh with None => true | Some _ => false end.
Proof.
  intros He Hn H0 H1. destruct (Nat.eqb_spec i 0) as [->|Hne].
  - by destruct (H0 eq_refl) as [-> _].
  - destruct (H1 Hne) as (p & pn & _ & _ & ->). done.
Qed.

Lemma tx_start i par d g n :
  entered None 0 0 f !! i = Some (par, d, g) -> ti_traces s !! i = Some n ->
  tr_kind (nd_trace n) = spec_kind (f_start g) /\
  tr_caller (nd_trace n) = spec_caller (f_start g) /\
  tr_data (nd_trace n) = spec_input (f_start g) /\
  tr_gas_limit (nd_trace n) = spec_gas_limit w (i =? 0) (f_start g) /\
  (is_delegatecall (f_start g) = false -> tr_value (nd_trace n) = spec_value (f_start g)).
Proof.
  intros He Hn. destruct (tx_node _ _ _ _ _ He Hn) as (inh & -> & H0 & H1).
  destruct (node_of_static (mkEntry par i d inh g)) as (_ & _ & _ & Hk & Hc & Hv & Hd & Hg & _).
  cbn [en_frame en_inherited] in *. rewrite Hk, Hc, Hd, Hg, Hv.
  pose proof (root_inherited _ _ _ _ _ inh He Hn H0 H1) as Hr.
  split_and!.
  - destruct (f_start g) as [j c|j c]; cbn; [by destruct (ci_scheme c)|by destruct (cr_scheme c)].
  - destruct (f_start g) as [j c|j c]; cbn; [by destruct (ci_scheme c)|done].
  - by destruct (f_start g).
  - unfold spec_gas_limit. destruct (i =? 0), inh; try done; by destruct (f_start g).
  - destruct (f_start g) as [j c|j c]; cbn; [|done]. by destruct (ci_scheme c).
Qed.

Lemma tx_value_root d g n par :
  entered None 0 0 f !! 0 = Some (par, d, g) -> ti_traces s !! 0 = Some n ->
  tr_value (nd_trace n) = spec_value (f_start g).
Proof.
  intros He Hn. destruct (tx_node _ _ _ _ _ He Hn) as (inh & -> & H0 & _).
  destruct (H0 eq_refl) as [-> _].
  destruct (node_of_static (mkEntry par 0 d None g)) as (_ & _ & _ & _ & _ & -> & _).
  cbn. destruct (f_start g) as [j c|j c]; cbn; [|done]. by destruct (ci_scheme c).
Qed.

Lemma tx_value_delegate i par d g n :
  entered None 0 0 f !! i = Some (par, d, g) -> ti_traces s !! i = Some n -> i <> 0 ->
  is_delegatecall (f_start g) = true ->
  exists p pn, par = Some p /\ ti_traces s !! p = Some pn /\ tr_value (nd_trace n) = tr_value (nd_trace pn).
Proof.
  intros He Hn Hi Hd. destruct (tx_node _ _ _ _ _ He Hn) as (inh & -> & _ & H1).
  destruct (H1 Hi) as (p & pn & -> & Hpn & ->). exists p, pn. split_and!; try done.
  destruct (node_of_static (mkEntry (Some p) i d (Some (tr_value (nd_trace pn))) g)) as (_ & _ & _ & _ & _ & -> & _).
  cbn. destruct (f_start g) as [j c|j c]; cbn in *; [|done]. by destruct (ci_scheme c).
Qed.

Lemma gas_used_spec sp spent refund : gas_used sp spent refund = spec_root_gas sp spent refund.
Proof.
  unfold gas_used, spec_root_gas, spec_enabled. cbn [spec_ord].
  destruct (12 <=? spec_ord sp)%N.
  - destruct (N.leb_spec refund (spent / 5)%N); lia.
  - destruct (N.leb_spec refund (spent / 2)%N); lia.
Qed.

Lemma i64_as_u64_nonneg z : (0 <= z < 18446744073709551616)%Z -> i64_as_u64 z = Z.to_N z.
Proof. intros H. unfold i64_as_u64. by rewrite Z.mod_small. Qed.

Lemma tx_end i par d g n :
  entered None 0 0 f !! i = Some (par, d, g) -> ti_traces s !! i = Some n ->
  let r := fe_result (f_end g) in
  tr_status (nd_trace n) = ir_result r /\
  tr_success (nd_trace n) = spec_success (ir_result r) /\
  tr_output (nd_trace n) = ir_output r /\
  (i <> 0 -> tr_gas_used (nd_trace n) = (g_limit (ir_gas r) - g_remaining (ir_gas r))%N) /\
  (i = 0 -> tr_gas_used (nd_trace n) =
            gas_used (w_spec w) (g_limit (ir_gas r) - g_remaining (ir_gas r))%N (i64_as_u64 (g_refunded (ir_gas r)))).
Proof.
  intros He Hn r. destruct (tx_node _ _ _ _ _ He Hn) as (inh & -> & _).
  unfold node_of, finish. cbn [en_frame en_pos nd_set_trace nd_trace fill_trace tr_status tr_success tr_output tr_gas_used].
  split_and!; try done.
  - intros Hi. apply Nat.eqb_neq in Hi. by rewrite Hi.
  - intros ->. done.
Qed.

Lemma tx_marks i par d g n :
  entered None 0 0 f !! i = Some (par, d, g) -> ti_traces s !! i = Some n ->
  tr_address (nd_trace n) = spec_address g /\
  (tr_selfdestruct_refund_target (nd_trace n), tr_selfdestruct_transferred_value (nd_trace n)) =
  match last (selfdestructs_of (hooks (f_body g))) with
  | Some (_, target, value) => (Some target, Some value)
  | None => (None, None)
  end.
Proof.
  intros He Hn. destruct (tx_node _ _ _ _ _ He Hn) as (inh & -> & _).
  unfold node_of, finish. cbn [en_frame en_pos en_depth en_inherited nd_set_trace nd_trace fill_trace tr_address
    tr_selfdestruct_refund_target tr_selfdestruct_transferred_value].
  set (m := node_after _ _ _ _ _ _ _).
  assert (Hm : marks m = match last (selfdestructs_of (hooks (f_body g))) with
                         | Some x => mark_of (code_address (f_start g), None, None) x
                         | None => (code_address (f_start g), None, None) end).
  { unfold m. rewrite node_after_marks, fold_marks_last. done. }
  unfold marks in Hm. unfold spec_address, end_address.
  destruct (last _) as [[[a b] v]|]; cbn in Hm; injection Hm as -> -> ->; split; try done;
    destruct (f_start g); try done; by destruct (fe_address (f_end g)).
Qed.

(** *** Logs, steps, ordering *)

Lemma node_of_logs x :
  nd_logs (node_of cfg w x) =
  if record_logs cfg then map calllog_of (logs_of (hooks (f_body (en_frame x)))) else [].
Proof. unfold node_of, finish. cbn [nd_set_trace nd_logs]. by rewrite node_after_logs. Qed.

Lemma tx_logs i par d g n :
  entered None 0 0 f !! i = Some (par, d, g) -> ti_traces s !! i = Some n ->
  nd_logs n = if record_logs cfg then map calllog_of (logs_of (hooks (f_body g))) else [].
Proof. intros He Hn. destruct (tx_node _ _ _ _ _ He Hn) as (inh & -> & _). apply node_of_logs. Qed.

Lemma tx_steps_eq i par d g n :
  entered None 0 0 f !! i = Some (par, d, g) -> ti_traces s !! i = Some n ->
  tr_steps (nd_trace n) = steps_from cfg w (S d) None (instrs (f_body g)).
Proof.
  intros He Hn. destruct (tx_node _ _ _ _ _ He Hn) as (inh & -> & _).
  unfold node_of, finish. cbn [nd_set_trace nd_trace fill_trace tr_steps en_frame en_depth]. by rewrite node_after_steps.
Qed.


Lemma fill_step_fields i c st st' :
  fill_step cfg i c st = Ok st' ->
  st_depth st' = st_depth st /\ st_pc st' = st_pc st /\ st_op st' = st_op st /\ st_contract st' = st_contract st /\
  st_stack st' = st_stack st /\ st_memory st' = st_memory st /\ st_returndata st' = st_returndata st /\
  st_gas_remaining st' = st_gas_remaining st /\ st_gas_refund_counter st' = st_gas_refund_counter st /\
  st_gas_used st' = st_gas_used st /\ st_decoded st' = st_decoded st /\
  st_gas_cost st' = (st_gas_remaining st - g_remaining (in_gas i))%N /\ st_status st' = in_result i /\
  push_snapshot cfg (st_op st) (in_stack i) (st_push_stack st) = Ok (st_push_stack st') /\
  storage_snapshot cfg (st_op st) c (st_storage_change st) = Ok (st_storage_change st').
Proof.
  unfold fill_step. intros H. inv_bind H. inv_bind H. injection H as <-. split_and!; done.
Qed.

Lemma step_of_describes d prev o :
  snapshot_safe cfg o -> recorded cfg o = true -> step_describes cfg w d o (step_of cfg w d prev o).
Proof.
  intros Hs Hr. destruct (fill_step_ok cfg w d prev o Hr Hs) as (st' & Hst').
  unfold step_of. rewrite Hst'. apply fill_step_fields in Hst' as
    (H1 & H2 & H3 & H4 & H5 & H6 & H7 & H8 & H9 & H10 & H11 & H12 & H13 & H14 & H15).
  unfold new_step in *. cbn [st_depth st_pc st_op st_contract st_stack st_memory st_returndata
    st_gas_remaining st_gas_refund_counter st_gas_used st_decoded st_push_stack cx_depth ctx_of cx_spec] in *.
  split; try done.
  - intros Hz. rewrite H9. by apply i64_as_u64_nonneg.
  - intros Hz. rewrite H10, gas_used_spec, (i64_as_u64_nonneg _ Hz). done.
  - rewrite H12. lia.
  - rewrite H5. by destruct (record_stack_snapshots cfg).
  - rewrite H6. unfold snapshot_memory. destruct (record_memory_snapshots cfg).
    + split; [done|]. intros _. eauto.
    + split; [|done]. by intros [m Hm].
  - unfold push_snapshot in H14. destruct (record_stack_snapshots cfg); cbn in H14.
    + injection H14 as <-. split; [by intros [? ?]|done].
    + destruct (_ <=? _); [|done]. injection H14 as <-. split; [done|]. eauto.
    + injection H14 as <-. split; [by intros [? ?]|done].
Qed.

Lemma steps_from_describe d os : forall prev,
  Forall (snapshot_safe cfg) os ->
  Forall2 (step_describes cfg w d) (List.filter (fun o => selected cfg (in_op (op_pre o))) os)
    (steps_from cfg w d prev os).
Proof.
  induction os as [|o os IH]; intros prev Hs; cbn; [constructor|].
  inversion_clear Hs as [|? ? Ho Hos]. rewrite <-recorded_selected.
  destruct (recorded cfg o) eqn:Hr; [|by apply IH].
  constructor; [by apply step_of_describes|by apply IH].
Qed.

Lemma steps_from_refunds d os : forall prev,
  Forall (snapshot_safe cfg) os ->
  Forall2 (fun o st => let gas := in_gas (op_pre o) in
             st_gas_refund_counter st = i64_as_u64 (g_refunded gas) /\
             st_gas_used st = gas_used (w_spec w) (g_limit gas - g_remaining gas)%N (i64_as_u64 (g_refunded gas)))
    (List.filter (fun o => selected cfg (in_op (op_pre o))) os) (steps_from cfg w d prev os).
Proof.
  induction os as [|o os IH]; intros prev Hs; cbn; [constructor|].
  inversion_clear Hs as [|? ? Ho Hos]. rewrite <-recorded_selected.
  destruct (recorded cfg o) eqn:Hr; [|by apply IH].
  constructor; [|by apply IH].
  destruct (fill_step_ok cfg w d prev o Hr Ho) as (st' & Hst').
  unfold step_of. rewrite Hst'. apply fill_step_fields in Hst' as (_ & _ & _ & _ & _ & _ & _ & _ & H9 & H10 & _).
  by rewrite H9, H10.
Qed.

Lemma tx_safe i par d g :
  entered None 0 0 f !! i = Some (par, d, g) -> Forall (snapshot_safe cfg) (instrs (f_body g)).
Proof. destruct Henv as [_ H]. intros He. apply (every_entered _ _ H _ _ _ _ _ _ _ He). Qed.

Lemma tx_steps i par d g n :
  entered None 0 0 f !! i = Some (par, d, g) -> ti_traces s !! i = Some n ->
  Forall2 (step_describes cfg w (S d))
    (List.filter (fun o => selected cfg (in_op (op_pre o))) (instrs (f_body g))) (tr_steps (nd_trace n)).
Proof.
  intros He Hn. rewrite (tx_steps_eq _ _ _ _ _ He Hn). apply steps_from_describe. by eapply tx_safe.
Qed.

Lemma tx_refunds i par d g n :
  entered None 0 0 f !! i = Some (par, d, g) -> ti_traces s !! i = Some n ->
  Forall2 (fun o st => let gas := in_gas (op_pre o) in
             st_gas_refund_counter st = i64_as_u64 (g_refunded gas) /\
             st_gas_used st = gas_used (w_spec w) (g_limit gas - g_remaining gas)%N (i64_as_u64 (g_refunded gas)))
    (List.filter (fun o => selected cfg (in_op (op_pre o))) (instrs (f_body g))) (tr_steps (nd_trace n)).
Proof.
  intros He Hn. rewrite (tx_steps_eq _ _ _ _ _ He Hn). apply steps_from_refunds. by eapply tx_safe.
Qed.

Lemma tx_members i par d g n :
  entered None 0 0 f !! i = Some (par, d, g) -> ti_traces s !! i = Some n ->
  map member_of (nd_ordering n) = flat_map (item_members cfg w (tr_value (nd_trace n))) (f_body g).
Proof.
  intros He Hn. destruct (tx_node _ _ _ _ _ He Hn) as (inh & -> & _).
  destruct (node_of_static (mkEntry par i d inh g)) as (_ & _ & _ & _ & _ & -> & _).
  unfold node_of, finish. cbn [nd_set_trace nd_ordering en_frame en_depth en_inherited]. by rewrite node_after_members.
Qed.

Lemma item_members_happenings v it : item_members cfg w v it = happenings cfg w v it.
Proof.
  destruct it as [o|h|g]; cbn [item_members happenings].
  - by rewrite recorded_selected.
  - destruct h; cbn; [|done]. by rewrite app_nil_r.
  - assert (excluded cfg w (f_start g) (Some v) = hidden_call cfg w v (f_start g)) as ->; [|done].
    unfold excluded, hidden_call, mp_of. destruct (f_start g) as [j c|j c]; cbn [is_call default].
    2: { by rewrite andb_false_r. }
    destruct (exclude_precompile_calls cfg); [|done]. cbn [default andb]. 
    destruct (w_precompiles w _); [|done]. cbn [andb]. unfold value_of, is_delegatecall, spec_value.
    destruct (ci_scheme c); done.
Qed.

(** *** Excluded precompile calls *)

Lemma tx_precompile i par d g n :
  entered None 0 0 f !! i = Some (par, d, g) -> ti_traces s !! i = Some n ->
  (nd_is_precompile n = true <->
   exclude_precompile_calls cfg = true /\ is_call (f_start g) = true /\
   w_precompiles w (code_address (f_start g)) = true /\ i <> 0 /\ tr_value (nd_trace n) = 0%N).
Proof.
  intros He Hn. destruct (tx_node _ _ _ _ _ He Hn) as (inh & -> & H0 & H1).
  pose proof (root_inherited _ _ _ _ _ inh He Hn H0 H1) as Hr.
  destruct (node_of_static (mkEntry par i d inh g)) as (_ & _ & _ & _ & _ & Hv & _ & _ & Hm & _).
  unfold nd_is_precompile. rewrite Hm, Hv. cbn [en_frame en_inherited]. unfold mp_of.
  destruct (f_start g) as [j c|j c]; cbn [is_call default].
  2: { split; [done|]. by intros (_ & ? & _). }
  destruct (exclude_precompile_calls cfg); cbn [default]; [|split; [done|by intros (? & _)]].
  destruct (w_precompiles w _); [|split; [done|by intros (_ & _ & ? & _)]].
  destruct (Nat.eqb_spec i 0) as [->|Hne]; destruct inh; try done; cbn [andb].
  - split; [done|]. by intros (_ & _ & _ & ? & _).
  - destruct (N.eqb_spec (value_of (SCall j c) (Some n)) 0%N); naive_solver.
Qed.

(** *** Values along delegate chains *)
Lemma entered_parent f0 : forall par0 pos d0 i par d g,
  entered par0 pos d0 f0 !! i = Some (par, d, g) -> i <> 0 ->
  exists p par' d' g', par = Some p /\ pos <= p /\ p < pos + i /\
    entered par0 pos d0 f0 !! (p - pos) = Some (par', d', g') /\ In g (subs (f_body g')).
Proof.
  clear. induction f0 as [s0 body e IH] using frame_ind'. intros par0 pos d0 i par d g.
  rewrite entered_eq. destruct i as [|i]; [done|]. cbn [lookup list_lookup]. intros Hi _.
  set (x0 := (par0, d0, Frame s0 body e)) in *.
  enough (H : forall (pre : list (option nat * nat * frame)) next, next = pos + length (x0 :: pre) ->
     sub_entered pos d0 next body !! i = Some (par, d, g) ->
     exists p par' d' g', par = Some p /\ pos <= p /\ p < next + i /\
       ((x0 :: pre) ++ sub_entered pos d0 next body) !! (p - pos) = Some (par', d', g') /\
       (In g (subs body) /\ p = pos \/ p <> pos /\ In g (subs (f_body g')))).
  { destruct (H [] (S pos)) as (p & par' & d' & g' & H1 & H2 & H3 & H4 & H5); [cbn; lia|done|].
    exists p, par', d', g'. cbn [app] in H4. split_and!; try done; [lia|].
    destruct H5 as [[H5 ->]|[_ ?]]; [|done].
    rewrite Nat.sub_diag in H4. cbn in H4. injection H4 as <- <- <-. done. }
  clear Hi. clearbody x0. revert i IH.
  induction body as [|[o|h|g0] r IHr]; intros i IH pre next Hnext; cbn [sub_entered]; cbn [length] in Hnext; [done|apply IHr; [done|cbn [length]; lia]..|].
  cbn [subs flat_map app] in IH |- *. fold (subs r) in *. inversion_clear IH as [|? ? Hg Hr].
  rewrite lookup_app_Some. intros [Hk|[Hlen Hk]].
  - destruct (decide (i = 0)) as [->|Hne].
    + destruct g0 as [s1 b1 e1]. rewrite entered_eq in Hk. cbn in Hk. injection Hk as <- <- <-.
      destruct x0 as [[q1 q2] q3]. exists pos, q1, q2, q3. split_and!; try done; [lia|by rewrite Nat.sub_diag|].
      left. split; [by left|done].
    + destruct (Hg _ _ _ _ _ _ _ Hk Hne) as (p & par' & d' & g' & H1 & H2 & H3 & H4 & H5).
      exists p, par', d', g'. split_and!; try done; [lia| |].
      * rewrite app_comm_cons, lookup_app_r by (cbn [length]; lia).
        replace (p - pos - length (x0 :: pre)) with (p - next) by (cbn [length]; lia).
        by apply lookup_app_l_Some.
      * right. split; [lia|done].
  - destruct (IHr (i - length (entered (Some pos) next (S d0) g0)) Hr
                (pre ++ entered (Some pos) next (S d0) g0) (next + frame_size g0)) as
      (p & par' & d' & g' & H1 & H2 & H3 & H4 & H5).
    + cbn [length] in *. rewrite app_length, entered_length. lia.
    + done.
    + exists p, par', d', g'. rewrite entered_length in *. split_and!; try done; [lia| |].
      * rewrite <-H4. by rewrite app_assoc.
      * destruct H5 as [[? ->]|?]; [left; split; [by right|done]|by right].
Qed.

Lemma tx_value_inherited : evm_delegate_values f -> forall i par d g n,
  entered None 0 0 f !! i = Some (par, d, g) -> ti_traces s !! i = Some n ->
  tr_value (nd_trace n) = spec_value (f_start g).
Proof.
  intros Hev i. induction i as [i IH] using lt_wf_ind. intros par d g n He Hn.
  destruct (is_delegatecall (f_start g)) eqn:Hd.
  2: { destruct (tx_start _ _ _ _ _ He Hn) as (_ & _ & _ & _ & Hv). by apply Hv. }
  destruct (decide (i = 0)) as [->|Hi]; [by eapply tx_value_root|].
  destruct (tx_value_delegate _ _ _ _ _ He Hn Hi Hd) as (p & pn & Hpar & Hpn & ->).
  destruct (entered_parent _ _ _ _ _ _ _ _ He Hi) as (p' & par' & d' & g' & H1 & _ & H3 & H4 & H5).
  assert (p' = p) as -> by congruence. rewrite Nat.sub_0_r in H4.
  rewrite (IH p ltac:(lia) _ _ _ _ H4 Hpn).
  pose proof (every_entered _ _ Hev _ _ _ _ _ _ _ H4) as Hsub. cbn beta in Hsub.
  rewrite Forall_forall in Hsub. symmetry. apply Hsub; [|done]. by apply elem_of_list_In.
Qed.

End tx.

Lemma ti_handle_config s e s' r : ti_handle s e = Ok (s', r) -> ti_config s' = ti_config s.
Proof.
  assert (Hst : forall s c a inp v k from g mp s', start_trace_on_call s c a inp v k from g mp = Ok s' ->
            ti_config s' = ti_config s).
  { intros s0 c a inp v k from g mp s0'. unfold start_trace_on_call.
    destruct (match ti_trace_stack s0 with [] => _ | _ => _ end) as [gl sp]. intros H. inv_bind H.
    by injection H as <-. }
  destruct e as [i c|i c|l c|c i|c i o|c i|c i o|a b v]; cbn [ti_handle]; intros H; inv_bind H; injection H as <- _.
  - destruct (record_steps _); [|by injection E as <-]. unfold start_step in E. do 2 inv_bind E.
    destruct (negb _); [by injection E as <-|]. inv_bind E. by injection E as <-.
  - destruct (record_steps _); [|by injection E as <-]. unfold fill_step_on_step_end in E.
    destruct (ti_step_stack s) as [|[rc ti si] rest]; [done|]. destruct (negb _); [by injection E as <-|].
    do 4 inv_bind E. by injection E as <-.
  - destruct (record_logs _); [|by injection E as <-]. unfold on_last_trace in E. do 2 inv_bind E. by injection E as <-.
  - unfold ti_call in E. destruct (call_from_to i). inv_bind E. by eapply Hst.
  - unfold fill_trace_on_call_end in E. destruct (ti_trace_stack s); [done|]. inv_bind E. by injection E as <-.
  - by eapply Hst.
  - unfold fill_trace_on_call_end in E. destruct (ti_trace_stack s); [done|]. inv_bind E. by injection E as <-.
  - unfold on_last_trace in E. do 2 inv_bind E. by injection E as <-.
Qed.

Lemma ti_run_config cfg es s : ti_run (ti_new cfg) es = Ok s -> ti_config s = cfg.
Proof.
  apply (run_inv ti_handle (fun s => ti_config s = cfg)); [|done].
  intros s0 e s' r H Hh. apply ti_handle_config in Hh. congruence.
Qed.
