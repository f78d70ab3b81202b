(** * PlainProofs: the reports do not depend on decorations *)

From Verif Require Import OptionProofs SpecWriter StateDiff Geth Parity VmTrace.
Local Open Scope nat_scope.

Local Notation p := plain_node.

Lemma index_plain (ns : list CallTraceNode) i : index (p <$> ns) i = rmap p (index ns i).
Proof. unfold index. rewrite list_lookup_fmap. by destruct (ns !! i). Qed.
Lemma trace_address_loop_plain fuel ns : forall n g,
  trace_address_loop fuel (p <$> ns) (p n) g = trace_address_loop fuel ns n g.
Proof.
  induction fuel as [|fuel IH]; intros n g; [done|]. cbn [trace_address_loop]. cbn [plain_node nd_parent nd_idx].
  destruct (nd_parent n) as [q|]; [|done]. rewrite index_plain. destruct (index ns q) as [pn| |]; cbn [rmap rbind]; [|done..].
  change (nd_children (p pn)) with (nd_children pn). destruct (expect _); cbn [rbind]; [apply IH|done..].
Qed.
Lemma trace_address_plain ns i : trace_address (p <$> ns) i = trace_address ns i.
Proof.
  unfold trace_address. destruct (i =? 0); [done|]. rewrite index_plain. destruct (index ns i) as [n| |]; cbn [rmap rbind]; [|done..].
  change (nd_is_precompile (p n)) with (nd_is_precompile n). destruct (nd_is_precompile n); [done|].
  by rewrite fmap_length, trace_address_loop_plain.
Qed.
Lemma into_transaction_traces_plain ns : into_transaction_traces (p <$> ns) = into_transaction_traces ns.
Proof.
  unfold into_transaction_traces, trace_addresses. rewrite fmap_length, (rmapM_ext _ (trace_address ns)) by apply trace_address_plain.
  destruct (rmapM _ _) as [addrs| |]; cbn [rbind]; [|done..]. f_equal. revert addrs.
  induction ns as [|n ns IH]; intros addrs; [done|]. destruct addrs as [|a addrs]; [done|]. cbn [fmap list_fmap zip_with List.filter fst].
  change (nd_is_precompile (p n)) with (nd_is_precompile n).
  destruct (negb (nd_is_precompile n)); cbn [flat_map]; [|apply IH]. f_equal. apply IH.
Qed.

Section Calls.
  Context (rr : bytes -> option string).
  Lemma parent_failed_plain fuel ns : forall q, parent_failed fuel (p <$> ns) q = parent_failed fuel ns q.
  Proof.
    induction fuel as [|fuel IH]; intros [q|]; cbn [parent_failed]; try done. rewrite index_plain.
    destruct (index ns q) as [n| |]; cbn [rmap rbind]; [|done..].
    change (tr_is_error (nd_trace (p n))) with (tr_is_error (nd_trace n)).
    destruct (tr_is_error _); [done|]. apply IH.
  Qed.
  Lemma call_or_parent_failed_plain ns n : call_or_parent_failed (p <$> ns) (p n) = call_or_parent_failed ns n.
  Proof.
    unfold call_or_parent_failed. change (tr_is_error (nd_trace (p n))) with (tr_is_error (nd_trace n)).
    by rewrite fmap_length, parent_failed_plain.
  Qed.
  Lemma empty_frame_plain n b : geth_empty_call_frame rr (p n) b = geth_empty_call_frame rr n b.
  Proof. unfold geth_empty_call_frame, plain_node. cbn. destruct b; [|done]. by rewrite map_map. Qed.
  Lemma roll_up_plain fuel ns : forall fs, roll_up fuel (p <$> ns) fs = roll_up fuel ns fs.
  Proof.
    induction fuel as [|fuel IH]; intros fs; [done|]. cbn [roll_up]. destruct (last fs) as [[i c]|]; [|done].
    rewrite index_plain. destruct (index ns i) as [n| |]; cbn [rmap rbind]; [|done..].
    change (nd_parent (p n)) with (nd_parent n). destruct (nd_parent n); [|done].
    destruct (update _ _ _); cbn [rbind]; [apply IH|done..].
  Qed.
  Lemma frames_plain ns b l : forall is fs,
    rfold (frames_step rr (p <$> ns) b) fs (zip is (p <$> l)) = rfold (frames_step rr ns b) fs (zip is l).
  Proof.
    induction l as [|n l IH]; intros [|i is] fs; [done..|]. cbn [fmap list_fmap zip_with rfold].
    replace (frames_step rr (p <$> ns) b fs (i, p n)) with (frames_step rr ns b fs (i, n)).
    2:{ unfold frames_step. change (geth_selfdestruct_call_trace (p n)) with (geth_selfdestruct_call_trace n).
        destruct (match geth_selfdestruct_call_trace n with Some _ => _ | None => _ end); cbn [rbind]; [|done..].
        rewrite call_or_parent_failed_plain. destruct (if b then _ else _) as [f| |]; cbn [rbind]; [|done..].
        by rewrite empty_frame_plain. }
    destruct (frames_step _ _ _ _ _); cbn [rbind]; [apply IH|done..].
  Qed.
  Lemma geth_call_traces_plain ns opts g : geth_call_traces rr (p <$> ns) opts g = geth_call_traces rr ns opts g.
  Proof.
    destruct ns as [|n ns]; [done|]. unfold geth_call_traces. cbn [fmap list_fmap].
    change (geth_selfdestruct_call_trace (p n)) with (geth_selfdestruct_call_trace n).
    rewrite empty_frame_plain by done. destruct (unwrap_or_default_bool (only_top_call opts)); [done|].
    change (list_fmap _ _ p ns) with (p <$> ns).
    change (p n :: (p <$> ns)) with (p <$> n :: ns). rewrite frames_plain, fmap_length by done.
    destruct (rfold _ _ _); cbn [rbind]; [|done..]. by rewrite roll_up_plain, fmap_length.
  Qed.
End Calls.

Section Logs.
  Context (opts : GethDefaultTracingOptions).
  Definition plain_item (i : StackItem) : StackItem := mkItem (p (it_node i)) (plain_step (it_step i)) (it_child i).
  Lemma step_items_plain n steps : forall c, step_items (p n) c (plain_step <$> steps) = plain_item <$> step_items n c steps.
  Proof.
    induction steps as [|s steps IH]; intros c; [done|]. cbn [fmap list_fmap step_items].
    change (st_is_calllike (plain_step s)) with (st_is_calllike s). change (nd_children (p n)) with (nd_children n).
    change (list_fmap _ _ plain_step steps) with (plain_step <$> steps).
    destruct (st_is_calllike s); [destruct (nd_children n !! c)|]; cbn [list_fmap]; by rewrite IH.
  Qed.
  Lemma call_step_stack_plain n : call_step_stack (p n) = plain_item <$> call_step_stack n.
  Proof. unfold call_step_stack. by rewrite <- step_items_plain. Qed.
  Lemma fill_geth_plain fuel ns : forall stack storage logs,
    fill_geth_trace fuel (p <$> ns) opts (plain_item <$> stack) storage logs = fill_geth_trace fuel ns opts stack storage logs.
  Proof.
    induction fuel as [|fuel IH]; intros [|[n s c] stack] storage logs; try done.
    cbn [fmap list_fmap fill_geth_trace plain_item it_node it_step it_child].
    change (list_fmap _ _ plain_item stack) with (plain_item <$> stack).
    change (st_contract (plain_step s)) with (st_contract s).
    change (tr_output (nd_trace (p n))) with (tr_output (nd_trace n)).
    change (st_storage_change (plain_step s)) with (st_storage_change s).
    change (struct_log (plain_step s)) with (struct_log s).
    destruct (if is_storage_enabled opts then _ else _) as [sto lst]. destruct c as [c|].
    - rewrite index_plain. destruct (index ns c) as [m| |]; cbn [rmap rbind]; [|done..]. by rewrite call_step_stack_plain, <- fmap_app, IH.
    - cbn [rbind]. by rewrite IH.
  Qed.
  Lemma total_steps_plain ns : total_steps (p <$> ns) = total_steps ns.
  Proof.
    induction ns as [|n ns IH]; [done|]. cbn [fmap list_fmap total_steps].
    change (list_fmap _ _ p ns) with (p <$> ns). rewrite IH. f_equal. cbn. by rewrite map_length.
  Qed.
  Lemma geth_traces_plain ns g v : geth_traces (p <$> ns) g v opts = geth_traces ns g v opts.
  Proof.
    destruct ns as [|n ns]; [done|]. cbn [fmap list_fmap]. unfold geth_traces.
    change (list_fmap _ _ p ns) with (p <$> ns). change (p n :: (p <$> ns)) with (p <$> n :: ns).
    by rewrite total_steps_plain, call_step_stack_plain, fill_geth_plain.
  Qed.
End Logs.

(** ** The combined results *)
Lemma last_stop_plain ns : is_last_step_stop_op (p <$> ns) = is_last_step_stop_op ns.
Proof.
  unfold is_last_step_stop_op. rewrite fmap_last. destruct (last ns) as [n|]; [|done]. cbn [fmap option_fmap option_map].
  change (tr_steps (nd_trace (p n))) with (plain_step <$> tr_steps (nd_trace n)). rewrite fmap_last. by destruct (last _).
Qed.
Lemma frame_loop_plain b steps : forall is q, frame_loop b (plain_step <$> steps) is q = frame_loop b steps is q.
Proof.
  induction steps as [|s steps IH]; intros is q; [done|]. cbn [fmap list_fmap frame_loop].
  change (st_is_calllike (plain_step s)) with (st_is_calllike s). change (st_is_stop (plain_step s)) with (st_is_stop s).
  destruct (if st_is_calllike s then _ else _) as [sub q']. change (make_instruction (plain_step s)) with (make_instruction s).
  destruct (_ && _ && _); [done|]. apply IH.
Qed.
Lemma vm_loop_plain fuel ns : forall st q n k, vm_loop fuel (p <$> ns) st q (p n) k = vm_loop fuel ns st q n k.
Proof.
  induction fuel as [|fuel IH]; intros st q n k; [done|]. cbn [vm_loop]. change (nd_children (p n)) with (nd_children n).
  change (nd_parent (p n)) with (nd_parent n). destruct (nd_children n !! k) as [c|].
  - rewrite list_lookup_fmap. destruct (ns !! c); cbn; [apply IH|done].
  - change (tr_steps (nd_trace (p n))) with (plain_step <$> tr_steps (nd_trace n)). rewrite last_stop_plain, frame_loop_plain.
    destruct (frame_loop _ _ _ _) as [is q'|is]; [|done]. destruct (nd_parent n) as [r|]; [|done].
    destruct st as [|ci st]; [done|]. rewrite list_lookup_fmap. destruct (ns !! r); cbn; [apply IH|done].
Qed.
Lemma vm_trace_plain ns : vm_trace (p <$> ns) = vm_trace ns.
Proof.
  destruct ns as [|n ns]; [done|]. cbn [fmap list_fmap]. unfold vm_trace, make_vm_trace.
  change (list_fmap _ _ p ns) with (p <$> ns). change (p n :: (p <$> ns)) with (p <$> n :: ns).
  by rewrite vm_loop_plain, fmap_length.
Qed.
Lemma walk_plain ns : walk_bf (p <$> ns) = rmap (map p) (walk_bf ns).
Proof.
  unfold walk_bf. rewrite fmap_length. generalize (S (length ns)) as fuel, [0] as q. induction fuel as [|fuel IH]; intros q; [done|].
  cbn [walker_collect]. destruct q as [|i q]; [done|]. cbn [walker_next]. rewrite index_plain.
  destruct (index ns i) as [n| |]; cbn [rmap rbind]; [|done..]. change (nd_children (p n)) with (nd_children n). rewrite IH.
  by destruct (walker_collect _ _ _).
Qed.
Lemma walk_addresses_plain ns :
  rmap (map (fun n => tr_address (nd_trace n))) (walk_bf (p <$> ns)) = rmap (map (fun n => tr_address (nd_trace n))) (walk_bf ns).
Proof. rewrite walk_plain. destruct (walk_bf ns); cbn [rmap rbind]; [|done..]. by rewrite map_map. Qed.
Lemma type_traces_plain ns b : type_traces (p <$> ns) b = type_traces ns b.
Proof.
  unfold type_traces.
  assert (H : forall l acc, rfold (if b then type_traces_step (p <$> ns) else type_traces_skip (p <$> ns)) acc (iter_traceable_nodes (p <$> l)) =
    rfold (if b then type_traces_step ns else type_traces_skip ns) acc (iter_traceable_nodes l)).
  { unfold iter_traceable_nodes. induction l as [|n l IH]; intros acc; [done|]. cbn [fmap list_fmap List.filter].
    change (nd_is_precompile (p n)) with (nd_is_precompile n). destruct (negb (nd_is_precompile n)); [|apply IH]. cbn [rfold].
    assert (Hst : (if b then type_traces_step (p <$> ns) else type_traces_skip (p <$> ns)) acc (p n) =
                  (if b then type_traces_step ns else type_traces_skip ns) acc n).
    { destruct b; unfold type_traces_step, type_traces_skip; change (nd_idx (p n)) with (nd_idx n); by rewrite trace_address_plain. }
    rewrite Hst. destruct ((if b then _ else _) acc n); cbn [rbind]; [apply IH|done..]. }
  by rewrite H.
Qed.
Lemma into_trace_results_plain ns r types : into_trace_results (p <$> ns) r types = into_trace_results ns r types.
Proof. unfold into_trace_results, into_trace_type_traces. by rewrite fmap_length, vm_trace_plain, type_traces_plain. Qed.
Lemma into_trace_results_state_plain ns r state types db :
  into_trace_results_with_state (p <$> ns) r state types db = into_trace_results_with_state ns r state types db.
Proof. unfold into_trace_results_with_state. by rewrite walk_addresses_plain, into_trace_results_plain. Qed.
Lemma callers_plain ns : callers (p <$> ns) = callers ns.
Proof. unfold callers. change (p <$> ns) with (map p ns). by rewrite map_map. Qed.
