(** * FlagProofs: reports that do not depend on the precompile flags, and the parity traces when some more calls are flagged *)

From Verif Require Import SpecEdited GethProofs VmProofs TreeProofs ParityProofs.
Local Open Scope nat_scope.

(** A node without its flag. *)
Definition unflag (n : CallTraceNode) : CallTraceNode :=
  let t := nd_trace n in
  nd_set_trace n (mkTrace (tr_depth t) (tr_success t) (tr_caller t) (tr_address t) None (tr_selfdestruct_refund_target t)
    (tr_selfdestruct_transferred_value t) (tr_kind t) (tr_value t) (tr_data t) (tr_output t) (tr_gas_used t) (tr_gas_limit t)
    (tr_status t) (tr_steps t) (tr_decoded t)).
Local Notation p := unflag.

Lemma index_unflag (ns : list CallTraceNode) i : index (p <$> ns) i = rmap p (index ns i).
Proof. unfold index. rewrite list_lookup_fmap. by destruct (ns !! i). Qed.
Lemma trace_address_loop_unflag fuel ns : forall n g,
  trace_address_loop fuel (p <$> ns) (p n) g = trace_address_loop fuel ns n g.
Proof.
  induction fuel as [|fuel IH]; intros n g; [done|]. cbn [trace_address_loop]. change (nd_parent (p n)) with (nd_parent n); change (nd_idx (p n)) with (nd_idx n).
  destruct (nd_parent n) as [q|]; [|done]. rewrite index_unflag. destruct (index ns q) as [pn| |]; cbn [rmap rbind]; [|done..].
  change (nd_children (p pn)) with (nd_children pn). destruct (expect _); cbn [rbind]; [apply IH|done..].
Qed.
Section Calls.
  Context (rr : bytes -> option string).
  Lemma parent_failed_unflag fuel ns : forall q, parent_failed fuel (p <$> ns) q = parent_failed fuel ns q.
  Proof.
    induction fuel as [|fuel IH]; intros [q|]; cbn [parent_failed]; try done. rewrite index_unflag.
    destruct (index ns q) as [n| |]; cbn [rmap rbind]; [|done..].
    change (tr_is_error (nd_trace (p n))) with (tr_is_error (nd_trace n)).
    destruct (tr_is_error _); [done|]. apply IH.
  Qed.
  Lemma call_or_parent_failed_unflag ns n : call_or_parent_failed (p <$> ns) (p n) = call_or_parent_failed ns n.
  Proof.
    unfold call_or_parent_failed. change (tr_is_error (nd_trace (p n))) with (tr_is_error (nd_trace n)).
    by rewrite fmap_length, parent_failed_unflag.
  Qed.
  Lemma empty_frame_unflag n b : geth_empty_call_frame rr (p n) b = geth_empty_call_frame rr n b.
  Proof. done. Qed.
  Lemma roll_up_unflag fuel ns : forall fs, roll_up fuel (p <$> ns) fs = roll_up fuel ns fs.
  Proof.
    induction fuel as [|fuel IH]; intros fs; [done|]. cbn [roll_up]. destruct (last fs) as [[i c]|]; [|done].
    rewrite index_unflag. destruct (index ns i) as [n| |]; cbn [rmap rbind]; [|done..].
    change (nd_parent (p n)) with (nd_parent n). destruct (nd_parent n); [|done].
    destruct (update _ _ _); cbn [rbind]; [apply IH|done..].
  Qed.
  Lemma frames_unflag ns b l : forall is fs,
    rfold (frames_step rr (p <$> ns) b) fs (zip is (p <$> l)) = rfold (frames_step rr ns b) fs (zip is l).
  Proof.
    induction l as [|n l IH]; intros [|i is] fs; [done..|]. cbn [fmap list_fmap zip_with rfold].
    replace (frames_step rr (p <$> ns) b fs (i, p n)) with (frames_step rr ns b fs (i, n)).
    2:{ unfold frames_step. change (geth_selfdestruct_call_trace (p n)) with (geth_selfdestruct_call_trace n).
        destruct (match geth_selfdestruct_call_trace n with Some _ => _ | None => _ end); cbn [rbind]; [|done..].
        rewrite call_or_parent_failed_unflag. destruct (if b then _ else _) as [f| |]; cbn [rbind]; [|done..].
        by rewrite empty_frame_unflag. }
    destruct (frames_step _ _ _ _ _); cbn [rbind]; [apply IH|done..].
  Qed.
  Lemma geth_call_traces_unflag ns opts g : geth_call_traces rr (p <$> ns) opts g = geth_call_traces rr ns opts g.
  Proof.
    destruct ns as [|n ns]; [done|]. unfold geth_call_traces. cbn [fmap list_fmap].
    change (geth_selfdestruct_call_trace (p n)) with (geth_selfdestruct_call_trace n).
    rewrite empty_frame_unflag by done. destruct (unwrap_or_default_bool (only_top_call opts)); [done|].
    change (list_fmap _ _ p ns) with (p <$> ns).
    change (p n :: (p <$> ns)) with (p <$> n :: ns). rewrite frames_unflag, fmap_length by done.
    destruct (rfold _ _ _); cbn [rbind]; [|done..]. by rewrite roll_up_unflag, fmap_length.
  Qed.
End Calls.

Section Logs.
  Context (opts : GethDefaultTracingOptions).
  Definition flag_item (i : StackItem) : StackItem := mkItem (p (it_node i)) (it_step i) (it_child i).
  Lemma step_items_unflag n steps : forall c, step_items (p n) c steps = flag_item <$> step_items n c steps.
  Proof.
    induction steps as [|s steps IH]; intros c; [done|]. cbn [step_items]. change (nd_children (p n)) with (nd_children n).
    destruct (st_is_calllike s); [destruct (nd_children n !! c)|]; cbn [fmap list_fmap]; by rewrite IH.
  Qed.
  Lemma call_step_stack_unflag n : call_step_stack (p n) = flag_item <$> call_step_stack n.
  Proof. unfold call_step_stack. by rewrite <- step_items_unflag. Qed.
  Lemma fill_geth_unflag fuel ns : forall stack storage logs,
    fill_geth_trace fuel (p <$> ns) opts (flag_item <$> stack) storage logs = fill_geth_trace fuel ns opts stack storage logs.
  Proof.
    induction fuel as [|fuel IH]; intros [|[n s c] stack] storage logs; try done.
    cbn [fmap list_fmap fill_geth_trace flag_item it_node it_step it_child].
    change (list_fmap _ _ flag_item stack) with (flag_item <$> stack).
    change (tr_output (nd_trace (p n))) with (tr_output (nd_trace n)).
    destruct (if is_storage_enabled opts then _ else _) as [sto lst]. destruct c as [c|].
    - rewrite index_unflag. destruct (index ns c) as [m| |]; cbn [rmap rbind]; [|done..]. by rewrite call_step_stack_unflag, <- fmap_app, IH.
    - cbn [rbind]. by rewrite IH.
  Qed.
Lemma total_steps_unflag ns : total_steps (p <$> ns) = total_steps ns.
  Proof.
    induction ns as [|n ns IH]; [done|]. cbn [fmap list_fmap total_steps].
    change (list_fmap _ _ p ns) with (p <$> ns). rewrite IH. done.
  Qed.
  Lemma geth_traces_unflag ns g v : geth_traces (p <$> ns) g v opts = geth_traces ns g v opts.
  Proof.
    destruct ns as [|n ns]; [done|]. cbn [fmap list_fmap]. unfold geth_traces.
    change (list_fmap _ _ p ns) with (p <$> ns). change (p n :: (p <$> ns)) with (p <$> n :: ns).
    by rewrite total_steps_unflag, call_step_stack_unflag, fill_geth_unflag.
  Qed.
End Logs.

Lemma last_stop_unflag ns : is_last_step_stop_op (p <$> ns) = is_last_step_stop_op ns.
Proof. unfold is_last_step_stop_op. rewrite fmap_last. by destruct (last ns). Qed.
Lemma vm_loop_unflag fuel ns : forall st q n k, vm_loop fuel (p <$> ns) st q (p n) k = vm_loop fuel ns st q n k.
Proof.
  induction fuel as [|fuel IH]; intros st q n k; [done|]. cbn [vm_loop]. change (nd_children (p n)) with (nd_children n).
  change (nd_parent (p n)) with (nd_parent n). destruct (nd_children n !! k) as [c|].
  - rewrite list_lookup_fmap. destruct (ns !! c); cbn; [apply IH|done].
  - change (tr_steps (nd_trace (p n))) with (tr_steps (nd_trace n)). rewrite last_stop_unflag.
    destruct (frame_loop _ _ _ _) as [is q'|is]; [|done]. destruct (nd_parent n) as [r|]; [|done].
    destruct st as [|ci st]; [done|]. rewrite list_lookup_fmap. destruct (ns !! r); cbn; [apply IH|done].
Qed.
Lemma vm_trace_unflag ns : vm_trace (p <$> ns) = vm_trace ns.
Proof.
  destruct ns as [|n ns]; [done|]. cbn [fmap list_fmap]. unfold vm_trace, make_vm_trace.
  change (list_fmap _ _ p ns) with (p <$> ns). change (p n :: (p <$> ns)) with (p <$> n :: ns).
  by rewrite vm_loop_unflag, fmap_length.
Qed.
Lemma walk_unflag ns : walk_bf (p <$> ns) = rmap (map p) (walk_bf ns).
Proof.
  unfold walk_bf. rewrite fmap_length. generalize (S (length ns)) as fuel, [0] as q. induction fuel as [|fuel IH]; intros q; [done|].
  cbn [walker_collect]. destruct q as [|i q]; [done|]. cbn [walker_next]. rewrite index_unflag.
  destruct (index ns i) as [n| |]; cbn [rmap rbind]; [|done..]. change (nd_children (p n)) with (nd_children n). rewrite IH.
  by destruct (walker_collect _ _ _).
Qed.
Lemma walk_addresses_unflag ns :
  rmap (map (fun n => tr_address (nd_trace n))) (walk_bf (p <$> ns)) = rmap (map (fun n => tr_address (nd_trace n))) (walk_bf ns).
Proof. rewrite walk_unflag. destruct (walk_bf ns); cbn [rmap rbind]; [|done..]. by rewrite map_map. Qed.

(** ** Edits that flag more calls *)

(** [b] with the flag of [a]. *)
Definition flag_as (a b : CallTraceNode) : CallTraceNode :=
  let t := nd_trace b in
  nd_set_trace b (mkTrace (tr_depth t) (tr_success t) (tr_caller t) (tr_address t) (tr_maybe_precompile (nd_trace a))
    (tr_selfdestruct_refund_target t) (tr_selfdestruct_transferred_value t) (tr_kind t) (tr_value t) (tr_data t) (tr_output t)
    (tr_gas_used t) (tr_gas_limit t) (tr_status t) (tr_steps t) (tr_decoded t)).
Lemma flag_as_edited ns ns' : edited ns ns' -> edited ns (zip_with flag_as ns ns').
Proof. unfold edited. induction 1 as [|a b l l' [? ? ? ?] _ IH]; constructor; [by split|done]. Qed.
Lemma flag_as_flags ns ns' : edited ns ns' -> same_flags ns (zip_with flag_as ns ns').
Proof. unfold edited, same_flags. induction 1; constructor; done. Qed.
Lemma flag_as_unflag ns ns' : edited ns ns' -> unflag <$> zip_with flag_as ns ns' = unflag <$> ns'.
Proof. unfold edited. induction 1 as [|a b l l' _ _ IH]; [done|]. cbn [zip_with fmap list_fmap]. f_equal. exact IH. Qed.

Lemma edited_shape ns ns' : edited ns ns' -> same_flags ns ns' -> map shape ns = map shape ns'.
Proof.
  intros H. induction H as [|a b l l' [H1 H2 H3 H4] _ IH]; intros Hf; [done|]. inversion Hf as [|? ? ? ? Hab Hf']; subst.
  cbn [map]. rewrite (IH Hf'). f_equal. unfold shape, nd_is_precompile. by rewrite H1, H2, H3, H4, Hab.
Qed.

Section Flags.
  Context (ns0 ns : list CallTraceNode) (Hinv : tree_inv ns0) (He : edited ns0 ns) (Hf : no_flag_cleared ns0 ns).
  Let ns1 := zip_with flag_as ns0 ns.

  Lemma flag_as_inv : tree_inv ns1.
  Proof. eapply tree_inv_shape; [|exact Hinv]. apply edited_shape; [by apply flag_as_edited|by apply flag_as_flags]. Qed.

  Lemma address_total i : i < length ns -> exists a, trace_address ns i = Ok a.
  Proof.
    intros Hi. destruct (lookup_lt_is_Some_2 ns i Hi) as [n Hn].
    destruct (nd_is_precompile n) eqn:E.
    { unfold trace_address. destruct (i =? 0); [by eexists|]. unfold index. rewrite Hn. cbn [rbind]. rewrite E. by eexists. }
    destruct (Forall2_lookup_r _ _ _ _ _ Hf Hn) as (n0 & Hn0 & Hp).
    assert (E0 : nd_is_precompile n0 = false). { destruct (nd_is_precompile n0); [|done]. by rewrite Hp in E. }
    assert (Hn1 : ns1 !! i = Some (flag_as n0 n)). { unfold ns1. rewrite lookup_zip_with, Hn0. cbn. by rewrite Hn. }
    pose proof (trace_address_ok ns1 flag_as_inv i (lookup_lt_Some _ _ _ Hn1)) as Ha. revert Ha.
    unfold trace_address at 1. destruct (i =? 0) eqn:Ei; [intros _; unfold trace_address; rewrite Ei; by eexists|].
    unfold index. rewrite Hn1. cbn [rbind]. change (nd_is_precompile (flag_as n0 n)) with (nd_is_precompile n0). rewrite E0.
    rewrite <-trace_address_loop_unflag. change (unflag (flag_as n0 n)) with (unflag n).
    unfold ns1 at 2. rewrite flag_as_unflag, trace_address_loop_unflag by done.
    assert (Hlen : length ns1 = length ns).
    { pose proof (f_equal length (flag_as_unflag _ _ He)) as Hl. by rewrite !fmap_length in Hl. }
    rewrite Hlen. intros Ha. unfold trace_address. rewrite Ei. unfold index. rewrite Hn. cbn [rbind]. rewrite E.
    destruct (trace_address_loop _ _ _ _); cbn [rbind] in *; [by eexists|done..].
  Qed.

  Lemma rmapM_total {A B} (f : A -> res B) l : (forall x, In x l -> exists y, f x = Ok y) -> exists ys, rmapM f l = Ok ys.
  Proof.
    induction l as [|x l IH]; intros H; [by eexists|]. cbn [rmapM]. destruct (H x) as [y ->]; [by left|].
    destruct IH as [ys ->]; [intros; apply H; by right|]. by eexists.
  Qed.
  Lemma rfold_total {A B} (f : B -> A -> res B) l : (forall b x, In x l -> exists y, f b x = Ok y) -> forall b, exists y, rfold f b l = Ok y.
  Proof.
    induction l as [|x l IH]; intros H b; [by eexists|]. cbn [rfold]. destruct (H b x) as [y ->]; [by left|].
    cbn [rbind]. apply IH. intros; apply H; by right.
  Qed.
  Lemma traces_total : exists l, into_transaction_traces ns = Ok l.
  Proof.
    unfold into_transaction_traces, trace_addresses.
    destruct (rmapM_total (trace_address ns) (seq 0 (length ns))) as [ys ->]; [|by eexists].
    intros i Hi. apply in_seq in Hi. apply address_total. lia.
  Qed.
  Lemma type_total b : exists l, type_traces ns b = Ok (if b then Some l else None).
  Proof.
    unfold type_traces.
    assert (Hidx : forall n, In n (iter_traceable_nodes ns) -> nd_idx n < length ns).
    { intros n Hn. unfold iter_traceable_nodes in Hn. apply filter_In in Hn as [Hn _].
      apply elem_of_list_In, elem_of_list_lookup in Hn as (i & Hi).
      destruct (Forall2_lookup_r _ _ _ _ _ He Hi) as (n0 & Hn0 & Hs). rewrite (sl_idx _ _ Hs), (at_idx _ (inv_tree _ Hinv) _ _ Hn0).
      by eapply lookup_lt_Some. }
    destruct (rfold_total (if b then type_traces_step ns else type_traces_skip ns) (iter_traceable_nodes ns)) with (b := @nil TransactionTrace) as [y Hy].
    - intros acc n Hn. destruct (address_total (nd_idx n) (Hidx n Hn)) as [a Ha].
      destruct b; unfold type_traces_step, type_traces_skip; rewrite Ha; cbn [rbind]; [|by eexists].
      rewrite last_snoc. cbn [expect rbind]. destruct (nd_is_selfdestruct n); by eexists.
    - rewrite Hy. cbn [rbind]. exists y. by destruct b.
  Qed.
End Flags.
