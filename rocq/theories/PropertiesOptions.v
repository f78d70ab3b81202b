(** * PropertiesOptions: C76, recording options do not influence each other *)

From Verif Require Import OptionProofs Examples.

(** ** C76 *)

(** Whatever the history of hook calls: two recordings that treat the parts [k] alike agree on them, whatever their
    other options are. *)
Theorem C76_options_independent :
  forall k cfg cfg' es s s', same_options k cfg cfg' ->
  ti_run (ti_new cfg) es = Ok s -> ti_run (ti_new cfg') es = Ok s' ->
  kept k <$> ti_traces s = kept k <$> ti_traces s'.
Proof. exact options_independent. Qed.
Print Assumptions C76_options_independent.

(** Parity traces depend on no option but [exclude_precompile_calls]. *)
Theorem C76_parity_traces :
  forall cfg cfg' es s s', exclude_precompile_calls cfg = exclude_precompile_calls cfg' ->
  ti_run (ti_new cfg) es = Ok s -> ti_run (ti_new cfg') es = Ok s' ->
  into_transaction_traces (ti_traces s) = into_transaction_traces (ti_traces s').
Proof.
  intros cfg cfg' es s s' Hex H H'.
  rewrite <- (into_transaction_traces_kept only_calls (ti_traces s)),
    <- (into_transaction_traces_kept only_calls (ti_traces s')).
  by rewrite (options_independent only_calls cfg cfg' es s s').
Qed.
Print Assumptions C76_parity_traces.

(** The call tracer's result depends on [exclude_precompile_calls] and, if logs are asked for, on [record_logs]. *)
Theorem C76_call_frames :
  forall rr cfg cfg' es s s' opts gas, exclude_precompile_calls cfg = exclude_precompile_calls cfg' ->
  (with_log opts = Some true -> record_logs cfg = record_logs cfg') ->
  ti_run (ti_new cfg) es = Ok s -> ti_run (ti_new cfg') es = Ok s' ->
  geth_call_traces rr (ti_traces s) opts gas = geth_call_traces rr (ti_traces s') opts gas.
Proof.
  intros rr cfg cfg' es s s' opts gas Hex Hl H H'.
  set (k := mkKeep false false false false false (unwrap_or_default_bool (with_log opts))).
  rewrite <- (geth_call_traces_kept rr k (ti_traces s)), <- (geth_call_traces_kept rr k (ti_traces s')) by done.
  rewrite (options_independent k cfg cfg' es s s'); [done| |done..].
  split_and!; try done. intros Hk. apply Hl. subst k. cbn in Hk. by destruct (with_log opts) as [[]|].
Qed.
Print Assumptions C76_call_frames.

(** Struct logs depend only on the options for what is asked for: stack, memory, storage. *)
Theorem C76_struct_logs :
  forall cfg cfg' es s s' opts gas value, exclude_precompile_calls cfg = exclude_precompile_calls cfg' ->
  record_steps cfg = record_steps cfg' -> record_opcodes_filter cfg = record_opcodes_filter cfg' ->
  (is_stack_enabled opts = true -> record_stack_snapshots cfg = record_stack_snapshots cfg') ->
  (is_memory_enabled opts = true -> record_memory_snapshots cfg = record_memory_snapshots cfg') ->
  (is_storage_enabled opts = true -> record_state_diff cfg = record_state_diff cfg') ->
  ti_run (ti_new cfg) es = Ok s -> ti_run (ti_new cfg') es = Ok s' ->
  geth_traces (ti_traces s) gas value opts = geth_traces (ti_traces s') gas value opts.
Proof.
  intros cfg cfg' es s s' opts gas value Hex Hs Hf Hst Hm Hd H H'.
  set (k := mkKeep true (is_stack_enabled opts) (is_memory_enabled opts) false (is_storage_enabled opts) false).
  rewrite <- (geth_traces_kept k eq_refl opts (fun h => h) (fun h => h) (fun h => h) (ti_traces s)),
    <- (geth_traces_kept k eq_refl opts (fun h => h) (fun h => h) (fun h => h) (ti_traces s')).
  rewrite (options_independent k cfg cfg' es s s'); [done| |done..]. by split_and!.
Qed.
Print Assumptions C76_struct_logs.

(** The example transaction under a configuration that records everything and one that records only calls: both
    complete, the recordings differ, the parity traces do not. *)
Example C76_example :
  let rich := ex_cfg in let poor := mkConfig false false SnapNone false false None true false in
  same_options only_calls rich poor /\
  exists s s', ti_run (ti_new rich) (tx_events ex_world ex_tx) = Ok s /\
    ti_run (ti_new poor) (tx_events ex_world ex_tx) = Ok s' /\
    total_steps (ti_traces s) = 13 /\ total_steps (ti_traces s') = 0 /\
    rmap (@length _) (into_transaction_traces (ti_traces s')) = Ok 6.
Proof.
  cbn zeta. split; [by split_and!|]. eexists _, _. split; [vm_compute; reflexivity|].
  split; [vm_compute; reflexivity|]. split_and!; vm_compute; reflexivity.
Qed.
