(** * PropertiesSession: C114, an inspector whose configuration is changed while it records *)

From Verif Require Import SessionProofs Examples.

(** ** C114 *)

(** Whatever is done with an inspector, in any order: the recording is a tree, and the member orderings are complete
    if at most one transaction is recorded between two resets. *)
Theorem C114_tree_any_session :
  forall cfg us, ti_session (ti_new cfg) us <> OutOfFuel /\
    forall s, ti_session (ti_new cfg) us = Ok s ->
      arena_tree (ti_traces s) /\ (one_transaction false us -> Forall ordering_complete (ti_traces s)).
Proof.
  intros cfg us. split; [apply session_fuel; apply arena_tree_default|]. intros s H. split.
  - eapply session_tree; [exact H|apply arena_tree_default].
  - intros Ho. apply (session_ordered us (ti_new cfg) s false); [exact Ho|apply arena_tree_default|apply new_all_ordered|intros _; apply new_pre_root|exact H].
Qed.
Print Assumptions C114_tree_any_session.

(** After a reset the inspector does what a new one with the configuration now in force does. *)
Theorem C114_fuse_any_session :
  forall cfg us s later, ti_session (ti_new cfg) us = Ok s ->
  ti_config s = config_after cfg us /\
  ti_session (ti_fuse s) later = ti_session (ti_new (config_after cfg us)) later.
Proof.
  intros cfg us s later H. pose proof (session_config _ _ _ H) as Hc. cbn [ti_new ti_config] in Hc. split; [done|].
  rewrite <- Hc. done.
Qed.
Print Assumptions C114_fuse_any_session.

(** Changing options that do not concern a part of the recording does not change that part. *)
Theorem C114_unconcerned_options :
  forall k cfg cfg' us us' s s', alike k cfg cfg' us us' ->
  ti_session (ti_new cfg) us = Ok s -> ti_session (ti_new cfg') us' = Ok s' ->
  kept k <$> ti_traces s = kept k <$> ti_traces s'.
Proof. exact session_alike. Qed.
Print Assumptions C114_unconcerned_options.

(** A transaction recorded while the configuration is changed with care is recorded to the end, and the calls recorded,
    the parity traces and the call frames are those of any recording with an unchanging configuration. *)
Theorem C114_careful_changes :
  forall cfg w f us,
  hooks_called us = Some (tx_events w f) -> careful cfg None us ->
  (exclude_precompile_calls cfg = true -> precompiles_are_leaves w f) ->
  exists s, ti_session (ti_new cfg) us = Ok s /\
    forall cfg' s', exclude_precompile_calls cfg' = exclude_precompile_calls cfg ->
      ti_run (ti_new cfg') (tx_events w f) = Ok s' ->
      kept only_calls <$> ti_traces s = kept only_calls <$> ti_traces s' /\
      into_transaction_traces (ti_traces s) = into_transaction_traces (ti_traces s') /\
      forall rr opts gas, with_log opts <> Some true ->
        geth_call_traces rr (ti_traces s) opts gas = geth_call_traces rr (ti_traces s') opts gas.
Proof.
  intros cfg w f us Hh Hc Hl. destruct (careful_completes cfg w f us Hh Hc Hl) as (s & s0 & Hs & Hs0 & Hk).
  exists s. split; [done|]. intros cfg' s' Hex Hs'.
  assert (Hk' : kept only_calls <$> ti_traces s = kept only_calls <$> ti_traces s').
  { rewrite Hk. eapply options_independent; [|exact Hs0|exact Hs']. by split_and!. }
  split_and!; [done| |].
  - by rewrite <- (into_transaction_traces_kept only_calls (ti_traces s)), Hk', into_transaction_traces_kept.
  - intros rr opts gas Hlog.
    assert (Hw : unwrap_or_default_bool (with_log opts) = true -> k_logs only_calls = true).
    { destruct (with_log opts) as [[]|]; done. }
    by rewrite <- (geth_call_traces_kept rr only_calls (ti_traces s)), Hk', (geth_call_traces_kept rr only_calls).
Qed.
Print Assumptions C114_careful_changes.

(** The example transaction, with the recording of steps and logs switched on or off before every instruction: the
    changes are careful, only every other instruction is recorded, the parity traces are those of [ex_cfg]. *)
Definition c114_flip (c : TracingInspectorConfig) : TracingInspectorConfig :=
  mkConfig (negb (record_steps c)) false SnapNone false false None (exclude_precompile_calls c) (negb (record_logs c)).
Definition c114_uses : list use :=
  flat_map (fun e => match e with EStep _ _ => [UConfig c114_flip; UHook e] | _ => [UHook e] end) (tx_events ex_world ex_tx).
Definition c114_cfg : TracingInspectorConfig := mkConfig false false SnapNone false false None true false.
Example C114_example :
  hooks_called c114_uses = Some (tx_events ex_world ex_tx) /\ careful c114_cfg None c114_uses /\
  (exclude_precompile_calls c114_cfg = true -> precompiles_are_leaves ex_world ex_tx) /\
  one_transaction false (c114_uses ++ [UGas 7; UFuse] ++ c114_uses) /\
  exists s s', ti_session (ti_new c114_cfg) c114_uses = Ok s /\ ex_state ex_cfg = Ok s' /\
    total_steps (ti_traces s') = 13 /\ total_steps (ti_traces s) = 7 /\
    into_transaction_traces (ti_traces s) = into_transaction_traces (ti_traces s').
Proof.
  split; [vm_compute; reflexivity|]. split.
  { vm_compute. repeat split; try done; intros; discriminate. }
  split; [by intros _; apply (ex_env ex_cfg)|]. split; [vm_compute; repeat split|].
  do 2 eexists. split; [vm_compute; reflexivity|]. split; [vm_compute; reflexivity|]. vm_compute. by repeat split.
Qed.
(** Two histories that differ in an option no call depends on. *)
Example C114_unconcerned_example : alike only_calls c114_cfg ex_cfg c114_uses (map UHook (tx_events ex_world ex_tx)).
Proof.
  unfold alike. match goal with |- Forall2 _ ?a ?b => let a' := eval vm_compute in a in let b' := eval vm_compute in b in change (Forall2 (fun p p' => snd p = snd p' /\ same_options only_calls (fst p) (fst p')) a' b') end.
  repeat (constructor; [split; [reflexivity|by split_and!]|]). constructor.
Qed.

(** Without care, recording a transaction can panic: if the recording of steps is switched on within an instruction. *)
Definition c114_steps (b : bool) (c : TracingInspectorConfig) : TracingInspectorConfig :=
  mkConfig b false SnapNone false false None (exclude_precompile_calls c) false.
Definition c114_careless : list use :=
  flat_map (fun e => match e with EStep _ _ => [UHook e; UConfig (c114_steps true)] | _ => [UHook e] end) (tx_events ex_world ex_tx).
Theorem C114_careless_panics :
  exists cfg w f us p, hooks_called us = Some (tx_events w f) /\
  Forall (fun u => match u with UConfig g => forall c, exclude_precompile_calls (g c) = exclude_precompile_calls c | _ => True end) us /\
  precompiles_are_leaves w f /\ ti_session (ti_new cfg) us = Panic p.
Proof.
  exists c114_cfg, ex_world, ex_tx, c114_careless, PExpect. split_and!.
  - vm_compute. reflexivity.
  - unfold c114_careless. apply Forall_forall. intros u Hu. apply elem_of_list_In, in_flat_map in Hu as (e & _ & Hu).
    destruct u as [|g| |]; [done| |done..]. destruct e; cbn in Hu; intuition; simplify_eq; done.
  - apply (ex_env ex_cfg). done.
  - vm_compute. reflexivity.
Qed.
Print Assumptions C114_careless_panics.
(** Or it records, for one instruction, the outcome of another: here steps are switched off within the first instruction
    (which costs 3) and on again within the second; the first one is then shown as costing 1003. *)
Example C114_careless_mixes :
  let first := firstn 3 (tx_events ex_world ex_tx) in
  match first, skipn 3 (tx_events ex_world ex_tx) with
  | [call; step; step_end], step' :: log :: step_end' :: _ =>
      rmap (fun s => n ← ti_traces s !! 0; st ← tr_steps (nd_trace n) !! 0; Some (length (tr_steps (nd_trace n)), st_gas_cost st))
        (ti_session (ti_new (c114_steps true c114_cfg))
           [UHook call; UHook step; UConfig (c114_steps false); UHook step_end; UHook step'; UHook log; UConfig (c114_steps true); UHook step_end'])
      = Ok (Some (1, 1003%N))
  | _, _ => False
  end.
Proof. vm_compute. reflexivity. Qed.
