(** * PropertiesVmLogs: C121, the vm trace and the struct logs of one recording *)

From Verif Require Import VmLogsProofs PropertiesParity PropertiesGeth PropertiesVm PropertiesShown Examples.

(** ** C121 *)

(** The vm trace and the struct logs of a recording of all instructions list the same instructions in the same order. *)
Definition C121_statement : Prop :=
  forall cfg w f s gas out opts r t,
  env_ok cfg w f -> evm_calls f -> evm_memory f -> record_steps cfg = true -> record_opcodes_filter cfg = None ->
  ti_run (ti_new cfg) (tx_events w f) = Ok s ->
  geth_traces (ti_traces s) gas out opts = Ok r -> vm_trace (ti_traces s) = Ok t ->
  Forall2 same_instruction (dfr_struct_logs r) (flat t).

Lemma same_described cfg opts d g o l i : log_describes cfg opts d g o l -> (exists sub, vm_instr_of cfg o sub i) -> same_instruction l i.
Proof.
  intros [L1 L2 L3 L4 L5 _ _ _] (sub & cost & push & mem & store & -> & Hcost & _). cbn. split; [done|]. split; [done|].
  split; [|done]. apply N2Z.inj. by rewrite L5.
Qed.

(** The instructions of the transaction's own code agree, in every configuration, unless the vm trace is emptied by the
    STOP shortcut. *)
Theorem C121_own_code_partial :
  forall cfg w f s gas out opts, env_ok cfg w f -> evm_memory f -> ti_run (ti_new cfg) (tx_events w f) = Ok s ->
  shortcut cfg w f = false ->
  exists r t, geth_traces (ti_traces s) gas out opts = Ok r /\ vm_trace (ti_traces s) = Ok t /\
    Forall2 same_instruction (List.filter (fun l => (sl_depth l =? 1)%nat) (dfr_struct_logs r)) (vm_ops t).
Proof.
  intros cfg w f s gas out opts Henv Hmem Hrun Hsc.
  destruct (C82_root_instructions cfg w f s Henv Hmem Hrun Hsc) as (t & Ht & Hv).
  destruct (C120_shown_exactly cfg w f s gas out opts Henv Hrun) as (r & Hr & Hl). exists r, t. split; [done|]. split; [done|].
  assert (H : Forall2 (fun x l => let '(d, g, o) := x in log_describes cfg opts d g o l)
    (List.filter (fun x => (fst (fst x) =? 1)%nat) (SpecShown.shown cfg w (spec_value (f_start f)) 0 f))
    (List.filter (fun l => (sl_depth l =? 1)%nat) (dfr_struct_logs r))).
  { clear -Hl. induction Hl as [|[[d g] o] l xs ls Hd _ IH]; [constructor|]. cbn [List.filter fst]. rewrite (ld_depth _ _ _ _ _ _ Hd).
    destruct (d =? 1); [by constructor|done]. }
  rewrite shown_own in H. clear -H Hv. revert H. generalize (List.filter (fun l => (sl_depth l =? 1)%nat) (dfr_struct_logs r)) as ls.
  induction Hv as [|o i os is Ho _ IH]; intros ls H; cbn [map] in H; inversion H as [|? l ? ls' Hl Hls]; subst; constructor.
  - by eapply same_described.
  - by apply IH.
Qed.
Print Assumptions C121_own_code_partial.

(** All instructions agree, in every configuration, when only the first sub-call of each frame makes calls itself and the
    vm trace is not emptied by the STOP shortcut. *)
Theorem C121_nested_partial :
  forall cfg w f s gas out opts, env_ok cfg w f -> evm_memory f -> ti_run (ti_new cfg) (tx_events w f) = Ok s ->
  shortcut cfg w f = false -> first_calls_only cfg w (spec_value (f_start f)) f ->
  exists r t, geth_traces (ti_traces s) gas out opts = Ok r /\ vm_trace (ti_traces s) = Ok t /\
    Forall2 same_instruction (dfr_struct_logs r) (flat t).
Proof.
  intros cfg w f s gas out opts Henv Hmem Hrun Hsc Hfirst.
  destruct (C82_vm_trace cfg w f s Henv Hmem Hrun) as (t & Ht & Hq). rewrite Hsc in Hq. destruct Hq as (q & Hq).
  destruct (C120_shown_exactly cfg w f s gas out opts Henv Hrun) as (r & Hr & Hl). exists r, t. split; [done|]. split; [done|].
  destruct (nested_dealt cfg w f _ 0 _ Hfirst Hq) as (t' & E & Hu).
  change [t'] with ([] ++ [t']) in E. apply app_inj_tail in E as [_ ->]. unfold unfolds in Hu. clear -Hl Hu.
  revert Hl. generalize (dfr_struct_logs r) as ls. induction Hu as [|x i xs is Hx _ IH]; intros ls H; inversion H as [|? l ? ls' Hl Hls]; subst; constructor.
  - destruct x as [[d g] o]. by eapply same_described.
  - by apply IH.
Qed.
Print Assumptions C121_nested_partial.

(** The opcodes of the lines and those of the vm trace. *)
Definition both_ops (cfg : TracingInspectorConfig) (f : frame) : list (list u8 * list u8) :=
  match ti_run (ti_new cfg) (tx_events ex_world f) with
  | Ok s => match geth_traces (ti_traces s) 5%N [] ex_opts, vm_trace (ti_traces s) with
            | Ok r, Ok t => [(map sl_op (dfr_struct_logs r), map (fun '(mkVmI _ _ _ _ op) => op) (flat t))]
            | _, _ => []
            end
  | _ => []
  end.
Lemma refute_vm f a b : env_ok all_opcodes ex_world f -> evm_calls f -> evm_memory f -> both_ops all_opcodes f = [(a, b)] -> a <> b -> ~ C121_statement.
Proof.
  intros Henv Hcalls Hmem Hab Hne H. unfold both_ops in Hab.
  destruct (ti_run (ti_new all_opcodes) (tx_events ex_world f)) as [s| |] eqn:Hs; [|done..].
  destruct (geth_traces (ti_traces s) 5%N [] ex_opts) as [r| |] eqn:Hr; [|done..].
  destruct (vm_trace (ti_traces s)) as [t| |] eqn:Ht; [|done..]. injection Hab as <- <-.
  specialize (H all_opcodes ex_world f s 5%N [] ex_opts r t Henv Hcalls Hmem eq_refl eq_refl Hs Hr Ht).
  apply Hne. clear -H. induction H as [|l i ls is Hli _ IH]; [done|]. cbn [map]. rewrite IH. f_equal.
  destruct i as [pc cost [ex|] sub op]; [|done]. apply Hli.
Qed.

(** The root calls A and then B, and B makes a call: the calls' instructions change places in the vm trace. *)
Lemma c23_tx_calls : evm_calls c23_tx /\ evm_memory c23_tx.
Proof. split; repeat (constructor; cbn; try done). Qed.
Theorem C121_refuted : ~ C121_statement.
Proof.
  destruct c23_tx_calls as [H1 H2].
  apply (refute_vm c23_tx [OP_CALL; OP_PUSH1; OP_CALL; OP_CALL; OP_PUSH1; OP_PUSH1] [OP_CALL; OP_PUSH1; OP_PUSH1; OP_CALL; OP_CALL; OP_PUSH1]);
    [by apply env_okb_ok|exact H1|exact H2|vm_compute; reflexivity|vm_compute; discriminate].
Qed.
Print Assumptions C121_refuted.

(** The last call is to code that is just STOP: the vm trace is empty. *)
Lemma c23_stop_calls : evm_calls c23_stop_tx /\ evm_memory c23_stop_tx.
Proof. split; repeat (constructor; cbn; try done). Qed.
Theorem C121_stop_refuted : ~ C121_statement.
Proof.
  destruct c23_stop_calls as [H1 H2].
  apply (refute_vm c23_stop_tx [OP_CALL; OP_STOP] []);
    [by apply env_okb_ok|exact H1|exact H2|vm_compute; reflexivity|vm_compute; discriminate].
Qed.
Print Assumptions C121_stop_refuted.

Lemma c23_ok_first : first_calls_only all_opcodes ex_world 0%N c23_ok_tx.
Proof.
  constructor; [vm_compute; lia|intros x [<-|[]]; vm_compute; reflexivity|]. intros x [<-|[<-|[]]].
  - constructor; [vm_compute; lia|intros x []|]. intros x [<-|[]]. constructor; [vm_compute; lia|intros x []|intros x []].
  - constructor; [vm_compute; lia|intros x []|intros x []].
Qed.
Example C121_example :
  env_ok all_opcodes ex_world c23_ok_tx /\ evm_calls c23_ok_tx /\ evm_memory c23_ok_tx /\ shortcut all_opcodes ex_world c23_ok_tx = false
  /\ first_calls_only all_opcodes ex_world 0%N c23_ok_tx
  /\ both_ops all_opcodes c23_ok_tx = [([OP_CALL; OP_CALL; OP_PUSH1; OP_PUSH1; OP_CALL; OP_PUSH1], [OP_CALL; OP_CALL; OP_PUSH1; OP_PUSH1; OP_CALL; OP_PUSH1])].
Proof.
  split; [by apply env_okb_ok|]. split; [repeat (constructor; cbn; try done)|]. split; [repeat (constructor; cbn; try done)|].
  split; [vm_compute; reflexivity|]. split; [exact c23_ok_first|]. vm_compute. reflexivity.
Qed.
