(** * PropertiesReceipt: C144, the logs of the transaction can be read off the reports *)

From Verif Require Import ReceiptProofs PropertiesTx Examples.

(** The recorded calls hold the logs of the receipt, in their order. *)
Theorem C144_recorded :
  forall cfg w f s, env_ok cfg w f -> evm_addresses f -> evm_silent w f -> record_logs cfg = true ->
  ti_run (ti_new cfg) (tx_events w f) = Ok s ->
  recorded_logs (length (ti_traces s)) (ti_traces s) 0 = receipt_logs f.
Proof. exact tx_recorded_logs. Qed.
Print Assumptions C144_recorded.

(** One would expect a geth call tree with logs to hold the same logs, if not in their order. *)
Definition C144_statement : Prop :=
  forall rr cfg w f s opts gas r, env_ok cfg w f -> evm_addresses f -> record_logs cfg = true ->
  ti_run (ti_new cfg) (tx_events w f) = Ok s -> only_top_call opts <> Some true -> with_log opts = Some true ->
  geth_call_traces rr (ti_traces s) opts gas = Ok r -> tree_logs r ≡ₚ receipt_logs f.
(** The root has its logs also when the transaction fails. *)
Definition c144_failed : frame :=
  Frame (SCall ex_j0 (mkCallInputs [] 90000 0xC0 0xC0 0xAA (Transfer 7) CSCall false)%N)
    [ IOp (ex_op OP_LOG0 2 [5; 5]%N [] 9000%N ex_j0 [HLog ex_j0 ex_log] Continue);
      IOp (ex_op OP_REVERT 7 [0; 0]%N [] 4000%N ex_j0 [] Revert) ] (ex_end Revert None).
Lemma c144_failed_addresses : evm_addresses c144_failed.
Proof. repeat (constructor; cbn; try done). Qed.
Theorem C144_refuted : ~ C144_statement.
Proof.
  intros H. assert (Hx : exists s r, ti_run (ti_new ex_cfg) (tx_events ex_world c144_failed) = Ok s /\
    geth_call_traces (fun _ => None) (ti_traces s) (mkCallConfig None (Some true)) 99%N = Ok r /\ tree_logs r = [ex_log]).
  { eexists _, _. split; [vm_compute; reflexivity|]. split; [vm_compute; reflexivity|]. vm_compute. reflexivity. }
  destruct Hx as (s & r & Hs & Hr & Hl).
  specialize (H (fun _ => None) ex_cfg ex_world c144_failed s (mkCallConfig None (Some true)) 99%N r (env_okb_ok ex_cfg ex_world c144_failed eq_refl)
    c144_failed_addresses eq_refl Hs ltac:(discriminate) eq_refl Hr).
  rewrite Hl in H. change (receipt_logs c144_failed) with (@nil Log) in H. symmetry in H. by apply Permutation_nil in H.
Qed.
Print Assumptions C144_refuted.
Theorem C144_call_tree_partial :
  forall rr cfg w f s opts gas r, env_ok cfg w f -> evm_addresses f -> record_logs cfg = true ->
  frame_ok_result (f_end f) = true ->
  ti_run (ti_new cfg) (tx_events w f) = Ok s -> only_top_call opts <> Some true -> with_log opts = Some true ->
  geth_call_traces rr (ti_traces s) opts gas = Ok r -> tree_logs r ≡ₚ receipt_logs f.
Proof.
  intros rr cfg w f s opts gas r He Ha Hl Hok Hr Ho Hw Hg. destruct (C75_call_tree rr cfg w f s opts gas He Ha Hr Ho) as (r' & Hg' & Hc & _).
  rewrite Hg in Hg'. injection Hg' as <-. rewrite <- tree_logs_without, Hc, Hw. rewrite bool_decide_eq_true_2 by done. by apply tree_logs_reading.
Qed.
Print Assumptions C144_call_tree_partial.

(** If the transaction fails the call tree holds the logs that the root emitted itself. *)
Theorem C144_failed_call_tree :
  forall rr cfg w f s opts gas r, env_ok cfg w f -> evm_addresses f -> record_logs cfg = true ->
  frame_ok_result (f_end f) = false ->
  ti_run (ti_new cfg) (tx_events w f) = Ok s -> only_top_call opts <> Some true -> with_log opts = Some true ->
  geth_call_traces rr (ti_traces s) opts gas = Ok r -> tree_logs r = logs_of (hooks (f_body f)).
Proof.
  intros rr cfg w f s opts gas r He Ha Hl Hok Hr Ho Hw Hg. destruct (C75_call_tree rr cfg w f s opts gas He Ha Hr Ho) as (r' & Hg' & Hc & _).
  rewrite Hg in Hg'. injection Hg' as <-. rewrite <- tree_logs_without, Hc, Hw. rewrite bool_decide_eq_true_2 by done. by apply tree_logs_failed_root.
Qed.
Print Assumptions C144_failed_call_tree.

(** Their order is lost: a call's log and that of a call before it. *)
Definition C144_order_statement : Prop :=
  forall rr cfg w f s opts gas r, env_ok cfg w f -> evm_addresses f -> record_logs cfg = true ->
  frame_ok_result (f_end f) = true ->
  ti_run (ti_new cfg) (tx_events w f) = Ok s -> only_top_call opts <> Some true -> with_log opts = Some true ->
  geth_call_traces rr (ti_traces s) opts gas = Ok r -> tree_logs r = receipt_logs f.
Definition c144_log : Log := Evm.mkLog 0xD0%N [1]%N [].
Definition c144_sub (r : InstructionResult) : frame :=
  Frame (SCall ex_j0 (mkCallInputs [] 30000 0xD0 0xD0 0xC0 (Transfer 0) CSCall false)%N)
    [ IOp (ex_op OP_LOG0 0 [5; 5]%N [] 900%N ex_j0 [HLog ex_j0 c144_log] Continue) ] (ex_end r None).
Definition c144_tx : frame :=
  Frame (SCall ex_j0 (mkCallInputs [] 90000 0xC0 0xC0 0xAA (Transfer 7) CSCall false)%N)
    [ IOp (ex_op OP_CALL 0 [0; 0; 0; 0; 0; 0; 0]%N [] 9000%N ex_j0 [] CallOrCreate); ISub (c144_sub Stop);
      IOp (ex_op OP_LOG0 2 [5; 5]%N [] 8000%N ex_j0 [HLog ex_j0 ex_log] Continue);
      IOp (ex_op OP_CALL 3 [0; 0; 0; 0; 0; 0; 0]%N [] 7000%N ex_j0 [] CallOrCreate); ISub (c144_sub Revert);
      IOp (ex_op OP_STOP 4 [] [] 4000%N ex_j0 [] Stop) ] (ex_end Stop None).
Lemma c144_addresses : evm_addresses c144_tx.
Proof. repeat (constructor; cbn; try done). Qed.
Lemma c144_silent : evm_silent ex_world c144_tx.
Proof. repeat (constructor; cbn; try done). Qed.
Lemma c144_run : exists s r, ti_run (ti_new ex_cfg) (tx_events ex_world c144_tx) = Ok s /\
  geth_call_traces (fun _ => None) (ti_traces s) (mkCallConfig None (Some true)) 99%N = Ok r /\
  recorded_logs (length (ti_traces s)) (ti_traces s) 0 = [c144_log; ex_log] /\ tree_logs r = [ex_log; c144_log].
Proof. eexists _, _. split; [vm_compute; reflexivity|]. split; [vm_compute; reflexivity|]. split; vm_compute; reflexivity. Qed.
Theorem C144_order_refuted : ~ C144_order_statement.
Proof.
  intros H. destruct c144_run as (s & r & Hs & Hr & _ & Hl).
  specialize (H (fun _ => None) ex_cfg ex_world c144_tx s (mkCallConfig None (Some true)) 99%N r (env_okb_ok ex_cfg ex_world c144_tx eq_refl)
    c144_addresses eq_refl eq_refl Hs ltac:(discriminate) eq_refl Hr).
  rewrite Hl in H. vm_compute in H. discriminate H.
Qed.
Print Assumptions C144_order_refuted.

(** The log of the call that is reverted is in neither. *)
Example C144_example :
  env_ok ex_cfg ex_world c144_tx /\ evm_addresses c144_tx /\ evm_silent ex_world c144_tx /\ frame_ok_result (f_end c144_tx) = true /\
  exists s r, ti_run (ti_new ex_cfg) (tx_events ex_world c144_tx) = Ok s /\
    geth_call_traces (fun _ => None) (ti_traces s) (mkCallConfig None (Some true)) 99%N = Ok r /\
    recorded_logs (length (ti_traces s)) (ti_traces s) 0 = [c144_log; ex_log] /\ tree_logs r = [ex_log; c144_log].
Proof.
  split; [by apply env_okb_ok|]. split; [apply c144_addresses|]. split; [apply c144_silent|]. split; [done|]. apply c144_run.
Qed.
