(** * PropertiesDecorated: C148, decoding a recording does not change its reports *)

From Verif Require Import Geth Parity VmTrace StateDiff PlainProofs SpecWriter PropertiesWriter Examples.
Local Open Scope nat_scope.

(** Two recordings that differ in labels, decoded calls, logs and steps alone have the same reports. *)
Theorem C148_reports :
  forall ns ns', decorates ns ns' ->
  (forall rr opts gas, geth_call_traces rr ns opts gas = geth_call_traces rr ns' opts gas) /\
  (forall gas out opts, geth_traces ns gas out opts = geth_traces ns' gas out opts) /\
  into_transaction_traces ns = into_transaction_traces ns' /\
  (forall info, into_localized_transaction_traces ns info = into_localized_transaction_traces ns' info) /\
  vm_trace ns = vm_trace ns' /\
  (forall r types, into_trace_results ns r types = into_trace_results ns' r types) /\
  (forall r state types db, into_trace_results_with_state ns r state types db = into_trace_results_with_state ns' r state types db) /\
  callers ns = callers ns'.
Proof.
  intros ns ns' Hd. unfold decorates in Hd. change (plain_node <$> ns = plain_node <$> ns') in Hd. split_and!.
  - intros rr opts gas. by rewrite <-geth_call_traces_plain, Hd, geth_call_traces_plain.
  - intros gas out opts. by rewrite <-geth_traces_plain, Hd, geth_traces_plain.
  - by rewrite <-into_transaction_traces_plain, Hd, into_transaction_traces_plain.
  - intros info. unfold into_localized_transaction_traces. by rewrite <-into_transaction_traces_plain, Hd, into_transaction_traces_plain.
  - by rewrite <-vm_trace_plain, Hd, vm_trace_plain.
  - intros r types. by rewrite <-into_trace_results_plain, Hd, into_trace_results_plain.
  - intros r state types db. by rewrite <-into_trace_results_state_plain, Hd, into_trace_results_state_plain.
  - by rewrite <-callers_plain, Hd, callers_plain.
Qed.
Print Assumptions C148_reports.

(** The recording of the examples and its decorated form: they differ, and the text written differs too. *)
Example C148_example : exists s, ti_run (ti_new ex_cfg) (tx_events ex_world ex_tx) = Ok s /\ decorates ex_decorated (ti_traces s) /\
  write_arena ex_checksum ex_decorated (ex_writer None) <> write_arena ex_checksum (ti_traces s) (ex_writer None).
Proof.
  eexists. split; [vm_compute; reflexivity|]. split; [vm_compute; reflexivity|]. vm_compute. discriminate.
Qed.
