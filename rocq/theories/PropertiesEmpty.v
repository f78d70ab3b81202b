(** * PropertiesEmpty: C101, reports on recordings without a transaction *)

From Verif Require Import Inspector Parity Walker VmTrace StateDiff Geth PropertiesRecord Examples.
Local Open Scope N_scope.

(** ** C101 *)

(** The report of [into_trace_results] that holds nothing but the output of the execution result. *)
Definition only_output (r : ExecutionResult) : TraceResults :=
  {| rs_output := match er_output r with Some o => o | None => [] end; rs_trace := []; rs_vm_trace := None; rs_state_diff := None |}.

(** Built from no node at all, every report is empty, whatever is asked for. *)
Definition C101_statement : Prop := forall rr copts gas out opts info r state types db,
  geth_call_traces rr [] copts gas
    = Ok (mkCF {| fi_typ := ""; fi_from := 0; fi_to := None; fi_value := None; fi_gas := 0; fi_gas_used := 0; fi_input := [];
                  fi_output := None; fi_error := None; fi_revert_reason := None; fi_logs := [] |} [])
  /\ geth_traces [] gas out opts
    = Ok {| dfr_failed := false; dfr_gas := 0; dfr_return_value := []; dfr_struct_logs := [] |}
  /\ into_transaction_traces [] = Ok [] /\ into_localized_transaction_traces [] info = Ok []
  /\ into_trace_results [] r types = Ok (only_output r)
  /\ into_trace_results_with_state [] r state types db = Ok (Some (only_output r)).

(** With the vm trace asked for, the breadth-first walk over the addresses starts at a node that does not exist. *)
Theorem C101_refuted : ~ C101_statement.
Proof.
  intros H.
  destruct (H (fun _ => None) (mkCallConfig None None) 0 [] (mkGethOpts None None None None None None) (mkTxInfo None None None None None) (mkExecResult 0 None) []
             (mkTypes false true false) (mkDb (fun _ => None) (fun _ => None))) as (_ & _ & _ & _ & _ & H').
  discriminate H'.
Qed.
Print Assumptions C101_refuted.

Theorem C101_no_nodes_partial : forall rr copts gas out opts info r state types db,
  geth_call_traces rr [] copts gas
    = Ok (mkCF {| fi_typ := ""; fi_from := 0; fi_to := None; fi_value := None; fi_gas := 0; fi_gas_used := 0; fi_input := [];
                  fi_output := None; fi_error := None; fi_revert_reason := None; fi_logs := [] |} [])
  /\ geth_traces [] gas out opts
    = Ok {| dfr_failed := false; dfr_gas := 0; dfr_return_value := []; dfr_struct_logs := [] |}
  /\ into_transaction_traces [] = Ok [] /\ into_localized_transaction_traces [] info = Ok []
  /\ into_trace_results [] r types = Ok (only_output r)
  /\ (ty_vm_trace types = false -> into_trace_results_with_state [] r state types db = Ok (Some (only_output r)))
  /\ (ty_vm_trace types = true -> exists p, into_trace_results_with_state [] r state types db = Panic p).
Proof.
  intros rr copts gas out opts info r state types db.
  assert (Hr : into_trace_results [] r types = Ok (only_output r)).
  { unfold into_trace_results, into_trace_type_traces. cbn [length Nat.eqb]. by rewrite orb_true_r. }
  do 4 (split; [reflexivity|]). split; [exact Hr|]. unfold into_trace_results_with_state. split; intros ->.
  - cbn [rbind]. rewrite Hr. done.
  - by eexists.
Qed.
Print Assumptions C101_no_nodes_partial.

(** An inspector that has recorded no transaction yet, or that was reset after any history, reports one call without
    caller, callee, value, data, output, logs, subcalls and steps. The struct logs and the call frame tell that it has not
    succeeded; the only gas shown is that of the execution result. *)
Theorem C101_no_transaction : forall rr cfg es s0 s copts gas out opts info r types,
  (s = ti_new cfg \/ (ti_run (ti_new cfg) es = Ok s0 /\ s = ti_fuse s0)) ->
  let call g := {| tt_action := ActCall 0 0 0 0 [] CTCall; tt_error := None; tt_result := Some (OutCall g []);
                   tt_address := []; tt_subtraces := 0 |} in
  geth_call_traces rr (ti_traces s) copts gas
    = Ok (mkCF {| fi_typ := "CALL"; fi_from := 0; fi_to := Some 0; fi_value := Some 0; fi_gas := 0; fi_gas_used := gas; fi_input := [];
                  fi_output := None; fi_error := None; fi_revert_reason := rr []; fi_logs := [] |} [])
  /\ geth_traces (ti_traces s) gas out opts
    = Ok {| dfr_failed := true; dfr_gas := gas; dfr_return_value := out; dfr_struct_logs := [] |}
  /\ into_transaction_traces (ti_traces s) = Ok [call 0]
  /\ into_localized_transaction_traces (ti_traces s) info
    = Ok [{| lt_trace := call 0; lt_position := ti_index info; lt_hash := ti_hash info;
             lt_block_number := ti_block_number info; lt_block_hash := ti_block_hash info |}]
  /\ into_trace_results (ti_traces s) r types
    = Ok {| rs_output := match er_output r with Some o => o | None => [] end; rs_trace := if ty_trace types then [call (er_gas_used r)] else [];
            rs_vm_trace := if ty_vm_trace types then Some (mkVm [] []) else None;
            rs_state_diff := if ty_state_diff types then Some ∅ else None |}.
Proof.
  intros rr cfg es s0 s copts gas out opts info r types Hs call.
  assert (s = ti_new cfg) as ->.
  { destruct Hs as [->|[Hr ->]]; [done|]. destruct (C12_fuse_is_new cfg es s0 [] Hr) as (-> & -> & _). done. }
  split. { destruct copts as [[[]|] [[]|]]; reflexivity. }
  split; [reflexivity|]. split; [reflexivity|]. split; [reflexivity|].
  destruct r as [g o], types as [[] [] []]; destruct o; reflexivity.
Qed.
Print Assumptions C101_no_transaction.
Example C101_example : exists s, ex_state ex_cfg = Ok s /\ length (ti_traces s) = 6%nat
  /\ into_transaction_traces (ti_traces (ti_fuse s)) = into_transaction_traces (ti_traces (ti_new ex_cfg)).
Proof. eexists. split; [vm_compute; reflexivity|]. split; reflexivity. Qed.
