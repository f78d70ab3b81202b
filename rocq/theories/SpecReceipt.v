(** * SpecReceipt: the logs of a transaction, and reading them off the reports *)

From Verif Require Export SpecTx SpecSimple SpecGeth.

(** The logs of the receipt: those of an execution in their order, without those of frames that fail. *)
Fixpoint receipt_logs (f : frame) : list Log :=
  match f with
  | Frame s body e =>
      if frame_ok_result e
      then flat_map (fun it => match it with IOp o => logs_of (op_hooks o) | IHook h => logs_of [h] | ISub g => receipt_logs g end) body
      else []
  end.
(** EVM fact: precompiles emit no logs. *)
Definition evm_silent (w : world) (f : frame) : Prop :=
  every_frame (fun g => is_call (f_start g) = true -> w_precompiles w (code_address (f_start g)) = true ->
    logs_of (hooks (f_body g)) = []) f.

(** Reading the logs off the recorded calls: those of calls that succeeded, in order; [fuel] is the number of calls. *)
Fixpoint recorded_logs (fuel : nat) (ns : list CallTraceNode) (i : nat) : list Log :=
  match fuel, ns !! i with
  | S fuel, Some n =>
      if tr_success (nd_trace n) then
        flat_map (fun m =>
          match m with
          | OLog j => match nd_logs n !! j with Some l => [Evm.mkLog (nd_execution_address n) (cl_topics l) (cl_data l)] | None => [] end
          | OCall j => match nd_children n !! j with Some c => recorded_logs fuel ns c | None => [] end
          | OStep _ => []
          end) (nd_ordering n)
      else []
  | _, _ => []
  end.

(** All logs of a geth call tree, those of a call before those of its sub-calls. *)
Definition log_shown (l : CallLogFrame) : list Log :=
  match lf_address l, lf_topics l, lf_data l with Some a, Some t, Some d => [Evm.mkLog a t d] | _, _, _ => [] end.
Fixpoint tree_logs (c : CallFrame) : list Log :=
  match c with
  | mkCF i calls =>
      if String.eqb (fi_typ i) "SELFDESTRUCT" then []
      else flat_map log_shown (fi_logs i)
           ++ (fix go (l : list CallFrame) : list Log := match l with [] => [] | x :: l => tree_logs x ++ go l end) calls
  end.
