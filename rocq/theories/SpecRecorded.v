(** * SpecRecorded: the recording of a call, moved to another place *)

From Verif Require Export SpecAlone.
Local Open Scope nat_scope.

(** The same step, trace and node, [d] levels deeper and [k] places further on in the arena: only depths and indices change. *)
Definition step_moved (d : nat) (s : CallTraceStep) : CallTraceStep :=
  mkStep (d + st_depth s) (st_pc s) (st_op s) (st_contract s) (st_stack s) (st_push_stack s) (st_memory s) (st_returndata s)
    (st_gas_remaining s) (st_gas_refund_counter s) (st_gas_used s) (st_gas_cost s) (st_storage_change s) (st_status s) (st_decoded s).
Definition trace_moved (d : nat) (t : CallTrace) : CallTrace :=
  mkTrace (d + tr_depth t) (tr_success t) (tr_caller t) (tr_address t) (tr_maybe_precompile t)
    (tr_selfdestruct_refund_target t) (tr_selfdestruct_transferred_value t) (tr_kind t) (tr_value t) (tr_data t) (tr_output t)
    (tr_gas_used t) (tr_gas_limit t) (tr_status t) (map (step_moved d) (tr_steps t)) (tr_decoded t).
Definition node_moved (k d : nat) (n : CallTraceNode) : CallTraceNode :=
  mkNode (option_map (Nat.add k) (nd_parent n)) (map (Nat.add k) (nd_children n)) (k + nd_idx n) (trace_moved d (nd_trace n))
    (nd_logs n) (nd_ordering n).

(** A node without its parent and its gas. *)
Definition node_apart (n : CallTraceNode) : CallTraceNode :=
  let t := nd_trace n in
  mkNode None (nd_children n) (nd_idx n)
    (mkTrace (tr_depth t) (tr_success t) (tr_caller t) (tr_address t) (tr_maybe_precompile t)
       (tr_selfdestruct_refund_target t) (tr_selfdestruct_transferred_value t) (tr_kind t) (tr_value t) (tr_data t) (tr_output t)
       0%N 0%N (tr_status t) (tr_steps t) (tr_decoded t)) (nd_logs n) (nd_ordering n).
