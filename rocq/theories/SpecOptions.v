(** * SpecOptions: the part of a recording that a choice of options speaks about *)

From Verif Require Export Inspector.

(** Which optional parts of a recording to look at. *)
Record keep := mkKeep {
  k_steps : bool; k_stack : bool; k_memory : bool; k_returndata : bool; k_diff : bool; k_logs : bool }.

Definition kept_step (k : keep) (s : CallTraceStep) : CallTraceStep :=
  mkStep (st_depth s) (st_pc s) (st_op s) (st_contract s)
    (if k_stack k then st_stack s else None) (if k_stack k then st_push_stack s else None)
    (if k_memory k then st_memory s else None) (if k_returndata k then st_returndata s else [])
    (st_gas_remaining s) (st_gas_refund_counter s) (st_gas_used s) (st_gas_cost s)
    (if k_diff k then st_storage_change s else None) (st_status s) (st_decoded s).
Definition kept_order (k : keep) (o : TraceMemberOrder) : bool :=
  match o with OLog _ => k_logs k | OStep _ => k_steps k | OCall _ => true end.
(** A recorded frame without the parts that are not looked at. Everything else (parent, children, position and all the
    fields of the call itself) stays. *)
Definition kept (k : keep) (n : CallTraceNode) : CallTraceNode :=
  mkNode (nd_parent n) (nd_children n) (nd_idx n)
    (tr_set_steps (nd_trace n) (if k_steps k then kept_step k <$> tr_steps (nd_trace n) else []))
    (if k_logs k then nd_logs n else []) (List.filter (kept_order k) (nd_ordering n)).

(** The two configurations treat the parts that are looked at in the same way; the other options may differ at will. *)
Definition same_options (k : keep) (c c' : TracingInspectorConfig) : Prop :=
  exclude_precompile_calls c = exclude_precompile_calls c' /\
  (k_steps k = true -> record_steps c = record_steps c' /\ record_opcodes_filter c = record_opcodes_filter c') /\
  (k_stack k = true -> record_stack_snapshots c = record_stack_snapshots c') /\
  (k_memory k = true -> record_memory_snapshots c = record_memory_snapshots c') /\
  (k_returndata k = true -> record_returndata_snapshots c = record_returndata_snapshots c') /\
  (k_diff k = true -> record_state_diff c = record_state_diff c') /\
  (k_logs k = true -> record_logs c = record_logs c').

(** The calls themselves; the calls with their logs; the calls with their steps but none of the optional contents. *)
Definition only_calls : keep := mkKeep false false false false false false.
Definition calls_and_logs : keep := mkKeep false false false false false true.
Definition bare_steps : keep := mkKeep true false false false false false.
