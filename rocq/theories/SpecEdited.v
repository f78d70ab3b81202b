(** * SpecEdited: a recording whose calls were edited before the reports are built

    [CallTraceArena::nodes_mut], [TracingInspector::traces_mut] and the serialised form give a user every field of a node.
    An edit may replace the traces, logs and steps of the calls, but it keeps which call made which. *)

From Verif Require Export Arena Parity Geth StateDiff.

(** The links of a node: its place in the arena, the call that made it, the calls it made, and how deep it is. *)
Record same_links (a b : CallTraceNode) : Prop := {
  sl_idx : nd_idx b = nd_idx a;
  sl_parent : nd_parent b = nd_parent a;
  sl_children : nd_children b = nd_children a;
  sl_depth : tr_depth (nd_trace b) = tr_depth (nd_trace a) }.

(** An edit keeps the links of every node. *)
Definition edited (ns ns' : list CallTraceNode) : Prop := Forall2 same_links ns ns'.

(** It does not change which calls are flagged as calls of precompiles. *)
Definition same_flags (ns ns' : list CallTraceNode) : Prop :=
  Forall2 (fun a b => tr_maybe_precompile (nd_trace b) = tr_maybe_precompile (nd_trace a)) ns ns'.

(** It clears no flag; more calls may be flagged. *)
Definition no_flag_cleared (ns ns' : list CallTraceNode) : Prop :=
  Forall2 (fun a b => nd_is_precompile a = true -> nd_is_precompile b = true) ns ns'.

(** All reports on an arena are built without a panic and without looping. *)
Record reported (ns : list CallTraceNode) : Prop := {
  rp_call_tree : forall rr opts gas, exists r, geth_call_traces rr ns opts gas = Ok r;
  rp_struct_logs : forall gas out opts, exists r, geth_traces ns gas out opts = Ok r;
  rp_parity : exists l, into_transaction_traces ns = Ok l;
  rp_localized : forall info, exists l, into_localized_transaction_traces ns info = Ok l;
  rp_results : forall r types, exists x, into_trace_results ns r types = Ok x;
  rp_results_state : forall r state types db, exists x, into_trace_results_with_state ns r state types db = Ok x }.
