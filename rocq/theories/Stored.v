(** * Stored: a recording written with serde and read back (feature serde) *)

From Verif Require Export Writer Geth VmTrace.

(** types.rs:571-610 [derive(Serialize, Deserialize)] for [CallTraceStep], with types.rs:579 [with = "opcode_serde"]
    for the opcode. Simplified: the format (serde, serde_json) and the derived implementations of all other fields are
    taken to be faithful. *)
Definition read_step (s : CallTraceStep) : CallTraceStep :=
  mkStep s.(st_depth) s.(st_pc) (opcode_deserialize (opcode_serialize s.(st_op))) s.(st_contract) s.(st_stack)
    s.(st_push_stack) s.(st_memory) s.(st_returndata) s.(st_gas_remaining) s.(st_gas_refund_counter) s.(st_gas_used)
    s.(st_gas_cost) s.(st_storage_change) s.(st_status) s.(st_decoded).
(** types.rs:40 [CallTrace] *)
Definition read_trace (t : CallTrace) : CallTrace := tr_set_steps t (map read_step t.(tr_steps)).
(** types.rs:178 [CallTraceNode] *)
Definition read_node (n : CallTraceNode) : CallTraceNode := nd_set_trace n (read_trace n.(nd_trace)).
(** arena.rs:7 [CallTraceArena] *)
Definition read_back (nodes : list CallTraceNode) : list CallTraceNode := map read_node nodes.
