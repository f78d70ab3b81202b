{
 "claims": [
  {
   "property": "C01",
   "status": "proved",
   "theorems": [
    "C01_arena_is_call_tree"
   ],
   "note": "for executions whose recording does not panic (snapshot_safe, see C09) and whose precompiles have no sub-frames"
  },
  {
   "property": "C02",
   "status": "proved",
   "theorems": [
    "C02_arena_tree_any_history"
   ],
   "note": ""
  },
  {
   "property": "C03",
   "status": "proved",
   "theorems": [
    "C03_node_data"
   ],
   "note": ""
  },
  {
   "property": "C04",
   "status": "partial",
   "theorems": [
    "C04_ordering_complete",
    "C04_reuse_without_fuse_refuted"
   ],
   "note": "holds with at most one root start since new/fuse; the refuted theorem shows that reuse for a second transaction without fuse breaks it"
  },
  {
   "property": "C05",
   "status": "proved",
   "theorems": [
    "C05_logs_attribution"
   ],
   "note": ""
  },
  {
   "property": "C06",
   "status": "proved",
   "theorems": [
    "C06_steps_recorded_once"
   ],
   "note": ""
  },
  {
   "property": "C07",
   "status": "partial",
   "theorems": [
    "C07_refuted",
    "C07_memory_snapshots_partial",
    "C07_snapshots_exactly"
   ],
   "note": "refuted: KECCAK256, LOG*, CREATE* grow memory without a new snapshot. Partial: equal up to trailing zeros; equal with an opcode filter or without those opcodes. Without a filter, exactly which earlier memory each step shows (C07_snapshots_exactly)"
  },
  {
   "property": "C08",
   "status": "partial",
   "theorems": [
    "C08_refuted",
    "C08_storage_change_partial",
    "C08_recorded_exactly"
   ],
   "note": "refuted: SLOAD/no-op SSTORE re-reports the last journalled change. Proved: exact when the instruction itself appended the journal entry; and in general what is recorded is exactly the newest storage entry of the journal (C08_recorded_exactly)"
  },
  {
   "property": "C09",
   "status": "partial",
   "theorems": [
    "C09_refuted",
    "C09_push_snapshots_partial",
    "C09_panics_exactly"
   ],
   "note": "refuted: in Pushes mode an opcode failing on a short stack panics. Proved: exactly which executions panic (C09_panics_exactly); otherwise the snapshot is the top of stack"
  },
  {
   "property": "C10",
   "status": "proved",
   "theorems": [
    "C10_gas_used_capped"
   ],
   "note": ""
  },
  {
   "property": "C11",
   "status": "partial",
   "theorems": [
    "C11_negative_refund_takes_full_cap",
    "C11_refuted",
    "C11_counters_partial"
   ],
   "note": "refuted: a negative refund counter is cast to u64 and takes the whole cap. Partial: non-negative counters"
  },
  {
   "property": "C12",
   "status": "proved",
   "theorems": [
    "C12_fuse_is_new"
   ],
   "note": ""
  },
  {
   "property": "C13",
   "status": "proved",
   "theorems": [
    "C13_mux_passive",
    "C13_tracing_passive",
    "C13_opcode_gas_passive",
    "C13_access_list_passive",
    "C13_transfer_passive",
    "C13_fourbyte_passive",
    "C13_opcount_passive"
   ],
   "note": "TracingInspector and the five simple inspectors; MuxInspector is in its own file"
  },
  {
   "property": "C14",
   "status": "proved",
   "theorems": [
    "C14_delegate_value"
   ],
   "note": ""
  },
  {
   "property": "C15",
   "status": "proved",
   "theorems": [
    "C15_not_listed",
    "C15_excluded_precompiles"
   ],
   "note": ""
  },
  {
   "property": "C16",
   "status": "partial",
   "theorems": [
    "C16_refuted",
    "C16_listed_calls_partial"
   ],
   "note": "Refuted: the call tracer rolls frames up by the parent field, so excluded precompile calls still appear. Proved instead: the listed calls beyond a node's recorded children are exactly the excluded precompile calls."
  },
  {
   "property": "C17",
   "status": "proved",
   "theorems": [
    "C17_trace_address_locates",
    "C17_trace_list_locates"
   ],
   "note": ""
  },
  {
   "property": "C18",
   "status": "proved",
   "theorems": [
    "C18_addresses_unique"
   ],
   "note": ""
  },
  {
   "property": "C19",
   "status": "proved",
   "theorems": [
    "C19_subtraces"
   ],
   "note": ""
  },
  {
   "property": "C20",
   "status": "proved",
   "theorems": [
    "C20_apis_agree"
   ],
   "note": ""
  },
  {
   "property": "C21",
   "status": "partial",
   "theorems": [
    "C21_refuted",
    "C21_depth_first_partial"
   ],
   "note": "Refuted for a frame that makes calls and then selfdestructs: its selfdestruct entry is emitted before the entries of its calls. Proved for every history: call entries are in lexicographic order, a selfdestruct entry directly follows its frame, and the whole list is sorted when no selfdestructed frame has children."
  },
  {
   "property": "C22",
   "status": "proved",
   "theorems": [
    "C22_entry_contents"
   ],
   "note": ""
  },
  {
   "property": "C23",
   "status": "partial",
   "theorems": [
    "C23_refuted",
    "C23_stop_refuted",
    "C23_vm_trace_partial"
   ],
   "note": "Refuted twice: with two subcalls where the second makes calls itself the subtraces are attached to the wrong instructions, and a last frame starting with STOP empties the whole vm trace. Proved when only first subcalls contain call instructions and the shortcut does not trigger. What is attached where in every other case is stated exactly by C82_vm_trace."
  },
  {
   "property": "C24",
   "status": "proved",
   "theorems": [
    "C24_terminates",
    "C24_results_total"
   ],
   "note": ""
  },
  {
   "property": "C25",
   "status": "proved",
   "theorems": [
    "C25_state_diff_exact",
    "C25_spec_functional"
   ],
   "note": ""
  },
  {
   "property": "C26",
   "status": "proved",
   "theorems": [
    "C26_results_root_gas",
    "C26_set_transaction_gas_used"
   ],
   "note": ""
  },
  {
   "property": "C27",
   "status": "proved",
   "theorems": [
    "C27_call_tree",
    "C27_only_top_call",
    "C27_top_call_of_tree"
   ],
   "note": ""
  },
  {
   "property": "C28",
   "status": "partial",
   "theorems": [
    "C28_refuted",
    "C28_placement_partial",
    "C28_first_call_partial"
   ],
   "note": "Refuted: the synthetic frame of a selfdestruct goes into the frame recorded just before the selfdestructing one, which can be a sibling. Proved: the exact placement, and the claim itself when every selfdestructing non-root call is the first call of its parent."
  },
  {
   "property": "C29",
   "status": "partial",
   "theorems": [
    "C29_refuted",
    "C29_logs_partial"
   ],
   "note": "Refuted for the root: a failed root frame still lists its logs. Proved: the claim for every other frame and for a successful root, and exactly what the root lists."
  },
  {
   "property": "C30",
   "status": "proved",
   "theorems": [
    "C30_log_addresses"
   ],
   "note": ""
  },
  {
   "property": "C31",
   "status": "proved",
   "theorems": [
    "C31_chronological",
    "C31_every_arena"
   ],
   "note": ""
  },
  {
   "property": "C32",
   "status": "proved",
   "theorems": [
    "C32_storage"
   ],
   "note": ""
  },
  {
   "property": "C33",
   "status": "partial",
   "theorems": [
    "C33_content_partial",
    "C33_content_exactly",
    "C33_refuted"
   ],
   "note": "Refuted for enable_memory absent with disable_memory = false (memory counts as enabled when rendering but is not recorded). Proved for all other options, and exactly for all options (C33_content_exactly)."
  },
  {
   "property": "C34",
   "status": "partial",
   "theorems": [
    "C34_errors_partial",
    "C34_errors_exactly",
    "C34_refuted"
   ],
   "note": "Refuted: the step of a CALL/CREATE ends with the in-flight marker CallOrCreate, which compares above Revert and is reported as an error. Proved exactly for all results (C34_errors_exactly)."
  },
  {
   "property": "C35",
   "status": "proved",
   "theorems": [
    "C35_prestate",
    "C35_database_error"
   ],
   "note": ""
  },
  {
   "property": "C36",
   "status": "partial",
   "theorems": [
    "C36_refuted",
    "C36_diff_partial"
   ],
   "note": "The property as stated (accounts with nothing changed are absent) is refuted for an account whose code is in the database but was not loaded into the state map: its pre entry shows the code. Proved for all inputs: the exact pre/post entries of every account, judging code by what is attached to the account, and absence of unchanged accounts when the attached code is the database's."
  },
  {
   "property": "C37",
   "status": "proved",
   "theorems": [
    "C37_filter_exact_set"
   ],
   "note": ""
  },
  {
   "property": "C38",
   "status": "proved",
   "theorems": [
    "C38_setters",
    "C38_parity_config",
    "C38_geth_configs",
    "C38_presets"
   ],
   "note": ""
  },
  {
   "property": "C39",
   "status": "proved",
   "theorems": [
    "C39_memory_chunks"
   ],
   "note": ""
  },
  {
   "property": "C40",
   "status": "proved",
   "theorems": [
    "C40_access_list_exact"
   ],
   "note": ""
  },
  {
   "property": "C41",
   "status": "partial",
   "theorems": [
    "C41_refuted",
    "C41_request_kept_partial",
    "C41_unique_request_kept_partial"
   ],
   "note": "refuted: of several request entries for one address only the last is kept. Proved exactly for every request (the last entry of each address is kept); and for requests without repeated addresses nothing is lost"
  },
  {
   "property": "C42",
   "status": "partial",
   "theorems": [
    "C42_refuted",
    "C42_overflow_exact",
    "C42_counts_and_gas_partial",
    "C42_transaction_totals",
    "C42_ordinary_limits"
   ],
   "note": "Refuted for gas limits near 2^64: the gas a CALL hands on counts as its cost, so nested calls push the u64 total over 2^64 (an overflow: a panic in debug builds). C42_overflow_exact: this happens exactly when a total reaches 2^64, and C42_counts_and_gas_partial has the property otherwise; C42_ordinary_limits: not for instructions * gas limit below 2^64."
  },
  {
   "property": "C43",
   "status": "proved",
   "theorems": [
    "C43_fourbyte_counts",
    "C43_keys_never_collide",
    "C43_key_text"
   ],
   "note": ""
  },
  {
   "property": "C44",
   "status": "proved",
   "theorems": [
    "C44_opcount"
   ],
   "note": ""
  },
  {
   "property": "C45",
   "status": "proved",
   "theorems": [
    "C45_transfers_of_hooks",
    "C45_transfers_of_transaction"
   ],
   "note": ""
  },
  {
   "property": "C46",
   "status": "partial",
   "theorems": [
    "C46_refuted",
    "C46_transfers_took_effect_partial",
    "C46_effective_are_reported"
   ],
   "note": "refuted: transfers of frames that revert stay in the list. Partial: exact when no frame fails; and nothing effective is missing in general"
  },
  {
   "property": "C47",
   "status": "proved",
   "theorems": [
    "C47_mux_is_each_alone",
    "C47_keys"
   ],
   "note": ""
  },
  {
   "property": "C48",
   "status": "proved",
   "theorems": [
    "C48_accepts",
    "C48_errors"
   ],
   "note": ""
  },
  {
   "property": "C49",
   "status": "proved",
   "theorems": [
    "C49_rendering",
    "C49_each_once"
   ],
   "note": "any recorded history of one transaction, any later decoration whose internal calls are well nested, any start level that fits the u16 (in release builds an overflow would wrap, in the model it panics)"
  },
  {
   "property": "C50",
   "status": "proved",
   "theorems": [
    "C50_prefix"
   ],
   "note": "inner writer: accepts any number of bytes, then fails"
  },
  {
   "property": "C51",
   "status": "partial",
   "theorems": [
    "C51_refuted",
    "C51_level_partial"
   ],
   "note": "refuted: an error below the root leaves the indentation level incremented. Partial: restored on success and on flush failure; otherwise it is the level of the interrupted part"
  },
  {
   "property": "C52",
   "status": "proved",
   "theorems": [
    "C52_utf8"
   ],
   "note": "EIP-55 address text is an oracle assumed UTF-8"
  },
  {
   "property": "C53",
   "status": "proved",
   "theorems": [
    "C53_right_aligned",
    "C53_buffers",
    "C53_values"
   ],
   "note": "All buffers in every accepted form; the value is the big-endian number modulo 2^160 / 2^256."
  },
  {
   "property": "C54",
   "status": "partial",
   "theorems": [
    "C54_refuted",
    "C54_panics_refuted",
    "C54_slice_partial"
   ],
   "note": "Refuted: the end check is inverted (bindings.rs:277), so slice(0,16) of 32 bytes throws and slice(0,64) panics. Proved: ranges reaching the end of memory, and the rejected arguments. Every end beyond the memory panics."
  },
  {
   "property": "C55",
   "status": "partial",
   "theorems": [
    "C55_refuted",
    "C55_reads_partial",
    "C55_peek_any_length"
   ],
   "note": "Refuted only for offsets within 32 of 2^64 or infinite, where offset+32 overflows. stack.peek is proved for all numbers. Exactly those offsets panic."
  },
  {
   "property": "C56",
   "status": "partial",
   "theorems": [
    "C56_refuted",
    "C56_scopes_partial",
    "C56_nested"
   ],
   "note": "Refuted for tracers that define exit but not enter (can_call_exit looks at enter). Proved for all others; exit-only tracers are characterised exactly."
  },
  {
   "property": "C57",
   "status": "partial",
   "theorems": [
    "C57_refuted",
    "C57_partial"
   ],
   "note": "Refuted: register_precompiles returns early unless already registered, so it never registers. The lookup function itself is proved."
  },
  {
   "property": "C58",
   "status": "partial",
   "theorems": [
    "C58_refuted",
    "C58_accepted_partial",
    "C58_rejected"
   ],
   "note": "Refuted: a non-callable fault object is accepted (the result function is tested twice). The exact acceptance condition and, for each kind of error, exactly when it is reported are proved."
  },
  {
   "property": "C59",
   "status": "proved",
   "theorems": [
    "C59_guards",
    "C59_dead_reads"
   ],
   "note": "For every history and program: a handle is readable exactly during the invocation it was made for. Lengths captured at creation stay readable; they are not guarded."
  },
  {
   "property": "C60",
   "status": "partial",
   "theorems": [
    "C60_refuted",
    "C60_opcode_serde_partial"
   ],
   "note": "refuted: an opcode byte revm does not know deserializes as INVALID. Partial: identity on known opcodes"
  },
  {
   "property": "C61",
   "status": "proved",
   "theorems": [
    "C61_walk"
   ],
   "note": ""
  },
  {
   "property": "C62",
   "status": "partial",
   "theorems": [
    "C62_refuted",
    "C62_push_count_partial"
   ],
   "note": "refuted: TLOAD, BLOBHASH and BLOBBASEFEE push one word but the table says zero. Partial: all other defined opcodes"
  },
  {
   "property": "C63",
   "status": "partial",
   "theorems": [
    "C63_refuted",
    "C63_may_modify_memory_partial"
   ],
   "note": "refuted: KECCAK256, LOG* and CREATE* can grow memory. Partial: exact for content changes other than growth"
  },
  {
   "property": "C64",
   "status": "proved",
   "theorems": [
    "C64_ordering_chronological"
   ],
   "note": ""
  },
  {
   "property": "C65",
   "status": "proved",
   "theorems": [
    "C65_result"
   ],
   "note": ""
  },
  {
   "property": "C66",
   "status": "proved",
   "theorems": [
    "C66_hex_round_trip"
   ],
   "note": ""
  },
  {
   "property": "C67",
   "status": "partial",
   "theorems": [
    "C67_refuted",
    "C67_code_refuted",
    "C67_database_partial",
    "C67_word_bytes"
   ],
   "note": "Refuted for getState (reads only the database) and for getCode of code that is only in the journaled state. exists/getBalance/getNonce proved in full; getState and getCode are characterised exactly (the database's slot; the database's code of the account's hash)."
  },
  {
   "property": "C68",
   "status": "proved",
   "theorems": [
    "C68_steps"
   ],
   "note": ""
  },
  {
   "property": "C69",
   "status": "partial",
   "theorems": [
    "C69_refuted",
    "C69_faults_partial"
   ],
   "note": "Refuted: only reverts are reported, and only if step is defined. Exact characterisation proved."
  },
  {
   "property": "C70",
   "status": "partial",
   "theorems": [
    "C70_refuted",
    "C70_survives_partial",
    "C70_panics_exactly",
    "C70_reaction"
   ],
   "note": "Refuted: an enter callback that throws on a call reaches todo!(). Proved: exactly when a run panics (C70_panics_exactly); and the reaction to every other throw."
  },
  {
   "property": "C71",
   "status": "partial",
   "theorems": [
    "C71_refuted",
    "C71_exit_results_partial"
   ],
   "note": "Refuted: the error is never set. Gas and output proved."
  },
  {
   "property": "C72",
   "status": "partial",
   "theorems": [
    "C72_refuted",
    "C72_result_context_partial"
   ],
   "note": "Refuted for intrinsicGas (always 0); every other field proved."
  },
  {
   "property": "C73",
   "status": "partial",
   "theorems": [
    "C73_refuted",
    "C73_cost_partial"
   ],
   "note": "Refuted: getCost is the gas spent in the frame so far."
  },
  {
   "property": "C74",
   "status": "proved",
   "theorems": [
    "C74_parity_traces"
   ],
   "note": "Hypotheses: env_ok, final refund is a non-negative i64. A frame that ends with SELFDESTRUCT without announcement of the refund has an entry with zeros."
  },
  {
   "property": "C75",
   "status": "proved",
   "theorems": [
    "C75_top_call",
    "C75_call_tree"
   ],
   "note": "The placement of the synthetic SELFDESTRUCT frames is C28 (refuted); here they are removed, and absent if no frame selfdestructs."
  },
  {
   "property": "C76",
   "status": "proved",
   "theorems": [
    "C76_options_independent",
    "C76_parity_traces",
    "C76_call_frames",
    "C76_struct_logs"
   ],
   "note": ""
  },
  {
   "property": "C77",
   "status": "partial",
   "theorems": [
    "C77_refuted",
    "C77_numbers_partial"
   ],
   "note": "Refuted above 2^53 (getGas at 2^53+1); proved: nearest double always, exact up to 2^53 and for every value a double can hold."
  },
  {
   "property": "C78",
   "status": "proved",
   "theorems": [
    "C78_step_objects",
    "C78_fault_objects",
    "C78_enter_objects",
    "C78_exit_objects",
    "C78_properties"
   ],
   "note": "Vectors have at most usize::MAX elements (holdable). memory.slice is C54, getCode/getState are C67, getCost is C73, the missing exit error is C71. The opcode's text, the journaled state and the database are quantified functions."
  },
  {
   "property": "C79",
   "status": "partial",
   "theorems": [
    "C79_refuted",
    "C79_context_partial"
   ],
   "note": "Refuted: ctx.time is a string. Everything else proved; gas price and block number below 2^64; intrinsicGas is C72."
  },
  {
   "property": "C80",
   "status": "partial",
   "theorems": [
    "C80_refuted",
    "C80_return_data_partial"
   ],
   "note": "Refuted: every log of a frame shows the frame's final output. That is proved as the partial theorem."
  },
  {
   "property": "C81",
   "status": "proved",
   "theorems": [
    "C81_struct_logs"
   ],
   "note": "Which changes an SLOAD/SSTORE reports is the newest journal entry (C08 refutes that it is always the instruction's own); CallOrCreate counts as an error (C34). Memory up to trailing zeros is C07. evm_calls, evm_memory: EVM facts about calls following call opcodes and who writes memory."
  },
  {
   "property": "C82",
   "status": "proved",
   "theorems": [
    "C82_vm_trace",
    "C82_root_instructions"
   ],
   "note": "vm_trace for every configuration and every execution, as the queue discipline over finished frames; C82_root_instructions is the instruction-wise reading for the root frame. env_ok and evm_memory are the EVM facts of SpecExec."
  },
  {
   "property": "C83",
   "status": "partial",
   "theorems": [
    "C83_refuted",
    "C83_memory_partial"
   ],
   "note": "Refuted: the record shows the whole memory before the instruction with its own length as the offset (C83_refuted). C83_memory_partial states exactly what is shown."
  },
  {
   "property": "C84",
   "status": "partial",
   "theorems": [
    "C84_refuted",
    "C84_codes_partial",
    "C84_level_order"
   ],
   "note": "Refuted: a creation shows the code the database has at the new address (none) instead of its init code. Partial: with the nesting conditions of C23, every trace shows the database's code of its frame's recorded address (the code address for delegate calls). In general (C84_level_order): only codes are filled in, and the traces in level order show the database's codes of the frames in level order."
  },
  {
   "property": "C85",
   "status": "proved",
   "theorems": [
    "C85_append_only",
    "C85_interrupted",
    "C85_unended",
    "C85_unended_instruction"
   ],
   "note": "C85_append_only holds for every state and every hook sequence; C85_interrupted for every prefix of the hooks of an execution."
  },
  {
   "property": "C86",
   "status": "proved",
   "theorems": [
    "C86_final_once_ended"
   ],
   "note": ""
  },
  {
   "property": "C87",
   "status": "proved",
   "theorems": [
    "C87_reuse",
    "C87_reusable"
   ],
   "note": ""
  },
  {
   "property": "C88",
   "status": "proved",
   "theorems": [
    "C88_contract_addresses"
   ],
   "note": "Address derivation itself (keccak) is a parameter. Nonces above 2^64 - 1 saturate and negative ones count as zero; the theorem gives the exact answer for the others."
  },
  {
   "property": "C89",
   "status": "proved",
   "theorems": [
    "C89_revert_reasons"
   ],
   "note": "Synthetic selfdestruct frames (never with a reason, C28) are left out of the list. ABI decoding itself is a parameter."
  },
  {
   "property": "C90",
   "status": "proved",
   "theorems": [
    "C90_recordings_agree",
    "C90_parity_and_geth_agree"
   ],
   "note": "Synthetic selfdestruct frames, whose placement is C28, are left out."
  },
  {
   "property": "C91",
   "status": "proved",
   "theorems": [
    "C91_steps_agree"
   ],
   "note": "The JavaScript run is one that does not abort the host (C70)."
  },
  {
   "property": "C92",
   "status": "proved",
   "theorems": [
    "C92_results"
   ],
   "note": "The state is a map (no duplicate addresses or slots), as in C25."
  },
  {
   "property": "C93",
   "status": "partial",
   "theorems": [
    "C93_refuted",
    "C93_callee_partial"
   ],
   "note": "Refuted: SELFDESTRUCT overwrites the address of the running frame, so a DELEGATECALL/CALLCODE whose code selfdestructs reports the destroyed contract as its callee. Proved for every other frame, and exactly what those frames report."
  },
  {
   "property": "C94",
   "status": "partial",
   "theorems": [
    "C94_refuted",
    "C94_destroyed_partial",
    "C94_announced_refuted"
   ],
   "note": "Refuted: the from of a geth SELFDESTRUCT frame is the caller of the destroyed contract; and a SELFDESTRUCT the EVM does not announce to inspectors (one that moves nothing since EIP-6780) is reported by parity traces as a refund of zero to the zero address. Everything else proved; placement is C28."
  },
  {
   "property": "C95",
   "status": "partial",
   "theorems": [
    "C95_refuted",
    "C95_scopes_partial"
   ],
   "note": "Refuted: a DELEGATECALL's value is shown to the tracer as zero while the call tree shows the inherited value. Proved for everything else; the called account of delegated frames up to C93. The missing exit error is C71."
  },
  {
   "property": "C96",
   "status": "proved",
   "theorems": [
    "C96_words_are_exact",
    "C96_texts_are_read",
    "C96_texts_are_exact",
    "C96_one_numeral"
   ],
   "note": "Texts with an exponent or a point are covered by C116, other bases by C106 and C117."
  },
  {
   "property": "C97",
   "status": "proved",
   "theorems": [
    "C97_addition",
    "C97_comparison"
   ],
   "note": ""
  },
  {
   "property": "C98",
   "status": "proved",
   "theorems": [
    "C98_multiplication"
   ],
   "note": ""
  },
  {
   "property": "C99",
   "status": "proved",
   "theorems": [
    "C99_division",
    "C99_quotient"
   ],
   "note": ""
  },
  {
   "property": "C100",
   "status": "partial",
   "theorems": [
    "C100_bitwise",
    "C100_refuted",
    "C100_shifts_partial"
   ],
   "note": "Refuted: a shift count that is a bigint is always refused (a SmallInteger is not instanceof BigInteger), so bigint(1).shiftLeft(bigint(1)) throws. Proved for every shift by a number; the bitwise functions are proved in full."
  },
  {
   "property": "C101",
   "status": "partial",
   "theorems": [
    "C101_refuted",
    "C101_no_nodes_partial",
    "C101_no_transaction"
   ],
   "note": "Refuted: with the vm trace asked for, into_trace_results_with_state on an empty node list panics, because the breadth-first walk starts at node 0 unconditionally. Everything else is proved, including for reset inspectors."
  },
  {
   "property": "C102",
   "status": "proved",
   "theorems": [
    "C102_powers"
   ],
   "note": "Math.pow is an oracle, assumed exact below 2^53 and at least 2^53 above."
  },
  {
   "property": "C103",
   "status": "partial",
   "theorems": [
    "C103_refuted",
    "C103_mod_pow_partial"
   ],
   "note": "Refuted: bigint(5).modPow(0, 1) is 1, not 0. Proved for every positive exponent; exponents up to zero give 1, negative ones included."
  },
  {
   "property": "C104",
   "status": "partial",
   "theorems": [
    "C104_refuted",
    "C104_mod_inv_partial",
    "C104_any_modulus_partial"
   ],
   "note": "Refuted: bigint(2).modInv(-3) throws though 2 is its own inverse modulo 3. Proved for every positive modulus; for the others, every answer is an inverse and the answers given are characterised exactly (a negative modulus answers exactly when Euclid's algorithm on the absolute values divides an odd number of times)."
  },
  {
   "property": "C105",
   "status": "proved",
   "theorems": [
    "C105_divisors"
   ],
   "note": ""
  },
  {
   "property": "C106",
   "status": "partial",
   "theorems": [
    "C106_refuted",
    "C106_texts_partial",
    "C106_short_texts",
    "C106_round_trip"
   ],
   "note": "Refuted: short texts go to parseInt, which ignores what follows the last digit, so bigint(\"1-2\", 16) is 1. Proved: every numeral is read rightly, foreign letters and digits are refused, long texts are read only if numerals, toString(radix) round trips."
  },
  {
   "property": "C107",
   "status": "partial",
   "theorems": [
    "C107_exact",
    "C107_refuted",
    "C107_primes_partial"
   ],
   "note": "Refuted: isPrime says true of 341550071728321 = 10670053 * 32010157. Proved: both tests end and never call a prime composite (Fermat's little theorem, square roots of 1 modulo a prime), and are right below 25 and for multiples of 2, 3 and 5. C107_exact: for every other number the answer is Miller's test for the bases 2, 3, 5, 7, 11, 13, 17 and 19, no more and no less."
  },
  {
   "property": "C108",
   "status": "proved",
   "theorems": [
    "C108_random"
   ],
   "note": "Math.random is an oracle: a drawn digit is below its bound."
  },
  {
   "property": "C109",
   "status": "partial",
   "theorems": [
    "C109_refuted",
    "C109_all_partial",
    "C109_none"
   ],
   "note": "Refuted: all() leaves record_state_diff off, so storage changes are not recorded. Proved for everything else, and for none(); no hypothesis on the execution."
  },
  {
   "property": "C110",
   "status": "partial",
   "theorems": [
    "C110_reports_partial",
    "C110_refuted"
   ],
   "note": "Refuted: a contract destroyed with the balance, nonce and slots it had is listed by the parity diff with everything unchanged and left out by the geth diff. Proved for all other accounts, with the exact answer for those. Hypothesis `executed`: facts about the state maps an EVM leaves."
  },
  {
   "property": "C111",
   "status": "proved",
   "theorems": [
    "C111_selectors"
   ],
   "note": "Frames that only report a selfdestruct are left out of the tree first (without_selfdestructs)."
  },
  {
   "property": "C112",
   "status": "proved",
   "theorems": [
    "C112_transfers"
   ],
   "note": "Hypothesis evm_schemes: EVM facts on which call schemes carry value. Both failing and succeeding frames count: neither list is filtered by success."
  },
  {
   "property": "C113",
   "status": "proved",
   "theorems": [
    "C113_callers"
   ],
   "note": "Excluded precompile calls count."
  },
  {
   "property": "C114",
   "status": "proved",
   "theorems": [
    "C114_tree_any_session",
    "C114_fuse_any_session",
    "C114_unconcerned_options",
    "C114_careful_changes",
    "C114_careless_panics"
   ],
   "note": "Careless changes do harm: C114_careless_panics, a panic when step recording is switched on within an instruction; C114_careless_mixes shows a wrong record without panic."
  },
  {
   "property": "C115",
   "status": "partial",
   "theorems": [
    "C115_error_words_refuted",
    "C115_error_words_partial"
   ],
   "note": "Refuted: geth_empty_call_frame asks as_error_msg for TraceStyle::Parity, so a reverted call says \"Reverted\". Proved: an error is present exactly for unsuccessful calls and names the outcome in parity's words."
  },
  {
   "property": "C116",
   "status": "partial",
   "theorems": [
    "C116_refuted",
    "C116_texts_partial",
    "C116_same_reading",
    "C116_numbers",
    "C116_numbers_refuted",
    "C116_digits"
   ],
   "note": "Refuted for texts that JavaScript reads as no number: \"12345e\" makes an improper object of 45 instead of an error; and for numbers of 2^53 and more, which are read through their shortest text. Proved: every text of an integer, with or without point and exponent, is read exactly (an exponent beyond the size of arrays is refused), texts without exponent that are not digits are refused, numbers are read as an integer that rounds to them (exactly below 2^53), lists of digits have their positional value. What +text and number.toString() give is quantified over, assumed to round to nearest and to round back."
  },
  {
   "property": "C117",
   "status": "partial",
   "theorems": [
    "C117_refuted",
    "C117_writes_partial",
    "C117_huge_radix_partial",
    "C117_reads",
    "C117_round_trip",
    "C117_agrees"
   ],
   "note": "Refuted for digits of 2^53 and more, which are written as limbs in memory order: 10^19 in radix 10^20 is <0,0,100000>. Proved for all integers and radixes of absolute value from 2 up to 2^53, for radixes 1 and -1 up to 2^32-2 (and 2^32-1 in radix -1; an exception for all others) and for radix 0 (only zero is written); for larger radixes the digits are proved right, with those of 2^53 and more shown as limbs; reading proved for every radix but 0 and all texts."
  },
  {
   "property": "C118",
   "status": "proved",
   "theorems": [
    "C118_written",
    "C118_other_options"
   ],
   "note": "For executions without decorations added by the user (C49 covers those). Addresses are written by an arbitrary checksum function; call depths fit into the writer's 16-bit level, as EVM depths do."
  },
  {
   "property": "C119",
   "status": "proved",
   "theorems": [
    "C119_access_list_of_trace"
   ],
   "note": "Composition of C40 (access list of a hook history) with C06 (steps recorded for every frame)."
  },
  {
   "property": "C120",
   "status": "partial",
   "theorems": [
    "C120_shown_exactly",
    "C120_only_removed_partial",
    "C120_refuted",
    "C120_precompiles_refuted"
   ],
   "note": "Refuted: sub-calls are matched with recorded call instructions by position, so a filter without DELEGATECALL, or leaving out precompile calls, moves the lines of a sub-call to another instruction and drops others. Proved: exactly which lines are shown for every configuration (C120_shown_exactly), and the property for filters that ask for every call and create instruction with no calls left out."
  },
  {
   "property": "C121",
   "status": "partial",
   "theorems": [
    "C121_own_code_partial",
    "C121_nested_partial",
    "C121_refuted",
    "C121_stop_refuted"
   ],
   "note": "Refuted: the vm trace gives sub-traces to the wrong call instructions when a later sub-call makes calls itself (C23), and is empty when the last code entered is a single STOP. Proved for every configuration: the instructions of the transaction's own code agree with the lines of depth 1, and all instructions agree when only the first sub-call of each frame makes calls and the shortcut does not apply."
  },
  {
   "property": "C122",
   "status": "partial",
   "theorems": [
    "C122_modes_agree",
    "C122_replay_partial",
    "C122_refuted",
    "C122_funded_refuted"
   ],
   "note": "Refuted in two ways: a contract destroyed without any other change, and a funded address where a contract is created and destroyed in one transaction, are in neither map of the diff, so a reader takes them for unchanged. Proved: the two modes agree (C122_modes_agree), the replay is exact for every account that is not destroyed and for every other destroyed account, and for the two kinds it is right exactly if there was no account before (C122_replay_partial)."
  },
  {
   "property": "C123",
   "status": "proved",
   "theorems": [
    "C123_readable",
    "C123_recordings"
   ],
   "note": "Not shown, so not in the text: create or create2, the value and init code of a creation, the emitter of a log, the steps. Addresses are shown by their EIP-55 checksum, an oracle that is 0x and forty characters and tells addresses below 2^160 apart."
  },
  {
   "property": "C124",
   "status": "partial",
   "theorems": [
    "C124_apply_partial",
    "C124_refuted",
    "C124_funded_refuted"
   ],
   "note": "Refuted in two ways: a destroyed contract is never reported as removed, so its nonce, code and slots seem to stay; and a contract created at an address with a balance is reported as added, so backwards that balance is lost. Proved: both directions for all other accounts, and what a reader gets for those (C124_apply_partial). Nonces not going down and the slots of new accounts starting at zero are hypotheses about the EVM (evm_accounts), as in C122."
  },
  {
   "property": "C125",
   "status": "partial",
   "theorems": [
    "C125_result_partial",
    "C125_one_kind",
    "C125_bigint",
    "C125_refuted",
    "C125_no_crash_refuted"
   ],
   "note": "Refuted in two ways: serde_json refuses values nested 128 deep or more (a tracer nesting the calls of a transaction gets there with 64 calls), so the caller gets an error; and a value such as {a: undefined, b: 1n}, which JSON.stringify refuses, reaches boa's to_json, where undefined is a todo!, so the node panics. Also texts with half a surrogate pair are refused. Proved for every other value, with writing and reading of JSON text modelled in full (C125_result_partial, C125_bigint). Relies on ECMA-262's JSON.stringify, serde_json's reader with its default depth limit and boa 0.18's to_json as described in JsJson.v."
  },
  {
   "property": "C126",
   "status": "proved",
   "theorems": [
    "C126_added",
    "C126_transactions",
    "C126_parity",
    "C126_not_written"
   ],
   "note": "Exact description of the recording (SpecReuse.added) by a simulation between the reused inspector and a new one; the consequence for parity traces for every history; C126_not_written shows that the writer never succeeds on such recordings (C126_example: it panics)."
  },
  {
   "property": "C127",
   "status": "proved",
   "theorems": [
    "C127_accepted",
    "C127_otherwise",
    "C127_transactions"
   ],
   "note": "Exact characterisation (SpecAccepted.accepted) by a state with the depth of the latest call, the values of the open calls and the instructions begun; the invariant is the length of the path of last children. Histories in which a top-level call starts inside another are not covered (the root's steps are then overwritten while they may still be referred to)."
  },
  {
   "property": "C128",
   "status": "partial",
   "theorems": [
    "C128_shown_exactly",
    "C128_given_partial",
    "C128_refuted"
   ],
   "note": "Refuted in its last part: data that is neither Error(string) nor Panic(uint256) is shown as text if it is valid UTF-8, so a call reverting with the byte 0x2a shows the reason *. Proved: reasons given are shown as given, and exactly what is shown for every output, malformed encodings and strings that are not UTF-8 included (C128_shown_exactly). alloy's GenericRevertReason::decode is modelled (RevertReason.v) as it works without validation; only the printed text of Panic codes is left open."
  },
  {
   "property": "C129",
   "status": "partial",
   "theorems": [
    "C129_refuted",
    "C129_parents_refuted",
    "C129_recorded_exactly",
    "C129_no_calls_partial",
    "C129_top_level"
   ],
   "note": "Refuted: a call made by the init code of an EOFCREATE panics (Disconnected trace), or is recorded as a call of one that has ended. Proved: exactly which executions are recorded (no call starts more than one level below the latest one); if the init codes make no calls, the record is that of the execution in which the caller executes them itself, but for the depths of the instructions, and the parents are right; a transaction that is itself an EOF creation panics at its first instruction if instructions are recorded."
  },
  {
   "property": "C130",
   "status": "partial",
   "theorems": [
    "C130_refuted",
    "C130_unended_partial",
    "C130_ended",
    "C130_frames"
   ],
   "note": "Refuted for the calls that had not ended: they keep the status Continue, which counts as a success, so that the Parity traces show a success without output that used no gas (for a creation: with the new address), and the call tracer shows no error. Proved: exactly that; the struct log trace is marked as failed; the records of ended calls, and their entries in the Parity traces, are final. The call tracer's frames of ended calls are final as well, except that their logs are taken away if a caller fails later (C130_frames)."
  },
  {
   "property": "C131",
   "status": "proved",
   "theorems": [
    "C131_called",
    "C131_guards",
    "C131_kept",
    "C131_received"
   ],
   "note": "The context object is that of C79 and the value's way to the caller that of C125, where the deviations are; this claim adds when and with what the function is called, and that its objects die. The script is a function of the calls made so far; what toJSON methods of its value do is part of the value."
  },
  {
   "property": "C132",
   "status": "partial",
   "theorems": [
    "C132_refuted",
    "C132_top_level",
    "C132_shown_partial",
    "C132_runs",
    "C132_transfers",
    "C132_counts"
   ],
   "note": "Refuted for the contract: no inspector implements the eofcreate hooks, so the instructions of an init code are shown with the contract of the innermost announced call (log.contract is the creator), and there is no enter or exit for the creation. A transaction that is itself such a creation makes a tracer with step panic (C132_top_level). Proved: exactly what is shown, that nothing else stops a tracer, the counts, and the transfers listed; the endowment of an EOFCREATE is not listed. The access list, the four-byte inspector and the opcode counter are proved for arbitrary hook sequences (C40, C43, C44)."
  },
  {
   "property": "C133",
   "status": "proved",
   "theorems": [
    "C133_lines"
   ],
   "note": "For configurations that record every step and leave no call out, as C31: with an opcode filter that drops the call instructions the lines of calls move (C120)."
  },
  {
   "property": "C134",
   "status": "proved",
   "theorems": [
    "C134_transfers",
    "C134_access_list",
    "C134_selectors",
    "C134_opcode_gas",
    "C134_opcount",
    "C134_script_calls"
   ],
   "note": "For the tracing inspector this is C85 and C86. What the inspectors other than the script's report at each point is C40 and C42-C45, which are about every sequence of hook calls."
  },
  {
   "property": "C135",
   "status": "proved",
   "theorems": [
    "C135_written",
    "C135_complete",
    "C135_prefix",
    "C135_last_lines"
   ],
   "note": "The text of each part is that of C49; which calls are left out is C15. For complete transactions C118 gives the text from the execution; C135_complete relates it to the order of the hook calls."
  },
  {
   "property": "C136",
   "status": "proved",
   "theorems": [
    "C136_added",
    "C136_transactions",
    "C136_reports"
   ],
   "note": "By a simulation between the reused inspector and a new one, as C126. With fuse in between nothing of this happens: C12 holds for every history. The top-level call must be a plain CALL or a creation, as revm makes it."
  },
  {
   "property": "C137",
   "status": "partial",
   "theorems": [
    "C137_refuted",
    "C137_opcodes_partial",
    "C137_same_reports",
    "C137_lossless",
    "C137_again"
   ],
   "note": "Refuted as first stated (every report is the same): an opcode unknown to revm comes back as INVALID in the struct logs and the vm trace. The exact difference is proved for every list of nodes. Assumed: the derived (de)serialisation of all fields other than the opcode is faithful."
  },
  {
   "property": "C138",
   "status": "partial",
   "theorems": [
    "C138_refuted",
    "C138_lost_partial",
    "C138_adds_up",
    "C138_transaction",
    "C138_steps"
   ],
   "note": "Refuted in the last sentence: a call that fails other than by a revert loses all its gas to its caller but is recorded with the gas it had used when it failed (revm leaves the rest in the outcome it passes to call_end). Proved for all other calls; for those, what is missing is exactly the gas they had left. How gas moves in revm is stated in SpecGasFlow.v; it is a hypothesis."
  },
  {
   "property": "C139",
   "status": "proved",
   "theorems": [
    "C139_lines",
    "C139_same_call",
    "C139_caller",
    "C139_gas",
    "C139_cut_off"
   ],
   "note": "evm_calls (a call instruction enters its call right away) and, for the gas, gas_flows are facts about revm. Filters and left-out precompile calls are C120."
  },
  {
   "property": "C140",
   "status": "proved",
   "theorems": [
    "C140_entries",
    "C140_nesting",
    "C140_block",
    "C140_enclosing"
   ],
   "note": "Holds also when selfdestruct entries come before the entries of the calls made earlier by the same frame (C21)."
  },
  {
   "property": "C141",
   "status": "partial",
   "theorems": [
    "C141_refuted",
    "C141_transfers_partial",
    "C141_parity",
    "C141_call_tree_refuted",
    "C141_call_tree_partial",
    "C141_state_diff"
   ],
   "note": "Refuted for TransferInspector: transfers of calls that are reverted stay in its list; proved for it when no call fails. Refuted for the geth call tree: the frame of a SELFDESTRUCT names the caller of the destroyed contract as the payer; proved for it without SELFDESTRUCT. Proved for the parity traces and the state diff without restriction. Hypotheses: EVM facts on call schemes, addresses, one SELFDESTRUCT per frame, none by precompiles."
  },
  {
   "property": "C142",
   "status": "partial",
   "theorems": [
    "C142_created",
    "C142_call_tree",
    "C142_destroyed_refuted",
    "C142_destroyed_partial",
    "C142_state_diff"
   ],
   "note": "Refuted for selfdestructs: one that destroys nothing and that the EVM does not announce is listed with zeros; proved when the EVM announces every SELFDESTRUCT. Proved for creates and the state diff. Hypotheses: EVM facts on returned addresses, at most one SELFDESTRUCT per frame, none by precompiles."
  },
  {
   "property": "C143",
   "status": "partial",
   "theorems": [
    "C143_refuted",
    "C143_changes_partial",
    "C143_slots_partial",
    "C143_state_diff_partial"
   ],
   "note": "Refuted: an SSTORE that changes nothing is recorded with the newest change in the journal, which can be one of another contract. Proved exactly (list equality) when no such SSTORE finds a change as the newest journal entry, and for what every slot is left with, and the state diff, when it finds only changes of its own account (own_leftovers). Hypotheses: EVM facts (SSTORE changes the executing account; precompiles run no instructions)."
  },
  {
   "property": "C144",
   "status": "partial",
   "theorems": [
    "C144_recorded",
    "C144_refuted",
    "C144_call_tree_partial",
    "C144_failed_call_tree",
    "C144_order_refuted"
   ],
   "note": "The recorded calls give the receipt's logs exactly. For the call tree refuted when the transaction fails (the root keeps its logs) and proved, as a permutation, when it succeeds; C144_order_refuted shows that the order is lost. Hypotheses: EVM facts (a log carries the address of the executing account; precompiles emit no logs)."
  },
  {
   "property": "C145",
   "status": "partial",
   "theorems": [
    "C145_balances",
    "C145_slots_refuted",
    "C145_slots_partial",
    "C145_diff_balances",
    "C145_diff_created_balances",
    "C145_diff_created",
    "C145_diff_slots_partial"
   ],
   "note": "Balances and creations proved in full (creations: every SELFDESTRUCT announced, see C142; diff balances for accounts that are not destroyed). Slots refuted because of the stale changes of C143, and proved if an SSTORE without effect only repeats a change of its own call that is still in effect."
  },
  {
   "property": "C146",
   "status": "partial",
   "theorems": [
    "C146_refuted",
    "C146_parity_partial",
    "C146_call_tree"
   ],
   "note": "Refuted for a SELFDESTRUCT that the EVM does not announce, which the parity traces list with a refund to account zero; proved when the EVM announces every SELFDESTRUCT. Proved for the calls of the geth call tree (its SELFDESTRUCT frames are C94). A create that failed other than by a revert is not counted as naming an account: the call tree shows the address it would have had. Hypothesis: EVM facts on which accounts an execution loads."
  },
  {
   "property": "C147",
   "status": "partial",
   "theorems": [
    "C147_geth",
    "C147_reports_partial",
    "C147_addresses",
    "C147_call_tree",
    "C147_refuted",
    "C147_text_refuted",
    "C147_text_partial"
   ],
   "note": "Refuted for an edit that clears the precompile flag of a call that was recorded as a hidden call of a precompile: the call is in no list of children and the parity traces panic. Proved for all edits that clear no precompile flag, and for the geth reports and the vm trace for all edits; the trace addresses are proved for edits that keep the flags. The text is refuted for edits that drop logs or steps and leave their entries in the member ordering (the writer indexes out of bounds), and proved when the edited ordering still names the logs, calls and steps of the call, the decoded internal calls are nested and the levels fit into a u16. The edit is any list of nodes with the same links."
  },
  {
   "property": "C148",
   "status": "proved",
   "theorems": [
    "C148_reports"
   ],
   "note": "No hypothesis on the arena. The text writer does show decorations (C49)."
  },
  {
   "property": "C149",
   "status": "proved",
   "theorems": [
    "C149_value",
    "C149_delegate_value",
    "C149_parity",
    "C149_call_tree",
    "C149_call_tree_logs"
   ],
   "note": "For calls whose reported value is the one they were made with: proved of all calls other than delegate calls (C149_value), and of delegate calls when the EVM gives them the value of the call around them (C149_delegate_value). SELFDESTRUCT frames are C28. The logs of failed calls are hidden below the top call (C29), so C149_call_tree_logs is about kept calls."
  },
  {
   "property": "C150",
   "status": "proved",
   "theorems": [
    "C150_struct_logs"
   ],
   "note": "Refund counters are compared for executions where they are not negative. Storage is the one field that may say more inside the transaction, as slots seen before the call are shown too (C32)."
  },
  {
   "property": "C151",
   "status": "proved",
   "theorems": [
    "C151_text"
   ],
   "note": "For calls whose reported value is the one they were made with (C149_value, C149_delegate_value), and indentation levels that fit 16 bits."
  },
  {
   "property": "C152",
   "status": "proved",
   "theorems": [
    "C152_callbacks"
   ],
   "note": "For runs that no script cut short, and transactions in the same environment (spec, gas limit, precompiles); a script that throws is C70."
  },
  {
   "property": "C153",
   "status": "proved",
   "theorems": [
    "C153_recording"
   ],
   "note": "For calls whose reported value is the one they were made with (C149_value, C149_delegate_value), in the same environment (spec, gas limit, precompiles)."
  },
  {
   "property": "C154",
   "status": "proved",
   "theorems": [
    "C154_opcodes",
    "C154_instructions",
    "C154_selectors",
    "C154_transfers"
   ],
   "note": "For the opcode gas inspector, on runs without overflow of its counters (C42 says when that is)."
  }
 ]
}