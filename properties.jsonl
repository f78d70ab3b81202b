{"id": "C01", "title": "Recorded arena is the executed call tree", "statement": "After the hooks of any complete transaction have been delivered to TracingInspector, traces().nodes() holds exactly one node per executed call/create frame, in the order the frames were entered; node i's parent is the frame that executed the call, its depth is the frame's nesting depth, its idx is i, and no hook panicked.", "quantifier": "every configuration, every finite well-nested execution (any number of frames, any depth, any interleaving of opcodes, logs, selfdestructs and subcalls)", "why_tests_cant": "the shape and size of the call tree is unbounded; tests only fix a few contracts", "anchors": ["src/tracing/mod.rs: TracingInspector::{call,call_end,create,create_end,start_trace_on_call,fill_trace_on_call_end}", "src/tracing/arena.rs: CallTraceArena::push_trace"]}
{"id": "C02", "title": "Arena stays a well-formed tree under any hook sequence", "statement": "Whatever sequence of Inspector hooks is delivered, even ill-nested ones, as long as no hook panics: nodes()[i].idx = i, node 0 has no parent and depth 0, every other node has a parent with a smaller index and depth one less, and each node's children list is exactly the ascending list of the nodes that name it as parent and are not excluded precompile calls. Looking up the parent always terminates.", "quantifier": "every finite sequence of hook calls with arbitrary arguments, starting from a new or fused inspector", "why_tests_cant": "the hook sequence is adversarial and unbounded", "anchors": ["src/tracing/arena.rs: push_trace", "src/tracing/mod.rs: impl Inspector for TracingInspector"]}
{"id": "C03", "title": "Each node carries its own frame's data", "statement": "In the final arena each node's caller, callee address, call kind, value, input and gas limit are those of the frame's start hook (root: gas limit is the transaction's), and its status, success flag, output and gas used are those of the same frame's end hook; a create's address is the address returned by create_end; a frame that ran SELFDESTRUCT has the destroyed contract as address and the refund target and amount recorded. No other frame's data leaks in.", "quantifier": "every configuration, every well-nested execution, every frame of it", "why_tests_cant": "mixing up frames only shows in particular nestings; all nestings must be covered", "anchors": ["src/tracing/mod.rs: start_trace_on_call, fill_trace_on_call_end, selfdestruct, call, create"]}
{"id": "C04", "title": "Member ordering enumerates logs, calls and steps exactly once", "statement": "In every node, ordering restricted to Log entries is Log(0),Log(1),...,Log(logs.len()-1), restricted to Call entries is Call(0..children.len()), restricted to Step entries is Step(0..steps.len()); nothing is missing, duplicated or out of range.", "quantifier": "every finite hook sequence, every node, every reachable state", "why_tests_cant": "depends on arbitrary interleavings of hooks", "anchors": ["src/tracing/mod.rs: log, start_step", "src/tracing/arena.rs: push_trace", "src/tracing/types.rs: TraceMemberOrder"]}
{"id": "C05", "title": "Logs are attributed to the executing frame, in order", "statement": "With record_logs on, each node's logs are exactly the logs emitted while that frame (not a subframe) was executing, in emission order; with record_logs off no node has logs.", "quantifier": "every configuration, every well-nested execution", "why_tests_cant": "interleaving of logs with subcalls is unbounded", "anchors": ["src/tracing/mod.rs: Inspector::log", "src/tracing/types.rs: CallLog"]}
{"id": "C06", "title": "Every executed opcode is recorded exactly once in its frame", "statement": "With record_steps on, the steps of each node are, in order, exactly the opcodes executed in that frame that pass the opcode filter (all of them when no filter is set), each with the pc, opcode, depth, contract, remaining gas and refund counter before the instruction and with the status and gas cost (remaining before minus remaining after, never negative) after it; with record_steps off there are none.", "quantifier": "every configuration, every opcode filter, every well-nested execution", "why_tests_cant": "unbounded programs and filters", "anchors": ["src/tracing/mod.rs: start_step, fill_step_on_step_end", "src/tracing/config.rs: should_record_opcode"]}
{"id": "C07", "title": "Memory snapshots equal the memory before each step", "statement": "With memory snapshots on, the memory recorded for a step is the frame's memory at the moment the step was about to execute, although snapshots are shared between steps when the previous opcode is classified as not modifying memory.", "quantifier": "every well-nested execution that obeys the EVM's memory semantics", "why_tests_cant": "the reuse optimisation is only wrong for particular opcode sequences", "anchors": ["src/tracing/mod.rs: start_step", "src/opcode.rs: may_modify_memory"]}
{"id": "C08", "title": "A recorded storage change is about the slot the step accessed", "statement": "With state diff recording on, a SLOAD/SSTORE step's storage_change, when present, names a change performed by that very step (same contract, same key).", "quantifier": "every execution whose journal evolves as revm's does", "why_tests_cant": "needs adversarial ordering of warm loads, no-op stores and subcalls", "anchors": ["src/tracing/mod.rs: fill_step_on_step_end"]}
{"id": "C09", "title": "Push snapshots never crash the tracer and hold the top of the stack", "statement": "In Pushes mode, step_end never panics, and push_stack is the topmost stack_push_count(op) items of the stack after the instruction.", "quantifier": "every opcode, every stack after the instruction, including failed instructions", "why_tests_cant": "needs stacks shallower than the opcode's push count, reached only by failing bytecode", "anchors": ["src/tracing/mod.rs: fill_step_on_step_end", "src/tracing/builder/parity.rs: stack_push_count"]}
{"id": "C10", "title": "Gas used is refund-capped and never underflows", "statement": "For every spec, spent and refund value, the root trace's gas used is spent minus the refund capped at a fifth (London and later) or a half (earlier) of spent; it is never negative, never more than spent, never less than spent minus that cap; every non-root node's gas used is exactly the gas spent by its frame.", "quantifier": "all specs, all u64 spent values, all refunds", "why_tests_cant": "arithmetic over the whole u64 range", "anchors": ["src/tracing/utils.rs: gas_used", "src/tracing/mod.rs: fill_trace_on_call_end, start_step"]}
{"id": "C11", "title": "A negative refund counter is treated as no refund", "statement": "A step or root frame whose refund counter is negative reports gas used equal to gas spent and does not report a huge refund counter.", "quantifier": "all i64 refund counters", "why_tests_cant": "sign-cast edge case inside subframes", "anchors": ["src/tracing/mod.rs: start_step (`refunded() as u64`), fill_trace_on_call_end"]}
{"id": "C12", "title": "fuse() makes the inspector as good as new", "statement": "After any history, fuse() leaves the inspector in the same observable state as TracingInspector::new(config) with the current config, so any later history produces identical results to a fresh inspector.", "quantifier": "every prior hook history, every later hook history", "why_tests_cant": "histories are unbounded", "anchors": ["src/tracing/mod.rs: fuse, fused, new", "src/tracing/arena.rs: clear"]}
{"id": "C13", "title": "Inspectors never alter execution", "statement": "For every hook and argument, TracingInspector, FourByteInspector, OpcodeCountInspector, OpcodeGasInspector, AccessListInspector, TransferInspector and MuxInspector return None from call/create, return the outcome unchanged from call_end/create_end, and leave inputs and interpreter unchanged.", "quantifier": "every inspector state, every hook, every argument", "why_tests_cant": "universally quantified over states and arguments", "anchors": ["src/tracing/mod.rs", "src/transfer.rs", "src/access_list.rs", "src/opcode.rs", "src/tracing/fourbyte.rs", "src/tracing/opcount.rs", "src/tracing/mux.rs"]}
{"id": "C14", "title": "Delegate calls report the inherited value", "statement": "A DELEGATECALL node's value is the value of the frame that executed it, for any chain of nested delegate calls; when the EVM supplies the frame's own call value as apparent value, the node's value always equals the call's apparent value.", "quantifier": "every chain of nested frames", "why_tests_cant": "arbitrary delegate nesting", "anchors": ["src/tracing/mod.rs: Inspector::call, active_trace"]}
{"id": "C15", "title": "Excluded precompile calls leave no trace in the call graph", "statement": "With exclude_precompile_calls on, a zero-value non-root call to a precompile appears in no node's children or ordering, in no parity trace, and shifts no sibling's trace address or subtrace count; every other call, including a value-carrying precompile call and a root call to a precompile, is kept.", "quantifier": "every execution and set of precompile addresses", "why_tests_cant": "arbitrary interleavings with ordinary calls", "anchors": ["src/tracing/mod.rs: is_precompile_call, start_trace_on_call", "src/tracing/builder/parity.rs: iter_traceable_nodes"]}
{"id": "C16", "title": "Excluded precompile calls are ignored by the geth call tracer too", "statement": "With exclude_precompile_calls on, geth_call_traces contains no frame for an excluded precompile call.", "quantifier": "every execution", "why_tests_cant": "needs a config/builder combination tests do not exercise", "anchors": ["src/tracing/builder/geth.rs: geth_call_traces", "src/tracing/config.rs: exclude_precompile_calls"]}
{"id": "C17", "title": "traceAddress locates the call", "statement": "For every node of a recorded arena that is not an excluded precompile, its trace address is computed without panicking, and following it from the root through children lists leads to exactly that node; its length is the node's depth.", "quantifier": "every reachable arena, every node", "why_tests_cant": "unbounded trees", "anchors": ["src/tracing/builder/parity.rs: trace_address, trace_addresses"]}
{"id": "C18", "title": "traceAddresses are unique", "statement": "No two entries of the parity trace list, including synthetic selfdestruct entries, carry the same trace address.", "quantifier": "every reachable arena", "why_tests_cant": "collision between call and selfdestruct entries must be excluded for all trees", "anchors": ["src/tracing/builder/parity.rs: into_transaction_traces_iter, TransactionTraceIter"]}
{"id": "C19", "title": "subtraces counts the direct children entries", "statement": "For every entry of the parity trace list, subtraces equals the number of entries whose trace address extends it by exactly one element.", "quantifier": "every reachable arena, every entry", "why_tests_cant": "unbounded trees, selfdestruct corner cases", "anchors": ["src/tracing/types.rs: parity_transaction_trace, parity_selfdestruct_trace", "src/tracing/builder/parity.rs"]}
{"id": "C20", "title": "All parity trace APIs agree", "statement": "into_transaction_traces, into_localized_transaction_traces and the Trace component of into_trace_type_traces/into_trace_results return the same traces in the same order (apart from the root gas override and the location data).", "quantifier": "every reachable arena, every set of trace types containing Trace", "why_tests_cant": "two independent implementations of the same loop must agree on all arenas", "anchors": ["src/tracing/builder/parity.rs: into_transaction_traces_iter, into_trace_type_traces, into_localized_transaction_traces"]}
{"id": "C21", "title": "Parity traces are in depth-first call order", "statement": "The parity trace list is ordered depth-first: trace addresses appear in lexicographic order.", "quantifier": "every recorded execution", "why_tests_cant": "needs selfdestruct after subcalls", "anchors": ["src/tracing/builder/parity.rs: into_trace_type_traces, TransactionTraceIter::next"]}
{"id": "C22", "title": "error and result of a parity trace are consistent", "statement": "A parity trace carries an error message exactly when the frame's status is not a success; it carries a result exactly when the status is a success or a plain revert; the action and result kind match the call kind and the fields are the node's.", "quantifier": "every node, every status, every kind", "why_tests_cant": "all combinations", "anchors": ["src/tracing/types.rs: parity_transaction_trace, as_error_msg, parity_action, parity_trace_output"]}
{"id": "C23", "title": "vmTrace attaches each subcall's trace to the instruction that made it", "statement": "vm_trace() returns, for the root, one instruction per recorded step, where the i-th call-like instruction of a frame carries the vm trace of the i-th subcall of that frame, recursively.", "quantifier": "every recorded execution", "why_tests_cant": "needs call trees beyond a single chain", "anchors": ["src/tracing/builder/parity.rs: make_vm_trace"]}
{"id": "C24", "title": "vmTrace building always terminates without panicking", "statement": "For every recorded arena, vm_trace terminates and does not panic, and filling in the bytecodes afterwards never runs out of addresses.", "quantifier": "every reachable arena, every database", "why_tests_cant": "termination and absence of panics for all trees", "anchors": ["src/tracing/builder/parity.rs: make_vm_trace, populate_vm_trace_bytecodes", "src/tracing/builder/walker.rs"]}
{"id": "C25", "title": "Parity state diff is exact", "statement": "populate_state_diff, starting from an empty diff: an account appears exactly when it is not created-and-destroyed and is created, destroyed, has a changed slot, or differs from the database in balance, nonce or code hash; created accounts are reported as added with their new balance, nonce, code and changed slots; others report balance/nonce as changed from the database value to the new one or unchanged, and exactly the changed slots with original and present values.", "quantifier": "every state map, every database that answers", "why_tests_cant": "all combinations of account flags and values", "anchors": ["src/tracing/builder/parity.rs: populate_state_diff", "src/tracing/utils.rs: load_account_code"]}
{"id": "C26", "title": "Root gas override touches only the root", "statement": "set_transaction_gas_used / into_trace_results change the gas used of the root trace result only and nothing else.", "quantifier": "every arena and gas value", "why_tests_cant": "all arenas", "anchors": ["src/tracing/mod.rs: set_transaction_gas_used", "src/tracing/builder/parity.rs: set_transaction_gas_used, into_trace_results"]}
{"id": "C27", "title": "Geth call tracer returns the call tree", "statement": "geth_call_traces never panics on a recorded arena; the frame of a node has as calls the frames of the nodes it is the parent of, in call order (followed by synthetic selfdestruct frames), and its own fields are the node's; with only_top_call no call frames are included.", "quantifier": "every reachable arena, every CallConfig", "why_tests_cant": "roll-up loop with index arithmetic over all trees", "anchors": ["src/tracing/builder/geth.rs: geth_call_traces", "src/tracing/types.rs: geth_empty_call_frame"]}
{"id": "C28", "title": "Geth selfdestruct frames are attached to the destroying call or its parent", "statement": "The synthetic SELFDESTRUCT frame of a node is placed in the calls of the frame that executed it or of that frame's parent.", "quantifier": "every recorded execution", "why_tests_cant": "needs a selfdestruct in a call that is not the first subcall", "anchors": ["src/tracing/builder/geth.rs: geth_call_traces"]}
{"id": "C29", "title": "Geth call tracer reports logs only of successful call chains", "statement": "A call frame carries logs only if with_log is set and the call and all its ancestors succeeded, and then it carries all of the node's logs in order.", "quantifier": "every recorded execution, every node including the root", "why_tests_cant": "needs failing calls at each level including the top", "anchors": ["src/tracing/builder/geth.rs: geth_call_traces, call_or_parent_failed"]}
{"id": "C30", "title": "Geth log frames carry the emitting contract's address", "statement": "For executions where the EVM emits logs with the frame's execution address, the address of every reported log is the address the EVM logged.", "quantifier": "every execution, all call kinds, nested delegate calls, creates and selfdestructs", "why_tests_cant": "depends on call kind combinations", "anchors": ["src/tracing/types.rs: execution_address, geth_empty_call_frame"]}
{"id": "C31", "title": "Struct logs are in execution order", "statement": "When all opcodes are recorded and precompile calls are not excluded, the struct logs returned by geth_traces are exactly the executed opcodes of all frames in chronological order.", "quantifier": "every well-nested execution", "why_tests_cant": "steps are stored per frame and must be re-interleaved for all call trees", "anchors": ["src/tracing/builder/geth.rs: fill_geth_trace", "src/tracing/types.rs: call_step_stack, push_steps_on_stack"]}
{"id": "C32", "title": "Struct log storage accumulates per contract", "statement": "When storage is enabled, a struct log has storage exactly when its step has a storage change, and the map then holds for every key the latest value among this and all earlier changes of steps of the same contract.", "quantifier": "every recorded arena", "why_tests_cant": "unbounded sequences of changes over many contracts", "anchors": ["src/tracing/builder/geth.rs: fill_geth_trace"]}
{"id": "C33", "title": "Struct log content follows the options", "statement": "If the inspector was configured with from_geth_config(opts) and rendered with the same opts, every struct log has a stack exactly when the stack is not disabled, memory exactly when memory is enabled, storage only when storage is not disabled, return data exactly when enabled.", "quantifier": "every option combination, every execution", "why_tests_cant": "config and builder live in different places and must agree for all options", "anchors": ["src/tracing/config.rs: from_geth_config", "src/tracing/types.rs: convert_to_geth_struct_log", "src/tracing/builder/geth.rs"]}
{"id": "C34", "title": "Struct logs report an error only for failing steps", "statement": "A struct log's error is present exactly when the step's instruction result is a revert or an error.", "quantifier": "every instruction result", "why_tests_cant": "all instruction results, including the in-flight call marker", "anchors": ["src/tracing/types.rs: CallTraceStep::is_error, as_error"]}
{"id": "C35", "title": "Prestate tracer returns the pre-transaction state", "statement": "In default mode the prestate holds exactly the accounts of the result's state map, each with the database's nonce, balance and code, and exactly the touched slots with their original values.", "quantifier": "every state map and database that answers", "why_tests_cant": "all maps", "anchors": ["src/tracing/builder/geth.rs: geth_prestate_traces"]}
{"id": "C36", "title": "Prestate diff holds exactly the changes", "statement": "In diff mode, created accounts are absent from pre, destroyed accounts are absent from post, accounts that did not change are in neither, only changed slots with non-zero values are listed, and post lists an account field only if it differs from pre.", "quantifier": "every state map and database that answers", "why_tests_cant": "all combinations of flags, values and loaded/unloaded code", "anchors": ["src/tracing/builder/geth.rs: geth_prestate_traces, diff_traces"]}
{"id": "C37", "title": "Opcode filter is an exact set", "statement": "After enabling any sequence of opcodes with enable or enabled in any mix, is_enabled(op) holds exactly for the enabled opcodes; a new filter enables none; the const and non-const variants give equal filters.", "quantifier": "all sequences over all 256 opcodes", "why_tests_cant": "exponentially many sets; limb arithmetic", "anchors": ["src/tracing/config.rs: OpcodeFilter"]}
{"id": "C38", "title": "Config constructors and setters change only what they say", "statement": "Each setter changes its own flag(s) only and the last setting wins; from_parity_config records steps iff VmTrace is requested and always excludes precompiles; from_geth_config/from_geth_call_config/from_geth_prestate_config set exactly the documented flags; default_geth and default_parity are the configurations for default geth options and for no requested parity trace.", "quantifier": "all configs, all option combinations, all sequences of setters", "why_tests_cant": "all combinations", "anchors": ["src/tracing/config.rs: TracingInspectorConfig"]}
{"id": "C39", "title": "Memory chunks are a faithful 32-byte hex rendering", "statement": "memory_chunks of any memory yields ceil(len/32) strings of 64 lowercase hex digits whose concatenated decoding is the memory followed by zero padding to a multiple of 32.", "quantifier": "all byte strings", "why_tests_cant": "all lengths and contents", "anchors": ["src/tracing/utils.rs: convert_memory", "src/tracing/types.rs: RecordedMemory::memory_chunks"]}
{"id": "C40", "title": "Access list holds exactly what was touched", "statement": "The resulting access list holds an address iff it was in the request's list, or was read/written in storage, or was the operand of an account-touching or call opcode and is neither sender, recipient nor precompile; its storage keys are exactly the requested and the accessed slots; no address and no key appears twice and keys are ascending.", "quantifier": "every request list without duplicate addresses, every step sequence with arbitrary stacks", "why_tests_cant": "unbounded step sequences", "anchors": ["src/access_list.rs: AccessListInspector"]}
{"id": "C41", "title": "Request access list entries are never lost", "statement": "Every storage key of the access list passed to AccessListInspector::new is in the resulting access list.", "quantifier": "every request access list, including repeated addresses", "why_tests_cant": "needs duplicate addresses", "anchors": ["src/access_list.rs: AccessListInspector::new"]}
{"id": "C42", "title": "Opcode counts and gas add up", "statement": "OpcodeGasInspector: the count of an opcode is the number of steps with that valid opcode; its gas is the sum over that opcode's completed steps of the gas drop between step and step_end; unknown opcodes contribute nothing; the iterator reports each counted opcode once with both numbers.", "quantifier": "every sequence of step/step_end hooks", "why_tests_cant": "unbounded sequences", "anchors": ["src/opcode.rs: OpcodeGasInspector"]}
{"id": "C43", "title": "Four-byte frame counts every selector exactly", "statement": "For any sequence of calls, the four-byte frame maps the text 0x<selector>-<calldata size> to the number of calls with at least four input bytes, that selector and that remaining size; distinct (selector,size) pairs never collide in the text; shorter inputs and creates are not counted.", "quantifier": "every sequence of calls with arbitrary inputs", "why_tests_cant": "injectivity of the text key over all pairs", "anchors": ["src/tracing/fourbyte.rs: FourByteInspector, From<FourByteInspector> for FourByteFrame"]}
{"id": "C44", "title": "Opcode counter counts steps", "statement": "OpcodeCountInspector::count is the number of step hooks delivered.", "quantifier": "every hook sequence", "why_tests_cant": "unbounded", "anchors": ["src/tracing/opcount.rs"]}
{"id": "C45", "title": "Transfer inspector lists value transfers in order", "statement": "The transfers are, in hook order, exactly: each call that transfers non-zero value, each create whose outcome has an address, each selfdestruct; with internal_only the top-level call/create is omitted and nothing else; from/to/value are those of the hook.", "quantifier": "every hook sequence", "why_tests_cant": "unbounded histories", "anchors": ["src/transfer.rs: TransferInspector"]}
{"id": "C46", "title": "Reported transfers took effect", "statement": "Every transfer reported by TransferInspector belongs to a frame that was not reverted.", "quantifier": "every well-nested execution", "why_tests_cant": "needs reverting frames", "anchors": ["src/transfer.rs: TransferInspector"]}
{"id": "C47", "title": "Mux equals its tracers run alone", "statement": "For every accepted mux config and every hook history, the mux frame has exactly the configured tracer types as keys and each entry equals the result of running that tracer alone on the same history (recursively for nested mux).", "quantifier": "every config tree, every history", "why_tests_cant": "composition over all histories", "anchors": ["src/tracing/mux.rs: MuxInspector, DelegatingInspector"]}
{"id": "C48", "title": "Mux config validation is exact", "statement": "try_from_config succeeds iff every four-byte/noop tracer has no config and every call/prestate/mux tracer has a config that deserialises (recursively); otherwise the reported error is that of the first offending tracer (an unexpected or missing config names the tracer, an undecodable config is reported as invalid).", "quantifier": "every config tree", "why_tests_cant": "all trees", "anchors": ["src/tracing/mux.rs: try_from_config"]}
{"id": "C49", "title": "Trace writer renders every recorded call, log once, in order", "statement": "write_arena on a recorded arena never panics; the output is the concatenation over the call tree of header, members in recorded order, footer, each line indented by its depth, and the indentation level afterwards is the one before.", "quantifier": "every reachable arena, every starting indentation, colours on or off", "why_tests_cant": "unbounded trees", "anchors": ["src/tracing/writer.rs: TraceWriter"]}
{"id": "C50", "title": "A failing writer has received a prefix", "statement": "If the underlying writer fails at any point, write_arena returns the error and the bytes already written are a prefix of the full rendering.", "quantifier": "every arena, every failure point", "why_tests_cant": "crash points", "anchors": ["src/tracing/writer.rs: write_arena"]}
{"id": "C51", "title": "A TraceWriter is reusable after an I/O error", "statement": "After write_arena returned an error, the writer's indentation level is what it was before the call.", "quantifier": "every arena, every failure point", "why_tests_cant": "crash points", "anchors": ["src/tracing/writer.rs: write_node, write_step"]}
{"id": "C52", "title": "Writer output is valid UTF-8", "statement": "Everything written is valid UTF-8 provided user supplied labels and decoded strings are.", "quantifier": "every arena", "why_tests_cant": "all contents", "anchors": ["src/tracing/writer.rs"]}
{"id": "C53", "title": "JS buffers convert to addresses and words by right alignment", "statement": "toAddress/toWord style conversion of any byte buffer yields the last 20/32 bytes, left padded with zeros: the big-endian value modulo 2^160/2^256.", "quantifier": "all byte buffers", "why_tests_cant": "all lengths", "anchors": ["src/tracing/js/builtins.rs: bytes_to_address, bytes_to_hash"]}
{"id": "C54", "title": "JS memory.slice accepts exactly the in-bounds ranges", "statement": "log.memory.slice(start,end) returns the bytes [start,end) when 0<=start<=end<=length and throws otherwise; it never panics.", "quantifier": "all numbers, all memories", "why_tests_cant": "boundary condition over all ranges", "anchors": ["src/tracing/js/bindings.rs: MemoryRef::into_js_object"]}
{"id": "C55", "title": "JS memory.getUint and stack.peek never read out of bounds", "statement": "log.memory.getUint(off) and log.stack.peek(i) return the requested word when in bounds, throw otherwise, and never panic.", "quantifier": "all JS numbers, all memories and stacks", "why_tests_cant": "huge, negative and non-finite numbers", "anchors": ["src/tracing/js/bindings.rs: MemoryRef, StackRef"]}
{"id": "C56", "title": "JS enter and exit are balanced and skip the root", "statement": "For any complete execution the sequence of enter/exit calls made into the tracer object is well nested: one pair per non-root frame plus one pair per selfdestruct; a tracer that only defines exit still gets exit calls.", "quantifier": "every well-nested execution, every set of defined callbacks", "why_tests_cant": "unbounded nesting", "anchors": ["src/tracing/js/mod.rs: JsInspector"]}
{"id": "C57", "title": "JS isPrecompiled is available", "statement": "After the first call or create hook, the JS global isPrecompiled is registered with the EVM's precompiles.", "quantifier": "every history", "why_tests_cant": "state-machine flag", "anchors": ["src/tracing/js/mod.rs: register_precompiles"]}
{"id": "C58", "title": "JS tracer construction validates callbacks", "statement": "JsInspector::new succeeds only if result and fault are callable and setup is absent or callable.", "quantifier": "every tracer object", "why_tests_cant": "all combinations", "anchors": ["src/tracing/js/mod.rs: with_transaction_context"]}
{"id": "C59", "title": "JS code cannot reach EVM data after its hook returned", "statement": "Once the guard of a step/db object has been dropped, no later use of a retained JS reference observes the guarded data.", "quantifier": "every sequence of JS accesses and guard drops", "why_tests_cant": "all interleavings", "anchors": ["src/tracing/js/bindings.rs: GuardedNullableGc, GcGuard"]}
{"id": "C60", "title": "Opcode serialisation round-trips", "statement": "Deserialising a serialised step opcode returns the same opcode.", "quantifier": "all opcode bytes a step can hold", "why_tests_cant": "unknown opcodes", "anchors": ["src/tracing/types.rs: opcode_serde"]}
{"id": "C61", "title": "Breadth-first walk visits every attached node once", "statement": "The breadth-first node walk starting at the root terminates and yields every node reachable through children exactly once, parents before children and siblings in order.", "quantifier": "every reachable arena", "why_tests_cant": "unbounded trees", "anchors": ["src/tracing/builder/walker.rs: CallTraceNodeWalkerBF"]}
{"id": "C62", "title": "stack_push_count matches the EVM", "statement": "For every opcode other than call/create (whose result is pushed later), the number of items reported as pushed is the number the EVM pushes (with the documented SWAP/DUP convention).", "quantifier": "all 256 opcodes", "why_tests_cant": "table over the whole opcode space", "anchors": ["src/tracing/builder/parity.rs: stack_push_count"]}
{"id": "C63", "title": "may_modify_memory covers every memory-changing opcode", "statement": "Every opcode that can change the content or the size of memory while execution continues in the frame is classified as possibly modifying memory.", "quantifier": "all 256 opcodes", "why_tests_cant": "table over the whole opcode space", "anchors": ["src/opcode.rs: may_modify_memory"]}
{"id": "C64", "title": "Member ordering is chronological", "statement": "The member ordering recorded for a frame lists its recorded instructions, its logs and its (not excluded) sub-calls in exactly the order in which they happened; an instruction precedes the logs it emits.", "quantifier": "every execution tree, configuration and frame", "why_tests_cant": "all interleavings of instructions, logs and sub-calls at any depth", "anchors": ["src/tracing/types.rs: CallTraceNode::ordering", "src/tracing/mod.rs: TracingInspector step/log/call"]}
{"id": "C65", "title": "Struct log result carries the outcome", "statement": "geth_traces never panics on a recorded execution and reports failed exactly when the root frame did not succeed, together with the gas and return value it was given.", "quantifier": "every recorded execution, every gas value, return value and option set", "why_tests_cant": "the fuel-free loop over the step stack must terminate and never index out of bounds for every call tree", "anchors": ["src/tracing/builder/geth.rs: geth_traces, fill_geth_trace"]}
{"id": "C66", "title": "JS hex text and bytes are inverse", "statement": "toHex of any accepted buffer is two digits per byte, and any native function that accepts a buffer reads that text back, with or without 0x, as the same bytes.", "quantifier": "all byte buffers in every accepted form", "why_tests_cant": "unbounded lengths and all byte values", "anchors": ["src/tracing/js/builtins.rs: to_hex, from_buf_value, hex_decode_js_string"]}
{"id": "C67", "title": "JS db accessors reflect the current state", "statement": "db.exists, getBalance, getNonce, getCode and getState, called in a step, give the account and slot values of the running transaction: the journaled state where it has an entry, else the database; a database error throws.", "quantifier": "all states, databases, addresses and slots in every accepted form", "why_tests_cant": "every overlap of journaled state and database", "anchors": ["src/tracing/js/bindings.rs: EvmDbRef"]}
{"id": "C68", "title": "JS step is called once per instruction", "statement": "A tracer with step sees every executed instruction exactly once, in execution order, with its opcode, pc, gas, depth, refund, stack and memory as they are before it runs, and the contract of its frame.", "quantifier": "every complete execution and every tracer program", "why_tests_cant": "unbounded executions", "anchors": ["src/tracing/js/mod.rs: JsInspector::step, active_call"]}
{"id": "C69", "title": "JS fault is called for every failing instruction", "statement": "The tracer's fault function is called for exactly the instructions that fail, in order, with the error.", "quantifier": "every complete execution, every set of defined callbacks", "why_tests_cant": "all failure kinds in all positions", "anchors": ["src/tracing/js/mod.rs: JsInspector::step_end, try_fault"]}
{"id": "C70", "title": "A throwing JS tracer reverts the frame and never aborts the host", "statement": "Whatever the callbacks do, inspecting a transaction never panics; a hook leaves the EVM's values alone unless a callback throws, and then the frame reverts with the error text as output.", "quantifier": "every tracer program (any function of its history), every execution", "why_tests_cant": "arbitrary programs", "anchors": ["src/tracing/js/mod.rs: js_error_to_revert, JsInspector::call, call_end, create, create_end, step"]}
{"id": "C71", "title": "JS exit is told the frame's result", "statement": "Each exit call carries the gas used and the output of the frame it closes, and an error exactly if that frame failed.", "quantifier": "every complete execution", "why_tests_cant": "unbounded nesting, all results", "anchors": ["src/tracing/js/mod.rs: call_end, create_end", "src/tracing/js/bindings.rs: FrameResult"]}
{"id": "C72", "title": "JS result context describes the transaction", "statement": "The context given to result has the type, from, to (the created address for creates), input, value, gas, gasUsed, output, gas price, block number and hashes of the transaction and its execution result, and its intrinsic gas.", "quantifier": "all results, environments and transaction contexts", "why_tests_cant": "all combinations, values over 64 bits", "anchors": ["src/tracing/js/mod.rs: JsInspector::result", "src/tracing/js/bindings.rs: JsEvmContext"]}
{"id": "C73", "title": "JS getCost is the cost of the instruction", "statement": "log.getCost() in step is the gas the instruction about to run costs.", "quantifier": "every instruction of every execution", "why_tests_cant": "unbounded executions", "anchors": ["src/tracing/js/mod.rs: JsInspector::step", "src/tracing/js/bindings.rs: StepLog"]}
{"id": "C74", "title": "Parity traces are a function of the execution", "statement": "After tracing any complete execution, the parity transaction traces are exactly: one entry per frame in execution order with that frame's action, result or error, trace address and number of listed sub-calls, plus one selfdestruct entry for a frame that selfdestructed, and nothing for the precompile calls the user asked to leave out.", "quantifier": "every configuration and every complete execution", "why_tests_cant": "unbounded trees of calls with all kinds of outcomes", "anchors": ["src/tracing/builder/parity.rs: into_transaction_traces, into_transaction_traces_iter", "src/tracing/types.rs: parity_action, parity_result, parity_transaction_trace, parity_selfdestruct_trace", "src/tracing/mod.rs: TracingInspector"]}
{"id": "C75", "title": "The geth call tree is a function of the execution", "statement": "After tracing any complete execution, the call tracer's result is exactly the tree of its frames, in order, each with its type, addresses, value, gas, input, output, error and visible logs; apart from the synthetic SELFDESTRUCT frames nothing is added or dropped, and without selfdestructs the two trees are equal.", "quantifier": "every configuration, every complete execution, every option set without only_top_call", "why_tests_cant": "unbounded trees of calls with all kinds of outcomes", "anchors": ["src/tracing/builder/geth.rs: geth_call_traces", "src/tracing/types.rs: geth_empty_call_frame", "src/tracing/mod.rs: TracingInspector"]}
{"id": "C76", "title": "Recording options do not interfere", "statement": "Whatever the history of hook calls, switching a recording option on or off changes only the part of the recording that option names: the calls, the other step fields, the logs and their order stay the same. In particular parity traces depend on no option except exclude_precompile_calls, call frames additionally only on record_logs when logs are requested, and struct logs only on the options for the stack, memory and storage that are requested.", "quantifier": "all pairs of configurations, all hook histories both recordings survive, all output options", "why_tests_cant": "pairs of configurations times unbounded histories", "anchors": ["src/tracing/mod.rs: TracingInspector (all hooks)", "src/tracing/builder/parity.rs: into_transaction_traces", "src/tracing/builder/geth.rs: geth_call_traces, geth_traces", "src/tracing/config.rs: TracingInspectorConfig"]}
{"id": "C77", "title": "Numbers shown to JavaScript are exact", "statement": "Every number a tracer reads (gas, program counter, depth, refund, nonce, lengths, block number) is the number the EVM has. Where a double cannot hold the value, it is the double nearest to it.", "quantifier": "all 64-bit values, all executions, all tracer programs", "why_tests_cant": "2^64 values; the rounding only shows above 2^53", "anchors": ["src/tracing/js/bindings.rs: StepLog::into_js_object, EvmDbRef::into_js_object, JsEvmContext::into_js_object"]}
{"id": "C78", "title": "Objects given to callbacks answer for the execution", "statement": "In every step, fault, enter and exit callback, the objects handed to the tracer have exactly the documented properties and every method answers with the value of the instruction, frame or scope the callback is for: opcode, program counter, gas, depth, refund, error, stack words from the top, memory words, caller, address, value, input, call type, output, gas used, and the database object answers from the state at that moment.", "quantifier": "all executions, all tracer programs, all arguments, all databases", "why_tests_cant": "executions and arguments are unbounded; a swapped or stale field only shows in some frames", "anchors": ["src/tracing/js/bindings.rs: into_js_object of StepLog, OpObj, StackRef, MemoryRef, Contract, CallFrame, FrameResult, EvmDbRef", "src/tracing/js/mod.rs: step, step_end, call, create, call_end, create_end"]}
{"id": "C79", "title": "The context object given to result", "statement": "The object passed to the tracer's result function carries the transaction's type, sender, target, input, output, gas limit, gas used, gas price, value, block number, timestamp (as a number) and, if known, block hash, transaction index and transaction hash.", "quantifier": "all transaction environments, outcomes and transaction contexts", "why_tests_cant": "environments and outcomes are unbounded; optional fields combine", "anchors": ["src/tracing/js/bindings.rs: JsEvmContext::into_js_object", "src/tracing/js/mod.rs: result"]}
{"id": "C80", "title": "Struct log return data is what the instruction could see", "statement": "With return data enabled, the return data of a struct log is the content of the return data buffer when that instruction started, that is, the output of the frame's most recent finished sub-call.", "quantifier": "every execution, every option set with return data enabled", "why_tests_cant": "the value shown depends on the position of the instruction between the calls of its frame, over all call trees", "anchors": ["src/tracing/builder/geth.rs: fill_geth_trace"]}
{"id": "C81", "title": "Struct logs are a function of the execution", "statement": "For an inspector configured with from_geth_config(opts) and logs rendered with the same opts, there is one log per executed instruction, in execution order, and every field of it is determined by the execution and opts: program counter, opcode, depth, gas, cost, refund, the stack unless disabled, memory if enabled (up to zero bytes at the end), the error of the instruction's result, the frame's output if return data is enabled, and, unless storage is disabled, for SLOAD/SSTORE that report a change the latest values reported so far per slot of the running contract.", "quantifier": "every execution with any call tree, every option set", "why_tests_cant": "recording and rendering are separate, options combine, and storage accumulates over the whole execution", "anchors": ["src/tracing/config.rs: from_geth_config", "src/tracing/mod.rs: start_step, fill_step_on_step_end", "src/tracing/builder/geth.rs: fill_geth_trace", "src/tracing/types.rs: convert_to_geth_struct_log"]}
{"id": "C82", "title": "The vm trace is determined by the execution", "statement": "For every recording configuration and every completed transaction, vm_trace() succeeds and is determined by the execution: shown frames finish one after the other, each frame's trace has one instruction per asked-for executed instruction with its program counter, cost, gas before, pushed values, storage change and opcode, call-like instructions take traces from the front of one queue that finished frames are appended to, and the transaction's own trace is returned; only the STOP shortcut replaces all of it by an empty trace.", "quantifier": "every configuration, world, transaction execution tree (any depth and number of calls)", "why_tests_cant": "the matching of sub-traces depends on the whole call tree and on the order in which frames end; there are unboundedly many trees", "anchors": ["src/tracing/builder/parity.rs: vm_trace, make_vm_trace, make_instruction", "src/tracing/mod.rs: start_step, fill_step_on_step_end"]}
{"id": "C83", "title": "Memory in the vm trace is the memory written by the instruction", "statement": "The memory part of a vm trace instruction is a piece of memory as it is after the instruction, at the given offset.", "quantifier": "every configuration, every transaction execution, every instruction of the root frame", "why_tests_cant": "must hold for every instruction and every memory content", "anchors": ["src/tracing/builder/parity.rs: make_instruction"]}
{"id": "C84", "title": "The code shown by a vm trace is the code its frame ran", "statement": "In the results with state for a vmTrace request, wherever the nesting of the sub-traces is right, the code of the transaction's vm trace and of every sub-trace is the code the frame ran: the init code for a creation, the account's code for a call.", "quantifier": "every recorded execution, every database, every state and trace type set containing vmTrace", "why_tests_cant": "codes are matched to traces by two independent breadth-first traversals of unbounded trees", "anchors": ["src/tracing/builder/parity.rs: populate_vm_trace_bytecodes, into_trace_results_with_state", "src/tracing/builder/walker.rs: CallTraceNodeWalkerBF"]}
{"id": "C85", "title": "Recording only adds", "statement": "Whatever hooks follow, short of another transaction being started, every call already recorded keeps its index, parent and what it was entered with (depth, caller, kind, value, input, gas limit), and its children, logs, instructions and their order are only appended to; one record is added per call started. So a transaction interrupted after any hook leaves the beginning of the record of the whole transaction. A call that has been started and not ended has no result in the record: neither success nor failure, no output and no gas used. An instruction that has been started and not ended shows what it was started with (program counter, opcode, gas left) and no cost, storage change or result.", "quantifier": "every state of the tracing inspector, every later hook sequence; every configuration, every execution and every point at which it is cut", "why_tests_cant": "any hook sequence and any crash point", "anchors": ["src/tracing/mod.rs: Inspector for TracingInspector", "src/tracing/arena.rs: push_trace"]}
{"id": "C86", "title": "The record of an ended call is final", "statement": "Once the end hook of a call has returned, the records of that call and of all calls made inside it are exactly the ones found at the same indices when the transaction is over.", "quantifier": "every configuration, every execution, every call made in it", "why_tests_cant": "any continuation of the execution, any depth", "anchors": ["src/tracing/mod.rs: call_end, create_end, step_end", "src/tracing/arena.rs: push_trace"]}
{"id": "C87", "title": "A JavaScript tracer can be reused", "statement": "A tracer used for several transactions one after the other is shown each transaction exactly as a fresh tracer would be (same callbacks, same arguments, same order), whatever it threw in earlier callbacks as long as the host survived; and a tracer that never throws can be used for any number of transactions.", "quantifier": "all tracer programs, all sets of callbacks, all sequences of transactions", "why_tests_cant": "any number of transactions, any history of throws", "anchors": ["src/tracing/js/mod.rs: Inspector for JsInspector, push_call, pop_call"]}
{"id": "C88", "title": "JS contract address helpers ask about what they are given", "statement": "toContract(from, nonce), toContract2(from, salt, initcode) and isPrecompiled(address) answer for exactly the sender, nonce, salt, code and address their arguments stand for, throw a JavaScript error if an argument stands for nothing, and never abort the host.", "quantifier": "all JavaScript values as arguments, all address derivation functions and all sets of precompiles", "why_tests_cant": "every buffer representation and length, every number", "anchors": ["src/tracing/js/builtins.rs: to_contract, to_contract2, from_buf_value, bytes_to_address, bytes_to_hash, PrecompileList"]}
{"id": "C89", "title": "Revert reasons of geth call frames", "statement": "A geth call frame carries a revert reason exactly if its call failed and its output decodes to a non-empty text, and then it is that text (the bare reason for a Solidity revert).", "quantifier": "all executions, all decoders of revert data", "why_tests_cant": "any call tree, any output", "anchors": ["src/tracing/utils.rs: maybe_revert_reason", "src/tracing/types.rs: geth_empty_call_frame", "src/tracing/builder/geth.rs: geth_call_traces"]}
{"id": "C90", "title": "Parity traces and the geth call tracer report the same calls", "statement": "For one execution, the trace address of every parity call or create entry leads to the frame of the geth call tree that reports the same call (parties, value, gas, input, output, error, created address, and gas used below the root), and every geth call frame is reached by exactly such an entry. The two may be recorded with different configurations; if the parity recording leaves out precompile calls, this holds of the geth tree without its value-less precompile calls.", "quantifier": "all executions, all pairs of recording configurations, all call tracer options", "why_tests_cant": "any call tree", "anchors": ["src/tracing/builder/parity.rs: into_transaction_traces", "src/tracing/builder/geth.rs: geth_call_traces"]}
{"id": "C91", "title": "Step-level tracers agree", "statement": "For one execution, the struct logs, the step calls of a JavaScript tracer, the opcode counter and the per-opcode gas totals describe the same instructions: the logs and the step calls agree one by one on opcode, program counter, depth, gas and stack; the counter equals the number of logs; counts and gas per opcode are those of the logs with that opcode.", "quantifier": "all executions, all recording configurations that record every step and exclude nothing, all JavaScript tracers with a step function", "why_tests_cant": "any number of instructions and frames", "anchors": ["src/tracing/builder/geth.rs: geth_traces", "src/tracing/js/mod.rs: step", "src/tracing/opcount.rs", "src/opcode.rs: OpcodeGasInspector"]}
{"id": "C92", "title": "Combined trace results contain exactly what was requested", "statement": "The trace results built with the post-execution state contain the output of the execution, and each of the call traces, the state diff and the vm trace exactly if that trace type was requested: the call traces are the transaction's traces with the execution's gas at the root, the state diff is the exact difference between the database and the state, the vm trace is that of the call tree with only codes filled in. The call fails only if the database fails on something that a requested part needs.", "quantifier": "all histories, all sets of trace types, all execution results, states and databases (including failing ones)", "why_tests_cant": "any subset of types, any database failure point, any number of frames and accounts", "anchors": ["src/tracing/builder/parity.rs: into_trace_results_with_state, into_trace_results, into_trace_type_traces, populate_state_diff, populate_vm_trace_bytecodes"]}
{"id": "C93", "title": "Call entries name the called account", "statement": "In the parity traces and in the geth call tree, the account named as called by the report of a frame (for a create: the created account) is the account whose code the frame runs.", "quantifier": "all executions, all configurations", "why_tests_cant": "call schemes, nesting and selfdestructs combine without bound; the mistaken case needs a delegated call that destroys its caller", "anchors": ["src/tracing/mod.rs: selfdestruct, start_trace_on_call", "src/tracing/types.rs: parity_action, geth_empty_call_frame"]}
{"id": "C94", "title": "Selfdestructs are reported with the destroyed contract, refund target and balance", "statement": "The parity traces contain exactly one selfdestruct entry per listed frame that ran SELFDESTRUCT, in order, naming the destroyed contract, the refund target and the balance; the geth call tree contains exactly one SELFDESTRUCT frame per frame that ran SELFDESTRUCT, with the destroyed contract as from, the refund target as to and the balance as value.", "quantifier": "all executions, all configurations", "why_tests_cant": "any number of selfdestructs at any depth; the position of a synthetic frame depends on the recording order", "anchors": ["src/tracing/types.rs: parity_selfdestruct_action, geth_selfdestruct_call_trace", "src/tracing/mod.rs: selfdestruct"]}
{"id": "C95", "title": "A JavaScript tracer's scopes agree with the geth call tree", "statement": "For one execution, the enter and exit calls of a JavaScript tracer that defines both are the frames of the geth call tree below the root, in order and equally nested, with the same type, from, to, value, gas, input, gas used and output; in between there is one more scope per SELFDESTRUCT.", "quantifier": "all executions, all configurations and all tracer programs that do not abort the run", "why_tests_cant": "two recorders with independent bookkeeping of open frames must agree for every call tree", "anchors": ["src/tracing/js/mod.rs: call, call_end, create, create_end", "src/tracing/builder/geth.rs: geth_call_traces"]}
{"id": "C96", "title": "Numbers reach a JavaScript tracer and leave it unchanged", "statement": "A 256-bit number handed to a JavaScript tracer as a bigint is that very number; toString gives its decimal numeral, toString(radix) its numeral in every radix from 2 to 36, toJSNumber the nearest double; bigint(text) reads every decimal text, with or without sign and leading zeros, as the number it denotes, and reading back toString gives the same number.", "quantifier": "all 256-bit numbers, all decimal texts, all integers of the library, all radixes 2..36", "why_tests_cant": "numbers of unbounded length; the library switches representation at 2^53 and cuts texts into pieces", "anchors": ["src/tracing/js/bigint.js", "src/tracing/js/builtins.rs: to_bigint, BIG_INT_JS"]}
{"id": "C97", "title": "The integers of JavaScript tracers add, subtract and compare exactly", "statement": "For bigints standing for x and y: add, subtract, negate, abs, next and prev return the bigints standing for the exact results, and compare, compareAbs, equals, greater, lesser, greaterOrEquals, lesserOrEquals, isPositive, isNegative, isZero, isUnit, isEven and isOdd answer as the integers do.", "quantifier": "all pairs of integers of any size and sign", "why_tests_cant": "carries and borrows over unbounded digit arrays, and the switch between doubles and arrays at 2^53", "anchors": ["src/tracing/js/bigint.js", "src/tracing/js/builtins.rs: to_bigint, BIG_INT_JS"]}
{"id": "C98", "title": "The integers of JavaScript tracers multiply exactly", "statement": "For bigints standing for x and y: multiply returns the bigint standing for x*y and square the one for x*x, whichever of the two multiplication algorithms the library picks at each size; the computation ends.", "quantifier": "all pairs of integers, all choices between the algorithms", "why_tests_cant": "recursion over unbounded digit arrays with intermediate doubles near 2^53", "anchors": ["src/tracing/js/bigint.js", "src/tracing/js/builtins.rs: to_bigint, BIG_INT_JS"]}
{"id": "C99", "title": "The integers of JavaScript tracers divide exactly", "statement": "For bigints standing for x and y <> 0: divmod returns the quotient rounded towards zero and the remainder with the sign of x; for y = 0 it throws; both division algorithms of the library end.", "quantifier": "all pairs of integers", "why_tests_cant": "guessed quotient digits computed with rounded doubles must be corrected for every operand", "anchors": ["src/tracing/js/bigint.js", "src/tracing/js/builtins.rs: to_bigint, BIG_INT_JS"]}
{"id": "C100", "title": "Shifts and bitwise functions of the integers of JavaScript tracers", "statement": "and, or, xor and not are the two's complement functions on integers of any size and sign; shiftLeft and shiftRight by n, a number or a bigint of at most 10^7, multiply by 2^n or divide by it rounding down.", "quantifier": "all integers, all shift counts", "why_tests_cant": "loops over base-2^23 digits of unbounded integers, for all sign combinations", "anchors": ["src/tracing/js/bigint.js", "src/tracing/js/builtins.rs: to_bigint, BIG_INT_JS"]}
{"id": "C101", "title": "Nothing recorded, nothing reported", "statement": "Report builders given no nodes return empty reports, whatever options, execution result, state and database they are given; an inspector that has recorded no transaction, or was reset after any history, reports a single blank call that did not succeed, with no logs, subcalls or steps.", "quantifier": "all options, trace types, results, states, databases and earlier histories", "why_tests_cant": "the empty recording is the boundary case of every builder, combined with every option and every history before a reset", "anchors": ["src/tracing/builder/geth.rs: geth_call_traces, geth_traces", "src/tracing/builder/parity.rs: into_trace_results, into_trace_results_with_state, vm_trace", "src/tracing/builder/walker.rs: CallTraceNodeWalkerBF"]}
{"id": "C102", "title": "The integers of JavaScript tracers have exact powers", "statement": "For bigints standing for x and y: pow returns the bigint standing for x^y when y is not negative; it throws when y is 2^53 or more and x is none of -1, 0, 1; for negative y it returns the power rounded towards zero.", "quantifier": "all pairs of integers", "why_tests_cant": "the shortcut through rounded double arithmetic must be left exactly when it is no longer exact, for every base and exponent", "anchors": ["src/tracing/js/bigint.js", "src/tracing/js/builtins.rs: BIG_INT_JS"]}
{"id": "C103", "title": "Powers modulo a number", "statement": "For bigints standing for x, e >= 0 and m <> 0: x.modPow(e, m) is the remainder of x^e by m; a zero modulus is refused.", "quantifier": "all triples of integers", "why_tests_cant": "the loop reduces intermediate results, for every length of the exponent and every sign", "anchors": ["src/tracing/js/bigint.js", "src/tracing/js/builtins.rs: BIG_INT_JS"]}
{"id": "C104", "title": "Inverses modulo a number", "statement": "For bigints standing for x and m <> 0: x.modInv(m) stands for an inverse of x modulo m, and throws exactly when there is none.", "quantifier": "all pairs of integers", "why_tests_cant": "termination and correctness of Euclid's algorithm for every pair and every sign", "anchors": ["src/tracing/js/bigint.js", "src/tracing/js/builtins.rs: BIG_INT_JS"]}
{"id": "C105", "title": "Divisors, multiples and extremes", "statement": "gcd is the greatest common divisor, lcm the least common multiple of two bigints that are not both zero, isDivisibleBy tells whether a bigint other than zero divides the number, max and min are the larger and the smaller.", "quantifier": "all pairs of integers", "why_tests_cant": "the binary algorithm strips powers of two read off the 32 low bits of a double; it must end and be right for every pair", "anchors": ["src/tracing/js/bigint.js", "src/tracing/js/builtins.rs: BIG_INT_JS"]}
{"id": "C106", "title": "Numbers from texts in other radixes", "statement": "bigint(text, radix) reads exactly the numerals of the radix (optional minus sign, at least one digit, either case), as the number they denote; other texts are refused; what toString(radix) writes is read back.", "quantifier": "all texts and radixes from 2 to 36", "why_tests_cant": "every text, short or long, goes through one of two different readers", "anchors": ["src/tracing/js/bigint.js", "src/tracing/js/builtins.rs: BIG_INT_JS"]}
{"id": "C107", "title": "Primes", "statement": "isPrime tells whether a bigint, without its sign, is prime; isProbablePrime never calls a prime composite, whatever numbers it draws.", "quantifier": "all integers, all draws, all numbers of rounds", "why_tests_cant": "primality of every number of any size", "anchors": ["src/tracing/js/bigint.js", "src/tracing/js/builtins.rs: BIG_INT_JS"]}
{"id": "C108", "title": "Random integers are in their range", "statement": "randBetween(a, b) returns an integer from a to b, for bounds of any size, sign and order.", "quantifier": "all pairs of integers, all random draws", "why_tests_cant": "digits are drawn one by one; every combination of draws must stay below the range", "anchors": ["src/tracing/js/bigint.js", "src/tracing/js/builtins.rs: BIG_INT_JS"]}
{"id": "C109", "title": "The presets record everything and nothing", "statement": "With TracingInspectorConfig::all() every call, every instruction with its stack, memory, return data and storage change, and every log is recorded, for every execution; with none() calls are recorded, and neither instructions nor logs.", "quantifier": "all executions, all worlds", "why_tests_cant": "every instruction of every execution", "anchors": ["src/tracing/config.rs: TracingInspectorConfig::all, none, default", "src/tracing/mod.rs: start_step, fill_step_on_step_end, log"]}
{"id": "C110", "title": "The two reports of state changes say the same", "statement": "For one executed transaction the parity state diff and the geth prestate tracer in diff mode report the same accounts, and for each the same balance, nonce, code and slots before and after: an account is Added in one exactly when only post lists it in the other, a changed value is Changed(from, to) exactly when pre has from and post has to, and so on.", "quantifier": "all state maps an execution can leave, all databases", "why_tests_cant": "every combination of created, destroyed and changed accounts and slots", "anchors": ["src/tracing/builder/parity.rs: populate_state_diff", "src/tracing/builder/geth.rs: geth_prestate_traces, geth_prestate_diff_traces, diff_traces"]}
{"id": "C111", "title": "Selector counts agree with the call tree", "statement": "For one execution the four-byte inspector counts, for each selector and argument size, exactly the message-call frames of the geth call tree whose input has that selector and size.", "quantifier": "all executions, all worlds, all configurations of the recording and of the call tracer", "why_tests_cant": "two inspectors that observe different hooks of every execution", "anchors": ["src/tracing/fourbyte.rs: FourByteInspector::call", "src/tracing/builder/geth.rs: geth_call_traces"]}
{"id": "C112", "title": "Transfers agree with the call tree", "statement": "For one execution the transfers by calls that the transfer inspector lists are the CALL and CALLCODE frames of the geth call tree that carry value, with their accounts and amounts, in the order of the tree; with internal_only the outermost frame is left out.", "quantifier": "all executions, all worlds, all configurations", "why_tests_cant": "two inspectors that observe different hooks of every execution", "anchors": ["src/transfer.rs: TransferInspector::call, on_transfer", "src/tracing/builder/geth.rs: geth_call_traces"]}
{"id": "C113", "title": "callers() is the set of accounts that made calls", "statement": "For one execution ParityTraceBuilder::callers holds the account that made each call or creation, the account that executes for DELEGATECALL and CALLCODE, and no other.", "quantifier": "all executions, all worlds, all configurations", "why_tests_cant": "every nesting of calls of every scheme", "anchors": ["src/tracing/builder/parity.rs: ParityTraceBuilder::callers", "src/tracing/mod.rs: call, create"]}
{"id": "C114", "title": "The configuration can be changed while recording", "statement": "Whatever sequence of hooks, configuration changes (update_config, config_mut), resets (fuse) and gas overrides one TracingInspector sees: the recording is a call tree, with complete member orderings if one transaction is recorded between two resets; after a reset it behaves as a new inspector with the configuration then in force; and changing options that a part of the recording does not depend on leaves that part alone. A transaction during which the configuration is changed without touching exclude_precompile_calls, nor record_steps within an instruction, is recorded to its end with the same calls, parity traces and call frames as under an unchanging configuration. (Switching step recording on within an instruction panics or records the outcome under another instruction.)", "quantifier": "all sequences of uses of one inspector; all executions; all configuration changes at all moments", "why_tests_cant": "any moment of any execution can see any change", "anchors": ["src/tracing/mod.rs: TracingInspector::update_config, config_mut, fuse, set_transaction_gas_used, start_step, fill_step_on_step_end"]}
{"id": "C115", "title": "Geth call frames report errors in go-ethereum's words", "statement": "A frame of the geth call tracer has an error exactly if its call did not succeed, and the error is go-ethereum's text for that outcome (execution reverted, out of gas, invalid jump destination, write protection, ...).", "quantifier": "all executions, all worlds, all configurations, all call tracer options that ask for sub-calls", "why_tests_cant": "every outcome at every place of every call tree", "anchors": ["src/tracing/types.rs: CallTraceNode::geth_empty_call_frame, CallTrace::as_error_msg", "src/tracing/config.rs: TraceStyle"]}
{"id": "C116", "title": "Integers of JavaScript tracers are read as they are written", "statement": "bigint(text) reads the text of an integer exactly, whether written in digits alone or with a point and an exponent, and refuses other texts; bigint(number) gives the integer the number is; bigint.fromArray(digits, base, isNegative) gives the value of the digits in the base, whatever integers these are.", "quantifier": "all texts, numbers, lists of digits and bases, and all ways JavaScript may round numbers it reads and write numbers as texts", "why_tests_cant": "texts and numbers of every size, exponents of every size and lists of every length", "anchors": ["src/tracing/js/bigint.js: parseStringValue, parseNumberValue, parseValue, fromArray, parseBaseFromArray"]}
{"id": "C117", "title": "Integers of JavaScript tracers in every radix", "statement": "toString(radix) writes every integer in every radix, positive or negative, as digits of the radix whose positional value is the integer (with a minus sign only in positive radixes, without leading zeros, digits from 36 on in decimal between angle brackets), and bigint(text, radix) reads every such text as the integer it denotes.", "quantifier": "all integers, all radixes and all texts of an integer in a radix", "why_tests_cant": "integers and radixes of every size, digits of every size, both signs of both", "anchors": ["src/tracing/js/bigint.js: toBase, stringify, toString, parseBase, parseBaseFromArray"]}
{"id": "C118", "title": "The written trace as a function of the execution", "statement": "Recording a transaction and writing the recording yields a text that is determined by the execution: for every call, in order and indented by its depth, a line with its gas used, callee, selector, value, arguments and kind (or the created contract), its logs and its sub-calls in the order they happened, and a line with how it ended and its output; hidden precompile calls are left out, logs are shown if they are recorded, and no other option matters.", "quantifier": "all transactions, configurations, colour options, indentation levels and capacities of the inner writer", "why_tests_cant": "every tree of calls, logs and sub-calls interleaved in every way, and every point at which the inner writer gives up", "anchors": ["src/tracing/writer.rs: TraceWriter::write_arena, write_node, write_items_until, write_trace_header, write_trace_footer, write_log", "src/tracing/mod.rs: TracingInspector"]}
{"id": "C119", "title": "The access list agrees with the recorded steps", "statement": "For one execution, an access list inspector and a tracing inspector that records every step with its full stack agree: the addresses of the access list are those of the request, the contracts of recorded SLOAD and SSTORE steps, and the addresses on the stacks of recorded account and call steps that are neither sender, recipient nor precompile; the keys of an address are those of its request entry and the slots on the stacks of the SLOAD and SSTORE steps recorded for that contract.", "quantifier": "all transactions, requested lists, senders, recipients, precompile lists and recording configurations with full stacks", "why_tests_cant": "two inspectors with independent bookkeeping must agree on every execution, with calls, delegate calls and failures nested in any way", "anchors": ["src/access_list.rs: AccessListInspector", "src/tracing/mod.rs: TracingInspector::start_step", "src/tracing/types.rs: CallTraceStep"]}
{"id": "C120", "title": "Struct logs of partial recordings", "statement": "Struct logs built from a recording with an opcode filter, or one that leaves out precompile calls, are the lines of a full recording whose opcodes were asked for, in the same order.", "quantifier": "all transactions, recording configurations and struct log options", "why_tests_cant": "every filter, and every nesting and order of calls that are shown, filtered or left out", "anchors": ["src/tracing/builder/geth.rs: fill_geth_trace, geth_traces", "src/tracing/types.rs: CallTraceNode::push_steps_on_stack, call_step_stack", "src/tracing/config.rs: OpcodeFilter"]}
{"id": "C121", "title": "The vm trace and the struct logs list the same instructions", "statement": "The vm trace and the struct logs built from one recording list the same instructions: reading the vm trace with every sub-trace right after its instruction gives, line by line, the positions, opcodes, gas and costs of the struct logs.", "quantifier": "all transactions, recording configurations and struct log options", "why_tests_cant": "every nesting and order of calls, and every configuration", "anchors": ["src/tracing/builder/parity.rs: vm_trace, make_vm_trace, make_instruction", "src/tracing/builder/geth.rs: fill_geth_trace, geth_traces"]}
{"id": "C122", "title": "The diff of the prestate tracer applied to its prestate gives the state after the transaction", "statement": "Take the prestate tracer's default result and its diff for the same transaction. Whatever the diff's pre map says of an account, the default result says too. Replacing the fields and slots listed in post, clearing the slots that are only in pre and dropping the accounts that are only in pre turns the prestate into the state after the transaction.", "quantifier": "all databases and all state maps of executed transactions", "why_tests_cant": "every combination of changed, created, destroyed and merely read accounts and slots", "anchors": ["src/tracing/builder/geth.rs: geth_prestate_traces"]}
{"id": "C123", "title": "A written trace can be read in one way only", "statement": "The text the trace writer produces for recorded transactions, with or without colours, determines the tree it shows: for every call the gas used, kind, callee, value, input, status and output; for every creation the gas used, the new address, the status and the size of the code; for every log its topics and data; how they are nested and in which order; and how many transactions were written. No contract can make its trace look like the trace of other calls by what it passes, emits or returns. What is not shown, and only that, may differ between equal texts.", "quantifier": "all recordings of well-formed transactions, all configurations, both colour settings, every level of indentation, every checksum that tells addresses apart", "why_tests_cant": "the inputs, outputs and log data in the text are chosen by the traced contracts", "anchors": ["src/tracing/writer.rs: TraceWriter::write_arena, TraceWriter::write_node, TraceWriter::write_trace_header, TraceWriter::write_log, TraceWriter::write_trace_footer"]}
{"id": "C124", "title": "A parity state diff can be applied and undone", "statement": "Take the parity state diff of a transaction. Replacing in the state before the transaction every added and changed value by the new one, and dropping what is removed, gives the state after it; doing the same backwards in the state after gives the state before. Accounts and slots that are not in the diff are the same before and after.", "quantifier": "all databases and all state maps of executed transactions, all accounts and slots", "why_tests_cant": "every combination of changed, created, destroyed and merely read accounts and slots", "anchors": ["src/tracing/builder/parity.rs: populate_state_diff"]}
{"id": "C125", "title": "What the script's result returns is what the caller receives", "statement": "json_result hands over what JSON has for the value the script's result function returns: null, booleans, numbers, texts, arrays and objects as they are; numbers that are not finite as null; undefined, functions and symbols as null in arrays and not at all in objects; an object with toJSON as what that returns, so that a bigint arrives as its decimal numeral. A value JSON has nothing for is an error. The call always returns.", "quantifier": "all JavaScript values that do not contain themselves: any nesting, any texts, any numbers, getters and toJSON methods that return or throw", "why_tests_cant": "every nesting, text and combination of members", "anchors": ["src/tracing/js/builtins.rs: to_serde_value, json_stringify", "src/tracing/js/mod.rs: JsInspector::json_result", "src/tracing/js/bigint.js: toJSON"]}
{"id": "C126", "title": "Without a reset a transaction is filed on top of the earlier ones", "statement": "A TracingInspector that has recorded complete transactions and is not reset records the next one if a new inspector could record it. The recording then has one root, with the trace and the steps of the last transaction and the calls, logs and member ordering of all of them; every other node of every transaction is kept. The parity traces are the last top-level call (and its self-destruct), then the calls the earlier transactions made, at their own addresses, then the calls of the last one, whose addresses and whose parent's subtrace count go on from the earlier calls. If an earlier top-level call has more recorded instructions than the last one, the recording cannot be written as text (the writer panics), so fuse is needed between transactions.", "quantifier": "all histories after which no call is open; all later histories beginning with a top-level call; all sequences of transactions; all configurations", "why_tests_cant": "every earlier recording, every later execution, any number of them", "anchors": ["src/tracing/mod.rs: TracingInspector, fuse", "src/tracing/arena.rs: push_trace", "src/tracing/builder/parity.rs: into_transaction_traces", "src/tracing/writer.rs: write_step"]}
{"id": "C127", "title": "Which hook calls a tracing inspector can record", "statement": "A new or reset TracingInspector records a sequence of hook calls, whose top-level calls do not start inside one another, exactly if: every call and create is at most one level deeper than the latest one below the top level that is not a precompile call left out of the graph (whether or not that one has ended); every end of a call, self-destruct, recorded log and recorded instruction happens while a call is open; and every end of an instruction belongs to an instruction begun and, if it is recorded, finds the stack items and the journal entry it is recorded from. In every other case a hook panics. Nesting is not checked: a call may be deeper than the open calls.", "quantifier": "all configurations; all finite sequences of hook calls with arbitrary arguments, well nested or not, whose top-level calls start one after another", "why_tests_cant": "the sequences are unbounded and need not come from an EVM: custom callers of the hooks can produce any of them", "anchors": ["src/tracing/mod.rs: TracingInspector hooks", "src/tracing/arena.rs: push_trace"]}
{"id": "C128", "title": "Revert reasons are the ones contracts give", "statement": "The geth call tracer shows, as the revert reason of a call that failed, the text its contract gave: the string of revert(reason), byte for byte and whatever follows it in the data, or the printed form of a failed check of the compiler (Panic); no reason for an empty string; and no reason for calls that gave none, such as those failing with a custom error or other data.", "quantifier": "all executions, all worlds, all configurations, all call tracer options that ask for sub-calls, all outputs of all calls", "why_tests_cant": "outputs are arbitrary bytes of any length; a test covers a few encodings", "anchors": ["src/tracing/utils.rs: maybe_revert_reason", "src/tracing/types.rs: CallTraceNode::geth_empty_call_frame"]}
{"id": "C129", "title": "Executions with contract creations by EOFCREATE", "statement": "Executions in which contracts are created by EOFCREATE, whose frames the inspector is not told about, are recorded: no hook panics, and every announced call is recorded as a call of the innermost announced call in progress when it starts.", "quantifier": "all executions with any nesting of calls, creates and EOFCREATE creations, all instructions and hooks in them, all worlds, all configurations that do not exclude precompile calls", "why_tests_cant": "which frames surround which, and in what order, is unbounded; the crate's tests contain no EOF code", "anchors": ["src/tracing/mod.rs: TracingInspector (no eofcreate hooks)", "src/tracing/arena.rs: CallTraceArena::push_trace"]}
{"id": "C130", "title": "Reports of a transaction that was cut off", "statement": "If the execution is cut off after any hook call (a database error), a call that had been started and not ended is not reported as one that succeeded, and the calls that had ended are reported as they would have been at the end of the transaction.", "quantifier": "all transactions, all configurations, all points at which the hook calls may stop, all calls of the transaction, all options of the geth tracers", "why_tests_cant": "a test stops at one point of one execution; the claim is about every prefix of every execution", "anchors": ["src/tracing/mod.rs: TracingInspector", "src/tracing/types.rs: CallTrace::status, as_error_msg", "src/tracing/builder/parity.rs: into_transaction_traces_iter", "src/tracing/builder/geth.rs: geth_call_traces, geth_traces"]}
{"id": "C131", "title": "Asking a JavaScript tracer for its result", "statement": "Whenever the result is asked for, the script's result function is called exactly once, with the context of the transaction and a database object that reads the state the transaction left and then the database. Once it has returned, that object and those of all earlier hooks give no data any more. The caller receives what JSON has for the value it returned, or an error if it threw; nothing else about the tracer changes.", "quantifier": "all scripts, all histories of hook calls and earlier results, all transaction results, environments and states, all arguments of later reads", "why_tests_cant": "a test asks once after one transaction; objects kept by a script are about every later moment", "anchors": ["src/tracing/js/mod.rs: JsInspector::result, json_result", "src/tracing/js/bindings.rs: EvmDbRef, GcDb, JsEvmContext"]}
{"id": "C132", "title": "The other inspectors with creations by EOFCREATE", "statement": "In an execution with EOFCREATE, a JavaScript tracer is shown every instruction, with the contract executing it; opcode counts and gas include the init codes; the transfer inspector lists the transfers of all announced calls and creations and of selfdestructs.", "quantifier": "all executions with any number and nesting of EOFCREATEs, all tracer programs, all sets of defined functions, all opcodes", "why_tests_cant": "the executions form an infinite family of nested calls and unannounced frames", "anchors": ["src/tracing/js/mod.rs: JsInspector hooks (no eofcreate), active_call", "src/transfer.rs: TransferInspector hooks", "src/opcode.rs: OpcodeGasInspector"]}
{"id": "C133", "title": "Struct logs of a transaction that was cut off", "statement": "If the execution is cut off after any hook call, the struct logs are the first ones of the whole transaction: one line for every instruction that has begun, in the same order; a line whose instruction has ended is final apart from the return data of its call; the line of an instruction that has not ended says what was seen when it began and shows no cost, no error and no storage.", "quantifier": "all transactions, all points at which the hook calls may stop, all options of the struct logger, all configurations recording every step", "why_tests_cant": "a test stops at one point of one execution; the claim is about every prefix of every execution", "anchors": ["src/tracing/builder/geth.rs: geth_traces, fill_geth_trace", "src/tracing/types.rs: CallTraceNode::call_step_stack, CallTraceStep::convert_to_geth_struct_log", "src/tracing/mod.rs: start_step, fill_step_on_step_end"]}
{"id": "C134", "title": "What has been reported stays reported", "statement": "An inspector asked for its report between two hook calls and again later has taken nothing back, whatever the hooks in between: the transfers found so far are the first ones of the later list, accounts and slots stay in the access list, the counts of selectors, opcodes and instructions and the gas of opcodes never go down, and the calls made to a script are the first ones of those made later.", "quantifier": "all states of these inspectors, all sequences of hook calls in between, all scripts", "why_tests_cant": "a test asks at two points of one execution; the claim is about any two points of any history", "anchors": ["src/transfer.rs: TransferInspector", "src/access_list.rs: AccessListInspector", "src/tracing/fourbyte.rs: FourByteInspector", "src/opcode.rs: OpcodeGasInspector", "src/tracing/opcount.rs: OpcodeCountInspector", "src/tracing/js/mod.rs: JsInspector"]}
{"id": "C135", "title": "The written trace follows the execution, also of a cut-off transaction", "statement": "Writing the recording of a transaction, complete or cut off after any of its hook calls, writes what writing along with the hook calls would have written: the first line of a call when it starts, a log when it is emitted, the last line of a call when it ends, each one level below the open calls, calls asked to be left out excepted; followed by the last lines of the calls still open, innermost first, which read [Continue] and show neither output nor code. What a cut-off transaction had written is the beginning of what the complete one writes, and says the same apart from the first lines of the calls still open, which show no gas used yet.", "quantifier": "all executions, all configurations, all points where the transaction is cut off, all writers and levels", "why_tests_cant": "a test writes the trace of one transaction; a failing database can abort a transaction after any hook call", "anchors": ["src/tracing/writer.rs: TraceWriter::write_arena", "src/tracing/mod.rs: TracingInspector, step, log, call, call_end, create, create_end", "src/tracing/arena.rs: CallTraceArena::push_trace"]}
{"id": "C136", "title": "Without a reset after a transaction that was cut off", "statement": "A TracingInspector that has recorded a transaction cut off after any hook call and is not reset records the next one if a new inspector could record it, cut off or not. The recording is the one described by C126 (filed on top of what was there), except that the new top-level call is taken for an inner one: it is recorded with the gas of the call instead of the transaction's gas limit, and if precompile calls are left out and it calls a precompile without value, it is marked as left out. The Parity traces then have no entry for it; otherwise its entry, and in any case the call tracer's frame, shows the gas of the call. This goes on until fuse is called.", "quantifier": "all recordings with open calls, all transactions recorded after them, complete or cut off, all configurations", "why_tests_cant": "the states left behind by aborted transactions cannot be enumerated", "anchors": ["src/tracing/mod.rs: start_trace_on_call, is_deep, is_precompile_call", "src/tracing/arena.rs: push_trace", "src/tracing/builder/parity.rs: iter_traceable_nodes", "src/tracing/builder/geth.rs: geth_call_traces"]}
{"id": "C137", "title": "A recording that is stored and read back", "statement": "With the serde feature a recording (CallTraceArena) can be written and read back. The Parity traces, the call tracer's frames, the callers and the written trace of the recording that was read back are those of the original, whatever was recorded. The struct logs and the vm trace differ from the original's exactly in the opcodes revm does not know, which are shown as INVALID. So nothing is lost if every executed opcode is known, and nothing more is lost by storing the recording a second time.", "quantifier": "all recordings, all options of the reports, all histories of hook calls", "why_tests_cant": "the recordings cannot be enumerated", "anchors": ["src/tracing/types.rs: opcode_serde, CallTraceStep, CallTrace, CallTraceNode", "src/tracing/arena.rs: CallTraceArena", "src/tracing/builder/geth.rs: geth_traces, geth_call_traces", "src/tracing/builder/parity.rs: into_transaction_traces, vm_trace", "src/tracing/writer.rs: write_arena"]}
{"id": "C138", "title": "Gas adds up in a recording", "statement": "If every opcode is recorded, the gas an inner call that ran code is reported to have used, plus what the calls it made gave back to it, is the sum of the costs of its recorded steps plus, for a successful creation, 200 gas per byte of the code stored; for the transaction the same holds of the gas used before the refund. From one step of a call to the next its remaining gas falls by the cost of the step and, after a call instruction, rises by what that call gave back. The gas an inner call is reported to have used is what its caller lost by making it.", "quantifier": "all executions in which gas moves as in revm, all configurations that record every opcode", "why_tests_cant": "the executions cannot be enumerated; the sums go over calls and steps of any number", "anchors": ["src/tracing/mod.rs: start_step, fill_step_on_step_end, start_trace_on_call, fill_trace_on_call_end", "src/tracing/types.rs: CallTrace, CallTraceStep"]}
{"id": "C139", "title": "Struct logs can be read as a tree of calls", "statement": "Whoever has nothing but the struct logs of a transaction can tell which call each line belongs to. Two lines are from the same call if and only if they show the same depth and no line in between shows a lower one. The last earlier line with a lower depth than a line's is the call or create instruction that made the line's call; it is one level up, belongs to the call recorded as the parent, and exists unless the line is one of the transaction's own. The lines of a call are its recorded steps in order. From a line to the next one of the same call the gas falls by the cost, and, if the line is a call instruction, rises by what the call gave back; the lines in between are those of that call and of the calls it made, and there are none exactly if it ran no code. The lines asked for in the middle of a transaction, after any hook call, group and nest in the same way.", "quantifier": "all executions, all configurations that record every opcode of every call, all rendering options; for the grouping and the caller also every point at which the transaction is cut off", "why_tests_cant": "the lines of a trace and the depth of the calls are unbounded, and the statement is about every pair of lines", "anchors": ["src/tracing/builder/geth.rs: fill_geth_trace, geth_traces", "src/tracing/types.rs: push_steps_on_stack, call_step_stack, convert_to_geth_struct_log", "src/tracing/mod.rs: start_step, fill_step_on_step_end"]}
{"id": "C140", "title": "Parity traces can be read as a tree of calls", "statement": "Whoever has nothing but the flat list of parity traces can rebuild the tree of calls from the trace addresses. Every call that is not left out has exactly one call entry. A call contains another, directly or not, if and only if the trace address of its entry is a prefix of the other's. The entries whose addresses begin with the address of an entry are that entry and a number of entries directly after it. The first entry has the empty address, and every other entry is directly below the last earlier entry with a shorter address: that is the entry of a call, the entry's address has exactly one more number, and for the entry of a call it is the one of the call recorded as its parent.", "quantifier": "every hook history; for the last sentence every execution and every point at which it is cut off; all configurations", "why_tests_cant": "the calls of a transaction are unbounded in number and depth, and the statement is about every pair of entries", "anchors": ["src/tracing/builder/parity.rs: into_transaction_traces, into_transaction_traces_iter, trace_address, trace_addresses", "src/tracing/arena.rs: push_trace", "src/tracing/types.rs: parity_transaction_trace, parity_selfdestruct_trace"]}
{"id": "C141", "title": "The reports account for the balances", "statement": "The balance of every account after a transaction (apart from fees) is its balance before plus what the reports list to it minus what they list from it. For the parity traces: take the calls of type call, the creates and the selfdestructs that neither have an error nor are below an entry with an error; a selfdestruct to the contract itself loses the amount. The changes of balances in the parity state diff are these sums plus the fees. For TransferInspector: the sum over all listed transfers. For the geth call tree: the sum over the frames of type CALL, CREATE, CREATE2 and SELFDESTRUCT that are not in a frame with an error.", "quantifier": "every execution, every account, all balances before, all configurations; for the state diff all state maps that hold the balances after the execution", "why_tests_cant": "the sums range over all calls of a transaction with any nesting of failing and succeeding calls", "anchors": ["src/transfer.rs: TransferInspector", "src/tracing/builder/parity.rs: into_transaction_traces, populate_state_diff", "src/tracing/types.rs: parity_action, parity_selfdestruct_action, parity_trace_output", "src/tracing/builder/geth.rs: geth_call_traces"]}
{"id": "C142", "title": "The contracts created and destroyed can be read off the parity traces and the call tree", "statement": "Take the parity traces that neither have an error nor are below an entry with an error. Their creates list exactly the accounts the transaction created, in order and with their code; their selfdestructs list exactly the contracts it destroyed, with target and amount. The state diff of the same transaction has an added account for exactly the listed creates whose account no listed selfdestruct names, with the same code. The creates of the geth call tree, left out with everything below a frame with an error, list the same accounts with the same code.", "quantifier": "every execution with any nesting of failing and succeeding calls and creates, all configurations; for the state diff all state maps that mark the created and destroyed accounts", "why_tests_cant": "creates can be undone by any frame around them, at any depth", "anchors": ["src/tracing/builder/parity.rs: into_transaction_traces, populate_state_diff", "src/tracing/types.rs: parity_action, parity_trace_output, parity_selfdestruct_action", "src/tracing/builder/geth.rs: geth_call_traces"]}
{"id": "C143", "title": "The recorded changes account for the storage", "statement": "Go through the recorded calls that succeeded, in the recorded order of their instructions and sub-calls, and collect the storage changes recorded with SSTORE instructions, each for the account the call executes as. The collected changes are the changes of storage the transaction made, in order, without those undone by a failing call; so the last one for a slot is what the slot is left with. The storage part of the state diff of the transaction lists exactly the slots left with another value than they had, with that value.", "quantifier": "every execution, every account and slot, all configurations recording SSTORE instructions and state changes; for the state diff all state maps that hold the storage after the execution", "why_tests_cant": "changes are spread over the instructions of all calls, any of which may be undone by a failing call around it", "anchors": ["src/tracing/mod.rs: TracingInspector::fill_step_on_step_end", "src/tracing/types.rs: CallTraceNode, StorageChange, TraceMemberOrder", "src/tracing/builder/parity.rs: populate_state_diff"]}
{"id": "C144", "title": "The logs of the transaction can be read off the reports", "statement": "Go through the recorded calls that succeeded, in the recorded order of their logs and sub-calls, and collect the logs, each for the address the call executes as: these are the logs of the receipt of the transaction, in their order. The logs of a geth call tree asked for with logs are the same logs, in some order (those of a call are listed before those of its sub-calls).", "quantifier": "every execution, all configurations recording logs, all call configurations with logs and sub-calls", "why_tests_cant": "a log counts only if no call around it fails, however deep it was emitted", "anchors": ["src/tracing/mod.rs: TracingInspector::log", "src/tracing/types.rs: CallTraceNode, TraceMemberOrder, CallTraceNode::geth_empty_call_frame", "src/tracing/builder/geth.rs: GethTraceBuilder::geth_call_traces"]}
{"id": "C145", "title": "The prestate tracer and the traces fit together", "statement": "The balances the geth prestate tracer lists, plus what the parity traces of the same transaction move, plus the fees, are the balances after the transaction; the slots it lists, updated by the storage changes of the recorded calls, are the slots after it. In diff mode the difference between the balances shown is what the traces move plus the fees, an account is only in post exactly if the traces create it without destroying it, with the code of the trace, and the slots shown are those the recorded changes leave with another value than they had.", "quantifier": "every execution, every state map that holds the state after it, every database, all prestate configurations", "why_tests_cant": "two reports built from different data, one from the state map and one from the recorded calls, must agree for every transaction", "anchors": ["src/tracing/builder/geth.rs: GethTraceBuilder::geth_prestate_traces", "src/tracing/builder/parity.rs: ParityTraceBuilder::into_transaction_traces", "src/tracing/types.rs: CallTraceNode, StorageChange"]}
{"id": "C146", "title": "The prestate has every account that the reports mention", "statement": "Every account named by the parity traces of a transaction (as caller, called or created account, destroyed contract or refund target) and every account named by the calls of its geth call tree, logs included, is listed by the prestate tracer for the same transaction.", "quantifier": "every execution, every state map with the accounts the execution loads, every database, all configurations", "why_tests_cant": "a consumer replays a trace on the prestate; an account missing for one transaction breaks the replay", "anchors": ["src/tracing/builder/geth.rs: GethTraceBuilder::geth_prestate_traces, GethTraceBuilder::geth_call_traces", "src/tracing/builder/parity.rs: ParityTraceBuilder::into_transaction_traces"]}
{"id": "C147", "title": "Reports on an edited recording", "statement": "A user may rewrite the traces, logs and steps of the recorded calls (through nodes_mut, or in the serialised form) as long as they keep which call made which and how deep: every report (geth call tree and struct logs, parity traces, localized traces and trace results with and without state, and the written text) is then still built without a panic, every call keeps its trace address, and the call tree nests the calls as they were recorded and shows what the edited calls say.", "quantifier": "every hook history, every configuration, every edit of every field other than the links, all options, states and databases", "why_tests_cant": "the builders read counters and indices from the edited fields, and a bad combination of them appears for one edit of one tree", "anchors": ["src/tracing/arena.rs: CallTraceArena::nodes_mut", "src/tracing/types.rs: CallTraceNode", "src/tracing/builder/parity.rs: ParityTraceBuilder::trace_address, ParityTraceBuilder::into_trace_results_with_state", "src/tracing/builder/geth.rs: GethTraceBuilder::geth_call_traces, GethTraceBuilder::geth_traces", "src/tracing/writer.rs: TraceWriter::write_arena"]}
{"id": "C148", "title": "Decoding a recording does not change its reports", "statement": "Adding labels, decoded call data and return data, decoded log names and parameters, and decoded steps to a recording changes no report: the geth call tree and struct logs, the parity traces, the vm trace, the trace results with and without state and the set of callers stay the same.", "quantifier": "every arena, recorded or not, every decoration of it, all options, configurations, states and databases", "why_tests_cant": "decorations are optional fields on every call, log and step, and a builder that consulted one of them would go wrong for decorated recordings alone", "anchors": ["src/tracing/types.rs: DecodedCallTrace, DecodedCallLog, DecodedTraceStep", "src/tracing/builder/geth.rs: GethTraceBuilder", "src/tracing/builder/parity.rs: ParityTraceBuilder"]}
{"id": "C149", "title": "A call is reported the same at every depth", "statement": "Take a call made anywhere in a transaction, and the same call run as a transaction of its own. The parity entries at and below the call's trace address are the entries of the other report moved below that address. The geth call tree, SELFDESTRUCT frames apart, contains a frame with the same fields and the same calls as the other tree; with logs, this holds of calls that succeeded inside calls that succeeded. Only the gas limit and the gas used of the call itself may differ, because those of a transaction include its own limit and refund.", "quantifier": "every execution, every call in it at any depth that is not left out of the reports, every configuration, every pair of worlds with the same precompiles", "why_tests_cant": "it relates the reports on two executions of any depth; a mistake in depth, address or value handling shows at one depth only", "anchors": ["src/tracing/mod.rs: TracingInspector", "src/tracing/builder/parity.rs: ParityTraceBuilder::into_transaction_traces", "src/tracing/builder/geth.rs: GethTraceBuilder::geth_call_traces"]}
{"id": "C150", "title": "The struct logs of a call are the same at every depth", "statement": "Take a call made anywhere in a transaction, and the same call run as a transaction of its own. The struct logs of the second report are a stretch of the struct logs of the first, moved to the depth of the call: operation, program counter, gas, cost, error, stack and return data are the same, the memory is the same up to zero words at the end, and storage is shown on the same lines, with every slot that the second report shows.", "quantifier": "every execution, every call in it at any depth, all tracing options", "why_tests_cant": "it relates the reports on two executions of any depth and length", "anchors": ["src/tracing/builder/geth.rs: GethTraceBuilder::geth_traces, fill_geth_trace", "src/tracing/types.rs: CallTraceStep::convert_to_geth_struct_log"]}
{"id": "C151", "title": "The written trace of a call is the same at every depth", "statement": "Take a call made anywhere in a transaction, and the same call run as a transaction of its own. What a writer writes of the second, from the indentation level of the call, stands as one piece in what it writes of the first, apart from the number for the gas used in its first line.", "quantifier": "every execution, every call in it at any depth that is not left out of the reports, every configuration and every writer that does not fail", "why_tests_cant": "it relates the texts of two executions of any depth; wrong indentation or branches show at some depths only", "anchors": ["src/tracing/writer.rs: TraceWriter::with_indentation_level, write_arena"]}
{"id": "C152", "title": "The callbacks of a call are the same at every depth", "statement": "Take a call made anywhere in a transaction, and the same call run as a transaction of its own, traced by scripts that define the same callbacks. Everything the second script is shown by enter, exit, step and fault, the first is shown in one piece, in the same order and with the same contents apart from depths, which are moved to the depth of the call; the piece stands between the enter and the exit of the call, if the script has them.", "quantifier": "every execution, every call in it at any depth, all scripts and sets of callbacks that do not stop the transaction", "why_tests_cant": "it relates the callback histories of two executions of any depth and length", "anchors": ["src/tracing/js/mod.rs: JsInspector"]}
{"id": "C153", "title": "A call is recorded the same at every depth", "statement": "Take a call made anywhere in a transaction, and the same call run as a transaction of its own with the same configuration. The nodes of the second recording are a stretch of the nodes of the first: every field of every node, log, step and ordering entry is the same once indices are moved to the place of the call in the arena and depths to the depth of the call. Only the first node differs, in its parent, gas limit and gas used.", "quantifier": "every execution, every call in it at any depth that is not left out of the reports, every configuration", "why_tests_cant": "it relates two recordings of any size field by field", "anchors": ["src/tracing/mod.rs: TracingInspector", "src/tracing/arena.rs: CallTraceArena::push_trace", "src/tracing/types.rs: CallTraceNode, CallTrace, CallTraceStep"]}
{"id": "C154", "title": "Counters and transfers add up over the calls", "statement": "The opcode gas inspector's count and gas of an opcode in a transaction are those of the instructions of the top frame plus the sum of what the inspector reports for each call of the top frame when that call is run as a transaction of its own. The same holds of the opcode count inspector's number of instructions, and of the four-byte inspector's entry of a selector and size, with one for the top call itself if it has that selector and size. The transfers reported for a call, at any depth, run as a transaction of its own are a contiguous stretch of the transfers reported for the transaction, also when the inspector of the transaction reports internal transfers only.", "quantifier": "every execution with any number of calls, every opcode, selector, size and call at any depth", "why_tests_cant": "it relates the results of unboundedly many runs of the inspectors", "anchors": ["src/opcode.rs: OpcodeGasInspector", "src/tracing/fourbyte.rs: FourByteInspector", "src/transfer.rs: TransferInspector", "src/tracing/opcount.rs: OpcodeCountInspector"]}
