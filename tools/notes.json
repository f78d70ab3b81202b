{
 "C01": {
  "note": "for executions whose recording does not panic (snapshot_safe, see C09) and whose precompiles have no sub-frames"
 },
 "C04": {
  "status": "partial",
  "note": "holds with at most one root start since new/fuse; the refuted theorem shows that reuse for a second transaction without fuse breaks it"
 },
 "C07": {
  "note": "refuted: KECCAK256, LOG*, CREATE* grow memory without a new snapshot. Partial: equal up to trailing zeros; equal with an opcode filter or without those opcodes. Without a filter, exactly which earlier memory each step shows (C07_snapshots_exactly)"
 },
 "C08": {
  "note": "refuted: SLOAD/no-op SSTORE re-reports the last journalled change. Proved: exact when the instruction itself appended the journal entry; and in general what is recorded is exactly the newest storage entry of the journal (C08_recorded_exactly)"
 },
 "C09": {
  "note": "refuted: in Pushes mode an opcode failing on a short stack panics. Proved: exactly which executions panic (C09_panics_exactly); otherwise the snapshot is the top of stack"
 },
 "C11": {
  "note": "refuted: a negative refund counter is cast to u64 and takes the whole cap. Partial: non-negative counters"
 },
 "C13": {
  "note": "TracingInspector and the five simple inspectors; MuxInspector is in its own file"
 },
 "C41": {
  "note": "refuted: of several request entries for one address only the last is kept. Proved exactly for every request (the last entry of each address is kept); and for requests without repeated addresses nothing is lost"
 },
 "C42": {
  "note": "Refuted for gas limits near 2^64: the gas a CALL hands on counts as its cost, so nested calls push the u64 total over 2^64 (an overflow: a panic in debug builds). C42_overflow_exact: this happens exactly when a total reaches 2^64, and C42_counts_and_gas_partial has the property otherwise; C42_ordinary_limits: not for instructions * gas limit below 2^64."
 },
 "C46": {
  "note": "refuted: transfers of frames that revert stay in the list. Partial: exact when no frame fails; and nothing effective is missing in general"
 },
 "C60": {
  "note": "refuted: an opcode byte revm does not know deserializes as INVALID. Partial: identity on known opcodes"
 },
 "C62": {
  "note": "refuted: TLOAD, BLOBHASH and BLOBBASEFEE push one word but the table says zero. Partial: all other defined opcodes"
 },
 "C63": {
  "note": "refuted: KECCAK256, LOG* and CREATE* can grow memory. Partial: exact for content changes other than growth"
 },
 "C21": {
  "note": "Refuted for a frame that makes calls and then selfdestructs: its selfdestruct entry is emitted before the entries of its calls. Proved for every history: call entries are in lexicographic order, a selfdestruct entry directly follows its frame, and the whole list is sorted when no selfdestructed frame has children."
 },
 "C23": {
  "note": "Refuted twice: with two subcalls where the second makes calls itself the subtraces are attached to the wrong instructions, and a last frame starting with STOP empties the whole vm trace. Proved when only first subcalls contain call instructions and the shortcut does not trigger. What is attached where in every other case is stated exactly by C82_vm_trace."
 },
 "C16": {
  "note": "Refuted: the call tracer rolls frames up by the parent field, so excluded precompile calls still appear. Proved instead: the listed calls beyond a node's recorded children are exactly the excluded precompile calls."
 },
 "C28": {
  "note": "Refuted: the synthetic frame of a selfdestruct goes into the frame recorded just before the selfdestructing one, which can be a sibling. Proved: the exact placement, and the claim itself when every selfdestructing non-root call is the first call of its parent."
 },
 "C29": {
  "note": "Refuted for the root: a failed root frame still lists its logs. Proved: the claim for every other frame and for a successful root, and exactly what the root lists."
 },
 "C33": {
  "note": "Refuted for enable_memory absent with disable_memory = false (memory counts as enabled when rendering but is not recorded). Proved for all other options, and exactly for all options (C33_content_exactly)."
 },
 "C34": {
  "note": "Refuted: the step of a CALL/CREATE ends with the in-flight marker CallOrCreate, which compares above Revert and is reported as an error. Proved exactly for all results (C34_errors_exactly)."
 },
 "C36": {
  "note": "The property as stated (accounts with nothing changed are absent) is refuted for an account whose code is in the database but was not loaded into the state map: its pre entry shows the code. Proved for all inputs: the exact pre/post entries of every account, judging code by what is attached to the account, and absence of unchanged accounts when the attached code is the database's."
 },
 "C49": {
  "note": "any recorded history of one transaction, any later decoration whose internal calls are well nested, any start level that fits the u16 (in release builds an overflow would wrap, in the model it panics)"
 },
 "C50": {
  "note": "inner writer: accepts any number of bytes, then fails"
 },
 "C51": {
  "note": "refuted: an error below the root leaves the indentation level incremented. Partial: restored on success and on flush failure; otherwise it is the level of the interrupted part"
 },
 "C52": {
  "note": "EIP-55 address text is an oracle assumed UTF-8"
 },
 "C53": {
  "note": "All buffers in every accepted form; the value is the big-endian number modulo 2^160 / 2^256."
 },
 "C54": {
  "note": "Refuted: the end check is inverted (bindings.rs:277), so slice(0,16) of 32 bytes throws and slice(0,64) panics. Proved: ranges reaching the end of memory, and the rejected arguments. Every end beyond the memory panics."
 },
 "C55": {
  "note": "Refuted only for offsets within 32 of 2^64 or infinite, where offset+32 overflows. stack.peek is proved for all numbers. Exactly those offsets panic."
 },
 "C56": {
  "note": "Refuted for tracers that define exit but not enter (can_call_exit looks at enter). Proved for all others; exit-only tracers are characterised exactly."
 },
 "C57": {
  "note": "Refuted: register_precompiles returns early unless already registered, so it never registers. The lookup function itself is proved."
 },
 "C58": {
  "note": "Refuted: a non-callable fault object is accepted (the result function is tested twice). The exact acceptance condition and, for each kind of error, exactly when it is reported are proved."
 },
 "C59": {
  "note": "For every history and program: a handle is readable exactly during the invocation it was made for. Lengths captured at creation stay readable; they are not guarded."
 },
 "C67": {
  "note": "Refuted for getState (reads only the database) and for getCode of code that is only in the journaled state. exists/getBalance/getNonce proved in full; getState and getCode are characterised exactly (the database's slot; the database's code of the account's hash)."
 },
 "C69": {
  "note": "Refuted: only reverts are reported, and only if step is defined. Exact characterisation proved."
 },
 "C70": {
  "note": "Refuted: an enter callback that throws on a call reaches todo!(). Proved: exactly when a run panics (C70_panics_exactly); and the reaction to every other throw."
 },
 "C71": {
  "note": "Refuted: the error is never set. Gas and output proved."
 },
 "C72": {
  "note": "Refuted for intrinsicGas (always 0); every other field proved."
 },
 "C73": {
  "note": "Refuted: getCost is the gas spent in the frame so far."
 },
 "C74": {
  "note": "Hypotheses: env_ok, final refund is a non-negative i64. A frame that ends with SELFDESTRUCT without announcement of the refund has an entry with zeros."
 },
 "C75": {
  "note": "The placement of the synthetic SELFDESTRUCT frames is C28 (refuted); here they are removed, and absent if no frame selfdestructs."
 },
 "C77": {
  "note": "Refuted above 2^53 (getGas at 2^53+1); proved: nearest double always, exact up to 2^53 and for every value a double can hold."
 },
 "C78": {
  "note": "Vectors have at most usize::MAX elements (holdable). memory.slice is C54, getCode/getState are C67, getCost is C73, the missing exit error is C71. The opcode's text, the journaled state and the database are quantified functions."
 },
 "C79": {
  "note": "Refuted: ctx.time is a string. Everything else proved; gas price and block number below 2^64; intrinsicGas is C72."
 },
 "C80": {
  "note": "Refuted: every log of a frame shows the frame's final output. That is proved as the partial theorem."
 },
 "C81": {
  "note": "Which changes an SLOAD/SSTORE reports is the newest journal entry (C08 refutes that it is always the instruction's own); CallOrCreate counts as an error (C34). Memory up to trailing zeros is C07. evm_calls, evm_memory: EVM facts about calls following call opcodes and who writes memory."
 },
 "C82": {
  "note": "vm_trace for every configuration and every execution, as the queue discipline over finished frames; C82_root_instructions is the instruction-wise reading for the root frame. env_ok and evm_memory are the EVM facts of SpecExec."
 },
 "C83": {
  "note": "Refuted: the record shows the whole memory before the instruction with its own length as the offset (C83_refuted). C83_memory_partial states exactly what is shown."
 },
 "C84": {
  "note": "Refuted: a creation shows the code the database has at the new address (none) instead of its init code. Partial: with the nesting conditions of C23, every trace shows the database's code of its frame's recorded address (the code address for delegate calls). In general (C84_level_order): only codes are filled in, and the traces in level order show the database's codes of the frames in level order."
 },
 "C85": {
  "note": "C85_append_only holds for every state and every hook sequence; C85_interrupted for every prefix of the hooks of an execution."
 },
 "C86": {
  "note": ""
 },
 "C87": {
  "note": ""
 },
 "C88": {
  "note": "Address derivation itself (keccak) is a parameter. Nonces above 2^64 - 1 saturate and negative ones count as zero; the theorem gives the exact answer for the others."
 },
 "C89": {
  "note": "Synthetic selfdestruct frames (never with a reason, C28) are left out of the list. ABI decoding itself is a parameter."
 },
 "C90": {
  "note": "Synthetic selfdestruct frames, whose placement is C28, are left out."
 },
 "C91": {
  "note": "The JavaScript run is one that does not abort the host (C70)."
 },
 "C92": {
  "note": "The state is a map (no duplicate addresses or slots), as in C25."
 },
 "C93": {
  "note": "Refuted: SELFDESTRUCT overwrites the address of the running frame, so a DELEGATECALL/CALLCODE whose code selfdestructs reports the destroyed contract as its callee. Proved for every other frame, and exactly what those frames report."
 },
 "C94": {
  "note": "Refuted: the from of a geth SELFDESTRUCT frame is the caller of the destroyed contract; and a SELFDESTRUCT the EVM does not announce to inspectors (one that moves nothing since EIP-6780) is reported by parity traces as a refund of zero to the zero address. Everything else proved; placement is C28."
 },
 "C95": {
  "note": "Refuted: a DELEGATECALL's value is shown to the tracer as zero while the call tree shows the inherited value. Proved for everything else; the called account of delegated frames up to C93. The missing exit error is C71."
 },
 "C96": {
  "note": "Texts with an exponent or a point are covered by C116, other bases by C106 and C117."
 },
 "C97": {
  "note": ""
 },
 "C98": {
  "note": ""
 },
 "C99": {
  "note": ""
 },
 "C100": {
  "note": "Refuted: a shift count that is a bigint is always refused (a SmallInteger is not instanceof BigInteger), so bigint(1).shiftLeft(bigint(1)) throws. Proved for every shift by a number; the bitwise functions are proved in full."
 },
 "C101": {
  "note": "Refuted: with the vm trace asked for, into_trace_results_with_state on an empty node list panics, because the breadth-first walk starts at node 0 unconditionally. Everything else is proved, including for reset inspectors."
 },
 "C102": {
  "note": "Math.pow is an oracle, assumed exact below 2^53 and at least 2^53 above."
 },
 "C103": {
  "note": "Refuted: bigint(5).modPow(0, 1) is 1, not 0. Proved for every positive exponent; exponents up to zero give 1, negative ones included."
 },
 "C104": {
  "note": "Refuted: bigint(2).modInv(-3) throws though 2 is its own inverse modulo 3. Proved for every positive modulus; for the others, every answer is an inverse and the answers given are characterised exactly (a negative modulus answers exactly when Euclid's algorithm on the absolute values divides an odd number of times)."
 },
 "C105": {
  "note": ""
 },
 "C106": {
  "note": "Refuted: short texts go to parseInt, which ignores what follows the last digit, so bigint(\"1-2\", 16) is 1. Proved: every numeral is read rightly, foreign letters and digits are refused, long texts are read only if numerals, toString(radix) round trips."
 },
 "C107": {
  "note": "Refuted: isPrime says true of 341550071728321 = 10670053 * 32010157. Proved: both tests end and never call a prime composite (Fermat's little theorem, square roots of 1 modulo a prime), and are right below 25 and for multiples of 2, 3 and 5. C107_exact: for every other number the answer is Miller's test for the bases 2, 3, 5, 7, 11, 13, 17 and 19, no more and no less."
 },
 "C108": {
  "note": "Math.random is an oracle: a drawn digit is below its bound."
 },
 "C109": {
  "note": "Refuted: all() leaves record_state_diff off, so storage changes are not recorded. Proved for everything else, and for none(); no hypothesis on the execution."
 },
 "C110": {
  "note": "Refuted: a contract destroyed with the balance, nonce and slots it had is listed by the parity diff with everything unchanged and left out by the geth diff. Proved for all other accounts, with the exact answer for those. Hypothesis `executed`: facts about the state maps an EVM leaves."
 },
 "C111": {
  "note": "Frames that only report a selfdestruct are left out of the tree first (without_selfdestructs)."
 },
 "C112": {
  "note": "Hypothesis evm_schemes: EVM facts on which call schemes carry value. Both failing and succeeding frames count: neither list is filtered by success."
 },
 "C113": {
  "note": "Excluded precompile calls count."
 },
 "C114": {
  "note": "Careless changes do harm: C114_careless_panics, a panic when step recording is switched on within an instruction; C114_careless_mixes shows a wrong record without panic."
 },
 "C115": {
  "note": "Refuted: geth_empty_call_frame asks as_error_msg for TraceStyle::Parity, so a reverted call says \"Reverted\". Proved: an error is present exactly for unsuccessful calls and names the outcome in parity's words."
 },
 "C116": {
  "note": "Refuted for texts that JavaScript reads as no number: \"12345e\" makes an improper object of 45 instead of an error; and for numbers of 2^53 and more, which are read through their shortest text. Proved: every text of an integer, with or without point and exponent, is read exactly (an exponent beyond the size of arrays is refused), texts without exponent that are not digits are refused, numbers are read as an integer that rounds to them (exactly below 2^53), lists of digits have their positional value. What +text and number.toString() give is quantified over, assumed to round to nearest and to round back."
 },
 "C117": {
  "note": "Refuted for digits of 2^53 and more, which are written as limbs in memory order: 10^19 in radix 10^20 is <0,0,100000>. Proved for all integers and radixes of absolute value from 2 up to 2^53, for radixes 1 and -1 up to 2^32-2 (and 2^32-1 in radix -1; an exception for all others) and for radix 0 (only zero is written); for larger radixes the digits are proved right, with those of 2^53 and more shown as limbs; reading proved for every radix but 0 and all texts."
 },
 "C118": {
  "note": "For executions without decorations added by the user (C49 covers those). Addresses are written by an arbitrary checksum function; call depths fit into the writer's 16-bit level, as EVM depths do."
 },
 "C119": {
  "note": "Composition of C40 (access list of a hook history) with C06 (steps recorded for every frame)."
 },
 "C120": {
  "note": "Refuted: sub-calls are matched with recorded call instructions by position, so a filter without DELEGATECALL, or leaving out precompile calls, moves the lines of a sub-call to another instruction and drops others. Proved: exactly which lines are shown for every configuration (C120_shown_exactly), and the property for filters that ask for every call and create instruction with no calls left out."
 },
 "C121": {
  "note": "Refuted: the vm trace gives sub-traces to the wrong call instructions when a later sub-call makes calls itself (C23), and is empty when the last code entered is a single STOP. Proved for every configuration: the instructions of the transaction's own code agree with the lines of depth 1, and all instructions agree when only the first sub-call of each frame makes calls and the shortcut does not apply."
 },
 "C122": {
  "note": "Refuted in two ways: a contract destroyed without any other change, and a funded address where a contract is created and destroyed in one transaction, are in neither map of the diff, so a reader takes them for unchanged. Proved: the two modes agree (C122_modes_agree), the replay is exact for every account that is not destroyed and for every other destroyed account, and for the two kinds it is right exactly if there was no account before (C122_replay_partial)."
 },
 "C123": {
  "note": "Not shown, so not in the text: create or create2, the value and init code of a creation, the emitter of a log, the steps. Addresses are shown by their EIP-55 checksum, an oracle that is 0x and forty characters and tells addresses below 2^160 apart."
 },
 "C124": {
  "note": "Refuted in two ways: a destroyed contract is never reported as removed, so its nonce, code and slots seem to stay; and a contract created at an address with a balance is reported as added, so backwards that balance is lost. Proved: both directions for all other accounts, and what a reader gets for those (C124_apply_partial). Nonces not going down and the slots of new accounts starting at zero are hypotheses about the EVM (evm_accounts), as in C122."
 },
 "C125": {
  "note": "Refuted in two ways: serde_json refuses values nested 128 deep or more (a tracer nesting the calls of a transaction gets there with 64 calls), so the caller gets an error; and a value such as {a: undefined, b: 1n}, which JSON.stringify refuses, reaches boa's to_json, where undefined is a todo!, so the node panics. Also texts with half a surrogate pair are refused. Proved for every other value, with writing and reading of JSON text modelled in full (C125_result_partial, C125_bigint). Relies on ECMA-262's JSON.stringify, serde_json's reader with its default depth limit and boa 0.18's to_json as described in JsJson.v."
 },
 "C126": {
  "note": "Exact description of the recording (SpecReuse.added) by a simulation between the reused inspector and a new one; the consequence for parity traces for every history; C126_not_written shows that the writer never succeeds on such recordings (C126_example: it panics)."
 },
 "C127": {
  "note": "Exact characterisation (SpecAccepted.accepted) by a state with the depth of the latest call, the values of the open calls and the instructions begun; the invariant is the length of the path of last children. Histories in which a top-level call starts inside another are not covered (the root's steps are then overwritten while they may still be referred to)."
 },
 "C128": {
  "note": "Refuted in its last part: data that is neither Error(string) nor Panic(uint256) is shown as text if it is valid UTF-8, so a call reverting with the byte 0x2a shows the reason *. Proved: reasons given are shown as given, and exactly what is shown for every output, malformed encodings and strings that are not UTF-8 included (C128_shown_exactly). alloy's GenericRevertReason::decode is modelled (RevertReason.v) as it works without validation; only the printed text of Panic codes is left open."
 },
 "C129": {
  "note": "Refuted: a call made by the init code of an EOFCREATE panics (Disconnected trace), or is recorded as a call of one that has ended. Proved: exactly which executions are recorded (no call starts more than one level below the latest one); if the init codes make no calls, the record is that of the execution in which the caller executes them itself, but for the depths of the instructions, and the parents are right; a transaction that is itself an EOF creation panics at its first instruction if instructions are recorded."
 },
 "C130": {
  "note": "Refuted for the calls that had not ended: they keep the status Continue, which counts as a success, so that the Parity traces show a success without output that used no gas (for a creation: with the new address), and the call tracer shows no error. Proved: exactly that; the struct log trace is marked as failed; the records of ended calls, and their entries in the Parity traces, are final. The call tracer's frames of ended calls are final as well, except that their logs are taken away if a caller fails later (C130_frames)."
 },
 "C131": {
  "note": "The context object is that of C79 and the value's way to the caller that of C125, where the deviations are; this claim adds when and with what the function is called, and that its objects die. The script is a function of the calls made so far; what toJSON methods of its value do is part of the value."
 },
 "C132": {
  "note": "Refuted for the contract: no inspector implements the eofcreate hooks, so the instructions of an init code are shown with the contract of the innermost announced call (log.contract is the creator), and there is no enter or exit for the creation. A transaction that is itself such a creation makes a tracer with step panic (C132_top_level). Proved: exactly what is shown, that nothing else stops a tracer, the counts, and the transfers listed; the endowment of an EOFCREATE is not listed. The access list, the four-byte inspector and the opcode counter are proved for arbitrary hook sequences (C40, C43, C44)."
 },
 "C133": {
  "note": "For configurations that record every step and leave no call out, as C31: with an opcode filter that drops the call instructions the lines of calls move (C120)."
 },
 "C134": {
  "note": "For the tracing inspector this is C85 and C86. What the inspectors other than the script's report at each point is C40 and C42-C45, which are about every sequence of hook calls."
 },
 "C135": {
  "note": "The text of each part is that of C49; which calls are left out is C15. For complete transactions C118 gives the text from the execution; C135_complete relates it to the order of the hook calls."
 },
 "C136": {
  "note": "By a simulation between the reused inspector and a new one, as C126. With fuse in between nothing of this happens: C12 holds for every history. The top-level call must be a plain CALL or a creation, as revm makes it."
 },
 "C137": {
  "note": "Refuted as first stated (every report is the same): an opcode unknown to revm comes back as INVALID in the struct logs and the vm trace. The exact difference is proved for every list of nodes. Assumed: the derived (de)serialisation of all fields other than the opcode is faithful."
 },
 "C138": {
  "note": "Refuted in the last sentence: a call that fails other than by a revert loses all its gas to its caller but is recorded with the gas it had used when it failed (revm leaves the rest in the outcome it passes to call_end). Proved for all other calls; for those, what is missing is exactly the gas they had left. How gas moves in revm is stated in SpecGasFlow.v; it is a hypothesis."
 },
 "C139": {
  "note": "evm_calls (a call instruction enters its call right away) and, for the gas, gas_flows are facts about revm. Filters and left-out precompile calls are C120."
 },
 "C140": {
  "note": "Holds also when selfdestruct entries come before the entries of the calls made earlier by the same frame (C21)."
 },
 "C141": {
  "note": "Refuted for TransferInspector: transfers of calls that are reverted stay in its list; proved for it when no call fails. Refuted for the geth call tree: the frame of a SELFDESTRUCT names the caller of the destroyed contract as the payer; proved for it without SELFDESTRUCT. Proved for the parity traces and the state diff without restriction. Hypotheses: EVM facts on call schemes, addresses, one SELFDESTRUCT per frame, none by precompiles."
 },
 "C142": {
  "note": "Refuted for selfdestructs: one that destroys nothing and that the EVM does not announce is listed with zeros; proved when the EVM announces every SELFDESTRUCT. Proved for creates and the state diff. Hypotheses: EVM facts on returned addresses, at most one SELFDESTRUCT per frame, none by precompiles."
 },
 "C143": {
  "note": "Refuted: an SSTORE that changes nothing is recorded with the newest change in the journal, which can be one of another contract. Proved exactly (list equality) when no such SSTORE finds a change as the newest journal entry, and for what every slot is left with, and the state diff, when it finds only changes of its own account (own_leftovers). Hypotheses: EVM facts (SSTORE changes the executing account; precompiles run no instructions)."
 },
 "C144": {
  "note": "The recorded calls give the receipt's logs exactly. For the call tree refuted when the transaction fails (the root keeps its logs) and proved, as a permutation, when it succeeds; C144_order_refuted shows that the order is lost. Hypotheses: EVM facts (a log carries the address of the executing account; precompiles emit no logs)."
 },
 "C145": {
  "note": "Balances and creations proved in full (creations: every SELFDESTRUCT announced, see C142; diff balances for accounts that are not destroyed). Slots refuted because of the stale changes of C143, and proved if an SSTORE without effect only repeats a change of its own call that is still in effect."
 },
 "C146": {
  "note": "Refuted for a SELFDESTRUCT that the EVM does not announce, which the parity traces list with a refund to account zero; proved when the EVM announces every SELFDESTRUCT. Proved for the calls of the geth call tree (its SELFDESTRUCT frames are C94). A create that failed other than by a revert is not counted as naming an account: the call tree shows the address it would have had. Hypothesis: EVM facts on which accounts an execution loads."
 },
 "C147": {
  "note": "Refuted for an edit that clears the precompile flag of a call that was recorded as a hidden call of a precompile: the call is in no list of children and the parity traces panic. Proved for all edits that clear no precompile flag, and for the geth reports and the vm trace for all edits; the trace addresses are proved for edits that keep the flags. The text is refuted for edits that drop logs or steps and leave their entries in the member ordering (the writer indexes out of bounds), and proved when the edited ordering still names the logs, calls and steps of the call, the decoded internal calls are nested and the levels fit into a u16. The edit is any list of nodes with the same links."
 },
 "C148": {
  "note": "No hypothesis on the arena. The text writer does show decorations (C49)."
 },
 "C149": {
  "note": "For calls whose reported value is the one they were made with: proved of all calls other than delegate calls (C149_value), and of delegate calls when the EVM gives them the value of the call around them (C149_delegate_value). SELFDESTRUCT frames are C28. The logs of failed calls are hidden below the top call (C29), so C149_call_tree_logs is about kept calls."
 },
 "C150": {
  "note": "Refund counters are compared for executions where they are not negative. Storage is the one field that may say more inside the transaction, as slots seen before the call are shown too (C32)."
 },
 "C151": {
  "note": "For calls whose reported value is the one they were made with (C149_value, C149_delegate_value), and indentation levels that fit 16 bits."
 },
 "C152": {
  "note": "For runs that no script cut short, and transactions in the same environment (spec, gas limit, precompiles); a script that throws is C70."
 },
 "C153": {
  "note": "For calls whose reported value is the one they were made with (C149_value, C149_delegate_value), in the same environment (spec, gas limit, precompiles)."
 },
 "C154": {
  "note": "For the opcode gas inspector, on runs without overflow of its counters (C42 says when that is)."
 }
}