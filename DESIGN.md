# Formal model of evm-inspectors in Coq: design

Source: `/repo` (paradigmxyz/evm-inspectors, pinned commit). Model, proofs and theorems live in
`rocq/theories` (logical name `Verif`).

## 1. Layout

| files | content |
|---|---|
| `Base.v` | result type with explicit panic / out-of-fuel values, small list lemmas |
| `Evm.v` | data the crate receives from revm/alloy: instruction results, opcodes, gas, call inputs and outcomes, hook events |
| `Config.v` `Types.v` `Utils.v` `Arena.v` `Inspector.v` | `src/tracing/{config,types,utils,arena,mod}.rs`, function by function |
| `Parity.v` `VmTrace.v` `StateDiff.v` `Geth.v` `Prestate.v` `Walker.v` `Db.v` | `src/tracing/builder/*` and the database views they read |
| `OpcodeGas.v` `AccessList.v` `Transfer.v` `FourByte.v` `OpCount.v` `Mux.v` | the other inspectors |
| `Writer.v` `Text.v` | `src/tracing/writer.rs`, decimal text |
| `JsNative.v` `Js.v` `JsObjects.v` | `src/tracing/js/{builtins,bindings,mod}.rs`: native functions, the inspector's state machine, the objects handed to callbacks |
| `Spec*.v` | specifications written without reference to the model's helpers: execution trees and how revm calls the hooks (`SpecExec`), trees (`SpecTree`), EVM opcode facts from the Yellow Paper (`SpecOpcodes`), what each output should say |
| `*Proofs.v` `*Facts.v` `WriterUtf8.v` | lemmas |
| `Examples.v` | one concrete execution with delegate calls, creates, precompiles, reverts and logs, and decision procedures for the hypotheses |
| `Properties*.v` | the theorems, each with a concrete example meeting its hypotheses and `Print Assumptions` |

Every model definition has a comment citing file and lines. Simplifications are stated there.

## 2. Modelling decisions

* Rust functions become total Gallina functions. A panic (`unwrap`, index out of range, `expect`,
  `unreachable!`, a debug assertion) is the value `Panic`; loops get fuel and exhausting it is the value
  `OutOfFuel`, which the theorems exclude.
* Machine words (`u64`, `U256`, addresses, hashes) are `N`; wrap-around and saturating operations are
  written out where the code performs them. The signed refund counter is `Z`, its cast to `u64` is
  `mod 2^64`. `usize` indices and depths are `nat`; counters that would need 2^64
  events to overflow are unbounded.
* `HashMap`/`BTreeMap` are std++ `gmap`, or lists of entries in an arbitrary iteration order when the
  code iterates over them; the theorems quantify over that order.
* The EVM is outside the crate. It appears as the sequence of hook calls with their arguments. Two
  families of theorems exist: (a) for *any* event sequence whatsoever; (b) for the event sequence of an
  arbitrary *execution tree* (a frame with a body of instructions, logs, selfdestructs and sub-frames),
  which is how revm calls the hooks. What revm guarantees about such trees is collected in a few named
  predicates (`env_ok`, `evm_calls`, `evm_memory`, ...), each with a decision procedure or an example.
* External functions whose result is data only (created addresses, checksum text, ABI decoding of revert
  reasons, opcode names, the database, a JavaScript program) are oracles: universally quantified
  functions, records or event fields.
* JavaScript numbers are rationals with NaN and infinities; `u64 as f64` rounds to nearest even.
  A tracer program is an arbitrary function from what it has been shown to its reaction.

## 3. How each property is treated

"Refute" means that the faithful model violates the English claim; then a `_refuted` theorem gives a
machine-checked witness and a `_partial` theorem proves the claim under the missing condition, or states
exactly what the code does instead.

* C01, C03, C05, C06, C64: execution trees; refinement lemma "running the hooks of a tree yields exactly
  the preorder layout of the tree", by induction on frames and bodies; projections of the layout are
  compared with declarative functions of the tree.
* C02, C04: invariant preserved by every hook, induction on the event list. C04 also refuted for reuse
  of an inspector without `fuse`.
* C07: recorded memory vs memory of the event; refute (KECCAK256/LOG/CREATE expand memory), partial:
  equal up to trailing zeros in general.
* C08: refute with a warm SLOAD after SSTORE, partial when the last journal entry is the step's own.
* C09: refute (panic on stack underflow), partial when the stack is deep enough.
* C10: arithmetic over all values plus refinement for nodes. C11: refute for negative counters.
* C12: state equality after `fuse`, then equality of all later runs.
* C13: one theorem per inspector over the common hook interface with outputs.
* C14: refinement plus an EVM value-inheritance condition on trees.
* C15, C16: layout lemmas with precompile leaves; C16 refute.
* C17-C22: the arena invariant implies trace addresses navigate, are unique, subtraces count;
  C21 refute (selfdestruct entry precedes children), partial without selfdestruct.
* C23, C24: loop model of `make_vm_trace`; C23 refute twice, partial for trees where only first
  subcalls make calls; C24 termination measure and no panic from the arena invariant.
* C25, C35, C36: functional models over states and a database oracle; pointwise specification by
  address. C36 refute when code is not loaded.
* C26: direct.
* C27-C30: loop invariant of the roll-up; C28 refute and partial; C29 refute for the root, partial for
  others; C30 via the layout and an EVM log-address condition.
* C31-C34, C65: layout lemma + stack machine of `fill_geth_trace`; C33, C34 refute.
* C37: bit set arithmetic over 256 bits. C38: record laws. C39: hex decoding inverse.
* C40-C41: fold over steps, pointwise specification; C41 refute.
* C42-C46: induction on event lists and on execution trees; C42 refute for gas totals beyond `u64` and prove exactly when;
  C46 refute (reverted transfers).
* C47-C48: structural induction on config trees; histories by induction.
* C49-C52: the writer produces chunks for an underlying writer with a byte budget; a rendering is
  specified as a layout of lines of an arena. C51 refute.
* C53-C55, C66, C67: native functions over all numbers, buffers and databases; C54, C55, C67 refute.
* C56-C59, C68-C73: simulation between an execution tree and the calls into an arbitrary tracer program;
  guarded cells for C59. C56, C57, C58, C69-C73 refute.
* C60: table round trip; refute for unknown opcodes.
* C61: BFS over the arena invariant. C62, C63: comparison with an EVM table written independently; refute.
* C74, C75, C81, C82: the parity traces, the geth call tree, the struct logs and the vm trace as explicit
  functions of the execution, composed from the layout and the builders' invariants.
* C76: two runs that differ in one option; relational induction over events.
* C77-C79: objects as property lists; every answer as a function of the execution. C77, C79 refute.
* C80, C83, C84: struct log return data, vm trace memory and vm trace codes; refute, with partial
  theorems stating what is shown. C84 is a simulation of two breadth-first traversals.
* C85, C86: a "later record" relation preserved by every hook; the position of a call inside an execution
  as an inductive context, and the refinement lemma applied to what follows it.
* C87: the calls of one transaction are proved from any state with an empty frame stack (also used for C56-C58, C69);
  induction over the transactions.
* C88: an inductive specification of the bytes a JavaScript value stands for (shared with C53); the address
  derivations are parameters.
* C89: `maybe_revert_reason` over an arbitrary decoder, composed with C75. C90: the explicit functions of C74 and
  C75 compared by induction on the execution; the calls a parity recording leaves out are pruned from the geth tree. C91: C31, C42, C44 and C68 compared on one execution.
* C92: C20, C25, C61 and C84 composed; the failing database accesses by induction over the two loops.
* C93, C94: the explicit functions of C74 and C75 read for callee and destroyed contract; the SELFDESTRUCT frames of the
  call tree by induction on the placed execution (a permutation, since their places are C28). Both refuted in part.
* C95: `inner_scopes` of C56 against the call tree of C75, by induction on the execution. Refuted for one field.
* C96-C100: `BigInt.v` models the bundled integer library function by function, every double rounded. `stands_for`
  (`SpecBigInt.v`) says which integer an object is in proper form for. C96: texts by positional value, with one numeral
  per number. C97: carries and borrows by induction on digit arrays. C98: both multiplication algorithms. C99: quotient
  digit guesses bounded with the rounding error of doubles, then corrected. C100: bit by bit; shifts by a bigint refuted.
* C101: the builders' results on no nodes and on the placeholder recording of a new or reset inspector are stated as
  explicit records, for all options. The vm trace with state panics on no nodes: refuted, proved as a partial theorem.
* C102-C106: the rest of `bigint.js` on the same values. Powers by squaring (with `Math.pow` an oracle that is exact
  below 2^53), modular powers and inverses by loop invariants over the integers they stand for (Bezout coefficients and
  their signs for `modInv`), the binary gcd by showing that the masked low bits of a double are a power of two dividing
  the number and that the product of the two numbers halves every second round, `bigint(text, radix)` against the value
  of numerals of SpecBigInt.v. `modPow`, `modInv` and the texts are refuted in full and proved outside the corner cases.
* C107-C108: `isPrime` is Miller and Rabin's test with eight bases: a strong pseudoprime refutes it, primes pass by
  Fermat's little theorem and because 1 has two square roots modulo a prime. Random draws are an oracle below a bound.
* C109: the presets `all()` and `none()`: corollaries of C01, C05 and C06 whose hypotheses hold for every execution under
  these configurations; `all()` is refuted for storage changes, which it leaves off.
* C110: the exact characterisations of the two reports (C25, C36) compared account by account; refuted for contracts
  destroyed with all they had, proved for all others.
* C111-C112: the geth call tree, frame by frame (C75), against the exact counts of selectors (C43) and transfers (C45).
* C113: the recorded caller of every node (C03), as a set.
* C114: histories of all uses of one inspector; a simulation between a reconfigured recording and one that records every
  instruction without snapshots shows that careful changes never panic and leave the recorded calls alone.
* C115: refuted with the reverted call of the example; from C75, frame by frame, what holds.
* C116: the exponent is carried out on the text, which leaves digits alone and the cut of C96; refuted with `12345e`
  and with 2^60. Lists of digits by induction, from multiplication and addition.
* C117: one turn of the loop of `toBase` divides and, for a negative remainder, corrects digit and quotient; with two turns
  the number is halved, whatever the signs. Refuted with a digit of 2^53 or more. Reading: the digits are read back one by
  one, then the positional value of C116.
* C118: the exact ordering of every recorded node is computed from the body of its frame (`body_ords`); by induction over
  frames each placed frame has a `node_layout` whose rendering is the text of the frame; C49's and C50's lemmas about the
  writer turn the layout into output.
* C119: C40 lists what a hook history touches; the `step` hooks of an execution are the instructions of its frames, and C06
  gives each of them exactly one recorded step with the same opcode, contract and stack.
* C120: the steps in the order of the weave (C31) are matched with the instructions asked for, for every configuration; under
  `evm_calls` and a filter with all call instructions the weave is the filtered list of executed instructions.
* C121: both are compared with the instructions shown (C120); for the vm trace by induction over frames on the common queue
  of C82, which is empty whenever a frame that makes calls is entered. Refuted with the witnesses of C23.
* C122: the reader's replay is defined on the two results alone (SpecReplay); the proof reads both results off C35 and C36
  and goes slot by slot. Nonces not going down, and the slots of new accounts starting at zero, are hypotheses about the
  EVM (`evm_accounts`).
* C123: the text of C118 is a function of the tree shown (SpecReadable); unique decoding goes by induction over that tree, token
  by token: every line starts with its depth of pipes, hex and decimal runs end at a character that is not a digit, and
  the debug names of the statuses differ.
* C124: the reader's two ways of working out the other state are defined on the diff alone (SpecApply); the proof goes through
  the four cases of C25's `account_diff`.
* C125: `JsJson.v` models `JSON.stringify`, serde_json's reader (with its limit of 127 levels) and boa's `to_json` on trees of
  JavaScript values; `SpecJsJson.v` says as relations what JSON has for a value. Proved by reading back the text that is
  written, for any nesting and any text (induction on the JSON value; one equation covers success and refusal).
* C126: a simulation between the reused inspector and a new one: after every hook the former's arena is `added` (SpecReuse)
  the latter's to the earlier recording. The parity traces follow from paths in the two trees; the writer from the fact
  that it visits every entry of an ordering whose steps are not decoded.
* C127: `accepted` (SpecAccepted) reads a sequence of hook calls with a small state: the depth of the latest call below the
  top level that is in the graph, the values of the open calls, the instructions begun. The invariant relates it to the
  inspector: that depth is the length of the path of last children from the root, which is the path `push_trace` walks;
  every hook then succeeds exactly if the reader's condition holds. C02 gives the panic in the other case.
* C128: alloy's decoder of revert data is modelled in RevertReason (ABI offsets of 64 bits, no validation, lossy UTF-8)
  and composed with C89. SpecReason has Solidity's encodings, `body_string` for bodies of any layout, RFC 3629 characters
  and `replaced` (U+FFFD for the longest beginnings of characters); `replaced` is shown to be functional and equal to the
  decoder's loop by comparing chunks. Refuted for data that is plain text.
* C129: executions with unannounced frames are trees of their own (SpecEof). C127 says which of their hook calls are
  recorded; that everything but the depths is in order for every tree is an induction. Recording commutes with forgetting
  the depths of instructions, which gives the record of creations without calls. Refuted by an init code that makes a call.
* C130: a hook call changes the records of open calls only (the call in progress, the call of the instruction in progress,
  or the caller of a new call), shown along every suffix of the hook calls; addresses of recorded calls do not change as
  children are only appended. Refuted by a creation cut off after its first instruction began.
* C131: [result] runs in any state of the inspector that hook calls and earlier results lead to; the invariant of C59 (no
  cell is live between calls into the script) is preserved by it, and the database object is C78's.
* C132: induction over executions with unannounced frames (SpecEof.v), for each inspector whose theorems are about calls
  rather than arbitrary hook sequences. Refuted by an init code with one instruction.
* C133: every prefix of the hook calls of an execution is completed to the hook calls of a shorter execution by hook calls that
  start no call and begin no instruction. The places of the instructions in the arena are a function of the execution, a prefix
  for the shorter one; what is recorded there is compared by the history lemmas of C130.
* C134: a relation kept by each hook call is kept by sequences of hook calls; one relation per inspector.
* C135: an invariant of recording: the layout of the recording up to the innermost open call, hook call by hook call,
  along the path of last children that `push_trace` follows; then C49 for writing and C86 for what no longer changes.
* C136: the simulation of C126 with two differences: the stale open calls below the new ones on the stack, and the two
  fields of the root's record that depend on whether a call is open.
* C137: `Stored.v` models reading back as a map over the recording that rereads every step's opcode. Each report is shown to
  commute with it, by induction on the fuel of its loop; it matters that rereading never makes or hides a call or a STOP.
* C138: `SpecGasFlow.v` states how gas moves through a frame in revm; with C01, C03 and C06 the sums follow by induction on
  the body of the frame. The calls made by a call are found by the parent field, so that left-out precompile calls count.
* C139: `SpecReading.v` defines what a reader does with the depths of the lines alone, and from the execution which call ran
  each instruction; C31 gives the lines, and the reading is shown right by induction on the tree of calls.
  For a transaction that was cut off, C133 gives the depths of its lines and C85 the parents of its calls.
* C140: `SpecFlat.v` defines what a reader does with the trace addresses alone; C17, C18 and C21 give the addresses, which make
  the entries below an entry an interval of the lexicographic order.
* C141: `SpecLedger.v` says what an execution does to the balances (failing frames nothing) and how a reader sums up the
  reports; C74 gives the traces of an execution, and entries of different sub-calls have incomparable addresses. C25 for the state diff.
* C142: `SpecCreated.v`: the accounts created and destroyed by the frames that stay in effect, and the same read off the
  traces. The entries in effect are computed as a function of the execution (`effect_reading`); C25 for the state diff.
* C143: `SpecWrites.v`: the changes an execution makes (SSTOREs that grew the journal by a change) and a reader that walks the
  recorded nodes by their ordering. Induction on the execution with the exact ordering of recorded nodes; C25 for the state diff.
* C144: `SpecReceipt.v`: the receipt's logs of an execution and two readers, of the recorded nodes and of the geth call tree.
  Induction on the execution with the exact ordering of recorded nodes; C75 for the call tree.
* C145: `SpecSettle.v`: what the prestate tracer shows. By C35/C36 (exact prestate entries) and C141-C143 (what the traces say).
* C146: `SpecCover.v`: the accounts an entry or a call tree names, and those an execution loads. Induction on the execution over
  the exact traces of C74 and C75, then C35.
* C147: `SpecEdited.v`: the links of a node, edits that keep them, and the reports. The tree invariant depends on the links and
  flags only, and every builder is total on it; the geth builders do not look at the flags (`FlagProofs.v`).
* C148: `decorates` of `SpecWriter.v`; every builder gives the same on an arena and on the arena without its decorations.
* C149: `SpecAlone.v`: the calls made in an execution, and entries moved below an address. Induction on the execution over the
  exact traces of C74 and C75.
* C150: `SpecMoved.v`: the fields of a log moved to another depth. The instructions of a call are a stretch of those of the
  transaction; then C81 on both sides.
* C151: the text of C118 on both sides; induction on the way from the transaction to the call.
* C152: `SpecCallbacks.v`: what a script is shown, moved to another depth. Induction on the execution over the history of
  callbacks of C56 and C68.
* C153: `SpecRecorded.v`: nodes moved to another place of the arena. The layout of C01 commutes with moving; induction on the
  execution and on the items of a frame.
* C154: from C42, C43, C44 and C45, which give the results in terms of the execution: sums over a frame split into its own
  instructions and its calls; induction on the execution for the transfers.

## 4. What is modelled and what is not

Modelled: every function of `src/` except those listed here.

Not modelled:
* `Address` checksum text, `OpCode` names, the text alloy prints for `Panic` codes: oracles. alloy's decoder of revert data
  is an oracle everywhere but in C128, where it is modelled.
* serde (de)serialisation, except the opcode conversion (C60, C137) and reading the script's result (C125): the derived
  implementations for the other fields of a recording are assumed to be faithful.
* `register_builtins` and the JavaScript engine itself (`JSON.stringify` and `to_json` are modelled on values without cycles,
  proxies and symbol keys: C125). In the tracer model `bigint(text)`
  is kept as the text it is given; what the bundled `bigint.js` makes of it is C96-C108, C116 and C117.
  What JavaScript reads in a text (`+text`) and writes for a number (`toString`) is quantified over (C116). The engine's
  own limits (iterations of a loop, nested calls) are left out.
* boa's prototypes, property attributes, garbage collection, and scripts that write into the byte arrays they are given
  (`getInput` and `getOutput` hand out one array each time); the guard protocol around EVM references is
  modelled (C59).
* Frames of EOFCREATE (revm's experimental EOF): no inspector of the crate implements the `eofcreate` hooks, so that these
  frames are not announced to it. What the tracing inspector makes of them is C129, the other inspectors C132; all other properties are about
  executions without them.
* Trait plumbing, getters and constructors without logic (`nodes`, `into_nodes`, `inner`, `config`, ...).
* `last_call_return_data`: recorded in the model, but private and never read by the crate.

External facts relied on (all about revm 10, alloy 0.1, boa): order of `InstructionResult` values and
the `is_ok`/`is_revert` groups; when revm calls which hook and with what (`SpecExec.v`); which addresses,
values and code addresses CALL, CALLCODE, DELEGATECALL and STATICCALL pass; journal entries of SLOAD and
SSTORE; `SharedMemory::slice` and `Stack::peek` bounds; `PartialEq` of `AccountInfo`; conversion of
integers to JavaScript numbers; how gas moves between a call and its caller and what a call gives back (`SpecGasFlow.v`); which balances calls, creates and SELFDESTRUCT change (`SpecLedger.v`); ECMA-262's `JSON.stringify`, serde_json's grammar and depth limit, boa's `to_json` (C125).

## 5. Trusted base

* Coq 8.16.1 kernel including `vm_compute` (used for witnesses, examples and finite tables).
* `Print Assumptions` is run after every theorem during the build and prints "Closed under the global
  context" for each of them: no axioms, neither own nor from the standard library. The seven names under
  `Coq.ssr.ssrunder` that a checker lists for the loaded libraries are module parameters of the standard
  library's `ssrunder`; no theorem depends on them.
* std++ is used for lists, finite maps and decidability; it is axiom free.
* The hand-written correspondence between the Rust source and the model, the statement of how revm
  calls the hooks, and the external facts of section 4.
* Wrong programs: `seeded/LOG.jsonl` lists edits of the model made in scratch copies, the claim each
  breaks and the theorems that failed.

## 6. Index

Generated by `tools/design.py` from MANIFEST.json.

| id | property | status | theorems | file |
|---|---|---|---|---|
| C01 | Recorded arena is the executed call tree | proved | `C01_arena_is_call_tree` | PropertiesRecord.v |
| C02 | Arena stays a well-formed tree under any hook sequence | proved | `C02_arena_tree_any_history` | PropertiesRecord.v |
| C03 | Each node carries its own frame's data | proved | `C03_node_data` | PropertiesRecord.v |
| C04 | Member ordering enumerates logs, calls and steps exactly once | partial | `C04_ordering_complete`, `C04_reuse_without_fuse_refuted` | PropertiesRecord.v |
| C05 | Logs are attributed to the executing frame, in order | proved | `C05_logs_attribution` | PropertiesRecord.v |
| C06 | Every executed opcode is recorded exactly once in its frame | proved | `C06_steps_recorded_once` | PropertiesRecord.v |
| C07 | Memory snapshots equal the memory before each step | partial | `C07_refuted`, `C07_memory_snapshots_partial`, `C07_snapshots_exactly` | PropertiesRecord.v |
| C08 | A recorded storage change is about the slot the step accessed | partial | `C08_refuted`, `C08_storage_change_partial`, `C08_recorded_exactly` | PropertiesRecord.v |
| C09 | Push snapshots never crash the tracer and hold the top of the stack | partial | `C09_refuted`, `C09_push_snapshots_partial`, `C09_panics_exactly` | PropertiesRecord.v |
| C10 | Gas used is refund-capped and never underflows | proved | `C10_gas_used_capped` | PropertiesRecord.v |
| C11 | A negative refund counter is treated as no refund | partial | `C11_negative_refund_takes_full_cap`, `C11_refuted`, `C11_counters_partial` | PropertiesRecord.v |
| C12 | fuse() makes the inspector as good as new | proved | `C12_fuse_is_new` | PropertiesRecord.v |
| C13 | Inspectors never alter execution | proved | `C13_mux_passive`, `C13_tracing_passive`, `C13_opcode_gas_passive`, `C13_access_list_passive`, `C13_transfer_passive`, `C13_fourbyte_passive`, `C13_opcount_passive` | PropertiesMux.v, PropertiesRecord.v, PropertiesSimple.v |
| C14 | Delegate calls report the inherited value | proved | `C14_delegate_value` | PropertiesRecord.v |
| C15 | Excluded precompile calls leave no trace in the call graph | proved | `C15_not_listed`, `C15_excluded_precompiles` | PropertiesParity.v, PropertiesRecord.v |
| C16 | Excluded precompile calls are ignored by the geth call tracer too | partial | `C16_refuted`, `C16_listed_calls_partial` | PropertiesGeth.v |
| C17 | traceAddress locates the call | proved | `C17_trace_address_locates`, `C17_trace_list_locates` | PropertiesParity.v |
| C18 | traceAddresses are unique | proved | `C18_addresses_unique` | PropertiesParity.v |
| C19 | subtraces counts the direct children entries | proved | `C19_subtraces` | PropertiesParity.v |
| C20 | All parity trace APIs agree | proved | `C20_apis_agree` | PropertiesParity.v |
| C21 | Parity traces are in depth-first call order | partial | `C21_refuted`, `C21_depth_first_partial` | PropertiesParity.v |
| C22 | error and result of a parity trace are consistent | proved | `C22_entry_contents` | PropertiesParity.v |
| C23 | vmTrace attaches each subcall's trace to the instruction that made it | partial | `C23_refuted`, `C23_stop_refuted`, `C23_vm_trace_partial` | PropertiesParity.v |
| C24 | vmTrace building always terminates without panicking | proved | `C24_terminates`, `C24_results_total` | PropertiesParity.v |
| C25 | Parity state diff is exact | proved | `C25_state_diff_exact`, `C25_spec_functional` | PropertiesDiff.v |
| C26 | Root gas override touches only the root | proved | `C26_results_root_gas`, `C26_set_transaction_gas_used` | PropertiesParity.v |
| C27 | Geth call tracer returns the call tree | proved | `C27_call_tree`, `C27_only_top_call`, `C27_top_call_of_tree` | PropertiesGeth.v, PropertiesTop.v |
| C28 | Geth selfdestruct frames are attached to the destroying call or its parent | partial | `C28_refuted`, `C28_placement_partial`, `C28_first_call_partial` | PropertiesGeth.v |
| C29 | Geth call tracer reports logs only of successful call chains | partial | `C29_refuted`, `C29_logs_partial` | PropertiesGeth.v |
| C30 | Geth log frames carry the emitting contract's address | proved | `C30_log_addresses` | PropertiesGeth.v |
| C31 | Struct logs are in execution order | proved | `C31_chronological`, `C31_every_arena` | PropertiesGeth.v |
| C32 | Struct log storage accumulates per contract | proved | `C32_storage` | PropertiesGeth.v |
| C33 | Struct log content follows the options | partial | `C33_content_partial`, `C33_content_exactly`, `C33_refuted` | PropertiesGeth.v |
| C34 | Struct logs report an error only for failing steps | partial | `C34_errors_partial`, `C34_errors_exactly`, `C34_refuted` | PropertiesGeth.v |
| C35 | Prestate tracer returns the pre-transaction state | proved | `C35_prestate`, `C35_database_error` | PropertiesPrestate.v |
| C36 | Prestate diff holds exactly the changes | partial | `C36_refuted`, `C36_diff_partial` | PropertiesPrestate.v |
| C37 | Opcode filter is an exact set | proved | `C37_filter_exact_set` | PropertiesConfig.v |
| C38 | Config constructors and setters change only what they say | proved | `C38_setters`, `C38_parity_config`, `C38_geth_configs`, `C38_presets` | PropertiesConfig.v |
| C39 | Memory chunks are a faithful 32-byte hex rendering | proved | `C39_memory_chunks` | PropertiesConfig.v |
| C40 | Access list holds exactly what was touched | proved | `C40_access_list_exact` | PropertiesSimple.v |
| C41 | Request access list entries are never lost | partial | `C41_refuted`, `C41_request_kept_partial`, `C41_unique_request_kept_partial` | PropertiesSimple.v |
| C42 | Opcode counts and gas add up | partial | `C42_refuted`, `C42_overflow_exact`, `C42_counts_and_gas_partial`, `C42_transaction_totals`, `C42_ordinary_limits` | PropertiesSimple.v |
| C43 | Four-byte frame counts every selector exactly | proved | `C43_fourbyte_counts`, `C43_keys_never_collide`, `C43_key_text` | PropertiesSimple.v |
| C44 | Opcode counter counts steps | proved | `C44_opcount` | PropertiesSimple.v |
| C45 | Transfer inspector lists value transfers in order | proved | `C45_transfers_of_hooks`, `C45_transfers_of_transaction` | PropertiesSimple.v |
| C46 | Reported transfers took effect | partial | `C46_refuted`, `C46_transfers_took_effect_partial`, `C46_effective_are_reported` | PropertiesSimple.v |
| C47 | Mux equals its tracers run alone | proved | `C47_mux_is_each_alone`, `C47_keys` | PropertiesMux.v |
| C48 | Mux config validation is exact | proved | `C48_accepts`, `C48_errors` | PropertiesMux.v |
| C49 | Trace writer renders every recorded call, log once, in order | proved | `C49_rendering`, `C49_each_once` | PropertiesWriter.v |
| C50 | A failing writer has received a prefix | proved | `C50_prefix` | PropertiesWriter.v |
| C51 | A TraceWriter is reusable after an I/O error | partial | `C51_refuted`, `C51_level_partial` | PropertiesWriter.v |
| C52 | Writer output is valid UTF-8 | proved | `C52_utf8` | PropertiesWriter.v |
| C53 | JS buffers convert to addresses and words by right alignment | proved | `C53_right_aligned`, `C53_buffers`, `C53_values` | PropertiesJs.v |
| C54 | JS memory.slice accepts exactly the in-bounds ranges | partial | `C54_refuted`, `C54_panics_refuted`, `C54_slice_partial` | PropertiesJs.v |
| C55 | JS memory.getUint and stack.peek never read out of bounds | partial | `C55_refuted`, `C55_reads_partial`, `C55_peek_any_length` | PropertiesJs.v |
| C56 | JS enter and exit are balanced and skip the root | partial | `C56_refuted`, `C56_scopes_partial`, `C56_nested` | PropertiesJs.v |
| C57 | JS isPrecompiled is available | partial | `C57_refuted`, `C57_partial` | PropertiesJs.v |
| C58 | JS tracer construction validates callbacks | partial | `C58_refuted`, `C58_accepted_partial`, `C58_rejected` | PropertiesJs.v |
| C59 | JS code cannot reach EVM data after its hook returned | proved | `C59_guards`, `C59_dead_reads` | PropertiesJs.v |
| C60 | Opcode serialisation round-trips | partial | `C60_refuted`, `C60_opcode_serde_partial` | PropertiesConfig.v |
| C61 | Breadth-first walk visits every attached node once | proved | `C61_walk` | PropertiesParity.v |
| C62 | stack_push_count matches the EVM | partial | `C62_refuted`, `C62_push_count_partial` | PropertiesConfig.v |
| C63 | may_modify_memory covers every memory-changing opcode | partial | `C63_refuted`, `C63_may_modify_memory_partial` | PropertiesConfig.v |
| C64 | Member ordering is chronological | proved | `C64_ordering_chronological` | PropertiesRecord.v |
| C65 | Struct log result carries the outcome | proved | `C65_result` | PropertiesGeth.v |
| C66 | JS hex text and bytes are inverse | proved | `C66_hex_round_trip` | PropertiesJs.v |
| C67 | JS db accessors reflect the current state | partial | `C67_refuted`, `C67_code_refuted`, `C67_database_partial`, `C67_word_bytes` | PropertiesJs.v |
| C68 | JS step is called once per instruction | proved | `C68_steps` | PropertiesJs.v |
| C69 | JS fault is called for every failing instruction | partial | `C69_refuted`, `C69_faults_partial` | PropertiesJs.v |
| C70 | A throwing JS tracer reverts the frame and never aborts the host | partial | `C70_refuted`, `C70_survives_partial`, `C70_panics_exactly`, `C70_reaction` | PropertiesJs.v |
| C71 | JS exit is told the frame's result | partial | `C71_refuted`, `C71_exit_results_partial` | PropertiesJs.v |
| C72 | JS result context describes the transaction | partial | `C72_refuted`, `C72_result_context_partial` | PropertiesJs.v |
| C73 | JS getCost is the cost of the instruction | partial | `C73_refuted`, `C73_cost_partial` | PropertiesJs.v |
| C74 | Parity traces are a function of the execution | proved | `C74_parity_traces` | PropertiesTx.v |
| C75 | The geth call tree is a function of the execution | proved | `C75_top_call`, `C75_call_tree` | PropertiesTop.v, PropertiesTx.v |
| C76 | Recording options do not interfere | proved | `C76_options_independent`, `C76_parity_traces`, `C76_call_frames`, `C76_struct_logs` | PropertiesOptions.v |
| C77 | Numbers shown to JavaScript are exact | partial | `C77_refuted`, `C77_numbers_partial` | PropertiesJsObjects.v |
| C78 | Objects given to callbacks answer for the execution | proved | `C78_step_objects`, `C78_fault_objects`, `C78_enter_objects`, `C78_exit_objects`, `C78_properties` | PropertiesJsObjects.v |
| C79 | The context object given to result | partial | `C79_refuted`, `C79_context_partial` | PropertiesJsObjects.v |
| C80 | Struct log return data is what the instruction could see | partial | `C80_refuted`, `C80_return_data_partial` | PropertiesLogs.v |
| C81 | Struct logs are a function of the execution | proved | `C81_struct_logs` | PropertiesLogs.v |
| C82 | The vm trace is determined by the execution | proved | `C82_vm_trace`, `C82_root_instructions` | PropertiesVm.v |
| C83 | Memory in the vm trace is the memory written by the instruction | partial | `C83_refuted`, `C83_memory_partial` | PropertiesVm.v |
| C84 | The code shown by a vm trace is the code its frame ran | partial | `C84_refuted`, `C84_codes_partial`, `C84_level_order` | PropertiesVm.v |
| C85 | Recording only adds | proved | `C85_append_only`, `C85_interrupted`, `C85_unended`, `C85_unended_instruction` | PropertiesHistory.v |
| C86 | The record of an ended call is final | proved | `C86_final_once_ended` | PropertiesHistory.v |
| C87 | A JavaScript tracer can be reused | proved | `C87_reuse`, `C87_reusable` | PropertiesJs.v |
| C88 | JS contract address helpers ask about what they are given | proved | `C88_contract_addresses` | PropertiesJs.v |
| C89 | Revert reasons of geth call frames | proved | `C89_revert_reasons` | PropertiesTx.v |
| C90 | Parity traces and the geth call tracer report the same calls | proved | `C90_recordings_agree`, `C90_parity_and_geth_agree` | PropertiesPrune.v, PropertiesTx.v |
| C91 | Step-level tracers agree | proved | `C91_steps_agree` | PropertiesAgree.v |
| C92 | Combined trace results contain exactly what was requested | proved | `C92_results` | PropertiesResults.v |
| C93 | Call entries name the called account | partial | `C93_refuted`, `C93_callee_partial` | PropertiesParties.v |
| C94 | Selfdestructs are reported with the destroyed contract, refund target and balance | partial | `C94_refuted`, `C94_destroyed_partial`, `C94_announced_refuted` | PropertiesParties.v |
| C95 | A JavaScript tracer's scopes agree with the geth call tree | partial | `C95_refuted`, `C95_scopes_partial` | PropertiesScopes.v |
| C96 | Numbers reach a JavaScript tracer and leave it unchanged | proved | `C96_words_are_exact`, `C96_texts_are_read`, `C96_texts_are_exact`, `C96_one_numeral` | PropertiesBigInt.v |
| C97 | The integers of JavaScript tracers add, subtract and compare exactly | proved | `C97_addition`, `C97_comparison` | PropertiesBigInt.v |
| C98 | The integers of JavaScript tracers multiply exactly | proved | `C98_multiplication` | PropertiesBigInt.v |
| C99 | The integers of JavaScript tracers divide exactly | proved | `C99_division`, `C99_quotient` | PropertiesBigInt.v |
| C100 | Shifts and bitwise functions of the integers of JavaScript tracers | partial | `C100_bitwise`, `C100_refuted`, `C100_shifts_partial` | PropertiesBigInt.v |
| C101 | Nothing recorded, nothing reported | partial | `C101_refuted`, `C101_no_nodes_partial`, `C101_no_transaction` | PropertiesEmpty.v |
| C102 | The integers of JavaScript tracers have exact powers | proved | `C102_powers` | PropertiesBigInt2.v |
| C103 | Powers modulo a number | partial | `C103_refuted`, `C103_mod_pow_partial` | PropertiesBigInt2.v |
| C104 | Inverses modulo a number | partial | `C104_refuted`, `C104_mod_inv_partial`, `C104_any_modulus_partial` | PropertiesBigInt2.v |
| C105 | Divisors, multiples and extremes | proved | `C105_divisors` | PropertiesBigInt2.v |
| C106 | Numbers from texts in other radixes | partial | `C106_refuted`, `C106_texts_partial`, `C106_short_texts`, `C106_round_trip` | PropertiesBigInt2.v |
| C107 | Primes | partial | `C107_exact`, `C107_refuted`, `C107_primes_partial` | PropertiesBigInt3.v |
| C108 | Random integers are in their range | proved | `C108_random` | PropertiesBigInt3.v |
| C109 | The presets record everything and nothing | partial | `C109_refuted`, `C109_all_partial`, `C109_none` | PropertiesPresets.v |
| C110 | The two reports of state changes say the same | partial | `C110_reports_partial`, `C110_refuted` | PropertiesChanges.v |
| C111 | Selector counts agree with the call tree | proved | `C111_selectors` | PropertiesCalls.v |
| C112 | Transfers agree with the call tree | proved | `C112_transfers` | PropertiesCalls.v |
| C113 | callers() is the set of accounts that made calls | proved | `C113_callers` | PropertiesCallers.v |
| C114 | The configuration can be changed while recording | proved | `C114_tree_any_session`, `C114_fuse_any_session`, `C114_unconcerned_options`, `C114_careful_changes`, `C114_careless_panics` | PropertiesSession.v |
| C115 | Geth call frames report errors in go-ethereum's words | partial | `C115_error_words_refuted`, `C115_error_words_partial` | PropertiesErrors.v |
| C116 | Integers of JavaScript tracers are read as they are written | partial | `C116_refuted`, `C116_texts_partial`, `C116_same_reading`, `C116_numbers`, `C116_numbers_refuted`, `C116_digits` | PropertiesBigInt4.v |
| C117 | Integers of JavaScript tracers in every radix | partial | `C117_refuted`, `C117_writes_partial`, `C117_huge_radix_partial`, `C117_reads`, `C117_round_trip`, `C117_agrees` | PropertiesBigInt5.v |
| C118 | The written trace as a function of the execution | proved | `C118_written`, `C118_other_options` | PropertiesTxText.v |
| C119 | The access list agrees with the recorded steps | proved | `C119_access_list_of_trace` | PropertiesTouch.v |
| C120 | Struct logs of partial recordings | partial | `C120_shown_exactly`, `C120_only_removed_partial`, `C120_refuted`, `C120_precompiles_refuted` | PropertiesShown.v |
| C121 | The vm trace and the struct logs list the same instructions | partial | `C121_own_code_partial`, `C121_nested_partial`, `C121_refuted`, `C121_stop_refuted` | PropertiesVmLogs.v |
| C122 | The diff of the prestate tracer applied to its prestate gives the state after the transaction | partial | `C122_modes_agree`, `C122_replay_partial`, `C122_refuted`, `C122_funded_refuted` | PropertiesReplay.v |
| C123 | A written trace can be read in one way only | proved | `C123_readable`, `C123_recordings` | PropertiesReadable.v |
| C124 | A parity state diff can be applied and undone | partial | `C124_apply_partial`, `C124_refuted`, `C124_funded_refuted` | PropertiesApply.v |
| C125 | What the script's result returns is what the caller receives | partial | `C125_result_partial`, `C125_one_kind`, `C125_bigint`, `C125_refuted`, `C125_no_crash_refuted` | PropertiesJsJson.v |
| C126 | Without a reset a transaction is filed on top of the earlier ones | proved | `C126_added`, `C126_transactions`, `C126_parity`, `C126_not_written` | PropertiesReuse.v |
| C127 | Which hook calls a tracing inspector can record | proved | `C127_accepted`, `C127_otherwise`, `C127_transactions` | PropertiesAccepted.v |
| C128 | Revert reasons are the ones contracts give | partial | `C128_shown_exactly`, `C128_given_partial`, `C128_refuted` | PropertiesReason.v |
| C129 | Executions with contract creations by EOFCREATE | partial | `C129_refuted`, `C129_parents_refuted`, `C129_recorded_exactly`, `C129_no_calls_partial`, `C129_top_level` | PropertiesEof.v |
| C130 | Reports of a transaction that was cut off | partial | `C130_refuted`, `C130_unended_partial`, `C130_ended`, `C130_frames` | PropertiesInterrupt.v |
| C131 | Asking a JavaScript tracer for its result | proved | `C131_called`, `C131_guards`, `C131_kept`, `C131_received` | PropertiesJsResult.v |
| C132 | The other inspectors with creations by EOFCREATE | partial | `C132_refuted`, `C132_top_level`, `C132_shown_partial`, `C132_runs`, `C132_transfers`, `C132_counts` | PropertiesEofMore.v |
| C133 | Struct logs of a transaction that was cut off | proved | `C133_lines` | PropertiesCutLogs.v |
| C134 | What has been reported stays reported | proved | `C134_transfers`, `C134_access_list`, `C134_selectors`, `C134_opcode_gas`, `C134_opcount`, `C134_script_calls` | PropertiesKept.v |
| C135 | The written trace follows the execution, also of a cut-off transaction | proved | `C135_written`, `C135_complete`, `C135_prefix`, `C135_last_lines` | PropertiesCutText.v |
| C136 | Without a reset after a transaction that was cut off | proved | `C136_added`, `C136_transactions`, `C136_reports` | PropertiesReuseCut.v |
| C137 | A recording that is stored and read back | partial | `C137_refuted`, `C137_opcodes_partial`, `C137_same_reports`, `C137_lossless`, `C137_again` | PropertiesStored.v |
| C138 | Gas adds up in a recording | partial | `C138_refuted`, `C138_lost_partial`, `C138_adds_up`, `C138_transaction`, `C138_steps` | PropertiesGasFlow.v |
| C139 | Struct logs can be read as a tree of calls | proved | `C139_lines`, `C139_same_call`, `C139_caller`, `C139_gas`, `C139_cut_off` | PropertiesReading.v |
| C140 | Parity traces can be read as a tree of calls | proved | `C140_entries`, `C140_nesting`, `C140_block`, `C140_enclosing` | PropertiesFlat.v |
| C141 | The reports account for the balances | partial | `C141_refuted`, `C141_transfers_partial`, `C141_parity`, `C141_call_tree_refuted`, `C141_call_tree_partial`, `C141_state_diff` | PropertiesLedger.v |
| C142 | The contracts created and destroyed can be read off the parity traces and the call tree | partial | `C142_created`, `C142_call_tree`, `C142_destroyed_refuted`, `C142_destroyed_partial`, `C142_state_diff` | PropertiesCreated.v |
| C143 | The recorded changes account for the storage | partial | `C143_refuted`, `C143_changes_partial`, `C143_slots_partial`, `C143_state_diff_partial` | PropertiesWrites.v |
| C144 | The logs of the transaction can be read off the reports | partial | `C144_recorded`, `C144_refuted`, `C144_call_tree_partial`, `C144_failed_call_tree`, `C144_order_refuted` | PropertiesReceipt.v |
| C145 | The prestate tracer and the traces fit together | partial | `C145_balances`, `C145_slots_refuted`, `C145_slots_partial`, `C145_diff_balances`, `C145_diff_created_balances`, `C145_diff_created`, `C145_diff_slots_partial` | PropertiesSettle.v |
| C146 | The prestate has every account that the reports mention | partial | `C146_refuted`, `C146_parity_partial`, `C146_call_tree` | PropertiesCover.v |
| C147 | Reports on an edited recording | partial | `C147_geth`, `C147_reports_partial`, `C147_addresses`, `C147_call_tree`, `C147_refuted`, `C147_text_refuted`, `C147_text_partial` | PropertiesEdited.v |
| C148 | Decoding a recording does not change its reports | proved | `C148_reports` | PropertiesDecorated.v |
| C149 | A call is reported the same at every depth | proved | `C149_value`, `C149_delegate_value`, `C149_parity`, `C149_call_tree`, `C149_call_tree_logs` | PropertiesAlone.v |
| C150 | The struct logs of a call are the same at every depth | proved | `C150_struct_logs` | PropertiesMoved.v |
| C151 | The written trace of a call is the same at every depth | proved | `C151_text` | PropertiesDeepText.v |
| C152 | The callbacks of a call are the same at every depth | proved | `C152_callbacks` | PropertiesCallbacks.v |
| C153 | A call is recorded the same at every depth | proved | `C153_recording` | PropertiesRecorded.v |
| C154 | Counters and transfers add up over the calls | proved | `C154_opcodes`, `C154_instructions`, `C154_selectors`, `C154_transfers` | PropertiesSums.v |
