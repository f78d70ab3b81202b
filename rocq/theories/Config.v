(** * Config: /repo/src/tracing/config.rs *)

From Verif Require Export Evm.
Local Open Scope N_scope.

(** config.rs:12 [struct OpcodeFilter(U256)] *)
Definition OpcodeFilter := U256.

(** config.rs:23-25 [OpcodeFilter::new] *)
Definition filter_new : OpcodeFilter := 0.

(** config.rs:29-31 [OpcodeFilter::is_enabled]; ruint's [bit] is [false] at or beyond 256. *)
Definition filter_is_enabled (f : OpcodeFilter) (op : u8) : bool :=
  if op <? 256 then N.testbit f op else false.

(** config.rs:35-38 [OpcodeFilter::enable]; ruint's [set_bit] ignores indices beyond 256. *)
Definition filter_enable (f : OpcodeFilter) (op : u8) : OpcodeFilter :=
  if op <? 256 then N.setbit f op else f.

(** ruint [into_limbs] / [from_limbs] for U256 (four little-endian u64 limbs) *)
Definition into_limbs (w : U256) : list u64 :=
  [w mod two64; (w / two64) mod two64; (w / two64 ^ 2) mod two64; (w / two64 ^ 3) mod two64].
Definition from_limbs (l : list u64) : U256 :=
  foldr (fun x acc => x + two64 * acc) 0 l.

(** config.rs:42-49 [OpcodeFilter::enabled]: limb arithmetic.  [limbs[limb]] cannot be out of range
    for a [u8] opcode; [alter] leaves the list unchanged for other inputs. *)
Definition filter_enabled (f : OpcodeFilter) (op : u8) : OpcodeFilter :=
  let limbs := into_limbs f in
  let limb := op / 64 in
  let bit := op mod 64 in
  from_limbs (alter (fun x => N.lor x (N.shiftl 1 bit)) (N.to_nat limb) limbs).

(** config.rs:305-313 *)
Inductive StackSnapshotType := SnapNone | SnapPushes | SnapFull.
(** config.rs:318-320 *)
Definition snap_is_full (s : StackSnapshotType) : bool := match s with SnapFull => true | _ => false end.
(** config.rs:324-326 *)
Definition snap_is_pushes (s : StackSnapshotType) : bool := match s with SnapPushes => true | _ => false end.

(** config.rs:57-75 *)
Record TracingInspectorConfig := mkConfig {
  record_steps : bool;
  record_memory_snapshots : bool;
  record_stack_snapshots : StackSnapshotType;
  record_state_diff : bool;
  record_returndata_snapshots : bool;
  record_opcodes_filter : option OpcodeFilter;
  exclude_precompile_calls : bool;
  record_logs : bool
}.

(** config.rs:79-90 *)
Definition cfg_all := mkConfig true true SnapFull false true None false true.
(** config.rs:93-104 *)
Definition cfg_none := mkConfig false false SnapNone false false None false false.
(** config.rs:109-120 *)
Definition cfg_default_parity := mkConfig false false SnapNone false false None true false.
(** config.rs:128-139 *)
Definition cfg_default_geth := mkConfig true false SnapFull true false None false false.

(** config.rs:198-201 *)
Definition set_exclude_precompile_calls (c : TracingInspectorConfig) (b : bool) :=
  mkConfig c.(record_steps) c.(record_memory_snapshots) c.(record_stack_snapshots)
    c.(record_state_diff) c.(record_returndata_snapshots) c.(record_opcodes_filter) b c.(record_logs).
(** config.rs:214-217 *)
Definition set_steps (c : TracingInspectorConfig) (b : bool) :=
  mkConfig b c.(record_memory_snapshots) c.(record_stack_snapshots)
    c.(record_state_diff) c.(record_returndata_snapshots) c.(record_opcodes_filter)
    c.(exclude_precompile_calls) c.(record_logs).
(** config.rs:204-211 *)
Definition disable_steps c := set_steps c false.
Definition steps_on c := set_steps c true.
(** config.rs:230-233 *)
Definition set_memory_snapshots (c : TracingInspectorConfig) (b : bool) :=
  mkConfig c.(record_steps) b c.(record_stack_snapshots)
    c.(record_state_diff) c.(record_returndata_snapshots) c.(record_opcodes_filter)
    c.(exclude_precompile_calls) c.(record_logs).
(** config.rs:220-227 *)
Definition disable_memory_snapshots c := set_memory_snapshots c false.
Definition memory_snapshots c := set_memory_snapshots c true.
(** config.rs:246-249 *)
Definition set_stack_snapshots (c : TracingInspectorConfig) (s : StackSnapshotType) :=
  mkConfig c.(record_steps) c.(record_memory_snapshots) s
    c.(record_state_diff) c.(record_returndata_snapshots) c.(record_opcodes_filter)
    c.(exclude_precompile_calls) c.(record_logs).
(** config.rs:236-243 *)
Definition disable_stack_snapshots c := set_stack_snapshots c SnapNone.
Definition stack_snapshots c := set_stack_snapshots c SnapFull.
(** config.rs:257-260 *)
Definition set_state_diffs (c : TracingInspectorConfig) (b : bool) :=
  mkConfig c.(record_steps) c.(record_memory_snapshots) c.(record_stack_snapshots)
    b c.(record_returndata_snapshots) c.(record_opcodes_filter)
    c.(exclude_precompile_calls) c.(record_logs).
(** config.rs:252-254 *)
Definition disable_state_diffs c := set_state_diffs c false.
(** config.rs:273-277 *)
Definition set_steps_and_state_diffs (c : TracingInspectorConfig) (b : bool) :=
  mkConfig b c.(record_memory_snapshots) c.(record_stack_snapshots)
    b c.(record_returndata_snapshots) c.(record_opcodes_filter)
    c.(exclude_precompile_calls) c.(record_logs).
(** config.rs:265-267 *)
Definition with_state_diffs c := set_steps_and_state_diffs c true.
(** config.rs:290-293 *)
Definition set_record_logs (c : TracingInspectorConfig) (b : bool) :=
  mkConfig c.(record_steps) c.(record_memory_snapshots) c.(record_stack_snapshots)
    c.(record_state_diff) c.(record_returndata_snapshots) c.(record_opcodes_filter)
    c.(exclude_precompile_calls) b.
(** config.rs:280-287 *)
Definition disable_record_logs c := set_record_logs c false.
Definition record_logs_on c := set_record_logs c true.

(** alloy [TraceType] (parity); the set argument is a list of requested types *)
Inductive TraceType := TTrace | TVmTrace | TStateDiff.
Global Instance TraceType_eq_dec : EqDecision TraceType.
Proof. solve_decision. Defined.

(** [HashSet::contains] *)
Definition tt_contains (ts : list TraceType) (t : TraceType) : bool := bool_decide (t ∈ ts).

(** config.rs:146-154 [from_parity_config] *)
Definition from_parity_config (ts : list TraceType) : TracingInspectorConfig :=
  let needs_vm_trace := tt_contains ts TVmTrace in
  let snap := if needs_vm_trace then SnapPushes else SnapNone in
  set_memory_snapshots
    (set_stack_snapshots (set_steps cfg_default_parity needs_vm_trace) snap) needs_vm_trace.

(** alloy [GethDefaultTracingOptions], the fields used here *)
Record GethDefaultTracingOptions := mkGethOpts {
  enable_memory : option bool; disable_memory : option bool;
  disable_stack : option bool; disable_storage : option bool;
  enable_return_data : option bool; disable_return_data : option bool }.

Definition unwrap_or_default_bool (o : option bool) : bool := default false o.

(** alloy [GethDefaultTracingOptions::is_memory_enabled]: [enable_memory], else the negation of
    [disable_memory], else false *)
Definition enabled_or_not_disabled (en dis : option bool) : bool :=
  match en, dis with
  | Some b, _ => b
  | None, Some d => negb d
  | None, None => false
  end.
Definition is_memory_enabled (o : GethDefaultTracingOptions) : bool :=
  enabled_or_not_disabled o.(enable_memory) o.(disable_memory).
(** alloy [is_stack_enabled] *)
Definition is_stack_enabled (o : GethDefaultTracingOptions) : bool :=
  negb (unwrap_or_default_bool o.(disable_stack)).
(** alloy [is_storage_enabled] *)
Definition is_storage_enabled (o : GethDefaultTracingOptions) : bool :=
  negb (unwrap_or_default_bool o.(disable_storage)).
(** alloy [is_return_data_enabled] *)
Definition is_return_data_enabled (o : GethDefaultTracingOptions) : bool :=
  enabled_or_not_disabled o.(enable_return_data) o.(disable_return_data).

(** config.rs:161-172 [from_geth_config] *)
Definition from_geth_config (o : GethDefaultTracingOptions) : TracingInspectorConfig :=
  mkConfig cfg_default_geth.(record_steps)
    (unwrap_or_default_bool o.(enable_memory))
    (if unwrap_or_default_bool o.(disable_stack) then SnapNone else SnapFull)
    (negb (unwrap_or_default_bool o.(disable_storage)))
    cfg_default_geth.(record_returndata_snapshots) cfg_default_geth.(record_opcodes_filter)
    cfg_default_geth.(exclude_precompile_calls) cfg_default_geth.(record_logs).

(** alloy [CallConfig], [PreStateConfig] *)
Record CallConfig := mkCallConfig { only_top_call : option bool; with_log : option bool }.
Record PreStateConfig := mkPreStateConfig { diff_mode : option bool }.
(** alloy [PreStateConfig::is_default_mode] *)
Definition is_default_mode (p : PreStateConfig) : bool := negb (unwrap_or_default_bool p.(diff_mode)).

(** config.rs:179-183 *)
Definition from_geth_call_config (c : CallConfig) : TracingInspectorConfig :=
  set_record_logs cfg_none (unwrap_or_default_bool c.(with_log)).
(** config.rs:191-193 *)
Definition from_geth_prestate_config (_ : PreStateConfig) : TracingInspectorConfig := cfg_none.

(** config.rs:298-300 [should_record_opcode] *)
Definition should_record_opcode (c : TracingInspectorConfig) (op : u8) : bool :=
  match c.(record_opcodes_filter) with None => true | Some f => filter_is_enabled f op end.
