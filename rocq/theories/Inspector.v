(** * Inspector: /repo/src/tracing/mod.rs ([TracingInspector]) *)

From Verif Require Export Arena.

(** mod.rs:617-630 *)
Record StackStep := mkStackStep { ss_record : bool; ss_trace_idx : nat; ss_step_idx : nat }.

(** mod.rs:64-79.  [trace_stack] and [step_stack] are kept with the top of the Vec at the head of
    the list. *)
Record TracingInspector := mkTI {
  ti_config : TracingInspectorConfig;
  ti_traces : list CallTraceNode;
  ti_trace_stack : list nat;
  ti_step_stack : list StackStep;
  ti_last_call_return_data : option bytes;
  ti_spec_id : option SpecId }.

(** mod.rs:85-87 *)
Definition ti_new (c : TracingInspectorConfig) : TracingInspector :=
  mkTI c arena_default [] [] None None.

(** mod.rs:94-109 *)
Definition ti_fuse (s : TracingInspector) : TracingInspector :=
  mkTI s.(ti_config) (arena_clear s.(ti_traces)) [] [] None None.
(** mod.rs:113-116 *)
Definition ti_fused := ti_fuse.

(** mod.rs:129-134 *)
Definition ti_update_config (s : TracingInspector) (f : TracingInspectorConfig -> TracingInspectorConfig) :=
  mkTI (f s.(ti_config)) s.(ti_traces) s.(ti_trace_stack) s.(ti_step_stack)
    s.(ti_last_call_return_data) s.(ti_spec_id).

(** mod.rs:170-174 and 179-182 *)
Definition ti_set_transaction_gas_used (s : TracingInspector) (g : u64) : TracingInspector :=
  mkTI s.(ti_config)
    (match s.(ti_traces) with
     | [] => []
     | n :: ns => nd_set_trace n (tr_set_gas_used n.(nd_trace) g) :: ns
     end)
    s.(ti_trace_stack) s.(ti_step_stack) s.(ti_last_call_return_data) s.(ti_spec_id).

(** mod.rs:197-200 *)
Definition ti_is_deep (s : TracingInspector) : bool :=
  match s.(ti_trace_stack) with [] => false | _ => true end.

(** mod.rs:206-217 *)
Definition ti_is_precompile_call (s : TracingInspector) (c : Ctx) (to : address) (value : U256) : bool :=
  if c.(cx_precompiles) to then ti_is_deep s && (value =? 0)%N else false.

(** mod.rs:224-226 *)
Definition ti_active_trace (s : TracingInspector) : res (option CallTraceNode) :=
  match s.(ti_trace_stack) with
  | [] => Ok None
  | idx :: _ => let! n := index s.(ti_traces) idx in Ok (Some n)
  end.

(** mod.rs:237-239 *)
Definition ti_last_trace_idx (s : TracingInspector) : res nat := expect (head s.(ti_trace_stack)).

(** The trace built by [start_trace_on_call], mod.rs:298-309. *)
Definition new_trace_of (depth : nat) (addr : address) (input : bytes) (value : U256) (kind : CallKind)
    (caller : address) (gas_limit : u64) (maybe_precompile : option bool) : CallTrace :=
  mkTrace depth false caller addr maybe_precompile None None kind value input [] 0%N gas_limit
    Continue [] decoded_none.

(** mod.rs:263-311 *)
Definition start_trace_on_call (s : TracingInspector) (c : Ctx) (addr : address) (input : bytes)
    (value : U256) (kind : CallKind) (caller : address) (gas_limit : u64)
    (maybe_precompile : option bool) : res TracingInspector :=
  let push_kind := if default false maybe_precompile then PushOnly else PushAndAttachToParent in
  let '(gas_limit, spec_id) :=
    match s.(ti_trace_stack) with
    | [] => (c.(cx_tx_gas_limit), Some c.(cx_spec))
    | _ => (gas_limit, s.(ti_spec_id))
    end in
  let! pushed :=
    push_trace s.(ti_traces) 0 push_kind
      (new_trace_of c.(cx_depth) addr input value kind caller gas_limit maybe_precompile) in
  Ok (mkTI s.(ti_config) (fst pushed) (snd pushed :: s.(ti_trace_stack)) s.(ti_step_stack)
        s.(ti_last_call_return_data) spec_id).

(** Field updates of mod.rs:331-348 on the ended trace. *)
Definition fill_trace (is_root : bool) (spec : SpecId) (r : InterpreterResult)
    (created : option address) (t : CallTrace) : CallTrace :=
  let g := r.(ir_gas) in
  mkTrace t.(tr_depth) (ir_is_ok r.(ir_result)) t.(tr_caller)
    (default t.(tr_address) created)
    t.(tr_maybe_precompile) t.(tr_selfdestruct_refund_target) t.(tr_selfdestruct_transferred_value)
    t.(tr_kind) t.(tr_value) t.(tr_data) r.(ir_output)
    (if is_root then gas_used spec (g_spent g) (i64_as_u64 g.(g_refunded)) else g_spent g)
    t.(tr_gas_limit) r.(ir_result) t.(tr_steps) t.(tr_decoded).

(** mod.rs:320-349 (with [pop_trace_idx], 255-257) *)
Definition fill_trace_on_call_end (s : TracingInspector) (c : Ctx) (r : InterpreterResult)
    (created : option address) : res TracingInspector :=
  match s.(ti_trace_stack) with
  | [] => Panic PExpect
  | trace_idx :: rest =>
      let! arena :=
        update s.(ti_traces) trace_idx (fun n =>
          nd_set_trace n (fill_trace (trace_idx =? 0) c.(cx_spec) r created n.(nd_trace))) in
      Ok (mkTI s.(ti_config) arena rest s.(ti_step_stack) (Some r.(ir_output)) s.(ti_spec_id))
  end.

(** The memory snapshot of mod.rs:380-391. *)
Definition snapshot_memory (cfg : TracingInspectorConfig) (prev : option CallTraceStep) (mem : bytes)
    : option bytes :=
  if cfg.(record_memory_snapshots) then
    Some (match cfg.(record_opcodes_filter), prev with
          | None, Some p =>
              if negb (may_modify_memory p.(st_op)) then default mem p.(st_memory) else mem
          | _, _ => mem
          end)
  else None.

(** The step pushed by mod.rs:398-425. *)
Definition new_step (cfg : TracingInspectorConfig) (prev : option CallTraceStep) (i : Interp) (c : Ctx)
    : CallTraceStep :=
  mkStep c.(cx_depth) i.(in_pc) i.(in_op) i.(in_contract)
    (if snap_is_full cfg.(record_stack_snapshots) then Some i.(in_stack) else None)
    None
    (snapshot_memory cfg prev i.(in_memory))
    (if cfg.(record_returndata_snapshots) then i.(in_returndata) else [])
    i.(in_gas).(g_remaining) (i64_as_u64 i.(in_gas).(g_refunded))
    (gas_used c.(cx_spec) (g_spent i.(in_gas)) (i64_as_u64 i.(in_gas).(g_refunded)))
    0%N None Continue None.

(** mod.rs:407 and 427: append the step and its ordering entry *)
Definition push_step (st : CallTraceStep) (n : CallTraceNode) : CallTraceNode :=
  mkNode n.(nd_parent) n.(nd_children) n.(nd_idx)
    (tr_set_steps n.(nd_trace) (n.(nd_trace).(tr_steps) ++ [st])) n.(nd_logs)
    (n.(nd_ordering) ++ [OStep (length n.(nd_trace).(tr_steps))]).

(** mod.rs:360-428 *)
Definition start_step (s : TracingInspector) (i : Interp) (c : Ctx) : res TracingInspector :=
  let! trace_idx := ti_last_trace_idx s in
  let! n := index s.(ti_traces) trace_idx in
  let step_idx := length n.(nd_trace).(tr_steps) in
  let record := should_record_opcode s.(ti_config) i.(in_op) in
  let stack' := mkStackStep record trace_idx step_idx :: s.(ti_step_stack) in
  if negb record then
    Ok (mkTI s.(ti_config) s.(ti_traces) s.(ti_trace_stack) stack'
          s.(ti_last_call_return_data) s.(ti_spec_id))
  else
    let st := new_step s.(ti_config) (last n.(nd_trace).(tr_steps)) i c in
    let! arena := update s.(ti_traces) trace_idx (push_step st) in
    Ok (mkTI s.(ti_config) arena s.(ti_trace_stack) stack'
          s.(ti_last_call_return_data) s.(ti_spec_id)).

(** mod.rs:448-452: [interp.stack.len() - num_pushed] underflows when the stack is too short. *)
Definition push_snapshot (cfg : TracingInspectorConfig) (op : u8) (stack : list U256)
    (old : option (list U256)) : res (option (list U256)) :=
  if snap_is_pushes cfg.(record_stack_snapshots) then
    let num_pushed := stack_push_count op in
    if num_pushed <=? length stack then Ok (Some (drop (length stack - num_pushed) stack))
    else Panic PUnderflow
  else Ok old.

(** mod.rs:454-484 *)
Definition storage_snapshot (cfg : TracingInspectorConfig) (op : u8) (c : Ctx)
    (old : option StorageChange) : res (option StorageChange) :=
  if cfg.(record_state_diff) then
    let! jn := expect (last c.(cx_journal)) in
    match last jn with
    | Some (JStorageChanged a k had) =>
        if (op =? OP_SLOAD)%N || (op =? OP_SSTORE)%N then
          match c.(cx_present) a k with
          | None => Panic PIndex
          | Some v =>
              Ok (Some (mkStorageChange k v (Some had) (if (op =? OP_SLOAD)%N then RSLOAD else RSSTORE)))
          end
        else Ok None
    | _ => Ok None
    end
  else Ok old.

(** mod.rs:446-492: the fields written at [step_end] *)
Definition fill_step (cfg : TracingInspectorConfig) (i : Interp) (c : Ctx) (st : CallTraceStep)
    : res CallTraceStep :=
  let! ps := push_snapshot cfg st.(st_op) i.(in_stack) st.(st_push_stack) in
  let! sc := storage_snapshot cfg st.(st_op) c st.(st_storage_change) in
  Ok (mkStep st.(st_depth) st.(st_pc) st.(st_op) st.(st_contract) st.(st_stack) ps st.(st_memory)
        st.(st_returndata) st.(st_gas_remaining) st.(st_gas_refund_counter) st.(st_gas_used)
        (st.(st_gas_remaining) - i.(in_gas).(g_remaining))%N sc i.(in_result) st.(st_decoded)).

Definition set_step (step_idx : nat) (st : CallTraceStep) (n : CallTraceNode) : CallTraceNode :=
  nd_set_trace n (tr_set_steps n.(nd_trace) (<[step_idx := st]> n.(nd_trace).(tr_steps))).

(** mod.rs:434-493 *)
Definition fill_step_on_step_end (s : TracingInspector) (i : Interp) (c : Ctx) : res TracingInspector :=
  match s.(ti_step_stack) with
  | [] => Panic PExpect
  | mkStackStep record trace_idx step_idx :: rest =>
      if negb record then
        Ok (mkTI s.(ti_config) s.(ti_traces) s.(ti_trace_stack) rest
              s.(ti_last_call_return_data) s.(ti_spec_id))
      else
        let! n := index s.(ti_traces) trace_idx in
        let! st := index n.(nd_trace).(tr_steps) step_idx in
        let! st' := fill_step s.(ti_config) i c st in
        let! arena := update s.(ti_traces) trace_idx (set_step step_idx st') in
        Ok (mkTI s.(ti_config) arena s.(ti_trace_stack) rest
              s.(ti_last_call_return_data) s.(ti_spec_id))
  end.

(** mod.rs:517-518 *)
Definition push_log (l : Log) (n : CallTraceNode) : CallTraceNode :=
  mkNode n.(nd_parent) n.(nd_children) n.(nd_idx) n.(nd_trace) (n.(nd_logs) ++ [calllog_of l])
    (n.(nd_ordering) ++ [OLog (length n.(nd_logs))]).

(** mod.rs:607-612 *)
Definition mark_selfdestruct (contract target : address) (value : U256) (n : CallTraceNode) : CallTraceNode :=
  let t := n.(nd_trace) in
  nd_set_trace n
    (mkTrace t.(tr_depth) t.(tr_success) t.(tr_caller) contract t.(tr_maybe_precompile)
       (Some target) (Some value) t.(tr_kind) t.(tr_value) t.(tr_data) t.(tr_output) t.(tr_gas_used)
       t.(tr_gas_limit) t.(tr_status) t.(tr_steps) t.(tr_decoded)).

(** Mutation through [last_trace()], mod.rs:243-246. *)
Definition on_last_trace (s : TracingInspector) (f : CallTraceNode -> CallTraceNode) : res TracingInspector :=
  let! idx := ti_last_trace_idx s in
  let! arena := update s.(ti_traces) idx f in
  Ok (mkTI s.(ti_config) arena s.(ti_trace_stack) s.(ti_step_stack)
        s.(ti_last_call_return_data) s.(ti_spec_id)).

(** mod.rs:528-533: [from] and [to] by call scheme *)
Definition call_from_to (i : CallInputs) : address * address :=
  match i.(ci_scheme) with
  | CSDelegateCall | CSCallCode => (i.(ci_target_address), i.(ci_bytecode_address))
  | _ => (i.(ci_caller), i.(ci_target_address))
  end.

(** mod.rs:522-564 [call] *)
Definition ti_call (s : TracingInspector) (c : Ctx) (i : CallInputs) : res TracingInspector :=
  let '(from, to) := call_from_to i in
  let! value :=
    match i.(ci_scheme) with
    | CSDelegateCall =>
        let! parent := ti_active_trace s in
        Ok (match parent with
            | Some p => p.(nd_trace).(tr_value)
            | None => ci_call_value i
            end)
    | _ => Ok (ci_call_value i)
    end in
  let maybe_precompile :=
    if s.(ti_config).(exclude_precompile_calls)
    then Some (ti_is_precompile_call s c to value) else None in
  start_trace_on_call s c to i.(ci_input) value (kind_of_scheme i.(ci_scheme)) from i.(ci_gas_limit)
    maybe_precompile.

(** mod.rs:576-595 [create].  [load_account] (warming the already warm caller) is not modelled; the
    created address is carried by the inputs. *)
Definition ti_create (s : TracingInspector) (c : Ctx) (i : CreateInputs) : res TracingInspector :=
  start_trace_on_call s c i.(cr_created_address) i.(cr_init_code) i.(cr_value)
    (kind_of_create i.(cr_scheme)) i.(cr_caller) i.(cr_gas_limit) (Some false).

(** mod.rs:496-613 [impl Inspector for TracingInspector] *)
Definition ti_handle : inspector TracingInspector := fun s e =>
  match e with
  | EStep i c =>
      let! s' := (if s.(ti_config).(record_steps) then start_step s i c else Ok s) in Ok (s', RInterp i)
  | EStepEnd i c =>
      let! s' := (if s.(ti_config).(record_steps) then fill_step_on_step_end s i c else Ok s) in
      Ok (s', RInterp i)
  | ELog l _ =>
      let! s' := (if s.(ti_config).(record_logs) then on_last_trace s (push_log l) else Ok s) in
      Ok (s', RUnit)
  | ECall c i => let! s' := ti_call s c i in Ok (s', RCall i None)
  | ECallEnd c _ o => let! s' := fill_trace_on_call_end s c o.(co_result) None in Ok (s', RCallEnd o)
  | ECreate c i => let! s' := ti_create s c i in Ok (s', RCreate i None)
  | ECreateEnd c _ o =>
      let! s' := fill_trace_on_call_end s c o.(cro_result) o.(cro_address) in Ok (s', RCreateEnd o)
  | ESelfdestruct a b v => let! s' := on_last_trace s (mark_selfdestruct a b v) in Ok (s', RUnit)
  end.

(** A whole history on one inspector. *)
Definition ti_run (s : TracingInspector) (es : list event) : res TracingInspector := run ti_handle s es.
