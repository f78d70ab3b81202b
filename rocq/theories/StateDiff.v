(** * StateDiff: /repo/src/tracing/builder/parity.rs, state diffs and the combined trace results *)

From Verif Require Export VmTrace.
Local Open Scope N_scope.

(** alloy [Delta] with its [ChangedType] *)
Inductive Delta (A : Type) := DUnchanged | DAdded (a : A) | DRemoved (a : A) | DChanged (from to : A).
Arguments DUnchanged {A}. Arguments DAdded {A} a. Arguments DRemoved {A} a. Arguments DChanged {A} from to.

(** alloy [AccountDiff]; its storage is a [BTreeMap] *)
Record AccountDiff := mkDiff {
  df_balance : Delta U256; df_code : Delta bytes; df_nonce : Delta u64; df_storage : gmap U256 (Delta U256) }.
(** [AccountDiff::default] *)
Definition diff_default : AccountDiff := mkDiff DUnchanged DUnchanged DUnchanged ∅.

(** alloy [StateDiff] (a [BTreeMap]) *)
Notation StateDiff := (gmap address AccountDiff).

(** [for (key, slot) in storage.iter().filter(is_changed) { entry.storage.insert(key, f(slot)) }], parity.rs:498-500
    and 506-511 *)
Definition insert_changed (f : Slot -> Delta U256) (m : gmap U256 (Delta U256)) (storage : list (U256 * Slot))
    : gmap U256 (Delta U256) :=
  fold_left (fun m ks => <[fst ks := f (snd ks)]> m) (List.filter (fun ks => sl_is_changed (snd ks)) storage) m.

(** parity.rs:481-543: one iteration over [account_diffs]; [None] is an error of the database *)
Definition diff_step (db : Db) (state_diff : StateDiff) (x : address * Account) : option StateDiff :=
  let '(addr, acc) := x in
  if acc.(ac_selfdestructed) && acc.(ac_created) then Some state_diff
  else
    let entry := default diff_default (state_diff !! addr) in
    if acc.(ac_created) then
      let account_code := default [] (load_account_code db acc.(ac_info)) in
      Some (<[addr := mkDiff (DAdded acc.(ac_info).(ai_balance)) (DAdded account_code) (DAdded acc.(ac_info).(ai_nonce))
                        (insert_changed (fun s => DAdded s.(sl_present)) entry.(df_storage) acc.(ac_storage))]> state_diff)
    else
      match db.(db_basic) addr with
      | None => None
      | Some o =>
          let db_acc := default info_default o in
          let storage := insert_changed (fun s => DChanged s.(sl_original) s.(sl_present)) entry.(df_storage) acc.(ac_storage) in
          if bool_decide (storage = ∅) && info_eqb db_acc acc.(ac_info) && negb acc.(ac_selfdestructed)
          then Some (delete addr state_diff)
          else
            Some (<[addr := mkDiff
                     (if db_acc.(ai_balance) =? acc.(ac_info).(ai_balance) then DUnchanged
                      else DChanged db_acc.(ai_balance) acc.(ac_info).(ai_balance))
                     entry.(df_code)
                     (if db_acc.(ai_nonce) =? acc.(ac_info).(ai_nonce) then DUnchanged
                      else DChanged db_acc.(ai_nonce) acc.(ac_info).(ai_nonce))
                     storage]> state_diff)
      end.

(** parity.rs:469-544 [populate_state_diff] *)
Fixpoint populate_state_diff (state_diff : StateDiff) (db : Db) (account_diffs : list (address * Account))
    : option StateDiff :=
  match account_diffs with
  | [] => Some state_diff
  | x :: l => match diff_step db state_diff x with Some d => populate_state_diff d db l | None => None end
  end.

(** A [HashSet<TraceType>]: which of the three members it contains *)
Record TraceTypes := mkTypes { ty_trace : bool; ty_vm_trace : bool; ty_state_diff : bool }.
Definition ty_is_empty (t : TraceTypes) : bool := negb (t.(ty_trace) || t.(ty_vm_trace) || t.(ty_state_diff)).

(** parity.rs:215-263 [into_trace_type_traces] *)
Definition into_trace_type_traces (nodes : list CallTraceNode) (types : TraceTypes)
    : res (option (list TransactionTrace) * option VmTrace * option StateDiff) :=
  if ty_is_empty types || (length nodes =? 0)%nat then Ok (None, None, None)
  else
    let! vm := if types.(ty_vm_trace) then rmap Some (vm_trace nodes) else Ok None in
    let! traces := type_traces nodes types.(ty_trace) in
    Ok (traces, vm, if types.(ty_state_diff) then Some ∅ else None).

(** alloy [TraceResults] *)
Record TraceResults := mkResults {
  rs_output : bytes; rs_trace : list TransactionTrace; rs_vm_trace : option VmTrace; rs_state_diff : option StateDiff }.
(** alloy [TraceOutput::set_gas_used] *)
Definition out_set_gas_used (o : TraceOutput) (gas : u64) : TraceOutput :=
  match o with OutCall _ out => OutCall gas out | OutCreate _ code a => OutCreate gas code a end.
(** alloy [TraceResults::set_root_trace_gas_used] *)
Definition set_root_trace_gas_used (l : list TransactionTrace) (gas : u64) : list TransactionTrace :=
  match l with
  | [] => []
  | t :: l => mkTT t.(tt_action) t.(tt_error)
                (match t.(tt_result) with Some r => Some (out_set_gas_used r gas) | None => None end)
                t.(tt_address) t.(tt_subtraces) :: l
  end.

(** revm [ExecutionResult]: [gas_used()] and [output()], the two views taken *)
Record ExecutionResult := mkExecResult { er_gas_used : u64; er_output : option bytes }.

(** parity.rs:149-168 [into_trace_results] *)
Definition into_trace_results (nodes : list CallTraceNode) (r : ExecutionResult) (types : TraceTypes) : res TraceResults :=
  let! x := into_trace_type_traces nodes types in
  let '(trace, vm, diff) := x in
  Ok (mkResults (default [] r.(er_output)) (set_root_trace_gas_used (default [] trace) r.(er_gas_used)) vm diff).

(** parity.rs:178-207 [into_trace_results_with_state]; [Ok None] is an error of the database *)
Definition into_trace_results_with_state (nodes : list CallTraceNode) (r : ExecutionResult)
    (state : list (address * Account)) (types : TraceTypes) (db : Db) : res (option TraceResults) :=
  let! addrs := if types.(ty_vm_trace) then rmap (map (fun n => n.(nd_trace).(tr_address))) (walk_bf nodes) else Ok [] in
  let! t := into_trace_results nodes r types in
  let diff :=
    match t.(rs_state_diff) with
    | None => Some None
    | Some d => match populate_state_diff d db state with Some d => Some (Some d) | None => None end
    end in
  match diff with
  | None => Ok None
  | Some diff =>
      match t.(rs_vm_trace) with
      | None => Ok (Some (mkResults t.(rs_output) t.(rs_trace) None diff))
      | Some vm =>
          let! r := populate_vm_trace_bytecodes db vm addrs in
          Ok (match r with Some vm => Some (mkResults t.(rs_output) t.(rs_trace) (Some vm) diff) | None => None end)
      end
  end.
