(** * Geth: /repo/src/tracing/builder/geth.rs (struct logs and call frames) and the conversions of types.rs it uses *)

From Verif Require Export Types.

(** ** Call tracer *)

(** alloy [CallLogFrame] *)
Record CallLogFrame := mkLogFrame { lf_address : option address; lf_topics : option (list U256); lf_data : option bytes }.
(** alloy [CallFrame]: every field but [calls] *)
Record FrameInfo := mkFI {
  fi_typ : string; fi_from : address; fi_to : option address; fi_value : option U256;
  fi_gas : U256; fi_gas_used : U256; fi_input : bytes; fi_output : option bytes;
  fi_error : option string; fi_revert_reason : option string; fi_logs : list CallLogFrame }.
(** alloy [CallFrame] *)
Inductive CallFrame := mkCF (info : FrameInfo) (calls : list CallFrame).
Definition cf_info (c : CallFrame) : FrameInfo := let '(mkCF i _) := c in i.
Definition cf_calls (c : CallFrame) : list CallFrame := let '(mkCF _ l) := c in l.
(** [CallFrame::default] *)
Definition fi_default : FrameInfo := mkFI "" 0 None None 0 0 [] None None None []%N.
Definition cf_default : CallFrame := mkCF fi_default [].
(** [frame.calls.push(c)] and [frame.calls.insert(0, c)] *)
Definition cf_push (c : CallFrame) (f : CallFrame) : CallFrame := mkCF (cf_info f) (cf_calls f ++ [c]).
Definition cf_insert0 (c : CallFrame) (f : CallFrame) : CallFrame := mkCF (cf_info f) (c :: cf_calls f).

(** types.rs:310-322 [geth_selfdestruct_call_trace] *)
Definition geth_selfdestruct_call_trace (n : CallTraceNode) : option CallFrame :=
  if nd_is_selfdestruct n then
    Some (mkCF (mkFI "SELFDESTRUCT" n.(nd_trace).(tr_caller) n.(nd_trace).(tr_selfdestruct_refund_target)
                  n.(nd_trace).(tr_selfdestruct_transferred_value) 0%N 0%N [] None None None []) [])
  else None.

Section Calls.
  (** utils.rs:58-75: any function here; [Utils.maybe_revert_reason] with alloy's decoder in the crate *)
  Context (maybe_revert_reason : bytes -> option string).

  (** types.rs:364-406 [geth_empty_call_frame] *)
  Definition geth_empty_call_frame (n : CallTraceNode) (include_logs : bool) : CallFrame :=
    let t := n.(nd_trace) in
    mkCF
      (mkFI (kind_to_str t.(tr_kind)) t.(tr_caller) (Some t.(tr_address))
         (if is_static_call t.(tr_kind) then None else Some t.(tr_value))
         t.(tr_gas_limit) t.(tr_gas_used) t.(tr_data)
         (match t.(tr_output) with [] => None | o => Some o end)
         (if negb t.(tr_success) then tr_as_error_msg t StyleParity else None)
         (if negb t.(tr_success) then maybe_revert_reason t.(tr_output) else None)
         (if include_logs
          then map (fun log => mkLogFrame (Some (nd_execution_address n)) (Some log.(cl_topics)) (Some log.(cl_data)))
                 n.(nd_logs)
          else []))
      [].

  (** [root_call_frame.gas_used = ..], geth.rs:126 *)
  Definition fi_set_gas_used (i : FrameInfo) (g : U256) : FrameInfo :=
    mkFI i.(fi_typ) i.(fi_from) i.(fi_to) i.(fi_value) i.(fi_gas) g i.(fi_input) i.(fi_output) i.(fi_error)
      i.(fi_revert_reason) i.(fi_logs).

  (** geth.rs:176-191 [call_or_parent_failed]: the loop over the parents, one unit of fuel per iteration *)
  Fixpoint parent_failed (fuel : nat) (nodes : list CallTraceNode) (parent_idx : option nat) : res bool :=
    match parent_idx with
    | None => Ok false
    | Some idx =>
        match fuel with
        | O => OutOfFuel
        | S fuel =>
            let! next := index nodes idx in
            if tr_is_error next.(nd_trace) then Ok true else parent_failed fuel nodes next.(nd_parent)
        end
    end.
  Definition call_or_parent_failed (nodes : list CallTraceNode) (n : CallTraceNode) : res bool :=
    if tr_is_error n.(nd_trace) then Ok true else parent_failed (length nodes) nodes n.(nd_parent).

  (** [call_frames.last_mut().expect("not empty").1.calls.push(c)], geth.rs:147-149 *)
  Definition push_to_last (call_frames : list (nat * CallFrame)) (c : CallFrame) : res (list (nat * CallFrame)) :=
    match call_frames with
    | [] => Panic PExpect
    | _ => Ok (alter (fun x => (fst x, cf_push c (snd x))) (length call_frames - 1) call_frames)
    end.

  (** geth.rs:144-154: one iteration over the nodes after the root *)
  Definition frames_step (nodes : list CallTraceNode) (include_logs : bool) (call_frames : list (nat * CallFrame))
      (x : nat * CallTraceNode) : res (list (nat * CallFrame)) :=
    let '(idx, trace) := x in
    let! call_frames :=
      match geth_selfdestruct_call_trace trace with
      | Some selfdestruct => push_to_last call_frames selfdestruct
      | None => Ok call_frames
      end in
    let! failed := if include_logs then call_or_parent_failed nodes trace else Ok false in
    Ok (call_frames ++ [(idx, geth_empty_call_frame trace (include_logs && negb failed))]).

  (** geth.rs:159-173: pop the last frame and hang it into its parent's; one unit of fuel per iteration. The
      [debug_assert!] is modelled as a panic. *)
  Fixpoint roll_up (fuel : nat) (nodes : list CallTraceNode) (call_frames : list (nat * CallFrame)) : res CallFrame :=
    match fuel with
    | O => OutOfFuel
    | S fuel =>
        match last call_frames with
        | None => Panic PExpect
        | Some (idx, call) =>
            let rest := take (length call_frames - 1) call_frames in
            let! node := index nodes idx in
            match node.(nd_parent) with
            | Some parent =>
                let! rest := update rest parent (fun x => (fst x, cf_insert0 call (snd x))) in
                roll_up fuel nodes rest
            | None => match rest with [] => Ok call | _ => Panic PUnreachable end
            end
        end
    end.

  (** geth.rs:117-174 [geth_call_traces] *)
  Definition geth_call_traces (nodes : list CallTraceNode) (opts : CallConfig) (gas_used : u64) : res CallFrame :=
    match nodes with
    | [] => Ok cf_default
    | main_trace_node :: children =>
        let include_logs := unwrap_or_default_bool opts.(with_log) in
        let root := geth_empty_call_frame main_trace_node include_logs in
        let root := mkCF (fi_set_gas_used (cf_info root) gas_used) (cf_calls root) in
        let root := match geth_selfdestruct_call_trace main_trace_node with
                    | Some selfdestruct => cf_push selfdestruct root
                    | None => root
                    end in
        if unwrap_or_default_bool opts.(only_top_call) then Ok root
        else
          let! call_frames := rfold (frames_step nodes include_logs) [(0, root)] (zip (seq 1 (length children)) children) in
          roll_up (length nodes) nodes call_frames
    end.
End Calls.

(** ** Struct logs *)

(** alloy [StructLog]. The [op] string is kept as the opcode byte it is printed from; [memory_size] is always [None]
    here and left out. *)
Record StructLog := mkLog {
  sl_depth : nat; sl_error : option string; sl_gas : u64; sl_gas_cost : u64; sl_op : u8; sl_pc : nat;
  sl_refund_counter : option u64; sl_stack : option (list U256); sl_return_data : option bytes;
  sl_storage : option (gmap U256 U256); sl_memory : option (list (list byte)) }.
(** alloy [DefaultFrame] *)
Record DefaultFrame := mkDefaultFrame {
  dfr_failed : bool; dfr_gas : u64; dfr_return_value : bytes; dfr_struct_logs : list StructLog }.

(** types.rs:618-648 [convert_to_geth_struct_log], with the storage and return data filled in by geth.rs:57-67 *)
Definition struct_log (s : CallTraceStep) (opts : GethDefaultTracingOptions) (storage : option (gmap U256 U256))
    (return_data : option bytes) : StructLog :=
  mkLog s.(st_depth) (st_as_error s) s.(st_gas_remaining) s.(st_gas_cost) s.(st_op) s.(st_pc)
    (if (0 <? s.(st_gas_refund_counter))%N then Some s.(st_gas_refund_counter) else None)
    (if is_stack_enabled opts then s.(st_stack) else None)
    return_data storage
    (if is_memory_enabled opts then match s.(st_memory) with Some m => Some (convert_memory m) | None => None end else None).

(** types.rs:521-528 *)
Record StackItem := mkItem { it_node : CallTraceNode; it_step : CallTraceStep; it_child : option nat }.

(** types.rs:218-236 [call_step_stack]; [child_id] counts the children used up *)
Fixpoint step_items (n : CallTraceNode) (child_id : nat) (steps : list CallTraceStep) : list StackItem :=
  match steps with
  | [] => []
  | step :: steps =>
      if st_is_calllike step
      then match n.(nd_children) !! child_id with
           | Some call_id => mkItem n step (Some call_id) :: step_items n (child_id + 1) steps
           | None => mkItem n step None :: step_items n child_id steps
           end
      else mkItem n step None :: step_items n child_id steps
  end.
Definition call_step_stack (n : CallTraceNode) : list StackItem := step_items n 0 n.(nd_trace).(tr_steps).

(** geth.rs:49-79: the loop over the stack, whose top (back of the [VecDeque]) is the head of the list, so that
    [push_steps_on_stack] (types.rs:208-213) prepends the steps in order; one unit of fuel per step *)
Fixpoint fill_geth_trace (fuel : nat) (nodes : list CallTraceNode) (opts : GethDefaultTracingOptions)
    (stack : list StackItem) (storage : gmap address (gmap U256 U256)) (struct_logs : list StructLog)
    : res (list StructLog) :=
  match stack with
  | [] => Ok struct_logs
  | mkItem trace_node step call_child_id :: stack =>
      match fuel with
      | O => OutOfFuel
      | S fuel =>
          let contract_storage := default ∅ (storage !! step.(st_contract)) in
          let '(storage, log_storage) :=
            if is_storage_enabled opts then
              match step.(st_storage_change) with
              | Some change =>
                  let contract_storage := <[change.(sc_key) := change.(sc_value)]> contract_storage in
                  (<[step.(st_contract) := contract_storage]> storage, Some contract_storage)
              | None => (<[step.(st_contract) := contract_storage]> storage, None)
              end
            else (storage, None) in
          let return_data := if is_return_data_enabled opts then Some trace_node.(nd_trace).(tr_output) else None in
          let struct_logs := struct_logs ++ [struct_log step opts log_storage return_data] in
          let! stack :=
            match call_child_id with
            | Some call_child_id =>
                let! child_trace := index nodes call_child_id in Ok (call_step_stack child_trace ++ stack)
            | None => Ok stack
            end in
          fill_geth_trace fuel nodes opts stack storage struct_logs
      end
  end.

(** Number of recorded steps: the fuel of the loop. It suffices on every recorded arena (theorem C31). *)
Fixpoint total_steps (nodes : list CallTraceNode) : nat :=
  match nodes with [] => 0 | n :: nodes => length n.(nd_trace).(tr_steps) + total_steps nodes end.

(** geth.rs:85-109 [geth_traces] *)
Definition geth_traces (nodes : list CallTraceNode) (receipt_gas_used : u64) (return_value : bytes)
    (opts : GethDefaultTracingOptions) : res DefaultFrame :=
  match nodes with
  | [] => Ok (mkDefaultFrame false 0%N [] [])
  | main_trace_node :: _ =>
      let! struct_logs := fill_geth_trace (total_steps nodes) nodes opts (call_step_stack main_trace_node) ∅ [] in
      Ok (mkDefaultFrame (negb main_trace_node.(nd_trace).(tr_success)) receipt_gas_used return_value struct_logs)
  end.
