(** * VmTrace: /repo/src/tracing/builder/parity.rs, vm traces and the combined results *)

From Verif Require Export Parity Walker Db.

(** alloy [MemoryDelta] *)
Record MemoryDelta := mkMemDelta { md_off : nat; md_data : bytes }.
(** alloy [StorageDelta] *)
Record StorageDelta := mkStoDelta { sd_key : U256; sd_val : U256 }.
(** alloy [VmExecutedOperation] *)
Record VmExecutedOperation := mkVmEx {
  ve_used : u64; ve_push : list U256; ve_mem : option MemoryDelta; ve_store : option StorageDelta }.
(** alloy [VmTrace] and [VmInstruction]. The [op] string is kept as the opcode byte it is printed from; [idx] is
    always [None] here and left out. *)
Inductive VmTrace := mkVm (code : bytes) (ops : list VmInstruction)
with VmInstruction := mkVmI (pc : nat) (cost : u64) (ex : option VmExecutedOperation) (sub : option VmTrace) (op : u8).
Definition vm_code (t : VmTrace) := let '(mkVm c _) := t in c.
Definition vm_ops (t : VmTrace) := let '(mkVm _ o) := t in o.
Definition vi_sub (i : VmInstruction) := let '(mkVmI _ _ _ s _) := i in s.

(** parity.rs:364-393 [make_instruction] *)
Definition make_instruction (step : CallTraceStep) (maybe_sub_call : option VmTrace) : VmInstruction :=
  let maybe_storage :=
    match step.(st_storage_change) with Some c => Some (mkStoDelta c.(sc_key) c.(sc_value)) | None => None end in
  let maybe_memory :=
    match step.(st_memory) with Some m => Some (mkMemDelta (length m) m) | None => None end in
  let maybe_execution :=
    Some (mkVmEx step.(st_gas_remaining) (default [] step.(st_push_stack)) maybe_memory maybe_storage) in
  mkVmI step.(st_pc) step.(st_gas_cost) maybe_execution maybe_sub_call step.(st_op).

(** parity.rs:286-295 [last_step], [is_last_step_stop_op] *)
Definition is_last_step_stop_op (nodes : list CallTraceNode) : bool :=
  match last nodes with
  | Some node => match last node.(nd_trace).(tr_steps) with Some step => st_is_stop step | None => false end
  | None => false
  end.

(** How the loop over one frame's steps ends: normally, or through [break 'outer]. *)
Inductive frame_end :=
  | FDone (instructions : list VmInstruction) (sub_stack : list (option VmTrace))
  | FBreak (instructions : list VmInstruction).

(** [pop_front] *)
Definition pop_front {A} (l : list A) : option A * list A := match l with [] => (None, []) | x :: l => (Some x, l) end.
(** [Option::flatten] *)
Definition flatten {A} (o : option (option A)) : option A := match o with Some (Some a) => Some a | _ => None end.

(** parity.rs:325-342: the loop over the steps of [current] *)
Fixpoint frame_loop (last_is_stop : bool) (steps : list CallTraceStep) (instructions : list VmInstruction)
    (sub_stack : list (option VmTrace)) : frame_end :=
  match steps with
  | [] => FDone instructions sub_stack
  | step :: steps =>
      let '(maybe_sub_call, sub_stack) :=
        if st_is_calllike step then let '(s, q) := pop_front sub_stack in (flatten s, q) else (None, sub_stack) in
      if st_is_stop step && (match instructions with [] => true | _ => false end) && last_is_stop
      then FBreak instructions
      else frame_loop last_is_stop steps (instructions ++ [make_instruction step maybe_sub_call]) sub_stack
  end.

(** parity.rs:314-357: the outer loop; one unit of fuel per iteration *)
Fixpoint vm_loop (fuel : nat) (nodes : list CallTraceNode) (child_idx_stack : list nat)
    (sub_stack : list (option VmTrace)) (current : CallTraceNode) (child_idx : nat) : res (list VmInstruction) :=
  match fuel with
  | O => OutOfFuel
  | S fuel =>
      match current.(nd_children) !! child_idx with
      | Some child =>
          let! c := expect (nodes !! child) in
          vm_loop fuel nodes ((child_idx + 1) :: child_idx_stack) sub_stack c 0
      | None =>
          match frame_loop (is_last_step_stop_op nodes) current.(nd_trace).(tr_steps) [] sub_stack with
          | FBreak instructions => Ok instructions
          | FDone instructions sub_stack =>
              match current.(nd_parent) with
              | Some parent =>
                  let sub_stack := sub_stack ++ [Some (mkVm [] instructions)] in
                  match child_idx_stack with
                  | [] => Panic PExpect
                  | ci :: child_idx_stack =>
                      let! p := expect (nodes !! parent) in
                      vm_loop fuel nodes child_idx_stack sub_stack p ci
                  end
              | None => Ok instructions
              end
          end
      end
  end.

(** parity.rs:306-360 [make_vm_trace]. The fuel suffices on every recorded arena: theorem C24. *)
Definition make_vm_trace (nodes : list CallTraceNode) (start : CallTraceNode) : res VmTrace :=
  let! instructions := vm_loop (2 * length nodes) nodes [] [] start 0 in
  Ok (mkVm [] instructions).

(** parity.rs:299-301 [vm_trace] *)
Definition vm_trace (nodes : list CallTraceNode) : res VmTrace :=
  match nodes with [] => Ok (mkVm [] []) | node :: _ => make_vm_trace nodes node end.

(** *** Filling in the bytecodes *)

(** The sub-trace a [&mut VmTrace] points at, as the list of op positions leading to it. *)
Fixpoint vm_at (t : VmTrace) (path : list nat) : option VmTrace :=
  match path with
  | [] => Some t
  | k :: path => match vm_ops t !! k with
                 | Some i => match vi_sub i with Some s => vm_at s path | None => None end
                 | None => None
                 end
  end.
(** Writing the [code] field through such a reference. *)
Fixpoint vm_set_code (t : VmTrace) (path : list nat) (code : bytes) : VmTrace :=
  match path with
  | [] => mkVm code (vm_ops t)
  | k :: path =>
      mkVm (vm_code t)
        (alter (fun i => let '(mkVmI pc cost ex sub op) := i in
                         mkVmI pc cost ex (match sub with Some s => Some (vm_set_code s path code) | None => None end) op)
           k (vm_ops t))
  end.
(** parity.rs:448-452: references to the sub-traces of the ops, in order *)
Definition sub_paths (path : list nat) (t : VmTrace) : list (list nat) :=
  omap (fun k => match vm_ops t !! k with
                 | Some i => match vi_sub i with Some _ => Some (path ++ [k]) | None => None end
                 | None => None
                 end) (seq 0 (length (vm_ops t))).

(** Number of traces in a trace tree. *)
Fixpoint vm_size (t : VmTrace) : nat :=
  let '(mkVm _ ops) := t in
  S ((fix go (l : list VmInstruction) : nat :=
        match l with
        | [] => 0
        | mkVmI _ _ _ sub _ :: l => match sub with Some s => vm_size s | None => 0 end + go l
        end) ops).

(** parity.rs:447-461: the queue loop; [Ok None] is an error of the database *)
Fixpoint populate_loop (fuel : nat) (db : Db) (trace : VmTrace) (queue : list (list nat)) (addrs : list address)
    : res (option VmTrace) :=
  match queue with
  | [] => Ok (Some trace)
  | path :: queue =>
      match fuel with
      | O => OutOfFuel
      | S fuel =>
          let! curr_ref := expect (vm_at trace path) in
          let queue := queue ++ sub_paths path curr_ref in
          match addrs with
          | [] => Panic PExpect
          | addr :: addrs =>
              match db.(db_basic) addr with
              | None => Ok None
              | Some o =>
                  let db_acc := default info_default o in
                  if (db_acc.(ai_code_hash) =? KECCAK_EMPTY)%N then populate_loop fuel db trace queue addrs
                  else match db.(db_code_by_hash) db_acc.(ai_code_hash) with
                       | None => Ok None
                       | Some code => populate_loop fuel db (vm_set_code trace path code) queue addrs
                       end
              end
          end
      end
  end.

(** parity.rs:430-461 [populate_vm_trace_bytecodes] *)
Definition populate_vm_trace_bytecodes (db : Db) (trace : VmTrace) (breadth_first_addresses : list address)
    : res (option VmTrace) :=
  populate_loop (vm_size trace) db trace [[]] breadth_first_addresses.
