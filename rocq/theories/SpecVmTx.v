(** * SpecVmTx: the vm trace of a whole transaction, read off its execution

    The code keeps one queue of finished vm traces for the whole transaction: when a frame ends, its call-like
    instructions take traces from the front of the queue, whichever frame they belong to, and the frame's own trace is
    put at the back. *)

From Verif Require Export SpecTx SpecVm SpecLogs.

(** The instructions of a frame that were asked for. *)
Definition traced_instrs (cfg : TracingInspectorConfig) (g : frame) : list instr :=
  List.filter (fun o => selected cfg (in_op (op_pre o))) (instrs (f_body g)).

(** The frames the user wants to see, in the order in which they end; [v] is the value of frame [g]. *)
Fixpoint finished (cfg : TracingInspectorConfig) (w : world) (v : U256) (g : frame) : list frame :=
  match g with
  | Frame s body e =>
      (fix go (l : list item) : list frame :=
         match l with
         | [] => []
         | ISub h :: r =>
             if hidden_call cfg w v (f_start h) then go r
             else finished cfg w (call_value v (f_start h)) h ++ go r
         | _ :: r => go r
         end) body ++ [g]
  end.

(** The vm trace instruction [i] describes instruction [o] and carries the sub-trace [sub]. *)
Definition vm_instr_of (cfg : TracingInspectorConfig) (o : instr) (sub : option VmTrace) (i : VmInstruction) : Prop :=
  exists cost push mem store,
    i = mkVmI (in_pc (op_pre o)) cost (Some (mkVmEx (g_remaining (in_gas (op_pre o))) push mem store)) sub (in_op (op_pre o)) /\
    Z.of_N cost = Z.max 0 (Z.of_N (g_remaining (in_gas (op_pre o))) - Z.of_N (g_remaining (in_gas (op_post o)))) /\
    (** the top of the stack after the instruction *)
    (match record_stack_snapshots cfg with
     | SnapPushes => length push = stack_push_count (in_op (op_pre o)) /\ exists rest, in_stack (op_post o) = rest ++ push
     | _ => push = []
     end) /\
    (** the whole memory before the instruction, up to zero bytes at its end, with its own size as the offset *)
    (if record_memory_snapshots cfg
     then exists m k, mem = Some (mkMemDelta (length m) m) /\ in_memory (op_pre o) = m ++ replicate k x00
     else mem = None) /\
    store = if record_state_diff cfg
            then match seen_change o with Some (k, v) => Some (mkStoDelta k v) | None => None end
            else None.

(** Opcodes that enter a frame: CREATE, CALL, CALLCODE, DELEGATECALL, CREATE2, STATICCALL. *)
Definition enters (op : u8) : bool := existsb (N.eqb op) [0xf0; 0xf1; 0xf2; 0xf4; 0xf5; 0xfa]%N.

(** [carry cfg os q l q']: the instructions [os] are described by [l], the call-like ones taking their sub-traces from
    the front of [q] as long as there are any; [q'] is left. *)
Inductive carry (cfg : TracingInspectorConfig) : list instr -> list VmTrace -> list VmInstruction -> list VmTrace -> Prop :=
  | carry_nil q : carry cfg [] q [] q
  | carry_call o os i l q q' : enters (in_op (op_pre o)) = true ->
      vm_instr_of cfg o (head q) i -> carry cfg os (tail q) l q' -> carry cfg (o :: os) q (i :: l) q'
  | carry_other o os i l q q' : enters (in_op (op_pre o)) = false ->
      vm_instr_of cfg o None i -> carry cfg os q l q' -> carry cfg (o :: os) q (i :: l) q'.

(** The queue after the given frames have ended, in this order. *)
Inductive dealt (cfg : TracingInspectorConfig) : list frame -> list VmTrace -> list VmTrace -> Prop :=
  | dealt_nil q : dealt cfg [] q q
  | dealt_cons g gs q l q' q'' :
      carry cfg (traced_instrs cfg g) q l q' -> dealt cfg gs (q' ++ [mkVm [] l]) q'' -> dealt cfg (g :: gs) q q''.

Definition is_stop_instr (o : instr) : bool := (in_op (op_pre o) =? 0)%N.

(** The shortcut for calls to accounts without code, as written: the frame entered last ended in a STOP, and some frame
    starts with one. *)
Definition shortcut (cfg : TracingInspectorConfig) (w : world) (f : frame) : bool :=
  match last (entered None 0 0 f) with
  | Some (_, _, g) => match last (traced_instrs cfg g) with Some o => is_stop_instr o | None => false end
  | None => false
  end &&
  existsb (fun g => match traced_instrs cfg g with o :: _ => is_stop_instr o | [] => false end)
    (finished cfg w (spec_value (f_start f)) f).
