(** * SpecRecord: conditions on executions and what a step record should say *)

From Verif Require Export SpecExec Types.

(** The user asked for this opcode to be recorded. *)
Definition selected (cfg : TracingInspectorConfig) (op : u8) : bool :=
  record_steps cfg && match record_opcodes_filter cfg with None => true | Some flt => N.testbit flt op && (op <? 256)%N end.

(** Recording the instruction cannot panic: in [Pushes] mode the stack after the instruction holds the
    items [stack_push_count] announces; with state diffs the journal has an entry list and, for an SLOAD (0x54) or
    SSTORE (0x55), the slot named by its last entry is loaded.  Property C09 shows what happens otherwise. *)
Definition snapshot_safe (cfg : TracingInspectorConfig) (o : instr) : Prop :=
  record_steps cfg = true -> should_record_opcode cfg (in_op (op_pre o)) = true ->
  (snap_is_pushes (record_stack_snapshots cfg) = true ->
     stack_push_count (in_op (op_pre o)) <= length (in_stack (op_post o))) /\
  (record_state_diff cfg = true ->
     exists jn, last (j_journal (op_post_j o)) = Some jn /\
       forall a k h, in_op (op_pre o) = 0x54%N \/ in_op (op_pre o) = 0x55%N ->
         last jn = Some (JStorageChanged a k h) -> j_present (op_post_j o) a k <> None).

(** The executions considered: precompiles run no sub-frames (only needed when they are excluded from
    the call graph) and every recorded instruction is [snapshot_safe]. *)
Definition env_ok (cfg : TracingInspectorConfig) (w : world) (f : frame) : Prop :=
  (exclude_precompile_calls cfg = true -> precompiles_are_leaves w f) /\
  every_frame (fun g => Forall (snapshot_safe cfg) (instrs (f_body g))) f.

(** ** What a node should say about its frame *)

(** The call kind of a frame. *)
Definition spec_kind (s : fstart) : CallKind :=
  match s with
  | SCall _ i =>
      match ci_scheme i with
      | CSCall => KCall | CSCallCode => KCallCode | CSDelegateCall => KDelegateCall | CSStaticCall => KStaticCall
      end
  | SCreate _ i => match cr_scheme i with CrCreate => KCreate | CrCreate2 _ => KCreate2 end
  end.

(** The account that made the call: for DELEGATECALL/CALLCODE, whose code runs in the caller's own
    context, that is the executing contract. *)
Definition spec_caller (s : fstart) : address :=
  match s with
  | SCall _ i =>
      match ci_scheme i with
      | CSCall | CSStaticCall => ci_caller i
      | CSDelegateCall | CSCallCode => ci_target_address i
      end
  | SCreate _ i => cr_caller i
  end.

Definition spec_input (s : fstart) : bytes :=
  match s with SCall _ i => ci_input i | SCreate _ i => cr_init_code i end.

(** Gas limit: the root reports the transaction's. *)
Definition spec_gas_limit (w : world) (root : bool) (s : fstart) : u64 :=
  if root then w_tx_gas_limit w
  else match s with SCall _ i => ci_gas_limit i | SCreate _ i => cr_gas_limit i end.

Definition is_delegatecall (s : fstart) : bool :=
  match s with
  | SCall _ i => match ci_scheme i with CSDelegateCall => true | _ => false end
  | SCreate _ _ => false
  end.

(** The value named by the start hook: transferred or apparent. *)
Definition spec_value (s : fstart) : U256 :=
  match s with
  | SCall _ i => match ci_value i with Transfer v | Apparent v => v end
  | SCreate _ i => cr_value i
  end.

(** The node's callee: the address [create_end] returned for a create, else the contract of the last
    SELFDESTRUCT the frame ran, else the account whose code runs. *)
Definition spec_address (g : frame) : address :=
  let own :=
    match last (selfdestructs_of (hooks (f_body g))) with
    | Some (a, _, _) => a
    | None => code_address (f_start g)
    end in
  match f_start g with
  | SCall _ _ => own
  | SCreate _ _ => match fe_address (f_end g) with Some a => a | None => own end
  end.

Definition spec_success (r : InstructionResult) : bool :=
  match r with Continue | Stop | Return | SelfDestruct | ReturnContract => true | _ => false end.

(** Gas used of a root frame: gas spent minus the refund, which is capped at a fifth of the gas spent
    since London and at a half before. *)
Definition spec_root_gas (sp : SpecId) (spent refund : N) : N :=
  let cap := if (spec_ord LONDON <=? spec_ord sp)%N then (spent / 5)%N else (spent / 2)%N in
  (spent - (if (refund <=? cap)%N then refund else cap))%N.

(** A step record [st] describes the instruction [o] executed at journal depth [d]. *)
Record step_describes (cfg : TracingInspectorConfig) (w : world) (d : nat) (o : instr) (st : CallTraceStep)
    : Prop := {
  sd_pc : st_pc st = in_pc (op_pre o);
  sd_op : st_op st = in_op (op_pre o);
  sd_depth : st_depth st = d;
  sd_contract : st_contract st = in_contract (op_pre o);
  sd_gas : st_gas_remaining st = g_remaining (in_gas (op_pre o));
  sd_refund : (0 <= g_refunded (in_gas (op_pre o)) < 18446744073709551616)%Z ->
    st_gas_refund_counter st = Z.to_N (g_refunded (in_gas (op_pre o)));
  sd_gas_used : (0 <= g_refunded (in_gas (op_pre o)) < 18446744073709551616)%Z ->
    st_gas_used st = spec_root_gas (w_spec w) (g_limit (in_gas (op_pre o)) - g_remaining (in_gas (op_pre o)))%N
                       (Z.to_N (g_refunded (in_gas (op_pre o))));
  sd_cost : Z.of_N (st_gas_cost st) =
    Z.max 0 (Z.of_N (g_remaining (in_gas (op_pre o))) - Z.of_N (g_remaining (in_gas (op_post o))));
  sd_status : st_status st = in_result (op_post o);
  sd_stack : st_stack st = match record_stack_snapshots cfg with SnapFull => Some (in_stack (op_pre o)) | _ => None end;
  sd_returndata : st_returndata st = if record_returndata_snapshots cfg then in_returndata (op_pre o) else [];
  sd_memory_recorded : (exists m, st_memory st = Some m) <-> record_memory_snapshots cfg = true;
  sd_push_recorded : (exists l, st_push_stack st = Some l) <-> record_stack_snapshots cfg = SnapPushes;
  sd_decoded : st_decoded st = None }.

(** ** EVM facts about memory *)

(** The instructions after which the recorder copies memory anew: the copy instructions, MLOAD, MSTORE, MSTORE8, MCOPY
    and the calls. *)
Definition copying_op (op : u8) : bool :=
  existsb (N.eqb op) [0x37; 0x39; 0x3c; 0x3e; 0x51; 0x52; 0x53; 0x5e; 0xf1; 0xf2; 0xf4; 0xfa]%N.
(** A fresh copy of memory is taken before the [j]-th instruction of a frame: it is the first, or follows one of those. *)
Definition fresh_copy (os : list instr) (j : nat) : Prop :=
  j = 0 \/ exists i o, j = S i /\ os !! i = Some o /\ copying_op (in_op (op_pre o)) = true.

(** Opcodes that can change bytes of the frame's memory. *)
Definition evm_writes_memory (op : u8) : bool :=
  existsb (N.eqb op)
    [0x37; 0x39; 0x3c; 0x3e; 0x52; 0x53; 0x5e; 0xf1; 0xf2; 0xf4; 0xfa]%N.
      (* CALLDATACOPY CODECOPY EXTCODECOPY RETURNDATACOPY MSTORE MSTORE8 MCOPY CALL CALLCODE
         DELEGATECALL STATICCALL *)

(** Opcodes that can only grow memory (with zeros), the frame going on afterwards. *)
Definition evm_expands_memory (op : u8) : bool :=
  existsb (N.eqb op) [0x20; 0x51; 0xa0; 0xa1; 0xa2; 0xa3; 0xa4; 0xf0; 0xf5]%N.
      (* KECCAK256 MLOAD LOG0..LOG4 CREATE CREATE2 *)

(** How memory evolves from one instruction of a frame to the next. *)
Definition evm_memory_step (o1 o2 : instr) : Prop :=
  let op := in_op (op_pre o1) in
  let m1 := in_memory (op_pre o1) in
  let m2 := in_memory (op_pre o2) in
  evm_writes_memory op = false ->
  (evm_expands_memory op = true -> exists k, m2 = m1 ++ replicate k x00) /\
  (evm_expands_memory op = false -> m2 = m1).

Fixpoint adjacent {A} (R : A -> A -> Prop) (l : list A) : Prop :=
  match l with
  | x :: (y :: _) as r => R x y /\ adjacent R r
  | _ => True
  end.

Definition evm_memory (f : frame) : Prop :=
  every_frame (fun g => adjacent evm_memory_step (instrs (f_body g))) f.

(** EVM fact about values: a DELEGATECALL frame's apparent value is its parent's call value. *)
Definition evm_delegate_values (f : frame) : Prop :=
  every_frame (fun g => Forall (fun h => is_delegatecall (f_start h) = true ->
                                         spec_value (f_start h) = spec_value (f_start g))
                          (subs (f_body g))) f.

(** ** What happened inside a frame, in order *)

Inductive member := MLog | MCall | MStep.

(** A sub-call the user asked to leave out: a precompile call without value.  [v] is the value of the
    surrounding frame, which a DELEGATECALL inherits. *)
Definition hidden_call (cfg : TracingInspectorConfig) (w : world) (v : U256) (s : fstart) : bool :=
  exclude_precompile_calls cfg && is_call s && w_precompiles w (code_address s) &&
  ((if is_delegatecall s then v else spec_value s) =? 0)%N.

(** The recorded happenings of one item of a frame's body: an instruction, then the logs it emits. *)
Definition happenings (cfg : TracingInspectorConfig) (w : world) (v : U256) (it : item) : list member :=
  let of_hook h := match h with HLog _ _ => if record_logs cfg then [MLog] else [] | HSelfdestruct _ _ _ => [] end in
  match it with
  | IOp o => (if selected cfg (in_op (op_pre o)) then [MStep] else []) ++ flat_map of_hook (op_hooks o)
  | IHook h => of_hook h
  | ISub g => if hidden_call cfg w v (f_start g) then [] else [MCall]
  end.
