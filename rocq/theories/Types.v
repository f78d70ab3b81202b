(** * Types: /repo/src/tracing/types.rs (data types and the accessors used while recording) *)

From Verif Require Export Config Utils.
Local Open Scope nat_scope.

(** types.rs:19-24 *)
Record DecodedCallData := mkDecodedCallData { dcd_signature : string; dcd_args : list string }.
(** types.rs:29-36 *)
Record DecodedCallTrace := mkDecodedCallTrace {
  dct_label : option string; dct_return_data : option string; dct_call_data : option DecodedCallData }.
(** types.rs:151-157 *)
Record DecodedCallLog := mkDecodedCallLog {
  dcl_name : option string; dcl_params : option (list (string * string)) }.
(** types.rs:547-554 *)
Record DecodedInternalCall := mkDecodedInternalCall {
  dic_func_name : string; dic_args : option (list string); dic_return_data : option (list string) }.
(** types.rs:559-567 *)
Inductive DecodedTraceStep :=
  | InternalCall (call : DecodedInternalCall) (end_idx : nat)
  | Line (line : string).

(** types.rs:689-694 *)
Inductive StorageChangeReason := RSLOAD | RSSTORE.
(** types.rs:705-714 *)
Record StorageChange := mkStorageChange {
  sc_key : U256; sc_value : U256; sc_had_value : option U256; sc_reason : StorageChangeReason }.

(** types.rs:572-610 (RecordedMemory, types.rs:721, is its byte content) *)
Record CallTraceStep := mkStep {
  st_depth : nat; st_pc : nat; st_op : u8; st_contract : address;
  st_stack : option (list U256); st_push_stack : option (list U256);
  st_memory : option bytes; st_returndata : bytes;
  st_gas_remaining : u64; st_gas_refund_counter : u64; st_gas_used : u64;
  st_gas_cost : u64; st_storage_change : option StorageChange;
  st_status : InstructionResult; st_decoded : option DecodedTraceStep }.

(** types.rs:413-429 *)
Inductive CallKind := KCall | KStaticCall | KCallCode | KDelegateCall | KAuthCall | KCreate | KCreate2.
Global Instance CallKind_eq_dec : EqDecision CallKind.
Proof. solve_decision. Defined.

(** types.rs:447-449 *)
Definition is_any_create (k : CallKind) : bool := match k with KCreate | KCreate2 => true | _ => false end.
(** types.rs:453-455 *)
Definition is_delegate (k : CallKind) : bool := match k with KDelegateCall | KCallCode => true | _ => false end.
(** types.rs:459-461 *)
Definition is_static_call (k : CallKind) : bool := match k with KStaticCall => true | _ => false end.
(** types.rs:433-443 *)
Definition kind_to_str (k : CallKind) : string :=
  match k with
  | KCall => "CALL" | KStaticCall => "STATICCALL" | KCallCode => "CALLCODE"
  | KDelegateCall => "DELEGATECALL" | KAuthCall => "AUTHCALL" | KCreate => "CREATE"
  | KCreate2 => "CREATE2"
  end.
(** types.rs:476-485 [From<CallScheme> for CallKind] *)
Definition kind_of_scheme (s : CallScheme) : CallKind :=
  match s with
  | CSCall => KCall | CSStaticCall => KStaticCall | CSCallCode => KCallCode
  | CSDelegateCall => KDelegateCall
  end.
(** types.rs:487-494 [From<CreateScheme> for CallKind] *)
Definition kind_of_create (s : CreateScheme) : CallKind :=
  match s with CrCreate => KCreate | CrCreate2 _ => KCreate2 end.

(** types.rs:41-91 *)
Record CallTrace := mkTrace {
  tr_depth : nat; tr_success : bool; tr_caller : address; tr_address : address;
  tr_maybe_precompile : option bool;
  tr_selfdestruct_refund_target : option address;
  tr_selfdestruct_transferred_value : option U256;
  tr_kind : CallKind; tr_value : U256; tr_data : bytes; tr_output : bytes;
  tr_gas_used : u64; tr_gas_limit : u64; tr_status : InstructionResult;
  tr_steps : list CallTraceStep; tr_decoded : DecodedCallTrace }.

Definition decoded_none : DecodedCallTrace := mkDecodedCallTrace None None None.

(** [CallTrace::default()] (derive Default, types.rs:39; [InstructionResult::default()] is Continue) *)
Definition trace_default : CallTrace :=
  mkTrace 0 false 0%N 0%N None None None KCall 0%N [] [] 0%N 0%N Continue [] decoded_none.

(** types.rs:162-167 and 169-174 [From<Log>]: topics and data are kept, the address is dropped *)
Record CallLog := mkCallLog { cl_topics : list U256; cl_data : bytes; cl_decoded : DecodedCallLog }.
Definition calllog_of (l : Log) : CallLog := mkCallLog l.(lg_topics) l.(lg_data) (mkDecodedCallLog None None).

(** types.rs:535-542 *)
Inductive TraceMemberOrder := OLog (i : nat) | OCall (i : nat) | OStep (i : nat).

(** types.rs:179-192 *)
Record CallTraceNode := mkNode {
  nd_parent : option nat; nd_children : list nat; nd_idx : nat; nd_trace : CallTrace;
  nd_logs : list CallLog; nd_ordering : list TraceMemberOrder }.

(** [CallTraceNode::default()] (derive Default, types.rs:177) *)
Definition node_default : CallTraceNode := mkNode None [] 0 trace_default [] [].

(** types.rs:96-98 *)
Definition tr_is_error (t : CallTrace) : bool := negb (ir_is_ok t.(tr_status)).
(** types.rs:102-104 *)
Definition tr_is_revert (t : CallTrace) : bool := bool_decide (t.(tr_status) = Revert).
(** types.rs:117-120 *)
Definition tr_is_selfdestruct (t : CallTrace) : bool :=
  match t.(tr_status) with SelfDestruct => true | _ => false end
  || match t.(tr_selfdestruct_refund_target) with Some _ => true | None => false end.
(** types.rs:240-242 *)
Definition nd_is_precompile (n : CallTraceNode) : bool := default false n.(nd_trace).(tr_maybe_precompile).
(** types.rs:260-262 *)
Definition nd_is_selfdestruct (n : CallTraceNode) : bool := tr_is_selfdestruct n.(nd_trace).
(** types.rs:198-204 *)
Definition nd_execution_address (n : CallTraceNode) : address :=
  if is_delegate n.(nd_trace).(tr_kind) then n.(nd_trace).(tr_caller) else n.(nd_trace).(tr_address).

(** config.rs:333-346 *)
Inductive TraceStyle := StyleParity | StyleGeth.
Definition style_is_parity (s : TraceStyle) : bool := match s with StyleParity => true | StyleGeth => false end.

(** types.rs:123-145 [as_error_msg] *)
Definition tr_as_error_msg (t : CallTrace) (k : TraceStyle) : option string :=
  let par (a b : string) := if style_is_parity k then a else b in
  if tr_is_error t then
    Some match t.(tr_status) with
         | Revert => par "Reverted" "execution reverted"
         | OutOfGas | MemoryOOG => par "Out of gas" "out of gas"
         | OpcodeNotFound => par "Bad instruction" "invalid opcode"
         | StackOverflow => "Out of stack"
         | InvalidJump => par "Bad jump destination" "invalid jump destination"
         | PrecompileError => par "Built-in failed" "precompiled failed"
         | status => ir_debug status
         end
  else None.

(** types.rs:652-654 *)
Definition st_is_stop (s : CallTraceStep) : bool := N.eqb s.(st_op) OP_STOP.
(** types.rs:659-669 *)
Definition op_is_calllike (op : u8) : bool :=
  existsb (N.eqb op) [OP_CALL; OP_DELEGATECALL; OP_STATICCALL; OP_CREATE; OP_CALLCODE; OP_CREATE2].
Definition st_is_calllike (s : CallTraceStep) : bool := op_is_calllike s.(st_op).
(** types.rs:673-675 *)
Definition st_is_error (s : CallTraceStep) : bool := (ir_u8 Revert <=? ir_u8 s.(st_status))%N.
(** types.rs:679-681 *)
Definition st_as_error (s : CallTraceStep) : option string :=
  if st_is_error s then Some (ir_debug s.(st_status)) else None.

(** types.rs:771-792 [opcode_serde] *)
Definition opcode_serialize (op : u8) : u8 := op.
Definition opcode_deserialize (b : u8) : u8 := if op_known b then b else OP_INVALID.

(** Functional updates of the records above (no counterpart in the source: Rust assigns fields). *)
Definition nd_set_trace (n : CallTraceNode) (t : CallTrace) : CallTraceNode :=
  mkNode n.(nd_parent) n.(nd_children) n.(nd_idx) t n.(nd_logs) n.(nd_ordering).
Definition tr_set_steps (t : CallTrace) (s : list CallTraceStep) : CallTrace :=
  mkTrace t.(tr_depth) t.(tr_success) t.(tr_caller) t.(tr_address) t.(tr_maybe_precompile)
    t.(tr_selfdestruct_refund_target) t.(tr_selfdestruct_transferred_value) t.(tr_kind) t.(tr_value)
    t.(tr_data) t.(tr_output) t.(tr_gas_used) t.(tr_gas_limit) t.(tr_status) s t.(tr_decoded).
Definition tr_set_gas_used (t : CallTrace) (g : u64) : CallTrace :=
  mkTrace t.(tr_depth) t.(tr_success) t.(tr_caller) t.(tr_address) t.(tr_maybe_precompile)
    t.(tr_selfdestruct_refund_target) t.(tr_selfdestruct_transferred_value) t.(tr_kind) t.(tr_value)
    t.(tr_data) t.(tr_output) g t.(tr_gas_limit) t.(tr_status) t.(tr_steps) t.(tr_decoded).
