(** * Evm: the data the crate receives from revm and alloy

    Nothing here is code of the repository; these are the external types its functions
    take as arguments (revm 10, alloy 0.1; see /repo/Cargo.toml).  *)

From Verif Require Export Base.
Local Open Scope N_scope.

(** 160-bit addresses, 256-bit words, u64 values.  Ranges are stated as hypotheses where
    they matter. *)
Notation address := N (only parsing).
Notation U256 := N (only parsing).
Notation u64 := N (only parsing).
Notation u8 := N (only parsing).
Notation bytes := (list byte) (only parsing).

Definition two64 : N := 18446744073709551616.

(** Rust's [x as u64] for an [i64] x. *)
Definition i64_as_u64 (z : Z) : u64 := Z.to_N (z mod 18446744073709551616)%Z.

(** revm [SpecId] *)
Inductive SpecId :=
  | FRONTIER | FRONTIER_THAWING | HOMESTEAD | DAO_FORK | TANGERINE | SPURIOUS_DRAGON | BYZANTIUM
  | CONSTANTINOPLE | PETERSBURG | ISTANBUL | MUIR_GLACIER | BERLIN | LONDON | ARROW_GLACIER
  | GRAY_GLACIER | MERGE | SHANGHAI | CANCUN | PRAGUE | PRAGUE_EOF | LATEST.

Definition spec_ord (s : SpecId) : N :=
  match s with
  | FRONTIER => 0 | FRONTIER_THAWING => 1 | HOMESTEAD => 2 | DAO_FORK => 3 | TANGERINE => 4
  | SPURIOUS_DRAGON => 5 | BYZANTIUM => 6 | CONSTANTINOPLE => 7 | PETERSBURG => 8
  | ISTANBUL => 9 | MUIR_GLACIER => 10 | BERLIN => 11 | LONDON => 12 | ARROW_GLACIER => 13
  | GRAY_GLACIER => 14 | MERGE => 15 | SHANGHAI => 16 | CANCUN => 17 | PRAGUE => 18
  | PRAGUE_EOF => 19 | LATEST => 255
  end.

(** [SpecId::enabled(our, other)] *)
Definition spec_enabled (our other : SpecId) : bool := spec_ord other <=? spec_ord our.

(** revm [InstructionResult] *)
Inductive InstructionResult :=
  | Continue | Stop | Return | SelfDestruct | ReturnContract
  | Revert | CallTooDeep | OutOfFunds | CreateInitCodeStartingEF00 | InvalidEOFInitCode
  | InvalidExtDelegateCallTarget
  | CallOrCreate
  | OutOfGas | MemoryOOG | MemoryLimitOOG | PrecompileOOG | InvalidOperandOOG | OpcodeNotFound
  | CallNotAllowedInsideStatic | StateChangeDuringStaticCall | InvalidFEOpcode | InvalidJump
  | NotActivated | StackUnderflow | StackOverflow | OutOfOffset | CreateCollision
  | OverflowPayment | PrecompileError | NonceOverflow | CreateContractSizeLimit
  | CreateContractStartingWithEF | CreateInitCodeSizeLimit | FatalExternalError
  | ReturnContractInNotInitEOF | EOFOpcodeDisabledInLegacy | EOFFunctionStackOverflow
  | EofAuxDataOverflow | EofAuxDataTooSmall | InvalidEXTCALLTarget.

Global Instance InstructionResult_eq_dec : EqDecision InstructionResult.
Proof. solve_decision. Defined.

(** [status as u8] *)
Definition ir_u8 (r : InstructionResult) : N :=
  match r with
  | Continue => 0 | Stop => 1 | Return => 2 | SelfDestruct => 3 | ReturnContract => 4
  | Revert => 16 | CallTooDeep => 17 | OutOfFunds => 18 | CreateInitCodeStartingEF00 => 19
  | InvalidEOFInitCode => 20 | InvalidExtDelegateCallTarget => 21
  | CallOrCreate => 32
  | OutOfGas => 80 | MemoryOOG => 81 | MemoryLimitOOG => 82 | PrecompileOOG => 83
  | InvalidOperandOOG => 84 | OpcodeNotFound => 85 | CallNotAllowedInsideStatic => 86
  | StateChangeDuringStaticCall => 87 | InvalidFEOpcode => 88 | InvalidJump => 89
  | NotActivated => 90 | StackUnderflow => 91 | StackOverflow => 92 | OutOfOffset => 93
  | CreateCollision => 94 | OverflowPayment => 95 | PrecompileError => 96 | NonceOverflow => 97
  | CreateContractSizeLimit => 98 | CreateContractStartingWithEF => 99
  | CreateInitCodeSizeLimit => 100 | FatalExternalError => 101
  | ReturnContractInNotInitEOF => 102 | EOFOpcodeDisabledInLegacy => 103
  | EOFFunctionStackOverflow => 104 | EofAuxDataOverflow => 105 | EofAuxDataTooSmall => 106
  | InvalidEXTCALLTarget => 107
  end.

(** [InstructionResult::is_ok] (the [return_ok!] set) *)
Definition ir_is_ok (r : InstructionResult) : bool :=
  match r with Continue | Stop | Return | SelfDestruct | ReturnContract => true | _ => false end.

(** [format!("{:?}", status)] *)
Definition ir_debug (r : InstructionResult) : string :=
  match r with
  | Continue => "Continue" | Stop => "Stop" | Return => "Return" | SelfDestruct => "SelfDestruct"
  | ReturnContract => "ReturnContract" | Revert => "Revert" | CallTooDeep => "CallTooDeep"
  | OutOfFunds => "OutOfFunds" | CreateInitCodeStartingEF00 => "CreateInitCodeStartingEF00"
  | InvalidEOFInitCode => "InvalidEOFInitCode"
  | InvalidExtDelegateCallTarget => "InvalidExtDelegateCallTarget"
  | CallOrCreate => "CallOrCreate" | OutOfGas => "OutOfGas" | MemoryOOG => "MemoryOOG"
  | MemoryLimitOOG => "MemoryLimitOOG" | PrecompileOOG => "PrecompileOOG"
  | InvalidOperandOOG => "InvalidOperandOOG" | OpcodeNotFound => "OpcodeNotFound"
  | CallNotAllowedInsideStatic => "CallNotAllowedInsideStatic"
  | StateChangeDuringStaticCall => "StateChangeDuringStaticCall"
  | InvalidFEOpcode => "InvalidFEOpcode" | InvalidJump => "InvalidJump"
  | NotActivated => "NotActivated" | StackUnderflow => "StackUnderflow"
  | StackOverflow => "StackOverflow" | OutOfOffset => "OutOfOffset"
  | CreateCollision => "CreateCollision" | OverflowPayment => "OverflowPayment"
  | PrecompileError => "PrecompileError" | NonceOverflow => "NonceOverflow"
  | CreateContractSizeLimit => "CreateContractSizeLimit"
  | CreateContractStartingWithEF => "CreateContractStartingWithEF"
  | CreateInitCodeSizeLimit => "CreateInitCodeSizeLimit"
  | FatalExternalError => "FatalExternalError"
  | ReturnContractInNotInitEOF => "ReturnContractInNotInitEOF"
  | EOFOpcodeDisabledInLegacy => "EOFOpcodeDisabledInLegacy"
  | EOFFunctionStackOverflow => "EOFFunctionStackOverflow"
  | EofAuxDataOverflow => "EofAuxDataOverflow" | EofAuxDataTooSmall => "EofAuxDataTooSmall"
  | InvalidEXTCALLTarget => "InvalidEXTCALLTarget"
  end%string.

(** Opcode bytes (revm [opcode] module). *)
Definition OP_STOP : u8 := 0x00.        Definition OP_ADD : u8 := 0x01.
Definition OP_MUL : u8 := 0x02.         Definition OP_SUB : u8 := 0x03.
Definition OP_DIV : u8 := 0x04.         Definition OP_SDIV : u8 := 0x05.
Definition OP_MOD : u8 := 0x06.         Definition OP_SMOD : u8 := 0x07.
Definition OP_ADDMOD : u8 := 0x08.      Definition OP_MULMOD : u8 := 0x09.
Definition OP_EXP : u8 := 0x0a.         Definition OP_SIGNEXTEND : u8 := 0x0b.
Definition OP_LT : u8 := 0x10.          Definition OP_GT : u8 := 0x11.
Definition OP_SLT : u8 := 0x12.         Definition OP_SGT : u8 := 0x13.
Definition OP_EQ : u8 := 0x14.          Definition OP_ISZERO : u8 := 0x15.
Definition OP_AND : u8 := 0x16.         Definition OP_OR : u8 := 0x17.
Definition OP_XOR : u8 := 0x18.         Definition OP_NOT : u8 := 0x19.
Definition OP_BYTE : u8 := 0x1a.        Definition OP_SHL : u8 := 0x1b.
Definition OP_SHR : u8 := 0x1c.         Definition OP_SAR : u8 := 0x1d.
Definition OP_KECCAK256 : u8 := 0x20.
Definition OP_ADDRESS : u8 := 0x30.     Definition OP_BALANCE : u8 := 0x31.
Definition OP_ORIGIN : u8 := 0x32.      Definition OP_CALLER : u8 := 0x33.
Definition OP_CALLVALUE : u8 := 0x34.   Definition OP_CALLDATALOAD : u8 := 0x35.
Definition OP_CALLDATASIZE : u8 := 0x36. Definition OP_CALLDATACOPY : u8 := 0x37.
Definition OP_CODESIZE : u8 := 0x38.    Definition OP_CODECOPY : u8 := 0x39.
Definition OP_GASPRICE : u8 := 0x3a.    Definition OP_EXTCODESIZE : u8 := 0x3b.
Definition OP_EXTCODECOPY : u8 := 0x3c. Definition OP_RETURNDATASIZE : u8 := 0x3d.
Definition OP_RETURNDATACOPY : u8 := 0x3e. Definition OP_EXTCODEHASH : u8 := 0x3f.
Definition OP_BLOCKHASH : u8 := 0x40.   Definition OP_COINBASE : u8 := 0x41.
Definition OP_TIMESTAMP : u8 := 0x42.   Definition OP_NUMBER : u8 := 0x43.
Definition OP_DIFFICULTY : u8 := 0x44.  Definition OP_GASLIMIT : u8 := 0x45.
Definition OP_CHAINID : u8 := 0x46.     Definition OP_SELFBALANCE : u8 := 0x47.
Definition OP_BASEFEE : u8 := 0x48.     Definition OP_BLOBHASH : u8 := 0x49.
Definition OP_BLOBBASEFEE : u8 := 0x4a.
Definition OP_POP : u8 := 0x50.         Definition OP_MLOAD : u8 := 0x51.
Definition OP_MSTORE : u8 := 0x52.      Definition OP_MSTORE8 : u8 := 0x53.
Definition OP_SLOAD : u8 := 0x54.       Definition OP_SSTORE : u8 := 0x55.
Definition OP_JUMP : u8 := 0x56.        Definition OP_JUMPI : u8 := 0x57.
Definition OP_PC : u8 := 0x58.          Definition OP_MSIZE : u8 := 0x59.
Definition OP_GAS : u8 := 0x5a.         Definition OP_JUMPDEST : u8 := 0x5b.
Definition OP_TLOAD : u8 := 0x5c.       Definition OP_TSTORE : u8 := 0x5d.
Definition OP_MCOPY : u8 := 0x5e.       Definition OP_PUSH0 : u8 := 0x5f.
Definition OP_PUSH1 : u8 := 0x60.       Definition OP_PUSH32 : u8 := 0x7f.
Definition OP_DUP1 : u8 := 0x80.        Definition OP_DUP16 : u8 := 0x8f.
Definition OP_SWAP1 : u8 := 0x90.       Definition OP_SWAP16 : u8 := 0x9f.
Definition OP_LOG0 : u8 := 0xa0.        Definition OP_LOG4 : u8 := 0xa4.
Definition OP_CREATE : u8 := 0xf0.      Definition OP_CALL : u8 := 0xf1.
Definition OP_CALLCODE : u8 := 0xf2.    Definition OP_RETURN : u8 := 0xf3.
Definition OP_DELEGATECALL : u8 := 0xf4. Definition OP_CREATE2 : u8 := 0xf5.
Definition OP_STATICCALL : u8 := 0xfa.  Definition OP_REVERT : u8 := 0xfd.
Definition OP_INVALID : u8 := 0xfe.     Definition OP_SELFDESTRUCT : u8 := 0xff.

(** revm [OpCode::new(op).is_some()]: the opcodes in revm's OPCODE_INFO table *)
Definition op_known (op : u8) : bool :=
  let within a b := (a <=? op) && (op <=? b) in
  within 0x00 0x0b || within 0x10 0x1d || (op =? 0x20) || within 0x30 0x4a || within 0x50 0x9f ||
  within 0xa0 0xa4 || within 0xd0 0xd3 || within 0xe0 0xe8 || (op =? 0xec) || (op =? 0xee) ||
  within 0xf0 0xf5 || within 0xf7 0xfb || within 0xfd 0xff.

(** revm [Gas]: limit, remaining, refunded (i64). *)
Record Gas := mkGas { g_limit : u64; g_remaining : u64; g_refunded : Z }.
(** [Gas::spent] = limit - remaining *)
Definition g_spent (g : Gas) : u64 := g.(g_limit) - g.(g_remaining).

(** revm [JournalEntry]; only the variant the crate looks at is distinguished. *)
Inductive JournalEntry :=
  | JStorageChanged (addr : address) (key had_value : U256)
  | JOther.

(** What the inspectors read from [EvmContext]. *)
Record Ctx := mkCtx {
  cx_spec : SpecId;                          (** [context.spec_id()] *)
  cx_tx_gas_limit : u64;                     (** [context.env.tx.gas_limit] *)
  cx_precompiles : address -> bool;          (** [context.precompiles.contains] *)
  cx_depth : nat;                            (** [context.journaled_state.depth()] *)
  cx_journal : list (list JournalEntry);     (** [journaled_state.journal] *)
  cx_present : address -> U256 -> option U256
      (** [journaled_state.state[a].storage[k].present_value()]; [None] = missing key *)
}.

(** What the inspectors read from [Interpreter]. *)
Record Interp := mkInterp {
  in_op : u8;                 (** [current_opcode()] *)
  in_pc : nat;                (** [program_counter()] *)
  in_contract : address;      (** [contract.target_address] *)
  in_stack : list U256;       (** [stack.data()], bottom first *)
  in_memory : bytes;          (** [shared_memory.context_memory()] *)
  in_returndata : bytes;      (** [return_data_buffer] *)
  in_gas : Gas;
  in_result : InstructionResult
}.

(** alloy [Log] *)
Record Log := mkLog { lg_address : address; lg_topics : list U256; lg_data : bytes }.

Inductive CallScheme := CSCall | CSCallCode | CSDelegateCall | CSStaticCall.
Inductive CallValue := Transfer (v : U256) | Apparent (v : U256).

(** revm [CallInputs] *)
Record CallInputs := mkCallInputs {
  ci_input : bytes; ci_gas_limit : u64; ci_bytecode_address : address;
  ci_target_address : address; ci_caller : address; ci_value : CallValue;
  ci_scheme : CallScheme; ci_is_static : bool }.

(** [CallInputs::call_value] *)
Definition ci_call_value (i : CallInputs) : U256 :=
  match i.(ci_value) with Transfer v | Apparent v => v end.
(** [CallInputs::transfer_value] *)
Definition ci_transfer_value (i : CallInputs) : option U256 :=
  match i.(ci_value) with Transfer v => Some v | Apparent _ => None end.

Inductive CreateScheme := CrCreate | CrCreate2 (salt : U256).

(** revm [CreateInputs]; [created_address(nonce)] (a keccak hash) is an oracle value carried by
    the event. *)
Record CreateInputs := mkCreateInputs {
  cr_caller : address; cr_scheme : CreateScheme; cr_value : U256; cr_init_code : bytes;
  cr_gas_limit : u64; cr_created_address : address }.

(** revm [InterpreterResult] *)
Record InterpreterResult := mkIR { ir_result : InstructionResult; ir_output : bytes; ir_gas : Gas }.

Record CallOutcome := mkCallOutcome { co_result : InterpreterResult }.
Record CreateOutcome := mkCreateOutcome { cro_result : InterpreterResult; cro_address : option address }.

(** One [Inspector] hook invocation with its arguments. *)
Inductive event :=
  | EStep (i : Interp) (c : Ctx)
  | EStepEnd (i : Interp) (c : Ctx)
  | ELog (i : Log) (c : Ctx)
  | ECall (c : Ctx) (i : CallInputs)
  | ECallEnd (c : Ctx) (i : CallInputs) (o : CallOutcome)
  | ECreate (c : Ctx) (i : CreateInputs)
  | ECreateEnd (c : Ctx) (i : CreateInputs) (o : CreateOutcome)
  | ESelfdestruct (contract target : address) (value : U256).

(** What a hook hands back to revm: possibly mutated interpreter / inputs and the return value. *)
Inductive response :=
  | RUnit                                             (** log, selfdestruct *)
  | RInterp (i : Interp)                              (** step, step_end: [&mut Interpreter] *)
  | RCall (i : CallInputs) (o : option CallOutcome)   (** call: [&mut CallInputs] and the result *)
  | RCallEnd (o : CallOutcome)
  | RCreate (i : CreateInputs) (o : option CreateOutcome)
  | RCreateEnd (o : CreateOutcome).

(** The response of an inspector that does nothing. *)
Definition default_response (e : event) : response :=
  match e with
  | EStep i _ | EStepEnd i _ => RInterp i
  | ELog _ _ | ESelfdestruct _ _ _ => RUnit
  | ECall _ i => RCall i None
  | ECallEnd _ _ o => RCallEnd o
  | ECreate _ i => RCreate i None
  | ECreateEnd _ _ o => RCreateEnd o
  end.

(** An inspector: its state type is the parameter, [handle] runs one hook. *)
Definition inspector (S : Type) := S -> event -> res (S * response).

(** Run an inspector over a history of hook calls, keeping only its state. *)
Definition run {S} (h : inspector S) (s : S) (es : list event) : res S :=
  rfold (fun s e => rmap fst (h s e)) s es.
