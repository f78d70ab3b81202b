(** * Utils: /repo/src/tracing/utils.rs and the opcode tables used while recording *)

From Verif Require Export Evm.
Local Open Scope N_scope.

(** utils.rs:30-33 [gas_used].  The subtraction is [u64] subtraction; it is total here because the
    subtrahend is at most [spent / q] (theorem [gas_used_no_underflow]). *)
Definition gas_used (spec : SpecId) (spent refunded : u64) : u64 :=
  let q := if spec_enabled spec LONDON then 5 else 2 in
  spent - N.min refunded (spent / q).

(** [hex::encode]: two lowercase digits per byte, as ASCII bytes *)
Definition hex_digit (n : N) : byte :=
  default x00 (Byte.of_N (if n <? 10 then 48 + n else 87 + n)).
Definition hex_byte (b : byte) : list byte :=
  [hex_digit (Byte.to_N b / 16); hex_digit (Byte.to_N b mod 16)].
Definition hex_encode (bs : list byte) : list byte := flat_map hex_byte bs.

(** utils.rs:13-26 [convert_memory]: [chunks_exact(32)] hex-encoded, then the zero-padded remainder.
    Strings are lists of ASCII bytes. The fuel of the chunk loop is the data length. *)
Fixpoint convert_chunks (fuel : nat) (data : list byte) : list (list byte) :=
  match fuel with
  | O => []
  | S fuel =>
      if (32 <=? length data)%nat
      then hex_encode (take 32 data) :: convert_chunks fuel (drop 32 data)
      else match data with
           | [] => []
           | _ => [hex_encode (data ++ replicate (32 - length data) x00)]
           end
  end.
Definition convert_memory (data : list byte) : list (list byte) :=
  convert_chunks (S (length data)) data.

(** alloy [GenericRevertReason]: [revert(reason)], another well-known error (its printed text), or the data as text *)
Inductive RevertReason := ContractRevert (reason : string) | ContractOther (text : string) | RawString (s : string).
(** utils.rs:58-75 [maybe_revert_reason]; [decode] is alloy's [GenericRevertReason::decode] *)
Definition maybe_revert_reason (decode : list byte -> option RevertReason) (output : list byte) : option string :=
  match decode output with
  | None => None
  | Some r =>
      let reason := match r with ContractRevert s => s | ContractOther s => s | RawString s => s end in
      match reason with EmptyString => None | _ => Some reason end
  end.

(** src/opcode.rs:86-102 [may_modify_memory] *)
Definition may_modify_memory (op : u8) : bool :=
  existsb (N.eqb op)
    [OP_EXTCODECOPY; OP_MLOAD; OP_MSTORE; OP_MSTORE8; OP_MCOPY; OP_CODECOPY; OP_CALLDATACOPY;
     OP_RETURNDATACOPY; OP_CALL; OP_CALLCODE; OP_DELEGATECALL; OP_STATICCALL].

(** src/tracing/builder/parity.rs:552-612 [stack_push_count] *)
Definition stack_push_count (op : u8) : nat :=
  if (OP_PUSH0 <=? op) && (op <=? OP_PUSH32) then 1%nat
  else if (OP_SWAP1 <=? op) && (op <=? OP_SWAP16) then (N.to_nat (op - OP_SWAP1) + 2)%nat
  else if (OP_DUP1 <=? op) && (op <=? OP_DUP16) then (N.to_nat (op - OP_DUP1) + 2)%nat
  else if existsb (N.eqb op)
    [OP_CALLDATALOAD; OP_SLOAD; OP_MLOAD; OP_CALLDATASIZE; OP_LT; OP_GT; OP_DIV; OP_SDIV; OP_SAR;
     OP_AND; OP_EQ; OP_CALLVALUE; OP_ISZERO; OP_ADD; OP_EXP; OP_CALLER; OP_KECCAK256; OP_SUB;
     OP_ADDRESS; OP_GAS; OP_MUL; OP_RETURNDATASIZE; OP_NOT; OP_SHR; OP_SHL; OP_EXTCODESIZE; OP_SLT;
     OP_OR; OP_NUMBER; OP_PC; OP_TIMESTAMP; OP_BALANCE; OP_SELFBALANCE; OP_MULMOD; OP_ADDMOD;
     OP_BASEFEE; OP_BLOCKHASH; OP_BYTE; OP_XOR; OP_ORIGIN; OP_CODESIZE; OP_MOD; OP_SIGNEXTEND;
     OP_GASLIMIT; OP_DIFFICULTY; OP_SGT; OP_GASPRICE; OP_MSIZE; OP_EXTCODEHASH; OP_SMOD; OP_CHAINID;
     OP_COINBASE]
  then 1%nat
  else 0%nat.
