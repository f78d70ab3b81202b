(** * SpecOpcodes: facts about EVM opcodes, written from the Yellow Paper, not from the crate *)

From Verif Require Export Base.
Local Open Scope N_scope.

(** Stack items removed and added by each opcode (Yellow Paper, appendix H.2, plus PUSH0, MCOPY,
    TLOAD/TSTORE, BLOBHASH and BLOBBASEFEE). [None]: not an opcode. *)
Definition evm_stack_effect (op : N) : option (nat * nat) :=
  let within a b := (a <=? op) && (op <=? b) in
  let is a := op =? a in
  if is 0x00 then Some (0, 0)%nat                       (* STOP *)
  else if within 0x01 0x07 then Some (2, 1)%nat          (* ADD MUL SUB DIV SDIV MOD SMOD *)
  else if within 0x08 0x09 then Some (3, 1)%nat          (* ADDMOD MULMOD *)
  else if within 0x0a 0x0b then Some (2, 1)%nat          (* EXP SIGNEXTEND *)
  else if within 0x10 0x14 then Some (2, 1)%nat          (* LT GT SLT SGT EQ *)
  else if is 0x15 then Some (1, 1)%nat                   (* ISZERO *)
  else if within 0x16 0x18 then Some (2, 1)%nat          (* AND OR XOR *)
  else if is 0x19 then Some (1, 1)%nat                   (* NOT *)
  else if within 0x1a 0x1d then Some (2, 1)%nat          (* BYTE SHL SHR SAR *)
  else if is 0x20 then Some (2, 1)%nat                   (* KECCAK256 *)
  else if is 0x30 then Some (0, 1)%nat                   (* ADDRESS *)
  else if is 0x31 then Some (1, 1)%nat                   (* BALANCE *)
  else if within 0x32 0x34 then Some (0, 1)%nat          (* ORIGIN CALLER CALLVALUE *)
  else if is 0x35 then Some (1, 1)%nat                   (* CALLDATALOAD *)
  else if is 0x36 then Some (0, 1)%nat                   (* CALLDATASIZE *)
  else if is 0x37 then Some (3, 0)%nat                   (* CALLDATACOPY *)
  else if is 0x38 then Some (0, 1)%nat                   (* CODESIZE *)
  else if is 0x39 then Some (3, 0)%nat                   (* CODECOPY *)
  else if is 0x3a then Some (0, 1)%nat                   (* GASPRICE *)
  else if is 0x3b then Some (1, 1)%nat                   (* EXTCODESIZE *)
  else if is 0x3c then Some (4, 0)%nat                   (* EXTCODECOPY *)
  else if is 0x3d then Some (0, 1)%nat                   (* RETURNDATASIZE *)
  else if is 0x3e then Some (3, 0)%nat                   (* RETURNDATACOPY *)
  else if is 0x3f then Some (1, 1)%nat                   (* EXTCODEHASH *)
  else if is 0x40 then Some (1, 1)%nat                   (* BLOCKHASH *)
  else if within 0x41 0x48 then Some (0, 1)%nat          (* COINBASE .. BASEFEE *)
  else if is 0x49 then Some (1, 1)%nat                   (* BLOBHASH *)
  else if is 0x4a then Some (0, 1)%nat                   (* BLOBBASEFEE *)
  else if is 0x50 then Some (1, 0)%nat                   (* POP *)
  else if is 0x51 then Some (1, 1)%nat                   (* MLOAD *)
  else if within 0x52 0x53 then Some (2, 0)%nat          (* MSTORE MSTORE8 *)
  else if is 0x54 then Some (1, 1)%nat                   (* SLOAD *)
  else if is 0x55 then Some (2, 0)%nat                   (* SSTORE *)
  else if is 0x56 then Some (1, 0)%nat                   (* JUMP *)
  else if is 0x57 then Some (2, 0)%nat                   (* JUMPI *)
  else if within 0x58 0x5a then Some (0, 1)%nat          (* PC MSIZE GAS *)
  else if is 0x5b then Some (0, 0)%nat                   (* JUMPDEST *)
  else if is 0x5c then Some (1, 1)%nat                   (* TLOAD *)
  else if is 0x5d then Some (2, 0)%nat                   (* TSTORE *)
  else if is 0x5e then Some (3, 0)%nat                   (* MCOPY *)
  else if within 0x5f 0x7f then Some (0, 1)%nat          (* PUSH0 .. PUSH32 *)
  else if within 0x80 0x8f then                          (* DUPn: n items read, n + 1 written *)
    let n := N.to_nat (op - 0x7f) in Some (n, n + 1)%nat
  else if within 0x90 0x9f then                          (* SWAPn: n + 1 items read and written *)
    let n := N.to_nat (op - 0x8f) in Some (n + 1, n + 1)%nat
  else if within 0xa0 0xa4 then Some (N.to_nat (op - 0xa0) + 2, 0)%nat  (* LOGn *)
  else if is 0xf0 then Some (3, 1)%nat                   (* CREATE *)
  else if within 0xf1 0xf2 then Some (7, 1)%nat          (* CALL CALLCODE *)
  else if is 0xf3 then Some (2, 0)%nat                   (* RETURN *)
  else if is 0xf4 then Some (6, 1)%nat                   (* DELEGATECALL *)
  else if is 0xf5 then Some (4, 1)%nat                   (* CREATE2 *)
  else if is 0xfa then Some (6, 1)%nat                   (* STATICCALL *)
  else if is 0xfd then Some (2, 0)%nat                   (* REVERT *)
  else if is 0xfe then Some (0, 0)%nat                   (* INVALID *)
  else if is 0xff then Some (1, 0)%nat                   (* SELFDESTRUCT *)
  else None.

(** Instructions that start a sub-frame: CREATE CALL CALLCODE DELEGATECALL CREATE2 STATICCALL. *)
Definition evm_starts_frame (op : N) : bool := existsb (N.eqb op) [0xf0; 0xf1; 0xf2; 0xf4; 0xf5; 0xfa].

(** Instructions with a memory range operand (so able to change memory or grow it) after which the
    frame goes on: KECCAK256, the copies, MLOAD, MSTORE, MSTORE8, MCOPY, LOG0-LOG4, calls, creates. *)
Definition evm_memory_op (op : N) : bool :=
  existsb (N.eqb op)
    [0x20; 0x37; 0x39; 0x3c; 0x3e; 0x51; 0x52; 0x53; 0x5e; 0xa0; 0xa1; 0xa2; 0xa3; 0xa4;
     0xf0; 0xf1; 0xf2; 0xf4; 0xf5; 0xfa].

(** All bytes. *)
Definition all_bytes : list N := map N.of_nat (seq 0 256).
Lemma all_bytes_spec op : op < 256 -> In op all_bytes.
Proof. intros H. apply in_map_iff. exists (N.to_nat op). split; [lia|]. apply in_seq. lia. Qed.
Lemma forall_bytes (P : N -> bool) : forallb P all_bytes = true -> forall op, op < 256 -> P op = true.
Proof. intros H op Hop. rewrite forallb_forall in H. by apply H, all_bytes_spec. Qed.

(** ** Hexadecimal text *)

(** Value of a lowercase hexadecimal digit. *)
Definition hex_value (c : byte) : option N :=
  let n := Byte.to_N c in
  if (48 <=? n) && (n <=? 57) then Some (n - 48)
  else if (97 <=? n) && (n <=? 102) then Some (n - 87)
  else None.

(** Two digits per byte, high one first. *)
Fixpoint hex_decode (s : list byte) : option (list byte) :=
  match s with
  | [] => Some []
  | a :: b :: r =>
      match hex_value a, hex_value b, hex_decode r with
      | Some x, Some y, Some l => match Byte.of_N (16 * x + y) with Some c => Some (c :: l) | None => None end
      | _, _, _ => None
      end
  | _ => None
  end.
