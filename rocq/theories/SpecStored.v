(** * SpecStored: what a report of a recording that was read back shows *)

From Verif Require Export Geth VmTrace.

(** Opcodes revm does not know are read back as INVALID (0xfe). *)
Definition read_op (op : u8) : u8 := if op_known op then op else 0xfe%N.

Definition read_line (l : StructLog) : StructLog :=
  Geth.mkLog (sl_depth l) (sl_error l) (sl_gas l) (sl_gas_cost l) (read_op (sl_op l)) (sl_pc l) (sl_refund_counter l)
    (sl_stack l) (sl_return_data l) (sl_storage l) (sl_memory l).
Definition read_frame (d : DefaultFrame) : DefaultFrame :=
  mkDefaultFrame (dfr_failed d) (dfr_gas d) (dfr_return_value d) (map read_line (dfr_struct_logs d)).

Fixpoint read_vm (t : VmTrace) : VmTrace :=
  match t with mkVm code ops => mkVm code (map read_instruction ops) end
with read_instruction (i : VmInstruction) : VmInstruction :=
  match i with
  | mkVmI pc cost ex sub op =>
      mkVmI pc cost ex (match sub with Some t => Some (read_vm t) | None => None end) (read_op op)
  end.

(** The instructions begun by hook calls are all known to revm. *)
Definition knows_all (es : list event) : Prop :=
  forall i c, In (EStep i c) es -> op_known (in_op i) = true.
