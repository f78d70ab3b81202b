(** * SpecCutLogs: struct logs of a transaction that was cut off

    Instructions begin with the [step] hook and end with the [step_end] hook.  A struct log holds what was seen when the
    instruction began (depth, gas, opcode, program counter, refund counter, stack, memory) and what was seen when it
    ended (gas cost, error, storage); the return data it shows is that of the call executing it. *)

From Verif Require Export SpecHistory SpecGeth.

(** How many instructions have begun and how many have ended. *)
Definition steps_begun (es : list event) : nat :=
  length (List.filter (fun e => match e with EStep _ _ => true | _ => false end) es).
Definition steps_ended (es : list event) : nat :=
  length (List.filter (fun e => match e with EStepEnd _ _ => true | _ => false end) es).

(** What a line says of the moment its instruction began. *)
Definition began_with (l : StructLog) :=
  (sl_depth l, sl_gas l, sl_op l, sl_pc l, sl_refund_counter l, sl_stack l, sl_memory l).

(** A line without the return data of the call executing its instruction. *)
Definition but_return_data (l : StructLog) : StructLog :=
  mkLog (sl_depth l) (sl_error l) (sl_gas l) (sl_gas_cost l) (sl_op l) (sl_pc l) (sl_refund_counter l) (sl_stack l)
    None (sl_storage l) (sl_memory l).
