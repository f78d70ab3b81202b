(** * SpecVmLogs: the vm trace and the struct logs of one execution side by side *)

From Verif Require Export SpecVmTx SpecShown.

(** The instructions of a vm trace in the order of execution: the sub-trace of an instruction comes right after it. *)
Fixpoint flat (t : VmTrace) : list VmInstruction :=
  match t with
  | mkVm _ ops =>
      (fix go (l : list VmInstruction) : list VmInstruction :=
         match l with
         | [] => []
         | (mkVmI _ _ _ sub _ as i) :: l => i :: match sub with Some s => flat s | None => [] end ++ go l
         end) ops
  end.

(** The line and the instruction of the vm trace are about the same instruction: position, opcode, gas and cost. *)
Definition same_instruction (l : StructLog) (i : VmInstruction) : Prop :=
  match i with
  | mkVmI pc cost (Some ex) _ op => sl_pc l = pc /\ sl_op l = op /\ sl_gas_cost l = cost /\ sl_gas l = ve_used ex
  | _ => False
  end.

(** The sub-calls of a frame with value [v] that are not left out, with their values. *)
Fixpoint kept (cfg : TracingInspectorConfig) (w : world) (v : U256) (body : list item) : list (U256 * frame) :=
  match body with
  | [] => []
  | ISub h :: r => if hidden_call cfg w v (f_start h) then kept cfg w v r else (call_value v (f_start h), h) :: kept cfg w v r
  | _ :: r => kept cfg w v r
  end.
Definition traced_calls (cfg : TracingInspectorConfig) (g : frame) : list instr := List.filter instr_is_call (traced_instrs cfg g).

(** In frame [g] and everything it calls: as many call and create instructions were asked for as there are sub-calls, and
    none within any sub-call but the first. *)
Inductive first_calls_only (cfg : TracingInspectorConfig) (w : world) : U256 -> frame -> Prop :=
  | first_only v g : length (kept cfg w v (f_body g)) <= length (traced_calls cfg g) ->
      (forall x, In x (tail (kept cfg w v (f_body g))) -> traced_calls cfg (snd x) = []) ->
      (forall x, In x (kept cfg w v (f_body g)) -> first_calls_only cfg w (fst x) (snd x)) ->
      first_calls_only cfg w v g.
