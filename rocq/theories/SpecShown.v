(** * SpecShown: which instructions the struct logs of a partial recording show, and where *)

From Verif Require Export SpecTx.

(** The instructions of a frame and the lists of its sub-calls: each call or create instruction is followed by the next
    list. *)
Fixpoint interleave (ops : list (nat * frame * instr)) (lists : list (list (nat * frame * instr))) : list (nat * frame * instr) :=
  match ops with
  | [] => []
  | x :: ops =>
      if instr_is_call (snd x)
      then match lists with
           | [] => x :: interleave ops []
           | l :: lists => x :: l ++ interleave ops lists
           end
      else x :: interleave ops lists
  end.

(** The shown instructions of frame [g] at depth [d] with value [v]: those asked for, with the sub-calls not left out. *)
Fixpoint shown (cfg : TracingInspectorConfig) (w : world) (v : U256) (d : nat) (g : frame) : list (nat * frame * instr) :=
  match g with
  | Frame s body e =>
      interleave (map (fun o => (S d, g, o)) (List.filter (fun o => selected cfg (in_op (op_pre o))) (instrs body)))
        ((fix go (l : list item) : list (list (nat * frame * instr)) :=
            match l with
            | [] => []
            | ISub h :: r => if hidden_call cfg w v (f_start h) then go r
                             else shown cfg w (call_value v (f_start h)) (S d) h :: go r
            | _ :: r => go r
            end) body)
  end.

(** The two lines say the same of one instruction: all but storage and memory, which are gathered from recorded lines. *)
Record same_line (a b : StructLog) : Prop := {
  sm_pc : sl_pc a = sl_pc b; sm_op : sl_op a = sl_op b; sm_depth : sl_depth a = sl_depth b; sm_gas : sl_gas a = sl_gas b;
  sm_cost : sl_gas_cost a = sl_gas_cost b; sm_stack : sl_stack a = sl_stack b; sm_return : sl_return_data a = sl_return_data b }.
