(** * SpecVm: what a vm trace should be *)

From Verif Require Export SpecParity VmTrace.

(** The instruction list of a frame: one instruction per step, in order; the call-like steps carry the given
    sub-traces, in order, as long as there are any. *)
Fixpoint attach (steps : list CallTraceStep) (subs : list VmTrace) : list VmInstruction :=
  match steps with
  | [] => []
  | s :: steps =>
      if st_is_calllike s
      then match subs with
           | [] => make_instruction s None :: attach steps []
           | t :: subs => make_instruction s (Some t) :: attach steps subs
           end
      else make_instruction s None :: attach steps subs
  end.

(** [t] is the vm trace (codes left empty) of node [i]: its subtraces are those of its children. *)
Inductive vm_spec (ns : list CallTraceNode) : nat -> VmTrace -> Prop :=
  | vm_spec_node i n subs :
      ns !! i = Some n -> Forall2 (vm_spec ns) (nd_children n) subs ->
      vm_spec ns i (mkVm [] (attach n.(nd_trace).(tr_steps) subs)).

(** Number of call-like instructions of a node. *)
Definition call_count (n : CallTraceNode) : nat := length (List.filter st_is_calllike n.(nd_trace).(tr_steps)).
