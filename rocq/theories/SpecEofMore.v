(** * SpecEofMore: what the other inspectors are told about executions with unannounced creations *)

From Verif Require Export SpecEof SpecJs.

(** The instructions in the order they run, each with the innermost announced call it runs in and its depth. *)
Fixpoint xexecuted (d : nat) (f : xframe) : list (fstart * nat * instr) :=
  match f with XFrame s body _ => flat_map (xitem_executed s (S d)) body end
with xitem_executed (s : fstart) (d : nat) (it : xitem) : list (fstart * nat * instr) :=
  match it with
  | XOp o => [(s, d, o)]
  | XHook _ => []
  | XSub f => xexecuted d f
  | XEof init => flat_map (xitem_executed s (S d)) init
  end.

(** Every instruction outside of init codes runs at the address its call is to. *)
Fixpoint at_own_address (f : xframe) : Prop :=
  match f with
  | XFrame s body _ =>
      Forall (fun o => in_contract (op_pre o) = jc_contract (spec_contract s)) (flat_map (fun it => match it with XOp o => [o] | _ => [] end) body) /\
      (fix all (l : list xitem) : Prop := match l with [] => True | it :: l => item_at_own_address it /\ all l end) body
  end
with item_at_own_address (it : xitem) : Prop :=
  match it with
  | XOp _ | XHook _ => True
  | XSub f => at_own_address f
  | XEof init => (fix all (l : list xitem) : Prop := match l with [] => True | it :: l => item_at_own_address it /\ all l end) init
  end.

