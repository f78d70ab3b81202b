(** * SpecGasFlow: how gas moves through an execution (facts about revm) *)

From Verif Require Export SpecGeth.

(** A call that ends like this gives its remaining gas back to its caller; after any other end the caller has lost it. *)
Definition gives_back (r : InstructionResult) : bool :=
  match r with
  | Continue | Stop | Return | SelfDestruct | ReturnContract => true
  | Revert | CallTooDeep | OutOfFunds | CreateInitCodeStartingEF00 | InvalidEOFInitCode | InvalidExtDelegateCallTarget => true
  | _ => false
  end.

Definition gas_given (s : fstart) : u64 := match s with SCall _ i => ci_gas_limit i | SCreate _ i => cr_gas_limit i end.
Definition end_gas (g : frame) : Gas := ir_gas (fe_result (f_end g)).
Definition gas_back (g : frame) : N := if gives_back (ir_result (fe_result (f_end g))) then g_remaining (end_gas g) else 0%N.
(** What the caller has less afterwards. *)
Definition gas_lost (g : frame) : N := (gas_given (f_start g) - gas_back g)%N.

(** Storing a created contract's code costs 200 gas per byte, charged after the last instruction. *)
Definition code_deposit (g : frame) : N :=
  match f_start g with
  | SCall _ _ => 0
  | SCreate _ _ =>
      if ir_is_ok (ir_result (fe_result (f_end g))) then 200 * N.of_nat (length (ir_output (fe_result (f_end g)))) else 0
  end%N.

(** [flow r body r']: code that has [r] gas left runs [body] and has [r'] left. Only its instructions take gas, and only
    its sub-calls bring some back (what a sub-call is given is part of the cost of the call instruction). *)
Inductive flow : N -> list item -> N -> Prop :=
  | flow_end r : flow r [] r
  | flow_op r o l r' : g_remaining (in_gas (op_pre o)) = r -> (g_remaining (in_gas (op_post o)) <= r)%N ->
      flow (g_remaining (in_gas (op_post o))) l r' -> flow r (IOp o :: l) r'
  | flow_hook r h l r' : flow r l r' -> flow r (IHook h :: l) r'
  | flow_sub r g l r' : flow (r + gas_back g)%N l r' -> flow r (ISub g :: l) r'.

(** The gas of one frame. A frame without instructions is a precompile, an account without code or a refused call. *)
Definition gas_flow (g : frame) : Prop :=
  g_limit (end_gas g) = gas_given (f_start g) /\ (g_remaining (end_gas g) <= g_limit (end_gas g))%N /\
  (instrs (f_body g) <> [] -> flow (gas_given (f_start g)) (f_body g) (g_remaining (end_gas g) + code_deposit g)%N).
Definition gas_flows (f : frame) : Prop := every_frame gas_flow f.

(** ** The same on a recording *)

Definition sum (l : list N) : N := foldr N.add 0%N l.
(** The calls made by the call at position [i]. *)
Definition calls_of (ns : list CallTraceNode) (i : nat) : list CallTraceNode :=
  List.filter (fun n => match nd_parent n with Some p => (p =? i)%nat | None => false end) ns.
Definition node_gave_back (n : CallTraceNode) : N :=
  if gives_back (tr_status (nd_trace n)) then (tr_gas_limit (nd_trace n) - tr_gas_used (nd_trace n))%N else 0%N.
Definition node_deposit (n : CallTraceNode) : N :=
  match tr_kind (nd_trace n) with
  | KCreate | KCreate2 => if tr_success (nd_trace n) then 200 * N.of_nat (length (tr_output (nd_trace n))) else 0
  | _ => 0
  end%N.
