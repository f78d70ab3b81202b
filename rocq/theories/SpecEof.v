(** * SpecEof: executions with contract creations the inspectors are not told about

    revm-10 runs the init code of an EOFCREATE in a frame of its own, announced by the [eofcreate] hooks. No inspector of
    the crate implements these hooks, so that all they see of such a frame are its instructions and the calls it makes,
    both one level deeper than the instruction that started it. *)

From Verif Require Export SpecRecord SpecHistory.

Inductive xframe := XFrame (s : fstart) (body : list xitem) (e : fend)
with xitem := XOp (o : instr) | XHook (h : hook) | XSub (f : xframe) | XEof (init : list xitem).

(** The hook calls of a frame entered at depth [d], and of a part of a frame at journal depth [d]. *)
Fixpoint xframe_events (w : world) (d : nat) (f : xframe) : list event :=
  match f with
  | XFrame s body e => start_event w d s :: flat_map (xitem_events w (S d)) body ++ [end_event w d s e]
  end
with xitem_events (w : world) (d : nat) (it : xitem) : list event :=
  match it with
  | XOp o => instr_events w d o
  | XHook h => [hook_event w d h]
  | XSub f => xframe_events w d f
  | XEof init => flat_map (xitem_events w (S d)) init
  end.

(** The instructions executed, in all frames. *)
Fixpoint xframe_instrs (f : xframe) : list instr :=
  match f with XFrame _ body _ => flat_map xitem_instrs body end
with xitem_instrs (it : xitem) : list instr :=
  match it with
  | XOp o => [o]
  | XHook _ => []
  | XSub f => xframe_instrs f
  | XEof init => flat_map xitem_instrs init
  end.

(** The init codes of the creations make no calls. *)
Fixpoint no_calls (it : xitem) : bool :=
  match it with XOp _ | XHook _ => true | XSub _ => false | XEof init => forallb no_calls init end.
Fixpoint creations_call_nothing (f : xframe) : bool :=
  match f with
  | XFrame _ body _ =>
      forallb (fun it => match it with
                         | XOp _ | XHook _ => true
                         | XSub g => creations_call_nothing g
                         | XEof init => forallb no_calls init
                         end) body
  end.

(** The execution in which the caller itself executes the instructions of the init codes. *)
Fixpoint inlined (f : xframe) : frame :=
  match f with XFrame s body e => Frame s (flat_map inlined_item body) e end
with inlined_item (it : xitem) : list item :=
  match it with
  | XOp o => [IOp o]
  | XHook h => [IHook h]
  | XSub f => [ISub (inlined f)]
  | XEof init => flat_map inlined_item init
  end.

(** A record of calls without the depths of the instructions. *)
Definition without_depth (st : CallTraceStep) : CallTraceStep :=
  mkStep 0 (st_pc st) (st_op st) (st_contract st) (st_stack st) (st_push_stack st) (st_memory st) (st_returndata st)
    (st_gas_remaining st) (st_gas_refund_counter st) (st_gas_used st) (st_gas_cost st) (st_storage_change st)
    (st_status st) (st_decoded st).
Definition without_depths (n : CallTraceNode) : CallTraceNode :=
  nd_set_trace n (tr_set_steps (nd_trace n) (map without_depth (tr_steps (nd_trace n)))).

(** The depth at which a call or create starts. *)
Definition start_depth (e : event) : option nat :=
  match e with ECall c _ | ECreate c _ => Some (cx_depth c) | _ => None end.
(** The depth of the latest call or create below the top level, 0 if there is none. *)
Fixpoint latest_depth (es : list event) : nat :=
  match es with
  | [] => 0
  | e :: es => match latest_depth es, start_depth e with
               | 0, Some d => d
               | d, _ => d
               end
  end.
(** No call or create starts more than one level below the latest one. *)
Definition connected (es : list event) : Prop :=
  forall before e after d, es = before ++ e :: after -> start_depth e = Some d -> d <= S (latest_depth before).

(** For each call or create, the announced ones in progress when it starts, innermost first; they are numbered in the
    order they start. *)
Fixpoint in_progress (open : list nat) (next : nat) (es : list event) : list (list nat) :=
  match es with
  | [] => []
  | e :: es =>
      if is_start e then open :: in_progress (next :: open) (S next) es
      else in_progress (if is_end e then tail open else open) next es
  end.
