(** * SpecHistory: recording only ever adds *)

From Verif Require Export SpecTree SpecExec.

(** The same instruction record, up to what is only known after the instruction ran. *)
Record same_step (a b : CallTraceStep) : Prop := {
  ssm_depth : st_depth b = st_depth a;
  ssm_pc : st_pc b = st_pc a;
  ssm_op : st_op b = st_op a;
  ssm_contract : st_contract b = st_contract a;
  ssm_stack : st_stack b = st_stack a;
  ssm_memory : st_memory b = st_memory a;
  ssm_returndata : st_returndata b = st_returndata a;
  ssm_gas : st_gas_remaining b = st_gas_remaining a;
  ssm_refund : st_gas_refund_counter b = st_gas_refund_counter a;
  ssm_gas_used : st_gas_used b = st_gas_used a }.

(** [b] is a later record of the frame recorded by [a]: what the frame was entered with is the same;
    children, logs, instructions and their interleaving have only been appended to. *)
Record later_node (a b : CallTraceNode) : Prop := {
  ln_parent : nd_parent b = nd_parent a;
  ln_idx : nd_idx b = nd_idx a;
  ln_depth : tr_depth (nd_trace b) = tr_depth (nd_trace a);
  ln_caller : tr_caller (nd_trace b) = tr_caller (nd_trace a);
  ln_kind : tr_kind (nd_trace b) = tr_kind (nd_trace a);
  ln_value : tr_value (nd_trace b) = tr_value (nd_trace a);
  ln_data : tr_data (nd_trace b) = tr_data (nd_trace a);
  ln_gas_limit : tr_gas_limit (nd_trace b) = tr_gas_limit (nd_trace a);
  ln_precompile : tr_maybe_precompile (nd_trace b) = tr_maybe_precompile (nd_trace a);
  ln_children : exists l, nd_children b = nd_children a ++ l;
  ln_logs : exists l, nd_logs b = nd_logs a ++ l;
  ln_ordering : exists l, nd_ordering b = nd_ordering a ++ l;
  ln_steps : forall k x, tr_steps (nd_trace a) !! k = Some x ->
    exists y, tr_steps (nd_trace b) !! k = Some y /\ same_step x y }.

Definition later_arena (ns ns' : list CallTraceNode) : Prop :=
  forall i a, ns !! i = Some a -> exists b, ns' !! i = Some b /\ later_node a b.

(** The hook calls made for a part of the body of a frame at depth [d]. *)
Definition part_events (w : world) (d : nat) (l : list item) : list event :=
  flat_map (fun it =>
     match it with
     | IOp o => instr_events w (S d) o
     | IHook h => [hook_event w (S d) h]
     | ISub g => frame_events w (S d) g
     end) l.

(** [happens w d f d' g before after]: the call [g] is made, at depth [d'], somewhere inside the call
    [f] at depth [d]; [before] and [after] are the hook calls of [f] before [g] starts and after [g]
    has ended. *)
Inductive happens (w : world) (d : nat) (f : frame) : nat -> frame -> list event -> list event -> Prop :=
  | happens_itself : happens w d f d f [] []
  | happens_inside s l1 h l2 e d' g before after :
      f = Frame s (l1 ++ ISub h :: l2) e ->
      happens w (S d) h d' g before after ->
      happens w d f d' g (start_event w d s :: part_events w d l1 ++ before)
        (after ++ part_events w d l2 ++ [end_event w d s e]).

(** Is the event the start of a call or create? *)
Definition is_start (e : event) : bool :=
  match e with ECall _ _ | ECreate _ _ => true | _ => false end.

(** Is the event the end of a call or create? *)
Definition is_end (e : event) : bool :=
  match e with ECallEnd _ _ _ | ECreateEnd _ _ _ => true | _ => false end.

(** The calls that have been started and have not ended, innermost first; calls are numbered in the order they
    start. *)
Fixpoint unended (opened : list nat) (next : nat) (es : list event) : list nat :=
  match es with
  | [] => opened
  | e :: es =>
      if is_start e then unended (next :: opened) (S next) es
      else if is_end e then unended (tail opened) next es
      else unended opened next es
  end.

(** A call of which only the start has been seen. *)
Record without_result (t : CallTrace) : Prop := {
  wr_success : tr_success t = false;
  wr_status : tr_status t = Continue;
  wr_output : tr_output t = [];
  wr_gas : tr_gas_used t = 0%N }.

(** The log and selfdestruct hooks, which are called while an instruction executes. *)
Definition is_hook_event (e : event) : bool := match e with ELog _ _ | ESelfdestruct _ _ _ => true | _ => false end.

(** The record of an instruction that has begun and not ended: what was seen when it began, and no outcome. *)
Record begun (i : Interp) (st : CallTraceStep) : Prop := {
  bg_pc : st_pc st = in_pc i;
  bg_op : st_op st = in_op i;
  bg_contract : st_contract st = in_contract i;
  bg_gas : st_gas_remaining st = g_remaining (in_gas i);
  bg_cost : st_gas_cost st = 0%N;
  bg_change : st_storage_change st = None;
  bg_pushed : st_push_stack st = None;
  bg_status : st_status st = Continue }.
