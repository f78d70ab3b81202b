(** * SpecReuseCut: a recording added to one that was cut off *)

From Verif Require Export SpecReuse SpecHistory.

(** The first hook call of a transaction. *)
Definition top_level_start (e : event) : bool :=
  match e with
  | ECall c i => (cx_depth c =? 0) && match ci_scheme i with CSCall => true | _ => false end
  | ECreate c _ => cx_depth c =? 0
  | _ => false
  end.

(** [open] calls are open before [es]: every call of [es] starts below the top level and while another one is open. *)
Fixpoint inner_calls_only (open : nat) (es : list event) : Prop :=
  match es with
  | [] => True
  | e :: es =>
      (is_start e = true -> 0 < open /\ is_root_start e = false) /\
      inner_calls_only (if is_start e then S open else if is_end e then pred open else open) es
  end.

(** The gas the call itself is given, which excludes what the transaction pays up front. *)
Definition call_gas (e : event) : u64 :=
  match e with ECall _ i => ci_gas_limit i | ECreate _ i => cr_gas_limit i | _ => 0%N end.

(** A call of a precompile without value, under a configuration that leaves such calls out. *)
Definition to_be_left_out (cfg : TracingInspectorConfig) (e : event) : bool :=
  match e with
  | ECall c i => exclude_precompile_calls cfg && cx_precompiles c (ci_target_address i) && (ci_call_value i =? 0)%N
  | _ => false
  end.

(** The record of a top-level call that was taken for an inner call: it has the gas of the call, and is marked as left
    out if an inner call would be. *)
Definition as_inner (cfg : TracingInspectorConfig) (e : event) (t : CallTrace) : CallTrace :=
  mkTrace (tr_depth t) (tr_success t) (tr_caller t) (tr_address t)
    (if to_be_left_out cfg e then Some true else tr_maybe_precompile t)
    (tr_selfdestruct_refund_target t) (tr_selfdestruct_transferred_value t) (tr_kind t) (tr_value t) (tr_data t)
    (tr_output t) (tr_gas_used t) (call_gas e) (tr_status t) (tr_steps t) (tr_decoded t).
Definition root_as_inner (cfg : TracingInspectorConfig) (e : event) (ns : list CallTraceNode) : list CallTraceNode :=
  match ns with
  | n :: ns => nd_set_trace n (as_inner cfg e (nd_trace n)) :: ns
  | [] => []
  end.
