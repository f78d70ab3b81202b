(** * SpecAccepted: the sequences of hook calls a tracing inspector can record *)

From Verif Require Export SpecSession SpecHistory.

(** The value a call passes on: a delegate call has that of the innermost open call. *)
Definition passed_value (open : list U256) (i : CallInputs) : U256 :=
  match ci_scheme i, open with
  | CSDelegateCall, v :: _ => v
  | _, _ => ci_call_value i
  end.
(** Is the call left out of the call graph: a call without value, made by an open call, to a precompile, while these
    are to be excluded? *)
Definition left_out (cfg : TracingInspectorConfig) (c : Ctx) (open : list U256) (i : CallInputs) : bool :=
  exclude_precompile_calls cfg && cx_precompiles c (snd (call_from_to i)) &&
  match open with [] => false | _ => (passed_value open i =? 0)%N end.

(** What can come next depends on: the depth of the latest call or create that was started below the top level and is
    not left out ([latest], 0 if there is none), the values of the open calls, innermost first, and the instructions
    begun and not ended: their opcodes and whether they are being recorded. *)
Fixpoint accepted (cfg : TracingInspectorConfig) (latest : nat) (open : list U256) (begun : list (u8 * bool))
    (es : list event) : Prop :=
  match es with
  | [] => True
  | ECall c i :: es =>
      (* at most one level deeper than the latest *)
      cx_depth c <= S latest /\
      accepted cfg (if (cx_depth c =? 0) || left_out cfg c open i then latest else cx_depth c)
        (passed_value open i :: open) begun es
  | ECreate c i :: es =>
      cx_depth c <= S latest /\
      accepted cfg (if cx_depth c =? 0 then latest else cx_depth c) (cr_value i :: open) begun es
  | (ECallEnd _ _ _ | ECreateEnd _ _ _) :: es => open <> [] /\ accepted cfg latest (tail open) begun es
  | ELog _ _ :: es => (record_logs cfg = true -> open <> []) /\ accepted cfg latest open begun es
  | ESelfdestruct _ _ _ :: es => open <> [] /\ accepted cfg latest open begun es
  | EStep i _ :: es =>
      if record_steps cfg then open <> [] /\ accepted cfg latest open ((in_op i, selected cfg (in_op i)) :: begun) es
      else accepted cfg latest open begun es
  | EStepEnd i x :: es =>
      if record_steps cfg then
        match begun with
        | [] => False
        | (op, recorded) :: begun => (recorded = true -> recordable cfg op i x) /\ accepted cfg latest open begun es
        end
      else accepted cfg latest open begun es
  end.

(** Top-level calls start only when no call is open and no instruction is unfinished. *)
Fixpoint one_after_another (open begun : nat) (es : list event) : Prop :=
  match es with
  | [] => True
  | e :: es =>
      (is_root_start e = true -> open = 0 /\ begun = 0) /\
      one_after_another (if is_start e then S open else if is_end e then pred open else open)
        (match e with EStep _ _ => S begun | EStepEnd _ _ => pred begun | _ => begun end) es
  end.
