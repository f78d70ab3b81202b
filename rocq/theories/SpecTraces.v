(** * SpecTraces: what the entries of a parity trace list should say *)

From Verif Require Export SpecParity SpecRecord Parity.

(** The parity name of a call kind. *)
Definition spec_call_type (k : CallKind) : CallType :=
  match k with
  | KCall => CTCall | KStaticCall => CTStaticCall | KCallCode => CTCallCode | KDelegateCall => CTDelegateCall
  | KAuthCall => CTAuthCall | KCreate | KCreate2 => CTNone
  end.
Definition spec_is_create (k : CallKind) : bool := match k with KCreate | KCreate2 => true | _ => false end.

(** The parity error text of a failed frame. *)
Definition spec_parity_error (st : InstructionResult) : string :=
  match st with
  | Revert => "Reverted"
  | OutOfGas => "Out of gas"
  | MemoryOOG => "Out of gas"
  | OpcodeNotFound => "Bad instruction"
  | StackOverflow => "Out of stack"
  | InvalidJump => "Bad jump destination"
  | PrecompileError => "Built-in failed"
  | other => ir_debug other
  end.

(** [e] reports the call of node [n]. *)
Record call_entry (n : CallTraceNode) (e : TransactionTrace) : Prop := {
  ce_call : spec_is_create (tr_kind (nd_trace n)) = false ->
    tt_action e = ActCall (tr_caller (nd_trace n)) (tr_address (nd_trace n)) (tr_value (nd_trace n))
                    (tr_gas_limit (nd_trace n)) (tr_data (nd_trace n)) (spec_call_type (tr_kind (nd_trace n)));
  ce_create : spec_is_create (tr_kind (nd_trace n)) = true ->
    tt_action e = ActCreate (tr_caller (nd_trace n)) (tr_value (nd_trace n)) (tr_gas_limit (nd_trace n)) (tr_data (nd_trace n));
  ce_no_error : spec_success (tr_status (nd_trace n)) = true -> tt_error e = None;
  ce_error : spec_success (tr_status (nd_trace n)) = false -> tt_error e = Some (spec_parity_error (tr_status (nd_trace n)));
  ce_no_result : spec_success (tr_status (nd_trace n)) = false -> tr_status (nd_trace n) <> Revert -> tt_result e = None;
  ce_call_result : spec_success (tr_status (nd_trace n)) = true \/ tr_status (nd_trace n) = Revert ->
    spec_is_create (tr_kind (nd_trace n)) = false ->
    tt_result e = Some (OutCall (tr_gas_used (nd_trace n)) (tr_output (nd_trace n)));
  ce_create_result : spec_success (tr_status (nd_trace n)) = true \/ tr_status (nd_trace n) = Revert ->
    spec_is_create (tr_kind (nd_trace n)) = true ->
    tt_result e = Some (OutCreate (tr_gas_used (nd_trace n)) (tr_output (nd_trace n)) (tr_address (nd_trace n))) }.

(** The frame of [n] executed SELFDESTRUCT. *)
Definition selfdestructed (n : CallTraceNode) : Prop :=
  tr_status (nd_trace n) = SelfDestruct \/ exists t, tr_selfdestruct_refund_target (nd_trace n) = Some t.

(** [e] reports that the frame of node [n] ended by selfdestructing. *)
Record selfdestruct_entry (n : CallTraceNode) (e : TransactionTrace) : Prop := {
  se_status : selfdestructed n;
  se_action : exists refund balance, tt_action e = ActSelfdestruct (tr_address (nd_trace n)) refund balance /\
    (forall t, tr_selfdestruct_refund_target (nd_trace n) = Some t -> refund = t) /\
    (forall v, tr_selfdestruct_transferred_value (nd_trace n) = Some v -> balance = v);
  se_error : tt_error e = None;
  se_result : tt_result e = None;
  se_subtraces : tt_subtraces e = 0 }.

(** Is this an entry for a call or create (as opposed to a selfdestruct)? *)
Definition is_call_entry (e : TransactionTrace) : bool :=
  match tt_action e with ActSelfdestruct _ _ _ => false | _ => true end.

(** [b] is [a] with one more element. *)
Definition extends_by_one (a b : list nat) : bool :=
  bool_decide (take (length a) b = a) && (length b =? S (length a)).

(** Two entries agree on everything but the gas used reported in the result. *)
Record same_but_gas (gas : u64) (e e' : TransactionTrace) : Prop := {
  sg_action : tt_action e' = tt_action e;
  sg_error : tt_error e' = tt_error e;
  sg_address : tt_address e' = tt_address e;
  sg_subtraces : tt_subtraces e' = tt_subtraces e;
  sg_result : match tt_result e, tt_result e' with
              | None, None => True
              | Some (OutCall _ o), Some (OutCall g o') => g = gas /\ o' = o
              | Some (OutCreate _ c a), Some (OutCreate g c' a') => g = gas /\ c' = c /\ a' = a
              | _, _ => False
              end }.
(** Two trace lists agree but for the gas used of the first entry. *)
Definition same_but_root_gas (gas : u64) (l l' : list TransactionTrace) : Prop :=
  match l, l' with
  | [], [] => True
  | e :: l, e' :: l' => same_but_gas gas e e' /\ l' = l
  | _, _ => False
  end.
