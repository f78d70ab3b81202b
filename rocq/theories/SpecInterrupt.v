(** * SpecInterrupt: reports of a transaction that was cut off *)

From Verif Require Export SpecHistory SpecParity SpecTraces SpecGeth.

(** [e] is the entry of the call recorded at [i], or reports that this call selfdestructed. *)
Definition about (ns : list CallTraceNode) (i : nat) (e : TransactionTrace) : Prop :=
  follow ns 0 (tt_address e) = Some i \/
  exists a n, follow ns 0 a = Some i /\ ns !! i = Some n /\ tt_address e = a ++ [length (nd_children n)].

(** [e] reports a call or creation that succeeded, using no gas and returning nothing. *)
Definition idle_success (e : TransactionTrace) : Prop :=
  tt_error e = None /\
  match tt_action e with
  | ActCall _ _ _ _ _ _ => tt_result e = Some (OutCall 0 [])
  | ActCreate _ _ _ _ => exists a, tt_result e = Some (OutCreate 0 [] a)
  | _ => False
  end.

(** Two frames of the call tracer that differ at most in the logs they list. *)
Definition but_logs (x y : FrameInfo) : Prop :=
  fi_typ x = fi_typ y /\ fi_from x = fi_from y /\ fi_to x = fi_to y /\ fi_value x = fi_value y /\ fi_gas x = fi_gas y /\
  fi_gas_used x = fi_gas_used y /\ fi_input x = fi_input y /\ fi_output x = fi_output y /\ fi_error x = fi_error y /\
  fi_revert_reason x = fi_revert_reason y.
