(** * SpecPrune: a geth call tree without precompile calls *)

From Verif Require Export SpecAgree.
Local Open Scope N_scope.

(** The frame reports a message call to a precompile that moves no value. (A static call moves none, and shows none.) *)
Definition precompile_frame (precompile : address -> bool) (i : FrameInfo) : bool :=
  bool_decide (fi_typ i ∈ ["CALL"; "STATICCALL"; "CALLCODE"; "DELEGATECALL"])
  && match fi_to i with Some a => precompile a | None => false end
  && match fi_value i with Some v => v =? 0 | None => true end.

(** The tree without those calls below the root. *)
Fixpoint without_precompiles (precompile : address -> bool) (c : CallFrame) : CallFrame :=
  match c with
  | mkCF i calls =>
      mkCF i ((fix go (l : list CallFrame) : list CallFrame :=
                 match l with
                 | [] => []
                 | x :: r => if precompile_frame precompile (cf_info x) then go r
                             else without_precompiles precompile x :: go r
                 end) calls)
  end.

(** EVM facts: precompiles do not selfdestruct, neither in their own name nor by running in another's; a static call moves
    no value. *)
Definition evm_precompiles (w : world) (f : frame) : Prop :=
  every_frame (fun g =>
    (selfdestructs_of (hooks (f_body g)) <> [] ->
       w_precompiles w (executing_account (f_start g)) = false /\
       (is_call (f_start g) = true -> w_precompiles w (code_address (f_start g)) = false)) /\
    (spec_kind (f_start g) = KStaticCall -> spec_value (f_start g) = 0)) f.
