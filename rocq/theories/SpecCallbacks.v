(** * SpecCallbacks: what a script is shown, moved to another depth *)

From Verif Require Export SpecJs SpecAgree.
Local Open Scope nat_scope.

(** The same, [k] levels deeper: only depths change. *)
Definition ctx_moved (k : nat) (c : Ctx) : Ctx :=
  mkCtx (cx_spec c) (cx_tx_gas_limit c) (cx_precompiles c) (k + cx_depth c) (cx_journal c) (cx_present c).
Definition view_moved (k : nat) (v : view) : view :=
  mkView (vw_op v) (vw_pc v) (vw_gas v) (vw_cost v) (k + vw_depth v) (vw_refund v) (vw_error v) (vw_contract v)
    (vw_stack v) (vw_memory v) (vw_stack_len v) (vw_memory_len v) (option_map (ctx_moved k) (vw_state v)) (option_map (ctx_moved k) (vw_db v)).
Definition seen_moved (k : nat) (x : seen) : seen :=
  match x with SStep v => SStep (view_moved k v) | SFault v => SFault (view_moved k v) | x => x end.
