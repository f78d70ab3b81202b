(** * Session: every use of one [TracingInspector], not only its hooks (/repo/src/tracing/mod.rs) *)

From Verif Require Export Inspector.

(** One use of an inspector: the EVM calls a hook (mod.rs:496-613); the owner changes the configuration
    ([config_mut], mod.rs:124-126, and [update_config], mod.rs:129-134: any new configuration, possibly computed from
    the old one); the owner resets it ([fuse], mod.rs:94-109); the owner sets the gas used
    ([set_transaction_gas_used], mod.rs:170-174). *)
Inductive use :=
  | UHook (e : event)
  | UConfig (f : TracingInspectorConfig -> TracingInspectorConfig)
  | UFuse
  | UGas (g : u64).

Definition ti_use (s : TracingInspector) (u : use) : res TracingInspector :=
  match u with
  | UHook e => rmap fst (ti_handle s e)
  | UConfig f => Ok (ti_update_config s f)
  | UFuse => Ok (ti_fuse s)
  | UGas g => Ok (ti_set_transaction_gas_used s g)
  end.

(** A whole history of uses of one inspector. *)
Definition ti_session (s : TracingInspector) (us : list use) : res TracingInspector := rfold ti_use s us.
