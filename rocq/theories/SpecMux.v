(** * SpecMux: what a mux tracer should accept and return *)

From Verif Require Export Mux.

(** ** Accepted configurations *)

(** One tracer with its configuration, if any. *)
Inductive good : TracerType -> option TracerConfig -> Prop :=
  | good_four_byte : good FourByteTracer None
  | good_noop : good NoopTracer None
  | good_call j c : into_call_config j = Some c -> good CallTracer (Some j)
  | good_prestate j c : into_pre_state_config j = Some c -> good PreStateTracer (Some j)
  | good_mux j l : into_mux_config j = Some l -> (forall t o, In (t, o) l -> good t o) -> good MuxTracer (Some j).

(** Why one is not accepted. The error in a nested configuration is that of its first offending tracer. *)
Inductive offence : TracerType -> option TracerConfig -> MuxError -> Prop :=
  | unexpected t j : t = FourByteTracer \/ t = NoopTracer -> offence t (Some j) (UnexpectedConfig t)
  | missing t : t = CallTracer \/ t = PreStateTracer \/ t = MuxTracer -> offence t None (MissingConfig t)
  | invalid_call j : into_call_config j = None -> offence CallTracer (Some j) InvalidConfig
  | invalid_prestate j : into_pre_state_config j = None -> offence PreStateTracer (Some j) InvalidConfig
  | invalid_mux j : into_mux_config j = None -> offence MuxTracer (Some j) InvalidConfig
  | nested j l before t o rest e :
      into_mux_config j = Some l -> l = before ++ (t, o) :: rest -> (forall t o, In (t, o) before -> good t o) ->
      offence t o e -> offence MuxTracer (Some j) e.

(** The keys of the maps are distinct, at every level. *)
Inductive is_map : MuxConfig -> Prop :=
  | keys_distinct l : NoDup (map fst l) -> (forall t j l', In (t, Some j) l -> into_mux_config j = Some l' -> is_map l') -> is_map l.

(** ** Each tracer alone *)
Section Alone.
  Context (maybe_revert_reason : bytes -> option string) (history : list event)
    (gas_used : u64) (state : list (address * Account)) (db : Db).

  (** Running one tracer by itself over the history yields this trace. *)
  Inductive alone : TracerType -> option TracerConfig -> GethTrace -> Prop :=
    | alone_four_byte s : run fb_handle fb_new history = Ok s -> alone FourByteTracer None (GTFourByte (fb_frame s))
    | alone_call j c s f :
        into_call_config j = Some c -> run ti_handle (ti_new (from_geth_call_config c)) history = Ok s ->
        geth_call_traces maybe_revert_reason (ti_traces s) c gas_used = Ok f -> alone CallTracer (Some j) (GTCall f)
    | alone_prestate j c s f :
        into_pre_state_config j = Some c -> run ti_handle (ti_new (from_geth_prestate_config c)) history = Ok s ->
        geth_prestate_traces state c db = Some f -> alone PreStateTracer (Some j) (GTPreState f)
    | alone_noop : alone NoopTracer None GTNoop
    | alone_mux j l frame :
        into_mux_config j = Some l -> Forall2 (fun x y => fst x = fst y /\ alone (fst x) (snd x) (snd y)) l frame ->
        alone MuxTracer (Some j) (GTMux frame).
End Alone.
