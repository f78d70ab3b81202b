(** * Mux: /repo/src/tracing/mux.rs *)

From Verif Require Export Inspector FourByte Geth Prestate.

(** alloy [GethDebugBuiltInTracerType] *)
Inductive TracerType := FourByteTracer | CallTracer | PreStateTracer | NoopTracer | MuxTracer.
Global Instance TracerType_eq_dec : EqDecision TracerType.
Proof. solve_decision. Defined.

(** alloy [GethDebugTracerConfig] (a JSON value), represented by what [into_call_config], [into_pre_state_config] and
    [into_mux_config] make of it ([None]: a deserialisation error). A [MuxConfig] is a [HashMap], given by the list
    of its entries in iteration order. *)
Inductive TracerConfig := mkTC
  (into_call_config : option CallConfig)
  (into_pre_state_config : option PreStateConfig)
  (into_mux_config : option (list (TracerType * option TracerConfig))).
Definition into_call_config (j : TracerConfig) := let '(mkTC c _ _) := j in c.
Definition into_pre_state_config (j : TracerConfig) := let '(mkTC _ p _) := j in p.
Definition into_mux_config (j : TracerConfig) := let '(mkTC _ _ m) := j in m.
Notation MuxConfig := (list (TracerType * option TracerConfig)).

(** mux.rs:384-395 [Error] *)
Inductive MuxError := UnexpectedConfig (t : TracerType) | MissingConfig (t : TracerType) | InvalidConfig.

(** mux.rs:169-176 [DelegatingInspector] and mux.rs:20 [MuxInspector] *)
Inductive DelegatingInspector :=
  | DFourByte (i : FourByteInspector)
  | DCall (c : CallConfig) (i : TracingInspector)
  | DPrestate (c : PreStateConfig) (i : TracingInspector)
  | DNoop
  | DMux (l : list (TracerType * DelegatingInspector)).
Notation MuxInspector := (list (TracerType * DelegatingInspector)).

(** [.map(f).collect::<Result<Vec<_>, _>>()]: stops at the first error *)
Section Collect.
  Context {A B E : Type} (f : A -> E + B).
  Fixpoint collect (l : list A) : E + list B :=
    match l with
    | [] => inr []
    | x :: l => match f x with
                | inl e => inl e
                | inr y => match collect l with inl e => inl e | inr ys => inr (y :: ys) end
                end
    end.
End Collect.

(** mux.rs:178-227 [DelegatingInspector::try_from_config], by presence of the config; [some] handles a present one *)
Definition entry_from_config (some : TracerType -> TracerConfig -> MuxError + DelegatingInspector)
    (x : TracerType * option TracerConfig) : MuxError + (TracerType * DelegatingInspector) :=
  let '(tracer_type, tracer_config) := x in
  match tracer_config with
  | Some j => match some tracer_type j with inl e => inl e | inr d => inr (tracer_type, d) end
  | None => match tracer_type with
            | FourByteTracer => inr (tracer_type, DFourByte fb_new)
            | NoopTracer => inr (tracer_type, DNoop)
            | CallTracer | PreStateTracer | MuxTracer => inl (MissingConfig tracer_type)
            end
  end.
Fixpoint some_from_config (tracer_type : TracerType) (j : TracerConfig) : MuxError + DelegatingInspector :=
  let '(mkTC call prestate mux) := j in
  match tracer_type with
  | FourByteTracer | NoopTracer => inl (UnexpectedConfig tracer_type)
  | CallTracer =>
      match call with
      | Some c => inr (DCall c (ti_new (from_geth_call_config c)))
      | None => inl InvalidConfig
      end
  | PreStateTracer =>
      match prestate with
      | Some c => inr (DPrestate c (ti_new (from_geth_prestate_config c)))
      | None => inl InvalidConfig
      end
  | MuxTracer =>
      match mux with
      | Some l => match collect (entry_from_config some_from_config) l with inl e => inl e | inr m => inr (DMux m) end
      | None => inl InvalidConfig
      end
  end.
Definition di_try_from_config := entry_from_config some_from_config.
(** mux.rs:24-34 [MuxInspector::try_from_config] *)
Definition mux_try_from_config (config : MuxConfig) : MuxError + MuxInspector := collect di_try_from_config config.

(** The arguments the next inspector sees: [&mut Interpreter] and [&mut CallInputs] are shared, and the outcome of
    [call_end]/[create_end] is passed along. *)
Definition after (e : event) (r : response) : event :=
  match e, r with
  | EStep _ c, RInterp i => EStep i c
  | EStepEnd _ c, RInterp i => EStepEnd i c
  | ECall c _, RCall i _ => ECall c i
  | ECallEnd c i _, RCallEnd o => ECallEnd c i o
  | ECreate c _, RCreate i _ => ECreate c i
  | ECreateEnd c i _, RCreateEnd o => ECreateEnd c i o
  | e, _ => e
  end.
(** [if let Some(outcome) = ..  { return Some(outcome) }], mux.rs:104-108 and 133-137 *)
Definition answered (r : response) : bool :=
  match r with RCall _ (Some _) | RCreate _ (Some _) => true | _ => false end.

(** mux.rs:66-165 [impl Inspector for MuxInspector]: each hook goes through the inspectors in order *)
Section MuxFold.
  Context {A : Type} (h : A -> event -> res (A * response)).
  Fixpoint mux_fold (l : list (TracerType * A)) (e : event) : res (list (TracerType * A) * response) :=
    match l with
    | [] => Ok ([], default_response e)
    | (t, d) :: l =>
        let! p := h d e in let '(d, r) := p in
        if answered r then Ok ((t, d) :: l, r)
        else let! p := mux_fold l (after e r) in let '(l, r) := p in Ok ((t, d) :: l, r)
    end.
End MuxFold.

(** mux.rs:230-381 [impl DelegatingInspector]: [call] and [create] drop the inspector's answer and return [None] *)
Definition drop_answer (r : response) : response :=
  match r with RCall i _ => RCall i None | RCreate i _ => RCreate i None | r => r end.
Fixpoint di_handle (d : DelegatingInspector) (e : event) : res (DelegatingInspector * response) :=
  match d with
  | DFourByte i => let! p := fb_handle i e in let '(i, r) := p in Ok (DFourByte i, drop_answer r)
  | DCall c i => let! p := ti_handle i e in let '(i, r) := p in Ok (DCall c i, drop_answer r)
  | DPrestate c i => let! p := ti_handle i e in let '(i, r) := p in Ok (DPrestate c i, drop_answer r)
  | DNoop => Ok (DNoop, default_response e)
  | DMux l => let! p := mux_fold di_handle l e in let '(l, r) := p in Ok (DMux l, drop_answer r)
  end.
Definition mux_handle : inspector MuxInspector := mux_fold di_handle.

(** alloy [GethTrace] (the variants mux produces) and [MuxFrame]; a [HashMap] given by its entries *)
Inductive GethTrace :=
  | GTFourByte (f : FourByteFrame)
  | GTCall (f : CallFrame)
  | GTPreState (f : PreStateFrame)
  | GTNoop
  | GTMux (frame : list (TracerType * GethTrace)).
Notation MuxFrame := (list (TracerType * GethTrace)).

(** [frame.insert(tracer_type, trace)]: an entry with that key is replaced *)
Definition frame_insert {A} (t : TracerType) (x : A) (frame : list (TracerType * A)) : list (TracerType * A) :=
  if existsb (fun y => bool_decide (fst y = t)) frame
  then map (fun y => if bool_decide (fst y = t) then (t, x) else y) frame
  else frame ++ [(t, x)].

(** mux.rs:37-63 [try_into_mux_frame]; [None] is an error of the database *)
Section Frame.
  Context (maybe_revert_reason : bytes -> option string) (gas_used : u64) (state : list (address * Account)) (db : Db).

  Section Loop.
    Context {A : Type} (f : A -> res (option GethTrace)).
    Fixpoint frame_loop (l : list (TracerType * A)) (frame : MuxFrame) : res (option MuxFrame) :=
      match l with
      | [] => Ok (Some frame)
      | (t, d) :: l =>
          let! o := f d in
          match o with
          | None => Ok None
          | Some trace => frame_loop l (frame_insert t trace frame)
          end
      end.
  End Loop.

  Fixpoint di_into_trace (d : DelegatingInspector) : res (option GethTrace) :=
    match d with
    | DFourByte i => Ok (Some (GTFourByte (fb_frame i)))
    | DCall c i => let! f := geth_call_traces maybe_revert_reason i.(ti_traces) c gas_used in Ok (Some (GTCall f))
    | DPrestate c i => Ok (option_map GTPreState (geth_prestate_traces state c db))
    | DNoop => Ok (Some GTNoop)
    | DMux l => let! o := frame_loop di_into_trace l [] in Ok (option_map GTMux o)
    end.
  Definition mux_try_into_frame (l : MuxInspector) : res (option MuxFrame) := frame_loop di_into_trace l [].
End Frame.
