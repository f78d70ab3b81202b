(** * SpecGeth: what geth-style traces should be, stated on node lists, executions and the returned values *)

From Verif Require Export SpecRecord SpecTraces Geth.

(** ** Call frames *)

(** The nodes called by node [i], in the order of their indices. *)
Definition called_by (ns : list CallTraceNode) (i : nat) : list nat :=
  List.filter (fun j => match ns !! j with
                        | Some n => bool_decide (nd_parent n = Some i)
                        | None => false
                        end) (seq 0 (length ns)).

(** A synthetic frame has no calls of its own. *)
Definition synthetic (i : FrameInfo) : CallFrame := mkCF i [].

(** [c] is the frame of node [i]: its calls are the frames of the nodes called by [i], in order, followed by synthetic
    SELFDESTRUCT frames; [P i info extra] holds of every node, the fields of its frame and the synthetic frames in it. *)
Inductive call_tree (ns : list CallTraceNode) (P : nat -> FrameInfo -> list FrameInfo -> Prop) : nat -> CallFrame -> Prop :=
  | call_tree_node i info calls extra :
      P i info extra -> Forall2 (call_tree ns P) (called_by ns i) calls ->
      Forall (fun x => fi_typ x = "SELFDESTRUCT") extra ->
      call_tree ns P i (mkCF info (calls ++ map synthetic extra)).

(** The name of a call kind. *)
Definition spec_call_name (k : CallKind) : string :=
  match k with
  | KCall => "CALL" | KStaticCall => "STATICCALL" | KCallCode => "CALLCODE" | KDelegateCall => "DELEGATECALL"
  | KAuthCall => "AUTHCALL" | KCreate => "CREATE" | KCreate2 => "CREATE2"
  end.

(** The fields of the frame of node [n], except its logs and gas used. *)
Record frame_fields (revert_reason : bytes -> option string) (n : CallTraceNode) (i : FrameInfo) : Prop := {
  ff_typ : fi_typ i = spec_call_name (tr_kind (nd_trace n));
  ff_from : fi_from i = tr_caller (nd_trace n);
  ff_to : fi_to i = Some (tr_address (nd_trace n));
  ff_value : tr_kind (nd_trace n) <> KStaticCall -> fi_value i = Some (tr_value (nd_trace n));
  ff_static_value : tr_kind (nd_trace n) = KStaticCall -> fi_value i = None;
  ff_gas : fi_gas i = tr_gas_limit (nd_trace n);
  ff_input : fi_input i = tr_data (nd_trace n);
  ff_output : (tr_output (nd_trace n) = [] /\ fi_output i = None) \/
              (tr_output (nd_trace n) <> [] /\ fi_output i = Some (tr_output (nd_trace n)));
  ff_success : tr_success (nd_trace n) = true -> fi_error i = None /\ fi_revert_reason i = None;
  ff_failure : tr_success (nd_trace n) = false -> fi_revert_reason i = revert_reason (tr_output (nd_trace n)) /\
    (spec_success (tr_status (nd_trace n)) = false -> fi_error i = Some (spec_parity_error (tr_status (nd_trace n)))) /\
    (spec_success (tr_status (nd_trace n)) = true -> fi_error i = None) }.

(** The synthetic frame reporting that the frame of [n] selfdestructed. *)
Record selfdestruct_frame (n : CallTraceNode) (i : FrameInfo) : Prop := {
  sf_selfdestructed : selfdestructed n;
  sf_typ : fi_typ i = "SELFDESTRUCT";
  sf_from : fi_from i = tr_caller (nd_trace n);
  sf_to : fi_to i = tr_selfdestruct_refund_target (nd_trace n);
  sf_value : fi_value i = tr_selfdestruct_transferred_value (nd_trace n);
  sf_rest : fi_gas i = 0%N /\ fi_gas_used i = 0%N /\ fi_input i = [] /\ fi_output i = None /\ fi_error i = None /\
            fi_revert_reason i = None /\ fi_logs i = [] }.

(** Node [j] is node [i] or one of its callers, direct or indirect. *)
Inductive encloses (ns : list CallTraceNode) : nat -> nat -> Prop :=
  | encloses_self i : encloses ns i i
  | encloses_parent j i n p : ns !! i = Some n -> nd_parent n = Some p -> encloses ns j p -> encloses ns j i.

(** Node [i] and all its callers succeeded. *)
Definition chain_succeeded (ns : list CallTraceNode) (i : nat) : Prop :=
  forall j n, encloses ns j i -> ns !! j = Some n -> spec_success (tr_status (nd_trace n)) = true.

(** All frames of a result that report calls, in the order they are listed, callers first. *)
Fixpoint call_infos (c : CallFrame) : list FrameInfo :=
  match c with
  | mkCF i calls =>
      (if bool_decide (fi_typ i = "SELFDESTRUCT") then [] else [i])
        ++ (fix go (l : list CallFrame) : list FrameInfo :=
              match l with [] => [] | x :: l => call_infos x ++ go l end) calls
  end.

(** ** EVM facts about addresses *)

(** The account in whose name a frame runs. *)
Definition executing_account (s : fstart) : address :=
  match s with SCall _ i => ci_target_address i | SCreate _ i => cr_created_address i end.

(** Logs and selfdestructs name the executing account, and a create returns the address it announced. *)
Definition evm_addresses (f : frame) : Prop :=
  every_frame (fun g =>
    Forall (fun l => lg_address l = executing_account (f_start g)) (logs_of (hooks (f_body g))) /\
    Forall (fun x => fst (fst x) = executing_account (f_start g)) (selfdestructs_of (hooks (f_body g))) /\
    (forall a, is_call (f_start g) = false -> fe_address (f_end g) = Some a -> a = executing_account (f_start g))) f.

(** ** Struct logs *)

(** The steps of a frame, each with its node; after each call-like step the steps of the next sub-call, if any. *)
Fixpoint weave (n : CallTraceNode) (steps : list CallTraceStep) (subs : list (list (CallTraceNode * CallTraceStep)))
    : list (CallTraceNode * CallTraceStep) :=
  match steps with
  | [] => []
  | s :: steps =>
      if existsb (N.eqb (st_op s)) [0xf0; 0xf1; 0xf2; 0xf4; 0xf5; 0xfa]%N
      then match subs with
           | [] => (n, s) :: weave n steps []
           | l :: subs => (n, s) :: l ++ weave n steps subs
           end
      else (n, s) :: weave n steps subs
  end.

(** Number of steps of a frame that are calls or creates. *)
Definition calls_in (n : CallTraceNode) : nat :=
  length (List.filter (fun s => existsb (N.eqb (st_op s)) [0xf0; 0xf1; 0xf2; 0xf4; 0xf5; 0xfa]%N) (tr_steps (nd_trace n))).

(** [l] lists the steps of node [i] and of its sub-calls, each sub-call right after the step that made it. *)
Inductive steps_in_order (ns : list CallTraceNode) : nat -> list (CallTraceNode * CallTraceStep) -> Prop :=
  | sio_node i n subs :
      ns !! i = Some n -> Forall2 (steps_in_order ns) (take (calls_in n) (nd_children n)) subs ->
      steps_in_order ns i (weave n (tr_steps (nd_trace n)) subs).

(** The instructions of an execution in the order they were executed, with the journal depth they ran at and the
    frame that executed them. *)
Fixpoint executed (d : nat) (f : frame) : list (nat * frame * instr) :=
  match f with
  | Frame s body e =>
      (fix go (l : list item) : list (nat * frame * instr) :=
         match l with
         | [] => []
         | IOp o :: r => (S d, f, o) :: go r
         | IHook _ :: r => go r
         | ISub g :: r => executed (S d) g ++ go r
         end) body
  end.

Definition instr_is_call (o : instr) : bool := existsb (N.eqb (in_op (op_pre o))) [0xf0; 0xf1; 0xf2; 0xf4; 0xf5; 0xfa]%N.

(** EVM fact: a call or create instruction enters its sub-frame right away; one that enters none fails and is the last
    instruction of its frame; no other instruction enters frames. *)
Fixpoint calls_made (body : list item) : Prop :=
  match body with
  | [] => True
  | IOp o :: (ISub _ :: r) => instr_is_call o = true /\ calls_made r
  | IOp o :: r => (instr_is_call o = true -> instrs r = [] /\ subs r = []) /\ calls_made r
  | IHook _ :: r => calls_made r
  | ISub _ :: _ => False
  end.
Definition evm_calls (f : frame) : Prop := every_frame (fun g => calls_made (f_body g)) f.

(** Latest value written to slot [k] of contract [a] by the given steps. *)
Definition latest (l : list CallTraceStep) (a : address) (k : U256) : option U256 :=
  last (omap (fun s => match st_storage_change s with
                       | Some ch => if (st_contract s =? a)%N && (sc_key ch =? k)%N then Some (sc_value ch) else None
                       | None => None
                       end) l).

(** An instruction result that reverts or fails. *)
Definition failing (r : InstructionResult) : bool :=
  match r with
  | Continue | Stop | Return | SelfDestruct | ReturnContract | CallOrCreate => false
  | _ => true
  end.

(** The struct log [l] describes instruction [o] of frame [g], executed at journal depth [d] and traced with
    configuration [cfg]. *)
Record log_describes (cfg : TracingInspectorConfig) (opts : GethDefaultTracingOptions) (d : nat) (g : frame) (o : instr)
    (l : StructLog) : Prop := {
  ld_pc : sl_pc l = in_pc (op_pre o);
  ld_op : sl_op l = in_op (op_pre o);
  ld_depth : sl_depth l = d;
  ld_gas : sl_gas l = g_remaining (in_gas (op_pre o));
  ld_cost : Z.of_N (sl_gas_cost l) =
    Z.max 0 (Z.of_N (g_remaining (in_gas (op_pre o))) - Z.of_N (g_remaining (in_gas (op_post o))));
  ld_refund : (0 <= g_refunded (in_gas (op_pre o)) < 18446744073709551616)%Z ->
    sl_refund_counter l = if (g_refunded (in_gas (op_pre o)) =? 0)%Z then None else Some (Z.to_N (g_refunded (in_gas (op_pre o))));
  ld_stack : sl_stack l = if is_stack_enabled opts
    then match record_stack_snapshots cfg with SnapFull => Some (in_stack (op_pre o)) | _ => None end else None;
  ld_return_data : sl_return_data l = if is_return_data_enabled opts then Some (ir_output (fe_result (f_end g))) else None }.

(** [e] reports the selfdestruct of the given node, if it did selfdestruct. *)
Definition reports (o : option CallTraceNode) (e : list FrameInfo) : Prop :=
  (exists n y, o = Some n /\ e = [y] /\ selfdestruct_frame n y) \/ (e = [] /\ forall n, o = Some n -> ~ selfdestructed n).

(** The frame reports a zero-value call to a precompile. *)
Definition zero_precompile_call (w : world) (x : FrameInfo) : Prop :=
  fi_typ x <> "CREATE" /\ fi_typ x <> "CREATE2" /\ (exists a, fi_to x = Some a /\ w_precompiles w a = true) /\
  (fi_value x = None \/ fi_value x = Some 0%N).
