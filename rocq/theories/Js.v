(** * Js: /repo/src/tracing/js/mod.rs

    The JavaScript program is an oracle: what a callback does with an invocation is a function of everything it was
    ever given.  Only whether the callback throws (and the error's text) matters to the inspector. *)

From Verif Require Export JsNative Types.
Local Open Scope N_scope.

(** ** Objects handed to the callbacks *)

(** bindings.rs:495-502 *)
Record Contract := mkContract { jc_caller : address; jc_contract : address; jc_value : U256; jc_input : bytes }.
(** mod.rs:613-619 *)
Record CallStackItem := mkCSI { cs_contract : Contract; cs_kind : CallKind; cs_gas_limit : u64 }.
(** bindings.rs:592-597 [CallFrame] *)
Record JsFrame := mkJsFrame { jf_contract : Contract; jf_kind : CallKind; jf_gas : u64 }.
(** bindings.rs:557-562 [FrameResult] *)
Record JsFrameResult := mkJsFrameResult { jr_gas_used : u64; jr_output : bytes; jr_error : option string }.
(** bindings.rs:156-179 [StepLog]; the stack and the memory are handles (and the lengths captured when the objects are
    made, bindings.rs:252 and 453) *)
Record StepLog := mkStepLog {
  sg_stack : nat; sg_stack_len : N; sg_op : u8; sg_memory : nat; sg_memory_len : N; sg_pc : nat;
  sg_gas_remaining : u64; sg_cost : u64; sg_depth : nat; sg_refund : u64; sg_error : option string;
  sg_contract : Contract }.
(** bindings.rs:734-738 [EvmDbRef]: two handles *)
Record DbRef := mkDbRef { dr_state : nat; dr_db : nat }.

(** revm [ExecutionResult] (what is read from it) and [Output] *)
Inductive Output := OutCall (o : bytes) | OutCreate (o : bytes) (a : option address).
Inductive ExecutionResult :=
  | ESuccess (gas_used : u64) (o : Output) | ERevert (gas_used : u64) (o : bytes) | EHalt (gas_used : u64).
Definition er_gas_used (r : ExecutionResult) : u64 := match r with ESuccess g _ | ERevert g _ | EHalt g => g end.
(** revm [TxEnv] and [BlockEnv] (what is read from them); [None] as target is a create *)
Record JsEnv := mkJsEnv {
  je_caller : address; je_to : option address; je_data : bytes; je_gas_limit : u64; je_gas_price : U256;
  je_value : U256; je_number : U256; je_timestamp : U256 }.
(** mod.rs:575-591 *)
Record TransactionContext := mkTxContext { tc_block_hash : option U256; tc_tx_index : option N; tc_tx_hash : option U256 }.
(** bindings.rs:655-680 [JsEvmContext] *)
Record JsEvmContext := mkJsCtx {
  jx_type : string; jx_from : address; jx_to : option address; jx_input : bytes; jx_gas : u64; jx_gas_used : u64;
  jx_gas_price : u64; jx_intrinsic_gas : u64; jx_value : U256; jx_block : u64; jx_output : bytes;
  jx_time : list byte; jx_tx : TransactionContext }.

(** A call into the tracer object. *)
Inductive jscall :=
  | JEnter (f : JsFrame)
  | JExit (r : JsFrameResult)
  | JStep (l : StepLog) (db : DbRef)
  | JFault (l : StepLog) (db : DbRef)
  | JResult (x : JsEvmContext) (db : DbRef).

(** What a guarded cell holds.  The journaled state and the database of a hook are represented by the hook's context. *)
Inductive guarded := GState (c : Ctx) | GDb (c : Ctx) | GStack (s : list U256) | GMemory (m : bytes).

(** One invocation: the call, the cells reachable at that moment, and the global [isPrecompiled]. *)
Record invocation := mkInv { iv_call : jscall; iv_cells : cells guarded; iv_precompiles : option (address -> bool) }.

(** The JavaScript program: [None] = the callback returns, [Some err] = it throws. *)
Definition program := list invocation -> invocation -> option bytes.

(** mod.rs:38-74.  The callables are present or not; [js_log] is the history of invocations, which stands for the state
    of the JavaScript context. *)
Record JsInspector := mkJs {
  js_enter : bool; js_exit : bool; js_step : bool; js_fault : bool;
  js_stack : list CallStackItem;                  (** last = active *)
  js_precompiles_registered : bool;
  js_precompiles : option (address -> bool);      (** the global [isPrecompiled], once registered *)
  js_cells : cells guarded;
  js_log : list invocation }.

(** ** Construction *)

(** A property of the tracer object: absent or not an object, an object (callable or not), or a getter that throws. *)
Inductive field := FNone | FObject (callable : bool) | FThrows.
(** What the code evaluates to. *)
Record TracerObject := mkTO {
  to_result : field; to_fault : field; to_enter : field; to_exit : field; to_step : field; to_setup : field;
  to_setup_throws : bool }.
Inductive evaluated := EvalError | EvalPrimitive | EvalObject (o : TracerObject).
(** mod.rs:621-655 *)
Inductive JsInspectorError :=
  | JsError | EvalCode | ExpectedJsObject | ResultFunctionMissing | FaultFunctionMissing | SetupFunctionNotCallable
  | SetupCallFailed | InvalidJsonConfig.

Definition js_new_state (enter exit step fault : bool) : JsInspector := mkJs enter exit step fault [] false None [] [].

(** [obj.get(..)?.as_object()] *)
Definition get_object {A} (f : field) (k : option bool -> JsInspectorError + A) : JsInspectorError + A :=
  match f with FThrows => inl JsError | FNone => k None | FObject c => k (Some c) end.
(** [.filter(|o| o.is_callable())] and [.is_some()] *)
Definition callable (o : option bool) : bool := match o with Some c => c | None => false end.

(** mod.rs:96-180 [with_transaction_context]; [config_ok]: [JsValue::from_json] succeeds *)
Definition js_new (code : evaluated) (config_ok : bool) : JsInspectorError + JsInspector :=
  match code with
  | EvalError => inl EvalCode
  | EvalPrimitive => inl ExpectedJsObject
  | EvalObject o =>
      get_object (to_result o) (fun result_fn =>
        match result_fn with
        | None => inl ResultFunctionMissing
        | Some result_callable =>
            if negb result_callable then inl ResultFunctionMissing
            else
              get_object (to_fault o) (fun fault_fn =>
                match fault_fn with
                | None => inl FaultFunctionMissing
                | Some fault_callable =>
                    (* mod.rs:138: the callability of [result_fn] is tested again *)
                    if negb result_callable then inl FaultFunctionMissing
                    else
                      get_object (to_enter o) (fun enter =>
                      get_object (to_exit o) (fun exit =>
                      get_object (to_step o) (fun step =>
                        if negb config_ok then inl InvalidJsonConfig
                        else
                          get_object (to_setup o) (fun setup =>
                            match setup with
                            | Some false => inl SetupFunctionNotCallable
                            | Some true =>
                                if to_setup_throws o then inl SetupCallFailed
                                else inr (js_new_state (callable enter) (callable exit) (callable step) fault_callable)
                            | None => inr (js_new_state (callable enter) (callable exit) (callable step) fault_callable)
                            end))))
                end)
        end)
  end.

(** ** The result context *)

(** [U256::try_into().unwrap_or(u64::MAX)] *)
Definition u64_or_max (v : U256) : u64 := if v <? two64 then v else two64 - 1.

(** mod.rs:222-283 [result]: the context object *)
Definition js_result_ctx (r : ExecutionResult) (env : JsEnv) (tc : TransactionContext) : JsEvmContext :=
  let '(to, output) :=
    match r with
    | ESuccess _ (OutCall o) => (None, Some o)
    | ESuccess _ (OutCreate o a) => (a, Some o)
    | ERevert _ o => (None, Some o)
    | EHalt _ => (None, None)
    end in
  let '(to, ty) := match env.(je_to) with Some t => (Some t, "CALL"%string) | None => (to, "CREATE"%string) end in
  mkJsCtx ty env.(je_caller) to env.(je_data) env.(je_gas_limit) (er_gas_used r) (u64_or_max env.(je_gas_price)) 0
    env.(je_value) (u64_or_max env.(je_number)) (default [] output) (dec_text env.(je_timestamp)) tc.

(** ** Calling the callbacks *)

Section Inspector.
  Context (js : program).

  (** [fn.call(obj, args, ctx)]: recorded, and the program's reaction *)
  Definition invoke (s : JsInspector) (c : jscall) : JsInspector * option bytes :=
    let iv := mkInv c s.(js_cells) s.(js_precompiles) in
    (mkJs s.(js_enter) s.(js_exit) s.(js_step) s.(js_fault) s.(js_stack) s.(js_precompiles_registered) s.(js_precompiles)
       s.(js_cells) (s.(js_log) ++ [iv]),
     js s.(js_log) iv).

  Definition set_cells (s : JsInspector) (h : cells guarded) : JsInspector :=
    mkJs s.(js_enter) s.(js_exit) s.(js_step) s.(js_fault) s.(js_stack) s.(js_precompiles_registered) s.(js_precompiles) h s.(js_log).
  Definition set_stack (s : JsInspector) (st : list CallStackItem) : JsInspector :=
    mkJs s.(js_enter) s.(js_exit) s.(js_step) s.(js_fault) st s.(js_precompiles_registered) s.(js_precompiles) s.(js_cells) s.(js_log).

  (** mod.rs:301-307 [try_enter] *)
  Definition try_enter (s : JsInspector) (f : JsFrame) : JsInspector * option bytes :=
    if s.(js_enter) then invoke s (JEnter f) else (s, None).
  (** mod.rs:309-315 [try_exit] *)
  Definition try_exit (s : JsInspector) (r : JsFrameResult) : JsInspector * option bytes :=
    if s.(js_exit) then invoke s (JExit r) else (s, None).
  (** mod.rs:292-299 [try_step] *)
  Definition try_step (s : JsInspector) (l : StepLog) (db : DbRef) : JsInspector * option bytes :=
    if s.(js_step) then invoke s (JStep l db) else (s, None).
  (** mod.rs:285-290 [try_fault].  Calling a [fault] object that is not callable throws (the caller ignores the error). *)
  Definition try_fault (s : JsInspector) (l : StepLog) (db : DbRef) : JsInspector * option bytes :=
    if s.(js_fault) then invoke s (JFault l db) else (s, Some []).

  (** mod.rs:317-323 [active_call] *)
  Definition active_call (s : JsInspector) : res CallStackItem := expect (last s.(js_stack)).
  (** mod.rs:325-328 [pop_call] *)
  Definition pop_call (s : JsInspector) : JsInspector := set_stack s (removelast s.(js_stack)).
  (** mod.rs:330-334 [is_root_call_active] *)
  Definition is_root_call_active (s : JsInspector) : bool := (length s.(js_stack) =? 1)%nat.
  (** mod.rs:336-340 [can_call_enter] *)
  Definition can_call_enter (s : JsInspector) : bool := s.(js_enter) && negb (is_root_call_active s).
  (** mod.rs:342-346 [can_call_exit]: as in the source, it looks at the enter function *)
  Definition can_call_exit (s : JsInspector) : bool := s.(js_enter) && negb (is_root_call_active s).
  (** mod.rs:348-365 [push_call] *)
  Definition push_call (s : JsInspector) (i : CallStackItem) : JsInspector := set_stack s (s.(js_stack) ++ [i]).
  (** mod.rs:367-377 [register_precompiles] *)
  Definition register_precompiles (s : JsInspector) (p : address -> bool) : JsInspector :=
    if negb s.(js_precompiles_registered) then s
    else mkJs s.(js_enter) s.(js_exit) s.(js_step) s.(js_fault) s.(js_stack) true (Some p) s.(js_cells) s.(js_log).

  (** mod.rs:657-665 [js_error_to_revert] *)
  Definition js_error_to_revert (err : bytes) : InterpreterResult := mkIR Revert err (mkGas 0 0 0%Z).

  (** mod.rs:390-405 and 418-433: the guarded objects of a step, with its log object *)
  Definition step_objects (s : JsInspector) (i : Interp) (c : Ctx) (error : option string) (contract : Contract) :
      JsInspector * StepLog * DbRef * list nat :=
    let '(h1, st) := gc_new s.(js_cells) (GState c) in
    let '(h2, db) := gc_new h1 (GDb c) in
    let '(h3, sk) := gc_new h2 (GStack i.(in_stack)) in
    let '(h4, me) := gc_new h3 (GMemory i.(in_memory)) in
    (set_cells s h4,
     mkStepLog sk (N.of_nat (length i.(in_stack))) i.(in_op) me (N.of_nat (length i.(in_memory))) i.(in_pc)
       i.(in_gas).(g_remaining) (g_spent i.(in_gas)) c.(cx_depth) (i64_as_u64 i.(in_gas).(g_refunded)) error contract,
     mkDbRef st db,
     [me; sk; st; db]).
  (** The guards go out of scope: memory, stack, then the database guard with its two fields. *)
  Definition drop_guards (s : JsInspector) (gs : list nat) : JsInspector :=
    set_cells s (fold_left gc_drop gs s.(js_cells)).

  (** revm [return_revert!] *)
  Definition return_revert (r : InstructionResult) : bool :=
    match r with
    | Revert | CallTooDeep | OutOfFunds | InvalidEOFInitCode | CreateInitCodeStartingEF00 | InvalidExtDelegateCallTarget => true
    | _ => false
    end.

  Definition with_result (i : Interp) (r : InstructionResult) : Interp :=
    mkInterp i.(in_op) i.(in_pc) i.(in_contract) i.(in_stack) i.(in_memory) i.(in_returndata) i.(in_gas) r.

  (** mod.rs:385-410 [step] *)
  Definition js_on_step (s : JsInspector) (i : Interp) (c : Ctx) : res (JsInspector * response) :=
    if negb s.(js_step) then Ok (s, RInterp i)
    else
      let! call := active_call s in
      let '(s1, l, db, gs) := step_objects s i c None call.(cs_contract) in
      let '(s2, err) := try_step s1 l db in
      let s3 := drop_guards s2 gs in
      match err with
      | Some _ => Ok (s3, RInterp (with_result i Revert))
      | None => Ok (s3, RInterp i)
      end.

  (** mod.rs:412-437 [step_end] *)
  Definition js_on_step_end (s : JsInspector) (i : Interp) (c : Ctx) : res (JsInspector * response) :=
    if negb s.(js_step) then Ok (s, RInterp i)
    else if return_revert i.(in_result) then
      let! call := active_call s in
      let '(s1, l, db, gs) := step_objects s i c (Some (ir_debug i.(in_result))) call.(cs_contract) in
      let '(s2, _) := try_fault s1 l db in
      Ok (drop_guards s2 gs, RInterp i)
    else Ok (s, RInterp i).

  (** mod.rs:441-480 [call] *)
  Definition js_on_call (s : JsInspector) (c : Ctx) (i : CallInputs) : res (JsInspector * response) :=
    let s := register_precompiles s c.(cx_precompiles) in
    let '(from, to) :=
      match i.(ci_scheme) with
      | CSDelegateCall | CSCallCode => (i.(ci_target_address), i.(ci_bytecode_address))
      | _ => (i.(ci_caller), i.(ci_bytecode_address))
      end in
    let value := default 0 (ci_transfer_value i) in
    let s := push_call s (mkCSI (mkContract from to value i.(ci_input)) (kind_of_scheme i.(ci_scheme)) i.(ci_gas_limit)) in
    if can_call_enter s then
      let! call := active_call s in
      let '(s1, err) := try_enter s (mkJsFrame call.(cs_contract) call.(cs_kind) i.(ci_gas_limit)) in
      match err with
      | Some _ => Panic PTodo
      | None => Ok (s1, RCall i None)
      end
    else Ok (s, RCall i None).

  (** mod.rs:488-499 and 541-552: the result object, the exit call and the popped frame *)
  Definition js_end (s : JsInspector) (r : InterpreterResult) : JsInspector * InterpreterResult :=
    let '(s1, r1) :=
      if can_call_exit s then
        let '(s1, err) := try_exit s (mkJsFrameResult (g_spent r.(ir_gas)) r.(ir_output) None) in
        match err with Some e => (s1, js_error_to_revert e) | None => (s1, r) end
      else (s, r) in
    (pop_call s1, r1).

  (** mod.rs:482-502 [call_end] *)
  Definition js_on_call_end (s : JsInspector) (o : CallOutcome) : res (JsInspector * response) :=
    let '(s1, r) := js_end s o.(co_result) in Ok (s1, RCallEnd (mkCallOutcome r)).

  (** mod.rs:504-533 [create]; the created address is the event's oracle value *)
  Definition js_on_create (s : JsInspector) (c : Ctx) (i : CreateInputs) : res (JsInspector * response) :=
    let s := register_precompiles s c.(cx_precompiles) in
    let s := push_call s (mkCSI (mkContract i.(cr_caller) i.(cr_created_address) i.(cr_value) i.(cr_init_code))
                            (kind_of_create i.(cr_scheme)) i.(cr_gas_limit)) in
    if can_call_enter s then
      let! call := active_call s in
      let '(s1, err) := try_enter s (mkJsFrame call.(cs_contract) call.(cs_kind) call.(cs_gas_limit)) in
      match err with
      | Some e => Ok (s1, RCreate i (Some (mkCreateOutcome (js_error_to_revert e) None)))
      | None => Ok (s1, RCreate i None)
      end
    else Ok (s, RCreate i None).

  (** mod.rs:535-555 [create_end] *)
  Definition js_on_create_end (s : JsInspector) (o : CreateOutcome) : res (JsInspector * response) :=
    let '(s1, r) := js_end s o.(cro_result) in Ok (s1, RCreateEnd (mkCreateOutcome r o.(cro_address))).

  (** mod.rs:557-572 [selfdestruct] *)
  Definition js_on_selfdestruct (s : JsInspector) : res (JsInspector * response) :=
    let! s1 :=
      if s.(js_enter) then
        let! call := active_call s in
        Ok (fst (try_enter s (mkJsFrame call.(cs_contract) call.(cs_kind) call.(cs_gas_limit))))
      else Ok s in
    if s1.(js_exit) then Ok (fst (try_exit s1 (mkJsFrameResult 0 [] None)), RUnit) else Ok (s1, RUnit).

  (** mod.rs:380-573 [impl Inspector for JsInspector] *)
  Definition js_handle : inspector JsInspector := fun s e =>
    match e with
    | EStep i c => js_on_step s i c
    | EStepEnd i c => js_on_step_end s i c
    | ELog _ _ => Ok (s, RUnit)
    | ECall c i => js_on_call s c i
    | ECallEnd _ _ o => js_on_call_end s o
    | ECreate c i => js_on_create s c i
    | ECreateEnd _ _ o => js_on_create_end s o
    | ESelfdestruct _ _ _ => js_on_selfdestruct s
    end.

  (** mod.rs:222-283 [result]: the state and the database it is given are represented by a context.  The result
      function is callable, or there would be no inspector.  What it returns is not looked at here (see JsResult.v);
      [Some err]: it throws.  The guards of the database object go out of scope when [result] returns. *)
  Definition js_result (s : JsInspector) (r : ExecutionResult) (left : Ctx) (env : JsEnv) (tc : TransactionContext) :
      JsInspector * option bytes :=
    let '(h1, st) := gc_new s.(js_cells) (GState left) in
    let '(h2, db) := gc_new h1 (GDb left) in
    let '(s1, err) := invoke (set_cells s h2) (JResult (js_result_ctx r env tc) (mkDbRef st db)) in
    (drop_guards s1 [st; db], err).
End Inspector.
