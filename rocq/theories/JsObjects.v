(** * JsObjects: the JavaScript objects handed to a tracer (/repo/src/tracing/js/bindings.rs, [into_js_object])

    An object is the list of its own properties.  Simplifications: boa's prototypes, property attributes and the
    [length] of functions are left out; the global [bigint] is the bundled library, of which only the text it is given
    is kept; a callback's arguments are represented by what the conversions of the native functions make of them. *)

From Verif Require Export Js.
Local Open Scope N_scope.

(** ** Values *)

(** [u64 as f64]: round to nearest, ties to even, 53 bits of precision *)
Definition f64_of (v : N) : N :=
  let e := N.log2 v - 52 in
  let q := v / 2 ^ e in
  let r := v mod 2 ^ e in
  let up := match 2 * r ?= 2 ^ e with Lt => 0 | Eq => if N.odd q then 1 else 0 | Gt => 1 end in
  (q + up) * 2 ^ e.

(** What a native function returns. *)
Inductive jsout :=
  | OUndefined | ONull
  | OBool (b : bool)
  | ONum (n : jsnum)
  | OStr (s : list byte)         (** a string, by its UTF-8 text *)
  | OBytes (l : list byte)       (** a [Uint8Array], by its content *)
  | OBig (text : list byte).     (** [bigint(text)] *)

Definition INT32_MAX : N := 2147483647.
(** boa [JsValue::from(u64)] and [From<usize>]: an integer if it fits into an [i32], else [value as f64] *)
Definition js_u64 (v : N) : jsout :=
  if v <=? INT32_MAX then ONum (JFinite (inject_Z (Z.of_N v))) else ONum (JFinite (inject_Z (Z.of_N (f64_of v)))).
(** boa [JsValue::from(u8)] *)
Definition js_u8 (v : N) : jsout := ONum (JFinite (inject_Z (Z.of_N v))).
(** builtins.rs:199-210 [to_bigint]: the decimal text is given to the global [bigint] *)
Definition to_bigint (v : U256) : jsout := OBig (dec_text v).
(** builtins.rs:135-150 [address_to_byte_array(_value)] *)
Definition address_bytes (a : address) : jsout := OBytes (be_bytes 20 a).
(** builtins.rs:152-166 [to_byte_array(_value)] *)
Definition to_byte_array (l : list byte) : jsout := OBytes l.
(** [B256]'s bytes *)
Definition hash_bytes (h : U256) : jsout := OBytes (be_bytes 32 h).

(** An argument, by what [to_number] makes of it ([None]: it throws) and by what [from_buf_value] looks at. *)
Record jsarg := mkArg { arg_number : option jsnum; arg_buffer : jsval }.
(** [undefined] is the number NaN and no buffer *)
Definition arg_undefined : jsarg := mkArg (Some JNaN) VOther.
(** boa [args.get_or_undefined(i)] *)
Definition get_or_undefined (args : list jsarg) (i : nat) : jsarg := default arg_undefined (args !! i).

(** A property: a value, a method (its result depends on the guarded cells at the time of the call) or an object. *)
Inductive member :=
  | MValue (v : jsout)
  | MMethod (f : cells guarded -> list jsarg -> res (jsres jsout))
  | MObject (props : list (string * member)).
Definition jsobject := list (string * member).

(** [obj.set(name, value, false, ctx)] on an ordinary object: overwrite or append *)
Fixpoint obj_set (o : jsobject) (name : string) (m : member) : jsobject :=
  match o with
  | [] => [(name, m)]
  | (n, x) :: o => if String.eqb n name then (n, m) :: o else (n, x) :: obj_set o name m
  end.
Fixpoint obj_get (o : jsobject) (name : string) : option member :=
  match o with
  | [] => None
  | (n, x) :: o => if String.eqb n name then Some x else obj_get o name
  end.

(** bindings.rs:31-56: the getters ignore their arguments. (A byte array captured by a getter is the same object at every
    call; scripts that write into it are not modelled.) *)
Definition getter (v : jsout) : member := MMethod (fun _ _ => Ok (JReturn v)).

(** The content of a guarded cell, of the kind its handle was made for. *)
Definition stack_in (h : cells guarded) (i : nat) : option (list U256) :=
  match h !! i with Some (Some (GStack s)) => Some s | _ => None end.
Definition memory_in (h : cells guarded) (i : nat) : option bytes :=
  match h !! i with Some (Some (GMemory m)) => Some m | _ => None end.

Definition jres_map {A B} (f : A -> B) (m : res (jsres A)) : res (jsres B) :=
  rmap_js (fun a => JReturn (f a)) m.

Section Objects.
  (** revm's [Display] of an opcode, and what the journaled state and the database of a hook contain *)
  Context (op_text : u8 -> list byte) (state_view : Ctx -> StateView) (db_view : Ctx -> DbView).

  Definition state_in (h : cells guarded) (i : nat) : option StateView :=
    match h !! i with Some (Some (GState c)) => Some (state_view c) | _ => None end.
  Definition db_in (h : cells guarded) (i : nat) : option DbView :=
    match h !! i with Some (Some (GDb c)) => Some (db_view c) | _ => None end.

  (** bindings.rs:371-411 [OpObj] *)
  Definition op_object (op : u8) : jsobject :=
    let is_push := (OP_PUSH0 <=? op) && (op <=? OP_PUSH32) in
    let o := obj_set [] "toNumber" (getter (js_u8 op)) in
    let o := obj_set o "toString" (getter (OStr (op_text op))) in
    obj_set o "isPush" (getter (OBool is_push)).

  (** bindings.rs:250-320 [MemoryRef::into_js_object]; the length is captured when the object is made *)
  Definition memory_object (handle : nat) (len : N) : jsobject :=
    let o := obj_set [] "slice" (MMethod (fun h args =>
               jres_map to_byte_array
                 (mem_slice (memory_in h handle) (arg_number (get_or_undefined args 0)) (arg_number (get_or_undefined args 1))))) in
    let o := obj_set o "getUint" (MMethod (fun h args =>
               jres_map to_byte_array (mem_get_uint (memory_in h handle) (arg_number (get_or_undefined args 0))))) in
    obj_set o "length" (getter (js_u64 len)).

  (** bindings.rs:451-486 [StackRef::into_js_object] *)
  Definition stack_object (handle : nat) (len : N) : jsobject :=
    let o := obj_set [] "length" (getter (js_u64 len)) in
    obj_set o "peek" (MMethod (fun h args =>
      Ok (jbind (stack_peek len (stack_in h handle) (arg_number (get_or_undefined args 0))) (fun v => JReturn (to_bigint v))))).

  (** bindings.rs:508-554 [Contract::into_js_object] *)
  Definition contract_object (c : Contract) : jsobject :=
    let o := obj_set [] "getCaller" (getter (address_bytes c.(jc_caller))) in
    let o := obj_set o "getAddress" (getter (address_bytes c.(jc_contract))) in
    let o := obj_set o "getValue" (getter (to_bigint c.(jc_value))) in
    obj_set o "getInput" (getter (to_byte_array c.(jc_input))).

  Definition error_value (e : option string) : jsout := match e with Some e => OStr (txt e) | None => OUndefined end.

  (** bindings.rs:185-232 [StepLog::into_js_object] *)
  Definition step_log_object (l : StepLog) : jsobject :=
    let o := obj_set [] "op" (MObject (op_object l.(sg_op))) in
    let o := obj_set o "memory" (MObject (memory_object l.(sg_memory) l.(sg_memory_len))) in
    let o := obj_set o "stack" (MObject (stack_object l.(sg_stack) l.(sg_stack_len))) in
    let o := obj_set o "contract" (MObject (contract_object l.(sg_contract))) in
    let o := obj_set o "getPC" (getter (js_u64 (N.of_nat l.(sg_pc)))) in
    let o := obj_set o "getError" (getter (error_value l.(sg_error))) in
    let o := obj_set o "getGas" (getter (js_u64 l.(sg_gas_remaining))) in
    let o := obj_set o "getCost" (getter (js_u64 l.(sg_cost))) in
    let o := obj_set o "getDepth" (getter (js_u64 (N.of_nat l.(sg_depth)))) in
    obj_set o "getRefund" (getter (js_u64 l.(sg_refund))).

  (** bindings.rs:564-590 [FrameResult::into_js_object] *)
  Definition result_object (r : JsFrameResult) : jsobject :=
    let o := obj_set [] "getGasUsed" (getter (js_u64 r.(jr_gas_used))) in
    let o := obj_set o "getOutput" (getter (to_byte_array r.(jr_output))) in
    obj_set o "getError" (getter (error_value r.(jr_error))).

  (** bindings.rs:599-652 [CallFrame::into_js_object] *)
  Definition frame_object (f : JsFrame) : jsobject :=
    let c := f.(jf_contract) in
    let o := obj_set [] "getFrom" (getter (address_bytes c.(jc_caller))) in
    let o := obj_set o "getTo" (getter (address_bytes c.(jc_contract))) in
    let o := obj_set o "getValue" (getter (to_bigint c.(jc_value))) in
    let o := obj_set o "getInput" (getter (to_byte_array c.(jc_input))) in
    let o := obj_set o "getGas" (getter (js_u64 f.(jf_gas))) in
    obj_set o "getType" (getter (OStr (txt (kind_to_str f.(jf_kind))))).

  (** bindings.rs:682-732 [JsEvmContext::into_js_object] *)
  Definition context_object (x : JsEvmContext) : jsobject :=
    let o := obj_set [] "type" (MValue (OStr (txt x.(jx_type)))) in
    let o := obj_set o "from" (MValue (address_bytes x.(jx_from))) in
    let o := obj_set o "to" (MValue (match x.(jx_to) with Some t => address_bytes t | None => ONull end)) in
    let o := obj_set o "input" (MValue (to_byte_array x.(jx_input))) in
    let o := obj_set o "gas" (MValue (js_u64 x.(jx_gas))) in
    let o := obj_set o "gasUsed" (MValue (js_u64 x.(jx_gas_used))) in
    let o := obj_set o "gasPrice" (MValue (js_u64 x.(jx_gas_price))) in
    let o := obj_set o "intrinsicGas" (MValue (js_u64 x.(jx_intrinsic_gas))) in
    let o := obj_set o "value" (MValue (to_bigint x.(jx_value))) in
    let o := obj_set o "block" (MValue (js_u64 x.(jx_block))) in
    let o := obj_set o "output" (MValue (to_byte_array x.(jx_output))) in
    let o := obj_set o "time" (MValue (OStr x.(jx_time))) in
    let o := match tc_block_hash x.(jx_tx) with Some h => obj_set o "blockHash" (MValue (hash_bytes h)) | None => o end in
    let o := match tc_tx_index x.(jx_tx) with Some i => obj_set o "txIndex" (MValue (js_u64 i)) | None => o end in
    match tc_tx_hash x.(jx_tx) with Some h => obj_set o "txHash" (MValue (hash_bytes h)) | None => o end.

  (** bindings.rs:832-912 [EvmDbRef::into_js_object] *)
  Definition db_object (d : DbRef) : jsobject :=
    let method {A} (out : A -> jsout) (f : option StateView -> option DbView -> jsval -> res (jsres A)) : member :=
      MMethod (fun h args => jres_map out (f (state_in h d.(dr_state)) (db_in h d.(dr_db)) (arg_buffer (get_or_undefined args 0)))) in
    let o := obj_set [] "getBalance" (method to_bigint db_get_balance) in
    let o := obj_set o "getNonce" (method js_u64 db_get_nonce) in
    let o := obj_set o "getCode" (method to_byte_array db_get_code) in
    let o := obj_set o "getState" (MMethod (fun h args =>
               jres_map to_byte_array
                 (db_get_state (state_in h d.(dr_state)) (db_in h d.(dr_db)) (arg_buffer (get_or_undefined args 0))
                    (arg_buffer (get_or_undefined args 1))))) in
    obj_set o "exists" (method OBool db_exists).

  (** The arguments of a call into the tracer object: mod.rs:275-315 *)
  Definition call_objects (c : jscall) : list jsobject :=
    match c with
    | JEnter f => [frame_object f]
    | JExit r => [result_object r]
    | JStep l d | JFault l d => [step_log_object l; db_object d]
    | JResult x d => [context_object x; db_object d]
    end.
End Objects.

(** A JavaScript expression [o.a.b(args)]: property accesses ending in a call.  [None]: there is no such property or it
    is not a function (a [TypeError]). *)
Fixpoint js_call (o : jsobject) (path : list string) (h : cells guarded) (args : list jsarg) : option (res (jsres jsout)) :=
  match path with
  | [] => None
  | name :: path =>
      match obj_get o name, path with
      | Some (MMethod f), [] => Some (f h args)
      | Some (MObject p), _ => js_call p path h args
      | _, _ => None
      end
  end.
(** A JavaScript expression [o.a]. *)
Definition js_prop (o : jsobject) (name : string) : option jsout :=
  match obj_get o name with Some (MValue v) => Some v | _ => None end.
(** [Object.keys(o)] *)
Definition keys (o : jsobject) : list string := map fst o.
