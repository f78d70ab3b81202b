(** * SpecJs: what a JavaScript tracer is promised *)

From Verif Require Export Js SpecExec.
Local Open Scope N_scope.

(** ** Numbers and positions *)

(** The position a number asks for: NaN counts as zero, fractions are cut off; negative numbers and infinities ask for
    no position. *)
Inductive position : jsnum -> N -> Prop :=
  | pos_nan : position JNaN 0
  | pos_finite q i : (inject_Z (Z.of_N i) <= q)%Q -> (q < inject_Z (Z.of_N i + 1))%Q -> position (JFinite q) i.

(** [a] is less than [b]: NaN is neither less nor greater than anything. *)
Inductive number_lt : jsnum -> jsnum -> Prop :=
  | lt_finite p q : (p < q)%Q -> number_lt (JFinite p) (JFinite q)
  | lt_from_bottom q : number_lt JNegInf (JFinite q)
  | lt_to_top p : number_lt (JFinite p) JPosInf
  | lt_bottom_top : number_lt JNegInf JPosInf.

(** [0 <= start <= end <= length], for the range of positions [i .. j]. *)
Definition in_range (start end_ : jsnum) (len i j : N) : Prop :=
  exists p q, start = JFinite p /\ end_ = JFinite q /\ (0 <= p)%Q /\ (p <= q)%Q /\ (q <= inject_Z (Z.of_N len))%Q /\
              position start i /\ position end_ j.

(** The bytes from [i] up to [j]. *)
Definition range {A} (l : list A) (i j : N) : list A := take (N.to_nat j - N.to_nat i) (drop (N.to_nat i) l).

(** ** Bytes given by JavaScript *)

(** The byte a number stands for: fractions are cut off, numbers outside [0 .. 255] become the nearest bound, NaN zero. *)
Inductive byte_of_num : jsnum -> byte -> Prop :=
  | bn_position n b : position n (Byte.to_N b) -> byte_of_num n b
  | bn_below q : (q < 0)%Q -> byte_of_num (JFinite q) x00
  | bn_above q : (inject_Z 256 <= q)%Q -> byte_of_num (JFinite q) xff
  | bn_neg_inf : byte_of_num JNegInf x00
  | bn_pos_inf : byte_of_num JPosInf xff.
(** Hex digits in either case. *)
Definition digits_lower : list byte := [x30; x31; x32; x33; x34; x35; x36; x37; x38; x39; x61; x62; x63; x64; x65; x66].
Definition digits_upper : list byte := [x30; x31; x32; x33; x34; x35; x36; x37; x38; x39; x41; x42; x43; x44; x45; x46].
Definition digit_of (c : byte) (n : nat) : Prop := digits_lower !! n = Some c \/ digits_upper !! n = Some c.
(** Two digits per byte, the high one first. *)
Inductive digits_of : list byte -> list byte -> Prop :=
  | dg_nil : digits_of [] []
  | dg_cons c1 c2 h l b s d : digit_of c1 h -> digit_of c2 l -> Byte.to_N b = N.of_nat (16 * h + l) -> digits_of s d ->
      digits_of (c1 :: c2 :: s) (b :: d).
(** A hex text, with or without a leading [0x]. *)
Definition hex_text (s d : list byte) : Prop := digits_of s d \/ exists s', s = x30 :: x78 :: s' /\ digits_of s' d.
(** The bytes a value stands for; other values stand for none. *)
Inductive bytes_of_val : jsval -> list byte -> Prop :=
  | bv_typed l d : Forall2 (fun e b => exists n, e = Some n /\ byte_of_num n b) l d -> bytes_of_val (VTypedArray l) d
  | bv_buffer d : bytes_of_val (VArrayBuffer (Some d)) d
  | bv_array l d : Forall2 (fun e b => exists n, e = Some n /\ byte_of_num n b) l d -> bytes_of_val (VArray l) d
  | bv_string s d : hex_text s d -> bytes_of_val (VString (Some s)) d
  | bv_object s d : hex_text s d -> bytes_of_val (VStringObject (Some s)) d.

(** ** What a tracer sees *)

(** What a step or fault callback can read. *)
Record view := mkView {
  vw_op : u8; vw_pc : nat; vw_gas : u64; vw_cost : u64; vw_depth : nat; vw_refund : u64; vw_error : option string;
  vw_contract : Contract; vw_stack : option (list U256); vw_memory : option bytes;
  vw_stack_len : N; vw_memory_len : N;             (** what the two [length()] methods say *)
  vw_state : option Ctx; vw_db : option Ctx }.     (** what the database object reads from *)
Inductive seen := SEnter (f : JsFrame) | SExit (r : JsFrameResult) | SStep (v : view) | SFault (v : view)
  | SResult (x : JsEvmContext) (state db : option Ctx).

Definition cell_stack (c : option (option guarded)) : option (list U256) :=
  match c with Some (Some (GStack s)) => Some s | _ => None end.
Definition cell_memory (c : option (option guarded)) : option bytes :=
  match c with Some (Some (GMemory m)) => Some m | _ => None end.
Definition cell_state (c : option (option guarded)) : option Ctx :=
  match c with Some (Some (GState c)) => Some c | _ => None end.
Definition cell_db (c : option (option guarded)) : option Ctx :=
  match c with Some (Some (GDb c)) => Some c | _ => None end.
Definition view_of (h : cells guarded) (l : StepLog) (db : DbRef) : view :=
  mkView (sg_op l) (sg_pc l) (sg_gas_remaining l) (sg_cost l) (sg_depth l) (sg_refund l) (sg_error l) (sg_contract l)
    (cell_stack (h !! sg_stack l)) (cell_memory (h !! sg_memory l)) (sg_stack_len l) (sg_memory_len l)
    (cell_state (h !! dr_state db)) (cell_db (h !! dr_db db)).
Definition seen_of (iv : invocation) : seen :=
  match iv_call iv with
  | JEnter f => SEnter f
  | JExit r => SExit r
  | JStep l db => SStep (view_of (iv_cells iv) l db)
  | JFault l db => SFault (view_of (iv_cells iv) l db)
  | JResult x db => SResult x (cell_state (iv_cells iv !! dr_state db)) (cell_db (iv_cells iv !! dr_db db))
  end.
(** Everything a tracer has been shown so far. *)
Definition shown (s : JsInspector) : list seen := map seen_of (js_log s).

Definition is_scope (x : seen) : bool := match x with SEnter _ | SExit _ => true | _ => false end.
Definition is_enter (x : seen) : bool := match x with SEnter _ => true | _ => false end.
Definition is_exit (x : seen) : bool := match x with SExit _ => true | _ => false end.
Definition is_sstep (x : seen) : bool := match x with SStep _ => true | _ => false end.
Definition is_sfault (x : seen) : bool := match x with SFault _ => true | _ => false end.

(** ** Frames *)

(** Who calls whom with what, by call scheme: in a delegated frame (DELEGATECALL, CALLCODE) the caller is the account
    whose storage is used; [to] is always the account whose code runs; the value is the amount transferred. *)
Definition spec_contract (s : fstart) : Contract :=
  match s with
  | SCall _ i =>
      mkContract (match ci_scheme i with CSDelegateCall | CSCallCode => ci_target_address i | _ => ci_caller i end)
        (ci_bytecode_address i) (match ci_value i with Transfer v => v | Apparent _ => 0 end) (ci_input i)
  | SCreate _ i => mkContract (cr_caller i) (cr_created_address i) (cr_value i) (cr_init_code i)
  end.
Definition spec_kind (s : fstart) : CallKind :=
  match s with SCall _ i => kind_of_scheme (ci_scheme i) | SCreate _ i => kind_of_create (cr_scheme i) end.
Definition spec_gas (s : fstart) : u64 := match s with SCall _ i => ci_gas_limit i | SCreate _ i => cr_gas_limit i end.
Definition spec_frame (s : fstart) : JsFrame := mkJsFrame (spec_contract s) (spec_kind s) (spec_gas s).
Definition spec_result (e : fend) : JsFrameResult :=
  mkJsFrameResult (g_limit (ir_gas (fe_result e)) - g_remaining (ir_gas (fe_result e))) (ir_output (fe_result e)) None.
(** Calling enter for a frame, in the state the tracer is in. *)
Definition enter_of (s : JsInspector) (f : fstart) : invocation :=
  mkInv (JEnter (spec_frame f)) (js_cells s) (js_precompiles s).
Definition empty_result : JsFrameResult := mkJsFrameResult 0 [] None.

(** The scopes of an execution: one per frame except the root, one per selfdestruct. *)
Definition hook_scopes (s : fstart) (h : hook) : list seen :=
  match h with HSelfdestruct _ _ _ => [SEnter (spec_frame s); SExit empty_result] | HLog _ _ => [] end.
Fixpoint inner_scopes (f : frame) : list seen :=
  match f with
  | Frame s body e =>
      flat_map (fun it =>
        match it with
        | IOp o => flat_map (hook_scopes s) (op_hooks o)
        | IHook h => hook_scopes s h
        | ISub g => SEnter (spec_frame (f_start g)) :: inner_scopes g ++ [SExit (spec_result (f_end g))]
        end) body
  end.

(** Well nested: every enter is closed by its exit. *)
Inductive nested : list seen -> Prop :=
  | nested_nil : nested []
  | nested_scope f r inside rest : nested inside -> nested rest -> nested (SEnter f :: inside ++ SExit r :: rest).

(** Which scope calls a tracer that defines these callbacks receives. *)
Definition defined (enter exit : bool) (x : seen) : bool :=
  match x with SEnter _ => enter | SExit _ => exit | _ => false end.

(** ** Instructions *)

(** The view of an instruction in the frame started by [s], whose hook is given the interpreter [i] and the context [c]. *)
Definition instr_view (s : fstart) (c : Ctx) (error : option string) (i : Interp) : view :=
  mkView (in_op i) (in_pc i) (g_remaining (in_gas i)) (g_limit (in_gas i) - g_remaining (in_gas i)) (cx_depth c)
    (i64_as_u64 (g_refunded (in_gas i))) error (spec_contract s) (Some (in_stack i)) (Some (in_memory i))
    (N.of_nat (length (in_stack i))) (N.of_nat (length (in_memory i))) (Some c) (Some c).
(** Before and after the instruction [o] at depth [d]. *)
Definition step_view (w : world) (s : fstart) (d : nat) (o : instr) : view :=
  instr_view s (ctx_of w d (op_pre_j o)) None (op_pre o).
Definition fault_view (w : world) (s : fstart) (d : nat) (o : instr) : view :=
  instr_view s (ctx_of w d (op_post_j o)) (Some (ir_debug (in_result (op_post o)))) (op_post o).

(** The instructions of an execution in the order they run, each with its frame and depth. *)
Fixpoint executed (d : nat) (f : frame) : list (fstart * nat * instr) :=
  match f with
  | Frame s body e =>
      flat_map (fun it =>
        match it with IOp o => [(s, S d, o)] | IHook _ => [] | ISub g => executed (S d) g end) body
  end.

(** An instruction fails. *)
Definition failed (r : InstructionResult) : bool :=
  match r with CallOrCreate => false | r => negb (ir_is_ok r) end.
(** The frame ends by reverting (as opposed to an exceptional halt). *)
Definition reverts (r : InstructionResult) : bool :=
  match r with
  | Revert | CallTooDeep | OutOfFunds | CreateInitCodeStartingEF00 | InvalidEOFInitCode | InvalidExtDelegateCallTarget => true
  | _ => false
  end.

(** ** Guards *)

(** The cells that can be read at some moment. *)
Definition live {V} (h : cells V) (i : nat) : Prop := exists v, h !! i = Some (Some v).
(** The handles an invocation is given. *)
Definition handles (c : jscall) : list nat :=
  match c with
  | JStep l db | JFault l db => [sg_stack l; sg_memory l; dr_state db; dr_db db]
  | JResult _ db => [dr_state db; dr_db db]
  | _ => []
  end.

(** ** Database *)

(** The current account and storage: the journaled state where it has the entry, otherwise the database. *)
Definition current_account (st : StateView) (db : DbView) (a : address) : option (option AccountInfo) :=
  match sv_account st a with Some i => Some (Some i) | None => dv_basic db a end.
Definition current_slot (st : StateView) (db : DbView) (a : address) (k : U256) : option U256 :=
  match sv_slot st a k with Some v => Some v | None => dv_storage db a k end.
(** The code of an account: attached to it or found by its hash. *)
Definition current_code (db : DbView) (i : AccountInfo) : option bytes :=
  match ai_code i with Some c => Some c | None => if ai_code_hash i =? KECCAK_EMPTY then Some [] else dv_code db (ai_code_hash i) end.

(** ** Closed scopes *)

(** The ends of the scopes of an execution, in the order they close: [None] for a selfdestruct. *)
Definition hook_ends (h : hook) : list (option fend) :=
  match h with HSelfdestruct _ _ _ => [None] | HLog _ _ => [] end.
Fixpoint scope_ends (f : frame) : list (option fend) :=
  match f with
  | Frame s body e =>
      flat_map (fun it =>
        match it with
        | IOp o => flat_map hook_ends (op_hooks o)
        | IHook h => hook_ends h
        | ISub g => scope_ends g ++ [Some (f_end g)]
        end) body
  end.

(** What the result object of a closed scope must say. *)
Definition result_amounts (x : seen) (e : option fend) : Prop :=
  exists r, x = SExit r /\
  match e with
  | Some e => jr_gas_used r = g_limit (ir_gas (fe_result e)) - g_remaining (ir_gas (fe_result e)) /\
              jr_output r = ir_output (fe_result e)
  | None => jr_gas_used r = 0 /\ jr_output r = []
  end.
(** ... and the error: present exactly if the frame failed. *)
Definition result_error (x : seen) (e : option fend) : Prop :=
  exists r, x = SExit r /\
  (jr_error r = None <-> match e with Some e => ir_is_ok (ir_result (fe_result e)) = true | None => True end).

(** ** Reactions *)

(** What the EVM does if the inspector does not interfere. *)
Definition untouched (e : event) (r : response) : Prop :=
  match e with
  | EStep i _ | EStepEnd i _ => r = RInterp i
  | ELog _ _ | ESelfdestruct _ _ _ => r = RUnit
  | ECall _ i => r = RCall i None
  | ECallEnd _ _ o => r = RCallEnd o
  | ECreate _ i => r = RCreate i None
  | ECreateEnd _ _ o => r = RCreateEnd o
  end.
(** A revert whose output is the error's text and that costs nothing. *)
Definition error_revert (err : bytes) (r : InterpreterResult) : Prop :=
  ir_result r = Revert /\ ir_output r = err /\ g_limit (ir_gas r) = 0 /\ g_remaining (ir_gas r) = 0 /\ g_refunded (ir_gas r) = 0%Z.
(** The frame in which the callback threw [err] reverts. *)
Definition aborted (err : bytes) (e : event) (r : response) : Prop :=
  match e, r with
  | EStep i _, RInterp i' => in_result i' = Revert /\ in_op i' = in_op i /\ in_pc i' = in_pc i /\ in_stack i' = in_stack i /\
      in_memory i' = in_memory i /\ in_gas i' = in_gas i /\ in_contract i' = in_contract i /\ in_returndata i' = in_returndata i
  | ECallEnd _ _ _, RCallEnd o => error_revert err (co_result o)
  | ECreate _ _, RCreate _ (Some o) => error_revert err (cro_result o) /\ cro_address o = None
  | ECreateEnd _ _ o, RCreateEnd o' => error_revert err (cro_result o') /\ cro_address o' = cro_address o
  | _, _ => False
  end.

(** A property of the tracer object is a function. *)
Definition is_function (f : field) : bool := match f with FObject c => c | _ => false end.
