(** * SpecJsObjects: what the objects given to a JavaScript tracer must answer *)

From Verif Require Export JsObjects SpecJs SpecSimple.
Local Open Scope N_scope.

(** ** Numbers *)

(** The natural numbers a double can hold: 53 bits times a power of two (the exponent's range is far above 2^64). *)
Definition double (m : N) : Prop := exists a b, m = a * 2 ^ b /\ a < 2 ^ 53.
Definition distance (a b : N) : N := (a - b) + (b - a).
Definition nearest (v m : N) : Prop := double m /\ forall m', double m' -> distance v m <= distance v m'.

(** The JavaScript number [v], and the number that is nearest to [v]. *)
Definition exactly (v : N) (o : jsout) : Prop := o = ONum (JFinite (inject_Z (Z.of_N v))).
Definition about (v : N) (o : jsout) : Prop := exists m, exactly m o /\ nearest v m.

(** The value of a decimal numeral, digit by digit from the left. *)
Fixpoint numeral (acc : N) (l : list byte) : option N :=
  match l with
  | [] => Some acc
  | c :: l => let d := Byte.to_N c in if (48 <=? d) && (d <=? 57) then numeral (10 * acc + (d - 48)) l else None
  end.
(** [bigint(text)] for a text that is a numeral for [v]. *)
Definition big (v : N) (o : jsout) : Prop := exists t, o = OBig t /\ t <> [] /\ numeral 0 t = Some v.
(** A byte array with this content; the [n] bytes of a word. *)
Definition raw (l : list byte) (o : jsout) : Prop := o = OBytes l.
Definition word (n : nat) (v : N) (o : jsout) : Prop := exists l, o = OBytes l /\ length l = n /\ be_value l = v.
Definition text (t : list byte) (o : jsout) : Prop := o = OStr t.

(** ** Calls *)

(** Calling [o.path(args)] while the cells are [h] returns a value as described; or it throws. *)
Definition answers (o : jsobject) (path : list string) (h : cells guarded) (args : list jsarg) (P : jsout -> Prop) : Prop :=
  exists v, js_call o path h args = Some (Ok (JReturn v)) /\ P v.
Definition raises (o : jsobject) (path : list string) (h : cells guarded) (args : list jsarg) : Prop :=
  js_call o path h args = Some (Ok JThrow).

(** The error text, or [undefined]. *)
Definition error_is (e : option string) (o : jsout) : Prop :=
  match e with Some e => text (txt e) o | None => o = OUndefined end.

(** The instructions PUSH0 .. PUSH32. *)
Definition pushes (op : u8) : bool := (0x5f <=? op) && (op <=? 0x7f).

Definition contract_answers (o : jsobject) (h : cells guarded) (c : Contract) : Prop :=
  forall args,
    answers o ["contract"; "getCaller"]%string h args (word 20 (jc_caller c mod 2 ^ 160)) /\
    answers o ["contract"; "getAddress"]%string h args (word 20 (jc_contract c mod 2 ^ 160)) /\
    answers o ["contract"; "getValue"]%string h args (big (jc_value c)) /\
    answers o ["contract"; "getInput"]%string h args (raw (jc_input c)).

(** The [i]th argument is (converted to) the number [n]; a missing argument is [undefined], that is NaN. *)
Definition number_at (args : list jsarg) (i : nat) (n : jsnum) : Prop :=
  match args !! i with Some a => arg_number a = Some n | None => n = JNaN end.
Definition first_number (args : list jsarg) (n : jsnum) : Prop := number_at args 0 n.
(** The [i]th argument has no number (a symbol, say). *)
Definition no_number (args : list jsarg) (i : nat) : Prop := exists a, args !! i = Some a /\ arg_number a = None.
(** The [i]th argument is a buffer with this content (or a hex string for it); it is not, or it is missing. *)
Definition buffer_at (args : list jsarg) (i : nat) (b : list byte) : Prop :=
  exists a, args !! i = Some a /\ from_buf_value (arg_buffer a) = JReturn b.
Definition first_buffer (args : list jsarg) (b : list byte) : Prop := buffer_at args 0 b.
Definition no_buffer (args : list jsarg) (i : nat) : Prop := forall a, args !! i = Some a -> from_buf_value (arg_buffer a) = JThrow.

Definition stack_answers (o : jsobject) (h : cells guarded) (st : list U256) : Prop :=
  (forall args, answers o ["stack"; "length"]%string h args (about (N.of_nat (length st)))) /\
  (forall args n i v, first_number args n -> position n i -> reverse st !! N.to_nat i = Some v ->
     answers o ["stack"; "peek"]%string h args (big v)) /\
  (forall args n, first_number args n -> (~ exists i, position n i /\ i < N.of_nat (length st)) ->
     raises o ["stack"; "peek"]%string h args) /\
  (forall args, no_number args 0 -> raises o ["stack"; "peek"]%string h args).

Definition memory_answers (o : jsobject) (h : cells guarded) (mem : list byte) : Prop :=
  (forall args, answers o ["memory"; "length"]%string h args (about (N.of_nat (length mem)))) /\
  (forall args n i, first_number args n -> position n i -> i + 32 <= N.of_nat (length mem) ->
     answers o ["memory"; "getUint"]%string h args (raw (range mem i (i + 32)))) /\
  (forall args n i, first_number args n -> position n i -> i + 32 <= USIZE_MAX -> N.of_nat (length mem) < i + 32 ->
     raises o ["memory"; "getUint"]%string h args) /\
  (forall args, no_number args 0 -> raises o ["memory"; "getUint"]%string h args) /\
  (** slices must reach the end of the memory (C54) *)
  (forall args p q i, number_at args 0 p -> number_at args 1 q ->
     in_range p q (N.of_nat (length mem)) i (N.of_nat (length mem)) ->
     answers o ["memory"; "slice"]%string h args (raw (range mem i (N.of_nat (length mem))))) /\
  (forall args p q j, number_at args 0 p -> number_at args 1 q -> position q j -> j < N.of_nat (length mem) ->
     raises o ["memory"; "slice"]%string h args) /\
  (forall args, no_number args 0 \/ no_number args 1 -> raises o ["memory"; "slice"]%string h args).

Definition step_answers (op_text : u8 -> list byte) (o : jsobject) (h : cells guarded)
    (s : fstart) (c : Ctx) (error : option string) (i : Interp) : Prop :=
  (forall args,
     answers o ["op"; "toNumber"]%string h args (exactly (in_op i)) /\
     answers o ["op"; "toString"]%string h args (text (op_text (in_op i))) /\
     answers o ["op"; "isPush"]%string h args (fun v => v = OBool (pushes (in_op i))) /\
     answers o ["getPC"]%string h args (about (N.of_nat (in_pc i))) /\
     answers o ["getGas"]%string h args (about (g_remaining (in_gas i))) /\
     answers o ["getCost"]%string h args (about (g_limit (in_gas i) - g_remaining (in_gas i))) /\  (** C73: not the instruction's cost *)
     answers o ["getDepth"]%string h args (about (N.of_nat (cx_depth c))) /\
     answers o ["getRefund"]%string h args (about (i64_as_u64 (g_refunded (in_gas i)))) /\
     answers o ["getError"]%string h args (error_is error)) /\
  contract_answers o h (spec_contract s) /\ stack_answers o h (in_stack i) /\ memory_answers o h (in_memory i).

(** The database object reads the account whose address is the low 20 bytes of the argument.  [getCode] is the
    database's code of the account's hash and [getState] the database's slot (C67). *)
Definition db_answers (sv : StateView) (dv : DbView) (o : jsobject) (h : cells guarded) : Prop :=
  (forall args, no_buffer args 0 -> Forall (fun m => raises o [m] h args) ["exists"; "getBalance"; "getNonce"; "getCode"; "getState"]%string) /\
  (forall args, no_buffer args 1 -> raises o ["getState"]%string h args) /\
  (forall args b k, buffer_at args 0 b -> buffer_at args 1 k ->
     match dv_storage dv (be_value b mod 2 ^ 160) (be_value k mod 2 ^ 256) with
     | Some x => answers o ["getState"]%string h args (word 32 (x mod 2 ^ 256))
     | None => raises o ["getState"]%string h args
     end) /\
  forall args b, first_buffer args b ->
    let acc := current_account sv dv (be_value b mod 2 ^ 160) in
    (forall a, acc = Some a ->
       answers o ["exists"]%string h args (fun v => v = OBool (bool_decide (is_Some a))) /\
       answers o ["getBalance"]%string h args (big (match a with Some i => ai_balance i | None => 0 end)) /\
       answers o ["getNonce"]%string h args (about (match a with Some i => ai_nonce i | None => 0 end)) /\
       match a with
       | None => answers o ["getCode"]%string h args (raw [])
       | Some i =>
           if ai_code_hash i =? KECCAK_EMPTY then answers o ["getCode"]%string h args (raw [])
           else match dv_code dv (ai_code_hash i) with
                | Some c => answers o ["getCode"]%string h args (raw c)
                | None => raises o ["getCode"]%string h args
                end
       end) /\
    (acc = None -> raises o ["exists"]%string h args /\ raises o ["getBalance"]%string h args /\
       raises o ["getNonce"]%string h args /\ raises o ["getCode"]%string h args).

Definition frame_answers (o : jsobject) (h : cells guarded) (s : fstart) : Prop :=
  forall args,
    answers o ["getType"]%string h args (text (txt (kind_to_str (spec_kind s)))) /\
    answers o ["getFrom"]%string h args (word 20 (jc_caller (spec_contract s) mod 2 ^ 160)) /\
    answers o ["getTo"]%string h args (word 20 (jc_contract (spec_contract s) mod 2 ^ 160)) /\
    answers o ["getInput"]%string h args (raw (jc_input (spec_contract s))) /\
    answers o ["getGas"]%string h args (about (spec_gas s)) /\
    answers o ["getValue"]%string h args (big (jc_value (spec_contract s))).

Definition result_answers (o : jsobject) (h : cells guarded) (used : N) (output : list byte) : Prop :=
  forall args,
    answers o ["getGasUsed"]%string h args (about used) /\
    answers o ["getOutput"]%string h args (raw output) /\
    answers o ["getError"]%string h args (fun v => v = OUndefined).

(** ** Which frames and instructions *)

(** The frames that are entered (all but the root; a selfdestruct enters the frame it happens in), in order. *)
Fixpoint entered_frames (f : frame) : list fstart :=
  match f with
  | Frame s body e =>
      flat_map (fun it =>
        match it with
        | IOp o => flat_map (fun h => match h with HSelfdestruct _ _ _ => [s] | HLog _ _ => [] end) (op_hooks o)
        | IHook h => match h with HSelfdestruct _ _ _ => [s] | HLog _ _ => [] end
        | ISub g => f_start g :: entered_frames g
        end) body
  end.
Definition of_kind (p : jscall -> bool) (iv : invocation) : bool := p (iv_call iv).
Definition is_jenter (c : jscall) : bool := match c with JEnter _ => true | _ => false end.
Definition is_jexit (c : jscall) : bool := match c with JExit _ => true | _ => false end.
Definition is_jstep (c : jscall) : bool := match c with JStep _ _ => true | _ => false end.
Definition is_jfault (c : jscall) : bool := match c with JFault _ _ => true | _ => false end.

(** Vectors have at most [usize::MAX] elements. *)
Definition holdable (i : Interp) : Prop :=
  N.of_nat (length (in_stack i)) <= USIZE_MAX /\ N.of_nat (length (in_memory i)) <= USIZE_MAX.
