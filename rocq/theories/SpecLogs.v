(** * SpecLogs: the struct log of an executed instruction, read off the execution and the tracing options (no model of
    the inspector or of the builder is used here; [StructLog] is the shape of the answer) *)

From Verif Require Export SpecGeth SpecRecord SpecOpcodes.

(** An optional flag that is present and true. *)
Definition flagged (o : option bool) : bool := match o with Some true => true | _ => false end.

(** A two-sided option: the positive flag if present, else the negation of the negative one, else off. *)
Definition two_sided (enable disable : option bool) : bool :=
  match enable, disable with Some b, _ => b | None, Some b => negb b | None, None => false end.

(** The storage change the tracer attributes to an instruction: for an SLOAD or an SSTORE, the slot named by the newest
    entry of the current journal list after it, with the slot's value at that moment. *)
Definition seen_change (o : instr) : option (U256 * U256) :=
  if ((in_op (op_pre o) =? 0x54) || (in_op (op_pre o) =? 0x55))%N then
    match last (j_journal (op_post_j o)) with
    | Some jn =>
        match last jn with
        | Some (JStorageChanged a k _) => match j_present (op_post_j o) a k with Some v => Some (k, v) | None => None end
        | _ => None
        end
    | None => None
    end
  else None.

(** Value most recently attributed to slot [k] of the running contract [a] by the instructions [l]. *)
Definition slot_value (l : list (nat * frame * instr)) (a : address) (k : U256) : option U256 :=
  last (omap (fun x => match seen_change (snd x) with
                       | Some (k', v) => if ((in_contract (op_pre (snd x)) =? a) && (k' =? k))%N then Some v else None
                       | None => None
                       end) l).

(** The words spell the memory [m], give or take zero bytes at the end. *)
Definition words_show (ws : list (list byte)) (m : bytes) : Prop :=
  Forall (fun x => length x = 64 /\ Forall (fun c => hex_value c <> None) x) ws /\
  exists b k k', hex_decode (concat ws) = Some b /\ b ++ replicate k x00 = m ++ replicate k' x00.

(** [l] is the struct log of the instruction [o], executed at depth [d] in frame [g]; [upto] are the instructions
    executed so far, [o] included. *)
Record log_of (opts : GethDefaultTracingOptions) (upto : list (nat * frame * instr)) (d : nat) (g : frame) (o : instr)
    (l : StructLog) : Prop := {
  lo_pc : sl_pc l = in_pc (op_pre o);
  lo_op : sl_op l = in_op (op_pre o);
  lo_depth : sl_depth l = d;
  lo_gas : sl_gas l = g_remaining (in_gas (op_pre o));
  lo_cost : Z.of_N (sl_gas_cost l) =
    Z.max 0 (Z.of_N (g_remaining (in_gas (op_pre o))) - Z.of_N (g_remaining (in_gas (op_post o))));
  lo_refund : (0 <= g_refunded (in_gas (op_pre o)) < 18446744073709551616)%Z ->
    sl_refund_counter l = if (g_refunded (in_gas (op_pre o)) =? 0)%Z then None else Some (Z.to_N (g_refunded (in_gas (op_pre o))));
  lo_stack : sl_stack l = if flagged (disable_stack opts) then None else Some (in_stack (op_pre o));
  lo_return_data : sl_return_data l =
    if two_sided (enable_return_data opts) (disable_return_data opts) then Some (ir_output (fe_result (f_end g))) else None;
  (** the in-flight marker of a call or create that was entered counts as an error *)
  lo_error : sl_error l = if failing (in_result (op_post o)) || bool_decide (in_result (op_post o) = CallOrCreate)
                          then Some (ir_debug (in_result (op_post o))) else None;
  lo_storage : match sl_storage l with
               | Some m => flagged (disable_storage opts) = false /\ seen_change o <> None /\
                           forall k, m !! k = slot_value upto (in_contract (op_pre o)) k
               | None => flagged (disable_storage opts) = true \/ seen_change o = None
               end;
  lo_memory : if flagged (enable_memory opts)
              then exists ws, sl_memory l = Some ws /\ words_show ws (in_memory (op_pre o))
              else sl_memory l = None }.
