(** * SpecTx: the traces of a whole transaction as functions of its execution

    No nodes, no arena: only the frames of the execution and the values the APIs return. *)

From Verif Require Export SpecGeth.

(** The value of a sub-frame, given the value of the frame that entered it. *)
Definition call_value (outer : U256) (s : fstart) : U256 := if is_delegatecall s then outer else spec_value s.

Definition gas_spent (e : fend) : N := (g_limit (ir_gas (fe_result e)) - g_remaining (ir_gas (fe_result e)))%N.
(** Gas used of a frame; the refund counts for the root only. *)
Definition frame_gas_used (w : world) (root : bool) (e : fend) : N :=
  if root then spec_root_gas (w_spec w) (gas_spent e) (Z.to_N (g_refunded (ir_gas (fe_result e)))) else gas_spent e.

Definition status (e : fend) : InstructionResult := ir_result (fe_result e).

(** The EVM announces every SELFDESTRUCT a frame ends with.  (It announces those that destroy the contract; one that moves
    nothing, as of a contract of an earlier transaction to itself since EIP-6780, it does not.) *)
Definition evm_selfdestructs (f : frame) : Prop :=
  every_frame (fun g => status (f_end g) = SelfDestruct -> selfdestructs_of (hooks (f_body g)) <> []) f.
(** EVM fact: the final refund is a non-negative i64. *)
Definition evm_refund (f : frame) : Prop :=
  (0 <= g_refunded (ir_gas (fe_result (f_end f))) < 9223372036854775808)%Z.

(** ** Parity *)

Definition spec_action (w : world) (root : bool) (v : U256) (g : frame) : Action :=
  let s := f_start g in
  if is_call s
  then ActCall (spec_caller s) (spec_address g) v (spec_gas_limit w root s) (spec_input s) (spec_call_type (spec_kind s))
  else ActCreate (spec_caller s) v (spec_gas_limit w root s) (spec_input s).

Definition spec_output (w : world) (root : bool) (g : frame) : TraceOutput :=
  let gas := frame_gas_used w root (f_end g) in
  let out := ir_output (fe_result (f_end g)) in
  if is_call (f_start g) then OutCall gas out else OutCreate gas out (spec_address g).

Definition spec_entry (w : world) (root : bool) (v : U256) (address_ : list nat) (subtraces : nat) (g : frame) : TransactionTrace :=
  let st := status (f_end g) in
  mkTT (spec_action w root v g)
    (if spec_success st then None else Some (spec_parity_error st))
    (match st with
     | Continue | Stop | Return | SelfDestruct | ReturnContract | Revert => Some (spec_output w root g)
     | _ => None
     end)
    address_ subtraces.

(** The refund of a frame that ran SELFDESTRUCT, if the EVM announced it. *)
Definition refund_of (g : frame) : option (option (address * U256)) :=
  match last (selfdestructs_of (hooks (f_body g))) with
  | Some (_, target, amount) => Some (Some (target, amount))
  | None => match status (f_end g) with SelfDestruct => Some None | _ => None end
  end.

(** The entries of one frame with [n] listed sub-calls: its own and, if it ran SELFDESTRUCT, one more (with zeros if the
    refund was not announced). *)
Definition frame_entries (w : world) (root : bool) (v : U256) (address_ : list nat) (n : nat) (g : frame) : list TransactionTrace :=
  match refund_of g with
  | None => [spec_entry w root v address_ n g]
  | Some refund =>
      let '(target, amount) := default (0, 0)%N refund in
      [ spec_entry w root v address_ (S n) g;
        mkTT (ActSelfdestruct (spec_address g) target amount) None None (address_ ++ [n]) 0 ]
  end.

(** The parity traces of frame [g] at trace address [address_]; [v] is its value. Sub-calls the user asked to leave out
    are skipped and not counted. *)
Fixpoint spec_traces (cfg : TracingInspectorConfig) (w : world) (root : bool) (v : U256) (address_ : list nat) (g : frame)
    : list TransactionTrace :=
  match g with
  | Frame s body e =>
      let listed := List.filter (fun h => negb (hidden_call cfg w v (f_start h))) (subs body) in
      frame_entries w root v address_ (length listed) g
        ++ (fix go (k : nat) (l : list item) : list TransactionTrace :=
              match l with
              | [] => []
              | ISub h :: r =>
                  if hidden_call cfg w v (f_start h) then go k r
                  else spec_traces cfg w false (call_value v (f_start h)) (address_ ++ [k]) h ++ go (S k) r
              | _ :: r => go k r
              end) 0 body
  end.

(** ** Geth call tracer *)

(** The reported fields of frame [g]: [gas] is the gas used given by the user for the root, [logs] says whether the
    logs are wanted and visible. *)
Definition spec_info (revert_reason : bytes -> option string) (cfg : TracingInspectorConfig) (w : world) (root : bool)
    (gas : u64) (v : U256) (logs : bool) (g : frame) : FrameInfo :=
  let s := f_start g in
  let st := status (f_end g) in
  let out := ir_output (fe_result (f_end g)) in
  mkFI (spec_call_name (spec_kind s)) (spec_caller s) (Some (spec_address g))
    (match spec_kind s with KStaticCall => None | _ => Some v end)
    (spec_gas_limit w root s)
    (if root then gas else gas_spent (f_end g))
    (spec_input s)
    (match out with [] => None | _ => Some out end)
    (if spec_success st then None else Some (spec_parity_error st))
    (if spec_success st then None else revert_reason out)
    (if logs && record_logs cfg
     then map (fun l => mkLogFrame (Some (lg_address l)) (Some (lg_topics l)) (Some (lg_data l))) (logs_of (hooks (f_body g)))
     else []).

(** The call tree of frame [g]: every sub-frame, in order. Logs are shown for the root, and for a frame if it and all
    frames around it succeeded ([ok] speaks of the latter). *)
Fixpoint spec_calls (revert_reason : bytes -> option string) (cfg : TracingInspectorConfig) (w : world) (with_logs : bool)
    (gas : u64) (root : bool) (ok : bool) (v : U256) (g : frame) : CallFrame :=
  match g with
  | Frame s body e =>
      let ok' := ok && spec_success (status e) in
      mkCF (spec_info revert_reason cfg w root gas v (with_logs && (root || ok')) g)
        ((fix go (l : list item) : list CallFrame :=
            match l with
            | [] => []
            | ISub h :: r =>
                spec_calls revert_reason cfg w with_logs gas false ok' (call_value v (f_start h)) h :: go r
            | _ :: r => go r
            end) body)
  end.

(** A call tree without its synthetic SELFDESTRUCT frames. *)
Fixpoint without_selfdestructs (c : CallFrame) : CallFrame :=
  match c with
  | mkCF i calls =>
      mkCF i ((fix go (l : list CallFrame) : list CallFrame :=
                 match l with
                 | [] => []
                 | x :: r => if bool_decide (fi_typ (cf_info x) = "SELFDESTRUCT") then go r
                             else without_selfdestructs x :: go r
                 end) calls)
  end.
