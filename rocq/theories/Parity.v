(** * Parity: /repo/src/tracing/builder/parity.rs (call traces) and the node conversions of types.rs *)

From Verif Require Export Inspector.

(** alloy [CallType] *)
Inductive CallType := CTNone | CTCall | CTCallCode | CTDelegateCall | CTStaticCall | CTAuthCall.
(** types.rs:510-521 *)
Definition call_type_of (k : CallKind) : CallType :=
  match k with
  | KCall => CTCall | KStaticCall => CTStaticCall | KCallCode => CTCallCode | KDelegateCall => CTDelegateCall
  | KCreate | KCreate2 => CTNone | KAuthCall => CTAuthCall
  end.

(** alloy [Action] (reward actions are never built here) *)
Inductive Action :=
  | ActCall (from to : address) (value : U256) (gas : u64) (input : bytes) (call_type : CallType)
  | ActCreate (from : address) (value : U256) (gas : u64) (init : bytes)
  | ActSelfdestruct (address_ refund_address : address) (balance : U256).

(** alloy [TraceOutput] *)
Inductive TraceOutput :=
  | OutCall (gas_used : u64) (output : bytes)
  | OutCreate (gas_used : u64) (code : bytes) (address_ : address).

(** alloy [TransactionTrace] *)
Record TransactionTrace := mkTT {
  tt_action : Action; tt_error : option string; tt_result : option TraceOutput;
  tt_address : list nat; tt_subtraces : nat }.

(** types.rs:340-361 *)
Definition parity_action (n : CallTraceNode) : Action :=
  let t := n.(nd_trace) in
  match t.(tr_kind) with
  | KCall | KStaticCall | KCallCode | KDelegateCall | KAuthCall =>
      ActCall t.(tr_caller) t.(tr_address) t.(tr_value) t.(tr_gas_limit) t.(tr_data) (call_type_of t.(tr_kind))
  | KCreate | KCreate2 => ActCreate t.(tr_caller) t.(tr_value) t.(tr_gas_limit) t.(tr_data)
  end.

(** types.rs:278-294 *)
Definition parity_trace_output (n : CallTraceNode) : TraceOutput :=
  let t := n.(nd_trace) in
  match t.(tr_kind) with
  | KCall | KStaticCall | KCallCode | KDelegateCall | KAuthCall => OutCall t.(tr_gas_used) t.(tr_output)
  | KCreate | KCreate2 => OutCreate t.(tr_gas_used) t.(tr_output) t.(tr_address)
  end.

(** types.rs:265-275 *)
Definition parity_transaction_trace (n : CallTraceNode) (trace_address : list nat) : TransactionTrace :=
  let action := parity_action n in
  let result :=
    if tr_is_error n.(nd_trace) && negb (tr_is_revert n.(nd_trace)) then None else Some (parity_trace_output n) in
  let error := tr_as_error_msg n.(nd_trace) StyleParity in
  mkTT action error result trace_address (length n.(nd_children)).

(** types.rs:297-307 *)
Definition parity_selfdestruct_action (n : CallTraceNode) : option Action :=
  if nd_is_selfdestruct n then
    Some (ActSelfdestruct n.(nd_trace).(tr_address)
            (default 0%N n.(nd_trace).(tr_selfdestruct_refund_target))
            (default 0%N n.(nd_trace).(tr_selfdestruct_transferred_value)))
  else None.

(** types.rs:325-334 *)
Definition parity_selfdestruct_trace (n : CallTraceNode) (trace_address : list nat) : option TransactionTrace :=
  match parity_selfdestruct_action n with
  | Some trace => Some (mkTT trace None None trace_address 0)
  | None => None
  end.

(** parity.rs:36-38 [callers] *)
Definition callers (nodes : list CallTraceNode) : gset address :=
  list_to_set (map (fun n => n.(nd_trace).(tr_caller)) nodes).

(** parity.rs:46-50 [set_transaction_gas_used] (also 55-58) *)
Definition set_transaction_gas_used (nodes : list CallTraceNode) (gas_used : u64) : list CallTraceNode :=
  match nodes with
  | [] => []
  | n :: ns => nd_set_trace n (tr_set_gas_used n.(nd_trace) gas_used) :: ns
  end.

(** [Iterator::position] *)
Fixpoint position (p : nat -> bool) (l : list nat) : option nat :=
  match l with
  | [] => None
  | x :: l => if p x then Some 0 else match position p l with Some k => Some (S k) | None => None end
  end.

(** parity.rs:94-105: the loop towards the root; one unit of fuel per iteration *)
Fixpoint trace_address_loop (fuel : nat) (nodes : list CallTraceNode) (node : CallTraceNode) (graph : list nat)
    : res (list nat) :=
  match fuel with
  | O => OutOfFuel
  | S fuel =>
      match node.(nd_parent) with
      | None => Ok graph
      | Some parent =>
          let child_idx := node.(nd_idx) in
          let! pn := index nodes parent in
          let! call_idx := expect (position (fun child => child =? child_idx) pn.(nd_children)) in
          trace_address_loop fuel nodes pn (graph ++ [call_idx])
      end
  end.

(** parity.rs:84-108 [trace_address]; the fuel suffices on every arena: theorem C17 *)
Definition trace_address (nodes : list CallTraceNode) (idx : nat) : res (list nat) :=
  if idx =? 0 then Ok []
  else
    let! node := index nodes idx in
    if nd_is_precompile node then Ok []
    else
      let! graph := trace_address_loop (S (length nodes)) nodes node [] in
      Ok (rev graph).

(** A fallible map. *)
Fixpoint rmapM {A B} (f : A -> res B) (l : list A) : res (list B) :=
  match l with
  | [] => Ok []
  | x :: l => let! y := f x in let! ys := rmapM f l in Ok (y :: ys)
  end.

(** parity.rs:66-72 [trace_addresses] *)
Definition trace_addresses (nodes : list CallTraceNode) : res (list (list nat)) :=
  rmapM (trace_address nodes) (seq 0 (length nodes)).

(** parity.rs:113-115 [iter_traceable_nodes] *)
Definition iter_traceable_nodes (nodes : list CallTraceNode) : list CallTraceNode :=
  List.filter (fun n => negb (nd_is_precompile n)) nodes.

(** [subtraces += 1] *)
Definition tt_inc_subtraces (t : TransactionTrace) : TransactionTrace :=
  mkTT t.(tt_action) t.(tt_error) t.(tt_result) t.(tt_address) (t.(tt_subtraces) + 1).

(** [Option] as a list. *)
Definition opt_list {A} (o : option A) : list A := match o with Some a => [a] | None => [] end.

(** The loop body of parity.rs:231-257 with [with_traces] on: what one node appends to [traces] *)
Definition type_traces_step (nodes : list CallTraceNode) (traces : list TransactionTrace) (node : CallTraceNode)
    : res (list TransactionTrace) :=
  let! trace_address := trace_address nodes node.(nd_idx) in
  let traces := traces ++ [parity_transaction_trace node trace_address] in
  if nd_is_selfdestruct node then
    let! last := expect (last traces) in
    let addr := last.(tt_address) ++ [last.(tt_subtraces)] in
    let traces := removelast traces ++ [tt_inc_subtraces last] in
    Ok (traces ++ opt_list (parity_selfdestruct_trace node addr))
  else Ok traces.

(** The same body with [with_traces] off: only the trace address is computed *)
Definition type_traces_skip (nodes : list CallTraceNode) (traces : list TransactionTrace) (node : CallTraceNode)
    : res (list TransactionTrace) :=
  let! _ := trace_address nodes node.(nd_idx) in Ok traces.

(** parity.rs:231-259: the traces part of [into_trace_type_traces] *)
Definition type_traces (nodes : list CallTraceNode) (with_traces : bool) : res (option (list TransactionTrace)) :=
  let! traces := rfold (if with_traces then type_traces_step nodes else type_traces_skip nodes) []
                   (iter_traceable_nodes nodes) in
  Ok (if with_traces then Some traces else None).

(** parity.rs:266-277 and 402-425 [TransactionTraceIter::next]: the items the iterator yields for one node *)
Definition trace_iter_items (x : CallTraceNode * list nat) : list TransactionTrace :=
  let '(node, trace_address) := x in
  let trace := parity_transaction_trace node trace_address in
  if nd_is_selfdestruct node then
    let addr := trace.(tt_address) ++ [trace.(tt_subtraces)] in
    tt_inc_subtraces trace :: opt_list (parity_selfdestruct_trace node addr)
  else [trace].

(** parity.rs:266-277 [into_transaction_traces_iter], collected (280-282 [into_transaction_traces]) *)
Definition into_transaction_traces (nodes : list CallTraceNode) : res (list TransactionTrace) :=
  let! addrs := trace_addresses nodes in
  Ok (flat_map trace_iter_items
        (List.filter (fun x => negb (nd_is_precompile (fst x))) (zip nodes addrs))).

(** alloy [TransactionInfo] *)
Record TransactionInfo := mkTxInfo {
  ti_hash : option U256; ti_index : option u64; ti_block_hash : option U256; ti_block_number : option u64;
  ti_base_fee : option N }.
(** alloy [LocalizedTransactionTrace] *)
Record LocalizedTransactionTrace := mkLTT {
  lt_trace : TransactionTrace; lt_position : option u64; lt_hash : option U256;
  lt_block_number : option u64; lt_block_hash : option U256 }.
(** parity.rs:118-140 *)
Definition into_localized_transaction_traces (nodes : list CallTraceNode) (info : TransactionInfo)
    : res (list LocalizedTransactionTrace) :=
  let! traces := into_transaction_traces nodes in
  Ok (map (fun t => mkLTT t info.(ti_index) info.(ti_hash) info.(ti_block_number) info.(ti_block_hash)) traces).
