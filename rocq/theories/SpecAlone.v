(** * SpecAlone: a call inside an execution, and the same call as a transaction of its own *)

From Verif Require Export SpecTx.
Local Open Scope nat_scope.

(** Frame [f], with value [v], made the call [g], with value [u]: directly, or in a call it made. Calls that the user asked to
    leave out do not count. *)
Inductive made (cfg : TracingInspectorConfig) (w : world) : U256 -> frame -> U256 -> frame -> Prop :=
  | made_here v s body e g :
      In g (subs body) -> hidden_call cfg w v (f_start g) = false ->
      made cfg w v (Frame s body e) (call_value v (f_start g)) g
  | made_deeper v s body e h u g :
      In h (subs body) -> hidden_call cfg w v (f_start h) = false -> made cfg w (call_value v (f_start h)) h u g ->
      made cfg w v (Frame s body e) u g.

(** The same, when [f] and all calls around [g] succeeded. *)
Inductive made_kept (cfg : TracingInspectorConfig) (w : world) : U256 -> frame -> U256 -> frame -> Prop :=
  | kept_here v s body e g :
      spec_success (status e) = true -> In g (subs body) -> hidden_call cfg w v (f_start g) = false ->
      made_kept cfg w v (Frame s body e) (call_value v (f_start g)) g
  | kept_deeper v s body e h u g :
      spec_success (status e) = true -> In h (subs body) -> hidden_call cfg w v (f_start h) = false ->
      made_kept cfg w (call_value v (f_start h)) h u g ->
      made_kept cfg w v (Frame s body e) u g.

(** The entry moved below the trace address [a]. *)
Definition below (a : list nat) (t : TransactionTrace) : TransactionTrace :=
  mkTT (tt_action t) (tt_error t) (tt_result t) (a ++ tt_address t) (tt_subtraces t).

(** An entry without its gas limit and gas used. *)
Definition without_gas (t : TransactionTrace) : TransactionTrace :=
  mkTT (match tt_action t with
        | ActCall from to v _ input k => ActCall from to v 0%N input k
        | ActCreate from v _ init => ActCreate from v 0%N init
        | x => x
        end) (tt_error t)
    (match tt_result t with
     | Some (OutCall _ o) => Some (OutCall 0%N o)
     | Some (OutCreate _ c a) => Some (OutCreate 0%N c a)
     | None => None
     end) (tt_address t) (tt_subtraces t).

(** The same for the frames of a call tree. *)
Definition info_without_gas (i : FrameInfo) : FrameInfo :=
  mkFI (fi_typ i) (fi_from i) (fi_to i) (fi_value i) 0%N 0%N (fi_input i) (fi_output i) (fi_error i) (fi_revert_reason i) (fi_logs i).

(** [c] is a frame somewhere inside the frame [r]. *)
Inductive inside (c : CallFrame) : CallFrame -> Prop :=
  | inside_here i calls : In c calls -> inside c (mkCF i calls)
  | inside_deeper i calls d : In d calls -> inside c d -> inside c (mkCF i calls).
