(** * SpecReadable: what a reader of a written trace can tell *)

From Verif Require Export SpecTxText.
Local Open Scope N_scope.

(** What a written trace shows: calls with their kind, callee, value, input, status and output; creations with the new
    address and the size of the code; logs with topics and data; everything nested and in order. *)
Inductive seen :=
  | SeenLog (topics : list U256) (data : bytes)
  | SeenCall (gas : N) (kind : CallKind) (callee : address) (value : U256) (input : bytes) (inside : list seen)
      (st : InstructionResult) (output : bytes)
  | SeenCreate (gas : N) (new : address) (inside : list seen) (st : InstructionResult) (size : nat).

(** What of an execution is shown. *)
Definition seen_logs (cfg : TracingInspectorConfig) (hs : list hook) : list seen :=
  if record_logs cfg then map (fun l => SeenLog (lg_topics l) (lg_data l)) (logs_of hs) else [].
Fixpoint sees (cfg : TracingInspectorConfig) (w : world) (root : bool) (v : U256) (g : frame) : seen :=
  match g with
  | Frame s body e =>
      let inside :=
        (fix go (l : list item) : list seen :=
           match l with
           | [] => []
           | IOp o :: r => seen_logs cfg (op_hooks o) ++ go r
           | IHook h :: r => seen_logs cfg [h] ++ go r
           | ISub h :: r =>
               if hidden_call cfg w v (f_start h) then go r
               else sees cfg w false (call_value v (f_start h)) h :: go r
           end) body in
      let gas := frame_gas_used w root e in
      let out := ir_output (fe_result e) in
      if is_call s then SeenCall gas (spec_kind s) (spec_address g) v (spec_input s) inside (status e) out
      else SeenCreate gas (spec_address g) inside (status e) (length out)
  end.
(** What of a transaction is shown. *)
Definition tx_seen (cfg : TracingInspectorConfig) (w : world) (f : frame) : seen := sees cfg w true (spec_value (f_start f)) f.

(** Checksummed addresses: [0x] and forty characters that tell the address. *)
Record checksums (to_checksum : address -> list byte) : Prop := {
  ck_inj : forall a b, a < 2 ^ 160 -> b < 2 ^ 160 -> to_checksum a = to_checksum b -> a = b;
  ck_form : forall a, exists digits, to_checksum a = txt "0x" ++ digits /\ length digits = 40%nat }.

(** EVM facts: addresses have 160 bits, topics 256. *)
Definition evm_words (f : frame) : Prop :=
  every_frame (fun g => spec_address g < 2 ^ 160 /\
                        Forall (fun l => Forall (fun t => t < 2 ^ 256) (lg_topics l)) (logs_of (hooks (f_body g)))) f.
