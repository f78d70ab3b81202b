(** * PropertiesConfig: C37-C39, C60, C62, C63: configuration, opcode tables, memory rendering *)

From Verif Require Import Types ConfigProofs.
Local Open Scope N_scope.

(** ** C37 *)

(** A call of [enable] ([false]) or of the const variant [enabled] ([true]). *)
Definition filter_call (f : OpcodeFilter) (c : bool * u8) : OpcodeFilter :=
  if fst c then filter_enabled f (snd c) else filter_enable f (snd c).

Theorem C37_filter_exact_set :
  forall calls, Forall (fun c => snd c < 256) calls ->
  let f := fold_left filter_call calls filter_new in
  (forall op, op < 256 -> (filter_is_enabled f op = true <-> In op (map snd calls))) /\
  (forall op, op < 256 -> filter_enable f op = filter_enabled f op).
Proof.
  intros calls Hc f.
  enough (H : forall f0, f0 < 2 ^ 256 -> fold_left filter_call calls f0 < 2 ^ 256 /\
            forall op, N.testbit (fold_left filter_call calls f0) op = true <->
                       In op (map snd calls) \/ N.testbit f0 op = true).
  { destruct (H filter_new ltac:(done)) as [Hb Ht]. fold f in Hb, Ht. split.
    - intros op Hop. unfold filter_is_enabled. rewrite (proj2 (N.ltb_lt _ _) Hop).
      rewrite (Ht op). unfold filter_new. rewrite N.bits_0. split; [intros [?|?]; done|by left].
    - intros op Hop. symmetry. by apply filter_variants. }
  clear f. induction Hc as [|[b o] calls Ho Hc IH]; intros f0 Hf0.
  - split; [done|]. intros op. split; [by right|by intros [[]|?]].
  - cbn [fold_left map snd In] in *. unfold filter_call at 2 4. cbn [fst snd].
    assert (Heq : (if b then filter_enabled f0 o else filter_enable f0 o) = filter_enable f0 o).
    { destruct b; [by apply filter_variants|done]. }
    rewrite Heq. destruct (IH (filter_enable f0 o)) as [H1 H2]; [by apply filter_enable_bound|].
    split; [done|]. intros op. rewrite H2, filter_enable_testbit, orb_true_iff, N.eqb_eq by done. tauto.
Qed.
Print Assumptions C37_filter_exact_set.
Example C37_example :
  let calls := [(true, 0xff); (false, 0x00); (true, 0x3f); (false, 0x40); (true, 0xff)] in
  Forall (fun c : bool * N => snd c < 256) calls /\
  map (filter_is_enabled (fold_left filter_call calls filter_new)) [0xff; 0x00; 0x3f; 0x40; 0x41; 0x7f]
    = [true; true; true; true; false; false].
Proof. split; [repeat constructor|vm_compute; reflexivity]. Qed.

(** ** C38 *)

Inductive flag := FSteps | FMemory | FStack | FStateDiff | FReturndata | FFilter | FPrecompiles | FLogs.
Inductive flag_value := VBool (b : bool) | VStack (s : StackSnapshotType) | VFilter (f : option OpcodeFilter).
Definition read (c : TracingInspectorConfig) (f : flag) : flag_value :=
  match f with
  | FSteps => VBool (record_steps c) | FMemory => VBool (record_memory_snapshots c)
  | FStack => VStack (record_stack_snapshots c) | FStateDiff => VBool (record_state_diff c)
  | FReturndata => VBool (record_returndata_snapshots c) | FFilter => VFilter (record_opcodes_filter c)
  | FPrecompiles => VBool (exclude_precompile_calls c) | FLogs => VBool (record_logs c)
  end.

(** The public setters. *)
Inductive setter :=
  | SetSteps (b : bool) | DisableSteps | Steps
  | SetMemorySnapshots (b : bool) | DisableMemorySnapshots | MemorySnapshots
  | SetStackSnapshots (s : StackSnapshotType) | DisableStackSnapshots | StackSnapshots
  | SetStateDiffs (b : bool) | DisableStateDiffs
  | SetStepsAndStateDiffs (b : bool) | WithStateDiffs
  | SetExcludePrecompileCalls (b : bool)
  | SetRecordLogs (b : bool) | DisableRecordLogs | RecordLogs.

Definition apply_setter (c : TracingInspectorConfig) (s : setter) : TracingInspectorConfig :=
  match s with
  | SetSteps b => set_steps c b | DisableSteps => disable_steps c | Steps => steps_on c
  | SetMemorySnapshots b => set_memory_snapshots c b | DisableMemorySnapshots => disable_memory_snapshots c
  | MemorySnapshots => memory_snapshots c
  | SetStackSnapshots k => set_stack_snapshots c k | DisableStackSnapshots => disable_stack_snapshots c
  | StackSnapshots => stack_snapshots c
  | SetStateDiffs b => set_state_diffs c b | DisableStateDiffs => disable_state_diffs c
  | SetStepsAndStateDiffs b => set_steps_and_state_diffs c b | WithStateDiffs => with_state_diffs c
  | SetExcludePrecompileCalls b => set_exclude_precompile_calls c b
  | SetRecordLogs b => set_record_logs c b | DisableRecordLogs => disable_record_logs c
  | RecordLogs => record_logs_on c
  end.

(** What the documentation of each setter says it sets. *)
Definition documented (s : setter) (f : flag) : option flag_value :=
  match s, f with
  | SetSteps b, FSteps => Some (VBool b)
  | DisableSteps, FSteps => Some (VBool false)
  | Steps, FSteps => Some (VBool true)
  | SetMemorySnapshots b, FMemory => Some (VBool b)
  | DisableMemorySnapshots, FMemory => Some (VBool false)
  | MemorySnapshots, FMemory => Some (VBool true)
  | SetStackSnapshots k, FStack => Some (VStack k)
  | DisableStackSnapshots, FStack => Some (VStack SnapNone)
  | StackSnapshots, FStack => Some (VStack SnapFull)
  | SetStateDiffs b, FStateDiff => Some (VBool b)
  | DisableStateDiffs, FStateDiff => Some (VBool false)
  | SetStepsAndStateDiffs b, (FSteps | FStateDiff) => Some (VBool b)
  | WithStateDiffs, (FSteps | FStateDiff) => Some (VBool true)
  | SetExcludePrecompileCalls b, FPrecompiles => Some (VBool b)
  | SetRecordLogs b, FLogs => Some (VBool b)
  | DisableRecordLogs, FLogs => Some (VBool false)
  | RecordLogs, FLogs => Some (VBool true)
  | _, _ => None
  end.

(** The value the last setter in the sequence that documents the flag gives it. *)
Definition last_documented (l : list setter) (f : flag) : option flag_value :=
  last (omap (fun s => documented s f) l).

Theorem C38_setters :
  forall c l f, read (fold_left apply_setter l c) f =
    match last_documented l f with Some v => v | None => read c f end.
Proof.
  intros c l f. induction l as [|s l IH] using rev_ind; [done|].
  rewrite fold_left_app. cbn [fold_left]. set (c' := fold_left apply_setter l c) in *.
  unfold last_documented in *. rewrite omap_app. cbn [omap list_omap].
  assert (Hs : read (apply_setter c' s) f = match documented s f with Some v => v | None => read c' f end).
  { by destruct s, f. }
  rewrite Hs. destruct (documented s f); [by rewrite last_snoc|]. by rewrite app_nil_r.
Qed.
Print Assumptions C38_setters.
Example C38_example :
  map (read (fold_left apply_setter [WithStateDiffs; DisableSteps; RecordLogs; SetStackSnapshots SnapPushes] cfg_none))
    [FSteps; FMemory; FStack; FStateDiff; FReturndata; FFilter; FPrecompiles; FLogs] =
  [VBool false; VBool false; VStack SnapPushes; VBool true; VBool false; VFilter None; VBool false; VBool true].
Proof. reflexivity. Qed.

Theorem C38_parity_config :
  forall types f, read (from_parity_config types) f =
    match f with
    | FSteps | FMemory => VBool (bool_decide (TVmTrace ∈ types))
    | FStack => VStack (if decide (TVmTrace ∈ types) then SnapPushes else SnapNone)
    | FPrecompiles => VBool true
    | FStateDiff | FReturndata | FLogs => VBool false
    | FFilter => VFilter None
    end.
Proof.
  intros types f. destruct f; cbn; try done. unfold tt_contains. by destruct (decide _), (bool_decide_reflect (TVmTrace ∈ types)).
Qed.
Print Assumptions C38_parity_config.

Theorem C38_geth_configs :
  (forall o f, read (from_geth_config o) f =
    match f with
    | FSteps => VBool true
    | FMemory => VBool (match enable_memory o with Some true => true | _ => false end)
    | FStack => VStack (match disable_stack o with Some true => SnapNone | _ => SnapFull end)
    | FStateDiff => VBool (match disable_storage o with Some true => false | _ => true end)
    | FReturndata | FPrecompiles | FLogs => VBool false
    | FFilter => VFilter None
    end) /\
  (forall c f, read (from_geth_call_config c) f =
    match f with
    | FLogs => VBool (match with_log c with Some true => true | _ => false end)
    | _ => read cfg_none f
    end) /\
  (forall c f, read (from_geth_prestate_config c) f = read cfg_none f) /\
  (forall f, read cfg_none f = match f with FStack => VStack SnapNone | FFilter => VFilter None | _ => VBool false end).
Proof.
  split_and!.
  - intros [[[]|] ? [[]|] [[]|] ? ?] []; done.
  - intros [? [[]|]] []; done.
  - done.
  - by intros [].
Qed.
Print Assumptions C38_geth_configs.

(** The presets are the configurations for no options at all and for no requested trace. *)
Theorem C38_presets :
  (forall f, read cfg_default_geth f = read (from_geth_config (mkGethOpts None None None None None None)) f) /\
  (forall f, read cfg_default_parity f = read (from_parity_config []) f).
Proof. split; by intros []. Qed.
Print Assumptions C38_presets.

(** ** C39 *)

Theorem C39_memory_chunks :
  forall data : list byte,
  let chunks := convert_memory data in
  N.of_nat (length chunks) = (N.of_nat (length data) + 31) / 32 /\
  Forall (fun c => length c = 64%nat /\ Forall (fun d => hex_value d <> None) c) chunks /\
  hex_decode (concat chunks) =
    Some (data ++ replicate (32 * length chunks - length data) x00).
Proof.
  intros data chunks. unfold chunks, convert_memory.
  destruct (convert_chunks_spec (S (length data)) data ltac:(lia)) as (cs & -> & Hall & Hcat & Hlen).
  rewrite map_length. split_and!.
  - apply N.div_unique with (N.of_nat (length data) + 31 - 32 * N.of_nat (length cs)); lia.
  - apply Forall_map. eapply Forall_impl; [exact Hall|]. cbn beta. intros c Hc.
    rewrite hex_encode_length, Hc. split; [done|apply hex_encode_digits].
  - assert (concat (map hex_encode cs) = hex_encode (concat cs)) as ->.
    { clear. induction cs as [|c cs IH]; [done|]. cbn [map concat]. rewrite IH. unfold hex_encode.
      by rewrite flat_map_app. }
    by rewrite hex_encode_decode, Hcat.
Qed.
Print Assumptions C39_memory_chunks.
Example C39_example : length (convert_memory (replicate 33 xab)) = 2%nat /\
  hex_decode (concat (convert_memory (replicate 33 xab))) = Some (replicate 33 xab ++ replicate 31 x00).
Proof. vm_compute. split; reflexivity. Qed.

(** ** C60 *)

Definition C60_statement : Prop := forall op, op < 256 -> opcode_deserialize (opcode_serialize op) = op.
Theorem C60_refuted : ~ C60_statement.
Proof. intros H. specialize (H 0x0c eq_refl). vm_compute in H. discriminate. Qed.
Print Assumptions C60_refuted.
(** It holds exactly for the opcodes revm knows; INVALID is one of them, and others come back as INVALID. *)
Theorem C60_opcode_serde_partial :
  forall op, op < 256 ->
  (opcode_deserialize (opcode_serialize op) = op <-> op_known op = true) /\
  (op_known op = false -> opcode_deserialize (opcode_serialize op) = 0xfe) /\
  (evm_stack_effect op <> None -> op_known op = true).
Proof.
  intros op Hop. unfold opcode_deserialize, opcode_serialize. split_and!.
  - destruct (op_known op) eqn:E; [done|]. split; [|done]. intros <-. vm_compute in E. discriminate.
  - by intros ->.
  - intros He. assert (H : implb (match evm_stack_effect op with Some _ => true | None => false end) (op_known op) = true).
    { revert op Hop He. intros op Hop _. revert op Hop. apply forall_bytes. vm_compute. reflexivity. }
    destruct (evm_stack_effect op); [|done]. by destruct (op_known op).
Qed.
Print Assumptions C60_opcode_serde_partial.
Example C60_example : op_known 0x55 = true /\ op_known 0x0c = false.
Proof. split; reflexivity. Qed.

(** ** C62 *)

Definition C62_statement : Prop :=
  forall op removed added, op < 256 -> evm_stack_effect op = Some (removed, added) ->
  evm_starts_frame op = false -> stack_push_count op = added.
(** BLOBHASH, BLOBBASEFEE and TLOAD push one item; the table says none. *)
Theorem C62_refuted : ~ C62_statement.
Proof. intros H. specialize (H 0x5c _ _ eq_refl eq_refl eq_refl). vm_compute in H. discriminate. Qed.
Print Assumptions C62_refuted.
Theorem C62_push_count_partial :
  forall op, op < 256 ->
  (forall removed added, evm_stack_effect op = Some (removed, added) -> evm_starts_frame op = false ->
     (stack_push_count op = added <-> ~ In op [0x49; 0x4a; 0x5c])) /\
  (evm_starts_frame op = true -> stack_push_count op = 0%nat) /\
  (evm_stack_effect op = None -> stack_push_count op = 0%nat).
Proof.
  intros op Hop.
  assert (H : (match evm_stack_effect op with
               | None => Nat.eqb (stack_push_count op) 0
               | Some (_, added) =>
                   if evm_starts_frame op then Nat.eqb (stack_push_count op) 0
                   else Bool.eqb (Nat.eqb (stack_push_count op) added) (negb (existsb (N.eqb op) [0x49; 0x4a; 0x5c]))
               end) = true).
  { revert op Hop. apply forall_bytes. vm_compute. reflexivity. }
  assert (Hin : existsb (N.eqb op) [0x49; 0x4a; 0x5c] = true <-> In op [0x49; 0x4a; 0x5c]).
  { rewrite existsb_exists. split; [|intros Hi; exists op; split; [done|apply N.eqb_refl]].
    intros (x & Hx & Heq). apply N.eqb_eq in Heq. by subst. }
  destruct (evm_stack_effect op) as [[r a]|] eqn:E.
  - split_and!; [|intros Hf; rewrite Hf in H; by apply Nat.eqb_eq|done].
    intros ? ? [= <- <-] Hf. rewrite Hf in H. apply eqb_prop in H. rewrite <-Hin.
    rewrite <-Nat.eqb_eq, H. destruct (existsb _ _); cbn; split; try done.
  - split_and!; [done| |intros _; by apply Nat.eqb_eq]. intros _. by apply Nat.eqb_eq.
Qed.
Print Assumptions C62_push_count_partial.
Example C62_example : evm_stack_effect 0x92 = Some (4, 4)%nat /\ stack_push_count 0x92 = 4%nat
  /\ evm_starts_frame 0x92 = false.
Proof. split_and!; reflexivity. Qed.

(** ** C63 *)

Definition C63_statement : Prop := forall op, op < 256 -> evm_memory_op op = true -> may_modify_memory op = true.
Theorem C63_refuted : ~ C63_statement.
Proof. intros H. specialize (H 0x20 eq_refl eq_refl). vm_compute in H. discriminate. Qed.
Print Assumptions C63_refuted.
(** Exactly KECCAK256, LOG0-LOG4, CREATE and CREATE2 (which only grow memory) are missing, and nothing
    else is classified. *)
Theorem C63_may_modify_memory_partial :
  forall op, op < 256 ->
  (may_modify_memory op = true <->
   evm_memory_op op = true /\ ~ In op [0x20; 0xa0; 0xa1; 0xa2; 0xa3; 0xa4; 0xf0; 0xf5]).
Proof.
  intros op Hop.
  assert (H : Bool.eqb (may_modify_memory op)
                (evm_memory_op op && negb (existsb (N.eqb op) [0x20; 0xa0; 0xa1; 0xa2; 0xa3; 0xa4; 0xf0; 0xf5])) = true).
  { revert op Hop. apply forall_bytes. vm_compute. reflexivity. }
  apply eqb_prop in H. rewrite H, andb_true_iff, negb_true_iff.
  set (l := [0x20; 0xa0; 0xa1; 0xa2; 0xa3; 0xa4; 0xf0; 0xf5]).
  assert (Hin : existsb (N.eqb op) l = true <-> In op l).
  { rewrite existsb_exists. split; [|intros Hi; exists op; split; [done|apply N.eqb_refl]].
    intros (x & Hx & Heq). apply N.eqb_eq in Heq. by subst. }
  rewrite <-Hin. destruct (existsb (N.eqb op) l); naive_solver.
Qed.
Print Assumptions C63_may_modify_memory_partial.
Example C63_example : may_modify_memory 0x52 = true /\ evm_memory_op 0x52 = true.
Proof. split; reflexivity. Qed.
