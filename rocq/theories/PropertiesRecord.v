(** * PropertiesRecord: C01-C15, recording of call traces by [TracingInspector] *)

From Verif Require Import Examples RecordPanicProofs OrderingProofs.

(** ** C01 *)
Theorem C01_arena_is_call_tree :
  forall cfg w f, env_ok cfg w f ->
  exists s,
    ti_run (ti_new cfg) (tx_events w f) = Ok s /\
    ti_trace_stack s = [] /\
    length (ti_traces s) = length (entered None 0 0 f) /\
    forall i par d g, entered None 0 0 f !! i = Some (par, d, g) ->
      exists n, ti_traces s !! i = Some n /\ nd_idx n = i /\ nd_parent n = par /\ tr_depth (nd_trace n) = d.
Proof.
  intros cfg w f Henv. destruct (tx_layout cfg w f Henv) as (lr & Hrun).
  eexists. split; [exact Hrun|]. split; [done|].
  pose proof (tx_length cfg w f _ Henv Hrun) as Hl.
  split; [by rewrite entered_length|].
  intros i par d g He. destruct (tx_lookup cfg w f _ Henv Hrun _ _ He) as (n & Hn). exists n.
  destruct (tx_shape cfg w f _ Henv Hrun _ _ _ _ _ He Hn) as (H1 & H2 & H3). done.
Qed.
Print Assumptions C01_arena_is_call_tree.
(** The example execution meets the hypothesis, for every configuration, and has six frames. *)
Example C01_example : (forall cfg, env_ok cfg ex_world ex_tx) /\
  map fst (entered None 0 0 ex_tx) =
    [(None, 0); (Some 0, 1); (Some 0, 1); (Some 0, 1); (Some 0, 1); (Some 4, 2)].
Proof. split; [apply ex_env|reflexivity]. Qed.

(** ** C02 *)
Theorem C02_arena_tree_any_history :
  forall cfg es, ti_run (ti_new cfg) es <> OutOfFuel /\
    forall s, ti_run (ti_new cfg) es = Ok s -> arena_tree (ti_traces s).
Proof.
  intros cfg es. split.
  - apply ti_run_fuel. apply arena_tree_default.
  - intros s. apply run_tree. apply arena_tree_default.
Qed.
Print Assumptions C02_arena_tree_any_history.
(** An ill-nested history (two depth-1 calls inside each other's frames, never closed) that runs. *)
Example C02_example :
  let c d := ctx_of ex_world d ex_j0 in
  let call := mkCallInputs [] 1 2 2 3 (Transfer 0) CSCall false in
  exists s, ti_run (ti_new cfg_none) [ECall (c 0) call; ECall (c 1) call; ECall (c 1) call; ECall (c 2) call] = Ok s /\
    map nd_parent (ti_traces s) = [None; Some 0; Some 0; Some 2].
Proof. eexists. split; vm_compute; reflexivity. Qed.

(** ** C03 *)
Theorem C03_node_data :
  forall cfg w f s i par d g n,
  env_ok cfg w f -> ti_run (ti_new cfg) (tx_events w f) = Ok s ->
  entered None 0 0 f !! i = Some (par, d, g) -> ti_traces s !! i = Some n ->
  let t := nd_trace n in
  let r := fe_result (f_end g) in
  tr_kind t = spec_kind (f_start g) /\
  tr_caller t = spec_caller (f_start g) /\
  tr_data t = spec_input (f_start g) /\
  tr_gas_limit t = spec_gas_limit w (i =? 0) (f_start g) /\
  (is_delegatecall (f_start g) = false -> tr_value t = spec_value (f_start g)) /\
  tr_address t = spec_address g /\
  (tr_selfdestruct_refund_target t, tr_selfdestruct_transferred_value t) =
    match last (selfdestructs_of (hooks (f_body g))) with
    | Some (_, target, value) => (Some target, Some value)
    | None => (None, None)
    end /\
  tr_status t = ir_result r /\
  tr_success t = spec_success (ir_result r) /\
  tr_output t = ir_output r /\
  (i <> 0 -> tr_gas_used t = (g_limit (ir_gas r) - g_remaining (ir_gas r))%N).
Proof.
  intros cfg w f s i par d g n Henv Hrun He Hn t r.
  destruct (tx_start cfg w f s Henv Hrun i par d g n He Hn) as (H1 & H2 & H3 & H4 & H5).
  destruct (tx_marks cfg w f s Henv Hrun i par d g n He Hn) as (H6 & H7).
  destruct (tx_end cfg w f s Henv Hrun i par d g n He Hn) as (H8 & H9 & H10 & H11 & _). done.
Qed.
Print Assumptions C03_node_data.
(** In the example the create frame (node 3) reports its address, refund target and amount. *)
Example C03_example :
  exists s n, ex_state ex_cfg = Ok s /\ ti_traces s !! 3 = Some n /\
    tr_kind (nd_trace n) = KCreate /\ tr_address (nd_trace n) = 0xE0%N /\
    tr_selfdestruct_refund_target (nd_trace n) = Some 0xBB%N /\ tr_value (nd_trace n) = 5%N /\
    tr_output (nd_trace n) = [x2a].
Proof. do 2 eexists. vm_compute. repeat split. Qed.

(** ** C04 *)
Theorem C04_ordering_complete :
  forall cfg es s, length (List.filter is_root_start es) <= 1 ->
  ti_run (ti_new cfg) es = Ok s -> Forall ordering_complete (ti_traces s).
Proof.
  intros cfg es s Hle Hr. eapply run_ordered; [|apply new_all_ordered|exact Hle| |exact Hr].
  - apply arena_tree_default.
  - intros _. apply new_pre_root.
Qed.
Print Assumptions C04_ordering_complete.
Example C04_example :
  length (List.filter is_root_start (tx_events ex_world ex_tx)) = 1 /\
  exists s n, ex_state ex_cfg = Ok s /\ ti_traces s !! 0 = Some n /\
    nd_ordering n = [OStep 0; OStep 1; OLog 0; OStep 2; OCall 0; OStep 3; OStep 4; OCall 1; OStep 5; OCall 2; OStep 6].
Proof. split; [reflexivity|]. do 2 eexists. split; vm_compute; [reflexivity|]. split; reflexivity. Qed.

(** Without the hypothesis (an inspector reused for a second transaction without [fuse]) it fails. *)
Theorem C04_reuse_without_fuse_refuted :
  exists cfg es s, ti_run (ti_new cfg) es = Ok s /\ ~ Forall ordering_complete (ti_traces s).
Proof.
  exists ex_cfg, (tx_events ex_world ex_delegate ++ tx_events ex_world ex_delegate).
  destruct (ti_run (ti_new ex_cfg) (tx_events ex_world ex_delegate ++ tx_events ex_world ex_delegate))
    as [s| |] eqn:E; [|vm_compute in E; discriminate..].
  exists s. split; [done|]. intros H. vm_compute in E. injection E as <-.
  inversion_clear H as [|? ? H1 _]. destruct H1 as [_ _ H3]. vm_compute in H3. discriminate.
Qed.
Print Assumptions C04_reuse_without_fuse_refuted.

(** ** C05 *)
Theorem C05_logs_attribution :
  forall cfg w f s i par d g n,
  env_ok cfg w f -> ti_run (ti_new cfg) (tx_events w f) = Ok s ->
  entered None 0 0 f !! i = Some (par, d, g) -> ti_traces s !! i = Some n ->
  map (fun l => (cl_topics l, cl_data l)) (nd_logs n) =
  if record_logs cfg then map (fun l => (lg_topics l, lg_data l)) (logs_of (hooks (f_body g))) else [].
Proof.
  intros cfg w f s i par d g n Henv Hrun He Hn. rewrite (tx_logs cfg w f s Henv Hrun i par d g n He Hn).
  destruct (record_logs cfg); [|done]. rewrite map_map. done.
Qed.
Print Assumptions C05_logs_attribution.
Example C05_example :
  exists s, ex_state ex_cfg = Ok s /\ map (fun n => length (nd_logs n)) (ti_traces s) = [1; 0; 0; 0; 0; 0].
Proof. eexists. split; vm_compute; reflexivity. Qed.

(** ** C06 *)
Theorem C06_steps_recorded_once :
  forall cfg w f s i par d g n,
  env_ok cfg w f -> ti_run (ti_new cfg) (tx_events w f) = Ok s ->
  entered None 0 0 f !! i = Some (par, d, g) -> ti_traces s !! i = Some n ->
  Forall2 (step_describes cfg w (S d))
    (List.filter (fun o => selected cfg (in_op (op_pre o))) (instrs (f_body g)))
    (tr_steps (nd_trace n)).
Proof. intros. by eapply tx_steps. Qed.
Print Assumptions C06_steps_recorded_once.
Example C06_example :
  exists s, ex_state ex_cfg = Ok s /\
    map (fun n => map st_op (tr_steps (nd_trace n))) (ti_traces s) =
    [[OP_PUSH1; OP_LOG0; OP_DELEGATECALL; OP_STATICCALL; OP_CREATE; OP_CALL; OP_STOP];
     [OP_PUSH1; OP_SSTORE; OP_STOP]; []; [OP_SELFDESTRUCT]; [OP_CALL; OP_REVERT]; []].
Proof. eexists. split; vm_compute; reflexivity. Qed.

(** ** C07 *)

(** Full statement (false of the code): every recorded memory is the memory before the step. *)
Definition C07_statement : Prop :=
  forall cfg w f s i par d g n,
  env_ok cfg w f -> evm_memory f -> record_memory_snapshots cfg = true ->
  ti_run (ti_new cfg) (tx_events w f) = Ok s ->
  entered None 0 0 f !! i = Some (par, d, g) -> ti_traces s !! i = Some n ->
  Forall2 (fun o st => st_memory st = Some (in_memory (op_pre o)))
    (List.filter (fun o => selected cfg (in_op (op_pre o))) (instrs (f_body g))) (tr_steps (nd_trace n)).

(** KECCAK256 over fresh memory grows memory; the next step still shows the old, shorter memory. *)
Definition c07_op (op : N) (pc : nat) (mem : bytes) : instr :=
  mkInstr (mkInterp op pc 1%N [0; 32]%N mem [] (ex_gas 100) Continue) ex_j0 []
          (mkInterp op pc 1%N [0; 32]%N mem [] (ex_gas 90) Continue) ex_j0.
Definition c07_tx : frame :=
  Frame (SCall ex_j0 (mkCallInputs [] 1000 5 5 6 (Transfer 0) CSCall false)%N)
    [IOp (c07_op OP_KECCAK256 0 []); IOp (c07_op OP_POP 1 (replicate 32 x00))] (ex_end Stop None).

Theorem C07_refuted : ~ C07_statement.
Proof.
  intros H. unfold C07_statement in H.
  destruct (ti_run (ti_new cfg_all) (tx_events ex_world c07_tx)) as [s| |] eqn:E; [|vm_compute in E; discriminate..].
  specialize (H cfg_all ex_world c07_tx s 0 None 0 c07_tx).
  destruct (ti_traces s !! 0) as [n|] eqn:En; [|vm_compute in E; injection E as <-; discriminate].
  specialize (H n).
  assert (Hf := H (env_okb_ok cfg_all ex_world c07_tx eq_refl)). clear H.
  assert (Hm : evm_memory c07_tx).
  { constructor; [|constructor]. cbn. split; [|done]. intros _. split; [intros _; by exists 32|done]. }
  specialize (Hf Hm eq_refl E eq_refl eq_refl). vm_compute in E. injection E as <-. vm_compute in En. injection En as <-.
  vm_compute in Hf. inversion_clear Hf as [|? ? ? ? _ H2]. inversion_clear H2 as [|? ? ? ? H3 _]. discriminate.
Qed.
Print Assumptions C07_refuted.

(** What holds: recorded memory and actual memory differ at most by zero bytes at the end; with an opcode
    filter, or in frames that run no KECCAK256, LOG0-LOG4, CREATE or CREATE2, they are equal. *)
Theorem C07_memory_snapshots_partial :
  forall cfg w f s i par d g n,
  env_ok cfg w f -> evm_memory f -> record_memory_snapshots cfg = true ->
  ti_run (ti_new cfg) (tx_events w f) = Ok s ->
  entered None 0 0 f !! i = Some (par, d, g) -> ti_traces s !! i = Some n ->
  let executed := List.filter (fun o => selected cfg (in_op (op_pre o))) (instrs (f_body g)) in
  Forall2 (fun o st => exists m k, st_memory st = Some m /\ in_memory (op_pre o) = m ++ replicate k x00)
    executed (tr_steps (nd_trace n)) /\
  (record_opcodes_filter cfg <> None \/
   Forall (fun o => existsb (N.eqb (in_op (op_pre o))) [0x20; 0xa0; 0xa1; 0xa2; 0xa3; 0xa4; 0xf0; 0xf5]%N = false)
     (instrs (f_body g)) ->
   Forall2 (fun o st => st_memory st = Some (in_memory (op_pre o))) executed (tr_steps (nd_trace n))).
Proof.
  intros cfg w f s i par d g n Henv Hmem Hrec Hrun He Hn executed.
  pose proof (tx_safe cfg w f Henv _ _ _ _ He) as Hsafe.
  pose proof (every_entered _ _ Hmem _ _ _ _ _ _ _ He) as Hadj. cbn beta in Hadj.
  rewrite (tx_steps_eq cfg w f s Henv Hrun _ _ _ _ _ He Hn).
  destruct (record_opcodes_filter cfg) as [flt|] eqn:Hflt.
  - assert (Hf : Forall2 (fun o st => st_memory st = Some (in_memory (op_pre o))) executed
               (steps_from cfg w (S d) None (instrs (f_body g)))).
    { apply memory_filtered; [done| |done]. by rewrite Hflt. }
    split; [|done]. eapply Forall2_impl; [exact Hf|]. intros o st Hst. exists (in_memory (op_pre o)), 0.
    split; [done|]. by rewrite app_nil_r.
  - destruct (record_steps cfg) eqn:Hst.
    + assert (Hall : executed = instrs (f_body g)).
      { unfold executed, selected. rewrite Hst, Hflt. cbn. clear. induction (instrs (f_body g)); cbn; congruence. }
      rewrite Hall. split; [by apply memory_unfiltered|].
      intros [?|Hq]; [done|]. apply memory_exact; try done.
      eapply Forall_impl; [exact Hq|]. intros o Ho. unfold silently_expands, evm_expands_memory.
      cbn in Ho |- *. revert Ho.
      repeat match goal with |- context [(in_op (op_pre o) =? ?x)%N] => destruct (in_op (op_pre o) =? x)%N end;
        cbn; intros; try done.
    + assert (Hnil : forall prev os, steps_from cfg w (S d) prev os = []).
      { intros prev os. revert prev. induction os as [|o os IH]; intros prev; cbn; [done|].
        unfold recorded. rewrite Hst. cbn. apply IH. }
      assert (Hall : executed = []).
      { unfold executed, selected. rewrite Hst. cbn. clear. induction (instrs (f_body g)); done. }
      rewrite Hnil, Hall. split; [constructor|]. intros _. constructor.
Qed.
Print Assumptions C07_memory_snapshots_partial.

(** In general, whatever the EVM does to memory: without a filter, each step shows the memory as it was before the
    newest instruction at which a fresh copy was taken. *)
Theorem C07_snapshots_exactly :
  forall cfg w f s i par d g n k st,
  env_ok cfg w f -> record_memory_snapshots cfg = true -> record_opcodes_filter cfg = None ->
  ti_run (ti_new cfg) (tx_events w f) = Ok s ->
  entered None 0 0 f !! i = Some (par, d, g) -> ti_traces s !! i = Some n -> tr_steps (nd_trace n) !! k = Some st ->
  exists j o, j <= k /\ instrs (f_body g) !! j = Some o /\ fresh_copy (instrs (f_body g)) j /\
    (forall i, j < i <= k -> ~ fresh_copy (instrs (f_body g)) i) /\ st_memory st = Some (in_memory (op_pre o)).
Proof.
  intros cfg w f s i par d g n k st Henv Hrec Hflt Hrun He Hn Hst.
  pose proof (tx_safe cfg w f Henv _ _ _ _ He) as Hsafe.
  rewrite (tx_steps_eq cfg w f s Henv Hrun _ _ _ _ _ He Hn) in Hst.
  destruct (record_steps cfg) eqn:Hs.
  - exact (memory_copies cfg w Hrec (S d) (instrs (f_body g)) Hs Hflt Hsafe (instrs (f_body g)) [] None eq_refl eq_refl k st Hst).
  - exfalso. clear -Hs Hst. revert Hst. generalize (None : option CallTraceStep) as prev. revert k.
    induction (instrs (f_body g)) as [|o os IH]; intros k prev; cbn [steps_from]; [done|]. unfold recorded. rewrite Hs. cbn [andb]. apply IH.
Qed.
Print Assumptions C07_snapshots_exactly.
Example C07_exactly_example : exists s n,
  env_ok cfg_all ex_world c07_tx /\ record_opcodes_filter cfg_all = None /\ ti_run (ti_new cfg_all) (tx_events ex_world c07_tx) = Ok s /\
  ti_traces s !! 0 = Some n /\ map st_memory (tr_steps (nd_trace n)) = [Some []; Some []].
Proof. do 2 eexists. split; [by apply env_okb_ok|]. split_and!; vm_compute; reflexivity. Qed.

Example C07_example : env_ok cfg_all ex_world c07_tx /\ evm_memory c07_tx /\ record_memory_snapshots cfg_all = true.
Proof.
  split; [by apply env_okb_ok|]. split; [|done].
  constructor; [|constructor]. cbn. split; [|done]. intros _. split; [intros _; by exists 32|done].
Qed.

(** ** C08 *)

(** The step itself changed storage slot [k] of its contract: the journal's current entry list grew, by a
    storage change of that contract and slot at last (after the entry that the slot was accessed, if it was for the first
    time), whose present value is now [v]. *)
Definition performs_change (o : instr) (k v had : U256) : Prop :=
  exists jn0 more, last (j_journal (op_pre_j o)) = Some jn0 /\
    last (j_journal (op_post_j o)) = Some (jn0 ++ more ++ [JStorageChanged (in_contract (op_pre o)) k had]) /\
    j_present (op_post_j o) (in_contract (op_pre o)) k = Some v.

(** Full statement (false of the code). *)
Definition C08_statement : Prop :=
  forall cfg w f s i par d g n,
  env_ok cfg w f -> ti_run (ti_new cfg) (tx_events w f) = Ok s ->
  entered None 0 0 f !! i = Some (par, d, g) -> ti_traces s !! i = Some n ->
  Forall2 (fun o st => forall ch, st_storage_change st = Some ch ->
             exists had, performs_change o (sc_key ch) (sc_value ch) had)
    (List.filter (fun o => selected cfg (in_op (op_pre o))) (instrs (f_body g))) (tr_steps (nd_trace n)).

(** SSTORE of slot 1, then a warm SLOAD of slot 2 (which adds no journal entry): the SLOAD step reports a
    change of slot 1. *)
Definition c08_j (l : list JournalEntry) : jview := mkJ [l] (fun _ k => if (k =? 1)%N then Some 9%N else Some 0%N).
Definition c08_j0 := c08_j [JOther].
Definition c08_j1 := c08_j [JOther; JStorageChanged 5 1 0]%N.
Definition c08_op (op : N) (pc : nat) (j j' : jview) (stack stack' : list N) : instr :=
  mkInstr (mkInterp op pc 5%N stack [] [] (ex_gas 100) Continue) j []
          (mkInterp op pc 5%N stack' [] [] (ex_gas 90) Continue) j'.
Definition c08_tx : frame :=
  Frame (SCall c08_j0 (mkCallInputs [] 1000 5 5 6 (Transfer 0) CSCall false)%N)
    [IOp (c08_op OP_SSTORE 0 c08_j0 c08_j1 [9; 1]%N []); IOp (c08_op OP_SLOAD 1 c08_j1 c08_j1 [2]%N [0]%N)]
    (ex_end Stop None).

Theorem C08_refuted : ~ C08_statement.
Proof.
  intros H. unfold C08_statement in H.
  destruct (ti_run (ti_new cfg_default_geth) (tx_events ex_world c08_tx)) as [s| |] eqn:E;
    [|vm_compute in E; discriminate..].
  specialize (H cfg_default_geth ex_world c08_tx s 0 None 0 c08_tx).
  destruct (ti_traces s !! 0) as [n|] eqn:En; [|vm_compute in E; injection E as <-; discriminate].
  specialize (H n (env_okb_ok cfg_default_geth ex_world c08_tx eq_refl) E eq_refl eq_refl).
  vm_compute in E. injection E as <-. vm_compute in En. injection En as <-.
  inversion_clear H as [|? ? ? ? _ H2]. inversion_clear H2 as [|? ? ? ? H3 _].
  destruct (H3 _ eq_refl) as (had & jn0 & more & Hj1 & Hj2 & _). vm_compute in Hj1. injection Hj1 as <-.
  vm_compute in Hj2. injection Hj2. by destruct more.
Qed.
Print Assumptions C08_refuted.

(** What holds: when the storage instruction itself appended a journal entry for its slot, the recorded
    change is exactly that one; other opcodes never carry a change. *)
Theorem C08_storage_change_partial :
  forall cfg w f s i par d g n,
  env_ok cfg w f -> record_state_diff cfg = true -> ti_run (ti_new cfg) (tx_events w f) = Ok s ->
  entered None 0 0 f !! i = Some (par, d, g) -> ti_traces s !! i = Some n ->
  Forall2 (fun o st =>
             (in_op (op_pre o) <> OP_SLOAD -> in_op (op_pre o) <> OP_SSTORE -> st_storage_change st = None) /\
             (forall k v had, in_op (op_pre o) = OP_SLOAD \/ in_op (op_pre o) = OP_SSTORE ->
                performs_change o k v had ->
                st_storage_change st =
                  Some (mkStorageChange k v (Some had) (if (in_op (op_pre o) =? OP_SLOAD)%N then RSLOAD else RSSTORE))))
    (List.filter (fun o => selected cfg (in_op (op_pre o))) (instrs (f_body g))) (tr_steps (nd_trace n)).
Proof.
  intros cfg w f s i par d g n Henv Hdiff Hrun He Hn.
  pose proof (tx_safe cfg w f Henv _ _ _ _ He) as Hsafe.
  rewrite (tx_steps_eq cfg w f s Henv Hrun _ _ _ _ _ He Hn). generalize (@None CallTraceStep).
  induction Hsafe as [|o os Ho Hos IH]; intros prev; cbn; [constructor|].
  rewrite <-recorded_selected. destruct (recorded cfg o) eqn:Hr; [|apply IH].
  constructor; [|apply IH].
  destruct (fill_step_ok cfg w (S d) prev o Hr Ho) as (st' & Hst').
  unfold step_of. rewrite Hst'. apply fill_step_fields in Hst' as
    (_ & _ & _ & _ & _ & _ & _ & _ & _ & _ & _ & _ & _ & _ & Hsc).
  cbn [new_step st_op st_storage_change] in Hsc. unfold storage_snapshot in Hsc. rewrite Hdiff in Hsc.
  inv_bind Hsc. apply expect_Ok in E. cbn [ctx_of cx_journal cx_present] in *. split.
  - intros H1 H2. apply N.eqb_neq in H1, H2. rewrite H1, H2 in Hsc. cbn [orb] in Hsc.
    destruct (last a) as [[]|]; congruence.
  - intros k v had Hop (jn0 & more & _ & Hj & Hp). rewrite E in Hj. injection Hj as ->. rewrite app_assoc, last_snoc, Hp in Hsc.
    assert (Hb : (in_op (op_pre o) =? OP_SLOAD)%N || (in_op (op_pre o) =? OP_SSTORE)%N = true).
    { destruct Hop as [-> | ->]; done. }
    rewrite Hb in Hsc. congruence.
Qed.
Print Assumptions C08_storage_change_partial.
(** What is recorded in general: for SLOAD and SSTORE, the newest entry of the current journal list after the
    instruction, if that is a storage change (of whatever slot and account, by whatever instruction), with the present
    value of that slot; nothing otherwise. *)
Theorem C08_recorded_exactly :
  forall cfg w f s i par d g n,
  env_ok cfg w f -> record_state_diff cfg = true -> ti_run (ti_new cfg) (tx_events w f) = Ok s ->
  entered None 0 0 f !! i = Some (par, d, g) -> ti_traces s !! i = Some n ->
  Forall2 (fun o st =>
             match st_storage_change st with
             | Some ch =>
                 (in_op (op_pre o) = OP_SLOAD /\ sc_reason ch = RSLOAD \/ in_op (op_pre o) = OP_SSTORE /\ sc_reason ch = RSSTORE) /\
                 exists jn a had, last (j_journal (op_post_j o)) = Some jn /\ last jn = Some (JStorageChanged a (sc_key ch) had) /\
                   sc_had_value ch = Some had /\ j_present (op_post_j o) a (sc_key ch) = Some (sc_value ch)
             | None =>
                 in_op (op_pre o) = OP_SLOAD \/ in_op (op_pre o) = OP_SSTORE ->
                 forall jn a k had, last (j_journal (op_post_j o)) = Some jn -> last jn <> Some (JStorageChanged a k had)
             end)
    (List.filter (fun o => selected cfg (in_op (op_pre o))) (instrs (f_body g))) (tr_steps (nd_trace n)).
Proof.
  intros cfg w f s i par d g n Henv Hdiff Hrun He Hn.
  pose proof (tx_safe cfg w f Henv _ _ _ _ He) as Hsafe.
  rewrite (tx_steps_eq cfg w f s Henv Hrun _ _ _ _ _ He Hn). generalize (@None CallTraceStep).
  induction Hsafe as [|o os Ho Hos IH]; intros prev; cbn; [constructor|].
  rewrite <-recorded_selected. destruct (recorded cfg o) eqn:Hr; [|apply IH].
  constructor; [|apply IH].
  destruct (fill_step_ok cfg w (S d) prev o Hr Ho) as (st' & Hst').
  unfold step_of. rewrite Hst'. apply fill_step_fields in Hst' as
    (_ & _ & _ & _ & _ & _ & _ & _ & _ & _ & _ & _ & _ & _ & Hsc).
  cbn [new_step st_op st_storage_change] in Hsc. unfold storage_snapshot in Hsc. rewrite Hdiff in Hsc.
  inv_bind Hsc. apply expect_Ok in E. cbn [ctx_of cx_journal cx_present] in *.
  destruct (last a) as [[ad k had|]|] eqn:El.
  2,3: injection Hsc as <-; intros _ jn a' k' had' Hj; congruence.
  destruct (N.eqb_spec (in_op (op_pre o)) OP_SLOAD) as [H1|H1].
  - cbn [orb] in Hsc. destruct (j_present (op_post_j o) ad k) as [v|] eqn:Ev; [|discriminate Hsc]. injection Hsc as <-. cbn. split; [by left|].
    by exists a, ad, had.
  - destruct (N.eqb_spec (in_op (op_pre o)) OP_SSTORE) as [H2|H2]; cbn [orb] in Hsc.
    + destruct (j_present (op_post_j o) ad k) as [v|] eqn:Ev; [|discriminate Hsc]. injection Hsc as <-. cbn. split; [by right|].
      by exists a, ad, had.
    + injection Hsc as <-. intros []; done.
Qed.
Print Assumptions C08_recorded_exactly.
Example C08_example : env_ok cfg_default_geth ex_world c08_tx /\
  performs_change (c08_op OP_SSTORE 0 c08_j0 c08_j1 [9; 1]%N []) 1%N 9%N 0%N.
Proof. split; [by apply env_okb_ok|]. by exists [JOther], []. Qed.

(** ** C09 *)

(** Full statement (false of the code): no execution makes the recording panic. *)
Definition C09_statement : Prop :=
  forall cfg w f, record_stack_snapshots cfg = SnapPushes -> record_state_diff cfg = false ->
  exists s, ti_run (ti_new cfg) (tx_events w f) = Ok s.

(** ADD with an empty stack halts with StackUnderflow; the stack is still empty at [step_end]. *)
Definition c09_tx : frame :=
  Frame (SCall ex_j0 (mkCallInputs [] 1000 5 5 6 (Transfer 0) CSCall false)%N)
    [IOp (ex_op OP_ADD 0 [] [] 100%N ex_j0 [] StackUnderflow)] (ex_end StackUnderflow None).

Theorem C09_refuted : ~ C09_statement.
Proof.
  intros H. destruct (H (from_parity_config [TVmTrace]) ex_world c09_tx eq_refl eq_refl) as (s & Hs).
  vm_compute in Hs. discriminate.
Qed.
Print Assumptions C09_refuted.

(** What holds: if after every recorded instruction the stack holds at least the announced number of items,
    nothing panics and each snapshot is the top of the stack after the instruction. *)
Theorem C09_push_snapshots_partial :
  forall cfg w f, env_ok cfg w f -> record_stack_snapshots cfg = SnapPushes ->
  exists s, ti_run (ti_new cfg) (tx_events w f) = Ok s /\
  forall i par d g n, entered None 0 0 f !! i = Some (par, d, g) -> ti_traces s !! i = Some n ->
  Forall2 (fun o st => exists top rest, st_push_stack st = Some top /\ in_stack (op_post o) = rest ++ top /\
             length top = stack_push_count (in_op (op_pre o)))
    (List.filter (fun o => selected cfg (in_op (op_pre o))) (instrs (f_body g))) (tr_steps (nd_trace n)).
Proof.
  intros cfg w f Henv Hp. destruct (tx_layout cfg w f Henv) as (lr & Hrun).
  eexists. split; [exact Hrun|]. intros i par d g n He Hn.
  pose proof (tx_safe cfg w f Henv _ _ _ _ He) as Hsafe.
  rewrite (tx_steps_eq cfg w f _ Henv Hrun _ _ _ _ _ He Hn). generalize (@None CallTraceStep).
  induction Hsafe as [|o os Ho Hos IH]; intros prev; cbn; [constructor|].
  rewrite <-recorded_selected. destruct (recorded cfg o) eqn:Hr; [|apply IH].
  constructor; [|apply IH].
  destruct (fill_step_ok cfg w (S d) prev o Hr Ho) as (st' & Hst').
  unfold step_of. rewrite Hst'. apply fill_step_fields in Hst' as
    (_ & _ & _ & _ & _ & _ & _ & _ & _ & _ & _ & _ & _ & Hps & _).
  cbn [new_step st_op st_push_stack] in Hps. unfold push_snapshot in Hps. rewrite Hp in Hps. cbn [snap_is_pushes] in Hps.
  destruct (Nat.leb_spec (stack_push_count (in_op (op_pre o))) (length (in_stack (op_post o)))) as [Hle|]; [|done].
  injection Hps as <-.
  eexists _, (take (length (in_stack (op_post o)) - stack_push_count (in_op (op_pre o))) (in_stack (op_post o))).
  split; [done|]. rewrite take_drop. split; [done|]. rewrite drop_length. lia.
Qed.
Print Assumptions C09_push_snapshots_partial.
(** Recording panics exactly when some recorded instruction is not [snapshot_safe]: too few stack items after it, or
    no journal entry list, or a slot missing that the newest journal entry names. *)
Theorem C09_panics_exactly :
  forall cfg w f, (exclude_precompile_calls cfg = true -> precompiles_are_leaves w f) ->
  (exists p, ti_run (ti_new cfg) (tx_events w f) = Panic p) <->
  ~ every_frame (fun g => Forall (snapshot_safe cfg) (instrs (f_body g))) f.
Proof.
  intros cfg w f Hl. pose proof (tx_completes cfg w f Hl) as Hc. split.
  - intros [p Hp] Hs. apply Hc in Hs as [s Hs]. congruence.
  - intros Hn. destruct (ti_run (ti_new cfg) (tx_events w f)) as [s|p|] eqn:E; [|by exists p|].
    + exfalso. apply Hn, Hc. by exists s.
    + exfalso. eapply ti_run_fuel; [|exact E]. apply arena_tree_default.
Qed.
Print Assumptions C09_panics_exactly.
Example C09_panics_example : exists p, ti_run (ti_new (from_parity_config [TVmTrace])) (tx_events ex_world c09_tx) = Panic p.
Proof. eexists. vm_compute. reflexivity. Qed.
Example C09_example : env_ok ex_cfg ex_world ex_tx /\ record_stack_snapshots ex_cfg = SnapPushes.
Proof. split; [apply ex_env|done]. Qed.

(** ** C10 *)
Theorem C10_gas_used_capped :
  forall cfg w f s i par d g n,
  env_ok cfg w f -> ti_run (ti_new cfg) (tx_events w f) = Ok s ->
  entered None 0 0 f !! i = Some (par, d, g) -> ti_traces s !! i = Some n ->
  let gas := ir_gas (fe_result (f_end g)) in
  let spent := (g_limit gas - g_remaining gas)%N in
  let cap := if (spec_ord LONDON <=? spec_ord (w_spec w))%N then (spent / 5)%N else (spent / 2)%N in
  let used := tr_gas_used (nd_trace n) in
  (i <> 0 -> used = spent) /\
  (i = 0 -> (0 <= g_refunded gas < 18446744073709551616)%Z ->
     used = spec_root_gas (w_spec w) spent (Z.to_N (g_refunded gas))) /\
  (used <= spent)%N /\ (spent <= used + cap)%N /\ (cap <= spent)%N.
Proof.
  intros cfg w f s i par d g n Henv Hrun He Hn gas spent cap used.
  destruct (tx_end cfg w f s Henv Hrun i par d g n He Hn) as (_ & _ & _ & H1 & H2). fold gas spent in H1, H2.
  assert (Hcap : (cap <= spent)%N).
  { unfold cap. destruct (_ <=? _)%N; apply N.div_le_upper_bound; lia. }
  split_and!; [done| | | |done].
  - intros Hi Hz. unfold used. rewrite (H2 Hi), gas_used_spec, (i64_as_u64_nonneg _ Hz). done.
  - unfold used. destruct (decide (i = 0)) as [Hi|Hi]; [rewrite (H2 Hi)|rewrite (H1 Hi)]; [|lia].
    rewrite gas_used_spec. unfold spec_root_gas. apply N.le_sub_l.
  - unfold used. destruct (decide (i = 0)) as [Hi|Hi]; [rewrite (H2 Hi)|rewrite (H1 Hi)]; [|lia].
    rewrite gas_used_spec. unfold spec_root_gas. fold cap. destruct (N.leb_spec (i64_as_u64 (g_refunded gas)) cap); lia.
Qed.
Print Assumptions C10_gas_used_capped.
(** Root spent 40000 with refund 4800 (below the cap of 8000); sub-frames report 40000. *)
Example C10_example :
  exists s, ex_state ex_cfg = Ok s /\
    map (fun n => tr_gas_used (nd_trace n)) (ti_traces s) = [35200; 40000; 40000; 40000; 40000; 40000]%N.
Proof. eexists. split; vm_compute; reflexivity. Qed.

(** ** C11 *)

(** Full statement (false of the code). *)
Definition C11_statement : Prop :=
  forall cfg w f s n, env_ok cfg w f -> ti_run (ti_new cfg) (tx_events w f) = Ok s -> ti_traces s !! 0 = Some n ->
  let gas := ir_gas (fe_result (f_end f)) in
  (g_refunded gas < 0)%Z -> tr_gas_used (nd_trace n) = (g_limit gas - g_remaining gas)%N.

(** For every negative counter (of an i64) the whole cap is subtracted instead. *)
Theorem C11_negative_refund_takes_full_cap :
  forall cfg w f s n, env_ok cfg w f -> ti_run (ti_new cfg) (tx_events w f) = Ok s -> ti_traces s !! 0 = Some n ->
  let gas := ir_gas (fe_result (f_end f)) in
  let spent := (g_limit gas - g_remaining gas)%N in
  (- 9223372036854775808 <= g_refunded gas < 0)%Z -> (spent < 18446744073709551616)%N ->
  tr_gas_used (nd_trace n) =
    (spent - (if (spec_ord LONDON <=? spec_ord (w_spec w))%N then spent / 5 else spent / 2))%N.
Proof.
  intros cfg w f s n Henv Hrun Hn gas spent Hz Hsp.
  assert (He : entered None 0 0 f !! 0 = Some (None, 0, f)) by (by destruct f).
  destruct (tx_end cfg w f s Henv Hrun 0 None 0 f n He Hn) as (_ & _ & _ & _ & H2).
  rewrite (H2 eq_refl), gas_used_spec. fold gas spent. unfold spec_root_gas.
  assert (Hbig : (9223372036854775808 <= i64_as_u64 (g_refunded gas))%N).
  { unfold i64_as_u64. rewrite <-(Z.mod_add _ 1) by done. rewrite Z.mod_small by lia. lia. }
  f_equal. destruct (spec_ord LONDON <=? spec_ord (w_spec w))%N.
  - destruct (N.leb_spec (i64_as_u64 (g_refunded gas)) (spent / 5)%N) as [Hle|]; [|done].
    assert (spent / 5 < 9223372036854775808)%N by (apply N.div_lt_upper_bound; lia). lia.
  - destruct (N.leb_spec (i64_as_u64 (g_refunded gas)) (spent / 2)%N) as [Hle|]; [|done].
    assert (spent / 2 < 9223372036854775808)%N by (apply N.div_lt_upper_bound; lia). lia.
Qed.
Print Assumptions C11_negative_refund_takes_full_cap.

Definition c11_tx : frame :=
  Frame (SCall ex_j0 (mkCallInputs [] 1000 5 5 6 (Transfer 0) CSCall false)%N) []
    (mkEnd ex_j0 (mkIR Stop [] (mkGas 1000%N 0%N (-1)%Z)) None).
Theorem C11_refuted : ~ C11_statement.
Proof.
  intros H. destruct (ti_run (ti_new cfg_none) (tx_events ex_world c11_tx)) as [s| |] eqn:E;
    [|vm_compute in E; discriminate..].
  destruct (ti_traces s !! 0) as [n|] eqn:En; [|vm_compute in E; injection E as <-; discriminate].
  specialize (H cfg_none ex_world c11_tx s n (env_okb_ok cfg_none ex_world c11_tx eq_refl) E En eq_refl).
  vm_compute in E. injection E as <-. vm_compute in En. injection En as <-. vm_compute in H. discriminate.
Qed.
Print Assumptions C11_refuted.
(** What holds: a non-negative counter is applied as is; a negative one counts as 2^64 more, in the steps too, and so
    takes the whole cap. *)
Theorem C11_counters_partial :
  forall cfg w f s i par d g n,
  env_ok cfg w f -> ti_run (ti_new cfg) (tx_events w f) = Ok s ->
  entered None 0 0 f !! i = Some (par, d, g) -> ti_traces s !! i = Some n ->
  (i = 0 -> (0 <= g_refunded (ir_gas (fe_result (f_end f))))%Z ->
   (g_refunded (ir_gas (fe_result (f_end f))) < 9223372036854775808)%Z ->
   let gas := ir_gas (fe_result (f_end f)) in
   tr_gas_used (nd_trace n) = spec_root_gas (w_spec w) (g_limit gas - g_remaining gas)%N (Z.to_N (g_refunded gas))) /\
  Forall2 (fun o st =>
      let z := g_refunded (in_gas (op_pre o)) in
      let spent := (g_limit (in_gas (op_pre o)) - g_remaining (in_gas (op_pre o)))%N in
      (- 9223372036854775808 <= z < 9223372036854775808)%Z -> (spent < 18446744073709551616)%N ->
      if (z <? 0)%Z
      then Z.of_N (st_gas_refund_counter st) = (z + 18446744073709551616)%Z /\
           st_gas_used st = (spent - (if (spec_ord LONDON <=? spec_ord (w_spec w))%N then spent / 5 else spent / 2))%N
      else Z.of_N (st_gas_refund_counter st) = z /\ st_gas_used st = spec_root_gas (w_spec w) spent (Z.to_N z))
    (List.filter (fun o => selected cfg (in_op (op_pre o))) (instrs (f_body g))) (tr_steps (nd_trace n)).
Proof.
  intros cfg w f s i par d g n Henv Hrun He Hn. split.
  - intros -> H1 H2 gas. assert (g = f) as -> by (destruct f; cbn in He; congruence).
    destruct (C10_gas_used_capped cfg w f s 0 par d f n Henv Hrun He Hn) as (_ & H & _). apply H; [done|]. lia.
  - eapply Forall2_impl; [by eapply (tx_refunds cfg w f s Henv Hrun)|]. intros o st [H1 H2] z spent Hz Hsp.
    cbv zeta in H1, H2. fold z in H1, H2. fold spent in H2. rewrite H1, H2, gas_used_spec.
    destruct (Z.ltb_spec z 0) as [Hneg|Hpos].
    + assert (Hbig : Z.of_N (i64_as_u64 z) = (z + 18446744073709551616)%Z).
      { unfold i64_as_u64. rewrite <-(Z.mod_add _ 1) by done. rewrite Z.mod_small by lia. lia. }
      split; [done|]. unfold spec_root_gas. f_equal. destruct (spec_ord LONDON <=? spec_ord (w_spec w))%N.
      * destruct (N.leb_spec (i64_as_u64 z) (spent / 5)%N) as [Hle|]; [|done].
        assert (spent / 5 < 9223372036854775808)%N by (apply N.div_lt_upper_bound; lia). lia.
      * destruct (N.leb_spec (i64_as_u64 z) (spent / 2)%N) as [Hle|]; [|done].
        assert (spent / 2 < 9223372036854775808)%N by (apply N.div_lt_upper_bound; lia). lia.
    + rewrite (i64_as_u64_nonneg z) by lia. split; [lia|done].
Qed.
Print Assumptions C11_counters_partial.
Example C11_example : (- 9223372036854775808 <= g_refunded (ir_gas (fe_result (f_end c11_tx))) < 0)%Z
  /\ env_ok cfg_none ex_world c11_tx.
Proof. split; [cbn; lia|by apply env_okb_ok]. Qed.

(** ** C12 *)
Theorem C12_fuse_is_new :
  forall cfg es s later, ti_run (ti_new cfg) es = Ok s ->
  ti_fuse s = ti_new (ti_config s) /\ ti_config s = cfg /\
  ti_run (ti_fuse s) later = ti_run (ti_new cfg) later.
Proof.
  intros cfg es s later Hr.
  assert (Hc : ti_config s = cfg) by (by eapply ti_run_config).
  assert (Hf : ti_fuse s = ti_new (ti_config s)) by done.
  split_and!; [done|done|]. by rewrite Hf, Hc.
Qed.
Print Assumptions C12_fuse_is_new.
Example C12_example : exists s, ex_state ex_cfg = Ok s /\ length (ti_traces s) = 6 /\ length (ti_traces (ti_fuse s)) = 1.
Proof. eexists. split; vm_compute; [reflexivity|]. done. Qed.

(** ** C14 *)
Theorem C14_delegate_value :
  forall cfg w f s i par d g n,
  env_ok cfg w f -> ti_run (ti_new cfg) (tx_events w f) = Ok s ->
  entered None 0 0 f !! i = Some (par, d, g) -> ti_traces s !! i = Some n ->
  (i <> 0 -> is_delegatecall (f_start g) = true ->
     exists p pn, par = Some p /\ ti_traces s !! p = Some pn /\ tr_value (nd_trace n) = tr_value (nd_trace pn)) /\
  (evm_delegate_values f -> tr_value (nd_trace n) = spec_value (f_start g)).
Proof.
  intros cfg w f s i par d g n Henv Hrun He Hn. split.
  - intros Hi Hd. by eapply (tx_value_delegate cfg w f s Henv Hrun i par d g n).
  - intros Hev. by eapply tx_value_inherited.
Qed.
Print Assumptions C14_delegate_value.
Example C14_example : env_ok ex_cfg ex_world ex_tx /\ evm_delegate_values ex_tx /\
  exists s n, ex_state ex_cfg = Ok s /\ ti_traces s !! 1 = Some n /\
    tr_kind (nd_trace n) = KDelegateCall /\ tr_value (nd_trace n) = 7%N.
Proof.
  split; [apply ex_env|]. split.
  - repeat (constructor; cbn; try done).
  - do 2 eexists. vm_compute. repeat split.
Qed.

(** ** C15 *)
Theorem C15_excluded_precompiles :
  forall cfg w f s i par d g n,
  env_ok cfg w f -> ti_run (ti_new cfg) (tx_events w f) = Ok s ->
  entered None 0 0 f !! i = Some (par, d, g) -> ti_traces s !! i = Some n ->
  let hidden := exclude_precompile_calls cfg = true /\ is_call (f_start g) = true /\
                w_precompiles w (code_address (f_start g)) = true /\ i <> 0 /\ tr_value (nd_trace n) = 0%N in
  (nd_is_precompile n = true <-> hidden) /\
  (hidden -> forall p pn, ti_traces s !! p = Some pn -> ~ In i (nd_children pn)) /\
  (~ hidden -> forall p, par = Some p -> exists pn, ti_traces s !! p = Some pn /\ In i (nd_children pn)).
Proof.
  intros cfg w f s i par d g n Henv Hrun He Hn hidden.
  pose proof (tx_precompile cfg w f s Henv Hrun i par d g n He Hn) as Hp.
  pose proof (tx_tree cfg w f s Hrun) as Ht.
  destruct (tx_shape cfg w f s Henv Hrun i par d g n He Hn) as (Hpar & _ & _).
  split_and!; [done| |].
  - intros Hh p pn Hpn Hin. apply (at_children _ Ht _ _ Hpn) in Hin as (n' & Hn' & _ & Hnp).
    rewrite Hn in Hn'. injection Hn' as <-. apply Hp in Hh. congruence.
  - intros Hh p ->. 
    assert (Hi : i <> 0).
    { intros ->. destruct (at_root _ Ht) as (r & Hr & Hrp & _). congruence. }
    destruct (at_parent _ Ht i n Hn Hi) as (p' & pn & Hpp & Hlt & Hpn & _).
    assert (p' = p) as -> by congruence. exists pn. split; [done|].
    apply (at_children _ Ht _ _ Hpn). exists n. split_and!; [done|done|].
    destruct (nd_is_precompile n); [|done]. exfalso. by apply Hh, Hp.
Qed.
Print Assumptions C15_excluded_precompiles.
(** In the example, node 2 (zero value) is hidden; node 5 (precompile call carrying value) is kept. *)
Example C15_example : env_ok ex_cfg ex_world ex_tx /\ exists s, ex_state ex_cfg = Ok s /\
  map nd_children (ti_traces s) = [[1; 3; 4]; []; []; []; [5]; []].
Proof. split; [apply ex_env|]. eexists. split; vm_compute; reflexivity. Qed.

(** ** C13 (the tracing inspector; the other inspectors are in their own files) *)
Theorem C13_tracing_passive :
  forall s e s' r, ti_handle s e = Ok (s', r) -> r = default_response e.
Proof. intros s e s' r H. destruct e; cbn [ti_handle] in H; inv_bind H; by injection H as _ <-. Qed.
Print Assumptions C13_tracing_passive.
Example C13_example : exists s r, ti_handle (ti_new ex_cfg) (ECall (ctx_of ex_world 0 ex_j0)
  (mkCallInputs [x01] 1000 5 5 6 (Transfer 3) CSCall false)%N) = Ok (s, r).
Proof. do 2 eexists. vm_compute. reflexivity. Qed.

(** ** C64 *)
Theorem C64_ordering_chronological :
  forall cfg w f s i par d g n,
  env_ok cfg w f -> ti_run (ti_new cfg) (tx_events w f) = Ok s ->
  entered None 0 0 f !! i = Some (par, d, g) -> ti_traces s !! i = Some n ->
  map (fun o => match o with OLog _ => MLog | OCall _ => MCall | OStep _ => MStep end) (nd_ordering n) =
  flat_map (happenings cfg w (tr_value (nd_trace n))) (f_body g).
Proof.
  intros cfg w f s i par d g n Henv Hrun He Hn.
  transitivity (map member_of (nd_ordering n)); [done|].
  rewrite (tx_members cfg w f s Henv Hrun i par d g n He Hn).
  apply flat_map_ext. intros it. apply item_members_happenings.
Qed.
Print Assumptions C64_ordering_chronological.
Example C64_example : env_ok ex_cfg ex_world ex_tx /\
  flat_map (happenings ex_cfg ex_world 7%N) (f_body ex_tx) =
    [MStep; MStep; MLog; MStep; MCall; MStep; MStep; MCall; MStep; MCall; MStep].
Proof. split; [apply ex_env|reflexivity]. Qed.
