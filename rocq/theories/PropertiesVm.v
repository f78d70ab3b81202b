(** * PropertiesVm: C82-C84, the vm trace of a whole transaction *)

From Verif Require Export VmTxProofs VmOrderProofs StateDiff.
From Verif Require Import PropertiesParity PropertiesLogs Examples.

(** ** C82 *)

(** The vm trace is a function of the execution, for every configuration: the frames the user asked for finish one after
    the other, each takes the sub-traces of its call-like instructions from the front of one common queue and puts its
    own trace at the back; the last trace, that of the transaction itself, is returned. Only the STOP shortcut
    replaces all of it by an empty trace. *)
Theorem C82_vm_trace :
  forall cfg w f s, env_ok cfg w f -> evm_memory f -> ti_run (ti_new cfg) (tx_events w f) = Ok s ->
  exists t, vm_trace (ti_traces s) = Ok t /\
    if shortcut cfg w f then t = mkVm [] []
    else exists q, dealt cfg (finished cfg w (spec_value (f_start f)) f) [] (q ++ [t]).
Proof.
  intros cfg w f s Henv Hmem Hrun. pose proof (tx_vm_trace cfg w f s Henv Hmem Hrun) as H.
  destruct (shortcut cfg w f); [by eexists|]. destruct H as (q & t & Ht & Hd). eauto.
Qed.
Print Assumptions C82_vm_trace.

(** The instructions of the transaction's own code are described in order, whatever is attached to them. *)
Theorem C82_root_instructions :
  forall cfg w f s, env_ok cfg w f -> evm_memory f -> ti_run (ti_new cfg) (tx_events w f) = Ok s ->
  shortcut cfg w f = false ->
  exists t, vm_trace (ti_traces s) = Ok t /\
    Forall2 (fun o i => exists sub, vm_instr_of cfg o sub i) (traced_instrs cfg f) (vm_ops t).
Proof.
  intros cfg w f s Henv Hmem Hrun Hsc. destruct (C82_vm_trace cfg w f s Henv Hmem Hrun) as (t & Ht & H). rewrite Hsc in H.
  exists t. split; [done|]. destruct H as (q & Hd). destruct f as [s0 body e]. rewrite finished_eq in Hd. apply dealt_last in Hd as (q1 & l & q2 & Hc & E).
  apply app_inj_tail in E as [_ ->]. clear -Hc. cbn [vm_ops].
  induction Hc; constructor; eauto.
Qed.
Print Assumptions C82_root_instructions.

(** An instruction that stores one byte and one that doubles the memory; the parity vmTrace configuration with memory. *)
Definition vm_cfg : TracingInspectorConfig := mkConfig true true SnapPushes true false None true false.
Definition vm_op (op : N) (pc : nat) (st st' : list N) (mem mem' : bytes) : instr :=
  mkInstr (mkInterp op pc 5%N st mem [] (ex_gas 100) Continue) (logs_j []) []
          (mkInterp op (S pc) 5%N st' mem' [] (ex_gas 90) Continue) (logs_j []).
Definition vm_tx : frame :=
  Frame (SCall (logs_j []) (mkCallInputs [] 1000 5 5 6 (Transfer 0) CSCall false)%N)
    [IOp (vm_op OP_PUSH1 0 [] [3]%N [] []);
     IOp (vm_op OP_MSTORE8 1 [3; 0]%N [] [] (x03 :: replicate 31 x00));
     IOp (vm_op OP_CALL 2 [0; 0; 0; 0; 0; 7; 5]%N [] (x03 :: replicate 31 x00) (x03 :: replicate 31 x00));
     ISub (c23_leaf [OP_PUSH1]);
     IOp (vm_op OP_CALL 3 [0; 0; 0; 0; 0; 7; 5]%N [] (x03 :: replicate 31 x00) (x03 :: replicate 31 x00));
     ISub (c23_node (c23_call (c23_leaf [OP_PUSH1; OP_PUSH1])));
     IOp (vm_op OP_STOP 4 []%N [] (x03 :: replicate 31 x00) (x03 :: replicate 31 x00))]
    (ex_end Stop None).
Example C82_example : env_ok vm_cfg ex_world vm_tx /\ evm_memory vm_tx /\ shortcut vm_cfg ex_world vm_tx = false /\
  map (fun g => length (traced_instrs vm_cfg g)) (finished vm_cfg ex_world 0%N vm_tx) = [1; 2; 1; 5] /\
  exists s t, ti_run (ti_new vm_cfg) (tx_events ex_world vm_tx) = Ok s /\ vm_trace (ti_traces s) = Ok t /\
    (** the first call carries the trace of the innermost frame, the second that of the frame which made it; the first
        subcall's trace is with the instruction of the second *)
    map (fun i => (fun t => map (fun i => (fun t => length (vm_ops t)) <$> vi_sub i) (vm_ops t)) <$> vi_sub i) (vm_ops t) =
      [None; None; Some [None; None]; Some [Some 1]; None].
Proof.
  split; [by apply env_okb_ok|]. split; [repeat (constructor; cbn; try done)|]. split; [reflexivity|]. split; [reflexivity|].
  do 2 eexists. split_and!; vm_compute; reflexivity.
Qed.

(** ** C83 *)

Definition vi_ex (i : VmInstruction) := let '(mkVmI _ _ e _ _) := i in e.

(** Full statement (false of the code): the memory part of an instruction's record is a piece of the memory as it is
    after the instruction, at the given offset. *)
Definition C83_statement : Prop :=
  forall cfg w f s t, env_ok cfg w f -> evm_memory f -> ti_run (ti_new cfg) (tx_events w f) = Ok s ->
  vm_trace (ti_traces s) = Ok t -> shortcut cfg w f = false ->
  Forall2 (fun o i => forall ex m, vi_ex i = Some ex -> ve_mem ex = Some m ->
             firstn (length (md_data m)) (skipn (md_off m) (in_memory (op_post o))) = md_data m)
    (traced_instrs cfg f) (vm_ops t).

(** The call instruction changes no memory; its record shows 32 bytes at offset 32 of a memory of 32 bytes. *)
Theorem C83_refuted : ~ C83_statement.
Proof.
  intros H.
  assert (Hx : exists s t o i ex m, ti_run (ti_new vm_cfg) (tx_events ex_world vm_tx) = Ok s /\ vm_trace (ti_traces s) = Ok t /\
    traced_instrs vm_cfg vm_tx !! 2 = Some o /\ vm_ops t !! 2 = Some i /\ vi_ex i = Some ex /\ ve_mem ex = Some m /\
    firstn (length (md_data m)) (skipn (md_off m) (in_memory (op_post o))) = [] /\ length (md_data m) = 32).
  { do 6 eexists. split; [vm_compute; reflexivity|]. split; [vm_compute; reflexivity|]. split; [vm_compute; reflexivity|].
    split; [vm_compute; reflexivity|]. split; [vm_compute; reflexivity|]. split; [vm_compute; reflexivity|]. split; vm_compute; reflexivity. }
  destruct Hx as (s & t & o & i & ex & m & Hs & Ht & Ho & Hi & He & Hm & Hf & Hl). destruct C82_example as (H1 & H2 & H3 & _).
  pose proof (H vm_cfg ex_world vm_tx s t H1 H2 Hs Ht H3) as Hall. clear Hs Ht H.
  pose proof (Forall2_lookup_lr _ _ _ _ _ _ Hall Ho Hi ex m He Hm) as Hc. rewrite Hf in Hc. rewrite <-Hc in Hl. discriminate.
Qed.
Print Assumptions C83_refuted.

(** What the record shows instead: the whole memory before the instruction, up to zero bytes at its end, with its own
    length as the offset, if memory was asked for at all. *)
Theorem C83_memory_partial :
  forall cfg w f s t, env_ok cfg w f -> evm_memory f -> ti_run (ti_new cfg) (tx_events w f) = Ok s ->
  vm_trace (ti_traces s) = Ok t -> shortcut cfg w f = false ->
  Forall2 (fun o i => exists ex, vi_ex i = Some ex /\
             if record_memory_snapshots cfg
             then exists m k, ve_mem ex = Some m /\ md_off m = length (md_data m) /\ in_memory (op_pre o) = md_data m ++ replicate k x00
             else ve_mem ex = None)
    (traced_instrs cfg f) (vm_ops t).
Proof.
  intros cfg w f s t Henv Hmem Hrun Ht Hsc. destruct (C82_root_instructions cfg w f s Henv Hmem Hrun Hsc) as (t' & Ht' & H).
  rewrite Ht in Ht'. injection Ht' as <-. eapply Forall2_impl; [exact H|]. clear.
  intros o i (sub & cost & push & mem & store & -> & _ & _ & Hm & _). eexists. split; [reflexivity|]. cbn [ve_mem].
  destruct (record_memory_snapshots cfg); [|done]. destruct Hm as (m & k & -> & Hm). exists (mkMemDelta (length m) m), k. done.
Qed.
Print Assumptions C83_memory_partial.
Example C83_example : exists s t, ti_run (ti_new vm_cfg) (tx_events ex_world vm_tx) = Ok s /\ vm_trace (ti_traces s) = Ok t /\
  map (fun i => (fun m => (md_off m, length (md_data m))) <$> (vi_ex i ≫= ve_mem)) (vm_ops t) =
    [Some (0, 0); Some (0, 0); Some (32, 32); Some (32, 32); Some (32, 32)].
Proof. do 2 eexists. split_and!; vm_compute; reflexivity. Qed.

(** ** C84 *)

(** The code a frame runs: the init code of a creation, the account's code for a call. *)
Definition code_run (db : Db) (n : CallTraceNode) (code : bytes) : Prop :=
  if is_any_create (tr_kind (nd_trace n)) then code = tr_data (nd_trace n)
  else stored_code db (tr_address (nd_trace n)) code.

(** What the vm traces must be like for the nesting to be right at all (C23): every subcall has its call instruction,
    only the first subcall of a frame makes calls itself, and the STOP shortcut does not apply. *)
Definition nests (ns : list CallTraceNode) : Prop :=
  (forall i n, ns !! i = Some n -> length (nd_children n) <= call_count n) /\
  (forall i n k c cn, ns !! i = Some n -> nd_children n !! k = Some c -> 0 < k -> ns !! c = Some cn -> call_count cn = 0) /\
  (is_last_step_stop_op ns = false \/
   forall i n st, ns !! i = Some n -> head (tr_steps (nd_trace n)) = Some st -> st_is_stop st = false).

(** Full statement (false of the code): where the nesting is right, each trace shows the code its frame ran. *)
Definition C84_statement : Prop :=
  forall cfg es s r state types db res,
  ti_run (ti_new cfg) es = Ok s -> nests (ti_traces s) -> ty_vm_trace types = true ->
  into_trace_results_with_state (ti_traces s) r state types db = Ok (Some res) ->
  exists t, rs_vm_trace res = Some t /\ vm_coded (code_run db) (ti_traces s) 0 t.

Definition c84_tx : frame := Frame (SCreate ex_j0 (mkCreateInputs 0xC0 CrCreate 5 [x60; x00] 40000 0xE0)%N) [] (ex_end Return (Some 0xE0%N)).
Definition c84_db : Db :=
  mkDb (fun a => Some (if (a =? 0xD1)%N then Some (mkInfo 0 1 7 None)%N else if (a =? 0xD0)%N then Some (mkInfo 0 1 8 None)%N else None))
       (fun h => if (h =? 7)%N then Some [x01] else if (h =? 8)%N then Some [x02] else None).

(** A creation transaction: the database has no code at the new address, so the code is empty and not the init code. *)
Theorem C84_refuted : ~ C84_statement.
Proof.
  intros H.
  assert (Hx : exists s res t, ti_run (ti_new ex_cfg) (tx_events ex_world c84_tx) = Ok s /\
    into_trace_results_with_state (ti_traces s) (mkExecResult 0%N None) [] (mkTypes false true false) c84_db = Ok (Some res) /\
    rs_vm_trace res = Some t /\ vm_code t = [] /\ nests (ti_traces s) /\
    exists n, ti_traces s !! 0 = Some n /\ is_any_create (tr_kind (nd_trace n)) = true /\ tr_data (nd_trace n) = [x60; x00]).
  { do 3 eexists. split; [vm_compute; reflexivity|]. split; [vm_compute; reflexivity|]. split; [vm_compute; reflexivity|]. split; [vm_compute; reflexivity|].
    split; [|eexists; split_and!; vm_compute; reflexivity]. split_and!.
    - intros i n. destruct i as [|i]; [intros [= <-]; vm_compute; lia|done].
    - intros i n k c cn. destruct i as [|i]; [intros [= <-]; done|done].
    - left. reflexivity. }
  destruct Hx as (s & res & t & Hs & Hr & Ht & Hc & Hn & n & Hn0 & Hk & Hd).
  destruct (H ex_cfg (tx_events ex_world c84_tx) s (mkExecResult 0%N None) [] (mkTypes false true false) c84_db res Hs Hn eq_refl Hr) as (t' & Ht' & Hcoded).
  rewrite Ht in Ht'. injection Ht' as <-. inversion Hcoded as [? n' code subs Hn' Hcode _ E1 E2]; subst. rewrite Hn0 in Hn'. injection Hn' as <-.
  unfold code_run in Hcode. rewrite Hk, Hd in Hcode. subst code. discriminate.
Qed.
Print Assumptions C84_refuted.

(** What holds where the nesting is right: each trace shows what the database has as the code of the frame's address. *)
Theorem C84_codes_partial :
  forall cfg es s r state types db res,
  ti_run (ti_new cfg) es = Ok s -> nests (ti_traces s) -> ty_vm_trace types = true ->
  into_trace_results_with_state (ti_traces s) r state types db = Ok (Some res) ->
  exists t, rs_vm_trace res = Some t /\
    vm_coded (fun n => stored_code db (tr_address (nd_trace n))) (ti_traces s) 0 t.
Proof.
  intros cfg es s r state types db res Hrun (H1 & H2 & H3) Hty Hres.
  destruct (C23_vm_trace_partial cfg es s Hrun H1 H2 H3) as (t & Ht & Hspec).
  destruct (C24_terminates cfg es s Hrun) as (t' & addrs & Ht' & Haddrs & _). rewrite Ht in Ht'. injection Ht' as <-.
  pose proof (run_tree_inv _ _ _ Hrun) as Hinv. unfold into_trace_results_with_state in Hres. rewrite Hty, Haddrs in Hres. cbn [rbind] in Hres.
  unfold into_trace_results, into_trace_type_traces in Hres. unfold ty_is_empty in Hres. rewrite Hty, orb_true_r in Hres. cbn [orb negb] in Hres.
  destruct (length (ti_traces s) =? 0) eqn:El.
  { apply Nat.eqb_eq, nil_length_inv in El. destruct (at_root _ (inv_tree _ Hinv)) as (r0 & Hr0 & _). by rewrite El in Hr0. }
  rewrite Ht in Hres. cbn [rmap rbind] in Hres. destruct (type_traces (ti_traces s) (ty_trace types)) as [trs| |]; cbn [rbind] in Hres; try done.
  cbn [rs_state_diff rs_vm_trace rs_output rs_trace] in Hres.
  destruct (if ty_state_diff types then Some ∅ else None) as [d|]; [destruct (populate_state_diff d db state) as [d'|]; [|done]|];
    (destruct (populate_vm_trace_bytecodes db t addrs) as [[vm|]| |] eqn:Ep; cbn [rbind] in Hres; try done; injection Hres as <-;
     exists vm; split; [done|]; by eapply populate_coded).
Qed.
Print Assumptions C84_codes_partial.

(** In general, whatever was nested where: filling in changes nothing but the codes, and the traces, level by level from
    the top and from left to right, show the database's codes of the frames of the call tree, level by level and from
    left to right. *)
Theorem C84_level_order :
  forall cfg es s r state types db res,
  ti_run (ti_new cfg) es = Ok s -> ty_vm_trace types = true ->
  into_trace_results_with_state (ti_traces s) r state types db = Ok (Some res) ->
  exists t vm k, vm_trace (ti_traces s) = Ok t /\ rs_vm_trace res = Some vm /\ without_codes vm = t /\
    Forall2 (fun x i => exists n, ti_traces s !! i = Some n /\ stored_code db (tr_address (nd_trace n)) (vm_code x))
      (traces_by_level vm) (take k (concat (map (level (ti_traces s)) (seq 0 (length (ti_traces s)))))).
Proof.
  intros cfg es s r state types db res Hrun Hty Hres.
  destruct (C24_terminates cfg es s Hrun) as (t & addrs & Ht & Haddrs & _). exists t.
  destruct (C61_walk cfg es s Hrun) as (l & Hl & Hidx & Hnodes & _).
  rewrite Hl in Haddrs. cbn [rmap rbind] in Haddrs. injection Haddrs as <-.
  assert (Hp : exists vm, rs_vm_trace res = Some vm /\ populate_vm_trace_bytecodes db t (map (fun n => tr_address (nd_trace n)) l) = Ok (Some vm)).
  { unfold into_trace_results_with_state in Hres. rewrite Hty, Hl in Hres. cbn [rmap rbind] in Hres.
    unfold into_trace_results, into_trace_type_traces in Hres. unfold ty_is_empty in Hres. rewrite Hty, orb_true_r in Hres. cbn [orb negb] in Hres.
    destruct (length (ti_traces s) =? 0) eqn:El.
    { apply Nat.eqb_eq, nil_length_inv in El. destruct (at_root _ (inv_tree _ (run_tree_inv _ _ _ Hrun))) as (r0 & Hr0 & _). by rewrite El in Hr0. }
    rewrite Ht in Hres. cbn [rmap rbind] in Hres. destruct (type_traces (ti_traces s) (ty_trace types)) as [trs| |]; cbn [rbind] in Hres; try done.
    cbn [rs_state_diff rs_vm_trace rs_output rs_trace] in Hres.
    destruct (if ty_state_diff types then Some ∅ else None) as [d|]; [destruct (populate_state_diff d db state) as [d'|]; [|done]|];
      (destruct (populate_vm_trace_bytecodes db t _) as [[vm|]| |]; cbn [rbind] in Hres; try done; injection Hres as <-; exists vm; done). }
  destruct Hp as (vm & Hvm & Hp). exists vm. destruct (populate_order db t _ vm (vm_trace_bare _ _ Ht) Hp) as (Hw & k & Hk). exists k. split_and!; try done.
  rewrite <-Hidx. rewrite firstn_map. rewrite firstn_map in Hk. apply Forall2_fmap_r. apply Forall2_fmap_r in Hk.
  rewrite <-(take_drop k l) in Hnodes. apply Forall_app in Hnodes as [Hnodes _]. revert Hnodes. clear -Hk.
  induction Hk as [|x n xs ns Hx Hk IH]; intros Hn; [constructor|]. inversion_clear Hn as [|? ? Hn0 Hn']. constructor; [|by apply IH]. exists n. done.
Qed.
Print Assumptions C84_level_order.
(** 0xD1 calls 0xD1, which calls 0xD0, and then calls 0xD0 *)
Definition c84_frame (a : address) (items : list item) : frame :=
  Frame (SCall ex_j0 (mkCallInputs [] 50000 a a 0xAA (Transfer 0) CSCall false)%N) items (ex_end Return None).
Definition c84_ok_tx : frame :=
  c84_frame 0xD1 (c23_call (c84_frame 0xD1 (c23_call (c84_frame 0xD0 []))) ++
                  c23_call (c84_frame 0xD0 [IOp (ex_op OP_PUSH1 0 [] [1]%N 900%N ex_j0 [] Continue)])).
Example C84_example : exists s res, ti_run (ti_new ex_cfg) (tx_events ex_world c84_ok_tx) = Ok s /\ nests (ti_traces s) /\
  into_trace_results_with_state (ti_traces s) (mkExecResult 0%N None) [] (mkTypes false true false) c84_db = Ok (Some res) /\
  (fun t => (vm_code t, map (fun i => (fun t => (vm_code t, map (fun i => vm_code <$> vi_sub i) (vm_ops t))) <$> vi_sub i) (vm_ops t)))
    <$> rs_vm_trace res = Some ([x01], [Some ([x01], [Some [x02]]); Some ([x02], [None])]).
Proof.
  do 2 eexists. split; [vm_compute; reflexivity|]. split; [split_and!|split; vm_compute; reflexivity].
  - intros i n. do 4 (destruct i as [|i]; [intros [= <-]; vm_compute; lia|]). done.
  - intros i n k c cn. do 4 (destruct i as [|i]; [intros [= <-]; do 2 (destruct k as [|k]; [intros [= <-] Hk; try lia; intros [= <-]; reflexivity| try done])|]); done.
  - left. reflexivity.
Qed.

(** 0xD1 calls 0xD1, and then 0xD0, which calls 0xD0 (one instruction). The first call instruction carries the innermost
    frame's trace, but the code of the first call's frame. *)
Definition c84_mixed_tx : frame :=
  c84_frame 0xD1 (c23_call (c84_frame 0xD1 []) ++
                  c23_call (c84_frame 0xD0 (c23_call (c84_frame 0xD0 [IOp (ex_op OP_PUSH1 0 [] [1]%N 900%N ex_j0 [] Continue)])))).
Example C84_order_example : exists s res vm, ti_run (ti_new ex_cfg) (tx_events ex_world c84_mixed_tx) = Ok s /\
  into_trace_results_with_state (ti_traces s) (mkExecResult 0%N None) [] (mkTypes false true false) c84_db = Ok (Some res) /\
  rs_vm_trace res = Some vm /\
  map (fun t => (length (vm_ops t), vm_code t)) (traces_by_level vm) = [(2, [x01]); (1, [x01]); (1, [x02]); (0, [x02])].
Proof. do 3 eexists. split_and!; vm_compute; reflexivity. Qed.
