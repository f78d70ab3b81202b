(** * PropertiesLogs: struct logs as a function of the execution (C80, C81) *)

From Verif Require Import StepProofs TreeProofs PropertiesConfig PropertiesGeth Examples.

Lemma frames_related cfg w f : env_ok cfg w f -> evm_memory f ->
  record_steps cfg = true -> record_opcodes_filter cfg = None -> every_frame (frame_related cfg w (step_all cfg w)) f.
Proof.
  intros Henv Hmem Hst Hflt. eapply every_frame_impl; [|apply every_frame_and; [apply Henv|exact Hmem]].
  cbn beta. intros g [Hs Ha] d. apply Forall2_both.
  - eapply steps_from_all; [done..|]. intros. by apply step_of_full.
  - destruct (record_memory_snapshots cfg) eqn:Hm.
    + eapply Forall2_impl; [by eapply memory_unfiltered|]. done.
    + eapply steps_from_all; [done..|]. done.
Qed.

(** The recorded steps in the order of the logs, each matched with the instruction it was recorded for. *)
Lemma tx_logs cfg w f s gas out opts : env_ok cfg w f -> evm_calls f -> evm_memory f ->
  ti_run (ti_new cfg) (tx_events w f) = Ok s ->
  record_steps cfg = true -> record_opcodes_filter cfg = None -> exclude_precompile_calls cfg = false ->
  exists l r, geth_traces (ti_traces s) gas out opts = Ok r /\ dfr_struct_logs r = snd (after opts l) /\
    Forall2 (matches (step_all cfg w)) (executed 0 f) l.
Proof.
  intros Henv Hcalls Hmem Hrun Hst Hflt Hex. pose proof (tx_tree cfg w f s Hrun) as Ht.
  destruct (frame_steps_all cfg w (ti_traces s) Hst Hflt Hex (step_all cfg w) f None 0 0 None) as (l & Hl & Hm).
  { apply Henv. }
  { by apply frames_related. }
  { done. }
  { intros k x Hk. rewrite (tx_traces cfg w f s Henv Hrun). unfold layout. rewrite list_lookup_fmap. cbn [Nat.add]. by rewrite Hk. }
  destruct (geth_traces_ok _ Ht opts gas out l Hl) as (root & H0 & Hok). exists l. eexists. split; [exact Hok|]. done.
Qed.

Lemma words_show_memory m k : words_show (convert_memory m) (m ++ replicate k x00).
Proof.
  destruct (C39_memory_chunks m) as (_ & H2 & H3). split; [exact H2|].
  eexists _, k, _. split; [exact H3|]. rewrite <-!app_assoc, <-!replicate_add. do 2 f_equal. apply Nat.add_comm.
Qed.

(** ** C81 *)
Theorem C81_struct_logs :
  forall w f s gas out opts,
  env_ok (from_geth_config opts) w f -> evm_calls f -> evm_memory f ->
  ti_run (ti_new (from_geth_config opts)) (tx_events w f) = Ok s ->
  exists r, geth_traces (ti_traces s) gas out opts = Ok r /\
    length (dfr_struct_logs r) = length (executed 0 f) /\
    forall j d g o l, executed 0 f !! j = Some (d, g, o) -> dfr_struct_logs r !! j = Some l ->
      log_of opts (take (S j) (executed 0 f)) d g o l.
Proof.
  intros w f s gas out opts Henv Hcalls Hmem Hrun. set (cfg := from_geth_config opts) in *.
  destruct (tx_logs cfg w f s gas out opts Henv Hcalls Hmem Hrun) as (l & r & Hok & Hlogs & Hm); [done..|].
  exists r. split; [done|]. rewrite Hlogs, after_length. split; [symmetry; by eapply Forall2_length|].
  intros j d g o sl Hx Hsl. destruct (Forall2_lookup_l _ _ _ _ _ Hm Hx) as ([n st] & Hy & Hmatch).
  destruct (after_lookup opts l j n st Hy) as (ls & Hlog & Hls). rewrite Hlog in Hsl. apply (inj Some) in Hsl. subst sl.
  destruct Hmatch as [((Hd & Hch & Hno) & Hz) Hout]. cbn [fst snd] in *.
  pose proof (matches_describes cfg w opts d g o n st ls (conj Hd Hout)) as Hl.
  split; try apply Hl.
  - rewrite (ld_stack _ _ _ _ _ _ Hl). unfold is_stack_enabled, cfg. cbn [from_geth_config record_stack_snapshots].
    by destruct (disable_stack opts) as [[]|].
  - unfold struct_log. cbn [sl_error]. unfold st_as_error, st_is_error. rewrite (sd_status _ _ _ _ _ Hd). by destruct (in_result (op_post o)).
  - unfold struct_log. cbn [sl_storage].
    assert (Hdiff : record_state_diff cfg = negb (flagged (disable_storage opts))) by (unfold cfg; by destruct opts as [? ? ? [[]|] ? ?]).
    assert (Hen : is_storage_enabled opts = negb (flagged (disable_storage opts))) by (by destruct opts as [? ? ? [[]|] ? ?]).
    destruct (flagged (disable_storage opts)); cbn [negb] in *.
    + destruct ls as [m|]; [destruct Hls; congruence|by left].
    + specialize (Hch Hdiff). destruct ls as [m|].
      * destruct Hls as (_ & [ch Hc] & Hv). split; [done|]. rewrite <-Hch, Hc. split; [done|]. intros k.
        rewrite Hv, (sd_contract _ _ _ _ _ Hd), <-firstn_map. erewrite <-(latest_slot cfg w); [by rewrite firstn_map|done|].
        apply Forall2_take. eapply Forall2_impl; [exact Hm|]. by intros ? ? [[? _] _].
      * destruct Hls as [?|Hc]; [congruence|]. right. by rewrite <-Hch, Hc.
  - unfold struct_log. cbn [sl_memory].
    assert (Hrec : record_memory_snapshots cfg = flagged (enable_memory opts)) by (unfold cfg; by destruct opts as [[[]|] ? ? ? ? ?]).
    destruct (flagged (enable_memory opts)) eqn:Hf.
    + destruct (Hz Hrec) as (m & k & Hsm & ->). rewrite Hsm.
      assert (is_memory_enabled opts = true) as -> by (by destruct opts as [[[]|] ? ? ? ? ?]).
      eexists. split; [done|]. apply words_show_memory.
    + destruct (st_memory st) eqn:Hsm; [|by destruct (is_memory_enabled opts)].
      destruct (sd_memory_recorded _ _ _ _ _ Hd) as [Hr _]. rewrite Hrec in Hr. assert (false = true) by (apply Hr; eauto). done.
Qed.
Print Assumptions C81_struct_logs.
(** SSTORE of slot 1, a call that touches slot 1 of another contract, and an SLOAD of slot 2 afterwards. *)
Definition logs_j (l : list JournalEntry) : jview := mkJ [l] (fun a k => Some (a + k)%N).
Definition logs_op (op : N) (pc : nat) (a : address) (j j' : jview) (mem : bytes) (r : InstructionResult) : instr :=
  mkInstr (mkInterp op pc a [1; 2]%N mem [] (ex_gas 100) Continue) j []
          (mkInterp op pc a [1]%N mem [] (ex_gas 90) r) j'.
Definition logs_tx : frame :=
  Frame (SCall (logs_j []) (mkCallInputs [] 1000 5 5 6 (Transfer 0) CSCall false)%N)
    [IOp (logs_op OP_SSTORE 0 5 (logs_j []) (logs_j [JStorageChanged 5 1 0]%N) [] Continue);
     IOp (logs_op OP_CALL 1 5 (logs_j [JStorageChanged 5 1 0]%N) (logs_j [JStorageChanged 5 1 0]%N) [] CallOrCreate);
     ISub (Frame (SCall (logs_j []) (mkCallInputs [] 1000 7 7 5 (Transfer 0) CSCall false)%N)
             [IOp (logs_op OP_SLOAD 0 7 (logs_j []) (logs_j [JStorageChanged 7 1 0]%N) [] Continue);
              IOp (logs_op OP_RETURN 1 7 (logs_j [JStorageChanged 7 1 0]%N) (logs_j [JStorageChanged 7 1 0]%N) [] Return)]
             (mkEnd (logs_j []) (mkIR Return [x2a] (ex_gas 80)) None));
     IOp (logs_op OP_SLOAD 2 5 (logs_j [JStorageChanged 7 1 0]%N) (logs_j [JStorageChanged 5 2 0]%N) (replicate 32 x01) Continue);
     IOp (logs_op OP_STOP 3 5 (logs_j [JStorageChanged 5 2 0]%N) (logs_j [JStorageChanged 5 2 0]%N) (replicate 32 x01) Stop)]
    (ex_end Stop None).
Definition logs_opts : GethDefaultTracingOptions := mkGethOpts (Some true) None None None (Some true) None.
Example C81_example : env_ok (from_geth_config logs_opts) ex_world logs_tx /\ evm_calls logs_tx /\ evm_memory logs_tx /\
  exists s r, ti_run (ti_new (from_geth_config logs_opts)) (tx_events ex_world logs_tx) = Ok s /\
    geth_traces (ti_traces s) 5%N [] logs_opts = Ok r /\
    map (fun l => map_to_list <$> sl_storage l) (dfr_struct_logs r) =
      [Some [(1, 6)]; None; Some [(1, 8)]; None; Some [(1, 6); (2, 7)]; None]%N /\
    map sl_error (dfr_struct_logs r) = [None; Some "CallOrCreate"; None; None; None; None] /\
    map (fun l => length <$> sl_memory l) (dfr_struct_logs r) = [Some 0; Some 0; Some 0; Some 0; Some 1; Some 1].
Proof.
  split; [by apply env_okb_ok|]. split; [repeat (constructor; cbn; try done)|].
  split; [repeat (constructor; cbn; try done)|]. do 2 eexists. split_and!; vm_compute; reflexivity.
Qed.

(** ** C80 *)

(** Full statement (false of the code): with return data enabled, a log shows the return data the instruction could see. *)
Definition C80_statement : Prop :=
  forall w f s gas out opts r,
  env_ok (from_geth_config opts) w f -> evm_calls f -> evm_memory f ->
  two_sided (enable_return_data opts) (disable_return_data opts) = true ->
  ti_run (ti_new (from_geth_config opts)) (tx_events w f) = Ok s -> geth_traces (ti_traces s) gas out opts = Ok r ->
  Forall2 (fun x l => sl_return_data l = Some (in_returndata (op_pre (snd x)))) (executed 0 f) (dfr_struct_logs r).

(** The first instruction runs before any call was made, and yet its log shows what the frame returned in the end. *)
Theorem C80_refuted : ~ C80_statement.
Proof.
  intros H.
  assert (Hs : exists s r l x, ti_run (ti_new (from_geth_config logs_opts)) (tx_events ex_world logs_tx) = Ok s /\
    geth_traces (ti_traces s) 0%N [] logs_opts = Ok r /\ dfr_struct_logs r !! 0 = Some l /\ sl_return_data l = Some [x2a] /\
    executed 0 logs_tx !! 0 = Some x /\ in_returndata (op_pre (snd x)) = []).
  { do 4 eexists. split; [vm_compute; reflexivity|]. split; [vm_compute; reflexivity|]. split_and!; vm_compute; reflexivity. }
  destruct Hs as (s & r & l & x & Hs & Hr & Hl & Hd & Hx & Hb). destruct C81_example as (H1 & H2 & H3 & _).
  pose proof (H ex_world logs_tx s 0%N [] logs_opts r H1 H2 H3 eq_refl Hs Hr) as Hf. clear Hs Hr H.
  pose proof (Forall2_lookup_lr _ _ _ _ _ _ Hf Hx Hl) as Hc. cbn beta in Hc. rewrite Hd, Hb in Hc. discriminate.
Qed.
Print Assumptions C80_refuted.

(** What every log shows instead: the final output of the instruction's own frame. *)
Theorem C80_return_data_partial :
  forall w f s gas out opts,
  env_ok (from_geth_config opts) w f -> evm_calls f -> evm_memory f ->
  ti_run (ti_new (from_geth_config opts)) (tx_events w f) = Ok s ->
  exists r, geth_traces (ti_traces s) gas out opts = Ok r /\
    Forall2 (fun x l => sl_return_data l =
               if two_sided (enable_return_data opts) (disable_return_data opts)
               then Some (ir_output (fe_result (f_end (snd (fst x))))) else None) (executed 0 f) (dfr_struct_logs r).
Proof.
  intros w f s gas out opts Henv Hcalls Hmem Hrun.
  destruct (C81_struct_logs w f s gas out opts Henv Hcalls Hmem Hrun) as (r & Hok & Hlen & Hall).
  exists r. split; [done|]. apply Forall2_same_length_lookup. split; [done|]. intros j [[d g] o] l Hx Hl.
  apply (lo_return_data _ _ _ _ _ _ (Hall j d g o l Hx Hl)).
Qed.
Print Assumptions C80_return_data_partial.
Example C80_example : exists s r, ti_run (ti_new (from_geth_config logs_opts)) (tx_events ex_world logs_tx) = Ok s /\
  geth_traces (ti_traces s) 5%N [] logs_opts = Ok r /\ map sl_return_data (dfr_struct_logs r) = replicate 6 (Some [x2a]).
Proof. do 2 eexists. split_and!; vm_compute; reflexivity. Qed.
