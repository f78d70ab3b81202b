(** * PropertiesCutLogs: struct logs asked for before the transaction is over *)

From Verif Require Import SpecCutLogs CutLogProofs GethProofs TxTraceProofs Examples.

(** ** C133: the struct logs of a transaction cut off after any hook call are the first ones of the whole transaction *)
Theorem C133_lines :
  forall cfg w f es1 es2 s1 s2 opts gas1 out1 gas2 out2, env_ok cfg w f -> evm_calls f ->
  record_steps cfg = true -> record_opcodes_filter cfg = None -> exclude_precompile_calls cfg = false ->
  tx_events w f = es1 ++ es2 -> ti_run (ti_new cfg) es1 = Ok s1 -> ti_run (ti_new cfg) (tx_events w f) = Ok s2 ->
  exists r1 r2, geth_traces (ti_traces s1) gas1 out1 opts = Ok r1 /\ geth_traces (ti_traces s2) gas2 out2 opts = Ok r2 /\
    (* one line for every instruction that has begun, saying of its beginning what the final line says *)
    length (dfr_struct_logs r1) = steps_begun es1 /\
    map began_with (dfr_struct_logs r1) = take (steps_begun es1) (map began_with (dfr_struct_logs r2)) /\
    (* the lines of the instructions that have ended are final *)
    map but_return_data (take (steps_ended es1) (dfr_struct_logs r1)) =
      map but_return_data (take (steps_ended es1) (dfr_struct_logs r2)) /\
    (* the others have no cost, no error and no storage yet *)
    Forall (fun l => sl_gas_cost l = 0%N /\ sl_error l = None /\ sl_storage l = None) (drop (steps_ended es1) (dfr_struct_logs r1)).
Proof.
  intros cfg w f es1 es2 s1 s2 opts gas1 out1 gas2 out2 Henv Hcalls Hst Hflt Hex Heq H1 H2.
  destruct (cut_lines cfg w f es1 es2 s1 s2 Hst Hflt Hex Henv Hcalls Heq H1 H2) as (l1 & l2 & Hl1 & Hl2 & Hlen & Hsame & Htake & Hblank).
  destruct (geth_traces_ok _ (run_arena_tree _ _ _ H1) opts gas1 out1 l1 Hl1) as (root1 & _ & Hok1).
  destruct (geth_traces_ok _ (run_arena_tree _ _ _ H2) opts gas2 out2 l2 Hl2) as (root2 & _ & Hok2).
  do 2 eexists. split; [exact Hok1|]. split; [exact Hok2|]. cbn [dfr_struct_logs].
  change (snd (fold_left (do_log opts) l1 log0)) with (snd (after opts l1)). change (snd (fold_left (do_log opts) l2 log0)) with (snd (after opts l2)).
  split; [by rewrite after_length|]. split; [rewrite <- Hlen; by apply after_begun|]. split; [by apply after_ended|].
  apply Forall_lookup. intros j l Hj. rewrite lookup_drop in Hj.
  destruct (lookup_lt_is_Some_2 l1 (steps_ended es1 + j)) as [[n x] Hx]; [apply lookup_lt_Some in Hj; by rewrite after_length in Hj|].
  destruct (Hblank _ _ Hx) as (Hb1 & Hb2 & Hb3); [lia|]. cbn [snd] in *. destruct (after_lookup opts _ _ _ _ Hx) as (ls & Hlog & Hls).
  rewrite Hlog in Hj. injection Hj as <-. cbn [struct_log sl_gas_cost sl_error sl_storage]. split; [done|]. split; [unfold st_as_error, st_is_error; by rewrite Hb3|].
  destruct ls as [m|]; [|done]. destruct Hls as (_ & [? ?] & _). congruence.
Qed.
Print Assumptions C133_lines.

Definition ex_cut : list event := take 25 (tx_events ex_world ex_tx).
Example C133_example : env_ok cfg_default_geth ex_world ex_tx /\ evm_calls ex_tx /\ exists s r,
  ti_run (ti_new cfg_default_geth) ex_cut = Ok s /\ geth_traces (ti_traces s) 5%N [] (mkGethOpts None None None None (Some true) None) = Ok r /\
  map (fun l => (sl_depth l, sl_op l, sl_gas_cost l)) (dfr_struct_logs r) =
    [(1, 96%N, 3%N); (1, 160%N, 3%N); (1, 244%N, 3%N); (2, 96%N, 3%N); (2, 85%N, 3%N); (2, 0%N, 3%N);
     (1, 250%N, 3%N); (1, 240%N, 3%N); (2, 255%N, 0%N)] /\
  steps_begun ex_cut = 9 /\ steps_ended ex_cut = 8.
Proof.
  split; [apply ex_env|]. split.
  - repeat (constructor; cbn; try done).
  - do 2 eexists. split_and!; vm_compute; reflexivity.
Qed.
