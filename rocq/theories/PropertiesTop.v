(** * PropertiesTop: C27 and C75 when only the top call is asked for *)

From Verif Require Import SpecTx GethProofs PropertiesGeth PropertiesTx Examples.

(** The top call alone is the root of the whole tree, its logs included, with at most the frame of its own SELFDESTRUCT. *)
Theorem C27_top_call_of_tree :
  forall rr cfg es s opts opts' gas, ti_run (ti_new cfg) es = Ok s ->
  only_top_call opts = Some true -> only_top_call opts' <> Some true -> with_log opts' = with_log opts ->
  exists r r', geth_call_traces rr (ti_traces s) opts gas = Ok r /\ geth_call_traces rr (ti_traces s) opts' gas = Ok r' /\
    cf_info r = cf_info r' /\
    (cf_calls r = [] \/ exists x, cf_calls r = [x] /\ fi_typ (cf_info x) = "SELFDESTRUCT").
Proof.
  intros rr cfg es s opts opts' gas Hr Ht Hn Hw.
  destruct (call_traces_weaken rr cfg es s opts' gas (fun i x _ => i = 0 -> x = info_of rr (ti_traces s) (unwrap_or_default_bool (with_log opts')) gas i) Hr Hn)
    as (r' & Hg' & Htree); [by intros|].
  inversion Htree as [i info calls extra HQ _ _ E1 E2]. specialize (HQ eq_refl).
  destruct (at_root _ (run_arena _ _ _ Hr)) as (root & H0 & _).
  unfold info_of in HQ. rewrite H0 in HQ. cbn [Nat.eqb] in HQ.
  assert (Hg : exists r, geth_call_traces rr (ti_traces s) opts gas = Ok r /\
    cf_info r = fi_set_gas_used (cf_info (geth_empty_call_frame rr root (unwrap_or_default_bool (with_log opts)))) gas /\
    (cf_calls r = [] \/ exists x, cf_calls r = [x] /\ fi_typ (cf_info x) = "SELFDESTRUCT")).
  { unfold geth_call_traces. destruct (ti_traces s) as [|root' rest]; [done|]. injection H0 as ->. rewrite Ht. cbn [unwrap_or_default_bool default].
    eexists. split; [done|]. destruct (geth_selfdestruct_call_trace root) as [c|] eqn:E; (split; [done|]); [right|by left].
    exists c. split; [done|]. apply sd_info_frame in E as [-> ?]. done. }
  destruct Hg as (r & Hg & Hi & Hc). exists r, (mkCF info (calls ++ map synthetic extra)). split; [done|]. split; [done|]. split; [|done]. cbn [cf_info]. rewrite Hi, HQ, Hw. done.
Qed.
Print Assumptions C27_top_call_of_tree.

(** For one execution, it is the frame of the root. *)
Theorem C75_top_call :
  forall rr cfg w f s opts gas, env_ok cfg w f -> evm_addresses f ->
  ti_run (ti_new cfg) (tx_events w f) = Ok s -> only_top_call opts = Some true ->
  exists r, geth_call_traces rr (ti_traces s) opts gas = Ok r /\
    cf_info r = spec_info rr cfg w true gas (spec_value (f_start f)) (bool_decide (with_log opts = Some true)) f /\
    Forall (fun x => fi_typ (cf_info x) = "SELFDESTRUCT") (cf_calls r) /\ length (cf_calls r) <= 1.
Proof.
  intros rr cfg w f s opts gas He Ha Hr Ht.
  destruct (C27_top_call_of_tree rr cfg _ s opts (mkCallConfig None (with_log opts)) gas Hr Ht ltac:(done) eq_refl) as (r & r' & Hg & Hg' & Hi & Hc).
  destruct (C75_call_tree rr cfg w f s (mkCallConfig None (with_log opts)) gas He Ha Hr ltac:(done)) as (r2 & Hg2 & Hw & _).
  rewrite Hg' in Hg2. injection Hg2 as <-. exists r. split; [done|]. split.
  - rewrite Hi. transitivity (cf_info (without_selfdestructs r')); [by destruct r'|]. rewrite Hw. destruct f as [st body e].
    cbn [spec_calls cf_info orb with_log]. by rewrite andb_true_r.
  - destruct Hc as [->|(x & -> & Hx)]; [split; [constructor|cbn; lia]|]. split; [by repeat constructor|cbn; lia].
Qed.
Print Assumptions C75_top_call.

Example C75_top_example : exists s r, ti_run (ti_new ex_cfg) (tx_events ex_world ex_tx) = Ok s /\
  geth_call_traces (fun _ => None) (ti_traces s) (mkCallConfig (Some true) (Some true)) 99%N = Ok r /\
  length (fi_logs (cf_info r)) = 1 /\ cf_calls r = [].
Proof. eexists _, _. split; [vm_compute; reflexivity|]. split; [vm_compute; reflexivity|]. split; vm_compute; reflexivity. Qed.
