(** * PropertiesPrune: C90 for recordings with calls left out *)

From Verif Require Import GethProofs TxTraceProofs AgreeProofs PruneProofs PropertiesTx Examples.

(** Parity traces recorded with one configuration and a geth call tree recorded with another: they report the same calls,
    but for the precompile calls the parity recording leaves out, whatever the other recorded. *)
Theorem C90_recordings_agree :
  forall rr cfg1 cfg2 w f s1 s2 opts gas, env_ok cfg1 w f -> env_ok cfg2 w f -> evm_refund f -> evm_addresses f -> evm_precompiles w f ->
  ti_run (ti_new cfg1) (tx_events w f) = Ok s1 -> ti_run (ti_new cfg2) (tx_events w f) = Ok s2 -> only_top_call opts <> Some true ->
  exists traces r, into_transaction_traces (ti_traces s1) = Ok traces /\ geth_call_traces rr (ti_traces s2) opts gas = Ok r /\
    let tree := if exclude_precompile_calls cfg1 then without_precompiles (w_precompiles w) (without_selfdestructs r)
                else without_selfdestructs r in
    (forall t, In t traces -> is_call_entry t = true ->
       exists c, frame_at tree (tt_address t) = Some c /\ same_call t (cf_info c)) /\
    (forall path c, frame_at tree path = Some c ->
       exists t, In t traces /\ is_call_entry t = true /\ tt_address t = path).
Proof.
  intros rr cfg1 cfg2 w f s1 s2 opts gas Henv1 Henv2 Href Ha Hp Hrun1 Hrun2 Htop.
  destruct (C75_call_tree rr cfg2 w f s2 opts gas Henv2 Ha Hrun2 Htop) as (r & Hr & H1 & _).
  exists (spec_traces cfg1 w true (spec_value (f_start f)) [] f), r.
  split; [by apply C74_parity_traces|]. split; [done|]. rewrite H1.
  assert (Hev : every_frame (evm_frame w) f).
  { eapply every_frame_impl; [|exact (every_frame_and _ _ _ Ha Hp)]. intros g [(_ & G1 & _) [G2 G3]]. by split_and!. }
  destruct (traces_seen rr cfg1 cfg2 w (bool_decide (with_log opts = Some true)) gas f Hev true true (spec_value (f_start f)) [] ltac:(done)) as [G1 G2].
  split.
  - intros t Hin Hce. destruct (G1 t Hin Hce) as (p & c & -> & Hf & Hs). by exists c.
  - intros path c Hf. destruct (G2 path c Hf) as (t & Hin & Hce & Hpa). by exists t.
Qed.
Print Assumptions C90_recordings_agree.

(** The parity preset leaves a precompile call out that the geth preset shows. *)
Example C90_recordings_example :
  env_ok ex_cfg ex_world ex_tx /\ env_ok cfg_default_geth ex_world ex_tx /\ evm_refund ex_tx /\ evm_addresses ex_tx /\ evm_precompiles ex_world ex_tx /\
  exclude_precompile_calls ex_cfg = true /\
  (exists s, ti_run (ti_new ex_cfg) (tx_events ex_world ex_tx) = Ok s) /\
  exists s r, ti_run (ti_new cfg_default_geth) (tx_events ex_world ex_tx) = Ok s /\
    geth_call_traces (fun _ => None) (ti_traces s) (mkCallConfig None None) 99%N = Ok r /\
    length (call_infos (without_selfdestructs r)) = 6 /\
    length (call_infos (without_precompiles (w_precompiles ex_world) (without_selfdestructs r))) = 5.
Proof.
  split_and!; [by apply env_okb_ok|by apply env_okb_ok|unfold evm_refund; cbn; lia| | |done|eexists; vm_compute; reflexivity|].
  - repeat (constructor; cbn; try done). by intros a _ [= <-].
  - repeat (constructor; cbn; try done).
  - do 2 eexists. split; [vm_compute; reflexivity|]. split; [vm_compute; reflexivity|]. split; vm_compute; reflexivity.
Qed.
