(** * PropertiesTx: C74, C75, C89, C90, the parity traces and the geth call tree as functions of the execution *)

From Verif Require Import TxTraceProofs AgreeProofs Examples.

(** ** C74 *)
Theorem C74_parity_traces :
  forall cfg w f s, env_ok cfg w f -> evm_refund f ->
  ti_run (ti_new cfg) (tx_events w f) = Ok s ->
  into_transaction_traces (ti_traces s) = Ok (spec_traces cfg w true (spec_value (f_start f)) [] f).
Proof. intros cfg w f s. apply tx_parity. Qed.
Print Assumptions C74_parity_traces.

(** A log, a delegate call, a hidden precompile call, a create that selfdestructs and a reverted call that paid a
    precompile: six entries. *)
Example C74_example :
  env_ok ex_cfg ex_world ex_tx /\ evm_selfdestructs ex_tx /\ evm_refund ex_tx /\
  exists s, ti_run (ti_new ex_cfg) (tx_events ex_world ex_tx) = Ok s /\
  map (fun t => (tt_address t, tt_subtraces t)) (spec_traces ex_cfg ex_world true 7%N [] ex_tx) =
  [([], 3); ([0], 0); ([1], 1); ([1; 0], 0); ([2], 1); ([2; 0], 0)].
Proof.
  split; [by apply env_okb_ok|]. split; [|split].
  - repeat (constructor; cbn; try done).
  - unfold evm_refund. cbn. lia.
  - eexists. split; vm_compute; reflexivity.
Qed.

(** ** C75 *)
Theorem C75_call_tree :
  forall rr cfg w f s opts gas, env_ok cfg w f -> evm_addresses f ->
  ti_run (ti_new cfg) (tx_events w f) = Ok s -> only_top_call opts <> Some true ->
  exists r, geth_call_traces rr (ti_traces s) opts gas = Ok r /\
    without_selfdestructs r =
      spec_calls rr cfg w (bool_decide (with_log opts = Some true)) gas true true (spec_value (f_start f)) f /\
    (every_frame (fun g => status (f_end g) <> SelfDestruct /\ selfdestructs_of (hooks (f_body g)) = []) f ->
     without_selfdestructs r = r).
Proof.
  intros rr cfg w f s opts gas Henv Ha Hrun Htop.
  destruct (tx_calls rr cfg w f s opts gas Henv Ha Hrun) as (r & Hr & H1 & H2).
  { destruct (only_top_call opts) as [[]|]; done. }
  exists r. split; [done|]. split; [|done]. rewrite H1. f_equal. destruct (with_log opts) as [[]|]; done.
Qed.
Print Assumptions C75_call_tree.

Fixpoint call_count (c : CallFrame) : nat := match c with mkCF _ calls => S (list_sum (map call_count calls)) end.

Example C75_example :
  env_ok ex_cfg ex_world ex_tx /\ evm_addresses ex_tx /\
  exists s, ti_run (ti_new ex_cfg) (tx_events ex_world ex_tx) = Ok s /\
  let c := spec_calls (fun _ => None) ex_cfg ex_world true 99%N true true 7%N ex_tx in
  call_count c = 6 /\ length (fi_logs (cf_info c)) = 1 /\
  map (fun x => fi_typ (cf_info x)) (cf_calls c) = ["DELEGATECALL"; "STATICCALL"; "CREATE"; "CALL"].
Proof.
  split; [by apply env_okb_ok|]. split.
  - repeat (constructor; cbn; try done). by intros a _ [= <-].
  - eexists. split; [vm_compute; reflexivity|]. cbn zeta. split_and!; vm_compute; reflexivity.
Qed.

(** ** C89 *)

(** [decode] is alloy's decoder of revert data, any function here. *)
Theorem C89_revert_reasons :
  forall decode cfg w f s opts gas, env_ok cfg w f -> evm_addresses f ->
  ti_run (ti_new cfg) (tx_events w f) = Ok s -> only_top_call opts <> Some true ->
  exists r, geth_call_traces (maybe_revert_reason decode) (ti_traces s) opts gas = Ok r /\
    Forall2 (reason_of decode) (frames_of f) (call_infos (without_selfdestructs r)).
Proof.
  intros decode cfg w f s opts gas Henv Ha Hrun Htop.
  destruct (C75_call_tree (maybe_revert_reason decode) cfg w f s opts gas Henv Ha Hrun Htop) as (r & Hr & H1 & _).
  exists r. split; [done|]. rewrite H1. apply call_infos_reasons.
Qed.
Print Assumptions C89_revert_reasons.

Example C89_example :
  let decode := fun d : bytes => match d with [] => Some (RawString "") | _ => Some (ContractRevert "no") end in
  env_ok ex_cfg ex_world ex_tx /\ evm_addresses ex_tx /\
  exists s r, ti_run (ti_new ex_cfg) (tx_events ex_world ex_tx) = Ok s /\
    geth_call_traces (maybe_revert_reason decode) (ti_traces s) (mkCallConfig None None) 99%N = Ok r /\
    map (fun i => fi_revert_reason i) (call_infos (without_selfdestructs r)) = [None; None; None; None; Some "no"; None].
Proof.
  split; [by apply env_okb_ok|]. split.
  - repeat (constructor; cbn; try done). by intros a _ [= <-].
  - do 2 eexists. split; [vm_compute; reflexivity|]. split; vm_compute; reflexivity.
Qed.

(** ** C90 *)

(** If no calls are left out, the parity traces and the geth call tree of one execution report the same calls: the trace
    address of an entry leads to the frame of the same call, and every frame is reached. *)
Theorem C90_parity_and_geth_agree :
  forall rr cfg w f s opts gas, env_ok cfg w f -> evm_refund f -> evm_addresses f ->
  exclude_precompile_calls cfg = false ->
  ti_run (ti_new cfg) (tx_events w f) = Ok s -> only_top_call opts <> Some true ->
  exists traces r, into_transaction_traces (ti_traces s) = Ok traces /\ geth_call_traces rr (ti_traces s) opts gas = Ok r /\
    (forall t, In t traces -> is_call_entry t = true ->
       exists c, frame_at (without_selfdestructs r) (tt_address t) = Some c /\ same_call t (cf_info c)) /\
    (forall path c, frame_at (without_selfdestructs r) path = Some c ->
       exists t, In t traces /\ is_call_entry t = true /\ tt_address t = path).
Proof.
  intros rr cfg w f s opts gas Henv Href Ha Hall Hrun Htop.
  destruct (C75_call_tree rr cfg w f s opts gas Henv Ha Hrun Htop) as (r & Hr & H1 & _).
  exists (spec_traces cfg w true (spec_value (f_start f)) [] f), r.
  split; [by apply C74_parity_traces|]. split; [done|]. rewrite H1.
  destruct (traces_calls rr cfg w (bool_decide (with_log opts = Some true)) gas Hall f true true (spec_value (f_start f)) [] ltac:(done)) as [G1 G2].
  split.
  - intros t Hin Hce. destruct (G1 t Hin Hce) as (p & c & -> & Hf & Hs). by exists c.
  - intros path c Hf. destruct (G2 path c Hf) as (t & Hin & Hce & Hp). by exists t.
Qed.
Print Assumptions C90_parity_and_geth_agree.

Example C90_example :
  env_ok cfg_default_geth ex_world ex_tx /\ evm_selfdestructs ex_tx /\ evm_refund ex_tx /\ evm_addresses ex_tx /\
  exclude_precompile_calls cfg_default_geth = false /\
  exists s, ti_run (ti_new cfg_default_geth) (tx_events ex_world ex_tx) = Ok s.
Proof.
  split_and!; [by apply env_okb_ok|repeat (constructor; cbn; try done)|unfold evm_refund; cbn; lia| |done|eexists; vm_compute; reflexivity].
  repeat (constructor; cbn; try done). by intros a _ [= <-].
Qed.
