(** * PropertiesParties: C93, C94, called and destroyed accounts *)

From Verif Require Import PartiesProofs TxTraceProofs PropertiesGeth PropertiesTx Examples.
From Verif Require Export SpecParties.

(** ** C93 *)
Definition C93_statement : Prop :=
  forall rr cfg w f s opts gas, env_ok cfg w f -> evm_selfdestructs f -> evm_refund f -> evm_addresses f ->
  ti_run (ti_new cfg) (tx_events w f) = Ok s -> only_top_call opts <> Some true ->
  exists traces r, into_transaction_traces (ti_traces s) = Ok traces /\ geth_call_traces rr (ti_traces s) opts gas = Ok r /\
    Forall2 (fun g t => forall a, named_callee t = Some a -> a = code_address (f_start g))
      (listed_frames cfg w (spec_value (f_start f)) f) (List.filter is_call_entry traces) /\
    Forall2 (fun g i => fi_to i = Some (code_address (f_start g))) (frames_of f) (call_infos (without_selfdestructs r)).

(** A contract calls a library by DELEGATECALL, and the library's code runs SELFDESTRUCT: the entry of that call names
    the contract, not the library, as the called account. *)
Definition library_call : frame :=
  Frame (SCall ex_j0 (mkCallInputs [] 30000 0xD0 0xC0 0xAA (Apparent 7) CSDelegateCall false)%N)
    [ IOp (ex_op OP_SELFDESTRUCT 0 [0xBB]%N [] 500%N ex_j0 [HSelfdestruct 0xC0 0xBB 5]%N SelfDestruct) ] (ex_end SelfDestruct None).
Definition library_tx : frame :=
  Frame (SCall ex_j0 (mkCallInputs [] 90000 0xC0 0xC0 0xAA (Transfer 7) CSCall false)%N)
    [ IOp (ex_op OP_DELEGATECALL 3 [0; 0; 0; 0; 0; 0]%N [] 8000%N ex_j0 [] CallOrCreate); ISub library_call;
      IOp (ex_op OP_CREATE 5 [0; 0; 0]%N [] 6000%N ex_j0 [] CallOrCreate); ISub ex_create;
      IOp (ex_op OP_STOP 7 [] [] 4000%N ex_j0 [] Stop) ] (ex_end Stop None).
Lemma library_ok : env_ok cfg_none ex_world library_tx /\ evm_selfdestructs library_tx /\ evm_refund library_tx /\ evm_addresses library_tx.
Proof.
  split_and!; [by apply env_okb_ok|repeat (constructor; cbn; try done)|unfold evm_refund; cbn; lia|].
  repeat (constructor; cbn; try done). by intros a _ [= <-].
Qed.

Theorem C93_refuted : ~ C93_statement.
Proof.
  intros H. destruct library_ok as (H1 & H2 & H3 & H4).
  assert (Hs : exists s, ti_run (ti_new cfg_none) (tx_events ex_world library_tx) = Ok s) by (eexists; vm_compute; reflexivity).
  destruct Hs as [s Hs].
  destruct (H (fun _ => None) cfg_none ex_world library_tx s (mkCallConfig None None) 0%N H1 H2 H3 H4 Hs ltac:(done)) as (traces & r & Htr & _ & Hall & _).
  rewrite (C74_parity_traces cfg_none ex_world library_tx s H1 H3 Hs) in Htr. injection Htr as <-.
  vm_compute in Hall. inversion_clear Hall as [|? ? ? ? _ Hall']. inversion_clear Hall' as [|? ? ? ? Hbad _].
  specialize (Hbad _ eq_refl). discriminate Hbad.
Qed.
Print Assumptions C93_refuted.

(** What holds: the called account is named, in both kinds of traces, for every frame that does not destroy itself by
    running another account's code; such a frame names the destroyed contract instead. *)
Theorem C93_callee_partial :
  forall rr cfg w f s opts gas, env_ok cfg w f -> evm_refund f -> evm_addresses f ->
  ti_run (ti_new cfg) (tx_events w f) = Ok s -> only_top_call opts <> Some true ->
  let named g a := (~ destroyed_by_library g -> a = code_address (f_start g)) /\
                   (destroyed_by_library g -> a = executing_account (f_start g)) in
  exists traces r, into_transaction_traces (ti_traces s) = Ok traces /\ geth_call_traces rr (ti_traces s) opts gas = Ok r /\
    Forall2 (fun g t => forall a, named_callee t = Some a -> named g a)
      (listed_frames cfg w (spec_value (f_start f)) f) (List.filter is_call_entry traces) /\
    Forall2 (fun g i => exists a, fi_to i = Some a /\ named g a) (frames_of f) (call_infos (without_selfdestructs r)).
Proof.
  intros rr cfg w f s opts gas Henv Href Ha Hrun Htop named.
  destruct (C75_call_tree rr cfg w f s opts gas Henv Ha Hrun Htop) as (r & Hr & H1 & _).
  exists (spec_traces cfg w true (spec_value (f_start f)) [] f), r.
  split; [by apply C74_parity_traces|]. split; [done|]. rewrite H1. split.
  - by apply (traces_callee cfg w f true (spec_value (f_start f)) []).
  - by apply infos_callee.
Qed.
Print Assumptions C93_callee_partial.

(** The library call of [library_tx] destroys its caller, the create in it destroys itself. *)
Example C93_example :
  env_ok cfg_none ex_world library_tx /\ evm_selfdestructs library_tx /\ evm_refund library_tx /\ evm_addresses library_tx /\
  (exists s, ti_run (ti_new cfg_none) (tx_events ex_world library_tx) = Ok s) /\
  destroyed_by_library library_call /\ ~ destroyed_by_library ex_create /\
  map (fun g => code_address (f_start g)) (listed_frames cfg_none ex_world 7%N library_tx) = [0xC0; 0xD0; 0xE0]%N.
Proof.
  destruct library_ok as (H1 & H2 & H3 & H4). split_and!; try done.
  - eexists. vm_compute. reflexivity.
  - intros [H _]. by apply H.
Qed.

(** ** C94 *)
Definition C94_statement : Prop :=
  forall rr cfg w f s opts gas, env_ok cfg w f -> evm_selfdestructs f -> evm_refund f -> evm_addresses f ->
  ti_run (ti_new cfg) (tx_events w f) = Ok s -> only_top_call opts <> Some true ->
  exists traces r, into_transaction_traces (ti_traces s) = Ok traces /\ geth_call_traces rr (ti_traces s) opts gas = Ok r /\
    selfdestruct_actions traces = flat_map destruction_action (listed_frames cfg w (spec_value (f_start f)) f) /\
    selfdestruct_infos r ≡ₚ flat_map (destruction (fun g => executing_account (f_start g))) (frames_of f).

(** A call whose callee selfdestructs: the SELFDESTRUCT frame names the caller as the destroyed contract. *)
Lemma sd_ok : env_ok cfg_none ex_world sd_tx /\ evm_selfdestructs sd_tx /\ evm_refund sd_tx /\ evm_addresses sd_tx.
Proof. split_and!; [by apply env_okb_ok|repeat (constructor; cbn; try done)|unfold evm_refund; cbn; lia|repeat (constructor; cbn; try done)]. Qed.

Theorem C94_refuted : ~ C94_statement.
Proof.
  intros H. destruct sd_ok as (H1 & H2 & H3 & H4).
  assert (Hs : exists s, ti_run (ti_new cfg_none) (tx_events ex_world sd_tx) = Ok s) by (eexists; vm_compute; reflexivity).
  destruct Hs as [s Hs].
  destruct (H (fun _ => None) cfg_none ex_world sd_tx s (mkCallConfig None None) 0%N H1 H2 H3 H4 Hs ltac:(done)) as (traces & r & _ & Hr & _ & Hp).
  destruct (tx_destroyed (fun _ => None) cfg_none ex_world sd_tx s (mkCallConfig None None) 0%N H1 Hs eq_refl) as (r' & Hr' & Hp').
  rewrite Hr in Hr'. injection Hr' as <-. rewrite Hp in Hp'. vm_compute in Hp'. apply Permutation_singleton_inj in Hp'. discriminate Hp'.
Qed.
Print Assumptions C94_refuted.

(** What holds: the parity traces report exactly the destroyed contracts, in order, with refund target and balance; the
    call tree has exactly one SELFDESTRUCT frame per frame that ran SELFDESTRUCT, with the right refund target and
    balance, but with the account that made the call in place of the destroyed contract.  Of a SELFDESTRUCT that the EVM
    did not announce, the parity traces have an entry with zeros, the call tree a frame without target and value. *)
Theorem C94_destroyed_partial :
  forall rr cfg w f s opts gas, env_ok cfg w f -> evm_refund f -> evm_addresses f ->
  ti_run (ti_new cfg) (tx_events w f) = Ok s -> only_top_call opts <> Some true ->
  exists traces r, into_transaction_traces (ti_traces s) = Ok traces /\ geth_call_traces rr (ti_traces s) opts gas = Ok r /\
    selfdestruct_actions traces = flat_map destruction_action (listed_frames cfg w (spec_value (f_start f)) f) /\
    selfdestruct_infos r ≡ₚ flat_map (destruction (fun g => spec_caller (f_start g))) (frames_of f).
Proof.
  intros rr cfg w f s opts gas Henv Href Ha Hrun Htop.
  destruct (tx_destroyed rr cfg w f s opts gas Henv Hrun (not_true_false _ Htop)) as (r & Hr & Hp).
  exists (spec_traces cfg w true (spec_value (f_start f)) [] f), r.
  split; [by apply C74_parity_traces|]. split; [done|]. split; [|done]. by apply (traces_callee cfg w f true (spec_value (f_start f)) []).
Qed.
Print Assumptions C94_destroyed_partial.

(** Every refund in the parity traces is one the EVM announced. *)
Definition C94_announced_statement : Prop :=
  forall cfg w f s traces, env_ok cfg w f -> evm_refund f -> evm_addresses f ->
  ti_run (ti_new cfg) (tx_events w f) = Ok s -> into_transaction_traces (ti_traces s) = Ok traces ->
  forall contract target amount, In (ActSelfdestruct contract target amount) (selfdestruct_actions traces) ->
  In (contract, target, amount) (flat_map (fun g => selfdestructs_of (hooks (f_body g))) (frames_of f)).

(** A contract of an earlier transaction runs SELFDESTRUCT with itself as target: nothing is destroyed and nothing moves,
    and the parity traces report a refund of zero to the zero address. *)
Definition stay_tx : frame :=
  Frame (SCall ex_j0 (mkCallInputs [] 90000 0xC0 0xC0 0xAA (Transfer 7) CSCall false)%N)
    [ IOp (ex_op OP_SELFDESTRUCT 0 [0xC0]%N [] 500%N ex_j0 [] SelfDestruct) ] (ex_end SelfDestruct None).
Lemma stay_ok : env_ok cfg_none ex_world stay_tx /\ evm_refund stay_tx /\ evm_addresses stay_tx.
Proof. split_and!; [by apply env_okb_ok|unfold evm_refund; cbn; lia|repeat (constructor; cbn; try done)]. Qed.
Theorem C94_announced_refuted : ~ C94_announced_statement.
Proof.
  intros H. destruct stay_ok as (H1 & H2 & H3).
  assert (Hs : exists s, ti_run (ti_new cfg_none) (tx_events ex_world stay_tx) = Ok s) by (eexists; vm_compute; reflexivity).
  destruct Hs as [s Hs]. pose proof (C74_parity_traces cfg_none ex_world stay_tx s H1 H2 Hs) as Ht.
  specialize (H cfg_none ex_world stay_tx s _ H1 H2 H3 Hs Ht 0xC0%N 0%N 0%N). apply H. vm_compute. by left.
Qed.
Print Assumptions C94_announced_refuted.

Example C94_example :
  env_ok cfg_none ex_world library_tx /\ evm_selfdestructs library_tx /\ evm_refund library_tx /\ evm_addresses library_tx /\
  (exists s, ti_run (ti_new cfg_none) (tx_events ex_world library_tx) = Ok s) /\
  flat_map destruction_action (listed_frames cfg_none ex_world 7%N library_tx) = [ActSelfdestruct 0xC0 0xBB 5; ActSelfdestruct 0xE0 0xBB 5]%N /\
  map fi_from (flat_map (destruction (fun g => spec_caller (f_start g))) (frames_of library_tx)) = [0xC0; 0xC0]%N.
Proof.
  destruct library_ok as (H1 & H2 & H3 & H4). split_and!; try done. eexists. vm_compute. reflexivity.
Qed.
