(** * PropertiesErrors: C115, the words in which call frames report errors *)

From Verif Require Import SpecCalls AgreeProofs TxTraceProofs PropertiesTx PropertiesCalls Examples.

(** ** C115 *)

(** What go-ethereum's call tracer says of a failed call (the errors of its [core/vm/errors.go]); [None] where the EVM
    used here knows an outcome go-ethereum has no single text for. *)
Definition geth_words (st : InstructionResult) : option string :=
  match st with
  | Revert => Some "execution reverted"
  | OutOfGas | MemoryOOG | MemoryLimitOOG | PrecompileOOG | InvalidOperandOOG => Some "out of gas"
  | InvalidJump => Some "invalid jump destination"
  | StateChangeDuringStaticCall | CallNotAllowedInsideStatic => Some "write protection"
  | CreateCollision => Some "contract address collision"
  | _ => None
  end.

(** The error of a frame [i] is in go-ethereum's words. *)
Definition in_geth_words (g : frame) (i : FrameInfo) : Prop :=
  forall text, geth_words (status (f_end g)) = Some text -> fi_error i = Some text.

Lemma ex_addresses : evm_addresses ex_tx.
Proof. repeat (constructor; cbn; try done). by intros a _ [= <-]. Qed.

Definition C115_statement : Prop :=
  forall rr cfg w f s opts gas, env_ok cfg w f -> evm_addresses f ->
  ti_run (ti_new cfg) (tx_events w f) = Ok s -> only_top_call opts <> Some true ->
  exists r, geth_call_traces rr (ti_traces s) opts gas = Ok r /\
    Forall2 in_geth_words (frames_of f) (call_infos (without_selfdestructs r)).

(** The geth call tracer uses parity's words: a reverted call says "Reverted". *)
Theorem C115_error_words_refuted : ~ C115_statement.
Proof.
  intros H.
  destruct (ti_run (ti_new ex_cfg) (tx_events ex_world ex_tx)) as [s| |] eqn:E; [|vm_compute in E; discriminate..].
  destruct (H (fun _ => None) ex_cfg ex_world ex_tx s (mkCallConfig None None) 99%N) as (r & Hr & Hf).
  - apply ex_env.
  - apply ex_addresses.
  - exact E.
  - done.
  - assert (Hg : frames_of ex_tx !! 4 = Some ex_reverted) by (vm_compute; reflexivity).
    destruct (Forall2_lookup_l _ _ _ _ _ Hf Hg) as (i & Hi & Hw).
    assert (G : rmap (fun s => rmap (fun r => fi_error <$> (call_infos (without_selfdestructs r) !! 4))
        (geth_call_traces (fun _ => None) (ti_traces s) (mkCallConfig None None) 99%N))
      (ti_run (ti_new ex_cfg) (tx_events ex_world ex_tx)) = Ok (Ok (Some (Some "Reverted")))) by (vm_compute; reflexivity).
    rewrite E in G. cbn [rmap rbind] in G. rewrite Hr in G. cbn [rmap rbind] in G. rewrite Hi in G.
    injection G as G. specialize (Hw "execution reverted" eq_refl). congruence.
Qed.
Print Assumptions C115_error_words_refuted.

(** What holds: a frame has an error exactly if its call did not succeed, and then one that names the outcome in
    parity's words. *)
Theorem C115_error_words_partial :
  forall rr cfg w f s opts gas, env_ok cfg w f -> evm_addresses f ->
  ti_run (ti_new cfg) (tx_events w f) = Ok s -> only_top_call opts <> Some true ->
  exists r, geth_call_traces rr (ti_traces s) opts gas = Ok r /\
    Forall2 (fun g i =>
        (fi_error i = None <-> spec_success (status (f_end g)) = true) /\
        (fi_error i <> None -> fi_error i = Some (spec_parity_error (status (f_end g)))))
      (frames_of f) (call_infos (without_selfdestructs r)).
Proof.
  intros rr cfg w f s opts gas Henv Ha Hrun Htop.
  destruct (C75_call_tree rr cfg w f s opts gas Henv Ha Hrun Htop) as (r & Hr & H1 & _).
  exists r. split; [done|]. rewrite H1.
  eapply Forall2_impl; [apply call_infos_info; done|].
  intros g i (root & v & b & -> & _). cbn [spec_info fi_error]. by destruct (spec_success _).
Qed.
Print Assumptions C115_error_words_partial.
(** Six calls, one reverted. *)
Example C115_example :
  env_ok ex_cfg ex_world ex_tx /\ evm_addresses ex_tx /\
  exists s r, ti_run (ti_new ex_cfg) (tx_events ex_world ex_tx) = Ok s /\
    geth_call_traces (fun _ => None) (ti_traces s) (mkCallConfig None None) 99%N = Ok r /\
    map fi_error (call_infos (without_selfdestructs r)) = [None; None; None; None; Some "Reverted"; None].
Proof.
  split; [apply ex_env|]. split.
  - apply ex_addresses.
  - do 2 eexists. split; [vm_compute; reflexivity|]. split; vm_compute; reflexivity.
Qed.
