(** * PropertiesShown: C120, the struct logs of partial recordings *)

From Verif Require Import GethProofs TxTraceProofs ShownProofs PropertiesGeth Examples.

(** ** C120 *)

(** A recording with an opcode filter, or without precompile calls, shows the lines of a full recording that were asked
    for, in the same order. *)
Definition C120_statement : Prop :=
  forall cfg full w f s s' gas out opts r r',
  env_ok cfg w f -> env_ok full w f -> evm_calls f ->
  record_steps full = true -> record_opcodes_filter full = None -> exclude_precompile_calls full = false ->
  record_stack_snapshots full = record_stack_snapshots cfg -> record_steps cfg = true ->
  ti_run (ti_new cfg) (tx_events w f) = Ok s -> ti_run (ti_new full) (tx_events w f) = Ok s' ->
  geth_traces (ti_traces s) gas out opts = Ok r -> geth_traces (ti_traces s') gas out opts = Ok r' ->
  Forall2 same_line (List.filter (fun l => selected cfg (sl_op l)) (dfr_struct_logs r')) (dfr_struct_logs r).

(** Exactly what is shown, for every configuration. *)
Theorem C120_shown_exactly :
  forall cfg w f s gas out opts, env_ok cfg w f -> ti_run (ti_new cfg) (tx_events w f) = Ok s ->
  exists r, geth_traces (ti_traces s) gas out opts = Ok r /\
    Forall2 (fun x l => let '(d, g, o) := x in log_describes cfg opts d g o l) (shown cfg w (spec_value (f_start f)) 0 f) (dfr_struct_logs r).
Proof.
  intros cfg w f s gas out opts Henv Hrun. pose proof (tx_tree cfg w f s Hrun) as Ht.
  destruct (shown_steps cfg w (ti_traces s) f None 0 0 None) as (l & Hl & Hm).
  { apply Henv. }
  { intros k x Hk. rewrite (tx_traces cfg w f s Henv Hrun). unfold layout. rewrite list_lookup_fmap. cbn [Nat.add]. by rewrite Hk. }
  destruct (geth_traces_ok _ Ht opts gas out l Hl) as (root & H0 & Hok). eexists. split; [exact Hok|]. cbn [dfr_struct_logs].
  assert (value_of (f_start f) None = spec_value (f_start f)) as Hv.
  { destruct (f_start f) as [j i|j i]; [|done]. unfold value_of, spec_value, ci_call_value. by destruct (ci_scheme i). }
  rewrite Hv in Hm.
  change (snd (fold_left (do_log opts) l log0)) with (snd (after opts l)).
  apply Forall2_same_length_lookup. rewrite after_length. split; [by eapply Forall2_length|].
  intros j [[d g] o] sl Hx Hsl. destruct (Forall2_lookup_l _ _ _ _ _ Hm Hx) as ([n st] & Hy & Hmatch).
  destruct (after_lookup opts l j n st Hy) as (ls & Hlog & _). rewrite Hlog in Hsl. injection Hsl as <-.
  by apply (matches_describes cfg w).
Qed.
Print Assumptions C120_shown_exactly.

(** With a filter that asks for every call and create instruction, and no calls left out, only lines go missing. *)
Theorem C120_only_removed_partial :
  forall cfg full w f s s' gas out opts,
  env_ok cfg w f -> env_ok full w f -> evm_calls f ->
  record_steps full = true -> record_opcodes_filter full = None -> exclude_precompile_calls full = false ->
  record_stack_snapshots full = record_stack_snapshots cfg ->
  (forall op, In op [0xf0; 0xf1; 0xf2; 0xf4; 0xf5; 0xfa]%N -> selected cfg op = true) -> exclude_precompile_calls cfg = false ->
  ti_run (ti_new cfg) (tx_events w f) = Ok s -> ti_run (ti_new full) (tx_events w f) = Ok s' ->
  exists r r', geth_traces (ti_traces s) gas out opts = Ok r /\ geth_traces (ti_traces s') gas out opts = Ok r' /\
    Forall2 same_line (List.filter (fun l => selected cfg (sl_op l)) (dfr_struct_logs r')) (dfr_struct_logs r).
Proof.
  intros cfg full w f s s' gas out opts Henv Henv' Hcalls Hst Hflt Hex Hsnap Hsel Hex' Hrun Hrun'.
  destruct (C31_chronological full w f s' gas out opts Henv' Hcalls Hrun' Hst Hflt Hex) as (r' & Hr' & Hlogs').
  destruct (C120_shown_exactly cfg w f s gas out opts Henv Hrun) as (r & Hr & Hlogs).
  exists r, r'. split; [done|]. split; [done|]. rewrite shown_asked in Hlogs; [|done| |done].
  2:{ intros o Ho. apply Hsel. unfold instr_is_call in Ho. apply existsb_exists in Ho as (x & Hx & He). apply N.eqb_eq in He. by subst x. }
  revert Hlogs. generalize (dfr_struct_logs r). clear Hr r.
  induction Hlogs' as [|[[d g] o] l' xs ls' Hd Hls IH]; intros ls Hlogs.
  - inversion Hlogs. constructor.
  - cbn [List.filter] in *. unfold asked at 1 in Hlogs. cbn [snd] in Hlogs. rewrite (ld_op _ _ _ _ _ _ Hd).
    destruct (selected cfg (in_op (op_pre o))); [|by apply IH].
    inversion Hlogs as [|? l ? ls0 Hl Hls0]; subst. constructor; [|by apply IH].
    destruct Hd as [A1 A2 A3 A4 A5 A6 A7 A8], Hl as [B1 B2 B3 B4 B5 B6 B7 B8]. constructor; try congruence.
    + apply N2Z.inj. congruence.
    + by rewrite A7, B7, Hsnap.
Qed.
Print Assumptions C120_only_removed_partial.

(** A filter without DELEGATECALL: the lines of the delegated code appear after the next call instruction. *)
Definition no_delegatecall : TracingInspectorConfig :=
  mkConfig true false SnapFull false false (Some (2 ^ 256 - 1 - 2 ^ 0xf4)%N) false false.
Definition all_opcodes : TracingInspectorConfig := mkConfig true false SnapFull false false None false false.
Definition no_precompiles : TracingInspectorConfig := mkConfig true false SnapFull false false None true false.
Definition log_ops (cfg : TracingInspectorConfig) : list (list u8) :=
  match ti_run (ti_new cfg) (tx_events ex_world ex_tx) with
  | Ok s => match geth_traces (ti_traces s) 5%N [] ex_opts with Ok r => [map sl_op (dfr_struct_logs r)] | _ => [] end
  | _ => []
  end.

Lemma ex_calls : evm_calls ex_tx.
Proof. repeat (constructor; cbn; try done). Qed.
Lemma refute cfg : env_ok cfg ex_world ex_tx -> record_stack_snapshots cfg = SnapFull -> record_steps cfg = true ->
  (exists a, log_ops cfg = [a] /\ forall b, log_ops all_opcodes = [b] -> List.filter (selected cfg) b <> a) -> ~ C120_statement.
Proof.
  intros Henv Hsnap Hst (a & Ha & Hne) H. unfold log_ops in Ha.
  destruct (ti_run (ti_new cfg) (tx_events ex_world ex_tx)) as [s| |] eqn:Hs; [|done..].
  destruct (geth_traces (ti_traces s) 5%N [] ex_opts) as [r| |] eqn:Hr; [|done..]. injection Ha as <-.
  assert (Hall : exists s' r', ti_run (ti_new all_opcodes) (tx_events ex_world ex_tx) = Ok s' /\
    geth_traces (ti_traces s') 5%N [] ex_opts = Ok r') by (do 2 eexists; split; vm_compute; reflexivity).
  destruct Hall as (s' & r' & Hs' & Hr').
  specialize (H cfg all_opcodes ex_world ex_tx s s' 5%N [] ex_opts r r' Henv (env_okb_ok all_opcodes ex_world ex_tx eq_refl)).
  specialize (H ex_calls eq_refl eq_refl eq_refl (eq_sym Hsnap) Hst Hs Hs' Hr Hr').
  apply (Hne (map sl_op (dfr_struct_logs r'))); [unfold log_ops; by rewrite Hs', Hr'|].
  clear -H. revert H. generalize (dfr_struct_logs r) as l. induction (dfr_struct_logs r') as [|x l' IH]; intros l H.
  - by inversion H.
  - cbn [map List.filter] in *. destruct (selected cfg (sl_op x)); [|by apply IH].
    inversion H as [|? y ? l0 Hxy Hl]; subst. cbn [map]. rewrite (sm_op _ _ Hxy). f_equal. by apply IH.
Qed.

Theorem C120_refuted : ~ C120_statement.
Proof.
  apply (refute no_delegatecall); [by apply env_okb_ok|done|done|]. eexists. split; [vm_compute; reflexivity|].
  intros b Hb. vm_compute in Hb. injection Hb as <-. vm_compute. discriminate.
Qed.
Print Assumptions C120_refuted.

(** Leaving out precompile calls: the lines of the contract created after one appear before the CREATE. *)
Theorem C120_precompiles_refuted : ~ C120_statement.
Proof.
  apply (refute no_precompiles); [by apply env_okb_ok|done|done|]. eexists. split; [vm_compute; reflexivity|].
  intros b Hb. vm_compute in Hb. injection Hb as <-. vm_compute. discriminate.
Qed.
Print Assumptions C120_precompiles_refuted.

(** Only calls, creates and SSTORE. *)
Definition calls_and_sstore : TracingInspectorConfig :=
  mkConfig true false SnapFull false false
    (Some (2 ^ 0xf0 + 2 ^ 0xf1 + 2 ^ 0xf2 + 2 ^ 0xf4 + 2 ^ 0xf5 + 2 ^ 0xfa + 2 ^ 0x55)%N) false false.
Example C120_example :
  env_ok calls_and_sstore ex_world ex_tx /\ evm_calls ex_tx /\ exclude_precompile_calls calls_and_sstore = false /\
  (forall op, In op [0xf0; 0xf1; 0xf2; 0xf4; 0xf5; 0xfa]%N -> selected calls_and_sstore op = true) /\
  log_ops all_opcodes = [[OP_PUSH1; OP_LOG0; OP_DELEGATECALL; OP_PUSH1; OP_SSTORE; OP_STOP; OP_STATICCALL; OP_CREATE;
                          OP_SELFDESTRUCT; OP_CALL; OP_CALL; OP_REVERT; OP_STOP]] /\
  log_ops calls_and_sstore = [[OP_DELEGATECALL; OP_SSTORE; OP_STATICCALL; OP_CREATE; OP_CALL; OP_CALL]].
Proof.
  split; [by apply env_okb_ok|]. split; [exact ex_calls|]. split; [done|]. split.
  - intros op Hop. repeat (destruct Hop as [<-|Hop]; [vm_compute; reflexivity|]). destruct Hop.
  - split; vm_compute; reflexivity.
Qed.
