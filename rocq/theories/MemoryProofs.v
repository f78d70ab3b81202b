(** * MemoryProofs: memory snapshots, push snapshots, storage changes *)

From Verif Require Export TxFacts.

Lemma may_modify_covers_writes op : evm_writes_memory op = true -> may_modify_memory op = true.
Proof.
  unfold evm_writes_memory, may_modify_memory. intros H. apply existsb_exists in H as (x & Hx & He).
  apply N.eqb_eq in He. subst x. apply existsb_exists. exists op. rewrite N.eqb_refl. split; [|done].
  cbn in Hx. cbv [OP_EXTCODECOPY OP_MLOAD OP_MSTORE OP_MSTORE8 OP_MCOPY OP_CODECOPY OP_CALLDATACOPY
    OP_RETURNDATACOPY OP_CALL OP_CALLCODE OP_DELEGATECALL OP_STATICCALL]. cbn. naive_solver.
Qed.

Section mem.
Context (cfg : TracingInspectorConfig) (w : world).
Hypothesis Hmem : record_memory_snapshots cfg = true.

Lemma step_of_memory d prev o :
  snapshot_safe cfg o -> recorded cfg o = true ->
  st_memory (step_of cfg w d prev o) = snapshot_memory cfg prev (in_memory (op_pre o)) /\
  st_op (step_of cfg w d prev o) = in_op (op_pre o).
Proof.
  intros Hs Hr. destruct (fill_step_ok cfg w d prev o Hr Hs) as (st' & Hst').
  unfold step_of. rewrite Hst'. apply fill_step_fields in Hst' as (_ & _ & H3 & _ & _ & H6 & _). done.
Qed.

(** With an opcode filter every snapshot is fresh. *)
Lemma memory_filtered d os : record_opcodes_filter cfg <> None -> Forall (snapshot_safe cfg) os -> forall prev,
  Forall2 (fun o st => st_memory st = Some (in_memory (op_pre o)))
    (List.filter (fun o => selected cfg (in_op (op_pre o))) os) (steps_from cfg w d prev os).
Proof.
  intros Hf Hs. induction Hs as [|o os Ho Hos IH]; intros prev; cbn; [constructor|].
  rewrite <-recorded_selected. destruct (recorded cfg o) eqn:Hr; [|apply IH].
  constructor; [|apply IH]. destruct (step_of_memory d prev o Ho Hr) as [-> _].
  unfold snapshot_memory. rewrite Hmem. by destruct (record_opcodes_filter cfg).
Qed.

(** Without a filter: equal up to zero bytes that were added since. *)
Definition upto_zeros (o : instr) (st : CallTraceStep) : Prop :=
  exists m k, st_memory st = Some m /\ in_memory (op_pre o) = m ++ replicate k x00.

Lemma memory_unfiltered d os :
  record_steps cfg = true -> record_opcodes_filter cfg = None -> Forall (snapshot_safe cfg) os ->
  adjacent evm_memory_step os -> forall prev,
  match prev, os with
  | Some st, o :: _ => may_modify_memory (st_op st) = false -> upto_zeros o st
  | _, _ => True
  end ->
  Forall2 upto_zeros os (steps_from cfg w d prev os).
Proof.
  intros Hst Hf Hs. induction Hs as [|o os Ho Hos IH]; intros Hadj prev Hprev; cbn [steps_from]; [constructor|].
  assert (Hr : recorded cfg o = true) by (unfold recorded, should_record_opcode; by rewrite Hst, Hf).
  rewrite Hr. destruct (step_of_memory d prev o Ho Hr) as [Hm Hop].
  assert (Hz : upto_zeros o (step_of cfg w d prev o)).
  { unfold upto_zeros. rewrite Hm. unfold snapshot_memory. rewrite Hmem, Hf. destruct prev as [p|].
    - destruct (may_modify_memory (st_op p)) eqn:Hmm; cbn [negb].
      + exists (in_memory (op_pre o)), 0. split; [done|]. by rewrite app_nil_r.
      + destruct (Hprev eq_refl) as (m & k & -> & ->). eauto.
    - exists (in_memory (op_pre o)), 0. split; [done|]. by rewrite app_nil_r. }
  constructor; [done|]. apply IH.
  { destruct os as [|o2 os]; [done|]. apply Hadj. }
  destruct os as [|o2 os]; [done|]. destruct Hadj as [Hstep _]. rewrite Hop. intros Hmm.
  destruct Hz as (m & k & Hm1 & Hm2).
  assert (Hw : evm_writes_memory (in_op (op_pre o)) = false).
  { apply not_true_is_false. intros Hw. apply may_modify_covers_writes in Hw. congruence. }
  destruct (Hstep Hw) as [He1 He2]. exists m.
  destruct (evm_expands_memory (in_op (op_pre o))).
  - destruct (He1 eq_refl) as (k2 & ->). exists (k + k2). split; [done|].
    by rewrite Hm2, <-app_assoc, replicate_add.
  - exists k. split; [done|]. by rewrite (He2 eq_refl).
Qed.

(** Exactly, when nothing expanded memory behind the classification's back. *)
Definition silently_expands (op : u8) : bool := evm_expands_memory op && negb (op =? 0x51)%N.

Lemma memory_exact d os :
  record_steps cfg = true -> record_opcodes_filter cfg = None -> Forall (snapshot_safe cfg) os ->
  Forall (fun o => silently_expands (in_op (op_pre o)) = false) os ->
  adjacent evm_memory_step os -> forall prev,
  match prev, os with
  | Some st, o :: _ => may_modify_memory (st_op st) = false -> st_memory st = Some (in_memory (op_pre o))
  | _, _ => True
  end ->
  Forall2 (fun o st => st_memory st = Some (in_memory (op_pre o))) os (steps_from cfg w d prev os).
Proof.
  intros Hst Hf Hs. induction Hs as [|o os Ho Hos IH]; intros Hex Hadj prev Hprev; cbn [steps_from]; [constructor|].
  inversion_clear Hex as [|? ? Hexo Hexos].
  assert (Hr : recorded cfg o = true) by (unfold recorded, should_record_opcode; by rewrite Hst, Hf).
  rewrite Hr. destruct (step_of_memory d prev o Ho Hr) as [Hm Hop].
  assert (Hz : st_memory (step_of cfg w d prev o) = Some (in_memory (op_pre o))).
  { rewrite Hm. unfold snapshot_memory. rewrite Hmem, Hf. destruct prev as [p|]; [|done].
    destruct (may_modify_memory (st_op p)) eqn:Hmm; cbn [negb]; [done|]. by rewrite (Hprev eq_refl). }
  constructor; [done|]. apply IH; [done| |].
  { destruct os as [|o2 os]; [done|]. apply Hadj. }
  destruct os as [|o2 os]; [done|]. destruct Hadj as [Hstep _]. rewrite Hop. intros Hmm.
  assert (Hw : evm_writes_memory (in_op (op_pre o)) = false).
  { apply not_true_is_false. intros Hw. apply may_modify_covers_writes in Hw. congruence. }
  destruct (Hstep Hw) as [He1 He2]. rewrite He2; [done|].
  unfold silently_expands in Hexo. apply andb_false_iff in Hexo as [?|H51]; [done|].
  apply negb_false_iff, N.eqb_eq in H51. rewrite H51 in Hmm. done.
Qed.

(** Without a filter, exactly: the memory as of the newest fresh copy. *)
Definition shows_copy (l : list instr) (k : nat) (st : CallTraceStep) : Prop :=
  exists j oj, j <= k /\ l !! j = Some oj /\ fresh_copy l j /\ (forall i, j < i <= k -> ~ fresh_copy l i) /\
    st_memory st = Some (in_memory (op_pre oj)).

Lemma copying_spec op : copying_op op = may_modify_memory op.
Proof.
  unfold copying_op, may_modify_memory. cbv [OP_EXTCODECOPY OP_MLOAD OP_MSTORE OP_MSTORE8 OP_MCOPY OP_CODECOPY OP_CALLDATACOPY
    OP_RETURNDATACOPY OP_CALL OP_CALLCODE OP_DELEGATECALL OP_STATICCALL]. cbn [existsb].
  repeat match goal with |- context [(op =? ?x)%N] => destruct (op =? x)%N end; reflexivity.
Qed.

Lemma memory_copies d l : record_steps cfg = true -> record_opcodes_filter cfg = None -> Forall (snapshot_safe cfg) l ->
  forall os before prev, l = before ++ os ->
  match prev with
  | None => before = []
  | Some p => exists o, last before = Some o /\ st_op p = in_op (op_pre o) /\ shows_copy l (pred (length before)) p
  end ->
  forall k st, steps_from cfg w d prev os !! k = Some st -> shows_copy l (length before + k) st.
Proof.
  intros Hst Hf Hs. induction os as [|o os IH]; intros before prev Hl Hprev k st; cbn [steps_from]; [done|].
  assert (Hr : recorded cfg o = true) by (unfold recorded, should_record_opcode; by rewrite Hst, Hf).
  assert (Ho : snapshot_safe cfg o) by (rewrite Hl in Hs; apply Forall_app in Hs as [_ Hs]; by inversion Hs).
  assert (Hlo : l !! length before = Some o) by (rewrite Hl, lookup_app_r, Nat.sub_diag; done).
  rewrite Hr. destruct (step_of_memory d prev o Ho Hr) as [Hm Hop]. cbn zeta.
  assert (Hz : shows_copy l (length before) (step_of cfg w d prev o)).
  { unfold snapshot_memory in Hm. rewrite Hmem, Hf in Hm. destruct prev as [p|].
    - destruct Hprev as (o' & Hlast & Hpop & j & oj & Hj & Hlj & Hfr & Hno & Hpm).
      assert (Hb : 0 < length before) by (destruct before; [done|cbn; lia]).
      assert (Hprevo : l !! pred (length before) = Some o').
      { rewrite last_lookup in Hlast. rewrite Hl, lookup_app_l; [done|lia]. }
      destruct (may_modify_memory (st_op p)) eqn:Hmm; cbn [negb] in Hm.
      + exists (length before), o. split_and!; try done.
        * right. exists (pred (length before)), o'. split_and!; [lia|done|]. by rewrite copying_spec, <-Hpop.
        * intros i Hi. lia.
      + exists j, oj. split_and!; try done; [lia| |by rewrite Hm, Hpm].
        intros i Hi Hfi. destruct (decide (i = length before)) as [->|Hne]; [|apply (Hno i); [lia|done]].
        destruct Hfi as [Hz|(i' & x & Hi' & Hx & Hc)]; [lia|]. replace i' with (pred (length before)) in Hx by lia. rewrite Hprevo in Hx.
        injection Hx as <-. rewrite copying_spec, <-Hpop in Hc. congruence.
    - subst before. cbn [length] in *. exists 0, o. split_and!; try done; [by left|]. intros i Hi. lia. }
  destruct k as [|k]; cbn [lookup list_lookup].
  - intros [= <-]. by rewrite Nat.add_0_r.
  - intros Hk. replace (length before + S k) with (length (before ++ [o]) + k) by (rewrite app_length; cbn; lia).
    apply (IH (before ++ [o]) (Some (step_of cfg w d prev o))); [by rewrite <-app_assoc| |exact Hk].
    exists o. split_and!; [by rewrite last_snoc|done|]. rewrite app_length. cbn [length]. by rewrite Nat.add_comm.
Qed.
End mem.
