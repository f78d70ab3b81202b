(** * PropertiesAccepted: C127, the hook calls a tracing inspector can record *)

From Verif Require Import AcceptedProofs Examples.

(** ** C127 *)

(** A new inspector, or one that has been reset, records the hook calls exactly if they are [accepted]. *)
Theorem C127_accepted :
  forall cfg es, one_after_another 0 0 es ->
  ((exists s, ti_run (ti_new cfg) es = Ok s) <-> accepted cfg 0 [] [] es) /\
  (forall old, ti_config old = cfg -> (exists s, ti_run (ti_fuse old) es = Ok s) <-> accepted cfg 0 [] [] es).
Proof.
  intros cfg es Ho. split; [by apply (accepts cfg es _ 0 [] [] 0 0 (ainv_new cfg))|].
  intros old <-. by apply (accepts _ es _ 0 [] [] 0 0 (ainv_new _)).
Qed.
Print Assumptions C127_accepted.

(** Otherwise a hook panics. *)
Theorem C127_otherwise :
  forall cfg es, one_after_another 0 0 es -> ~ accepted cfg 0 [] [] es -> exists p, ti_run (ti_new cfg) es = Panic p.
Proof.
  intros cfg es Ho Hn. destruct (ti_run (ti_new cfg) es) as [s|p|] eqn:E.
  - exfalso. apply Hn. apply (proj1 (C127_accepted cfg es Ho)). eauto.
  - eauto.
  - exfalso. by apply (ti_run_fuel es (ti_new cfg) arena_tree_default).
Qed.
Print Assumptions C127_otherwise.

(** Transactions executed one after another start their top-level calls one after another. *)
Theorem C127_transactions :
  forall txs : list (world * frame),
  one_after_another 0 0 (flat_map (fun tx => tx_events (fst tx) (snd tx)) txs).
Proof.
  assert (Hh : forall l w d o b es, one_after_another o b es -> one_after_another o b (map (hook_event w d) l ++ es)).
  { induction l as [|h l IH]; intros w d o b es H; [done|]. cbn [map app one_after_another]. destruct h; split; try done; by apply IH. }
  assert (Hf : forall f w d o b es, (d = 0 -> o = 0 /\ b = 0) -> one_after_another o b es -> one_after_another o b (frame_events w d f ++ es)).
  { induction f as [s body e IH] using frame_ind'. intros w d o b es Hd H. cbn [frame_events]. rewrite <- app_comm_cons.
    assert (Hb : one_after_another (S o) b (flat_map (fun it => match it with IOp i => instr_events w (S d) i | IHook h => [hook_event w (S d) h] | ISub g => frame_events w (S d) g end) body ++ end_event w d s e :: es)).
    { assert (He : one_after_another (S o) b (end_event w d s e :: es)). { destruct s; cbn; done. }
      clear H Hd. revert He. generalize (end_event w d s e :: es). intros tl He.
      induction body as [|[i|h|g] rest IH']; [done|..]; cbn [flat_map subs] in *; rewrite <- app_assoc.
      - unfold instr_events. rewrite <- app_comm_cons. cbn [one_after_another is_start is_end is_root_start]. split; [done|].
        rewrite <- app_assoc. apply Hh. cbn. split; [done|]. by apply IH'.
      - apply (Hh [h]). by apply IH'.
      - apply Forall_cons in IH as [Hg IH]. apply Hg; [done|]. by apply IH'. }
    rewrite <- app_assoc. cbn [app]. destruct s as [j i|j i]; cbn [start_event one_after_another is_root_start is_start]; (split; [|exact Hb]);
      cbn; intros Hz; apply Nat.eqb_eq in Hz; auto. }
  induction txs as [|[w f] txs IH]; [done|]. cbn [flat_map fst snd]. by apply Hf.
Qed.
Print Assumptions C127_transactions.

(** A call at depth [d]; its end; an instruction and its end. *)
Local Definition call_at (d : nat) : event :=
  ECall (ctx_of ex_world d ex_j0) (mkCallInputs [x0a] 30000 0xF0 0xF0 0xC0 (Transfer 0) CSCall false)%N.
Local Definition delegate_at (d : nat) (a : address) : event :=
  ECall (ctx_of ex_world d ex_j0) (mkCallInputs [x0a] 30000 a 0xF0 0xC0 (Apparent 0) CSDelegateCall false)%N.
Local Definition ended_at (d : nat) : event :=
  ECallEnd (ctx_of ex_world d ex_j0) (mkCallInputs [x0a] 30000 0xF0 0xF0 0xC0 (Transfer 0) CSCall false)%N
    (mkCallOutcome (fe_result (ex_end Return None))).
Local Definition begin_op (op : u8) : event := EStep (ex_interp op 0 [] 900%N Continue) (ctx_of ex_world 1 ex_j0).
Local Definition end_op (stack : list U256) : event := EStepEnd (ex_interp OP_PUSH1 0 stack 900%N Continue) (ctx_of ex_world 1 ex_j0).

(** Whole transactions are recorded, and so is a history no EVM produces: a call at depth 3 while only the call at
    depth 0 is open, since the latest call was at depth 2. It becomes a call of that ended call. Not recorded are a call
    at depth 2 that comes first, or after a precompile call that is left out; a second end; an instruction that ends
    twice, or ends without the item it pushed. *)
Example C127_example :
  let weird := [call_at 0; call_at 1; begin_op OP_PUSH1; call_at 2; ended_at 2; end_op [5%N]; ended_at 1; call_at 3; ended_at 3; ended_at 0] in
  accepted ex_cfg 0 [] [] (tx_events ex_world ex_tx ++ tx_events ex_world ex_reverted) /\
  one_after_another 0 0 weird /\ accepted ex_cfg 0 [] [] weird /\
  (exists s, ti_run (ti_new ex_cfg) weird = Ok s /\ map nd_parent (ti_traces s) = [None; Some 0; Some 1; Some 2]) /\
  Forall (fun es => one_after_another 0 0 es /\ ~ accepted ex_cfg 0 [] [] es)
    [[call_at 2]; [call_at 0; delegate_at 1 1%N; call_at 2]; [call_at 0; ended_at 0; ended_at 0]; [call_at 0; end_op [5%N]];
     [call_at 0; begin_op OP_PUSH1; end_op []]].
Proof.
  cbv zeta. split.
  { set (txs := [(ex_world, ex_tx); (ex_world, ex_reverted)]).
    assert (E : flat_map (fun tx => tx_events (fst tx) (snd tx)) txs = tx_events ex_world ex_tx ++ tx_events ex_world ex_reverted).
    { unfold txs. cbn [flat_map fst snd]. rewrite app_nil_r. reflexivity. }
    pose proof (C127_transactions txs) as Ho. rewrite E in Ho. apply (proj1 (C127_accepted _ _ Ho)).
    destruct (ti_run (ti_new ex_cfg) (tx_events ex_world ex_tx ++ tx_events ex_world ex_reverted)) as [s| |] eqn:Es;
      [exact (ex_intro _ s eq_refl)|vm_compute in Es; discriminate..]. }
  split; [lazy; repeat (split; [first [lia|discriminate|by split]|]); exact I|]. split.
  { lazy -[recordable]. do 5 (split; [first [lia|discriminate]|]). split.
    - intros _. split; [intros _; cbn; lia|]. intros _. eexists. split; [reflexivity|]. intros a k h [?|?]; discriminate.
    - repeat (split; [first [lia|discriminate]|]). exact I. }
  split; [eexists; split; [vm_compute; reflexivity|reflexivity]|].
  repeat apply Forall_cons_2; [..|by constructor]; (split; [lazy; repeat (split; [first [lia|discriminate|by split]|]); exact I|]); lazy -[recordable]; try lia.
  - intros (_ & _ & H). by apply H.
  - intros (_ & _ & H & _). destruct (H eq_refl) as [G _]. specialize (G eq_refl). cbn in G. lia.
Qed.
