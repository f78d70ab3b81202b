(** * PropertiesEof: C129, creations the inspector is not told about *)

From Verif Require Import EofProofs PropertiesRecord Examples.

(** ** C129 *)

(** Every execution is recorded, and every call as a call of the innermost announced call in progress. *)
Definition C129_statement : Prop :=
  forall cfg w f, exclude_precompile_calls cfg = false -> Forall (snapshot_safe cfg) (xframe_instrs f) ->
  exists s, ti_run (ti_new cfg) (xframe_events w 0 f) = Ok s /\
    map nd_parent (ti_traces s) = map head (in_progress [] 0 (xframe_events w 0 f)).

Local Definition start (a : address) : fstart := SCall ex_j0 (mkCallInputs [x0a] 30000 a a 0xC0 (Transfer 0) CSCall false)%N.
Local Definition leaf (a : address) : xframe := XFrame (start a) [] (ex_end Return None).
Local Definition op (op : u8) (stack : list U256) : xitem :=
  XOp (mkInstr (ex_interp op 0 [] 900%N Continue) ex_j0 [] (ex_interp op 1 stack 890%N Continue) ex_j0).

(** A contract executes an EOFCREATE whose init code makes a call. *)
Definition eof_calls : xframe := XFrame (start 0xA0%N) [op OP_PUSH1 [5%N]; XEof [op OP_PUSH1 [6%N]; XSub (leaf 0xB0%N)]] (ex_end Return None).
(** The same after another call. *)
Definition eof_calls_later : xframe :=
  XFrame (start 0xA0%N) [XSub (leaf 0xF0%N); XEof [op OP_PUSH1 [6%N]; XSub (leaf 0xB0%N)]] (ex_end Return None).
(** The init code makes no calls. *)
Definition eof_only : xframe :=
  XFrame (start 0xA0%N) [XSub (leaf 0xF0%N); XEof [op OP_PUSH1 [6%N]; XEof [op OP_PUSH1 [7%N]]]; op OP_PUSH1 [5%N]; XSub (leaf 0xB0%N)] (ex_end Return None).

Local Lemma op_safe o stack i : op o stack = XOp i -> (stack_push_count o <= length stack)%nat -> o <> 0x54%N /\ o <> 0x55%N -> snapshot_safe ex_cfg i.
Proof.
  intros [= <-] Hs [H1 H2] _ _. split; [done|]. intros _. eexists. split; [reflexivity|]. intros a k h [?|?]; done.
Qed.

(** The call of the init code is two levels below the only call recorded: the inspector panics. *)
Theorem C129_refuted : ~ C129_statement.
Proof.
  intros H. destruct (H cfg_none ex_world eof_calls eq_refl) as (s & Hs & _).
  { repeat (constructor; [intros ?; discriminate|]). constructor. }
  vm_compute in Hs. discriminate Hs.
Qed.
Print Assumptions C129_refuted.

(** Or it is recorded as a call of one that has ended. *)
Theorem C129_parents_refuted :
  ~ (forall cfg w f s, ti_run (ti_new cfg) (xframe_events w 0 f) = Ok s ->
     map nd_parent (ti_traces s) = map head (in_progress [] 0 (xframe_events w 0 f))).
Proof.
  intros H. destruct (ti_run (ti_new ex_cfg) (xframe_events ex_world 0 eof_calls_later)) as [s| |] eqn:E; [|vm_compute in E; discriminate..].
  specialize (H _ _ _ _ E). vm_compute in E. injection E as <-. vm_compute in H. discriminate H.
Qed.
Print Assumptions C129_parents_refuted.

(** The executions recorded are those in which no call starts more than one level below the latest one. *)
Theorem C129_recorded_exactly :
  forall cfg w f, exclude_precompile_calls cfg = false -> Forall (snapshot_safe cfg) (xframe_instrs f) ->
  ((exists s, ti_run (ti_new cfg) (xframe_events w 0 f) = Ok s) <-> connected (xframe_events w 0 f)) /\
  (~ connected (xframe_events w 0 f) -> exists p, ti_run (ti_new cfg) (xframe_events w 0 f) = Panic p).
Proof.
  intros cfg w f Hex Hs. pose proof (recorded_iff cfg w f Hex Hs) as H. split; [exact H|]. intros Hn.
  destruct (ti_run (ti_new cfg) (xframe_events w 0 f)) as [s|p|] eqn:E.
  - exfalso. apply Hn, H. eauto.
  - eauto.
  - exfalso. by apply (ti_run_fuel _ (ti_new cfg) arena_tree_default E).
Qed.
Print Assumptions C129_recorded_exactly.

(** If the init codes make no calls, the execution is recorded, with the innermost announced call as every call's
    parent, and as if the caller had itself executed the instructions of the init codes, except for their depth. *)
Theorem C129_no_calls_partial :
  forall cfg w f, exclude_precompile_calls cfg = false -> Forall (snapshot_safe cfg) (xframe_instrs f) ->
  creations_call_nothing f = true ->
  exists s s', ti_run (ti_new cfg) (xframe_events w 0 f) = Ok s /\ ti_run (ti_new cfg) (tx_events w (inlined f)) = Ok s' /\
    map without_depths (ti_traces s) = map without_depths (ti_traces s') /\
    map nd_parent (ti_traces s) = map head (in_progress [] 0 (xframe_events w 0 f)).
Proof.
  intros cfg w f Hex Hs Hn.
  assert (Henv : env_ok cfg w (inlined f)) by (split; [congruence|by apply inlined_safe]).
  destruct (C01_arena_is_call_tree cfg w (inlined f) Henv) as (s' & Hs' & _ & Hlen & Hpar).
  pose proof (inlined_run cfg w f Hn) as Hr. rewrite Hs' in Hr. cbn [rmap] in Hr.
  destruct (ti_run (ti_new cfg) (xframe_events w 0 f)) as [s| |]; cbn in Hr; try discriminate. injection Hr as Hr.
  exists s, s'. split; [done|]. split; [done|]. split; [done|].
  assert (Hp : map nd_parent (ti_traces s) = map nd_parent (ti_traces s')).
  { apply (f_equal (map nd_parent)) in Hr. by rewrite !map_map in Hr. }
  rewrite Hp, <- (in_progress_shallow (xframe_events w 0 f)), (inlined_shallow w f Hn 0), in_progress_shallow.
  pose proof (in_progress_frame w (inlined f) 0 [] 0 []) as Hi. rewrite !app_nil_r in Hi. rewrite Hi. cbn [head in_progress map].
  apply list_eq. intros i. change (map nd_parent) with (fmap (M := list) nd_parent).
  change (map (fun x : option nat * nat * frame => x.1.1)) with (fmap (M := list) (fun x : option nat * nat * frame => x.1.1)).
  rewrite !list_lookup_fmap. destruct (entered None 0 0 (inlined f) !! i) as [[[par d] g]|] eqn:Ee.
  - destruct (Hpar _ _ _ _ Ee) as (n & -> & _ & <- & _). done.
  - apply lookup_ge_None in Ee. rewrite <- Hlen in Ee. apply lookup_ge_None in Ee. by rewrite Ee.
Qed.
Print Assumptions C129_no_calls_partial.

(** A transaction that is itself such a creation cannot be recorded with its instructions. *)
Theorem C129_top_level :
  forall cfg w o init, record_steps cfg = true -> ti_run (ti_new cfg) (xitem_events w 0 (XEof (XOp o :: init))) = Panic PExpect.
Proof. intros cfg w o init Hr. unfold ti_run, run. cbn. by rewrite Hr. Qed.
Print Assumptions C129_top_level.

Example C129_example :
  Forall (snapshot_safe ex_cfg) (xframe_instrs eof_only) /\ creations_call_nothing eof_only = true /\
  (exists s, ti_run (ti_new ex_cfg) (xframe_events ex_world 0 eof_only) = Ok s /\ map nd_parent (ti_traces s) = [None; Some 0; Some 0] /\
     map (fun st => (st_depth st, st_push_stack st)) (flat_map (fun n => tr_steps (nd_trace n)) (ti_traces s)) =
       [(2, Some [6%N]); (3, Some [7%N]); (1, Some [5%N])]) /\
  ~ connected (xframe_events ex_world 0 eof_calls) /\ connected (xframe_events ex_world 0 eof_calls_later).
Proof.
  split; [|split; [reflexivity|split; [|split]]].
  - repeat (constructor; [eapply (op_safe OP_PUSH1); [reflexivity|cbn; lia|by split]|]). constructor.
  - eexists. split; [vm_compute; reflexivity|]. split; reflexivity.
  - rewrite connected_iff. lazy. lia.
  - rewrite connected_iff. lazy. lia.
Qed.
