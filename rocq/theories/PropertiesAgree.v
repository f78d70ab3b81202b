(** * PropertiesAgree: different tracers told the same execution agree (C91) *)

From Verif Require Import SimpleProofs JsProofs GethProofs ExecProofs PropertiesSimple PropertiesGeth PropertiesJs Examples.
Local Open Scope N_scope.

(** A struct log and a call of a JavaScript tracer's [step] that are about the same instruction, with the same counters. *)
Record same_step (v : view) (l : StructLog) : Prop := {
  ss_op : vw_op v = sl_op l;
  ss_pc : vw_pc v = sl_pc l;
  ss_depth : vw_depth v = sl_depth l;
  ss_gas : vw_gas v = sl_gas l;
  ss_stack : forall st, sl_stack l = Some st -> vw_stack v = Some st }.

Definition log_op (op : u8) (l : StructLog) : bool := sl_op l =? op.

(** The instructions as the two specifications list them. *)
Lemma executed_same f : forall d, map (fun x => (fst (fst x), snd x)) (SpecGeth.executed d f) = map (fun x => (snd (fst x), snd x)) (SpecJs.executed d f).
Proof.
  induction f as [s body e IH] using frame_ind'. intros d. cbn [SpecGeth.executed SpecJs.executed].
  set (f := Frame s body e). clearbody f.
  induction body as [|[o|h|g] body IHb]; [done|..]; cbn [flat_map app map].
  - f_equal. by apply IHb.
  - by apply IHb.
  - cbn [subs flat_map app] in IH. apply Forall_cons_1 in IH as [Hg IH]. rewrite !map_app, Hg. f_equal. by apply IHb.
Qed.
Lemma executed_instrs f : forall d, map snd (SpecGeth.executed d f) = all_instrs f.
Proof.
  induction f as [s body e IH] using frame_ind'. intros d. cbn [SpecGeth.executed all_instrs].
  set (f := Frame s body e). clearbody f.
  induction body as [|[o|h|g] body IHb]; [done|..]; cbn [flat_map app map].
  - f_equal. by apply IHb.
  - by apply IHb.
  - cbn [subs flat_map app] in IH. apply Forall_cons_1 in IH as [Hg IH]. rewrite !map_app, Hg. f_equal. by apply IHb.
Qed.

Lemma steps_of_tx w f : forall d,
  length (List.filter (fun e => match e with EStep _ _ => true | _ => false end) (frame_events w d f)) = length (all_instrs f).
Proof.
  induction f as [s body e IH] using frame_ind'. intros d. cbn [frame_events all_instrs].
  set (p := fun e : event => match e with EStep _ _ => true | _ => false end).
  assert (Hs : p (start_event w d s) = false) by (by destruct s). assert (He : p (end_event w d s e) = false) by (by destruct s).
  cbn [List.filter]. rewrite Hs, List.filter_app, app_length. cbn [List.filter]. rewrite He. cbn [length]. rewrite Nat.add_0_r.
  induction body as [|it body IHb]; [done|]. cbn [flat_map]. rewrite List.filter_app, !app_length. f_equal.
  - destruct it as [o|h|g].
    + unfold instr_events. cbn [List.filter p app]. rewrite List.filter_app. cbn [length].
      assert (Hh : List.filter p (map (hook_event w (S d)) (op_hooks o)) = []).
      { induction (op_hooks o) as [|h l IHl]; [done|]. cbn [map List.filter]. by destruct h. }
      rewrite Hh. done.
    + by destruct h.
    + cbn [subs flat_map app] in IH. apply Forall_cons_1 in IH as [Hg _]. apply Hg.
  - apply IHb. destruct it; [exact IH|exact IH|]. cbn [subs flat_map app] in IH. by apply Forall_cons_1 in IH as [_ IH].
Qed.

Theorem C91_steps_agree :
  forall cfg w f s gas out opts js en ex fa s' og,
  env_ok cfg w f -> evm_calls f ->
  record_steps cfg = true -> record_opcodes_filter cfg = None -> exclude_precompile_calls cfg = false ->
  ti_run (ti_new cfg) (tx_events w f) = Ok s ->
  run (js_handle js) (js_new_state en ex true fa) (tx_events w f) = Ok s' ->
  run og_handle og_new (tx_events w f) = Ok og ->
  exists r oc, geth_traces (ti_traces s) gas out opts = Ok r /\ run oc_handle oc_new (tx_events w f) = Ok oc /\
    Forall2 (fun x l => exists v, x = SStep v /\ same_step v l) (List.filter is_sstep (SpecJs.shown s')) (dfr_struct_logs r) /\
    oc_count oc = length (dfr_struct_logs r) /\
    forall op, op_known op = true ->
      default 0 (og_counts og !! op) = N.of_nat (length (List.filter (log_op op) (dfr_struct_logs r))) /\
      default 0 (og_gas og !! op) = fold_right (fun l acc => sl_gas_cost l + acc) 0 (List.filter (log_op op) (dfr_struct_logs r)).
Proof.
  intros cfg w f s gas out opts js en ex fa s' og Henv Hcalls Hst Hflt Hex Hrun Hjs Hog.
  destruct (C31_chronological cfg w f s gas out opts Henv Hcalls Hrun Hst Hflt Hex) as (r & Hr & Hlogs).
  destruct (C44_opcount (tx_events w f)) as (oc & Hoc & Hcount).
  exists r, oc. split; [done|]. split; [done|]. split_and!.
  - rewrite (C68_steps js en ex true fa w f s' Hjs). clear -Hlogs.
    pose proof (executed_same f 0) as Heq. revert Heq Hlogs. generalize (SpecJs.executed 0 f) as a. generalize (SpecGeth.executed 0 f) as b.
    intros b a Heq Hlogs. revert a Heq. induction Hlogs as [|[[d g] o] l b logs Hd Hlogs IH]; intros [|[[s d'] o'] a] Heq; try done; [constructor|].
    cbn [map fst snd] in *. injection Heq as -> -> Heq. constructor; [|by apply IH].
    eexists. split; [done|]. destruct Hd. constructor; cbn; try congruence.
    intros st Hs. rewrite ld_stack in Hs. destruct (is_stack_enabled opts); [|done]. by destruct (record_stack_snapshots cfg).
  - rewrite Hcount. unfold tx_events. rewrite steps_of_tx. rewrite <-(executed_instrs f 0), map_length. by eapply Forall2_length.
  - intros op Hop. destruct (C42_transaction_totals w f og op Hog Hop) as [-> ->].
    rewrite <-(executed_instrs f 0). clear -Hlogs.
    induction Hlogs as [|[[d g] o] l b logs Hd Hlogs IH]; [done|]. cbn [map snd List.filter].
    assert (log_op op l = (in_op (op_pre o) =? op)) as -> by (unfold log_op; by rewrite (ld_op _ _ _ _ _ _ Hd)). destruct (in_op (op_pre o) =? op); [|done]. destruct IH as [H1 H2].
    cbn [length fold_right]. split; [lia|]. rewrite H2. f_equal. pose proof (ld_cost _ _ _ _ _ _ Hd). lia.
Qed.
Print Assumptions C91_steps_agree.

Example C91_example :
  env_ok cfg_default_geth ex_world ex_tx /\ evm_calls ex_tx /\ record_steps cfg_default_geth = true /\
  record_opcodes_filter cfg_default_geth = None /\ exclude_precompile_calls cfg_default_geth = false /\
  (exists s, ti_run (ti_new cfg_default_geth) (tx_events ex_world ex_tx) = Ok s) /\
  (exists og, run og_handle og_new (tx_events ex_world ex_tx) = Ok og) /\
  exists s', run (js_handle (fun _ _ => None)) (js_new_state true true true true) (tx_events ex_world ex_tx) = Ok s' /\
    length (List.filter is_sstep (SpecJs.shown s')) = 13%nat.
Proof.
  destruct C31_example as (H1 & H2 & s & _ & H3 & _).
  split_and!; [exact H1|exact H2|done|done|done|by exists s|eexists; vm_compute; reflexivity|]. eexists. split; vm_compute; reflexivity.
Qed.
