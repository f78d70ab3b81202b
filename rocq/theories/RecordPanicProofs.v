(** * RecordPanicProofs: a recording that completes met only safe instructions *)

From Verif Require Export ExecProofs.

Lemma handle_config s e s' r : ti_handle s e = Ok (s', r) -> ti_config s' = ti_config s.
Proof.
  intros H. destruct e as [i c|i c|l c|c i|c i o|c i|c i o|a b v]; unfold ti_handle in H; inv_bind H; injection H as <- _.
  - destruct (record_steps _); [|by injection E as <-]. unfold start_step in E. inv_bind E. inv_bind E.
    destruct (negb _); [by injection E as <-|]. inv_bind E. by injection E as <-.
  - destruct (record_steps _); [|by injection E as <-]. unfold fill_step_on_step_end in E.
    destruct (ti_step_stack s) as [|[rec ti si] rest]; [discriminate E|]. destruct (negb rec); [by injection E as <-|].
    inv_bind E. inv_bind E. inv_bind E. inv_bind E. by injection E as <-.
  - destruct (record_logs _); [|by injection E as <-]. unfold on_last_trace in E. inv_bind E. inv_bind E. by injection E as <-.
  - unfold ti_call in E. destruct (call_from_to i). inv_bind E. unfold start_trace_on_call in E.
    destruct (match ti_trace_stack s with [] => _ | _ => _ end). inv_bind E. by injection E as <-.
  - unfold fill_trace_on_call_end in E. destruct (ti_trace_stack s); [discriminate E|]. inv_bind E. by injection E as <-.
  - unfold ti_create, start_trace_on_call in E. destruct (match ti_trace_stack s with [] => _ | _ => _ end). inv_bind E. by injection E as <-.
  - unfold fill_trace_on_call_end in E. destruct (ti_trace_stack s); [discriminate E|]. inv_bind E. by injection E as <-.
  - unfold on_last_trace in E. inv_bind E. inv_bind E. by injection E as <-.
Qed.
Lemma run_config es : forall s s', ti_run s es = Ok s' -> ti_config s' = ti_config s.
Proof.
  induction es as [|e es IH]; intros s s' H; unfold ti_run in H; [by injection H as <-|].
  rewrite run_cons in H. inv_bind H. destruct a as [s1 r]. cbn [fst] in H.
  rewrite (IH _ _ H). by eapply handle_config.
Qed.

Lemma instr_ran s w d o s' : ti_run s (instr_events w d o) = Ok s' -> snapshot_safe (ti_config s) o.
Proof.
  intros H Hr1 Hr2. unfold instr_events, ti_run in H. rewrite run_cons in H. inv_bind H.
  cbn [ti_handle] in E. rewrite Hr1 in E. inv_bind E. injection E as <-. cbn [fst] in H.
  unfold start_step in E0. inv_bind E0. unfold ti_last_trace_idx in E. apply expect_Ok in E.
  destruct (ti_trace_stack s) as [|b rest] eqn:Hs; [discriminate E|]. injection E as <-.
  inv_bind E0. unfold index in E. destruct (ti_traces s !! b) as [n|] eqn:Hn; [|discriminate E]. injection E as <-.
  rewrite Hr2 in E0. cbn [negb] in E0. rewrite (update_lookup _ _ _ _ Hn) in E0. cbn [rbind] in E0. injection E0 as <-.
  set (st := new_step (ti_config s) (last (tr_steps (nd_trace n))) (op_pre o) (ctx_of w d (op_pre_j o))) in H.
  rewrite run_app in H.
  match type of H with context [run ti_handle ?s0 (map _ _)] => set (s1 := s0) in H end.
  assert (Hb : b < length (ti_traces s)) by (by eapply lookup_lt_Some).
  fold (ti_run s1 (map (hook_event w d) (op_hooks o))) in H.
  rewrite (run_hooks (ti_config s) w (op_hooks o) s1 b rest (push_step st n)) in H;
    [|done|cbn; done|cbn; by apply list_lookup_insert].
  cbn [rbind] in H. rewrite run_cons in H. unfold with_traces, s1 in H.
  cbn [ti_handle ti_traces ti_config ti_trace_stack ti_step_stack ti_last_call_return_data ti_spec_id] in H.
  rewrite Hr1 in H. unfold fill_step_on_step_end in H.
  cbn [ti_handle ti_traces ti_config ti_trace_stack ti_step_stack ti_last_call_return_data ti_spec_id negb] in H.
  rewrite list_insert_insert in H.
  rewrite (index_lookup _ b (apply_hooks (ti_config s) (push_step st n) (op_hooks o))) in H by (by apply list_lookup_insert).
  cbn [rbind] in H. rewrite apply_hooks_steps in H. cbn [push_step nd_trace tr_set_steps tr_steps] in H.
  rewrite (index_lookup _ _ st) in H by (by apply list_lookup_middle).
  cbn [rbind] in H. destruct (fill_step _ _ _ st) as [st'|?|] eqn:Ef; [|discriminate H..]. clear H.
  unfold fill_step in Ef. inv_bind Ef. inv_bind Ef. clear Ef. change (st_op st) with (in_op (op_pre o)) in *. split.
  - intros Hp. unfold push_snapshot in E. rewrite Hp in E.
    destruct (Nat.leb_spec (stack_push_count (in_op (op_pre o))) (length (in_stack (op_post o)))); [done|discriminate E].
  - intros Hd. unfold storage_snapshot in E0. rewrite Hd in E0. inv_bind E0. apply expect_Ok in E1.
    cbn [ctx_of cx_journal cx_present] in *. eexists. split; [exact E1|]. intros a' k h Hop Hl.
    rewrite Hl in E0. intros Hnone.
    assert (Hbo : (in_op (op_pre o) =? OP_SLOAD)%N || (in_op (op_pre o) =? OP_SSTORE)%N = true).
    { apply orb_true_iff. rewrite !N.eqb_eq. exact Hop. }
    rewrite Hbo, Hnone in E0. discriminate E0.
Qed.

Lemma run_split s es1 es2 s' : ti_run s (es1 ++ es2) = Ok s' -> exists s1, ti_run s es1 = Ok s1 /\ ti_run s1 es2 = Ok s' /\ ti_config s1 = ti_config s.
Proof.
  intros H. unfold ti_run in H. rewrite run_app in H. inv_bind H. exists a. split_and!; [done|done|]. by eapply run_config.
Qed.

Lemma frame_ran w f : forall s d s', ti_run s (frame_events w d f) = Ok s' ->
  every_frame (fun g => Forall (snapshot_safe (ti_config s)) (instrs (f_body g))) f.
Proof.
  induction f as [f0 body e IH] using frame_ind'. intros s d s' H.
  rewrite frame_events_eq in H. apply run_split in H as (s1 & _ & H & Hc). apply run_split in H as (s2 & H & _).
  rewrite <- Hc. clear Hc s'. revert s1 s2 H. 
  assert (G : forall s1 s2, ti_run s1 (body_events w d body) = Ok s2 ->
    Forall (snapshot_safe (ti_config s1)) (instrs body) /\
    Forall (every_frame (fun g => Forall (snapshot_safe (ti_config s1)) (instrs (f_body g)))) (subs body)).
  { induction body as [|it body IHb]; intros s1 s2 H; [by split; constructor|].
    unfold body_events in H. cbn [flat_map] in H. apply run_split in H as (s3 & H1 & H2 & Hc).
    fold (body_events w d body) in H2.
    assert (IH' : Forall (fun f => forall s d s', ti_run s (frame_events w d f) = Ok s' ->
       every_frame (fun g => Forall (snapshot_safe (ti_config s)) (instrs (f_body g))) f) (subs body)).
    { destruct it; cbn [subs flat_map] in IH; try exact IH. change ([f] ++ ?l) with (f :: l) in IH. by apply Forall_cons_1 in IH as [_ IH]. }
    destruct (IHb IH' s3 s2 H2) as [G1 G2]. rewrite Hc in G1, G2.
    destruct it as [o|h|g]; cbn [instrs subs flat_map app].
    - split; [|exact G2]. constructor; [by eapply instr_ran|exact G1].
    - by split.
    - split; [exact G1|]. constructor; [|exact G2].
      cbn [subs flat_map] in IH. change ([g] ++ ?l) with (g :: l) in IH. apply Forall_cons_1 in IH as [Hg _]. by eapply Hg. }
  intros s1 s2 H. destruct (G s1 s2 H) as [G1 G2]. by constructor.
Qed.

Lemma tx_completes cfg w f : (exclude_precompile_calls cfg = true -> precompiles_are_leaves w f) ->
  (exists s, ti_run (ti_new cfg) (tx_events w f) = Ok s) <->
  every_frame (fun g => Forall (snapshot_safe cfg) (instrs (f_body g))) f.
Proof.
  intros Hl. split.
  - intros [s Hs]. by apply (frame_ran w f (ti_new cfg) 0 s).
  - intros Hf. destruct (tx_layout cfg w f) as (lr & H); [by split|]. by eexists.
Qed.
