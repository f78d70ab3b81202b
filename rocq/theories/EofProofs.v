(** * EofProofs: recording executions with unannounced creations *)

From Verif Require Export SpecEof.
From Verif Require Import AcceptedProofs ExecFacts.

Section xind.
  Variable P : xframe -> Prop.
  Variable Q : xitem -> Prop.
  Hypothesis HF : forall s body e, Forall Q body -> P (XFrame s body e).
  Hypothesis HO : forall o, Q (XOp o).
  Hypothesis HH : forall h, Q (XHook h).
  Hypothesis HS : forall f, P f -> Q (XSub f).
  Hypothesis HE : forall init, Forall Q init -> Q (XEof init).
  Fixpoint xframe_ind' (f : xframe) : P f :=
    match f with
    | XFrame s body e =>
        HF s body e ((fix go (l : list xitem) : Forall Q l :=
          match l with [] => Forall_nil_2 Q | it :: r => Forall_cons_2 Q it r (xitem_ind' it) (go r) end) body)
    end
  with xitem_ind' (it : xitem) : Q it :=
    match it with
    | XOp o => HO o
    | XHook h => HH h
    | XSub f => HS f (xframe_ind' f)
    | XEof init =>
        HE init ((fix go (l : list xitem) : Forall Q l :=
          match l with [] => Forall_nil_2 Q | it :: r => Forall_cons_2 Q it r (xitem_ind' it) (go r) end) init)
    end.
End xind.

(** ** Depths of instructions *)

Notation wd := without_depths.
Definition forget (s : TracingInspector) : TracingInspector :=
  mkTI (ti_config s) (map wd (ti_traces s)) (ti_trace_stack s) (ti_step_stack s) (ti_last_call_return_data s) (ti_spec_id s).
Definition forgotten (p : res (TracingInspector * response)) : res TracingInspector := rmap (fun p => forget (fst p)) p.

Lemma wd_wd n : wd (wd n) = wd n.
Proof. destruct n as [? ? ? t ? ?]. unfold wd, nd_set_trace, tr_set_steps. cbn. rewrite map_map. done. Qed.
Lemma wds_wds ns : map wd (map wd ns) = map wd ns.
Proof. rewrite map_map. apply map_ext. apply wd_wd. Qed.
Lemma forget_forget s : forget (forget s) = forget s.
Proof. unfold forget. cbn. by rewrite wds_wds. Qed.

Lemma index_wd (ns : list CallTraceNode) i : index (map wd ns) i = rmap wd (index ns i).
Proof. unfold index. change (map wd ns) with (wd <$> ns). rewrite list_lookup_fmap. by destruct (ns !! i). Qed.
Lemma update_wd ns i f f' : (forall n, ns !! i = Some n -> wd (f (wd n)) = wd (f' n)) ->
  rmap (map wd) (update (map wd ns) i f) = rmap (map wd) (update ns i f').
Proof.
  intros H. unfold update. change (map wd ns) with (wd <$> ns). rewrite list_lookup_fmap.
  destruct (ns !! i) as [n|] eqn:E; cbn; [|done]. f_equal.
  change (map wd) with (fmap (M := list) wd). rewrite !list_fmap_insert. change (wd <$> (wd <$> ns)) with (map wd (map wd ns)).
  rewrite wds_wds, (H n eq_refl). done.
Qed.
Lemma update_wd' ns i f : (forall n, wd (f n) = f (wd n)) -> update (map wd ns) i f = rmap (map wd) (update ns i f).
Proof.
  intros H. unfold update. change (map wd ns) with (wd <$> ns). rewrite list_lookup_fmap.
  destruct (ns !! i) as [n|] eqn:E; cbn; [|done]. f_equal.
  change (map wd) with (fmap (M := list) wd). by rewrite list_fmap_insert, H.
Qed.

Lemma push_loop_wd fuel ns kind t : tr_steps t = [] -> forall entry,
  push_trace_loop fuel (map wd ns) entry kind t = rmap (fun r => (map wd (fst r), snd r)) (push_trace_loop fuel ns entry kind t).
Proof.
  intros Ht. induction fuel as [|fuel IH]; intros entry; [done|]. cbn [push_trace_loop]. destruct (tr_depth t) as [|d].
  - rewrite update_wd'; [by destruct (update ns 0 _)|]. intros n. unfold wd, nd_set_trace. cbn. rewrite Ht. f_equal.
    destruct t; cbn in *; by subst.
  - rewrite index_wd. destruct (index ns entry) as [n| |]; cbn [rmap rbind]; [|done..].
    change (tr_depth (nd_trace (wd n))) with (tr_depth (nd_trace n)). rewrite map_length.
    change (nd_children (wd n)) with (nd_children n).
    destruct (tr_depth (nd_trace n) =? d).
    + assert (E : map wd ns ++ [mkNode (Some entry) [] (length ns) t [] []] = map wd (ns ++ [mkNode (Some entry) [] (length ns) t [] []])).
      { rewrite map_app. cbn. do 2 f_equal. unfold wd, nd_set_trace. cbn. rewrite Ht. f_equal. destruct t; cbn in *; by subst. }
      rewrite E. destruct (is_attach_to_parent kind); [|done].
      rewrite update_wd'; [|done]. by destruct (update _ _ _).
    + destruct (expect _) as [c| |]; cbn [rbind]; [apply IH|done..].
Qed.

Lemma start_wd s c a inp v k from g mp :
  rmap forget (start_trace_on_call (forget s) c a inp v k from g mp) = rmap forget (start_trace_on_call s c a inp v k from g mp).
Proof.
  unfold start_trace_on_call. cbn [forget ti_config ti_traces ti_trace_stack ti_step_stack ti_last_call_return_data ti_spec_id].
  destruct (match ti_trace_stack s with [] => _ | _ => _ end) as [gl sp].
  unfold push_trace. rewrite map_length, push_loop_wd by done.
  destruct (push_trace_loop _ _ _ _ _) as [r| |]; cbn [rmap rbind fst snd]; [|done..]. unfold forget. cbn. by rewrite wds_wds.
Qed.
Lemma last_wd s f f' : (forall n, wd (f (wd n)) = wd (f' n)) -> rmap forget (on_last_trace (forget s) f) = rmap forget (on_last_trace s f').
Proof.
  intros H. unfold on_last_trace, ti_last_trace_idx. cbn [forget ti_config ti_traces ti_trace_stack ti_step_stack ti_last_call_return_data ti_spec_id].
  destruct (expect (head (ti_trace_stack s))) as [i| |]; cbn [rbind rmap]; [|done..].
  pose proof (update_wd (ti_traces s) i f f' (fun n _ => H n)) as E.
  destruct (update (map wd _) _ _), (update (ti_traces s) _ _); cbn in *; try done; [|congruence]. unfold forget. cbn. do 2 f_equal. congruence.
Qed.
Lemma last_wd' s f : (forall n, f (wd n) = wd (f n)) -> rmap forget (on_last_trace (forget s) f) = rmap forget (on_last_trace s f).
Proof. intros H. apply last_wd. intros n. by rewrite H, wd_wd. Qed.
Lemma end_wd s c r cr : rmap forget (fill_trace_on_call_end (forget s) c r cr) = rmap forget (fill_trace_on_call_end s c r cr).
Proof.
  unfold fill_trace_on_call_end. cbn [forget ti_config ti_traces ti_trace_stack ti_step_stack ti_last_call_return_data ti_spec_id].
  destruct (ti_trace_stack s) as [|i rest]; [done|]. rewrite update_wd' by done.
  destruct (update _ _ _); cbn [rmap rbind]; [|done..]. unfold forget. cbn. by rewrite wds_wds.
Qed.

(** A context at another depth; the hook call with such a context, unless it starts or ends a call. *)
Definition at_0 (c : Ctx) : Ctx := mkCtx (cx_spec c) (cx_tx_gas_limit c) (cx_precompiles c) 0 (cx_journal c) (cx_present c).
Definition shallow (e : event) : event :=
  match e with
  | EStep i c => EStep i (at_0 c)
  | EStepEnd i c => EStepEnd i (at_0 c)
  | ELog l c => ELog l (at_0 c)
  | e => e
  end.

Lemma push_step_wd st st' n : without_depth st = without_depth st' -> wd (push_step st (wd n)) = wd (push_step st' n).
Proof.
  intros H. unfold push_step, wd, nd_set_trace, tr_set_steps. cbn. rewrite !map_length, !map_app, map_map. cbn. by rewrite H.
Qed.
Lemma last_steps_wd n : last (tr_steps (nd_trace (wd n))) = without_depth <$> last (tr_steps (nd_trace n)).
Proof. cbn. by rewrite <- fmap_last. Qed.

Lemma step_wd s i c : rmap forget (start_step (forget s) i (at_0 c)) = rmap forget (start_step s i c).
Proof.
  unfold start_step, ti_last_trace_idx. cbn [forget ti_config ti_traces ti_trace_stack ti_step_stack ti_last_call_return_data ti_spec_id].
  destruct (expect (head (ti_trace_stack s))) as [j| |]; cbn [rbind rmap]; [|done..]. rewrite index_wd.
  destruct (index (ti_traces s) j) as [n| |]; cbn [rbind rmap]; [|done..].
  replace (length (tr_steps (nd_trace (wd n)))) with (length (tr_steps (nd_trace n))) by (cbn; by rewrite map_length).
  destruct (should_record_opcode _ _); cbn [negb]; [|unfold forget; cbn; by rewrite wds_wds].
  match goal with |- context [update (map wd _) _ (push_step ?a)] => set (st := a) end.
  match goal with |- context [update (ti_traces s) _ (push_step ?a)] => set (st' := a) end.
  assert (Hst : without_depth st = without_depth st').
  { unfold st, st'. rewrite last_steps_wd. unfold new_step, without_depth. cbn [st_pc st_op st_contract st_stack st_push_stack st_memory
      st_returndata st_gas_remaining st_gas_refund_counter st_gas_used st_gas_cost st_storage_change st_status st_decoded]. f_equal.
    unfold snapshot_memory. by destruct (last (tr_steps (nd_trace n))) as [p|]. }
  pose proof (update_wd (ti_traces s) j (push_step st) (push_step st') (fun n _ => push_step_wd st st' n Hst)) as E.
  destruct (update (map wd _) _ _), (update (ti_traces s) _ _); cbn in *; try done; [|congruence]. unfold forget. cbn. do 2 f_equal. congruence.
Qed.

Lemma fill_step_wd cfg i c st : fill_step cfg i (at_0 c) (without_depth st) = rmap without_depth (fill_step cfg i c st).
Proof.
  unfold fill_step. cbn [without_depth st_op st_push_stack st_storage_change].
  destruct (push_snapshot cfg (st_op st) (in_stack i) (st_push_stack st)) as [ps| |]; cbn [rbind rmap]; [|done..].
  change (storage_snapshot cfg (st_op st) (at_0 c)) with (storage_snapshot cfg (st_op st) c).
  by destruct (storage_snapshot _ _ _ _).
Qed.
Lemma step_end_wd s i c : rmap forget (fill_step_on_step_end (forget s) i (at_0 c)) = rmap forget (fill_step_on_step_end s i c).
Proof.
  unfold fill_step_on_step_end. cbn [forget ti_config ti_traces ti_trace_stack ti_step_stack ti_last_call_return_data ti_spec_id].
  destruct (ti_step_stack s) as [|[rec ti si] rest]; [done|]. destruct rec; cbn [negb]; [|cbn; unfold forget; cbn; by rewrite wds_wds].
  rewrite index_wd. destruct (index (ti_traces s) ti) as [n| |]; cbn [rbind rmap]; [|done..].
  assert (Ei : index (tr_steps (nd_trace (wd n))) si = rmap without_depth (index (tr_steps (nd_trace n)) si)).
  { unfold index. cbn. change (map without_depth) with (fmap (M := list) without_depth). rewrite list_lookup_fmap. by destruct (tr_steps (nd_trace n) !! si). }
  rewrite Ei. destruct (index (tr_steps (nd_trace n)) si) as [st| |]; cbn [rbind rmap]; [|done..].
  rewrite fill_step_wd. destruct (fill_step _ _ _ _) as [st'| |]; cbn [rbind rmap]; [|done..].
  assert (Hs : forall n, wd (set_step si (without_depth st') (wd n)) = wd (set_step si st' n)).
  { intros m. unfold set_step, wd, nd_set_trace, tr_set_steps. cbn. f_equal. f_equal.
    change (map without_depth) with (fmap (M := list) without_depth). rewrite !list_fmap_insert, <- list_fmap_compose. f_equal. }
  pose proof (update_wd (ti_traces s) ti _ _ (fun n _ => Hs n)) as E.
  destruct (update (map wd _) _ _), (update (ti_traces s) _ _); cbn in *; try done; [|congruence]. unfold forget. cbn. do 2 f_equal. congruence.
Qed.

Lemma rmap_bind_unit {A B C} (f : B -> C) (g : A -> B) (m : res A) : rmap f (let! a := m in Ok (g a)) = rmap (fun a => f (g a)) m.
Proof. by destruct m. Qed.

Lemma handle_wd s e : forgotten (ti_handle (forget s) (shallow e)) = forgotten (ti_handle s e).
Proof.
  unfold forgotten. destruct e as [i c|i c|l c|c i|c i o|c i|c i o|a b v]; cbn [ti_handle shallow]; rewrite !rmap_bind_unit; cbn [fst];
    cbn [forget ti_config].
  - destruct (record_steps _); [apply step_wd|cbn; by rewrite forget_forget].
  - destruct (record_steps _); [apply step_end_wd|cbn; by rewrite forget_forget].
  - destruct (record_logs _); [by apply last_wd'|cbn; by rewrite forget_forget].
  - change (rmap (λ a, forget a) (ti_call (forget s) c i) = rmap (λ a, forget a) (ti_call s c i)). unfold ti_call. destruct (call_from_to i) as [from to].
    assert (Ev : ti_active_trace (forget s) = rmap (fmap wd) (ti_active_trace s)).
    { unfold ti_active_trace. cbn [forget ti_traces ti_trace_stack]. destruct (ti_trace_stack s) as [|j ?]; [done|].
      rewrite index_wd. by destruct (index _ _). }
    change (ti_is_precompile_call (forget s)) with (ti_is_precompile_call s). change (ti_config (forget s)) with (ti_config s).
    destruct (ci_scheme i); cbn [rbind]; try apply start_wd. rewrite Ev.
    destruct (ti_active_trace s) as [[p|]| |]; cbn [rmap rbind fmap option_fmap option_map]; try done; apply start_wd.
  - apply end_wd.
  - unfold ti_create. apply start_wd.
  - apply end_wd.
  - by apply last_wd'.
Qed.

Lemma run_wd es : forall es' s s', map shallow es = map shallow es' -> forget s = forget s' ->
  rmap forget (ti_run s es) = rmap forget (ti_run s' es').
Proof.
  induction es as [|e es IH]; intros [|e' es'] s s' He Hs; cbn [map] in He; try discriminate He.
  - cbn. by rewrite Hs.
  - injection He as Hev He. unfold ti_run, run in *. cbn [rfold].
    assert (H : forgotten (ti_handle s e) = forgotten (ti_handle s' e')) by (rewrite <- (handle_wd s e), <- (handle_wd s' e'), Hs, Hev; done).
    unfold forgotten in H.
    destruct (ti_handle s e) as [[s1 r1]| |], (ti_handle s' e') as [[s2 r2]| |]; cbn in H; try done; try congruence.
    injection H as H. cbn [rmap rbind fst]. apply IH; [done|]. unfold forget. by f_equal.
Qed.

(** ** Creations without calls *)

Lemma hook_shallow w d d' h : shallow (hook_event w d h) = shallow (hook_event w d' h).
Proof. by destruct h. Qed.
Lemma instr_shallow w d d' o : map shallow (instr_events w d o) = map shallow (instr_events w d' o).
Proof.
  unfold instr_events. cbn. f_equal. rewrite !map_app, !map_map. f_equal. apply map_ext. intros h. apply hook_shallow.
Qed.

Notation item_events w d := (fun it => match it with IOp o => instr_events w d o | IHook h => [hook_event w d h] | ISub g => frame_events w d g end).

Lemma quiet_shallow w it : no_calls it = true -> forall d d',
  map shallow (xitem_events w d it) = map shallow (flat_map (item_events w d') (inlined_item it)).
Proof.
  induction it as [s body e IH|o|h|f IH|init IH] using xitem_ind' with (P := fun _ => True); try done; intros Hn d d'; cbn.
  - rewrite app_nil_r. apply instr_shallow.
  - f_equal. apply hook_shallow.
  - cbn in Hn. revert Hn. induction IH as [|it r Hit _ IHr]; intros Hn; [done|]. cbn in *. apply andb_true_iff in Hn as [H1 H2].
    rewrite flat_map_app, !map_app, (Hit H1 _ d'), IHr by done. done.
Qed.

Lemma inlined_shallow w f : creations_call_nothing f = true -> forall d,
  map shallow (xframe_events w d f) = map shallow (frame_events w d (inlined f)).
Proof.
  induction f as [s body e IH|o|h|f IH|init IH] using xframe_ind'
    with (Q := fun it => match it with XSub f => creations_call_nothing f = true -> forall d,
                           map shallow (xframe_events w d f) = map shallow (frame_events w d (inlined f)) | _ => True end); try done.
  intros Hn d. cbn. f_equal. rewrite !map_app. f_equal. cbn in Hn. revert Hn.
  induction IH as [|it r Hit _ IHr]; intros Hn; [done|]. cbn in Hn. apply andb_true_iff in Hn as [H1 H2].
  cbn [flat_map]. rewrite flat_map_app, !map_app, IHr by done. f_equal.
  destruct it as [o|h|g|init].
  - cbn. by rewrite app_nil_r.
  - done.
  - cbn. rewrite app_nil_r. by apply Hit.
  - apply (quiet_shallow w (XEof init)). done.
Qed.

Lemma inlined_run cfg w f : creations_call_nothing f = true ->
  rmap (fun s => map wd (ti_traces s)) (ti_run (ti_new cfg) (xframe_events w 0 f)) =
  rmap (fun s => map wd (ti_traces s)) (ti_run (ti_new cfg) (tx_events w (inlined f))).
Proof.
  intros Hn. pose proof (run_wd _ _ (ti_new cfg) (ti_new cfg) (inlined_shallow w f Hn 0) eq_refl) as H. unfold tx_events.
  destruct (ti_run _ (xframe_events _ _ _)), (ti_run _ (frame_events _ _ _)); cbn in *; try done; [|congruence].
  f_equal. apply (f_equal (fun r => match r with Ok s => ti_traces s | _ => [] end)) in H. exact H.
Qed.

(** ** Parents *)

Lemma in_progress_shallow es : forall o n, in_progress o n (map shallow es) = in_progress o n es.
Proof.
  induction es as [|e es IH]; intros o n; [done|]. cbn [map in_progress].
  replace (is_start (shallow e)) with (is_start e) by by destruct e. replace (is_end (shallow e)) with (is_end e) by by destruct e.
  destruct (is_start e); by rewrite IH.
Qed.
Lemma in_progress_hooks w d hs es : forall o n, in_progress o n (map (hook_event w d) hs ++ es) = in_progress o n es.
Proof. induction hs as [|h hs IH]; intros o n; [done|]. destruct h; cbn; apply IH. Qed.
Lemma in_progress_frame w f : forall d o n es,
  map head (in_progress o n (frame_events w d f ++ es)) = map (fun x => fst (fst x)) (entered (head o) n d f) ++ map head (in_progress o (n + frame_size f) es).
Proof.
  induction f as [s body e IH] using frame_ind'. intros d o n es. rewrite entered_eq. cbn [frame_events map app fst].
  assert (Hb : forall next es', map head (in_progress (n :: o) next (flat_map (item_events w (S d)) body ++ es')) =
    map (fun x => fst (fst x)) (sub_entered n d next body) ++ map head (in_progress (n :: o) (next + pred (frame_size (Frame s body e))) es')).
  { revert IH. induction body as [|[i|h|g] r IHr]; intros IH next es'.
    - cbn. by rewrite Nat.add_0_r.
    - cbn [flat_map sub_entered]. rewrite <- app_assoc. unfold instr_events. rewrite <- app_comm_cons. cbn [in_progress is_start is_end].
      rewrite <- app_assoc, in_progress_hooks. cbn. by rewrite IHr.
    - cbn [flat_map sub_entered]. rewrite <- app_assoc. rewrite (in_progress_hooks w (S d) [h]). by rewrite IHr.
    - cbn [flat_map sub_entered]. rewrite <- app_assoc. cbn [subs flat_map app] in IH. apply Forall_cons in IH as [Hg Hr].
      rewrite Hg, IHr by done. rewrite map_app, <- app_assoc. cbn. by rewrite Nat.add_assoc. }
  assert (He : is_start (start_event w d s) = true) by by destruct s. cbn [in_progress]. rewrite He. cbn [map]. f_equal.
  rewrite <- app_assoc, Hb. f_equal. cbn [app in_progress]. replace (is_start (end_event w d s e)) with false by by destruct s.
  replace (is_end (end_event w d s e)) with true by by destruct s. cbn [tail frame_size pred]. by rewrite Nat.add_succ_r.
Qed.

(** ** Which executions are recorded *)

Fixpoint connected_from (L : nat) (es : list event) : Prop :=
  match es with
  | [] => True
  | e :: es => match start_depth e with
               | Some d => d <= S L /\ connected_from (if d =? 0 then L else d) es
               | None => connected_from L es
               end
  end.
Definition latest_from (L : nat) (es : list event) : nat := if latest_depth es =? 0 then L else latest_depth es.
Lemma connected_from_iff es : forall L,
  connected_from L es <-> forall before e after d, es = before ++ e :: after -> start_depth e = Some d -> d <= S (latest_from L before).
Proof.
  induction es as [|e es IH]; intros L.
  - cbn. split; [|done]. intros _ [|? ?] ? ? ?; discriminate.
  - cbn [connected_from]. destruct (start_depth e) as [d|] eqn:Ed.
    + rewrite IH. split.
      * intros [H1 H2] [|b before] x after k Hx Hk; injection Hx as -> Hx; [rewrite Hk in Ed; by injection Ed as ->|].
        specialize (H2 _ _ _ _ Hx Hk). unfold latest_from in *. cbn [latest_depth]. rewrite Ed.
        destruct (latest_depth before) as [|m]; cbn [Nat.eqb] in *; done.
      * intros H. split; [apply (H [] e es d eq_refl Ed)|]. intros before x after k Hx Hk.
        specialize (H (e :: before) x after k (f_equal (cons e) Hx) Hk). unfold latest_from in *. cbn [latest_depth] in H. rewrite Ed in H.
        destruct (latest_depth before) as [|m]; cbn [Nat.eqb] in *; done.
    + rewrite IH. split.
      * intros H2 [|b before] x after k Hx Hk; injection Hx as -> Hx; [rewrite Hk in Ed; discriminate|].
        specialize (H2 _ _ _ _ Hx Hk). unfold latest_from in *. cbn [latest_depth]. rewrite Ed. by destruct (latest_depth before).
      * intros H before x after k Hx Hk.
        specialize (H (e :: before) x after k (f_equal (cons e) Hx) Hk). unfold latest_from in *. cbn [latest_depth] in H. rewrite Ed in H.
        by destruct (latest_depth before).
Qed.
Lemma connected_iff es : connected es <-> connected_from 0 es.
Proof.
  rewrite connected_from_iff. unfold connected, latest_from.
  split; intros H before e after d H1 H2; specialize (H before e after d H1 H2); by destruct (latest_depth before).
Qed.

(** What else is needed of the hook calls. *)
Fixpoint orderly (cfg : TracingInspectorConfig) (open : nat) (begun : list (u8 * bool)) (es : list event) : Prop :=
  match es with
  | [] => True
  | (ECall _ _ | ECreate _ _) :: es => orderly cfg (S open) begun es
  | (ECallEnd _ _ _ | ECreateEnd _ _ _) :: es => open <> 0 /\ orderly cfg (pred open) begun es
  | ELog _ _ :: es => (record_logs cfg = true -> open <> 0) /\ orderly cfg open begun es
  | ESelfdestruct _ _ _ :: es => open <> 0 /\ orderly cfg open begun es
  | EStep i _ :: es =>
      if record_steps cfg then open <> 0 /\ orderly cfg open ((in_op i, selected cfg (in_op i)) :: begun) es
      else orderly cfg open begun es
  | EStepEnd i x :: es =>
      if record_steps cfg then
        match begun with
        | [] => False
        | (op, recorded) :: begun => (recorded = true -> recordable cfg op i x) /\ orderly cfg open begun es
        end
      else orderly cfg open begun es
  end.
Lemma accepted_split cfg es : exclude_precompile_calls cfg = false -> forall L open begun,
  accepted cfg L open begun es <-> connected_from L es /\ orderly cfg (length open) begun es.
Proof.
  intros Hex. assert (Hl : forall l : list U256, l <> [] <-> length l <> 0) by (intros [|? ?]; split; done).
  induction es as [|e es IH]; intros L open begun; [by cbn|].
  destruct e as [i c|i c|l c|c i|c i o|c i|c i o|a b v]; cbn [accepted connected_from start_depth orderly].
  - destruct (record_steps cfg); rewrite IH; [|done]. rewrite Hl. tauto.
  - destruct (record_steps cfg); [|by rewrite IH]. destruct begun as [|[op r] begun]; [tauto|]. rewrite IH. tauto.
  - rewrite IH, Hl. tauto.
  - unfold left_out. rewrite Hex, orb_false_r, IH. cbn [length]. tauto.
  - rewrite IH, Hl. replace (length (tail open)) with (pred (length open)) by by destruct open. tauto.
  - rewrite IH. cbn [length]. tauto.
  - rewrite IH, Hl. replace (length (tail open)) with (pred (length open)) by by destruct open. tauto.
  - rewrite IH, Hl. tauto.
Qed.

Lemma orderly_hooks cfg w d hs es o b : o <> 0 -> orderly cfg o b es -> orderly cfg o b (map (hook_event w d) hs ++ es).
Proof. intros Ho H. induction hs as [|h hs IH]; [done|]. by destruct h. Qed.
Lemma orderly_instr cfg w d i es o b : o <> 0 -> snapshot_safe cfg i -> orderly cfg o b es -> orderly cfg o b (instr_events w d i ++ es).
Proof.
  intros Ho Hs H. unfold instr_events. rewrite <- app_comm_cons, <- app_assoc. cbn [orderly].
  unfold snapshot_safe in Hs. destruct (record_steps cfg) eqn:Er.
  - split; [done|]. apply orderly_hooks; [done|]. cbn [app orderly]. rewrite Er. split; [|done].
    rewrite selected_op by done. intros Hsel. destruct (Hs eq_refl Hsel) as [H1 H2]. split; [exact H1|].
    intros Hd. destruct (H2 Hd) as (jn & Hj & Hp). exists jn. split; [exact Hj|]. intros a k h. apply Hp.
  - apply orderly_hooks; [done|]. cbn [app orderly]. by rewrite Er.
Qed.

Lemma xorderly cfg w f : Forall (snapshot_safe cfg) (xframe_instrs f) -> forall d o b es,
  orderly cfg o b es -> orderly cfg o b (xframe_events w d f ++ es).
Proof.
  induction f as [s body e IH|i|h|f IH|init IH] using xframe_ind'
    with (Q := fun it => Forall (snapshot_safe cfg) (xitem_instrs it) -> forall d o b es,
      o <> 0 -> orderly cfg o b es -> orderly cfg o b (xitem_events w d it ++ es)).
  - intros Hs d o b es H. cbn [xframe_events xframe_instrs] in *. rewrite <- app_comm_cons, <- app_assoc.
    assert (Hb : orderly cfg (S o) b (flat_map (xitem_events w (S d)) body ++ [end_event w d s e] ++ es)).
    { assert (He : orderly cfg (S o) b ([end_event w d s e] ++ es)) by by destruct s.
      revert He. generalize ([end_event w d s e] ++ es). intros tl He. clear H.
      induction IH as [|it r Hit _ IHr]; [done|]. cbn [flat_map] in *. apply Forall_app in Hs as [Hs1 Hs2].
      rewrite <- app_assoc. apply Hit; [done|lia|]. by apply IHr. }
    by destruct s.
  - intros Hs d o b es Ho H. cbn [xitem_events xitem_instrs] in *. apply Forall_cons in Hs as [Hs _]. by apply orderly_instr.
  - intros _ d o b es Ho H. by apply (orderly_hooks cfg w d [h]).
  - intros Hs d o b es Ho H. cbn [xitem_events xitem_instrs] in *. by apply IH.
  - intros Hs d o b es Ho H. cbn [xitem_events xitem_instrs] in *.
    induction IH as [|it r Hit _ IHr]; [done|]. cbn [flat_map] in *. apply Forall_app in Hs as [Hs1 Hs2].
    rewrite <- app_assoc. apply Hit; [done|done|]. by apply IHr.
Qed.

Lemma one_hooks l w d o b es : one_after_another o b es -> one_after_another o b (map (hook_event w d) l ++ es).
Proof. intros H. induction l as [|h l IH]; [done|]. cbn [map app one_after_another]. destruct h; by split. Qed.
Lemma xone w f : forall d o b es, (d = 0 -> o = 0 /\ b = 0) -> one_after_another o b es -> one_after_another o b (xframe_events w d f ++ es).
Proof.
  induction f as [s body e IH|i|h|f IH|init IH] using xframe_ind'
    with (Q := fun it => forall d o b es, one_after_another o b es -> one_after_another o b (xitem_events w (S d) it ++ es)).
  - intros d o b es Hd H. cbn [xframe_events]. rewrite <- app_comm_cons, <- app_assoc.
    assert (Hb : one_after_another (S o) b (flat_map (xitem_events w (S d)) body ++ [end_event w d s e] ++ es)).
    { assert (He : one_after_another (S o) b ([end_event w d s e] ++ es)) by by destruct s.
      revert He. generalize ([end_event w d s e] ++ es). intros tl He. clear H.
      induction IH as [|it r Hit _ IHr]; [done|]. cbn [flat_map]. rewrite <- app_assoc. apply Hit. by apply IHr. }
    destruct s as [j i|j i]; cbn [start_event one_after_another is_root_start is_start]; (split; [|exact Hb]);
      cbn; intros Hz; apply Nat.eqb_eq in Hz; auto.
  - intros d o b es H. cbn [xitem_events]. unfold instr_events. rewrite <- app_comm_cons. cbn [one_after_another is_start is_end is_root_start].
    split; [done|]. rewrite <- app_assoc. apply one_hooks. cbn. by split.
  - intros d o b es H. by apply (one_hooks [h]).
  - intros d o b es H. apply IH; [done|exact H].
  - intros d o b es H. cbn [xitem_events].
    induction IH as [|it r Hit _ IHr]; [done|]. cbn [flat_map]. rewrite <- app_assoc. apply Hit. by apply IHr.
Qed.

Lemma recorded_iff cfg w f : exclude_precompile_calls cfg = false -> Forall (snapshot_safe cfg) (xframe_instrs f) ->
  (exists s, ti_run (ti_new cfg) (xframe_events w 0 f) = Ok s) <-> connected (xframe_events w 0 f).
Proof.
  intros Hex Hs. assert (Ho : one_after_another 0 0 (xframe_events w 0 f)).
  { rewrite <- (app_nil_r (xframe_events w 0 f)). by apply xone. }
  rewrite (accepts cfg _ _ 0 [] [] 0 0 (ainv_new cfg) Ho), (accepted_split cfg _ Hex), connected_iff. split; [tauto|].
  intros H. split; [done|]. rewrite <- (app_nil_r (xframe_events w 0 f)). by apply xorderly.
Qed.

Lemma inlined_safe cfg f : Forall (snapshot_safe cfg) (xframe_instrs f) ->
  every_frame (fun g => Forall (snapshot_safe cfg) (instrs (f_body g))) (inlined f).
Proof.
  assert (Hl : forall l,
    Forall (fun it => Forall (snapshot_safe cfg) (xitem_instrs it) -> Forall (snapshot_safe cfg) (instrs (inlined_item it)) /\
      Forall (every_frame (fun g => Forall (snapshot_safe cfg) (instrs (f_body g)))) (subs (inlined_item it))) l ->
    Forall (snapshot_safe cfg) (flat_map xitem_instrs l) ->
    Forall (snapshot_safe cfg) (instrs (flat_map inlined_item l)) /\
    Forall (every_frame (fun g => Forall (snapshot_safe cfg) (instrs (f_body g)))) (subs (flat_map inlined_item l))).
  { intros l IH. induction IH as [|it r Hit _ IHr]; intros Hs; [split; constructor|]. cbn [flat_map] in *. apply Forall_app in Hs as [H1 H2].
    unfold instrs, subs in *. rewrite !flat_map_app. destruct (Hit H1) as [A1 A2]. destruct (IHr H2) as [B1 B2].
    split; by apply Forall_app. }
  induction f as [s body e IH|i|h|f IH|init IH] using xframe_ind'
    with (Q := fun it => Forall (snapshot_safe cfg) (xitem_instrs it) -> Forall (snapshot_safe cfg) (instrs (inlined_item it)) /\
      Forall (every_frame (fun g => Forall (snapshot_safe cfg) (instrs (f_body g)))) (subs (inlined_item it))).
  - intros Hs. destruct (Hl body IH Hs) as [H1 H2]. by constructor.
  - intros Hs. split; [exact Hs|constructor].
  - intros _. split; constructor.
  - intros Hs. split; [constructor|]. cbn. constructor; [by apply IH|constructor].
  - intros Hs. cbn. by apply Hl.
Qed.
