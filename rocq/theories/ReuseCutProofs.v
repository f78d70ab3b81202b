(** * ReuseCutProofs: a transaction recorded on top of one that was cut off *)

From Verif Require Export SpecReuseCut ReuseProofs InterruptProofs.

Section Inner.
  Context (cfg : TracingInspectorConfig) (ev : event).
  Notation adj := (as_inner cfg ev).
  Notation adjl := (root_as_inner cfg ev).

  Definition inner_node (i : nat) (n : CallTraceNode) : CallTraceNode :=
    if i =? 0 then nd_set_trace n (adj (nd_trace n)) else n.

  Lemma adjl_length ns : length (adjl ns) = length ns.
  Proof. by destruct ns. Qed.
  Lemma adjl_some ns : ns <> [] -> adjl ns <> [].
  Proof. by destruct ns. Qed.
  Lemma adjl_lookup ns i n : ns !! i = Some n -> adjl ns !! i = Some (inner_node i n).
  Proof. destruct ns as [|m ns]; [done|]. destruct i as [|i]; [by intros [= ->]|]. done. Qed.
  Lemma adjl_insert ns i n : i < length ns -> <[i := inner_node i n]> (adjl ns) = adjl (<[i := n]> ns).
  Proof. destruct ns as [|m ns]; [cbn; lia|]. by destruct i. Qed.
  Lemma adjl_snoc ns n : ns <> [] -> adjl (ns ++ [n]) = adjl ns ++ [n].
  Proof. by destruct ns. Qed.
  Lemma adjl_index ns i n : index ns i = Ok n -> index (adjl ns) i = Ok (inner_node i n).
  Proof. unfold index. destruct (ns !! i) eqn:E; [|done]. intros [= ->]. by rewrite (adjl_lookup _ _ _ E). Qed.
  Lemma adjl_update ns i f g ns' : (forall n, g (inner_node i n) = inner_node i (f n)) ->
    update ns i f = Ok ns' -> update (adjl ns) i g = Ok (adjl ns').
  Proof.
    intros Hg. unfold update. destruct (ns !! i) as [n|] eqn:E; [|done]. intros [= <-].
    rewrite (adjl_lookup _ _ _ E), Hg. by rewrite adjl_insert by (by eapply lookup_lt_Some).
  Qed.

  Lemma inner_depth i n : tr_depth (nd_trace (inner_node i n)) = tr_depth (nd_trace n).
  Proof. unfold inner_node. by destruct (i =? 0). Qed.
  Lemma inner_steps i n : tr_steps (nd_trace (inner_node i n)) = tr_steps (nd_trace n).
  Proof. unfold inner_node. by destruct (i =? 0). Qed.
  Lemma inner_value i n : tr_value (nd_trace (inner_node i n)) = tr_value (nd_trace n).
  Proof. unfold inner_node. by destruct (i =? 0). Qed.
  Lemma inner_children i n : nd_children (inner_node i n) = nd_children n.
  Proof. unfold inner_node. by destruct (i =? 0). Qed.
  Lemma inner_attach i n id : attach_child id (inner_node i n) = inner_node i (attach_child id n).
  Proof. unfold inner_node. by destruct (i =? 0). Qed.
  Lemma inner_push_log i n l : push_log l (inner_node i n) = inner_node i (push_log l n).
  Proof. unfold inner_node. by destruct (i =? 0). Qed.
  Lemma inner_push_step i n st : push_step st (inner_node i n) = inner_node i (push_step st n).
  Proof. unfold inner_node. by destruct (i =? 0). Qed.
  Lemma inner_set_step i n k st : set_step k st (inner_node i n) = inner_node i (set_step k st n).
  Proof. unfold inner_node. by destruct (i =? 0). Qed.
  Lemma inner_mark i n a b v : mark_selfdestruct a b v (inner_node i n) = inner_node i (mark_selfdestruct a b v n).
  Proof. unfold inner_node. by destruct (i =? 0). Qed.
  Lemma inner_fill i n rt sp res cr :
    nd_set_trace (inner_node i n) (fill_trace rt sp res cr (nd_trace (inner_node i n))) =
    inner_node i (nd_set_trace n (fill_trace rt sp res cr (nd_trace n))).
  Proof. unfold inner_node. by destruct (i =? 0). Qed.

  Lemma adjl_push fuel : forall ns entry kind t ns' id, ns <> [] -> tr_depth t <> 0 ->
    push_trace_loop fuel ns entry kind t = Ok (ns', id) ->
    push_trace_loop fuel (adjl ns) entry kind t = Ok (adjl ns', id).
  Proof.
    induction fuel as [|fuel IH]; intros ns entry kind t ns' id Hne Hd; [done|].
    cbn [push_trace_loop]. destruct (tr_depth t) as [|d] eqn:Ed; [done|].
    intros H. inv_bind H. rename a into e. rewrite (adjl_index _ _ _ E). cbn [rbind]. rewrite inner_depth, inner_children.
    destruct (tr_depth (nd_trace e) =? d).
    - inv_bind H. injection H as <- <-. rewrite adjl_length, <- adjl_snoc by done.
      destruct (is_attach_to_parent kind).
      + by rewrite (adjl_update _ _ _ _ _ (fun n => inner_attach entry n (length ns)) E0).
      + by injection E0 as <-.
    - inv_bind H. cbn [rbind]. apply IH; [done|lia|done].
  Qed.
  Lemma adjl_push_trace ns kind t ns' id : ns <> [] -> tr_depth t <> 0 -> push_trace ns 0 kind t = Ok (ns', id) ->
    push_trace (adjl ns) 0 kind t = Ok (adjl ns', id).
  Proof. intros ??. unfold push_trace. rewrite adjl_length. by apply adjl_push. Qed.

  (** ** The simulation *)
  Context (r : CallTraceNode) (rs : list CallTraceNode) (stale : list nat) (below : list StackStep).
  Notation mv := (moved_idx (length rs)).
  Notation lft := (lift r rs).

  Record csim (t s : TracingInspector) : Prop := {
    cs_config : ti_config s = ti_config t;
    cs_traces : ti_traces s = added (r :: rs) (adjl (ti_traces t));
    cs_some : ti_traces t <> [];
    cs_stack : ti_trace_stack s = (mv <$> ti_trace_stack t) ++ stale;
    cs_steps : ti_step_stack s = (moved_step rs <$> ti_step_stack t) ++ below }.

  Lemma update_some (ns : list CallTraceNode) i f ns' : update ns i f = Ok ns' -> ns <> [] -> ns' <> [].
  Proof.
    unfold update. destruct (ns !! i) eqn:E; [|done]. intros [= <-] H Hn. apply (f_equal length) in Hn.
    rewrite insert_length in Hn. by destruct ns.
  Qed.
  Lemma both_update ns i f ns' : (forall n, f (inner_node i n) = inner_node i (f n)) -> (forall n, f (lft i n) = lft i (f n)) ->
    update ns i f = Ok ns' -> update (added (r :: rs) (adjl ns)) (mv i) f = Ok (added (r :: rs) (adjl ns')).
  Proof.
    intros H1 H2 H. apply (adjl_update _ _ _ f _ H1) in H. by apply (added_update r rs _ _ _ f _ (fun n _ => H2 n)) in H as [-> _].
  Qed.
  Lemma both_index ns i n : index ns i = Ok n -> index (added (r :: rs) (adjl ns)) (mv i) = Ok (lft i (inner_node i n)).
  Proof. intros H. apply added_index. by apply adjl_index. Qed.

  Lemma csim_start t s c a inp v kd cl gl mp t' : csim t s -> ti_trace_stack t <> [] -> cx_depth c <> 0 ->
    start_trace_on_call t c a inp v kd cl gl mp = Ok t' ->
    exists s', start_trace_on_call s c a inp v kd cl gl mp = Ok s' /\ csim t' s' /\
      length (ti_trace_stack t') = S (length (ti_trace_stack t)).
  Proof.
    intros [S1 S2 S3 S4 S5] Hne Hd. unfold start_trace_on_call. rewrite S4. cbn zeta.
    destruct (ti_trace_stack t) as [|x xs] eqn:Est; [done|]. cbn [fmap list_fmap app].
    intros H. inv_bind H. destruct a0 as [ns' id]. injection H as <-. rewrite S2.
    assert (Hns : ns' <> []).
    { destruct ns' as [|? ?]; [|done]. apply (added_push_trace r rs _ _ _ _ _ S3) in E as [_ E]. done. }
    apply (adjl_push_trace _ _ _ _ _ S3) in E; [|done].
    destruct (added_push_trace r rs _ _ _ _ _ (adjl_some _ S3) E) as [-> _]. cbn [rbind fst snd].
    eexists. split; [reflexivity|]. split; [|cbn; by rewrite ?Est]. split; cbn; try done; by rewrite ?Est, ?S4.
  Qed.

  Lemma csim_end t s c res cr t' : csim t s -> fill_trace_on_call_end t c res cr = Ok t' ->
    exists s', fill_trace_on_call_end s c res cr = Ok s' /\ csim t' s' /\
      length (ti_trace_stack t') = pred (length (ti_trace_stack t)).
  Proof.
    intros [S1 S2 S3 S4 S5]. unfold fill_trace_on_call_end. rewrite S4, S2.
    destruct (ti_trace_stack t) as [|x xs] eqn:Est; [done|]. cbn [fmap list_fmap app]. rewrite mv_eqb.
    intros H. inv_bind H. injection H as <-. pose proof (update_some _ _ _ _ E S3) as Hn.
    apply both_update in E.
    - rewrite E. cbn [rbind]. eexists. split; [reflexivity|]. split; [|done]. by split.
    - intros n. apply inner_fill.
    - intros n. rewrite lift_trace. apply lift_set_trace.
  Qed.

  Lemma csim_last t s f t' : csim t s -> (forall i n, f (inner_node i n) = inner_node i (f n)) ->
    (forall i n, f (lft i n) = lft i (f n)) ->
    on_last_trace t f = Ok t' -> exists s', on_last_trace s f = Ok s' /\ csim t' s' /\
      length (ti_trace_stack t') = length (ti_trace_stack t).
  Proof.
    intros [S1 S2 S3 S4 S5] Hf1 Hf2. unfold on_last_trace, ti_last_trace_idx. rewrite S4, S2.
    destruct (ti_trace_stack t) as [|x xs] eqn:Est; [done|]. cbn [fmap list_fmap app head expect rbind].
    intros H. inv_bind H. injection H as <-. pose proof (update_some _ _ _ _ E S3) as Hn.
    apply (both_update _ _ _ _ (Hf1 x) (Hf2 x)) in E. rewrite E. cbn [rbind].
    eexists. split; [reflexivity|]. split; [|cbn; by rewrite ?Est]. split; cbn; try done; by rewrite ?Est, ?S4.
  Qed.

  Lemma csim_step t s i c t' : csim t s -> start_step t i c = Ok t' ->
    exists s', start_step s i c = Ok s' /\ csim t' s' /\ length (ti_trace_stack t') = length (ti_trace_stack t).
  Proof.
    intros [S1 S2 S3 S4 S5]. unfold start_step, ti_last_trace_idx. rewrite S4, S2, S1.
    destruct (ti_trace_stack t) as [|x xs] eqn:Est; [done|]. cbn [fmap list_fmap app head expect rbind].
    intros H. inv_bind H. rename a into n. rewrite (both_index _ _ _ E). cbn [rbind]. rewrite lift_trace, inner_steps.
    destruct (negb (should_record_opcode (ti_config t) (in_op i))).
    - injection H as <-. eexists. split; [reflexivity|]. split; [|cbn; by rewrite ?Est]. split; cbn; try done; by rewrite ?Est, ?S5.
    - inv_bind H. injection H as <-. pose proof (update_some _ _ _ _ E0 S3) as Hn.
      apply (both_update _ _ _ _ (fun m => inner_push_step x m _) (fun m => lift_push_step r rs x m _)) in E0. rewrite E0. cbn [rbind].
      eexists. split; [reflexivity|]. split; [|cbn; by rewrite ?Est]. split; cbn; try done; by rewrite ?Est, ?S5.
  Qed.

  Lemma csim_step_end t s i c t' : csim t s -> fill_step_on_step_end t i c = Ok t' ->
    exists s', fill_step_on_step_end s i c = Ok s' /\ csim t' s' /\ length (ti_trace_stack t') = length (ti_trace_stack t).
  Proof.
    intros [S1 S2 S3 S4 S5]. unfold fill_step_on_step_end. rewrite S5, S2, S1.
    destruct (ti_step_stack t) as [|[rc ti si] xs] eqn:Est; [done|]. cbn [fmap list_fmap app moved_step ss_record ss_trace_idx ss_step_idx].
    destruct (negb rc).
    - intros [= <-]. eexists. split; [reflexivity|]. split; [|done]. by split.
    - intros H. inv_bind H. rename a into n. rewrite (both_index _ _ _ E). cbn [rbind]. rewrite lift_trace, inner_steps.
      inv_bind H. cbn [rbind]. inv_bind H. cbn [rbind]. inv_bind H. injection H as <-. pose proof (update_some _ _ _ _ E2 S3) as Hn.
      apply both_update in E2.
      + rewrite E2. cbn [rbind]. eexists. split; [reflexivity|]. split; [|done]. by split.
      + intros m. apply inner_set_step.
      + intros m. unfold set_step. rewrite lift_trace. apply lift_set_trace.
  Qed.

  Lemma csim_handle t s e t' o : csim t s -> (is_start e = true -> 0 < length (ti_trace_stack t) /\ is_root_start e = false) ->
    ti_handle t e = Ok (t', o) ->
    exists s', ti_handle s e = Ok (s', o) /\ csim t' s' /\
      length (ti_trace_stack t') = if is_start e then S (length (ti_trace_stack t)) else
        if is_end e then pred (length (ti_trace_stack t)) else length (ti_trace_stack t).
  Proof.
    intros HS Hin. pose proof (cs_config _ _ HS) as Hc.
    destruct e as [i c|i c|l c|c i|c i oc|c i|c i oc|a b v]; cbn [ti_handle is_start is_end is_root_start] in *.
    - rewrite Hc. destruct (record_steps (ti_config t)); intros H; inv_bind H; injection H as <- <-.
      + destruct (csim_step _ _ _ _ _ HS E) as (s' & -> & HS'). cbn [rbind]. eauto.
      + injection E as <-. cbn [rbind]. eauto.
    - rewrite Hc. destruct (record_steps (ti_config t)); intros H; inv_bind H; injection H as <- <-.
      + destruct (csim_step_end _ _ _ _ _ HS E) as (s' & -> & HS'). cbn [rbind]. eauto.
      + injection E as <-. cbn [rbind]. eauto.
    - rewrite Hc. destruct (record_logs (ti_config t)); intros H; inv_bind H; injection H as <- <-.
      + destruct (csim_last _ _ _ _ HS (fun i n => inner_push_log i n l) (fun i n => lift_push_log r rs i n l) E) as (s' & -> & HS').
        cbn [rbind]. eauto.
      + injection E as <-. cbn [rbind]. eauto.
    - destruct (Hin eq_refl) as [Hne Hd]. apply Nat.eqb_neq in Hd.
      assert (Hne' : ti_trace_stack t <> []) by (by destruct (ti_trace_stack t); [cbn in Hne; lia|]).
      intros H. inv_bind H. injection H as <- <-. unfold ti_call in E |- *. destruct (call_from_to i) as [fr to].
      inv_bind E. rename a0 into v.
      assert (Hv : match ci_scheme i with
        | CSDelegateCall => let! parent := ti_active_trace s in
            Ok (match parent with Some p => tr_value (nd_trace p) | None => ci_call_value i end)
        | _ => Ok (ci_call_value i) end = Ok v).
      { destruct (ci_scheme i); try done. inv_bind E0. rewrite <- E0. unfold ti_active_trace in E1 |- *.
        rewrite (cs_stack _ _ HS), (cs_traces _ _ HS). destruct (ti_trace_stack t) as [|x xs]; [done|]. cbn [fmap list_fmap app].
        inv_bind E1. injection E1 as <-. rewrite (both_index _ _ _ E2). cbn [rbind]. by rewrite lift_trace, inner_value. }
      rewrite Hv. cbn [rbind].
      assert (Hp : ti_is_precompile_call s c to v = ti_is_precompile_call t c to v).
      { unfold ti_is_precompile_call, ti_is_deep. rewrite (cs_stack _ _ HS). by destruct (ti_trace_stack t). }
      rewrite Hc, Hp.
      destruct (csim_start _ _ _ _ _ _ _ _ _ _ _ HS Hne' Hd E) as (s' & -> & HS'). cbn [rbind]. eauto.
    - intros H. inv_bind H. injection H as <- <-. destruct (csim_end _ _ _ _ _ _ HS E) as (s' & -> & HS'). cbn [rbind]. eauto.
    - destruct (Hin eq_refl) as [Hne Hd]. apply Nat.eqb_neq in Hd.
      assert (Hne' : ti_trace_stack t <> []) by (by destruct (ti_trace_stack t); [cbn in Hne; lia|]).
      intros H. inv_bind H. injection H as <- <-. unfold ti_create in E |- *.
      destruct (csim_start _ _ _ _ _ _ _ _ _ _ _ HS Hne' Hd E) as (s' & -> & HS'). cbn [rbind]. eauto.
    - intros H. inv_bind H. injection H as <- <-. destruct (csim_end _ _ _ _ _ _ HS E) as (s' & -> & HS'). cbn [rbind]. eauto.
    - intros H. inv_bind H. injection H as <- <-.
      assert (G : forall i n, mark_selfdestruct a b v (lft i n) = lft i (mark_selfdestruct a b v n)).
      { intros i n. unfold mark_selfdestruct. rewrite lift_trace. apply lift_set_trace. }
      destruct (csim_last _ _ _ _ HS (fun i n => inner_mark i n a b v) G E) as (s' & -> & HS'). cbn [rbind]. eauto.
  Qed.

  Lemma csim_run es : forall t s t', csim t s -> inner_calls_only (length (ti_trace_stack t)) es -> ti_run t es = Ok t' ->
    exists s', ti_run s es = Ok s' /\ csim t' s'.
  Proof.
    induction es as [|e es IH]; intros t s t' HS Hin; unfold ti_run, run; cbn [rfold]; [intros [= <-]; eauto|].
    intros H. inv_bind H. unfold rmap in E. destruct (ti_handle t e) as [[t1 o]| |] eqn:Eh; try done. injection E as <-.
    cbn [inner_calls_only] in Hin. destruct Hin as [Hin1 Hin].
    destruct (csim_handle _ _ _ _ _ HS Hin1 Eh) as (s1 & Es & HS1 & Hl). rewrite <- Hl in Hin.
    unfold rmap. rewrite Es. cbn [rbind fst]. by eapply IH.
  Qed.
End Inner.

(** ** The first event *)
Lemma csim_root cfg s e r rs t o : ti_config s = cfg -> ti_traces s = r :: rs -> nd_parent r = None -> nd_idx r = 0 ->
  ti_trace_stack s <> [] -> top_level_start e = true -> ti_handle (ti_new cfg) e = Ok (t, o) ->
  exists s', ti_handle s e = Ok (s', o) /\ csim cfg e r rs (ti_trace_stack s) (ti_step_stack s) t s' /\ length (ti_trace_stack t) = 1.
Proof.
  intros Hc Ht Hp Hi Hs He. subst cfg.
  destruct e as [i c|i c|l c|c i|c i oc|c i|c i oc|a b v]; try discriminate He; cbn [top_level_start] in He; cbn [ti_handle].
  - apply andb_true_iff in He as [Hd Hsch]. apply Nat.eqb_eq in Hd. destruct (ci_scheme i) eqn:Esch; try done.
    unfold ti_call, call_from_to, start_trace_on_call, push_trace, push_trace_loop, ti_is_precompile_call, ti_is_deep.
    rewrite Esch, Ht. cbn [rbind ti_new ti_trace_stack ti_config ti_traces arena_default new_trace_of tr_depth]. rewrite Hd.
    destruct (ti_trace_stack s) as [|x xs] eqn:Est; [done|]. cbn. intros [= <- <-].
    eexists. split; [reflexivity|]. split; [|done]. split; cbn; try done. rewrite !app_nil_r. f_equal. unfold nd_set_trace. cbn.
    rewrite Hp, Hi. f_equal. unfold as_inner, new_trace_of, to_be_left_out. cbn.
    destruct (exclude_precompile_calls (ti_config s)); cbn; [|done].
    destruct (cx_precompiles c (ci_target_address i)); cbn; [|done]. by destruct (ci_call_value i =? 0)%N.
  - apply Nat.eqb_eq in He.
    unfold ti_create, start_trace_on_call, push_trace, push_trace_loop.
    rewrite Ht. cbn [rbind ti_new ti_trace_stack ti_config ti_traces arena_default new_trace_of tr_depth]. rewrite He.
    destruct (ti_trace_stack s) as [|x xs] eqn:Est; [done|]. cbn. intros [= <- <-].
    eexists. split; [reflexivity|]. split; [|done]. split; cbn; try done. rewrite !app_nil_r. f_equal. unfold nd_set_trace. cbn.
    by rewrite Hp, Hi.
Qed.

Lemma reuse_cut cfg es s e later t : ti_run (ti_new cfg) es = Ok s -> ti_trace_stack s <> [] -> top_level_start e = true ->
  inner_calls_only 1 later -> ti_run (ti_new cfg) (e :: later) = Ok t ->
  exists s', ti_run s (e :: later) = Ok s' /\ ti_traces s' = added (ti_traces s) (root_as_inner cfg e (ti_traces t)) /\
    ti_trace_stack s' <> [].
Proof.
  intros Hs Hst He Hin Ht. pose proof (inv_tree _ (run_tree_inv _ _ _ Hs)) as Htree.
  destruct (at_root _ Htree) as (r & Hr & Hp & _). pose proof (at_idx _ Htree _ _ Hr) as Hi.
  destruct (ti_traces s) as [|r' rs] eqn:Etr; [done|]. injection Hr as ->.
  assert (Hc : ti_config s = cfg) by (by rewrite (ti_run_config _ _ _ Hs)).
  unfold ti_run, run in Ht. cbn [rfold] in Ht. inv_bind Ht. unfold rmap in E.
  destruct (ti_handle (ti_new cfg) e) as [[t1 o]| |] eqn:Eh; try done. injection E as <-.
  destruct (csim_root _ _ _ _ _ _ _ Hc Etr Hp Hi Hst He Eh) as (s1 & E1 & HS & Hl). cbn [fst] in Ht.
  rewrite <- Hl in Hin.
  destruct (csim_run cfg e r rs _ _ later _ _ _ HS Hin Ht) as (s' & E' & HS'). exists s'. split; [|split].
  - unfold ti_run, run. cbn [rfold]. unfold rmap at 1. rewrite E1. cbn [rbind fst]. exact E'.
  - by rewrite (cs_traces _ _ _ _ _ _ _ _ HS').
  - rewrite (cs_stack _ _ _ _ _ _ _ _ HS'). intros E. by apply app_eq_nil in E as [_ ?].
Qed.

(** ** Transactions *)
Lemma inner_prefix a : forall o b, inner_calls_only o (a ++ b) -> inner_calls_only o a.
Proof. induction a as [|e a IH]; intros o b; [done|]. cbn. intros [H1 H2]. split; [done|]. by eapply IH. Qed.
Lemma inner_hooks l w d o es : inner_calls_only o es -> inner_calls_only o (map (hook_event w d) l ++ es).
Proof. intros H. induction l as [|h l IH]; [done|]. cbn [map app inner_calls_only]. by destruct h. Qed.
Lemma inner_body w d body : forall o es, 0 < o ->
  Forall (fun f => forall d o es, 0 < o -> inner_calls_only o es -> inner_calls_only o (frame_events w (S d) f ++ es)) (subs body) ->
  inner_calls_only o es ->
  inner_calls_only o (flat_map (fun it => match it with IOp i => instr_events w (S d) i | IHook h => [hook_event w (S d) h]
    | ISub g => frame_events w (S d) g end) body ++ es).
Proof.
  intros o es Ho Hf H. induction body as [|[i|h|g] rest IH]; [done|..]; cbn [flat_map subs] in *; rewrite <- app_assoc.
  - unfold instr_events. rewrite <- app_comm_cons. cbn [inner_calls_only is_start is_end]. split; [done|].
    rewrite <- app_assoc. apply inner_hooks. cbn. split; [done|]. by apply IH.
  - apply (inner_hooks [h]). by apply IH.
  - apply Forall_cons in Hf as [Hg Hf]. apply Hg; [done|]. by apply IH.
Qed.
Lemma inner_frame w f : forall d o es, 0 < o -> inner_calls_only o es -> inner_calls_only o (frame_events w (S d) f ++ es).
Proof.
  induction f as [s body e IH] using frame_ind'. intros d o es Ho H. cbn [frame_events]. rewrite <- app_comm_cons, <- app_assoc.
  cbn [inner_calls_only]. split; [intros _; split; [done|by destruct s]|].
  replace (is_start (start_event w (S d) s)) with true by by destruct s.
  apply inner_body; [lia|done|]. cbn [app inner_calls_only].
  replace (is_start (end_event w (S d) s e)) with false by by destruct s.
  replace (is_end (end_event w (S d) s e)) with true by by destruct s. by split.
Qed.
Lemma inner_tx w f e later es2 : tx_events w f = (e :: later) ++ es2 -> inner_calls_only 1 later.
Proof.
  destruct f as [s body en]. unfold tx_events. cbn [frame_events app]. intros [= _ Heq]. apply (inner_prefix later 1 es2). rewrite <- Heq.
  apply inner_body; [lia|apply Forall_forall; intros g _ d o es; apply inner_frame|].
  cbn [inner_calls_only]. replace (is_start (end_event w 0 s en)) with false by by destruct s. done.
Qed.
Lemma cut_open cfg w f es1 es2 s : tx_events w f = es1 ++ es2 -> es1 <> [] -> es2 <> [] ->
  ti_run (ti_new cfg) es1 = Ok s -> ti_trace_stack s <> [].
Proof.
  intros Heq H1 H2 Hs. destruct (tx_opened _ _ _ _ _ _ Heq Hs) as [-> _]. pose proof (root_unended _ _ _ _ Heq H1 H2) as H.
  intros E. rewrite E in H. by apply elem_of_nil in H.
Qed.

(** A top-level call recorded by a new inspector is never left out. *)
Lemma new_root_shown cfg e later t n : top_level_start e = true -> inner_calls_only 1 later ->
  ti_run (ti_new cfg) (e :: later) = Ok t -> ti_traces t !! 0 = Some n -> nd_is_precompile n = false.
Proof.
  intros He Hin Ht Hn. unfold ti_run in Ht. rewrite run_cons in Ht. inv_bind Ht. destruct a as [t1 o]. cbn [fst] in Ht.
  assert (Hno : forall es o, inner_calls_only o es -> Forall (fun e => is_root_start e = false) es).
  { induction es as [|x es IH]; intros o' H; [done|]. cbn in H. destruct H as [H1 H2]. constructor; [|by eapply IH].
    destruct (is_start x) eqn:Ex; [by apply H1|]. by destruct x. }
  assert (H0 : exists n0, ti_traces t1 !! 0 = Some n0 /\ nd_is_precompile n0 = false).
  { destruct e as [i c|i c|l c|c i|c i oc|c i|c i oc|a b v]; try discriminate He; cbn [top_level_start] in He; cbn [ti_handle] in E.
    - apply andb_true_iff in He as [Hd Hsch]. apply Nat.eqb_eq in Hd. destruct (ci_scheme i) eqn:Esch; try done.
      unfold ti_call, call_from_to, start_trace_on_call, push_trace, push_trace_loop, ti_is_precompile_call, ti_is_deep in E.
      rewrite Esch in E. cbn [rbind ti_new ti_trace_stack ti_config ti_traces arena_default new_trace_of tr_depth] in E. rewrite Hd in E.
      cbn in E. injection E as <- <-. eexists. split; [reflexivity|]. unfold nd_is_precompile. cbn.
      destruct (exclude_precompile_calls cfg); [|done]. cbn. by destruct (cx_precompiles c _).
    - apply Nat.eqb_eq in He. unfold ti_create, start_trace_on_call, push_trace, push_trace_loop in E.
      cbn [rbind ti_new ti_trace_stack ti_config ti_traces arena_default new_trace_of tr_depth] in E. rewrite He in E.
      cbn in E. injection E as <- <-. eexists. split; reflexivity. }
  destruct H0 as (n0 & H0 & Hp). destruct (ti_run_later _ _ _ Ht (Hno _ _ Hin) 0 n0 H0) as (n' & Hn' & Hl).
  rewrite Hn in Hn'. injection Hn' as <-. unfold nd_is_precompile in *. by rewrite (ln_precompile _ _ Hl).
Qed.
