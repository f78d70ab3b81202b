(** * SessionProofs: histories of uses of one inspector *)

From Verif Require Export SpecSession OptionProofs OrderingProofs RecordPanicProofs.

Lemma ti_use_ok s u s' : ti_use s u = Ok s' ->
  match u with
  | UHook e => exists r, ti_handle s e = Ok (s', r)
  | UConfig f => s' = ti_update_config s f
  | UFuse => s' = ti_fuse s
  | UGas g => s' = ti_set_transaction_gas_used s g
  end.
Proof.
  destruct u; cbn [ti_use]; [|by intros [= <-]..]. unfold rmap. destruct (ti_handle s e) as [[s1 r]| |] eqn:E; [|done..].
  cbn. intros [= <-]. by exists r.
Qed.

Lemma session_cons s u us : ti_session s (u :: us) = let! s1 := ti_use s u in ti_session s1 us.
Proof. done. Qed.

(** ** The gas of the root *)

Lemma set_gas_lookup s g i n :
  ti_traces (ti_set_transaction_gas_used s g) !! i = Some n ->
  exists m, ti_traces s !! i = Some m /\ nd_parent n = nd_parent m /\ nd_children n = nd_children m /\ nd_idx n = nd_idx m /\
    nd_logs n = nd_logs m /\ nd_ordering n = nd_ordering m /\ tr_depth (nd_trace n) = tr_depth (nd_trace m) /\
    tr_steps (nd_trace n) = tr_steps (nd_trace m) /\ nd_is_precompile n = nd_is_precompile m.
Proof.
  unfold ti_set_transaction_gas_used. cbn. destruct (ti_traces s) as [|m ns]; [done|].
  destruct i as [|i]; cbn; [intros [= <-]; exists m; by split_and!|intros H; exists n; by split_and!].
Qed.
Lemma set_gas_lookup' s g i m :
  ti_traces s !! i = Some m ->
  exists n, ti_traces (ti_set_transaction_gas_used s g) !! i = Some n /\ nd_parent n = nd_parent m /\
    nd_children n = nd_children m /\ nd_idx n = nd_idx m /\ tr_depth (nd_trace n) = tr_depth (nd_trace m) /\
    tr_steps (nd_trace n) = tr_steps (nd_trace m) /\ nd_is_precompile n = nd_is_precompile m.
Proof.
  unfold ti_set_transaction_gas_used. cbn. destruct (ti_traces s) as [|m' ns]; [done|].
  destruct i as [|i]; cbn; [intros [= <-]; eexists; by split_and!|intros H; exists m; by split_and!].
Qed.

Lemma set_gas_tree s g : arena_tree (ti_traces s) -> arena_tree (ti_traces (ti_set_transaction_gas_used s g)).
Proof.
  intros [H1 H2 H3 H4 H5]. split.
  - destruct H1 as (r & Hr & Hp & Hd). destruct (set_gas_lookup' s g _ _ Hr) as (n & Hn & E1 & _ & _ & E2 & _).
    exists n. by rewrite E1, E2.
  - intros i n Hn. destruct (set_gas_lookup s g _ _ Hn) as (m & Hm & _ & _ & -> & _). by apply H2.
  - intros i n Hn Hi. destruct (set_gas_lookup s g _ _ Hn) as (m & Hm & -> & _ & _ & _ & _ & -> & _).
    destruct (H3 _ _ Hm Hi) as (p & pn & Hp & Hlt & Hpn & Hd).
    destruct (set_gas_lookup' s g _ _ Hpn) as (pn' & Hpn' & _ & _ & _ & Hd' & _).
    exists p, pn'. by rewrite Hd'.
  - intros p pn Hpn. destruct (set_gas_lookup s g _ _ Hpn) as (m & Hm & _ & -> & _). by eapply H4.
  - intros p pn Hpn i. destruct (set_gas_lookup s g _ _ Hpn) as (m & Hm & _ & -> & _). rewrite (H5 _ _ Hm).
    unfold attached_to. split.
    + intros (n & Hn & Hp & Hq). destruct (set_gas_lookup' s g _ _ Hn) as (n' & Hn' & E1 & _ & _ & _ & _ & E2).
      exists n'. by rewrite E1, E2.
    + intros (n & Hn & Hp & Hq). destruct (set_gas_lookup s g _ _ Hn) as (n' & Hn' & E1 & _ & _ & _ & _ & _ & _ & E2).
      exists n'. by rewrite <- E1, <- E2.
Qed.

Lemma set_gas_ordered s g : all_ordered (ti_traces s) -> all_ordered (ti_traces (ti_set_transaction_gas_used s g)).
Proof.
  unfold ti_set_transaction_gas_used. cbn. destruct (ti_traces s) as [|m ns]; [done|]. intros H.
  apply Forall_cons in H as [[H1 H2 H3] H]. constructor; [by split|done].
Qed.

(** ** The arena *)

Lemma use_tree s u s' : ti_use s u = Ok s' -> arena_tree (ti_traces s) -> arena_tree (ti_traces s').
Proof.
  intros H Ht. apply ti_use_ok in H. destruct u; [destruct H as (r & H); by eapply ti_handle_tree|by subst| |].
  - subst. apply arena_tree_default.
  - subst. by apply set_gas_tree.
Qed.

Lemma session_tree us : forall s s', ti_session s us = Ok s' -> arena_tree (ti_traces s) -> arena_tree (ti_traces s').
Proof.
  induction us as [|u us IH]; intros s s'; [by intros [= <-]|]. rewrite session_cons. intros H Ht. inv_bind H.
  eapply IH; [exact H|]. by eapply use_tree.
Qed.

Lemma session_fuel us : forall s, arena_tree (ti_traces s) -> ti_session s us <> OutOfFuel.
Proof.
  induction us as [|u us IH]; intros s Ht; [done|]. rewrite session_cons. apply rbind_fuel.
  - destruct u; [|done..]. cbn. unfold rmap. pose proof (ti_handle_fuel s e Ht) as H. by destruct (ti_handle s e).
  - intros s1 H. apply IH. by eapply use_tree.
Qed.

Lemma session_ordered us : forall s s' started, one_transaction started us ->
  arena_tree (ti_traces s) -> all_ordered (ti_traces s) -> (started = false -> pre_root s) ->
  ti_session s us = Ok s' -> all_ordered (ti_traces s').
Proof.
  induction us as [|u us IH]; intros s s' started Ho Ht Ha Hp; [by intros [= <-]|]. rewrite session_cons. intros H.
  inv_bind H. rename a into s1. pose proof (use_tree _ _ _ E Ht) as Ht1. apply ti_use_ok in E.
  destruct u as [e|f| |g]; cbn [one_transaction] in Ho.
  - destruct E as (r & E). destruct (is_root_start e) eqn:Er.
    + destruct Ho as [-> Ho]. eapply IH; [exact Ho|exact Ht1| |done|exact H].
      eapply ti_handle_ordered; [exact E|exact Ha|]. intros _. by apply Hp.
    + eapply IH; [exact Ho|exact Ht1| | |exact H].
      * eapply ti_handle_ordered; [exact E|exact Ha|]. intros Hr. congruence.
      * intros Hs. eapply ti_handle_pre_root; [exact E|exact Ht|exact Er|by apply Hp].
  - subst s1. eapply (IH (ti_update_config s f)); [exact Ho|done|done|exact Hp|exact H].
  - subst s1. eapply IH; [exact Ho|exact Ht1|apply new_all_ordered|intros _; apply new_pre_root|exact H].
  - subst s1. eapply IH; [exact Ho|exact Ht1|by apply set_gas_ordered| |exact H].
    intros Hs. destruct (Hp Hs) as [Hp1 Hp2]. split; [exact Hp1|].
    intros n Hn. destruct (set_gas_lookup s g _ _ Hn) as (m & Hm & _ & _ & _ & _ & _ & _ & -> & _). by apply Hp2.
Qed.

(** ** The configuration *)

Lemma session_config us : forall s s', ti_session s us = Ok s' -> ti_config s' = config_after (ti_config s) us.
Proof.
  induction us as [|u us IH]; intros s s'; [by intros [= <-]|]. rewrite session_cons. intros H. inv_bind H.
  apply IH in H. rewrite H. apply ti_use_ok in E. destruct u; cbn [config_after].
  - destruct E as (r & E). by rewrite (ti_handle_config _ _ _ _ E).
  - by subst.
  - by subst.
  - by subst.
Qed.

(** ** Options *)

Definition with_config (s : TracingInspector) (c : TracingInspectorConfig) : TracingInspector := ti_update_config s (fun _ => c).
Definition forced (s : TracingInspector) (p : TracingInspectorConfig * use) : res TracingInspector :=
  ti_use (with_config s (fst p)) (snd p).

Lemma session_in_force us : forall s t s', s = with_config t (ti_config s) -> ti_session s us = Ok s' ->
  exists t', rfold forced t (in_force (ti_config s) us) = Ok t' /\ s' = with_config t' (config_after (ti_config s) us).
Proof.
  assert (G : forall u us s t s', (forall s t s', s = with_config t (ti_config s) -> ti_session s us = Ok s' ->
    exists t', rfold forced t (in_force (ti_config s) us) = Ok t' /\ s' = with_config t' (config_after (ti_config s) us)) ->
    match u with UConfig _ => False | _ => True end ->
    s = with_config t (ti_config s) -> ti_session s (u :: us) = Ok s' ->
    exists t', rfold forced t ((ti_config s, u) :: in_force (ti_config s) us) = Ok t' /\
      s' = with_config t' (config_after (ti_config s) us)).
  { intros u vs s t s' IH Hu Hs H. rewrite session_cons in H. inv_bind H. rename a into s1.
    cbn [rfold]. unfold forced at 1. cbn [fst snd]. rewrite <- Hs, E. cbn [rbind].
    assert (Hc : ti_config s1 = ti_config s).
    { apply ti_use_ok in E. destruct u; [destruct E as (r & E); by eapply ti_handle_config|done|by subst|by subst]. }
    rewrite <- Hc. apply IH; [by destruct s1|exact H]. }
  induction us as [|u us IH]; intros s t s' Hs H.
  - injection H as <-. exists t. split; [done|]. done.
  - destruct u as [e|f| |g].
    + exact (G (UHook e) us s t s' IH I Hs H).
    + cbn [in_force config_after]. rewrite session_cons in H. cbn [ti_use rbind] in H.
      change (f (ti_config s)) with (ti_config (ti_update_config s f)). apply IH; [|exact H]. by rewrite Hs.
    + exact (G UFuse us s t s' IH I Hs H).
    + exact (G (UGas g) us s t s' IH I Hs H).
Qed.

Lemma agree_with_config k s s' c c' : agree k s s' -> agree k (with_config s c) (with_config s' c').
Proof. intros (H1 & H2 & H3 & H4 & H5). unfold agree, with_config, ti_update_config. cbn. by split_and!. Qed.

Lemma kept_set_gas k n n' g : kept k n = kept k n' ->
  kept k (nd_set_trace n (tr_set_gas_used (nd_trace n) g)) = kept k (nd_set_trace n' (tr_set_gas_used (nd_trace n') g)).
Proof.
  assert (G : forall m, kept k (nd_set_trace m (tr_set_gas_used (nd_trace m) g)) =
    nd_set_trace (kept k m) (tr_set_gas_used (nd_trace (kept k m)) g)) by done.
  intros H. by rewrite !G, H.
Qed.

Lemma agree_set_gas k s s' g : agree k s s' -> agree k (ti_set_transaction_gas_used s g) (ti_set_transaction_gas_used s' g).
Proof.
  intros (H1 & H2 & H3 & H4 & H5). unfold agree, ti_set_transaction_gas_used. cbn. split_and!; try done.
  destruct (ti_traces s) as [|n ns], (ti_traces s') as [|n' ns']; try done. rewrite !fmap_cons in H1 |- *.
  apply (inj2 cons) in H1 as [Hn Hns]. by rewrite Hns, (kept_set_gas _ _ _ g Hn).
Qed.

Lemma forced_alike k l l' : Forall2 (fun p p' => snd p = snd p' /\ same_options k (fst p) (fst p')) l l' ->
  forall s s' t t', agree k s s' -> rfold forced s l = Ok t -> rfold forced s' l' = Ok t' -> agree k t t'.
Proof.
  induction 1 as [|[c u] [c' u'] l l' [Hu Ho] Hl IH]; intros s s' t t' Ha; cbn [rfold].
  - by intros [= <-] [= <-].
  - cbn [fst snd] in *. subst u'. intros H H'. inv_bind H. inv_bind H'. eapply IH; [|exact H|exact H'].
    unfold forced in E, E0. cbn [fst snd] in E, E0.
    apply ti_use_ok in E, E0. pose proof (agree_with_config k s s' c c' Ha) as Ha'.
    destruct u as [e|f| |g].
    + destruct E as (r & E), E0 as (r' & E0). eapply (handle_kept k c c' Ho); [| |exact Ha'|exact E|exact E0]; done.
    + subst. destruct Ha' as (H1 & H2 & H3 & H4 & H5). unfold agree, ti_update_config. cbn. by split_and!.
    + subst. unfold agree. cbn. by split_and!.
    + subst. by apply agree_set_gas.
Qed.

Lemma session_alike k cfg cfg' us us' s s' : alike k cfg cfg' us us' ->
  ti_session (ti_new cfg) us = Ok s -> ti_session (ti_new cfg') us' = Ok s' ->
  kept k <$> ti_traces s = kept k <$> ti_traces s'.
Proof.
  intros Hl H H'.
  destruct (session_in_force us (ti_new cfg) (ti_new cfg) s eq_refl H) as (t & Ht & ->).
  destruct (session_in_force us' (ti_new cfg') (ti_new cfg') s' eq_refl H') as (t' & Ht' & ->).
  assert (Ha : agree k t t'). { eapply (forced_alike _ _ _ Hl); [|exact Ht|exact Ht']. unfold agree. cbn. by split_and!. }
  by destruct Ha.
Qed.

(** ** Careful changes do no harm *)

(** What is compared with: every instruction recorded, no snapshots. *)
Definition plain (ex : bool) : TracingInspectorConfig := mkConfig true false SnapNone false false None ex true.

Lemma plain_safe ex o : snapshot_safe (plain ex) o.
Proof. by intros _ _. Qed.

Lemma plain_completes w f ex : (ex = true -> precompiles_are_leaves w f) ->
  exists s, ti_run (ti_new (plain ex)) (tx_events w f) = Ok s.
Proof.
  intros Hl. apply tx_completes; [done|]. clear. induction f as [f0 body e IH] using frame_ind'.
  constructor; [|done]. apply Forall_true. intros o. apply plain_safe.
Qed.

(** Instructions end before another one or a call starts. *)
Fixpoint paired (cur : bool) (es : list event) : option bool :=
  match es with
  | [] => Some cur
  | e :: es =>
      match e, cur with
      | EStep _ _, false => paired true es
      | EStepEnd _ _, true => paired false es
      | (ELog _ _ | ESelfdestruct _ _ _), _ => paired cur es
      | (ECall _ _ | ECallEnd _ _ _ | ECreate _ _ | ECreateEnd _ _ _), false => paired false es
      | _, _ => None
      end
  end.
Lemma paired_app es : forall cur es', paired cur (es ++ es') = match paired cur es with Some c => paired c es' | None => None end.
Proof. induction es as [|e es IH]; intros cur es'; [done|]. by destruct e, cur; cbn; try apply IH. Qed.

Lemma paired_hooks w d hs cur : paired cur (map (hook_event w d) hs) = Some cur.
Proof. induction hs as [|h hs IH]; [done|]. by destruct h. Qed.
Lemma paired_instr w d o : paired false (instr_events w d o) = Some false.
Proof. unfold instr_events. cbn [paired]. by rewrite paired_app, paired_hooks. Qed.
Lemma paired_frame w f : forall d, paired false (frame_events w d f) = Some false.
Proof.
  induction f as [s body e IH] using frame_ind'. intros d. rewrite frame_events_eq.
  rewrite paired_app. assert (Hs : paired false [start_event w d s] = Some false) by by destruct s. rewrite Hs.
  rewrite paired_app. assert (Hb : paired false (body_events w d body) = Some false).
  { clear Hs. revert IH. induction body as [|it body IHb]; intros IH; [done|]. unfold body_events. cbn [flat_map].
    rewrite paired_app. destruct it as [o|h|g].
    - rewrite paired_instr. by apply IHb.
    - destruct h; by apply IHb.
    - cbn [subs flat_map] in IH. change ([g] ++ ?l) with (g :: l) in IH. apply Forall_cons_1 in IH as [Hg IH].
      rewrite Hg. by apply IHb. }
  rewrite Hb. by destruct s.
Qed.

Record follows (cur : option (u8 * bool)) (s s' : TracingInspector) : Prop := {
  fo_agree : agree only_calls s s';
  fo_plain : ti_config s = plain (exclude_precompile_calls (ti_config s'));
  fo_between : cur = None -> ti_step_stack s' = [];
  fo_within : forall op rec, cur = Some (op, rec) ->
    if record_steps (ti_config s') then
      exists ti si, ti_step_stack s' = [mkStackStep rec ti si] /\
        (rec = true -> exists n st, ti_traces s' !! ti = Some n /\ tr_steps (nd_trace n) !! si = Some st /\ st_op st = op)
    else rec = false /\ ti_step_stack s' = [] }.

Lemma kept_lookup k (ns ns' : list CallTraceNode) (i : nat) n : kept k <$> ns = kept k <$> ns' -> ns !! i = Some n ->
  exists n', ns' !! i = Some n' /\ kept k n = kept k n'.
Proof.
  intros H Hn. assert (Hl : (kept k <$> ns') !! i = Some (kept k n)) by (by rewrite <- H, list_lookup_fmap, Hn).
  rewrite list_lookup_fmap in Hl. destruct (ns' !! i) as [n'|] eqn:E; [|done]. apply (inj Some) in Hl. by exists n'.
Qed.
Lemma kept_update k (ns ns' : list CallTraceNode) i f f' a : kept k <$> ns = kept k <$> ns' -> update ns i f = Ok a ->
  exists a', update ns' i f' = Ok a'.
Proof.
  unfold update. intros H Hu. destruct (ns !! i) as [n|] eqn:E; [|done].
  destruct (kept_lookup _ _ _ _ _ H E) as (n' & -> & _). by eexists.
Qed.

Lemma push_trace_loop_progress k fuel ns ns' entry kind t r :
  kept k <$> ns = kept k <$> ns' -> push_trace_loop fuel ns entry kind t = Ok r ->
  exists r', push_trace_loop fuel ns' entry kind t = Ok r'.
Proof.
  intros Hns. revert entry. induction fuel as [|fuel IH]; intros entry; [done|]. cbn [push_trace_loop].
  destruct (tr_depth t) as [|d].
  - intros H. inv_bind H. destruct (kept_update k _ _ _ _ (fun n => nd_set_trace n t) _ Hns E) as (a' & ->). by eexists.
  - intros H. inv_bind H. unfold index in E. destruct (ns !! entry) as [n|] eqn:En; [injection E as <-|done].
    destruct (kept_lookup _ _ _ _ _ Hns En) as (n' & En' & Hn). unfold index. rewrite En'. cbn [rbind].
    assert (Hd : tr_depth (nd_trace n) = tr_depth (nd_trace n')) by by apply (kept_trace k _ _ tr_depth).
    rewrite <- Hd, <- (kept_children k _ _ Hn).
    destruct (tr_depth (nd_trace n) =? d).
    + destruct (is_attach_to_parent kind); [|by eexists].
      unfold update. rewrite lookup_app_l by (by eapply lookup_lt_Some). rewrite En'. by eexists.
    + inv_bind H. cbn [rbind]. by apply IH.
Qed.

Lemma start_trace_progress k s s' c a inp v kd from g mp s1 :
  agree k s s' -> start_trace_on_call s c a inp v kd from g mp = Ok s1 ->
  exists s1', start_trace_on_call s' c a inp v kd from g mp = Ok s1' /\
    ti_config s1' = ti_config s' /\ ti_step_stack s1' = ti_step_stack s'.
Proof.
  intros (H1 & H2 & H3 & H4 & H5). unfold start_trace_on_call. rewrite <- H2, <- H3. intros H.
  destruct (match ti_trace_stack s with [] => _ | _ => _ end) as [gl sp]. inv_bind H.
  unfold push_trace in *. assert (Hl : length (ti_traces s) = length (ti_traces s')).
  { apply (f_equal length) in H1. by rewrite !fmap_length in H1. }
  rewrite <- Hl. destruct (push_trace_loop_progress k _ _ _ _ _ _ _ H1 E) as (r' & ->). by eexists.
Qed.

Lemma on_last_progress k s s' f f' s1 :
  agree k s s' -> on_last_trace s f = Ok s1 ->
  exists idx n, ti_traces s' !! idx = Some n /\
    on_last_trace s' f' = Ok (mkTI (ti_config s') (<[idx := f' n]> (ti_traces s')) (ti_trace_stack s') (ti_step_stack s')
      (ti_last_call_return_data s') (ti_spec_id s')).
Proof.
  intros (H1 & H2 & H3 & H4 & H5). unfold on_last_trace, ti_last_trace_idx. rewrite <- H2. intros H. inv_bind H.
  inv_bind H. unfold update in E0. destruct (ti_traces s !! a) as [n|] eqn:En; [|done].
  destruct (kept_lookup _ _ _ _ _ H1 En) as (n' & En' & _). exists a, n'. cbn [rbind]. unfold update. by rewrite En'.
Qed.

Lemma fill_trace_progress k s s' c r cr s1 :
  agree k s s' -> fill_trace_on_call_end s c r cr = Ok s1 ->
  exists s1', fill_trace_on_call_end s' c r cr = Ok s1' /\ ti_config s1' = ti_config s' /\ ti_step_stack s1' = ti_step_stack s'.
Proof.
  intros (H1 & H2 & H3 & H4 & H5). unfold fill_trace_on_call_end. rewrite <- H2.
  destruct (ti_trace_stack s) as [|i rest]; [done|]. intros H. inv_bind H.
  edestruct (kept_update k) as (a' & Ha'); [exact H1|exact E|]. rewrite Ha'. by eexists.
Qed.

Lemma should_selected c op : record_steps c = true -> should_record_opcode c op = selected c op.
Proof.
  intros H. unfold should_record_opcode, selected. rewrite H. cbn [andb]. destruct (record_opcodes_filter c); [|done].
  unfold filter_is_enabled. destruct (_ <? 256)%N; [by rewrite andb_true_r|by rewrite andb_false_r].
Qed.

Lemma start_step_progress s i c t n :
  head (ti_trace_stack s) = Some t -> ti_traces s !! t = Some n ->
  let rec := should_record_opcode (ti_config s) (in_op i) in
  exists s1 si, start_step s i c = Ok s1 /\ ti_step_stack s1 = mkStackStep rec t si :: ti_step_stack s /\
    (rec = true -> exists n st, ti_traces s1 !! t = Some n /\ tr_steps (nd_trace n) !! si = Some st /\ st_op st = in_op i).
Proof.
  intros Ht Hn rec. unfold start_step, ti_last_trace_idx. rewrite Ht. cbn [expect rbind]. unfold index. rewrite Hn. cbn [rbind].
  fold rec. destruct rec; cbn [negb].
  - unfold update. rewrite Hn. cbn [rbind]. do 2 eexists. split; [reflexivity|]. cbn [ti_step_stack ti_traces]. split; [done|].
    intros _. do 2 eexists. rewrite list_lookup_insert by (by eapply lookup_lt_Some). split; [done|]. cbn.
    rewrite lookup_app_r by done. rewrite Nat.sub_diag. done.
  - do 2 eexists. split; [reflexivity|]. done.
Qed.

Lemma fill_step_progress s i x rec ti si op :
  ti_step_stack s = [mkStackStep rec ti si] ->
  (rec = true -> recordable (ti_config s) op i x /\
     exists n st, ti_traces s !! ti = Some n /\ tr_steps (nd_trace n) !! si = Some st /\ st_op st = op) ->
  exists s1, fill_step_on_step_end s i x = Ok s1 /\ ti_step_stack s1 = [].
Proof.
  intros Hst H. unfold fill_step_on_step_end. rewrite Hst. destruct rec; cbn [negb]; [|by eexists].
  destruct (H eq_refl) as ([Hr1 Hr2] & n & st & Hn & Hs & Ho). unfold index. rewrite Hn. cbn [rbind]. rewrite Hs. cbn [rbind].
  assert (exists st', fill_step (ti_config s) i x st = Ok st') as (st' & ->).
  { unfold fill_step. rewrite Ho. unfold push_snapshot.
    assert (exists sc, storage_snapshot (ti_config s) op x (st_storage_change st) = Ok sc) as (sc & Hsc).
    { unfold storage_snapshot. destruct (record_state_diff (ti_config s)); [|by eexists].
      destruct (Hr2 eq_refl) as (jn & -> & Hj). cbn [expect rbind].
      destruct (last jn) as [je|]; [|by eexists]. destruct je; try by eexists.
      match goal with |- context [if ?b then _ else _] => destruct b eqn:Eb end; [|by eexists].
      match goal with |- context [cx_present x ?a ?k] => destruct (cx_present x a k) eqn:Ep end; [by eexists|].
      exfalso. eapply Hj; [|reflexivity|exact Ep].
      apply orb_true_iff in Eb as [Eb|Eb]; apply N.eqb_eq in Eb; [by left|by right]. }
    rewrite Hsc. destruct (snap_is_pushes _); cbn [rbind]; [|by eexists].
    destruct (Nat.leb_spec (stack_push_count op) (length (in_stack i))); cbn [rbind]; [by eexists|].
    specialize (Hr1 eq_refl). lia. }
  cbn [rbind]. unfold update. rewrite Hn. cbn [rbind]. by eexists.
Qed.

Lemma handle_progress s s' e cur s1 r :
  follows cur s s' ->
  paired (bool_decide (cur <> None)) [e] <> None ->
  match e, cur with EStepEnd i x, Some (op, true) => recordable (ti_config s') op i x | _, _ => True end ->
  ti_handle s e = Ok (s1, r) ->
  exists s1' r', ti_handle s' e = Ok (s1', r') /\
    follows match e with
            | EStep i _ => Some (in_op i, selected (ti_config s') (in_op i))
            | EStepEnd _ _ => None
            | _ => cur end s1 s1'.
Proof.
  intros [Ha Hp Hb Hw] Hpair Hrec H.
  assert (Hopt : same_options only_calls (ti_config s) (ti_config s')).
  { rewrite Hp. by split_and!. }
  assert (G : forall cur' s1' r', ti_handle s' e = Ok (s1', r') ->
    (cur' = None -> ti_step_stack s1' = []) ->
    (forall op rec, cur' = Some (op, rec) ->
      if record_steps (ti_config s') then
        exists ti si, ti_step_stack s1' = [mkStackStep rec ti si] /\
          (rec = true -> exists n st, ti_traces s1' !! ti = Some n /\ tr_steps (nd_trace n) !! si = Some st /\ st_op st = op)
      else rec = false /\ ti_step_stack s1' = []) ->
    exists s1' r', ti_handle s' e = Ok (s1', r') /\ follows cur' s1 s1').
  { intros cur' s1' r' H' Hb' Hw'. exists s1', r'. split; [done|]. split.
    - eapply (handle_kept only_calls _ _ Hopt s s'); [done..|exact H|exact H'].
    - by rewrite (ti_handle_config _ _ _ _ H), (ti_handle_config _ _ _ _ H').
    - exact Hb'.
    - by rewrite (ti_handle_config _ _ _ _ H'). }
  assert (Hstart : forall s1' r', cur = None ->
    ti_handle s' e = Ok (s1', r') -> ti_step_stack s1' = ti_step_stack s' ->
    exists s1' r', ti_handle s' e = Ok (s1', r') /\ follows cur s1 s1').
  { intros s1' r' -> H' Hst. eapply G; [exact H'| |done]. intros _. rewrite Hst. by apply Hb. }
  assert (Hhook : forall s1' r' idx n f, ti_handle s' e = Ok (s1', r') -> ti_traces s' !! idx = Some n ->
    ti_step_stack s1' = ti_step_stack s' ->
    (ti_traces s1' = ti_traces s' \/ ti_traces s1' = <[idx := f n]> (ti_traces s') /\ tr_steps (nd_trace (f n)) = tr_steps (nd_trace n)) ->
    exists s1' r', ti_handle s' e = Ok (s1', r') /\ follows cur s1 s1').
  { intros s1' r' idx n f H' Hn Hst Htr. eapply G; [exact H'| |].
    - rewrite Hst. exact Hb.
    - intros op rec Hc. specialize (Hw op rec Hc). rewrite Hst. destruct (record_steps (ti_config s')); [|exact Hw].
      destruct Hw as (ti & si & -> & Hw). exists ti, si. split; [done|]. intros Hr. destruct (Hw Hr) as (m & st & Hm & Hs & Ho).
      destruct Htr as [->|[-> Hsteps]]; [by exists m, st|].
      destruct (decide (ti = idx)) as [->|Hne].
      + assert (m = n) as -> by congruence. exists (f n), st. rewrite Hsteps.
        rewrite list_lookup_insert by (by eapply lookup_lt_Some). done.
      + exists m, st. rewrite list_lookup_insert_ne by done. done. }
  destruct e as [i c|i c|l c|c i|c i o|c i|c i o|sa sb sv].
  - (* step *)
    assert (cur = None) as ->. { destruct cur as [[]|]; [|done]. by cbn in Hpair. }
    cbn [ti_handle] in H. rewrite Hp in H. cbn [record_steps plain] in H. inv_bind H.
    unfold start_step in E. inv_bind E. inv_bind E. clear H E.
    destruct (record_steps (ti_config s')) eqn:Ers.
    + destruct Ha as (H1 & H2 & H3 & H4 & H5). unfold ti_last_trace_idx, expect in E0. rewrite H2 in E0.
      destruct (head (ti_trace_stack s')) as [t|] eqn:Et; [injection E0 as <-|done].
      unfold index in E1. destruct (ti_traces s !! t) as [n|] eqn:En; [|done].
      destruct (kept_lookup _ _ _ _ _ H1 En) as (n' & En' & _).
      destruct (start_step_progress s' i c t n' Et En') as (s1' & si & Hst & Hss & Hrec').
      rewrite (should_selected _ _ Ers) in Hss, Hrec'.
      eapply (G _ s1'); [cbn [ti_handle]; rewrite Ers, Hst; reflexivity|done|].
      intros op rec [= <- <-]. exists t, si. rewrite Hss, (Hb eq_refl). done.
    + eapply (G _ s'); [cbn [ti_handle]; rewrite Ers; reflexivity|done|].
      intros op rec [= <- <-]. rewrite (Hb eq_refl). unfold selected. by rewrite Ers.
  - (* step_end *)
    destruct cur as [[op rec]|]; [|by cbn in Hpair]. specialize (Hw op rec eq_refl).
    destruct (record_steps (ti_config s')) eqn:Ers.
    + destruct Hw as (ti & si & Hst & Hw).
      destruct (fill_step_progress s' i c rec ti si op Hst) as (s1' & Hf & Hs1).
      { intros ->. split; [exact Hrec|by apply Hw]. }
      eapply (G _ s1'); [cbn [ti_handle]; rewrite Ers, Hf; reflexivity|done|done].
    + eapply (G _ s'); [cbn [ti_handle]; rewrite Ers; reflexivity|by intros _; apply Hw|done].
  - (* log *)
    cbn [ti_handle] in H. rewrite Hp in H. cbn [record_logs plain] in H. inv_bind H.
    destruct (on_last_progress _ _ _ _ (push_log l) _ Ha E) as (idx & n & Hn & Hl).
    destruct (record_logs (ti_config s')) eqn:Erl.
    + eapply (Hhook _ _ idx n (push_log l)); [cbn [ti_handle]; rewrite Erl, Hl; reflexivity|done|done|]. right. done.
    + eapply (Hhook _ _ idx n (push_log l)); [cbn [ti_handle]; rewrite Erl; reflexivity|done|done|]. by left.
  - (* call *)
    assert (cur = None) as Hcur. { destruct cur as [[]|]; [|done]. by cbn in Hpair. }
    cbn [ti_handle] in H. inv_bind H. unfold ti_call in E. destruct (call_from_to i) as [from to] eqn:Eft. inv_bind E.
    assert (Hv : match ci_scheme i with
        | CSDelegateCall => let! parent := ti_active_trace s' in
            Ok match parent with Some p => tr_value (nd_trace p) | None => ci_call_value i end
        | _ => Ok (ci_call_value i) end = Ok a0).
    { destruct (ci_scheme i); try exact E0. unfold ti_active_trace in E0 |- *. destruct Ha as (H1 & H2 & _). rewrite <- H2.
      destruct (ti_trace_stack s) as [|t ?]; [exact E0|]. unfold index in E0 |- *.
      destruct (ti_traces s !! t) as [m|] eqn:Em; [|done]. destruct (kept_lookup _ _ _ _ _ H1 Em) as (m' & -> & Hm).
      cbn [rbind] in E0 |- *. apply (f_equal (fun n => tr_value (nd_trace n))) in Hm. cbn in Hm. by rewrite <- Hm. }
    assert (Hd' : ti_is_precompile_call s' c to a0 = ti_is_precompile_call s c to a0).
    { unfold ti_is_precompile_call, ti_is_deep. destruct Ha as (_ & -> & _). done. }
    destruct (start_trace_progress only_calls s s' _ _ _ _ _ _ _ _ _ Ha E) as (s1' & Hst & _ & Hss).
    eapply (Hstart s1'); [done| |exact Hss]. cbn [ti_handle]. unfold ti_call. rewrite Eft, Hv. cbn [rbind].
    rewrite Hp in Hst. cbn [exclude_precompile_calls plain] in Hst. rewrite Hd', Hst. reflexivity.
  - assert (cur = None) as Hcur. { destruct cur as [[]|]; [|done]. by cbn in Hpair. }
    cbn [ti_handle] in H. inv_bind H. destruct (fill_trace_progress _ _ _ _ _ _ _ Ha E) as (s1' & Hst & _ & Hss).
    eapply (Hstart s1'); [done| |exact Hss]. cbn [ti_handle]. rewrite Hst. reflexivity.
  - assert (cur = None) as Hcur. { destruct cur as [[]|]; [|done]. by cbn in Hpair. }
    cbn [ti_handle] in H. inv_bind H. unfold ti_create in E.
    destruct (start_trace_progress only_calls s s' _ _ _ _ _ _ _ _ _ Ha E) as (s1' & Hst & _ & Hss).
    eapply (Hstart s1'); [done| |exact Hss]. cbn [ti_handle]. unfold ti_create. rewrite Hst. reflexivity.
  - assert (cur = None) as Hcur. { destruct cur as [[]|]; [|done]. by cbn in Hpair. }
    cbn [ti_handle] in H. inv_bind H. destruct (fill_trace_progress _ _ _ _ _ _ _ Ha E) as (s1' & Hst & _ & Hss).
    eapply (Hstart s1'); [done| |exact Hss]. cbn [ti_handle]. rewrite Hst. reflexivity.
  - cbn [ti_handle] in H. inv_bind H.
    destruct (on_last_progress _ _ _ _ (mark_selfdestruct sa sb sv) _ Ha E) as (idx & n & Hn & Hl).
    eapply (Hhook _ _ idx n (mark_selfdestruct sa sb sv)); [cbn [ti_handle]; rewrite Hl; reflexivity|done|done|]. by right.
Qed.

Lemma session_progress us : forall es cur s s' s1,
  hooks_called us = Some es -> careful (ti_config s') cur us -> paired (bool_decide (cur <> None)) es <> None ->
  follows cur s s' -> ti_run s es = Ok s1 ->
  exists s1', ti_session s' us = Ok s1' /\ agree only_calls s1 s1'.
Proof.
  induction us as [|u us IH]; intros es cur s s' s1 Hes Hc Hpa Hf Hr.
  - injection Hes as <-. injection Hr as <-. exists s'. split; [done|]. apply Hf.
  - destruct u as [e|f| |g]; cbn [hooks_called] in Hes; [| |done..].
    + destruct (hooks_called us) as [es'|] eqn:Eh; [|done]. injection Hes as <-.
      unfold ti_run in Hr. rewrite run_cons in Hr. inv_bind Hr. destruct a as [s2 r]. cbn [fst] in Hr.
      change (e :: es') with ([e] ++ es') in Hpa. rewrite paired_app in Hpa.
      assert (Hp1 : paired (bool_decide (cur <> None)) [e] <> None).
      { by destruct (paired (bool_decide (cur <> None)) [e]). }
      destruct (handle_progress s s' e cur s2 r Hf Hp1) as (s2' & r' & Hh & Hf'); [|done|].
      { destruct e; try done. cbn [careful] in Hc. destruct cur as [[op []]|]; by try apply Hc. }
      rewrite session_cons. cbn [ti_use]. rewrite Hh. cbn [rmap rbind fst].
      eapply IH; [reflexivity| | |exact Hf'|exact Hr].
      * rewrite (ti_handle_config _ _ _ _ Hh). destruct e; cbn [careful] in Hc; try exact Hc. apply Hc.
      * destruct e, cur as [[]|]; cbn in Hpa, Hp1 |- *; try done.
    + cbn [careful] in Hc. destruct Hc as (Hex & Hrs & Hc). rewrite session_cons. cbn [ti_use rbind].
      eapply IH; [exact Hes|exact Hc|exact Hpa| |exact Hr].
      destruct Hf as [Ha Hpl Hb Hw]. split.
      * destruct Ha as (H1 & H2 & H3 & H4 & H5). unfold agree. cbn. by split_and!.
      * cbn [ti_config ti_update_config]. by rewrite Hex.
      * exact Hb.
      * intros op rec Hcur. cbn [ti_config ti_update_config ti_step_stack ti_traces]. rewrite Hrs by (by rewrite Hcur). by apply Hw.
Qed.

Lemma careful_completes cfg w f us :
  hooks_called us = Some (tx_events w f) -> careful cfg None us ->
  (exclude_precompile_calls cfg = true -> precompiles_are_leaves w f) ->
  exists s s', ti_session (ti_new cfg) us = Ok s /\
    ti_run (ti_new (plain (exclude_precompile_calls cfg))) (tx_events w f) = Ok s' /\
    kept only_calls <$> ti_traces s = kept only_calls <$> ti_traces s'.
Proof.
  intros Hh Hc Hl. destruct (plain_completes w f _ Hl) as (s' & Hs').
  destruct (session_progress us _ None (ti_new (plain (exclude_precompile_calls cfg))) (ti_new cfg) s' Hh Hc) as (s & Hs & Ha).
  - unfold tx_events. cbn [bool_decide decide_rel]. rewrite bool_decide_eq_false_2 by (by intros []). by rewrite paired_frame.
  - split; [by unfold agree|done|done|done].
  - exact Hs'.
  - exists s, s'. split_and!; [done|done|]. by destruct Ha as [-> _].
Qed.
