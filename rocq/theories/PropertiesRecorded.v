(** * PropertiesRecorded: C153, a call is recorded the same at every depth *)

From Verif Require Import SpecRecorded ExecProofs TxFacts TxTraceProofs AloneProofs PropertiesAlone Examples.
Local Open Scope nat_scope.

Section Recorded.
  Context (cfg : TracingInspectorConfig) (w : world) (k dd : nat).

  (** A node moved, with another parent and gas limit. *)
  Definition moved_as (P : option nat -> option nat) (G : N -> N) (n : CallTraceNode) : CallTraceNode :=
    let t := trace_moved dd (nd_trace n) in
    mkNode (P (nd_parent n)) (map (Nat.add k) (nd_children n)) (k + nd_idx n)
      (mkTrace (tr_depth t) (tr_success t) (tr_caller t) (tr_address t) (tr_maybe_precompile t)
         (tr_selfdestruct_refund_target t) (tr_selfdestruct_transferred_value t) (tr_kind t) (tr_value t) (tr_data t) (tr_output t)
         (tr_gas_used t) (G (tr_gas_limit t)) (tr_status t) (tr_steps t) (tr_decoded t)) (nd_logs n) (nd_ordering n).

  Lemma step_of_moved d prev o : step_of cfg w (dd + d) (option_map (step_moved dd) prev) o = step_moved dd (step_of cfg w d prev o).
  Proof.
    assert (En : new_step cfg (option_map (step_moved dd) prev) (op_pre o) (ctx_of w (dd + d) (op_pre_j o)) =
                 step_moved dd (new_step cfg prev (op_pre o) (ctx_of w d (op_pre_j o)))).
    { unfold new_step, step_moved, snapshot_memory. cbn. f_equal. destruct (record_memory_snapshots cfg); [|done]. by destruct prev. }
    unfold step_of. rewrite En. generalize (new_step cfg prev (op_pre o) (ctx_of w d (op_pre_j o))) as st. intros st.
    unfold fill_step. cbn [step_moved st_op st_push_stack st_storage_change].
    destruct (push_snapshot cfg (st_op st) (in_stack (op_post o)) (st_push_stack st)); cbn [rbind]; [|done..].
    change (storage_snapshot cfg (st_op st) (ctx_of w (dd + d) (op_post_j o)) (st_storage_change st))
      with (storage_snapshot cfg (st_op st) (ctx_of w d (op_post_j o)) (st_storage_change st)).
    destruct (storage_snapshot cfg (st_op st) (ctx_of w d (op_post_j o)) (st_storage_change st)); done.
  Qed.

  Section As.
    Context (P : option nat -> option nat) (G : N -> N).
    Notation M := (moved_as P G).
    Lemma hook_moved n h : apply_hook cfg (M n) h = M (apply_hook cfg n h).
    Proof. destruct h as [j l|a b v]; cbn [apply_hook]; [|done]. by destruct (record_logs cfg). Qed.
    Lemma hooks_moved hs : forall n, apply_hooks cfg (M n) hs = M (apply_hooks cfg n hs).
    Proof. unfold apply_hooks. induction hs as [|h hs IH]; intros n; [done|]. cbn [fold_left]. by rewrite hook_moved, IH. Qed.
    Lemma instr_moved d n o : apply_instr cfg w (dd + d) (M n) o = M (apply_instr cfg w d n o).
    Proof.
      unfold apply_instr. destruct (recorded cfg o); [|apply hooks_moved]. rewrite <-hooks_moved. f_equal.
      unfold push_step, moved_as. cbn [nd_trace tr_steps trace_moved tr_set_steps nd_parent nd_children nd_idx nd_logs nd_ordering
        tr_depth tr_success tr_caller tr_address tr_maybe_precompile tr_selfdestruct_refund_target tr_selfdestruct_transferred_value tr_kind
        tr_value tr_data tr_output tr_gas_used tr_gas_limit tr_status tr_decoded].
      rewrite map_app, map_length. cbn [map]. rewrite <-step_of_moved. do 3 f_equal. unfold tr_set_steps.
      cbn [tr_steps tr_depth tr_success tr_caller tr_address tr_maybe_precompile tr_selfdestruct_refund_target
        tr_selfdestruct_transferred_value tr_kind tr_value tr_data tr_output tr_gas_used tr_gas_limit tr_status tr_decoded].
      assert (El : forall l : list CallTraceStep, last (map (step_moved dd) l) = option_map (step_moved dd) (last l)) by (intros l; apply fmap_last).
      by rewrite El.
    Qed.
    Lemma after_moved l : forall d v n next, node_after cfg w (dd + d) v (M n) (k + next) l = M (node_after cfg w d v n next l).
    Proof.
      induction l as [|[o|h|g] r IH]; intros d v n next; cbn [node_after]; [done|..].
      - by rewrite instr_moved, IH.
      - by rewrite hook_moved, IH.
      - rewrite <-IH, Nat.add_assoc. f_equal. destruct (excluded _ _ _ _); [done|]. unfold attach_child, moved_as. cbn.
        by rewrite map_app, map_length.
    Qed.
  End As.
  Lemma moved_as_moved n : moved_as (option_map (Nat.add k)) (fun g => g) n = node_moved k dd n.
  Proof. done. Qed.

  Definition entry_moved (x : entry) : entry :=
    mkEntry (option_map (Nat.add k) (en_par x)) (k + en_pos x) (dd + en_depth x) (en_inherited x) (en_frame x).
  Lemma entries_moved g : forall par pos d inh,
    entries (option_map (Nat.add k) par) (k + pos) (dd + d) inh g = map entry_moved (entries par pos d inh g).
  Proof.
    induction g as [s body e IH] using frame_ind'. intros par pos d inh. rewrite !entries_eq. cbn [map]. f_equal. rewrite <-Nat.add_succ_r.
    generalize (S pos) as next. induction body as [|[o|h|g] r IHr]; intros next; cbn [sub_entries]; [done|by apply IHr..|].
    change (subs (ISub g :: r)) with (g :: subs r) in IH. inversion_clear IH as [|? ? Hg Hr].
    rewrite map_app, <-IHr, <-Hg by done. cbn [option_map]. by rewrite !Nat.add_succ_r, Nat.add_assoc.
  Qed.
  Lemma sub_entries_moved l : forall pos d v next,
    sub_entries (k + pos) (dd + d) v (k + next) l = map entry_moved (sub_entries pos d v next l).
  Proof.
    induction l as [|[o|h|g] r IH]; intros pos d v next; cbn [sub_entries]; [done|apply IH..|].
    rewrite map_app, <-IH, <-entries_moved. cbn [option_map]. by rewrite !Nat.add_succ_r, Nat.add_assoc.
  Qed.
  Lemma node_of_moved x : en_pos x <> 0 -> node_of cfg w (entry_moved x) = node_moved k dd (node_of cfg w x).
  Proof.
    intros Hp. destruct x as [par pos d inh g]. unfold node_of, entry_moved. cbn [en_pos en_depth en_inherited en_frame en_par] in *.
    replace (k + pos =? 0) with false by (symmetry; apply Nat.eqb_neq; lia).
    replace (pos =? 0) with false by (symmetry; by apply Nat.eqb_neq).
    rewrite <-!Nat.add_succ_r.
    change (start_node cfg w (mkEntry (option_map (Nat.add k) par) (k + pos) (dd + d) inh g))
      with (moved_as (option_map (Nat.add k)) (fun g => g) (start_node cfg w (mkEntry par pos d inh g))).
    rewrite after_moved. rewrite <-moved_as_moved. done.
  Qed.
  Lemma root_moved g p u : value_of (f_start g) (Some u) = spec_value (f_start g) -> hidden_call cfg w u (f_start g) = false -> k <> 0 ->
    node_apart (node_of cfg w (mkEntry (Some p) k dd (Some u) g)) = node_apart (node_moved k dd (node_of cfg w (mkEntry None 0 0 None g))).
  Proof.
    intros Hv Hh Hk. unfold node_of. cbn [en_pos en_depth en_inherited en_frame en_par].
    replace (k =? 0) with false by (symmetry; by apply Nat.eqb_neq). cbn [Nat.eqb]. rewrite Hv, value_of_root.
    rewrite <-excluded_hidden in Hh.
    replace (start_node cfg w (mkEntry (Some p) k dd (Some u) g))
      with (moved_as (fun _ => Some p) (fun _ => gas_limit_of (f_start g)) (start_node cfg w (mkEntry None 0 0 None g))).
    2: { unfold start_node, moved_as, start_trace, new_trace_of. cbn [en_pos en_depth en_inherited en_frame en_par nd_parent nd_children nd_idx nd_trace nd_logs
           nd_ordering trace_moved map tr_depth tr_success tr_caller tr_address tr_maybe_precompile tr_selfdestruct_refund_target
           tr_selfdestruct_transferred_value tr_kind tr_value tr_data tr_output tr_gas_used tr_gas_limit tr_status tr_steps tr_decoded].
         rewrite !Nat.add_0_r, Hv, value_of_root. do 2 f_equal. unfold excluded, mp_of in *.
         destruct (f_start g) as [j c|j c]; [|done]. destruct (exclude_precompile_calls cfg); [|done]. cbn [default id] in Hh.
         f_equal. unfold id in Hh. rewrite Hh. by destruct (w_precompiles w _). }
    pose proof (after_moved (fun _ => Some p) (fun _ => gas_limit_of (f_start g)) (f_body g) 1 (spec_value (f_start g))
      (start_node cfg w (mkEntry None 0 0 None g)) 1) as E.
    rewrite !Nat.add_1_r in E. rewrite E. done.
  Qed.
End Recorded.

Lemma sub_entries_within body h : In h (subs body) -> forall pos d v next, pos < next -> exists k pre post, length pre + next = k /\
  sub_entries pos d v next body = pre ++ entries (Some pos) k (S d) (Some v) h ++ post.
Proof.
  intros Hin. induction body as [|[o|x|g] r IH]; intros pos d v next Hp; cbn [sub_entries]; [done|by apply IH..|].
  change (subs (ISub g :: r)) with (g :: subs r) in Hin. destruct Hin as [->|Hin].
  - exists next, []. eexists. split; reflexivity.
  - destruct (IH Hin pos d v (next + frame_size g)) as (k & pre & post & Hk & ->); [lia|].
    exists k, (entries (Some pos) next (S d) (Some v) g ++ pre), post. split; [rewrite app_length, entries_length; lia|]. by rewrite <-app_assoc.
Qed.
Lemma entries_within cfg w v f u g : made cfg w v f u g -> forall par pos d inh, value_of (f_start f) inh = v -> exists k dd p q pre post,
  0 < k /\ 0 < dd /\ length pre = k /\ value_of (f_start g) (Some q) = u /\ hidden_call cfg w q (f_start g) = false /\
  entries par pos d inh f = pre ++ entries (Some p) (k + pos) (dd + d) (Some q) g ++ post.
Proof.
  induction 1 as [v s body e g Hin Hh|v s body e h u g Hin Hh _ IH]; intros par pos d inh Hv; rewrite entries_eq; cbn [f_start] in Hv; rewrite Hv.
  - destruct (sub_entries_within body g Hin pos d v (S pos)) as (k & pre & post & Hk & ->); [lia|].
    exists (S (length pre)), 1, pos, v, (mkEntry par pos d inh (Frame s body e) :: pre), post. split; [lia|]. split; [lia|]. split; [done|].
    split; [apply value_of_call|]. split; [done|]. cbn [app]. do 3 f_equal. cbn [Nat.add]. f_equal. lia.
  - destruct (sub_entries_within body h Hin pos d v (S pos)) as (k & pre & post & Hk & ->); [lia|].
    destruct (IH (Some pos) k (S d) (Some v) (value_of_call _ _)) as (k' & dd & p & q & pre' & post' & H1 & H2 & H3 & H4 & H5 & ->).
    exists (k' + S (length pre)), (S dd), p, q, (mkEntry par pos d inh (Frame s body e) :: pre ++ pre'), (post' ++ post).
    split; [lia|]. split; [lia|]. split; [cbn; rewrite app_length; lia|]. split; [done|]. split; [done|].
    rewrite <-!app_assoc. cbn [app]. rewrite <-!app_assoc. do 4 f_equal. f_equal; lia.
Qed.
Lemma sub_entries_pos l : forall pos d v next, pos < next -> Forall (fun x => en_pos x <> 0) (sub_entries pos d v next l).
Proof.
  assert (G : forall g par pos d inh, 0 < pos -> Forall (fun x => en_pos x <> 0) (entries par pos d inh g)).
  { induction g as [s body e IH] using frame_ind'. intros par pos d inh Hp. rewrite entries_eq. constructor; [cbn; lia|].
    assert (Hn : pos < S pos) by lia. revert Hn. generalize (S pos) as next.
    induction body as [|[o|h|g] r IHr]; intros next Hn; cbn [sub_entries]; [done|by apply IHr..|].
    change (subs (ISub g :: r)) with (g :: subs r) in IH. inversion_clear IH as [|? ? Hg Hr]. apply Forall_app. split; [apply Hg; lia|].
    apply IHr; [done|lia]. }
  induction l as [|[o|h|g] r IH]; intros pos d v next Hp; cbn [sub_entries]; [done|by apply IH..|].
  apply Forall_app. split; [apply G; lia|]. apply IH. lia.
Qed.

(** The call [g] made anywhere in the transaction [f], and [g] as a transaction of its own: the nodes of the second recording
    are a stretch of the first, moved to the place and depth of the call; only the parent and the gas of its first node differ. *)
Theorem C153_recording :
  forall cfg w f g u s s',
  env_ok cfg w f -> made cfg w (spec_value (f_start f)) f u g -> u = spec_value (f_start g) ->
  ti_run (ti_new cfg) (tx_events w f) = Ok s -> ti_run (ti_new cfg) (tx_events w g) = Ok s' ->
  exists k d n n' rest, 0 < k /\ 0 < d /\ ti_traces s' = n' :: rest /\
    take (length (ti_traces s')) (drop k (ti_traces s)) = n :: map (node_moved k d) rest /\
    node_apart n = node_apart (node_moved k d n').
Proof.
  intros cfg w f g u s s' He Hm Hu Hr Hr'.
  assert (He' : env_ok cfg w g).
  { destruct He as [H1 H2]. split; [|by eapply made_every]. intros Hx. specialize (H1 Hx). by eapply made_every in H1; [|exact Hm]. }
  rewrite (tx_traces cfg w f s He Hr), (tx_traces cfg w g s' He' Hr'). unfold layout.
  destruct (entries_within cfg w _ _ _ _ Hm None 0 0 None (value_of_root _)) as (k & d & p & q & pre & post & Hk & Hd & Hl & Hv & Hh & ->).
  rewrite !Nat.add_0_r.
  assert (T : take (length (map (node_of cfg w) (entries None 0 0 None g)))
    (drop k (map (node_of cfg w) (pre ++ entries (Some p) k d (Some q) g ++ post))) = map (node_of cfg w) (entries (Some p) k d (Some q) g)).
  { rewrite map_length, !map_app, entries_length, drop_app_alt by (by rewrite map_length).
    by rewrite take_app_alt by (by rewrite map_length, entries_length). }
  exists k, d. rewrite T. clear T.
  destruct g as [st body e]. rewrite !entries_eq. cbn [map]. cbn [f_start] in Hv, Hu. rewrite Hv, Hu, value_of_root.
  do 3 eexists. split; [done|]. split; [done|]. split; [reflexivity|]. split.
  - f_equal. pose proof (sub_entries_moved k d body 0 0 (spec_value st) 1) as E. rewrite !Nat.add_0_r, Nat.add_1_r in E. rewrite E, !map_map.
    apply map_ext_in. intros x Hx. apply node_of_moved. pose proof (sub_entries_pos body 0 0 (spec_value st) 1 ltac:(lia)) as F.
    rewrite List.Forall_forall in F. by apply F.
  - apply root_moved; cbn [f_start]; [congruence|done|lia].
Qed.
Print Assumptions C153_recording.

Example C153_example : exists s s',
  made ex_cfg ex_world (spec_value (f_start ex_tx)) ex_tx (spec_value (f_start ex_reverted)) ex_reverted /\
  env_ok ex_cfg ex_world ex_tx /\
  ti_run (ti_new ex_cfg) (tx_events ex_world ex_tx) = Ok s /\ ti_run (ti_new ex_cfg) (tx_events ex_world ex_reverted) = Ok s' /\
  length (ti_traces s) = 6 /\ length (ti_traces s') = 2.
Proof.
  do 2 eexists. split; [apply c149_made|]. split; [by apply env_okb_ok|]. split; [vm_compute; reflexivity|].
  split; [vm_compute; reflexivity|]. split; vm_compute; reflexivity.
Qed.
