(** * ExecProofs: running the hooks of an execution tree records exactly its preorder layout *)

From Verif Require Export OrderingProofs SpecRecord.

(** ** Expected nodes *)

Definition value_of (s : fstart) (inherited : option U256) : U256 :=
  match s with
  | SCall _ i =>
      match ci_scheme i with
      | CSDelegateCall => default (ci_call_value i) inherited
      | _ => ci_call_value i
      end
  | SCreate _ i => cr_value i
  end.

Definition from_of (s : fstart) : address :=
  match s with
  | SCall _ i => match ci_scheme i with CSDelegateCall | CSCallCode => ci_target_address i | _ => ci_caller i end
  | SCreate _ i => cr_caller i
  end.

Definition kind_of (s : fstart) : CallKind :=
  match s with SCall _ i => kind_of_scheme (ci_scheme i) | SCreate _ i => kind_of_create (cr_scheme i) end.
Definition input_of (s : fstart) : bytes :=
  match s with SCall _ i => ci_input i | SCreate _ i => cr_init_code i end.
Definition gas_limit_of (s : fstart) : u64 :=
  match s with SCall _ i => ci_gas_limit i | SCreate _ i => cr_gas_limit i end.

Section layout.
Context (cfg : TracingInspectorConfig) (w : world).

(** Value of the [maybe_precompile] field. *)
Definition mp_of (s : fstart) (inherited : option U256) : option bool :=
  match s with
  | SCall _ _ =>
      if exclude_precompile_calls cfg then
        Some (if w_precompiles w (code_address s)
              then (if inherited then true else false) && (value_of s inherited =? 0)%N else false)
      else None
  | SCreate _ _ => Some false
  end.

Definition excluded (s : fstart) (inherited : option U256) : bool := default false (mp_of s inherited).

Definition start_trace (d : nat) (s : fstart) (inherited : option U256) : CallTrace :=
  new_trace_of d (code_address s) (input_of s) (value_of s inherited) (kind_of s) (from_of s)
    (match inherited with None => w_tx_gas_limit w | Some _ => gas_limit_of s end)
    (mp_of s inherited).

Definition apply_hook (n : CallTraceNode) (h : hook) : CallTraceNode :=
  match h with
  | HLog _ l => if record_logs cfg then push_log l n else n
  | HSelfdestruct a b v => mark_selfdestruct a b v n
  end.
Definition apply_hooks (n : CallTraceNode) (hs : list hook) : CallTraceNode := fold_left apply_hook hs n.

(** The completed step of an instruction, given the previously recorded step of the frame. *)
Definition step_of (d : nat) (prev : option CallTraceStep) (o : instr) : CallTraceStep :=
  let st := new_step cfg prev (op_pre o) (ctx_of w d (op_pre_j o)) in
  match fill_step cfg (op_post o) (ctx_of w d (op_post_j o)) st with Ok st' => st' | _ => st end.

Definition recorded (o : instr) : bool := record_steps cfg && should_record_opcode cfg (in_op (op_pre o)).

Definition apply_instr (d : nat) (n : CallTraceNode) (o : instr) : CallTraceNode :=
  if recorded o
  then apply_hooks (push_step (step_of d (last (tr_steps (nd_trace n))) o) n) (op_hooks o)
  else apply_hooks n (op_hooks o).

(** The node after executing [l]; [next] is the arena index the next sub-frame will get. *)
Fixpoint node_after (d : nat) (v : U256) (n : CallTraceNode) (next : nat) (l : list item) : CallTraceNode :=
  match l with
  | [] => n
  | IOp o :: r => node_after d v (apply_instr d n o) next r
  | IHook h :: r => node_after d v (apply_hook n h) next r
  | ISub g :: r =>
      node_after d v (if excluded (f_start g) (Some v) then n else attach_child next n)
        (next + frame_size g) r
  end.

(** An execution entry: parent position, own position, depth, value of the parent, frame. *)
Record entry := mkEntry { en_par : option nat; en_pos : nat; en_depth : nat;
                          en_inherited : option U256; en_frame : frame }.

Fixpoint entries (par : option nat) (pos d : nat) (inh : option U256) (f : frame) : list entry :=
  match f with
  | Frame s body e =>
      mkEntry par pos d inh f
        :: (fix go (next : nat) (l : list item) : list entry :=
              match l with
              | [] => []
              | ISub g :: r =>
                  entries (Some pos) next (S d) (Some (value_of s inh)) g ++ go (next + frame_size g) r
              | _ :: r => go next r
              end) (S pos) body
  end.

Fixpoint sub_entries (pos d : nat) (v : U256) (next : nat) (l : list item) : list entry :=
  match l with
  | [] => []
  | ISub g :: r =>
      entries (Some pos) next (S d) (Some v) g ++ sub_entries pos d v (next + frame_size g) r
  | _ :: r => sub_entries pos d v next r
  end.

Lemma entries_eq par pos d inh s body e :
  entries par pos d inh (Frame s body e) =
  mkEntry par pos d inh (Frame s body e) :: sub_entries pos d (value_of s inh) (S pos) body.
Proof.
  cbn [entries]. f_equal. generalize (S pos). induction body as [|[o|h|g] r IH]; intros next; cbn; [done|..].
  - apply IH.
  - apply IH.
  - by rewrite IH.
Qed.

Fixpoint subs_size (l : list item) : nat :=
  match l with
  | [] => 0
  | ISub g :: r => frame_size g + subs_size r
  | _ :: r => subs_size r
  end.

Lemma frame_size_eq s body e : frame_size (Frame s body e) = S (subs_size body).
Proof.
  cbn [frame_size]. f_equal; try done.
Qed.

Lemma entries_length f : forall par pos d inh, length (entries par pos d inh f) = frame_size f.
Proof.
  induction f as [s body e IH] using frame_ind'. intros par pos d inh.
  rewrite entries_eq, frame_size_eq. cbn [length]. f_equal. generalize (S pos) as next.
  revert IH. induction body as [|[o|h|g] r IHr]; intros IH next; cbn; [done|..].
  - by apply IHr.
  - by apply IHr.
  - cbn [subs flat_map app] in IH. inversion_clear IH as [|? ? Hg Hr].
    rewrite app_length, Hg, IHr; done.
Qed.

Lemma sub_entries_length l : forall pos d v next, length (sub_entries pos d v next l) = subs_size l.
Proof.
  induction l as [|[o|h|g] r IH]; intros pos d v next; cbn; [done|apply IH|apply IH|].
  by rewrite app_length, entries_length, IH.
Qed.

Definition start_node (x : entry) : CallTraceNode :=
  mkNode (en_par x) [] (en_pos x) (start_trace (en_depth x) (f_start (en_frame x)) (en_inherited x)) [] [].

(** created address: only [create_end] passes one *)
Definition end_address (s : fstart) (e : fend) : option address :=
  match s with SCall _ _ => None | SCreate _ _ => fe_address e end.

Definition finish (root : bool) (s : fstart) (e : fend) (n : CallTraceNode) : CallTraceNode :=
  nd_set_trace n (fill_trace root (w_spec w) (fe_result e) (end_address s e) (nd_trace n)).

(** The node expected for an entry. *)
Definition node_of (x : entry) : CallTraceNode :=
  let f := en_frame x in
  finish (en_pos x =? 0) (f_start f) (f_end f)
    (node_after (S (en_depth x)) (value_of (f_start f) (en_inherited x)) (start_node x) (S (en_pos x))
       (f_body f)).

(** The arena expected after a whole transaction. *)
Definition layout (f : frame) : list CallTraceNode := map node_of (entries None 0 0 None f).

Lemma fill_step_ok d prev o :
  recorded o = true -> snapshot_safe cfg o ->
  exists st', fill_step cfg (op_post o) (ctx_of w d (op_post_j o))
                (new_step cfg prev (op_pre o) (ctx_of w d (op_pre_j o))) = Ok st'.
Proof.
  intros Hr Ho. unfold recorded in Hr. apply andb_true_iff in Hr as [Hr1 Hr2]. destruct (Ho Hr1 Hr2) as [H1 H2]. unfold fill_step, push_snapshot, storage_snapshot.
  cbn [st_op new_step]. destruct (snap_is_pushes _).
  - specialize (H1 eq_refl). apply Nat.leb_le in H1. rewrite H1. cbn [rbind].
    destruct (record_state_diff cfg); cbn [rbind]; [|by eauto].
    destruct (H2 eq_refl) as (jn & Hj & Hp). cbn [cx_journal ctx_of]. rewrite Hj. cbn [expect rbind].
    destruct (last jn) as [[a k h|]|] eqn:El; cbn [rbind]; [|by eauto..].
    destruct ((in_op (op_pre o) =? OP_SLOAD)%N || (in_op (op_pre o) =? OP_SSTORE)%N) eqn:Hop; cbn [rbind]; [|by eauto]. cbn [cx_present ctx_of].
    apply orb_true_iff in Hop. rewrite !N.eqb_eq in Hop. specialize (Hp a k h Hop eq_refl). destruct (j_present _ a k); [cbn; eauto|done].
  - cbn [rbind]. destruct (record_state_diff cfg); cbn [rbind]; [|by eauto].
    destruct (H2 eq_refl) as (jn & Hj & Hp). cbn [cx_journal ctx_of]. rewrite Hj. cbn [expect rbind].
    destruct (last jn) as [[a k h|]|] eqn:El; cbn [rbind]; [|by eauto..].
    destruct ((in_op (op_pre o) =? OP_SLOAD)%N || (in_op (op_pre o) =? OP_SSTORE)%N) eqn:Hop; cbn [rbind]; [|by eauto]. cbn [cx_present ctx_of].
    apply orb_true_iff in Hop. rewrite !N.eqb_eq in Hop. specialize (Hp a k h Hop eq_refl). destruct (j_present _ a k); [cbn; eauto|done].
Qed.

(** ** Running hooks *)

Definition with_traces (s : TracingInspector) (ns : list CallTraceNode) : TracingInspector :=
  mkTI (ti_config s) ns (ti_trace_stack s) (ti_step_stack s) (ti_last_call_return_data s) (ti_spec_id s).

Lemma run_app {S} (h : inspector S) s es1 es2 :
  run h s (es1 ++ es2) = let! s' := run h s es1 in run h s' es2.
Proof. apply rfold_app. Qed.

Lemma update_lookup {A} (l : list A) i a f : l !! i = Some a -> update l i f = Ok (<[i := f a]> l).
Proof. intros H. unfold update. by rewrite H. Qed.
Lemma index_lookup {A} (l : list A) i a : l !! i = Some a -> index l i = Ok a.
Proof. intros H. unfold index. by rewrite H. Qed.

Lemma run_hook s b rest n d h :
  ti_config s = cfg -> ti_trace_stack s = b :: rest -> ti_traces s !! b = Some n ->
  ti_run s [hook_event w d h] = Ok (with_traces s (<[b := apply_hook n h]> (ti_traces s))).
Proof.
  intros Hc Hs Hn. unfold ti_run. rewrite run_cons. destruct s as [c ns ts ss lr sp].
  cbn in Hc, Hs, Hn. subst c ts. destruct h as [j l|a b' v]; cbn [hook_event ti_handle apply_hook].
  - cbn [ti_config]. destruct (record_logs cfg).
    + unfold on_last_trace, ti_last_trace_idx. cbn [ti_trace_stack head expect rbind ti_traces].
      rewrite (update_lookup _ _ _ _ Hn). done.
    + cbn [rbind]. unfold run. cbn. unfold with_traces. cbn. by rewrite list_insert_id.
  - unfold on_last_trace, ti_last_trace_idx. cbn [ti_trace_stack head expect rbind ti_traces].
    rewrite (update_lookup _ _ _ _ Hn). done.
Qed.

Lemma run_hooks hs : forall s b rest n d,
  ti_config s = cfg -> ti_trace_stack s = b :: rest -> ti_traces s !! b = Some n ->
  ti_run s (map (hook_event w d) hs) = Ok (with_traces s (<[b := apply_hooks n hs]> (ti_traces s))).
Proof.
  induction hs as [|h hs IH]; intros s b rest n d Hc Hs Hn; cbn [map apply_hooks fold_left].
  - unfold ti_run, run. cbn. rewrite list_insert_id by done. by destruct s.
  - change (hook_event w d h :: map (hook_event w d) hs)
      with ([hook_event w d h] ++ map (hook_event w d) hs).
    unfold ti_run. rewrite run_app. fold (ti_run s [hook_event w d h]).
    rewrite (run_hook _ _ _ _ _ _ Hc Hs Hn). cbn [rbind].
    fold (ti_run (with_traces s (<[b:=apply_hook n h]> (ti_traces s))) (map (hook_event w d) hs)).
    rewrite (IH _ b rest (apply_hook n h)).
    + unfold with_traces. cbn [ti_traces ti_config ti_trace_stack ti_step_stack ti_last_call_return_data ti_spec_id].
      by rewrite list_insert_insert.
    + done.
    + done.
    + cbn. by apply list_lookup_insert; eapply lookup_lt_Some.
Qed.

Lemma apply_hook_steps n h : tr_steps (nd_trace (apply_hook n h)) = tr_steps (nd_trace n).
Proof. destruct h; cbn; [by destruct (record_logs cfg)|done]. Qed.
Lemma apply_hooks_steps hs : forall n, tr_steps (nd_trace (apply_hooks n hs)) = tr_steps (nd_trace n).
Proof.
  induction hs as [|h hs IH]; intros n; cbn; [done|]. unfold apply_hooks in IH. rewrite IH.
  apply apply_hook_steps.
Qed.

(** [set_step] on the last step commutes with hooks. *)
Lemma set_last_step_hooks k st hs : forall n,
  set_step k st (apply_hooks n hs) = apply_hooks (set_step k st n) hs.
Proof.
  induction hs as [|h hs IH]; intros n; cbn; [done|]. unfold apply_hooks in IH. rewrite IH. f_equal.
  destruct h; cbn; [by destruct (record_logs cfg)|done].
Qed.

Lemma set_push_step st st' n :
  set_step (length (tr_steps (nd_trace n))) st' (push_step st n) = push_step st' n.
Proof.
  unfold set_step, push_step, nd_set_trace. cbn [nd_trace nd_parent nd_children nd_idx nd_logs nd_ordering tr_steps tr_set_steps].
  f_equal. unfold tr_set_steps. cbn. f_equal.
  rewrite <-(Nat.add_0_r (length (tr_steps (nd_trace n)))). by rewrite insert_app_r.
Qed.

Lemma run_instr s b rest n d o :
  ti_config s = cfg -> ti_trace_stack s = b :: rest -> ti_traces s !! b = Some n -> snapshot_safe cfg o ->
  ti_run s (instr_events w d o) = Ok (with_traces s (<[b := apply_instr d n o]> (ti_traces s))).
Proof.
  intros Hc Hs Hn Hok. unfold instr_events, ti_run. rewrite run_cons.
  unfold apply_instr. destruct (recorded o) eqn:Hr.
  - destruct (fill_step_ok d (last (tr_steps (nd_trace n))) o Hr Hok) as (st' & Hst').
    set (st := new_step cfg (last (tr_steps (nd_trace n))) (op_pre o) (ctx_of w d (op_pre_j o))) in *.
    assert (Hso : step_of d (last (tr_steps (nd_trace n))) o = st') by (unfold step_of; fold st; by rewrite Hst').
    rewrite Hso. unfold recorded in Hr. apply andb_true_iff in Hr as [Hr1 Hr2].
    destruct s as [c ns ts ss lr sp]. cbn in Hc, Hs, Hn. subst c ts.
    cbn [ti_handle ti_config]. rewrite Hr1. unfold start_step, ti_last_trace_idx.
    cbn [ti_trace_stack head expect rbind ti_traces ti_config ti_step_stack ti_last_call_return_data ti_spec_id].
    rewrite (index_lookup _ _ _ Hn). cbn [rbind]. rewrite Hr2. cbn [negb]. fold st.
    rewrite (update_lookup _ _ _ _ Hn). cbn [rbind fst]. rewrite run_app.
    match goal with |- context [run ti_handle ?s0 _] => set (s1 := s0) end.
    fold (ti_run s1 (map (hook_event w d) (op_hooks o))).
    assert (Hb : b < length ns) by (by eapply lookup_lt_Some).
    rewrite (run_hooks (op_hooks o) s1 b rest (push_step st n)); [|done|done|cbn; by apply list_lookup_insert].
    cbn [rbind]. rewrite run_cons. unfold with_traces, s1.
    cbn [ti_handle ti_traces ti_config ti_trace_stack ti_step_stack ti_last_call_return_data ti_spec_id].
    rewrite Hr1. unfold fill_step_on_step_end.
    cbn [ti_handle ti_traces ti_config ti_trace_stack ti_step_stack ti_last_call_return_data ti_spec_id negb].
    rewrite list_insert_insert.
    rewrite (index_lookup _ b (apply_hooks (push_step st n) (op_hooks o))) by (by apply list_lookup_insert).
    cbn [rbind]. rewrite apply_hooks_steps. cbn [push_step nd_trace tr_set_steps tr_steps].
    rewrite (index_lookup _ _ st) by (by apply list_lookup_middle).
    cbn [rbind]. rewrite Hst'. cbn [rbind].
    rewrite (update_lookup _ b (apply_hooks (push_step st n) (op_hooks o))) by (by apply list_lookup_insert).
    cbn [rbind fst]. unfold run. cbn [rfold]. rewrite list_insert_insert.
    rewrite set_last_step_hooks, set_push_step. done.
  - unfold recorded in Hr. destruct s as [c ns ts ss lr sp]. cbn in Hc, Hs, Hn. subst c ts.
    cbn [ti_handle ti_config]. destruct (record_steps cfg) eqn:Hr1.
    + cbn [andb] in Hr. unfold start_step, ti_last_trace_idx.
      cbn [ti_trace_stack head expect rbind ti_traces ti_config ti_step_stack ti_last_call_return_data ti_spec_id].
      rewrite (index_lookup _ _ _ Hn). cbn [rbind]. rewrite Hr. cbn [negb rbind fst]. rewrite run_app.
      match goal with |- context [run ti_handle ?s0 _] => set (s1 := s0) end.
      fold (ti_run s1 (map (hook_event w d) (op_hooks o))).
      rewrite (run_hooks (op_hooks o) s1 b rest n); [|done..].
      cbn [rbind]. rewrite run_cons. unfold with_traces, s1.
      cbn [ti_handle ti_traces ti_config ti_trace_stack ti_step_stack ti_last_call_return_data ti_spec_id].
      rewrite Hr1. done.
    + cbn [rbind fst]. rewrite run_app.
      match goal with |- context [run ti_handle ?s0 _] => set (s1 := s0) end.
      fold (ti_run s1 (map (hook_event w d) (op_hooks o))).
      rewrite (run_hooks (op_hooks o) s1 b rest n); [|done..].
      cbn [rbind]. rewrite run_cons. unfold with_traces, s1.
      cbn [ti_handle ti_traces ti_config ti_trace_stack ti_step_stack ti_last_call_return_data ti_spec_id].
      rewrite Hr1. done.
Qed.

(** ** The active path *)

(** [b] is reached from [e] by following last children, with depths increasing by one. *)
Inductive spine (ns : list CallTraceNode) : nat -> nat -> Prop :=
  | spine_refl b n : ns !! b = Some n -> spine ns b b
  | spine_step e en c cn b :
      ns !! e = Some en -> last (nd_children en) = Some c -> e < c -> ns !! c = Some cn ->
      tr_depth (nd_trace cn) = S (tr_depth (nd_trace en)) -> spine ns c b -> spine ns e b.

Lemma spine_le ns e b : spine ns e b -> e <= b.
Proof. induction 1; lia. Qed.

Lemma spine_agree ns ns' e b n n' :
  spine ns e b -> (forall i, i < b -> ns' !! i = ns !! i) ->
  ns !! b = Some n -> ns' !! b = Some n' -> tr_depth (nd_trace n') = tr_depth (nd_trace n) ->
  spine ns' e b.
Proof.
  induction 1 as [b nb Hb|e en c cn b He Hl Hlt Hc Hd Hsp IH]; intros Hag Hn Hn' Hdn.
  - by eapply spine_refl.
  - pose proof (spine_le _ _ _ Hsp). specialize (IH Hag Hn Hn' Hdn).
    assert (He' : ns' !! e = Some en) by (rewrite Hag by lia; done).
    destruct (decide (c = b)) as [->|].
    + rewrite Hn in Hc. injection Hc as ->.
      eapply (spine_step _ e en b n'); [done|done|done|done|congruence|done].
    + eapply spine_step; [done|done|done| |done|done]. rewrite Hag by lia. done.
Qed.

Lemma spine_depth ns e b en bn :
  spine ns e b -> ns !! e = Some en -> ns !! b = Some bn ->
  tr_depth (nd_trace en) <= tr_depth (nd_trace bn) /\
  (tr_depth (nd_trace en) = tr_depth (nd_trace bn) -> e = b).
Proof.
  intros Hs. revert en. induction Hs as [b nb Hb|e en0 c cn b He Hl Hlt Hc Hd Hsp IH]; intros en He' Hb'.
  - rewrite He' in Hb'. injection Hb' as ->. done.
  - rewrite He in He'. injection He' as ->. destruct (IH cn Hc Hb') as [H1 H2]. split; [lia|]. intros. lia.
Qed.

Lemma push_trace_spine ns kind t b bn : forall e fuel,
  spine ns e b -> ns !! b = Some bn -> tr_depth t = S (tr_depth (nd_trace bn)) -> b < fuel + e ->
  push_trace_loop fuel ns e kind t =
  Ok (match kind with
      | PushOnly => ns ++ [mkNode (Some b) [] (length ns) t [] []]
      | PushAndAttachToParent =>
          <[b := attach_child (length ns) bn]> ns ++ [mkNode (Some b) [] (length ns) t [] []]
      end, length ns).
Proof.
  intros e fuel Hs Hb Ht. revert fuel.
  induction Hs as [b nb Hb0|e en c cn b He Hl Hlt Hc Hd Hsp IH]; intros fuel Hf.
  - destruct fuel as [|fuel]; [lia|]. cbn [push_trace_loop]. rewrite Ht.
    rewrite (index_lookup _ _ _ Hb). cbn [rbind]. rewrite Nat.eqb_refl. destruct kind; cbn [is_attach_to_parent rbind].
    + done.
    + rewrite (update_lookup _ b bn) by (by apply lookup_app_l_Some). cbn [rbind].
      by rewrite insert_app_l by (by eapply lookup_lt_Some).
  - pose proof (spine_le _ _ _ Hsp).
    destruct fuel as [|fuel]; [lia|]. cbn [push_trace_loop]. rewrite Ht.
    rewrite (index_lookup _ _ _ He). cbn [rbind].
    destruct (spine_depth _ _ _ cn bn Hsp Hc Hb) as [Hle _].
    assert (Hne : (tr_depth (nd_trace en) =? tr_depth (nd_trace bn)) = false) by (apply Nat.eqb_neq; lia).
    rewrite Hne, Hl. cbn [expect rbind]. apply IH; first [done|lia].
Qed.

Lemma spine_snoc ns e b bn c cn :
  spine ns e b -> ns !! b = Some bn -> last (nd_children bn) = Some c -> b < c -> ns !! c = Some cn ->
  tr_depth (nd_trace cn) = S (tr_depth (nd_trace bn)) -> spine ns e c.
Proof.
  induction 1 as [b nb Hb0|e en c0 cn0 b He Hl Hlt Hc Hd Hsp IH]; intros Hb Hlb Hlt' Hc' Hd'.
  - eapply spine_step; [done..|]. by eapply spine_refl.
  - eapply spine_step; [done..|]. by apply IH.
Qed.

(** ** Frames *)

Definition frame_ok (f : frame) : Prop :=
  every_frame (fun g => Forall (snapshot_safe cfg) (instrs (f_body g))) f.
Definition leaves_ok (f : frame) : Prop :=
  exclude_precompile_calls cfg = true -> precompiles_are_leaves w f.

Lemma excluded_spec s inh :
  excluded s inh = true ->
  exclude_precompile_calls cfg = true /\ is_call s = true /\ w_precompiles w (code_address s) = true.
Proof.
  unfold excluded, mp_of. destruct s as [j i|j i]; cbn [is_call default]; [|done].
  destruct (exclude_precompile_calls cfg); cbn; [|done].
  by destruct (w_precompiles w _).
Qed.

Lemma attach_child_trace id n : nd_trace (attach_child id n) = nd_trace n.
Proof. done. Qed.

Lemma apply_hook_value n h : tr_value (nd_trace (apply_hook n h)) = tr_value (nd_trace n).
Proof. destruct h; cbn; [by destruct (record_logs cfg)|done]. Qed.
Lemma apply_hook_depth n h : tr_depth (nd_trace (apply_hook n h)) = tr_depth (nd_trace n).
Proof. destruct h; cbn; [by destruct (record_logs cfg)|done]. Qed.
Lemma apply_hooks_value hs : forall n, tr_value (nd_trace (apply_hooks n hs)) = tr_value (nd_trace n).
Proof. induction hs as [|h hs IH]; intros n; cbn; [done|]. unfold apply_hooks in IH. by rewrite IH, apply_hook_value. Qed.
Lemma apply_hooks_depth hs : forall n, tr_depth (nd_trace (apply_hooks n hs)) = tr_depth (nd_trace n).
Proof. induction hs as [|h hs IH]; intros n; cbn; [done|]. unfold apply_hooks in IH. by rewrite IH, apply_hook_depth. Qed.
Lemma apply_instr_value d n o : tr_value (nd_trace (apply_instr d n o)) = tr_value (nd_trace n).
Proof. unfold apply_instr. destruct (recorded o); by rewrite apply_hooks_value. Qed.
Lemma apply_instr_depth d n o : tr_depth (nd_trace (apply_instr d n o)) = tr_depth (nd_trace n).
Proof. unfold apply_instr. destruct (recorded o); by rewrite apply_hooks_depth. Qed.

(** What one sub-frame does to the inspector. *)
Definition frame_runs (f : frame) : Prop :=
  forall s p rest pn d,
    ti_config s = cfg -> ti_trace_stack s = p :: rest -> ti_traces s !! p = Some pn ->
    tr_depth (nd_trace pn) = d -> spine (ti_traces s) 0 p ->
    leaves_ok f -> frame_ok f ->
    let v := tr_value (nd_trace pn) in
    let id := length (ti_traces s) in
    exists lr,
      ti_run s (frame_events w (S d) f) =
      Ok (mkTI cfg
            (<[p := if excluded (f_start f) (Some v) then pn else attach_child id pn]> (ti_traces s)
               ++ map node_of (entries (Some p) id (S d) (Some v) f))
            (p :: rest) (ti_step_stack s) lr (ti_spec_id s)).

Definition body_events (d : nat) (l : list item) : list event :=
  flat_map (fun it =>
     match it with
     | IOp o => instr_events w (S d) o
     | IHook h => [hook_event w (S d) h]
     | ISub g => frame_events w (S d) g
     end) l.

Lemma run_body l : forall s b rest n d,
  Forall frame_runs (subs l) ->
  ti_config s = cfg -> ti_trace_stack s = b :: rest -> ti_traces s !! b = Some n ->
  tr_depth (nd_trace n) = d ->
  (subs l <> [] -> spine (ti_traces s) 0 b) ->
  Forall leaves_ok (subs l) -> Forall frame_ok (subs l) -> Forall (snapshot_safe cfg) (instrs l) ->
  let v := tr_value (nd_trace n) in
  exists lr,
    ti_run s (body_events d l) =
    Ok (mkTI cfg
          (<[b := node_after (S d) v n (length (ti_traces s)) l]> (ti_traces s)
             ++ map node_of (sub_entries b d v (length (ti_traces s)) l))
          (b :: rest) (ti_step_stack s) lr (ti_spec_id s)).
Proof.
  induction l as [|it l IH]; intros s b rest n d Hruns Hc Hst Hn Hd Hsp Hlv Hfo Hio v.
  - exists (ti_last_call_return_data s). cbn. unfold ti_run, run. cbn [rfold].
    rewrite app_nil_r, list_insert_id by done. destruct s; cbn in *; by subst.
  - assert (Hb : b < length (ti_traces s)) by (by eapply lookup_lt_Some).
    cbn [body_events flat_map]. fold (body_events d l). unfold ti_run. rewrite run_app.
    destruct it as [o|h|g].
    + cbn [instrs flat_map app] in Hio. inversion_clear Hio as [|? ? Ho Hio'].
      fold (ti_run s (instr_events w (S d) o)).
      rewrite (run_instr s b rest n (S d) o Hc Hst Hn Ho). cbn [rbind].
      set (s1 := with_traces s (<[b:=apply_instr (S d) n o]> (ti_traces s))).
      destruct (IH s1 b rest (apply_instr (S d) n o) d) as (lr & Hrun); try done.
      * cbn. by apply list_lookup_insert.
      * by rewrite apply_instr_depth.
      * cbn. intros Hsub. eapply spine_agree; [by apply Hsp| |done|by apply list_lookup_insert|by rewrite apply_instr_depth].
        intros i Hi. rewrite list_lookup_insert_ne by lia. done.
      * exists lr. fold (ti_run s1 (body_events d l)). rewrite Hrun. unfold s1.
        cbn [with_traces ti_traces ti_step_stack ti_spec_id node_after sub_entries].
        rewrite insert_length, list_insert_insert, apply_instr_value. done.
    + fold (ti_run s [hook_event w (S d) h]).
      rewrite (run_hook s b rest n (S d) h Hc Hst Hn). cbn [rbind].
      set (s1 := with_traces s (<[b:=apply_hook n h]> (ti_traces s))).
      destruct (IH s1 b rest (apply_hook n h) d) as (lr & Hrun); try done.
      * cbn. by apply list_lookup_insert.
      * by rewrite apply_hook_depth.
      * cbn. intros Hsub. eapply spine_agree; [by apply Hsp| |done|by apply list_lookup_insert|by rewrite apply_hook_depth].
        intros i Hi. rewrite list_lookup_insert_ne by lia. done.
      * exists lr. fold (ti_run s1 (body_events d l)). rewrite Hrun. unfold s1.
        cbn [with_traces ti_traces ti_step_stack ti_spec_id node_after sub_entries].
        rewrite insert_length, list_insert_insert, apply_hook_value. done.
    + cbn [subs flat_map app] in Hruns, Hlv, Hfo, Hsp. fold (subs l) in Hruns, Hlv, Hfo, Hsp.
      inversion_clear Hruns as [|? ? Hg Hruns']. inversion_clear Hlv as [|? ? Hlg Hlv'].
      inversion_clear Hfo as [|? ? Hfg Hfo'].
      assert (Hspine : spine (ti_traces s) 0 b) by (by apply Hsp).
      destruct (Hg s b rest n d Hc Hst Hn Hd Hspine Hlg Hfg) as (lr0 & Hrun0).
      fold v in Hrun0. fold (ti_run s (frame_events w (S d) g)). rewrite Hrun0. cbn [rbind].
      set (n1 := if excluded (f_start g) (Some v) then n else attach_child (length (ti_traces s)) n) in *.
      assert (Hn1 : nd_trace n1 = nd_trace n) by (unfold n1; by destruct (excluded _ _)).
      match goal with |- context [run ti_handle ?s0 _] => set (s1 := s0) end.
      assert (Hn1' : ti_traces s1 !! b = Some n1).
      { cbn. apply lookup_app_l_Some. by apply list_lookup_insert. }
      destruct (IH s1 b rest n1 d) as (lr & Hrun); try done.
      * by rewrite Hn1.
      * intros _. eapply spine_agree; [exact Hspine| |exact Hn|exact Hn1'|by rewrite Hn1].
        intros i Hi. cbn. rewrite lookup_app_l by (rewrite insert_length; lia).
        rewrite list_lookup_insert_ne by lia. done.
      * exists lr. fold (ti_run s1 (body_events d l)). rewrite Hrun. rewrite Hn1. fold v.
        unfold s1. cbn [ti_traces ti_step_stack ti_spec_id node_after sub_entries].
        rewrite app_length, insert_length, map_length, entries_length.
        fold n1. rewrite insert_app_l by (by rewrite insert_length).
        rewrite list_insert_insert, map_app, app_assoc. done.
Qed.

Lemma every_frame_inv P s body e :
  every_frame P (Frame s body e) -> P (Frame s body e) /\ Forall (every_frame P) (subs body).
Proof. intros H. by inversion_clear H. Qed.

Lemma leaves_inv s body e : leaves_ok (Frame s body e) -> Forall leaves_ok (subs body).
Proof.
  intros H. apply Forall_forall. intros g Hg He. specialize (H He).
  apply every_frame_inv in H as [_ H]. rewrite Forall_forall in H. by apply H.
Qed.

Lemma push_ret {A} (P : res A) (f : A -> TracingInspector) (r : response) :
  (let! sr := (let! s' := (let! p := P in Ok (f p)) in Ok (s', r)) in run ti_handle (fst sr) []) =
  let! p := P in Ok (f p).
Proof. by destruct P. Qed.

Lemma start_event_run s d fs inh pn :
  ti_config s = cfg ->
  match inh with
  | None => ti_trace_stack s = []
  | Some v => exists p rest, ti_trace_stack s = p :: rest /\ ti_traces s !! p = Some pn /\ tr_value (nd_trace pn) = v
  end ->
  run ti_handle s [start_event w d fs] =
  let! pushed := push_trace (ti_traces s) 0 (if excluded fs inh then PushOnly else PushAndAttachToParent)
                   (start_trace d fs inh) in
  Ok (mkTI cfg (fst pushed) (snd pushed :: ti_trace_stack s) (ti_step_stack s) (ti_last_call_return_data s)
        (match inh with None => Some (w_spec w) | Some _ => ti_spec_id s end)).
Proof.
  intros Hc Hinh. rewrite run_cons. destruct s as [c ns ts ss lr sp]. cbn in Hc. subst c.
  destruct fs as [j i|j i]; cbn [start_event ti_handle].
  - unfold ti_call, call_from_to. unfold start_trace, excluded.
    destruct inh as [v|].
    + destruct Hinh as (p & rest & Hts & Hp & Hv). cbn in Hts, Hp. subst ts.
      unfold ti_active_trace. cbn [ti_trace_stack ti_traces ti_config].
      rewrite (index_lookup _ _ _ Hp). cbn [rbind].
      unfold start_trace_on_call, ti_is_precompile_call, ti_is_deep, mp_of, value_of, code_address, kind_of, input_of, from_of, gas_limit_of.
      cbn [ti_trace_stack ti_traces ti_step_stack ti_last_call_return_data ti_spec_id ti_config cx_depth ctx_of cx_precompiles].
      destruct (ci_scheme i); cbn [rbind]; rewrite ?Hv; cbn [default];
        destruct (exclude_precompile_calls cfg); cbn [default];
        apply push_ret.
    + cbn in Hinh. subst ts. unfold ti_active_trace. cbn [ti_trace_stack ti_traces ti_config rbind].
      unfold start_trace_on_call, ti_is_precompile_call, ti_is_deep, mp_of, value_of, code_address, kind_of, input_of, from_of, gas_limit_of.
      cbn [ti_trace_stack ti_traces ti_step_stack ti_last_call_return_data ti_spec_id ti_config cx_depth ctx_of cx_precompiles cx_tx_gas_limit cx_spec].
      destruct (ci_scheme i); cbn [rbind default];
        destruct (exclude_precompile_calls cfg); cbn [default];
        apply push_ret.
  - unfold ti_create, start_trace_on_call, start_trace, excluded, mp_of, value_of, code_address, kind_of, input_of, from_of, gas_limit_of.
    cbn [ti_trace_stack ti_traces ti_step_stack ti_last_call_return_data ti_spec_id ti_config cx_depth ctx_of cx_precompiles cx_tx_gas_limit cx_spec default].
    destruct inh as [v|].
    + destruct Hinh as (p & rest & Hts & Hp & Hv). cbn in Hts. subst ts.
      apply push_ret.
    + cbn in Hinh. subst ts.
      apply push_ret.
Qed.

Lemma end_event_run s d fs fe b rest n :
  ti_config s = cfg -> ti_trace_stack s = b :: rest -> ti_traces s !! b = Some n ->
  run ti_handle s [end_event w d fs fe] =
  Ok (mkTI cfg (<[b := finish (b =? 0) fs fe n]> (ti_traces s)) rest (ti_step_stack s)
        (Some (ir_output (fe_result fe))) (ti_spec_id s)).
Proof.
  intros Hc Hst Hn. rewrite run_cons. destruct s as [c ns ts ss lr sp]. cbn in Hc, Hst, Hn. subst c ts.
  destruct fs as [j i|j i]; cbn [end_event ti_handle]; unfold fill_trace_on_call_end;
    cbn [ti_trace_stack ti_traces co_result cro_result cro_address];
    rewrite (update_lookup _ _ _ _ Hn); done.
Qed.

Lemma frame_events_eq d s body e :
  frame_events w d (Frame s body e) = [start_event w d s] ++ body_events d body ++ [end_event w d s e].
Proof. done. Qed.

Lemma all_frames_run f : frame_runs f.
Proof.
  induction f as [s0 body e IH] using frame_ind'.
  intros s p rest pn d Hc Hst Hpn Hd Hsp Hlv Hfo v id.
  rewrite frame_events_eq. unfold ti_run. rewrite !run_app.
  rewrite (start_event_run s (S d) s0 (Some v) pn Hc) by eauto.
  assert (Hp : p < length (ti_traces s)) by (by eapply lookup_lt_Some).
  assert (H0 : p < S (length (ti_traces s)) + 0) by lia.
  pose proof (every_frame_inv _ _ _ _ Hfo) as [Hio Hfo']. cbn [f_body] in Hio.
  pose proof (leaves_inv _ _ _ Hlv) as Hlv'.
  unfold push_trace. rewrite (push_trace_spine _ _ (start_trace (S d) s0 (Some v)) p pn 0 _ Hsp Hpn) by (cbn; lia).
  cbn [rbind fst snd].
  set (n0 := mkNode (Some p) [] (length (ti_traces s)) (start_trace (S d) s0 (Some v)) [] []).
  set (pn1 := if excluded s0 (Some v) then pn else attach_child id pn).
  assert (Harena : (match (if excluded s0 (Some v) then PushOnly else PushAndAttachToParent) with
      | PushOnly => ti_traces s ++ [n0]
      | PushAndAttachToParent => <[p:=attach_child (length (ti_traces s)) pn]> (ti_traces s) ++ [n0]
      end) = <[p := pn1]> (ti_traces s) ++ [n0]).
  { unfold pn1. destruct (excluded s0 (Some v)); [|done]. by rewrite list_insert_id. }
  rewrite Harena. clear Harena.
  rewrite run_app.
  match goal with |- context [run ti_handle ?s' (body_events _ _)] => set (s1 := s') end.
  assert (Hl1 : length (ti_traces s1) = S id) by (cbn; rewrite app_length, insert_length; cbn; unfold id; lia).
  assert (Hn0 : ti_traces s1 !! id = Some n0).
  { cbn. rewrite lookup_app_r by (rewrite insert_length; unfold id; lia).
    rewrite insert_length. unfold id. by rewrite Nat.sub_diag. }
  assert (Hpn1 : ti_traces s1 !! p = Some pn1).
  { cbn. apply lookup_app_l_Some. by apply list_lookup_insert. }
  assert (Hpn1t : nd_trace pn1 = nd_trace pn) by (unfold pn1; by destruct (excluded _ _)).
  destruct (run_body body s1 id (p :: rest) n0 (S d)) as (lr & Hrun); try done.
  - cbn. by rewrite Hst.
  - intros Hsub. unfold pn1 in *.
    destruct (excluded s0 (Some v)) eqn:Hex.
    + exfalso. apply Hsub. apply excluded_spec in Hex as (H1 & H2 & H3).
      specialize (Hlv H1). apply every_frame_inv in Hlv as [Hlv _]. by apply Hlv.
    + eapply (spine_snoc _ 0 p (attach_child id pn) id n0); [|exact Hpn1| |done|exact Hn0|cbn; congruence].
      * eapply spine_agree; [exact Hsp| |exact Hpn|exact Hpn1|done].
        intros i Hi. cbn. rewrite lookup_app_l by (rewrite insert_length; lia).
        by rewrite list_lookup_insert_ne by lia.
      * cbn. by rewrite last_snoc.
  - fold (ti_run s1 (body_events (S d) body)). rewrite Hrun. cbn [rbind].
    rewrite Hl1.
    match goal with |- context [run ti_handle ?s' _] => set (s2 := s') end.
    set (n1 := node_after (S (S d)) (tr_value (nd_trace n0)) n0 (S id) body) in *.
    assert (Hn1 : ti_traces s2 !! id = Some n1).
    { cbn [s2 ti_traces]. apply lookup_app_l_Some. apply list_lookup_insert. rewrite Hl1. lia. }
    eexists. rewrite (end_event_run s2 (S d) s0 e id (p :: rest) n1 eq_refl eq_refl Hn1).
    unfold s2. cbn [ti_traces ti_step_stack ti_spec_id].
    f_equal. f_equal.
    rewrite entries_eq. cbn [map].
    rewrite insert_app_l by (rewrite insert_length, Hl1; lia).
    rewrite list_insert_insert. unfold s1 at 1. cbn [ti_traces].
    rewrite insert_app_r_alt by (rewrite insert_length; unfold id; lia).
    rewrite insert_length. fold id. rewrite Nat.sub_diag. cbn [list_insert insert].
    rewrite <-app_assoc. cbn [app]. done.
Qed.

(** ** The whole transaction *)
Theorem tx_layout f :
  env_ok cfg w f ->
  exists lr, ti_run (ti_new cfg) (tx_events w f) =
    Ok (mkTI cfg (layout f) [] [] lr (Some (w_spec w))).
Proof.
  destruct f as [s0 body e]. intros [Hlv Hfo]. unfold tx_events. rewrite frame_events_eq.
  pose proof (every_frame_inv _ _ _ _ Hfo) as [Hio Hfo']. cbn [f_body] in Hio.
  pose proof (leaves_inv _ _ _ Hlv) as Hlv'.
  unfold ti_run. rewrite !run_app.
  rewrite (start_event_run (ti_new cfg) 0 s0 None node_default) by done.
  set (n0 := nd_set_trace node_default (start_trace 0 s0 None)).
  change (push_trace (ti_traces (ti_new cfg)) 0
            (if excluded s0 None then PushOnly else PushAndAttachToParent) (start_trace 0 s0 None))
    with (Ok ([n0], 0)).
  cbn [rbind fst snd].
  rewrite run_app.
  match goal with |- context [run ti_handle ?s' (body_events _ _)] => set (s1 := s') end.
  destruct (run_body body s1 0 [] n0 0) as (lr & Hrun); try done.
  - apply Forall_forall. intros g _. apply all_frames_run.
  - intros _. by eapply (spine_refl _ 0 n0).
  - fold (ti_run s1 (body_events 0 body)). rewrite Hrun. cbn [rbind].
    match goal with |- context [run ti_handle ?s' _] => set (s2 := s') end.
    eexists. erewrite (end_event_run s2 0 s0 e 0 []); [|done..].
    unfold s2, s1. cbn [ti_traces ti_step_stack ti_spec_id]. unfold layout. rewrite entries_eq. cbn [map].
    f_equal.
Qed.

End layout.
