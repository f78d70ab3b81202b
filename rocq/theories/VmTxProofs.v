(** * VmTxProofs: the vm trace of a whole execution *)

From Verif Require Export SpecVmTx StepProofs TxTraceProofs.

(** ** The queue of the loop *)

(** What is left of the queue after the frames with the given steps have ended; [None] once the shortcut was taken. *)
Fixpoint deal (b : bool) (fs : list (list CallTraceStep)) (q : list (option VmTrace)) : option (list (option VmTrace)) :=
  match fs with
  | [] => Some q
  | steps :: fs =>
      match frame_loop b steps [] q with
      | FBreak _ => None
      | FDone l q' => deal b fs (q' ++ [Some (mkVm [] l)])
      end
  end.
Lemma deal_app b fs1 : forall fs2 q, deal b (fs1 ++ fs2) q = match deal b fs1 q with Some q' => deal b fs2 q' | None => None end.
Proof. induction fs1 as [|st fs1 IH]; intros fs2 q; [done|]. cbn. destruct (frame_loop b st [] q); [apply IH|done]. Qed.

Section visit.
  Context (cfg : TracingInspectorConfig) (w : world) (ns : list CallTraceNode).
  Notation b := (is_last_step_stop_op ns).

  Fixpoint fin_steps (d : nat) (v : U256) (g : frame) : list (list CallTraceStep) :=
    match g with
    | Frame s body e =>
        (fix go (l : list item) : list (list CallTraceStep) :=
           match l with
           | [] => []
           | ISub h :: r => if hidden_call cfg w v (f_start h) then go r else fin_steps (S d) (call_value v (f_start h)) h ++ go r
           | _ :: r => go r
           end) body ++ [steps_from cfg w (S d) None (instrs body)]
    end.
  Fixpoint fin_body (d : nat) (v : U256) (l : list item) : list (list CallTraceStep) :=
    match l with
    | [] => []
    | ISub h :: r => if hidden_call cfg w v (f_start h) then fin_body d v r
                     else fin_steps (S d) (call_value v (f_start h)) h ++ fin_body d v r
    | _ :: r => fin_body d v r
    end.
  Lemma fin_steps_eq d v s body e : fin_steps d v (Frame s body e) = fin_body d v body ++ [steps_from cfg w (S d) None (instrs body)].
  Proof. cbn [fin_steps]. f_equal. induction body as [|[o|h|g] r IH]; cbn; [done|..]; by rewrite IH. Qed.
  Lemma fin_steps_pos d v g : 0 < length (fin_steps d v g).
  Proof. destruct g. rewrite fin_steps_eq, app_length. cbn. lia. Qed.

  Definition placed_at (pos : nat) (xs : list entry) : Prop := placed cfg w ns pos xs.

  Definition visit_frame (g : frame) : Prop :=
    forall p pos d v pn c stack q fuel, placed cfg w ns pos (entries (Some p) pos d (Some v) g) -> ns !! p = Some pn ->
    exists n, ns !! pos = Some n /\
    vm_loop (2 * length (fin_steps d (call_value v (f_start g)) g) - 1 + fuel) ns (c :: stack) q n 0 =
    match deal b (fin_steps d (call_value v (f_start g)) g) q with
    | None => Ok []
    | Some q' => vm_loop fuel ns stack q' pn c
    end.

  Lemma visit_body body : Forall visit_frame (subs body) -> forall p d v next pn pre stack q fuel,
    placed cfg w ns next (sub_entries p d v next body) -> ns !! p = Some pn ->
    nd_children pn = pre ++ child_positions cfg w v next body ->
    vm_loop (2 * length (fin_body d v body) + fuel) ns stack q pn (length pre) =
    match deal b (fin_body d v body) q with
    | None => Ok []
    | Some q' => vm_loop fuel ns stack q' pn (length (nd_children pn))
    end.
  Proof.
    induction body as [|it body IH]; intros Hsubs p d v next pn pre stack q fuel Hpl Hpn Hch.
    { cbn in Hch |- *. rewrite app_nil_r in Hch. by rewrite Hch. }
    destruct it as [o|h|g]; [by eapply IH|by eapply IH|].
    inversion_clear Hsubs as [|? ? Hg Hsubs']. cbn [sub_entries] in Hpl. apply placed_app in Hpl as [Hp1 Hp2].
    rewrite entries_length in Hp2. cbn [child_positions] in Hch. cbn [fin_body].
    rewrite excluded_hidden in Hch. destruct (hidden_call cfg w v (f_start g)) eqn:Hh; cbn [app] in Hch.
    { by eapply IH. }
    rewrite app_length, deal_app. pose proof (fin_steps_pos (S d) (call_value v (f_start g)) g) as Hpos.
    set (k := length (fin_steps (S d) (call_value v (f_start g)) g)) in *.
    replace (2 * (k + length (fin_body d v body)) + fuel) with (S (2 * k - 1 + (2 * length (fin_body d v body) + fuel))) by lia.
    destruct (Hg p next (S d) v pn (length pre + 1) stack q (2 * length (fin_body d v body) + fuel) Hp1 Hpn) as (n & Hn & Hloop).
    fold k in Hloop. cbn [vm_loop].
    assert (Hc : nd_children pn !! length pre = Some next) by (rewrite Hch; by apply list_lookup_middle).
    rewrite Hc, Hn. cbn [expect rbind]. rewrite Hloop. destruct (deal b (fin_steps _ _ _) q) as [q'|]; [|done].
    specialize (IH Hsubs' p d v (next + frame_size g) pn (pre ++ [next]) stack q' fuel Hp2 Hpn).
    rewrite app_length in IH. cbn [length] in IH. apply IH. by rewrite <-app_assoc.
  Qed.

  Lemma node_of_steps par pos d inh g :
    tr_steps (nd_trace (node_of cfg w (mkEntry par pos d inh g))) = steps_from cfg w (S d) None (instrs (f_body g)).
  Proof. unfold node_of, finish. cbn [nd_set_trace nd_trace fill_trace tr_steps en_frame en_depth]. by rewrite node_after_steps. Qed.
  Lemma node_of_parent x : nd_parent (node_of cfg w x) = en_par x.
  Proof. by destruct (node_of_static cfg w x) as (? & _). Qed.

  Lemma visit_all g : visit_frame g.
  Proof.
    induction g as [s body e IH] using frame_ind'. intros p pos d v pn c stack q fuel Hpl Hpn.
    rewrite entries_eq in Hpl. apply placed_cons in Hpl as [Hn Hpl]. eexists. split; [exact Hn|].
    set (x := mkEntry (Some p) pos d (Some v) (Frame s body e)) in *. cbn [f_start].
    rewrite value_of_call in Hpl. rewrite fin_steps_eq, app_length, deal_app. cbn [length].
    replace (2 * (length (fin_body d (call_value v s) body) + 1) - 1 + fuel) with
      (2 * length (fin_body d (call_value v s) body) + S fuel) by lia.
    pose proof (visit_body body IH pos d (call_value v s) (S pos) (node_of cfg w x) [] (c :: stack) q (S fuel) Hpl Hn) as Hb.
    cbn [length] in Hb. rewrite Hb.
    2:{ rewrite node_of_children. cbn [x en_frame en_inherited en_pos f_start f_body]. by rewrite value_of_call. }
    destruct (deal b (fin_body _ _ _) q) as [q'|]; [|done]. cbn [vm_loop deal].
    rewrite (proj2 (lookup_ge_None _ _)) by done. unfold x at 1. rewrite node_of_steps. cbn [f_body].
    destruct (frame_loop b _ [] q') as [l q''|l] eqn:E.
    - rewrite node_of_parent. cbn [x en_par]. rewrite Hpn. done.
    - by apply frame_loop_break in E as ->.
  Qed.

  Lemma vm_trace_dealt g : placed cfg w ns 0 (entries None 0 0 None g) -> length ns = frame_size g ->
    vm_trace ns = match deal b (fin_steps 0 (spec_value (f_start g)) g) [] with
                  | None => Ok (mkVm [] [])
                  | Some q => match last q with Some (Some t) => Ok t | _ => OutOfFuel end
                  end.
  Proof.
    destruct g as [s body e]. intros Hpl Hlen. pose proof Hpl as Hpl0. rewrite entries_eq in Hpl. apply placed_cons in Hpl as [Hn Hpl].
    set (x := mkEntry None 0 0 None (Frame s body e)) in *. cbn [f_start]. rewrite value_of_root in Hpl.
    unfold vm_trace. destruct ns as [|n0 ns'] eqn:Ens; [done|]. cbn in Hn. injection Hn as ->. rewrite <-Ens in *.
    assert (Hn : ns !! 0 = Some (node_of cfg w x)) by by rewrite Ens.
    unfold make_vm_trace. rewrite fin_steps_eq, deal_app.
    assert (Hfuel : length (fin_body 0 (spec_value s) body) + 1 <= length ns).
    { rewrite Hlen, frame_size_eq. clear.
      enough (H : forall d v, length (fin_body d v body) <= subs_size body) by (specialize (H 0 (spec_value s)); lia).
      assert (Hf : forall g, forall d v, length (fin_steps d v g) <= frame_size g).
      { induction g as [s0 body0 e0 IH] using frame_ind'. intros d v. rewrite fin_steps_eq, frame_size_eq, app_length. cbn [length].
        enough (H : length (fin_body d v body0) <= subs_size body0) by lia. clear -IH.
        induction body0 as [|[o|h|g] r IHr]; cbn [fin_body subs_size]; [done|by apply IHr|by apply IHr|].
        cbn [subs flat_map app] in IH. apply Forall_cons_1 in IH as [Hg IH]. specialize (IHr IH).
        destruct (hidden_call _ _ _ _); [lia|]. rewrite app_length. specialize (Hg (S d) (call_value v (f_start g))). lia. }
      intros d v. induction body as [|[o|h|g] r IHr]; cbn [fin_body subs_size]; [done|by apply IHr|by apply IHr|].
      destruct (hidden_call _ _ _ _); [lia|]. rewrite app_length. specialize (Hf g (S d) (call_value v (f_start g))). lia. }
    set (k := length (fin_body 0 (spec_value s) body)) in *.
    replace (2 * length ns) with (2 * k + S (2 * length ns - 2 * k - 1)) by lia.
    pose proof (visit_body body ltac:(apply Forall_forall; intros; apply visit_all) 0 0 (spec_value s) 1 (node_of cfg w x) [] [] []
               (S (2 * length ns - 2 * k - 1)) Hpl Hn) as Hb.
    cbn [length] in Hb. fold k in Hb. rewrite Hb.
    2:{ rewrite node_of_children. cbn [x en_frame en_inherited en_pos f_start f_body]. by rewrite value_of_root. }
    destruct (deal b (fin_body _ _ _) []) as [q'|]; [|done]. cbn [vm_loop deal].
    rewrite (proj2 (lookup_ge_None _ _)) by done. unfold x at 1. rewrite node_of_steps. cbn [f_body].
    destruct (frame_loop b _ [] q') as [l q''|l] eqn:E.
    - rewrite node_of_parent. cbn [x en_par rbind]. by rewrite last_snoc.
    - by apply frame_loop_break in E as ->.
  Qed.
End visit.

(** ** Steps and instructions *)

Definition step_vm (cfg : TracingInspectorConfig) (w : world) (d : nat) (o : instr) (st : CallTraceStep) : Prop :=
  step_full cfg w d o st /\ (record_memory_snapshots cfg = true -> upto_zeros o st) /\
  (record_stack_snapshots cfg = SnapPushes -> exists top rest, st_push_stack st = Some top /\ in_stack (op_post o) = rest ++ top /\
             length top = stack_push_count (in_op (op_pre o))).

Lemma steps_from_sel cfg w (P : instr -> CallTraceStep -> Prop) d os : forall prev, Forall (snapshot_safe cfg) os ->
  (forall prev o, snapshot_safe cfg o -> recorded cfg o = true -> P o (step_of cfg w d prev o)) ->
  Forall2 P (List.filter (fun o => selected cfg (in_op (op_pre o))) os) (steps_from cfg w d prev os).
Proof.
  induction os as [|o os IH]; intros prev Hs HP; cbn; [constructor|]. inversion_clear Hs.
  rewrite <-recorded_selected. destruct (recorded cfg o) eqn:Hr; [|by apply IH]. constructor; [by apply HP|by apply IH].
Qed.

Lemma step_of_push cfg w d prev o : record_stack_snapshots cfg = SnapPushes -> snapshot_safe cfg o -> recorded cfg o = true ->
  exists top rest, st_push_stack (step_of cfg w d prev o) = Some top /\ in_stack (op_post o) = rest ++ top /\
             length top = stack_push_count (in_op (op_pre o)).
Proof.
  intros Hp Ho Hr. destruct (fill_step_ok cfg w d prev o Hr Ho) as (st' & Hst').
  unfold step_of. rewrite Hst'. apply fill_step_fields in Hst' as
    (_ & _ & _ & _ & _ & _ & _ & _ & _ & _ & _ & _ & _ & Hps & _).
  cbn [new_step st_op st_push_stack] in Hps. unfold push_snapshot in Hps. rewrite Hp in Hps. cbn [snap_is_pushes] in Hps.
  destruct (Nat.leb_spec (stack_push_count (in_op (op_pre o))) (length (in_stack (op_post o)))) as [Hle|]; [|done].
  injection Hps as <-.
  eexists _, (take (length (in_stack (op_post o)) - stack_push_count (in_op (op_pre o))) (in_stack (op_post o))).
  split; [done|]. rewrite take_drop. split; [done|]. rewrite drop_length. lia.
Qed.

Lemma frame_steps_vm cfg w d g : Forall (snapshot_safe cfg) (instrs (f_body g)) -> adjacent evm_memory_step (instrs (f_body g)) ->
  Forall2 (step_vm cfg w d) (traced_instrs cfg g) (steps_from cfg w d None (instrs (f_body g))).
Proof.
  intros Hsafe Hadj. unfold traced_instrs. apply Forall2_both; [|apply Forall2_both].
  - apply steps_from_sel; [done|]. intros. by apply step_of_full.
  - destruct (record_memory_snapshots cfg) eqn:Hrec; [|by apply steps_from_sel].
    destruct (record_opcodes_filter cfg) as [flt|] eqn:Hflt.
    + eapply Forall2_impl; [apply memory_filtered; [done|by rewrite Hflt|done]|]. intros o st Hst _.
      exists (in_memory (op_pre o)), 0. split; [done|]. by rewrite app_nil_r.
    + destruct (record_steps cfg) eqn:Hst.
      * assert (Hall : forall l, List.filter (fun o => selected cfg (in_op (op_pre o))) l = l).
        { unfold selected. rewrite Hst, Hflt. cbn. induction l; cbn; congruence. }
        rewrite Hall. eapply Forall2_impl; [by apply memory_unfiltered|]. done.
      * assert (Hnil : forall prev os, steps_from cfg w d prev os = []).
        { intros prev os. revert prev. induction os as [|o os IH]; intros prev; cbn; [done|].
          unfold recorded. rewrite Hst. cbn. apply IH. }
        assert (Hall : forall l, List.filter (fun o => selected cfg (in_op (op_pre o))) l = []).
        { unfold selected. rewrite Hst. cbn. by induction l. }
        rewrite Hnil, Hall. constructor.
  - apply steps_from_sel; [done|]. intros prev o Ho Hr Hp. by apply step_of_push.
Qed.

Lemma enters_calllike op : enters op = op_is_calllike op.
Proof.
  unfold enters, op_is_calllike. cbv [OP_CALL OP_DELEGATECALL OP_STATICCALL OP_CREATE OP_CALLCODE OP_CREATE2].
  cbn [existsb]. repeat match goal with |- context [(op =? ?x)%N] => destruct (op =? x)%N end; done.
Qed.

Lemma make_instruction_of cfg w d o st sub : step_vm cfg w d o st -> vm_instr_of cfg o sub (make_instruction st sub).
Proof.
  intros ((Hd & Hch & Hno) & Hm & Hp). unfold make_instruction.
  eexists _, _, _, _. rewrite (sd_pc _ _ _ _ _ Hd), (sd_op _ _ _ _ _ Hd), (sd_gas _ _ _ _ _ Hd). split; [done|].
  split; [apply (sd_cost _ _ _ _ _ Hd)|]. split_and!.
  - pose proof (sd_push_recorded _ _ _ _ _ Hd) as Hpr. destruct (record_stack_snapshots cfg).
    + destruct (st_push_stack st); [|done]. destruct Hpr as [Hpr _]. exfalso. assert (SnapNone = SnapPushes) by eauto. done.
    + destruct (Hp eq_refl) as (top & rest & -> & Hs & Hl). cbn. eauto.
    + destruct (st_push_stack st); [|done]. destruct Hpr as [Hpr _]. exfalso. assert (SnapFull = SnapPushes) by eauto. done.
  - pose proof (sd_memory_recorded _ _ _ _ _ Hd) as Hmr. destruct (record_memory_snapshots cfg).
    + destruct (Hm eq_refl) as (m & k & -> & ->). eauto.
    + destruct (st_memory st); [|done]. destruct Hmr as [Hmr _]. assert (false = true) by eauto. done.
  - destruct (record_state_diff cfg).
    + rewrite <-(Hch eq_refl). by destruct (st_storage_change st).
    + by rewrite (Hno eq_refl).
Qed.

Lemma frame_loop_carry cfg w d b os steps : Forall2 (step_vm cfg w d) os steps -> forall l (q : list VmTrace),
  b = false \/ l <> [] \/ (match os with o :: _ => is_stop_instr o | [] => false end) = false ->
  exists l' q', frame_loop b steps l (map Some q) = FDone (l ++ l') (map Some q') /\ carry cfg os q l' q'.
Proof.
  induction 1 as [|o st os steps Ho Hs IH]; intros l q Hb; cbn [frame_loop].
  { exists [], q. rewrite app_nil_r. split; [done|constructor]. }
  pose proof (proj1 (proj1 Ho)) as Hd.
  assert (Hno : st_is_stop st && match l with [] => true | _ => false end && b = false).
  { destruct Hb as [->|[Hl|Hx]]; [apply andb_false_r|destruct l; [done|by rewrite andb_false_r]|].
    unfold st_is_stop. rewrite (sd_op _ _ _ _ _ Hd). unfold is_stop_instr in Hx. change OP_STOP with 0%N. by rewrite Hx. }
  assert (Hb' : forall x, b = false \/ l ++ [x] <> [] \/ (match os with o :: _ => is_stop_instr o | [] => false end) = false).
  { intros x. right. left. intros H. by apply app_eq_nil in H as [_ ?]. }
  unfold st_is_calllike. rewrite (sd_op _ _ _ _ _ Hd).
  destruct (op_is_calllike (in_op (op_pre o))) eqn:Ec; rewrite <-enters_calllike in Ec.
  - assert (Hpop : pop_front (map Some q) = (match q with [] => None | t :: _ => Some (Some t) end, map Some (tail q))) by by destruct q.
    rewrite Hpop. assert (Hfl : flatten (match q with [] => None | t :: _ => Some (Some t) end) = head q) by by destruct q.
    rewrite Hfl, Hno. destruct (IH (l ++ [make_instruction st (head q)]) (tail q) (Hb' _)) as (l' & q' & -> & Hc).
    exists (make_instruction st (head q) :: l'), q'. rewrite <-app_assoc. split; [done|].
    constructor; [done|by eapply make_instruction_of|done].
  - rewrite Hno. destruct (IH (l ++ [make_instruction st None]) q (Hb' _)) as (l' & q' & -> & Hc).
    exists (make_instruction st None :: l'), q'. rewrite <-app_assoc. split; [done|].
    apply carry_other; [done|by eapply make_instruction_of|done].
Qed.

Definition stops_first (cfg : TracingInspectorConfig) (g : frame) : bool :=
  match traced_instrs cfg g with o :: _ => is_stop_instr o | [] => false end.

Lemma deal_dealt cfg w b gs fs :
  Forall2 (fun g steps => exists d, Forall2 (step_vm cfg w d) (traced_instrs cfg g) steps) gs fs -> forall q : list VmTrace,
  if b && existsb (stops_first cfg) gs then deal b fs (map Some q) = None
  else exists q', deal b fs (map Some q) = Some (map Some q') /\ dealt cfg gs q q'.
Proof.
  induction 1 as [|g steps gs fs [d Hg] Hs IH]; intros q; cbn [existsb deal].
  { rewrite andb_false_r. eexists. split; [done|constructor]. }
  destruct (b && stops_first cfg g) eqn:Hfirst.
  - apply andb_true_iff in Hfirst as [-> Hst]. rewrite Hst. cbn [orb andb].
    unfold stops_first in Hst. destruct Hg as [|o st os steps Ho Hg]; [done|]. cbn [frame_loop].
    pose proof (proj1 (proj1 Ho)) as Hd. assert (Hstop : st_is_stop st = true).
    { unfold st_is_stop. rewrite (sd_op _ _ _ _ _ Hd). exact Hst. }
    rewrite Hstop. by destruct (if st_is_calllike st then _ else _).
  - destruct (frame_loop_carry cfg w d b _ _ Hg [] q) as (l & q1 & -> & Hc).
    { destruct b; [|by left]. right. right. exact Hfirst. }
    assert (Hb : b && (stops_first cfg g || existsb (stops_first cfg) gs) = b && existsb (stops_first cfg) gs).
    { destruct b; [|done]. cbn [andb] in *. by rewrite Hfirst. }
    rewrite Hb. specialize (IH (q1 ++ [mkVm [] l])). rewrite map_app in IH. cbn [app map] in IH |- *.
    destruct (b && _); [done|]. destruct IH as (q2 & H1 & H2). exists q2. split; [done|]. by econstructor.
Qed.

(** ** The finished frames *)

Fixpoint finished_body (cfg : TracingInspectorConfig) (w : world) (v : U256) (l : list item) : list frame :=
  match l with
  | [] => []
  | ISub h :: r => if hidden_call cfg w v (f_start h) then finished_body cfg w v r
                   else finished cfg w (call_value v (f_start h)) h ++ finished_body cfg w v r
  | _ :: r => finished_body cfg w v r
  end.
Lemma finished_eq cfg w v s body e : finished cfg w v (Frame s body e) = finished_body cfg w v body ++ [Frame s body e].
Proof. cbn [finished]. f_equal. induction body as [|[o|h|g] r IH]; cbn; [done|..]; by rewrite IH. Qed.

Definition vm_ready (cfg : TracingInspectorConfig) (g : frame) : Prop :=
  Forall (snapshot_safe cfg) (instrs (f_body g)) /\ adjacent evm_memory_step (instrs (f_body g)).

Lemma finished_steps cfg w g : every_frame (vm_ready cfg) g -> forall d v,
  Forall2 (fun g steps => exists d, Forall2 (step_vm cfg w d) (traced_instrs cfg g) steps) (finished cfg w v g) (fin_steps cfg w d v g).
Proof.
  induction g as [s body e IH] using frame_ind'. intros H d v. apply every_frame_inv in H as [[H1 H1'] H2].
  rewrite finished_eq, fin_steps_eq. apply Forall2_app.
  - clear H1 H1'. cbn [f_body] in H2. induction body as [|[o|h|g] r IHr]; cbn [finished_body fin_body]; [constructor|by apply IHr|by apply IHr|].
    cbn [subs flat_map app] in IH, H2. apply Forall_cons_1 in IH as [Hg IH]. apply Forall_cons_1 in H2 as [Hg' H2].
    destruct (hidden_call _ _ _ _); [by apply IHr|]. apply Forall2_app; [by apply Hg|by apply IHr].
  - constructor; [|constructor]. exists (S d). by apply (frame_steps_vm cfg w (S d) (Frame s body e)).
Qed.

Lemma last_stop cfg w f s : env_ok cfg w f -> evm_memory f -> ti_run (ti_new cfg) (tx_events w f) = Ok s ->
  is_last_step_stop_op (ti_traces s) =
  match last (entered None 0 0 f) with
  | Some (_, _, g) => match last (traced_instrs cfg g) with Some o => is_stop_instr o | None => false end
  | None => false
  end.
Proof.
  intros Henv Hmem Hrun. unfold is_last_step_stop_op. rewrite (tx_traces cfg w f s Henv Hrun). unfold layout.
  rewrite <-(entries_entered f None 0 0 None).
  assert (Hl : forall {A B} (h : A -> B) l, last (map h l) = h <$> last l).
  { intros A B h l. induction l as [|x [|y l] IHl]; [done|done|]. exact IHl. }
  rewrite !Hl. destruct (last (entries None 0 0 None f)) as [[par pos d inh g]|] eqn:El; [|done].
  cbn [fmap option_fmap option_map triple_of en_par en_depth en_frame]. rewrite node_of_steps.
  assert (Hg : vm_ready cfg g).
  { assert (Hin : entered None 0 0 f !! (length (entered None 0 0 f) - 1) = Some (par, d, g)).
    { replace (length (entered None 0 0 f) - 1) with (pred (length (entered None 0 0 f))) by lia.
      rewrite <-last_lookup, <-(entries_entered f None 0 0 None), Hl, El. done. }
    split; [by eapply tx_safe|]. apply (every_entered _ _ Hmem _ _ _ _ _ _ _ Hin). }
  pose proof (frame_steps_vm cfg w (S d) g (proj1 Hg) (proj2 Hg)) as H2. clear -H2.
  induction H2 as [|o st os steps Ho Hs IH]; [done|]. destruct Hs as [|o' st' os' steps']; [|exact IH].
  cbn. unfold st_is_stop. rewrite (sd_op _ _ _ _ _ (proj1 (proj1 Ho))). done.
Qed.

Lemma dealt_last cfg g gs q q' : dealt cfg (gs ++ [g]) q q' ->
  exists q1 l q2, carry cfg (traced_instrs cfg g) q1 l q2 /\ q' = q2 ++ [mkVm [] l].
Proof.
  revert q. induction gs as [|g0 gs IH]; intros q H; inversion H as [|? ? ? l q1 ? Hc Hd]; subst; [|by eapply IH].
  inversion Hd; subst. eauto 10.
Qed.
Lemma dealt_snoc cfg g gs q q' : dealt cfg (gs ++ [g]) q q' -> exists q0 t, q' = q0 ++ [t].
Proof. intros H. apply dealt_last in H as (? & ? & ? & _ & ->). eauto. Qed.

Lemma tx_vm_trace cfg w f s : env_ok cfg w f -> evm_memory f -> ti_run (ti_new cfg) (tx_events w f) = Ok s ->
  if shortcut cfg w f then vm_trace (ti_traces s) = Ok (mkVm [] [])
  else exists q t, vm_trace (ti_traces s) = Ok t /\ dealt cfg (finished cfg w (spec_value (f_start f)) f) [] (q ++ [t]).
Proof.
  intros Henv Hmem Hrun. pose proof (last_stop cfg w f s Henv Hmem Hrun) as Hb.
  rewrite (vm_trace_dealt cfg w (ti_traces s) f).
  2:{ intros k x Hk. rewrite (tx_traces cfg w f s Henv Hrun). unfold layout. rewrite list_lookup_fmap. cbn [Nat.add]. by rewrite Hk. }
  2:{ by rewrite (tx_length cfg w f s Henv Hrun). }
  assert (Hready : every_frame (vm_ready cfg) f) by (apply every_frame_and; [apply Henv|exact Hmem]).
  pose proof (deal_dealt cfg w (is_last_step_stop_op (ti_traces s)) _ _ (finished_steps cfg w f Hready 0 (spec_value (f_start f))) []) as Hd.
  unfold shortcut. rewrite <-Hb. change (existsb _ (finished _ _ _ _)) with (existsb (stops_first cfg) (finished cfg w (spec_value (f_start f)) f)).
  destruct (_ && _); [by cbn [map] in Hd; rewrite Hd|]. destruct Hd as (q & Hq & Hdealt). cbn [map] in Hq. rewrite Hq.
  assert (Hne : exists q0 t, q = q0 ++ [t]).
  { destruct f as [s0 body e]. rewrite finished_eq in Hdealt. clear -Hdealt.
    by eapply dealt_snoc. }
  destruct Hne as (q0 & t & ->). exists q0, t. rewrite map_app. cbn [map]. rewrite last_snoc. done.
Qed.
