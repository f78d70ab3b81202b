(** * PropertiesEofMore: C132, the other inspectors and creations they are not told about *)

From Verif Require Import SpecEofMore EofProofs PropertiesEof PropertiesSimple SimpleProofs PropertiesJs JsProofs Examples.
Local Open Scope N_scope.

(** ** JavaScript tracers *)

Section Trace.
Context (js : program) (en ex st fa : bool) (w : world).

Fixpoint xt_inner (d : nat) (f : xframe) : list seen :=
  match f with XFrame s body _ => flat_map (xt_item s (S d)) body end
with xt_item (s : fstart) (d : nat) (it : xitem) : list seen :=
  match it with
  | XOp o => t_instr en ex st fa w s d o
  | XHook h => t_hook en ex s h
  | XSub g => (if en then [SEnter (spec_frame (match g with XFrame s _ _ => s end))] else []) ++ xt_inner d g ++
              (if en && ex then [SExit (spec_result (match g with XFrame _ _ e => e end))] else [])
  | XEof init => flat_map (xt_item s (S d)) init
  end.

Notation outc := (outcome js en ex st fa).
Notation inv' := (inv en ex st fa).

Lemma on_items d k f0 body :
  (forall it, In it body -> forall s, inv' s (k ++ [item_of f0]) -> outc (k ++ [item_of f0]) s (xitem_events w d it) (xt_item f0 d it)) ->
  forall s, inv' s (k ++ [item_of f0]) -> outc (k ++ [item_of f0]) s (flat_map (xitem_events w d) body) (flat_map (xt_item f0 d) body).
Proof.
  induction body as [|it body IH]; intros H s Hs; cbn [flat_map]; [by apply outcome_nil|].
  eapply outcome_app; [apply H; [by left|done]|]. intros s' Hs'. apply IH; [|done]. intros it' Hin. apply H. by right.
Qed.

Lemma on_xframe f : forall d k s, inv' s k ->
  outc k s (xframe_events w d f)
    ((if en && negb (bool_decide (k = [])) then [SEnter (spec_frame (match f with XFrame s _ _ => s end))] else []) ++
     xt_inner d f ++
     (if en && ex && negb (bool_decide (k = [])) then [SExit (spec_result (match f with XFrame _ _ e => e end))] else [])).
Proof.
  revert f. refine (xframe_ind' _ (fun it => forall d k f0 s, inv' s (k ++ [item_of f0]) ->
    outc (k ++ [item_of f0]) s (xitem_events w d it) (xt_item f0 d it)) _ _ _ _ _).
  - intros f0 body e IH d k s Hs. cbn [xframe_events xt_inner].
    eapply outcome_cons; [by apply on_start|]. intros s1 H1.
    eapply outcome_app; [|intros s2 H2; by eapply on_end].
    rewrite Forall_forall in IH. apply on_items; [|done]. intros it Hin s' Hs'. apply IH; [by apply elem_of_list_In|done].
  - intros o d k f0 s Hs. by apply on_instr.
  - intros h d k f0 s Hs. by apply on_hook.
  - intros g IH d k f0 s Hs. specialize (IH d (k ++ [item_of f0]) s Hs).
    assert (Hb : bool_decide (k ++ [item_of f0] = []) = false) by (apply bool_decide_eq_false_2; by destruct k).
    rewrite Hb in IH. cbn [negb] in IH. rewrite !andb_true_r in IH. exact IH.
  - intros init IH d k f0 s Hs. cbn [xitem_events xt_item]. rewrite Forall_forall in IH.
    apply on_items; [|done]. intros it Hin s' Hs'. apply IH; [by apply elem_of_list_In|done].
Qed.

Lemma on_xtx f s : inv' s [] -> outc [] s (xframe_events w 0 f) (xt_inner 0 f).
Proof.
  intros Hs. pose proof (on_xframe f 0 [] s Hs) as H.
  rewrite (bool_decide_eq_true_2 ([] = [])) in H by done. cbn [negb] in H. rewrite !andb_false_r, app_nil_r in H. exact H.
Qed.

Lemma xsteps P f : (forall f, P (SEnter f) = false) -> (forall r, P (SExit r) = false) -> forall d,
  List.filter P (xt_inner d f) =
  flat_map (fun x => match x with (s, d, o) =>
    List.filter P ((if st then [SStep (step_view w s d o)] else []) ++
      (if st && reverts (in_result (op_post o)) && fa then [SFault (fault_view w s d o)] else [])) end) (xexecuted d f).
Proof.
  intros H1 H2. set (shows := fun x : fstart * nat * instr => _).
  assert (Hl : forall s d l, Forall (fun it => forall s d, List.filter P (xt_item s d it) = flat_map shows (xitem_executed s d it)) l ->
    List.filter P (flat_map (xt_item s d) l) = flat_map shows (flat_map (xitem_executed s d) l)).
  { intros s d l Hl. induction Hl as [|it l Hit Hl IH]; [done|]. cbn [flat_map]. rewrite List.filter_app, flat_map_app, IH, Hit. done. }
  revert f. refine (xframe_ind' _ (fun it => forall s d, List.filter P (xt_item s d it) = flat_map shows (xitem_executed s d it)) _ _ _ _ _).
  - intros s body e IH d. by apply Hl.
  - intros o s d. cbn [xt_item xitem_executed flat_map]. rewrite app_nil_r. unfold t_instr, shows.
    rewrite !List.filter_app, no_steps_t_hooks by done. done.
  - intros h s d. cbn [xt_item xitem_executed flat_map]. by apply no_steps_t_hook.
  - intros g IH s d. cbn [xt_item xitem_executed]. rewrite !List.filter_app, IH.
    destruct en, ex; cbn [andb List.filter]; rewrite ?H1, ?H2, ?app_nil_r; done.
  - intros init IH s d. by apply Hl.
Qed.

Lemma xscopes f : (en = true \/ ex = false) -> forall d,
  List.filter is_scope (xt_inner d f) = List.filter (defined en ex) (inner_scopes (inlined f)).
Proof.
  intros Hflags.
  set (scopes := fun (s : fstart) (it : item) => match it with
        | IOp o => flat_map (hook_scopes s) (op_hooks o)
        | IHook h => hook_scopes s h
        | ISub g => SEnter (spec_frame (f_start g)) :: inner_scopes g ++ [SExit (spec_result (f_end g))] end).
  assert (Hl : forall s d l, Forall (fun it => forall s d, List.filter is_scope (xt_item s d it) =
      List.filter (defined en ex) (flat_map (scopes s) (inlined_item it))) l ->
    List.filter is_scope (flat_map (xt_item s d) l) = List.filter (defined en ex) (flat_map (scopes s) (flat_map inlined_item l))).
  { intros s d l Hl. induction Hl as [|it l Hit Hl IH]; [done|]. cbn [flat_map]. rewrite flat_map_app, !List.filter_app, IH, Hit. done. }
  revert f. refine (xframe_ind' _ (fun it => forall s d, List.filter is_scope (xt_item s d it) =
      List.filter (defined en ex) (flat_map (scopes s) (inlined_item it))) _ _ _ _ _).
  - intros s body e IH d. by apply Hl.
  - intros o s d. cbn [xt_item inlined_item flat_map]. rewrite app_nil_r. apply scopes_t_instr.
  - intros h s d. cbn [xt_item inlined_item flat_map]. rewrite app_nil_r. apply scopes_t_hook.
  - intros g IH s d. cbn [xt_item inlined_item flat_map]. rewrite app_nil_r. cbn [scopes]. destruct g as [s' body e]. cbn [inlined f_start f_end].
    change (?x :: ?y ++ ?z) with ([x] ++ y ++ z). rewrite !List.filter_app. rewrite (IH d). f_equal; [by destruct en|]. f_equal.
    destruct en, ex; try done. by destruct Hflags.
  - intros init IH s d. by apply Hl.
Qed.
End Trace.

(** ** C132 *)

(** The property as a user would put it: the contract shown with an instruction is the one executing it. *)
Definition C132_statement : Prop :=
  forall js en ex fa w f s', at_own_address f ->
    run (js_handle js) (js_new_state en ex true fa) (xframe_events w 0 f) = Ok s' ->
    Forall2 (fun x o => exists v, x = SStep v /\ jc_contract (vw_contract v) = in_contract (op_pre o))
      (List.filter is_sstep (shown s')) (xframe_instrs f).

(** An init code runs at the address of the contract it creates; what is shown is the contract executing EOFCREATE. *)
Definition init_elsewhere : xframe :=
  XFrame (SCall ex_j0 (mkCallInputs [] 30000 0xC0 0xC0 0xAA (Transfer 0) CSCall false))
    [XEof [XOp (mkInstr (mkInterp OP_STOP 0 0xE0 [] [] [] (ex_gas 100) Continue) ex_j0 [] (mkInterp OP_STOP 0 0xE0 [] [] [] (ex_gas 100) Stop) ex_j0)]]
    (ex_end Return None).
Theorem C132_refuted : ~ C132_statement.
Proof.
  intros H. specialize (H (fun _ _ => None) true true true ex_world init_elsewhere).
  destruct (run (js_handle (fun _ _ => None)) (js_new_state true true true true) (xframe_events ex_world 0 init_elsewhere)) as [s'| |] eqn:E;
    [|vm_compute in E; discriminate..].
  specialize (H s'). vm_compute in E. injection E as <-.
  pose proof (H ltac:(repeat constructor) eq_refl) as F. clear H. vm_compute in F. inversion F as [|x o xs os (v & Hv & Hc)]; subst.
  injection Hv as <-. vm_compute in Hc. discriminate Hc.
Qed.
Print Assumptions C132_refuted.

(** A transaction that is itself such a creation: a tracer with [step] stops the program at the first instruction. *)
Theorem C132_top_level :
  forall js en ex fa w o init,
    run (js_handle js) (js_new_state en ex true fa) (xitem_events w 0 (XEof (XOp o :: init))) = Panic PExpect.
Proof. intros. reflexivity. Qed.
Print Assumptions C132_top_level.

(** What a tracer is shown.  Every instruction once, in order, as it is, with its depth, and the contract of the innermost
    announced call.  The scopes are those of the execution in which the caller executes the init codes itself: there is
    none for the creation, and those of calls made by init codes are those of the caller. *)
Theorem C132_shown_partial :
  forall js en ex st fa w f s',
    run (js_handle js) (js_new_state en ex st fa) (xframe_events w 0 f) = Ok s' ->
    List.filter is_sstep (shown s') =
      (if st then map (fun x => match x with (s, d, o) => SStep (step_view w s d o) end) (xexecuted 0 f) else []) /\
    List.filter is_sfault (shown s') =
      (if st && fa then map (fun x => match x with (s, d, o) => SFault (fault_view w s d o) end)
                          (List.filter (fun x => reverts (in_result (op_post (snd x)))) (xexecuted 0 f)) else []) /\
    (en = true \/ ex = false -> List.filter is_scope (shown s') = List.filter (defined en ex) (inner_scopes (inlined f))).
Proof.
  intros js en ex st fa w f s' Hr.
  destruct (on_xtx js en ex st fa w f _ (inv_new en ex st fa)) as [(s1 & H1 & _ & H2)|[H1 _]]; [|congruence].
  rewrite Hr in H1. injection H1 as <-. rewrite H2. change (shown (js_new_state en ex st fa)) with (@nil seen). cbn [app]. split_and!.
  - rewrite xsteps by done. induction (xexecuted 0 f) as [|[[s d] o] l IH]; [by destruct st|]. cbn [flat_map]. rewrite IH.
    destruct st; cbn [andb]; [|done]. destruct (reverts _ && fa); done.
  - rewrite xsteps by done. induction (xexecuted 0 f) as [|[[s d] o] l IH]; [by destruct st, fa|]. cbn [flat_map List.filter snd]. rewrite IH.
    destruct st; cbn [andb]; [|done]. destruct (reverts _), fa; done.
  - intros Hf. by apply xscopes.
Qed.
Print Assumptions C132_shown_partial.

(** No execution of this kind stops a tracer whose functions do not throw. *)
Theorem C132_runs :
  forall en ex st fa w f, exists s', run (js_handle (fun _ _ => None)) (js_new_state en ex st fa) (xframe_events w 0 f) = Ok s'.
Proof.
  intros en ex st fa w f. destruct (on_xtx (fun _ _ => None) en ex st fa w f _ (inv_new en ex st fa)) as [(s1 & H1 & _)|[_ (h & iv & fr & _ & _ & Hn)]]; [eauto|done].
Qed.
Print Assumptions C132_runs.

(** ** The other inspectors *)

(** The transfers listed are those of announced calls and creations, wherever they are made, and of selfdestructs: what an
    EOFCREATE endows its contract with is not listed. *)
Lemma tf_xframe io w f : forall d, appends io (xframe_events w d f) (movements (negb (io && (d =? 0)%nat)) (inlined f)).
Proof.
  assert (Hl : forall d l, Forall (fun it => forall d, appends io (xitem_events w (S d) it) (flat_map item_movements (inlined_item it))) l ->
    appends io (flat_map (xitem_events w (S d)) l) (flat_map item_movements (flat_map inlined_item l))).
  { intros d l Hl. induction Hl as [|it l Hit Hl IH]; cbn [flat_map]; [apply appends_nil|]. rewrite flat_map_app. by apply appends_app. }
  revert f. refine (xframe_ind' _ (fun it => forall d, appends io (xitem_events w (S d) it) (flat_map item_movements (inlined_item it))) _ _ _ _ _).
  - intros st body e IH d. cbn [xframe_events inlined]. change (start_event w d st :: ?l) with ([start_event w d st] ++ l).
    change (movements ?t (Frame st ?body e)) with
      ((if t then call_movement st else []) ++ flat_map item_movements body ++ (if t then create_movement st e else [])).
    apply appends_app; [apply appends_start|]. apply appends_app; [|apply appends_end]. by apply Hl.
  - intros o d. cbn [xitem_events inlined_item flat_map item_movements]. rewrite app_nil_r. unfold instr_events.
    intros s Hs. cbn [fold_left tf_pure]. rewrite fold_left_app. cbn [fold_left tf_pure]. by apply appends_hooks.
  - intros h d. cbn [xitem_events inlined_item flat_map item_movements]. rewrite app_nil_r. apply appends_hook.
  - intros g IH d. cbn [xitem_events inlined_item flat_map item_movements]. rewrite app_nil_r. specialize (IH (S d)). by rewrite andb_false_r in IH.
  - intros init IH d. by apply Hl.
Qed.
Theorem C132_transfers :
  forall internal_only w f, exists s, run tf_handle (tf_new internal_only) (xframe_events w 0 f) = Ok s /\
    moved s = movements (negb internal_only) (inlined f).
Proof.
  intros io w f. eexists. split; [apply tf_run|]. destruct (tf_xframe io w f 0 (tf_new io) eq_refl) as [_ H].
  rewrite H. by rewrite andb_true_r.
Qed.
Print Assumptions C132_transfers.

(** Every instruction of every code is counted, and charged with the gas it consumed. *)
Lemma xframe_contributes w op f : op_known op = true -> forall d, contributes op (xframe_events w d f) (xframe_instrs f).
Proof.
  intros Hk.
  assert (Hl : forall d l, Forall (fun it => forall d, contributes op (xitem_events w d it) (xitem_instrs it)) l ->
    contributes op (flat_map (xitem_events w d) l) (flat_map xitem_instrs l)).
  { intros d l Hl. induction Hl as [|it l Hit Hl IH]; cbn [flat_map]; [by apply contributes_none|]. by apply contributes_app. }
  revert f. refine (xframe_ind' _ (fun it => forall d, contributes op (xitem_events w d it) (xitem_instrs it)) _ _ _ _ _).
  - intros s body e IH d. cbn [xframe_events xframe_instrs]. change (start_event w d s :: ?l) with ([start_event w d s] ++ l).
    change (flat_map xitem_instrs body) with ([] ++ flat_map xitem_instrs body).
    apply contributes_app; [apply contributes_none; by destruct s|].
    rewrite <-(app_nil_r (flat_map xitem_instrs body)).
    apply contributes_app; [|apply contributes_none; by destruct s]. by apply Hl.
  - intros o d. by apply contributes_instr.
  - intros h d. apply contributes_none. by destruct h.
  - intros g IH d. apply IH.
  - intros init IH d. by apply Hl.
Qed.
Theorem C132_counts :
  forall w f s op, run og_handle og_new (xframe_events w 0 f) = Ok s -> op_known op = true ->
  let mine := List.filter (fun o => in_op (op_pre o) =? op) (xframe_instrs f) in
  default 0 (og_counts s !! op) = N.of_nat (length mine) /\
  default 0 (og_gas s !! op) =
    fold_right (fun o acc => Z.to_N (Z.max 0 (Z.of_N (g_remaining (in_gas (op_pre o))) -
                                              Z.of_N (g_remaining (in_gas (op_post o))))) + acc) 0 mine.
Proof.
  intros w f s op Hrun Hk mine. pose proof (C42_overflow_exact (xframe_events w 0 f)) as Hsmall. rewrite Hrun in Hsmall.
  destruct (C42_counts_and_gas_partial (xframe_events w 0 f) Hsmall) as (s' & Hrun' & Hc & Hg & _).
  rewrite Hrun in Hrun'. injection Hrun' as <-. rewrite Hc, Hg, Hk.
  destruct (xframe_contributes w op f Hk 0%nat []) as [H1 H2]. rewrite app_nil_r in H1, H2. rewrite H1, H2.
  unfold sum_costs, instr_cost, is_instr_of. unfold mine. cbn [gas_of_steps]. change (count_steps op []) with 0.
  rewrite !N.add_0_r. done.
Qed.
Print Assumptions C132_counts.

Example C132_example :
  at_own_address init_elsewhere /\
  (exists s, run (js_handle (fun _ _ => None)) (js_new_state true true true true) (xframe_events ex_world 0 eof_calls) = Ok s /\
     map (fun x => match x with SStep v => Some (vw_depth v, jc_contract (vw_contract v)) | _ => None end) (shown s) =
       [Some (1%nat, 0xA0); Some (2%nat, 0xA0); None; None]) /\
  exists s, run og_handle og_new (xframe_events ex_world 0 eof_calls) = Ok s /\ og_counts s !! OP_PUSH1 = Some 2.
Proof. split; [repeat constructor|]. split; eexists; (split; [vm_compute; reflexivity|vm_compute; reflexivity]). Qed.
