(** * JsProofs: what a tracer is shown during an execution, and what it can reach *)

From Verif Require Export JsNativeProofs.
Local Open Scope N_scope.

Lemma run_app {S} (h : inspector S) s es1 es2 : run h s (es1 ++ es2) = let! s' := run h s es1 in run h s' es2.
Proof. apply rfold_app. Qed.
Lemma run_cons {S} (h : inspector S) s e es : run h s (e :: es) = let! p := h s e in run h (fst p) es.
Proof. unfold run. cbn [rfold]. by destruct (h s e). Qed.

Section Trace.
Context (js : program) (en ex st fa : bool) (w : world).

(** ** The calls the code makes, by definition of the hooks *)

Definition t_hook (s : fstart) (h : hook) : list seen :=
  match h with
  | HSelfdestruct _ _ _ => (if en then [SEnter (spec_frame s)] else []) ++ (if ex then [SExit empty_result] else [])
  | HLog _ _ => []
  end.
Definition t_instr (s : fstart) (d : nat) (o : instr) : list seen :=
  (if st then [SStep (step_view w s d o)] else []) ++
  flat_map (t_hook s) (op_hooks o) ++
  (if st && reverts (in_result (op_post o)) && fa
   then [SFault (fault_view w s d o)] else []).
Fixpoint t_inner (d : nat) (f : frame) : list seen :=
  match f with
  | Frame s body e =>
      flat_map (fun it =>
        match it with
        | IOp o => t_instr s (S d) o
        | IHook h => t_hook s h
        | ISub g => (if en then [SEnter (spec_frame (f_start g))] else []) ++ t_inner (S d) g ++
                    (if en && ex then [SExit (spec_result (f_end g))] else [])
        end) body
  end.

Definition inv (s : JsInspector) (stack : list CallStackItem) : Prop :=
  js_enter s = en /\ js_exit s = ex /\ js_step s = st /\ js_fault s = fa /\ js_stack s = stack /\
  js_precompiles_registered s = false.

(** A call frame's enter callback throws. *)
Definition throws : Prop :=
  exists h iv f, iv_call iv = JEnter f /\ is_any_create (jf_kind f) = false /\ js h iv <> None.

Definition outcome (stack' : list CallStackItem) (s : JsInspector) (es : list event) (xs : list seen) : Prop :=
  (exists s', run (js_handle js) s es = Ok s' /\ inv s' stack' /\ shown s' = shown s ++ xs) \/
  (run (js_handle js) s es = Panic PTodo /\ throws).

Lemma outcome_app k1 k2 s es1 es2 xs1 xs2 :
  outcome k1 s es1 xs1 -> (forall s', inv s' k1 -> outcome k2 s' es2 xs2) -> outcome k2 s (es1 ++ es2) (xs1 ++ xs2).
Proof.
  intros [(s' & H1 & H2 & H3)|[H1 H2]] H.
  - destruct (H s' H2) as [(s'' & H4 & H5 & H6)|[H4 H5]].
    + left. exists s''. rewrite run_app, H1. cbn [rbind]. split_and!; [done..|]. by rewrite H6, H3, app_assoc.
    + right. rewrite run_app, H1. done.
  - right. by rewrite run_app, H1.
Qed.
Lemma outcome_cons k1 k2 s e es xs1 xs2 :
  outcome k1 s [e] xs1 -> (forall s', inv s' k1 -> outcome k2 s' es xs2) -> outcome k2 s (e :: es) (xs1 ++ xs2).
Proof. apply (outcome_app k1 k2 s [e] es). Qed.
Lemma outcome_nil k s : inv s k -> outcome k s [] [].
Proof. intros H. left. exists s. by rewrite app_nil_r. Qed.

Lemma outcome_one k s e s' r xs :
  js_handle js s e = Ok (s', r) -> inv s' k -> shown s' = shown s ++ xs -> outcome k s [e] xs.
Proof. intros H1 H2 H3. left. exists s'. rewrite run_cons, H1. done. Qed.

Lemma shown_invoke s c : shown (fst (invoke js s c)) = shown s ++ [seen_of (mkInv c (js_cells s) (js_precompiles s))].
Proof. unfold shown, invoke. cbn [fst js_log]. by rewrite map_app. Qed.

Lemma four_cells (h : cells guarded) a b c d :
  ((((h ++ [a]) ++ [b]) ++ [c]) ++ [d]) !! length ((h ++ [a]) ++ [b]) = Some c /\
  ((((h ++ [a]) ++ [b]) ++ [c]) ++ [d]) !! length (((h ++ [a]) ++ [b]) ++ [c]) = Some d /\
  ((((h ++ [a]) ++ [b]) ++ [c]) ++ [d]) !! length h = Some a /\
  ((((h ++ [a]) ++ [b]) ++ [c]) ++ [d]) !! length (h ++ [a]) = Some b.
Proof.
  split_and!.
  - rewrite lookup_app_l by (rewrite (app_length _ [c]); cbn; lia). apply list_lookup_middle; done.
  - apply list_lookup_middle; done.
  - rewrite <- !app_assoc. apply list_lookup_middle; done.
  - rewrite <- !(app_assoc (h ++ [a])). apply list_lookup_middle; done.
Qed.

(** ** One hook at a time *)

Lemma on_step s k item f0 i c :
  inv s (k ++ [item]) -> cs_contract item = spec_contract f0 ->
  outcome (k ++ [item]) s [EStep i c] (if st then [SStep (instr_view f0 c None i)] else []).
Proof.
  intros (He & Hx & Hs & Hf & Hk & Hp) Hi. destruct st eqn:Est.
  - destruct (js (js_log s) (mkInv (JStep
        (mkStepLog (length ((js_cells s ++ [Some (GState c)]) ++ [Some (GDb c)])) (N.of_nat (length (in_stack i))) (in_op i)
          (length (((js_cells s ++ [Some (GState c)]) ++ [Some (GDb c)]) ++ [Some (GStack (in_stack i))])) (N.of_nat (length (in_memory i)))
          (in_pc i) (g_remaining (in_gas i)) (g_spent (in_gas i)) (cx_depth c) (i64_as_u64 (g_refunded (in_gas i))) None (cs_contract item))
        (mkDbRef (length (js_cells s)) (length (js_cells s ++ [Some (GState c)]))))
        ((((js_cells s ++ [Some (GState c)]) ++ [Some (GDb c)]) ++ [Some (GStack (in_stack i))]) ++ [Some (GMemory (in_memory i))])
        (js_precompiles s))) as [err|] eqn:Ejs.
    all: eapply outcome_one;
      [unfold js_handle, js_on_step, active_call; rewrite Hs, Hk, last_snoc; cbn [negb expect rbind];
       unfold step_objects, gc_new, try_step, set_cells, invoke; cbn [js_step js_log js_cells js_precompiles];
       rewrite Hs; rewrite Ejs; reflexivity|..].
    all: cbn [fst js_enter js_exit js_step js_fault js_stack js_precompiles_registered drop_guards set_cells];
      try (unfold inv; cbn; rewrite ?He, ?Hx, ?Hs, ?Hf; done).
    all: unfold shown; cbn [js_log drop_guards set_cells]; rewrite map_app; cbn [map];
      unfold seen_of at 2, view_of, instr_view, g_spent;
      cbn [iv_call iv_cells sg_op sg_pc sg_gas_remaining sg_cost sg_depth sg_refund sg_error sg_contract sg_stack sg_memory sg_stack_len sg_memory_len dr_state dr_db];
      destruct (four_cells (js_cells s) (Some (GState c)) (Some (GDb c)) (Some (GStack (in_stack i))) (Some (GMemory (in_memory i)))) as (-> & -> & -> & ->);
      rewrite Hi; reflexivity.
  - eapply outcome_one; [unfold js_handle, js_on_step; rewrite Hs; reflexivity| |by rewrite app_nil_r].
    unfold inv. rewrite He, Hx, Hs, Hf, Hk. done.
Qed.

Lemma reverts_eq r : return_revert r = reverts r.
Proof. by destruct r. Qed.

Lemma on_step_end s k item f0 i c :
  inv s (k ++ [item]) -> cs_contract item = spec_contract f0 ->
  outcome (k ++ [item]) s [EStepEnd i c]
    (if st && reverts (in_result i) && fa then [SFault (instr_view f0 c (Some (ir_debug (in_result i))) i)] else []).
Proof.
  intros Hinv Hi. pose proof Hinv as (He & Hx & Hs & Hf & Hk & Hp).
  destruct st eqn:Est; cbn [andb].
  2:{ eapply outcome_one; [unfold js_handle, js_on_step_end; rewrite Hs; reflexivity| |by rewrite app_nil_r].
      unfold inv. rewrite He, Hx, Hs, Hf, Hk. done. }
  destruct (reverts (in_result i)) eqn:Er; cbn [andb].
  2:{ eapply outcome_one; [unfold js_handle, js_on_step_end; rewrite Hs, reverts_eq, Er; reflexivity| |by rewrite app_nil_r].
      unfold inv. rewrite He, Hx, Hs, Hf, Hk. done. }
  destruct fa eqn:Efa.
  - eapply outcome_one.
    + unfold js_handle, js_on_step_end, active_call. rewrite Hs, reverts_eq, Er, Hk, last_snoc. cbn [negb expect rbind].
      unfold step_objects, gc_new, try_fault, set_cells, invoke. cbn [js_fault js_log js_cells js_precompiles].
      rewrite Hf. reflexivity.
    + unfold inv. cbn. split_and!; congruence.
    + unfold shown. cbn [js_log drop_guards set_cells]. rewrite map_app. cbn [map].
      unfold seen_of at 2, view_of, instr_view, g_spent.
      cbn [iv_call iv_cells sg_op sg_pc sg_gas_remaining sg_cost sg_depth sg_refund sg_error sg_contract sg_stack sg_memory sg_stack_len sg_memory_len dr_state dr_db].
      destruct (four_cells (js_cells s) (Some (GState c)) (Some (GDb c)) (Some (GStack (in_stack i))) (Some (GMemory (in_memory i)))) as (-> & -> & -> & ->).
      rewrite Hi. reflexivity.
  - eapply outcome_one.
    + unfold js_handle, js_on_step_end, active_call. rewrite Hs, reverts_eq, Er, Hk, last_snoc. cbn [negb expect rbind].
      unfold step_objects, gc_new, try_fault, set_cells, invoke. cbn [js_fault js_log js_cells js_precompiles].
      rewrite Hf. reflexivity.
    + unfold inv. cbn. split_and!; congruence.
    + rewrite app_nil_r. reflexivity.
Qed.

Definition item_of (f0 : fstart) : CallStackItem := mkCSI (spec_contract f0) (spec_kind f0) (spec_gas f0).

Lemma on_hook s k f0 d h :
  inv s (k ++ [item_of f0]) -> outcome (k ++ [item_of f0]) s [hook_event w d h] (t_hook f0 h).
Proof.
  intros (He & Hx & Hs & Hf & Hk & Hp). destruct h as [j l|a b v]; cbn [hook_event t_hook].
  - eapply outcome_one; [reflexivity| |by rewrite app_nil_r]. done.
  - destruct en eqn:Een; destruct ex eqn:Eex; cbn [app];
      (eapply outcome_one; [unfold js_handle, js_on_selfdestruct, active_call, try_enter; rewrite ?He, ?Hk, ?last_snoc;
        cbn [expect rbind]; rewrite ?He; unfold invoke; cbn [fst js_exit]; rewrite Hx; unfold try_exit; cbn [js_exit]; rewrite ?Hx; reflexivity
       |unfold inv; cbn; rewrite ?He, ?Hx, ?Hs, ?Hf, ?Hk; done|]);
      unfold shown, invoke; cbn [js_log fst]; rewrite ?map_app, ?app_nil_r, <- ?app_assoc; reflexivity.
Qed.

Lemma on_hooks d k f0 hs : forall s, inv s (k ++ [item_of f0]) ->
  outcome (k ++ [item_of f0]) s (map (hook_event w d) hs) (flat_map (t_hook f0) hs).
Proof.
  induction hs as [|h hs IH]; intros s Hs; [by apply outcome_nil|]. cbn [map flat_map].
  eapply outcome_cons; [by apply on_hook|]. apply IH.
Qed.

Lemma on_instr d k f0 o s : inv s (k ++ [item_of f0]) ->
  outcome (k ++ [item_of f0]) s (instr_events w d o) (t_instr f0 d o).
Proof.
  intros Hs. unfold instr_events, t_instr.
  eapply outcome_cons; [by apply (on_step s k (item_of f0) f0)|]. intros s1 H1.
  eapply outcome_app; [by apply on_hooks|]. intros s2 H2.
  apply (on_step_end s2 k (item_of f0) f0); done.
Qed.

Lemma is_root_snoc s k i : js_stack s = k ++ [i] -> is_root_call_active s = bool_decide (k = []).
Proof.
  intros H. unfold is_root_call_active. rewrite H, app_length. cbn [length].
  destruct k as [|x k]; [done|]. rewrite bool_decide_eq_false_2 by done. apply Nat.eqb_neq. cbn [length]. lia.
Qed.

Lemma register_false s p : js_precompiles_registered s = false -> register_precompiles s p = s.
Proof. unfold register_precompiles. by intros ->. Qed.

Lemma on_start s k d f0 : inv s k ->
  outcome (k ++ [item_of f0]) s [start_event w d f0]
    (if en && negb (bool_decide (k = [])) then [SEnter (spec_frame f0)] else []).
Proof.
  intros (He & Hx & Hs & Hf & Hk & Hp). destruct f0 as [j i|j i]; cbn [start_event].
  - assert (Hit : (let '(from, to) := match ci_scheme i with
        | CSDelegateCall | CSCallCode => (ci_target_address i, ci_bytecode_address i)
        | _ => (ci_caller i, ci_bytecode_address i) end in
        mkCSI (mkContract from to (default 0 (ci_transfer_value i)) (ci_input i)) (kind_of_scheme (ci_scheme i)) (ci_gas_limit i))
        = item_of (SCall j i)).
    { unfold item_of, spec_contract, spec_kind, spec_gas, ci_transfer_value. destruct (ci_scheme i), (ci_value i); reflexivity. }
    destruct (match ci_scheme i with
        | CSDelegateCall | CSCallCode => (ci_target_address i, ci_bytecode_address i)
        | _ => (ci_caller i, ci_bytecode_address i) end) as [from to] eqn:Eft.
    assert (Hroot : can_call_enter (push_call s (item_of (SCall j i))) = en && negb (bool_decide (k = []))).
    { unfold can_call_enter. rewrite (is_root_snoc _ k (item_of (SCall j i))) by (unfold push_call, set_stack; cbn; by rewrite Hk). cbn. by rewrite He. }
    destruct (en && negb (bool_decide (k = []))) eqn:Een.
    + apply andb_true_iff in Een as [Een Ekk].
      set (iv := mkInv (JEnter (spec_frame (SCall j i))) (js_cells s) (js_precompiles s)).
      assert (Hh : js_handle js s (ECall (ctx_of w d j) i) =
        match js (js_log s) iv with
        | Some _ => Panic PTodo
        | None => Ok (fst (invoke js (push_call s (item_of (SCall j i))) (JEnter (spec_frame (SCall j i)))), RCall i None)
        end).
      { unfold js_handle, js_on_call. rewrite register_false by done. rewrite Eft, Hit, Hroot. unfold active_call.
        unfold push_call at 1, set_stack at 1. cbn [js_stack]. rewrite last_snoc. cbn [expect rbind].
        unfold try_enter. unfold push_call at 1, set_stack at 1. cbn [js_enter]. rewrite He, Een. reflexivity. }
      destruct (js (js_log s) iv) as [err|] eqn:Ejs.
      * right. rewrite run_cons, Hh. split; [done|]. exists (js_log s), iv, (spec_frame (SCall j i)).
        split_and!; [done|cbn; by destruct (ci_scheme i)|by rewrite Ejs].
      * eapply outcome_one; [exact Hh|unfold inv; cbn; rewrite ?Hk; done|].
        rewrite shown_invoke. reflexivity.
    + eapply outcome_one.
      * unfold js_handle, js_on_call. rewrite register_false by done. rewrite Eft, Hit, Hroot. reflexivity.
      * unfold inv. cbn. rewrite Hk. done.
      * by rewrite app_nil_r.
  - assert (Hroot : can_call_enter (push_call s (item_of (SCreate j i))) = en && negb (bool_decide (k = []))).
    { unfold can_call_enter. rewrite (is_root_snoc _ k (item_of (SCreate j i))) by (unfold push_call, set_stack; cbn; by rewrite Hk). cbn. by rewrite He. }
    assert (Hit : mkCSI (mkContract (cr_caller i) (cr_created_address i) (cr_value i) (cr_init_code i)) (kind_of_create (cr_scheme i)) (cr_gas_limit i)
        = item_of (SCreate j i)) by reflexivity.
    destruct (en && negb (bool_decide (k = []))) eqn:Een.
    + apply andb_true_iff in Een as [Een Ekk].
      set (iv := mkInv (JEnter (spec_frame (SCreate j i))) (js_cells s) (js_precompiles s)).
      assert (Hh : exists r, js_handle js s (ECreate (ctx_of w d j) i) =
        Ok (fst (invoke js (push_call s (item_of (SCreate j i))) (JEnter (spec_frame (SCreate j i)))), r)).
      { unfold js_handle, js_on_create. rewrite register_false by done. rewrite Hit, Hroot. unfold active_call.
        unfold push_call at 1, set_stack at 1. cbn [js_stack]. rewrite last_snoc. cbn [expect rbind].
        unfold try_enter. unfold push_call at 1, set_stack at 1. cbn [js_enter]. rewrite He, Een.
        change (mkJsFrame (cs_contract (item_of (SCreate j i))) _ _) with (spec_frame (SCreate j i)).
        destruct (invoke js _ _) as [s1 [err|]]; cbn [fst]; eexists; reflexivity. }
      destruct Hh as [r Hh]. eapply outcome_one; [exact Hh|unfold inv; cbn; rewrite ?Hk; done|].
      rewrite shown_invoke. reflexivity.
    + eapply outcome_one.
      * unfold js_handle, js_on_create. rewrite register_false by done. rewrite Hit, Hroot. reflexivity.
      * unfold inv. cbn. rewrite Hk. done.
      * by rewrite app_nil_r.
Qed.

Lemma js_end_spec s k i r : inv s (k ++ [i]) ->
  let p := js_end js s r in
  inv (fst p) k /\ shown (fst p) = shown s ++
    (if en && ex && negb (bool_decide (k = [])) then [SExit (mkJsFrameResult (g_spent (ir_gas r)) (ir_output r) None)] else []).
Proof.
  intros (He & Hx & Hs & Hf & Hk & Hp). unfold js_end, can_call_exit. rewrite (is_root_snoc s k i Hk), He.
  destruct en eqn:Een; cbn [andb].
  2:{ cbn [fst]. unfold pop_call, set_stack, inv, shown. cbn. rewrite He, Hx, Hs, Hf, Hk, removelast_last, app_nil_r. done. }
  destruct (bool_decide (k = [])) eqn:Ek; cbn [andb negb].
  { cbn [fst]. unfold pop_call, set_stack, inv, shown. cbn. rewrite He, Hx, Hs, Hf, Hk, removelast_last, andb_false_r, app_nil_r. done. }
  unfold try_exit. rewrite Hx. destruct ex eqn:Eex; cbn [andb].
  - unfold invoke. destruct (js (js_log s) _); cbn [fst]; unfold pop_call, set_stack, inv, shown; cbn [js_enter js_exit js_step js_fault js_stack js_precompiles_registered js_log];
      rewrite He, Hx, Hs, Hf, Hk, removelast_last, map_app; done.
  - cbn [fst]. unfold pop_call, set_stack, inv, shown. cbn. rewrite He, Hx, Hs, Hf, Hk, removelast_last, app_nil_r. done.
Qed.

Lemma on_end s k i d f0 e : inv s (k ++ [i]) ->
  outcome k s [end_event w d f0 e] (if en && ex && negb (bool_decide (k = [])) then [SExit (spec_result e)] else []).
Proof.
  intros Hs. pose proof (js_end_spec s k i (fe_result e) Hs) as H. cbv zeta in H. destruct H as [H1 H2].
  destruct (js_end js s (fe_result e)) as [s' r] eqn:Ee. cbn [fst] in H1, H2.
  destruct f0 as [j ci|j ci]; cbn [end_event];
    (eapply outcome_one; [unfold js_handle, js_on_call_end, js_on_create_end; cbn [co_result cro_result cro_address];
      rewrite Ee; reflexivity|exact H1|exact H2]).
Qed.

Lemma on_frame f : forall d k s, inv s k ->
  outcome k s (frame_events w d f)
    ((if en && negb (bool_decide (k = [])) then [SEnter (spec_frame (f_start f))] else []) ++
     t_inner d f ++
     (if en && ex && negb (bool_decide (k = [])) then [SExit (spec_result (f_end f))] else [])).
Proof.
  induction f as [f0 body e IH] using frame_ind'. intros d k s Hs. cbn [frame_events f_start f_end t_inner].
  eapply outcome_cons; [by apply on_start|]. intros s1 H1.
  eapply outcome_app; [|intros s2 H2; by eapply on_end].
  clear s Hs. revert s1 H1. induction body as [|it body IHb]; intros s Hs; [by apply outcome_nil|].
  cbn [flat_map]. eapply (outcome_app (k ++ [item_of f0])).
  - destruct it as [o|h|g].
    + by apply on_instr.
    + by apply on_hook.
    + cbn [subs flat_map] in IH. change ([g] ++ ?l) with (g :: l) in IH. apply Forall_cons_1 in IH as [Hg _].
      specialize (Hg (S d) (k ++ [item_of f0]) s Hs).
      assert (Hb : bool_decide (k ++ [item_of f0] = []) = false) by (apply bool_decide_eq_false_2; by destruct k).
      rewrite Hb in Hg. cbn [negb] in Hg. rewrite !andb_true_r in Hg. exact Hg.
  - intros s' Hs'. apply IHb; [|done]. destruct it; cbn [subs flat_map] in IH; try exact IH.
    change ([f] ++ ?l) with (f :: l) in IH. by apply Forall_cons_1 in IH as [_ IH].
Qed.

Lemma on_tx f s : inv s [] -> outcome [] s (tx_events w f) (t_inner 0 f).
Proof.
  intros Hs. pose proof (on_frame f 0 [] s Hs) as H.
  rewrite (bool_decide_eq_true_2 ([] = [])) in H by done. cbn [negb] in H. rewrite !andb_false_r, app_nil_r in H. exact H.
Qed.
End Trace.

Lemma inv_new en ex st fa : inv en ex st fa (js_new_state en ex st fa) [].
Proof. done. Qed.

(** ** Projections of the calls *)

Lemma filter_flat_map {A B} (P : B -> bool) (f : A -> list B) l : List.filter P (flat_map f l) = flat_map (fun x => List.filter P (f x)) l.
Proof. induction l as [|x l IH]; [done|]. cbn [flat_map]. by rewrite List.filter_app, IH. Qed.

Lemma scopes_t_hook en ex s h : List.filter is_scope (t_hook en ex s h) = List.filter (defined en ex) (hook_scopes s h).
Proof. by destruct h, en, ex. Qed.
Lemma scopes_t_instr en ex st fa w s d o :
  List.filter is_scope (t_instr en ex st fa w s d o) = List.filter (defined en ex) (flat_map (hook_scopes s) (op_hooks o)).
Proof.
  unfold t_instr. rewrite !List.filter_app, !filter_flat_map.
  assert (H1 : List.filter is_scope (if st then [SStep (step_view w s d o)] else []) = []) by (by destruct st).
  rewrite H1. destruct (st && _ && fa); cbn [List.filter is_scope app]; rewrite ?app_nil_r;
    apply flat_map_ext; intros h; apply scopes_t_hook.
Qed.

Lemma scopes_t_inner en ex st fa w f : (en = true \/ ex = false) -> forall d,
  List.filter is_scope (t_inner en ex st fa w d f) = List.filter (defined en ex) (inner_scopes f).
Proof.
  intros Hflags. induction f as [s body e IH] using frame_ind'. intros d. cbn [t_inner inner_scopes].
  induction body as [|it body IHb]; [done|]. cbn [flat_map]. rewrite !List.filter_app. f_equal.
  2:{ apply IHb. destruct it; cbn [subs flat_map] in IH; try exact IH.
      change ([f] ++ ?l) with (f :: l) in IH. by apply Forall_cons_1 in IH as [_ IH]. }
  destruct it as [o|h|g]; [apply scopes_t_instr|apply scopes_t_hook|].
  cbn [subs flat_map] in IH. change ([g] ++ ?l) with (g :: l) in IH. apply Forall_cons_1 in IH as [Hg _].
  change (?x :: ?y ++ ?z) with ([x] ++ y ++ z). rewrite !List.filter_app, Hg. f_equal; [by destruct en|]. f_equal.
  destruct en, ex; try done. by destruct Hflags.
Qed.

(** With only [exit], the frames' exits are missing. *)
Definition hook_exits (h : hook) : list seen := match h with HSelfdestruct _ _ _ => [SExit empty_result] | _ => [] end.
Fixpoint selfdestruct_exits (f : frame) : list seen :=
  match f with
  | Frame s body e =>
      flat_map (fun it =>
        match it with IOp o => flat_map hook_exits (op_hooks o) | IHook h => hook_exits h | ISub g => selfdestruct_exits g end) body
  end.
Lemma scopes_exit_only st fa w f : forall d, List.filter is_scope (t_inner false true st fa w d f) = selfdestruct_exits f.
Proof.
  induction f as [s body e IH] using frame_ind'. intros d. cbn [t_inner selfdestruct_exits].
  induction body as [|it body IHb]; [done|]. cbn [flat_map]. rewrite List.filter_app. f_equal.
  2:{ apply IHb. destruct it; cbn [subs flat_map] in IH; try exact IH.
      change ([f] ++ ?l) with (f :: l) in IH. by apply Forall_cons_1 in IH as [_ IH]. }
  destruct it as [o|h|g].
  - rewrite scopes_t_instr, filter_flat_map. apply flat_map_ext. by intros [].
  - rewrite scopes_t_hook. by destruct h.
  - cbn [subs flat_map] in IH. change ([g] ++ ?l) with (g :: l) in IH. apply Forall_cons_1 in IH as [Hg _].
    cbn [andb app]. by rewrite app_nil_r, Hg.
Qed.

Lemma nested_app a b : nested a -> nested b -> nested (a ++ b).
Proof.
  induction 1 as [|f r inside rest H1 IH1 H2 IH2]; intros Hb; [done|].
  cbn [app]. rewrite <- app_assoc. cbn [app]. constructor; auto.
Qed.
Lemma nested_scopes f : nested (inner_scopes f).
Proof.
  induction f as [s body e IH] using frame_ind'. cbn [inner_scopes].
  assert (Hh : forall h, nested (hook_scopes s h)).
  { intros [j l|a b v]; [constructor|]. apply (nested_scope _ _ [] []); constructor. }
  assert (Hhs : forall hs, nested (flat_map (hook_scopes s) hs)).
  { induction hs; [constructor|]. cbn [flat_map]. by apply nested_app. }
  induction body as [|it body IHb]; [constructor|]. cbn [flat_map]. apply nested_app.
  2:{ apply IHb. destruct it; cbn [subs flat_map] in IH; try exact IH.
      change ([f] ++ ?l) with (f :: l) in IH. by apply Forall_cons_1 in IH as [_ IH]. }
  destruct it as [o|h|g]; [apply Hhs|apply Hh|].
  cbn [subs flat_map] in IH. change ([g] ++ ?l) with (g :: l) in IH. apply Forall_cons_1 in IH as [Hg _].
  by constructor; [|constructor].
Qed.
Lemma no_steps_t_hook P en ex s h : (forall f, P (SEnter f) = false) -> (forall r, P (SExit r) = false) ->
  List.filter P (t_hook en ex s h) = [].
Proof. intros H1 H2. destruct h, en, ex; cbn; rewrite ?H1, ?H2; cbn; rewrite ?H1, ?H2; done. Qed.
Lemma no_steps_t_hooks P en ex s hs : (forall f, P (SEnter f) = false) -> (forall r, P (SExit r) = false) ->
  List.filter P (flat_map (t_hook en ex s) hs) = [].
Proof. intros H1 H2. induction hs; [done|]. cbn [flat_map]. rewrite List.filter_app, no_steps_t_hook by done. done. Qed.

Lemma steps_t_inner P en ex st fa w f : (forall f, P (SEnter f) = false) -> (forall r, P (SExit r) = false) -> forall d,
  List.filter P (t_inner en ex st fa w d f) =
  flat_map (fun x => match x with (s, d, o) =>
    List.filter P ((if st then [SStep (step_view w s d o)] else []) ++
      (if st && reverts (in_result (op_post o)) && fa
       then [SFault (fault_view w s d o)] else [])) end) (executed d f).
Proof.
  intros H1 H2. induction f as [s body e IH] using frame_ind'. intros d. cbn [t_inner executed].
  induction body as [|it body IHb]; [done|]. cbn [flat_map]. rewrite List.filter_app, flat_map_app. f_equal.
  2:{ apply IHb. destruct it; cbn [subs flat_map] in IH; try exact IH.
      change ([f] ++ ?l) with (f :: l) in IH. by apply Forall_cons_1 in IH as [_ IH]. }
  destruct it as [o|h|g].
  - cbn [flat_map]. rewrite app_nil_r. unfold t_instr. rewrite !List.filter_app, no_steps_t_hooks by done. done.
  - cbn [flat_map]. by rewrite no_steps_t_hook.
  - cbn [subs flat_map] in IH. change ([g] ++ ?l) with (g :: l) in IH. apply Forall_cons_1 in IH as [Hg _].
    rewrite !List.filter_app, Hg. destruct en, ex; cbn [andb List.filter]; rewrite ?H1, ?H2, ?app_nil_r; done.
Qed.

(** ** Guards *)

(** Between hooks nothing is live, and every invocation can reach exactly the handles it is given. *)
Definition guarded_ok (s : JsInspector) : Prop :=
  (forall i, ~ live (js_cells s) i) /\
  Forall (fun iv => forall i, live (iv_cells iv) i <-> In i (handles (iv_call iv))) (js_log s) /\
  Forall (fun i => i < length (js_cells s))%nat (flat_map (fun iv => handles (iv_call iv)) (js_log s)) /\
  NoDup (flat_map (fun iv => handles (iv_call iv)) (js_log s)).

Lemma guarded_new en ex st fa : guarded_ok (js_new_state en ex st fa).
Proof. split; [|split; [constructor|split; constructor]]. intros i [v H]. done. Qed.

Lemma live_app {V} (h : cells V) c i : live (h ++ [c]) i <-> live h i \/ (i = length h /\ c <> None).
Proof.
  unfold live. split.
  - intros [v H]. apply lookup_app_Some in H as [H|[H1 H2]]; [left; by exists v|]. right.
    destruct (i - length h)%nat as [|n] eqn:E; [|by destruct n]. cbn in H2. injection H2 as ->. split; [lia|done].
  - intros [[v H]|[-> Hc]].
    + exists v. by apply lookup_app_l_Some.
    + destruct c as [v|]; [|done]. exists v. by apply list_lookup_middle.
Qed.
Lemma live_drop {V} (h : cells V) g i : live (gc_drop h g) i <-> live h i /\ i <> g.
Proof.
  unfold live, gc_drop. split.
  - intros [v H]. destruct (decide (i = g)) as [->|Hne].
    + destruct (decide (g < length h)%nat) as [Hl|Hl].
      * by rewrite list_lookup_insert in H.
      * rewrite list_insert_ge in H by lia. apply lookup_lt_Some in H. lia.
    + rewrite list_lookup_insert_ne in H by done. split; [by exists v|done].
  - intros [[v H] Hne]. exists v. by rewrite list_lookup_insert_ne.
Qed.

Lemma live_objects (h : cells guarded) a b c d i : (forall i, ~ live h i) ->
  live ((((h ++ [Some a]) ++ [Some b]) ++ [Some c]) ++ [Some d]) i <->
  i = length h \/ i = length (h ++ [Some a]) \/ i = length ((h ++ [Some a]) ++ [Some b]) \/
  i = length (((h ++ [Some a]) ++ [Some b]) ++ [Some c]).
Proof. intros Hd. rewrite !live_app. specialize (Hd i). naive_solver. Qed.

Lemma dropped (h : cells guarded) me sk st db i :
  (forall i, live h i -> i = st \/ i = db \/ i = sk \/ i = me) -> ~ live (fold_left gc_drop [me; sk; st; db] h) i.
Proof. intros H. cbn [fold_left]. rewrite !live_drop. intros ((((Hl & ?) & ?) & ?) & ?). apply H in Hl. naive_solver. Qed.

Lemma guarded_invoke js s c : guarded_ok s -> handles c = [] -> guarded_ok (fst (invoke js s c)).
Proof.
  intros (H1 & H2 & H3 & H4) Hh. unfold invoke. cbn [fst]. unfold guarded_ok. cbn [js_log js_cells].
  rewrite flat_map_app. cbn [flat_map iv_call]. rewrite Hh, !app_nil_r. split_and!; [done| |done|done].
  apply Forall_app. split; [done|].
  constructor; [|constructor]. cbn [iv_cells iv_call]. rewrite Hh. intros i. split; [intros Hl; by apply H1 in Hl|done].
Qed.

Lemma guarded_end js s r : guarded_ok s -> guarded_ok (fst (js_end js s r)).
Proof.
  intros Hg. unfold js_end. destruct (can_call_exit s); [|exact Hg]. unfold try_exit. destruct (js_exit s); [|exact Hg].
  pose proof (guarded_invoke js s (JExit (mkJsFrameResult (g_spent (ir_gas r)) (ir_output r) None)) Hg eq_refl) as Hi.
  destruct (invoke js s _) as [s1 [e|]]; exact Hi.
Qed.

(** A step or fault invocation: four fresh cells, dropped afterwards. *)
Lemma guarded_objects s a b c d iv cells' :
  guarded_ok s ->
  let h1 := js_cells s ++ [Some a] in let h2 := h1 ++ [Some b] in let h3 := h2 ++ [Some c] in let h4 := h3 ++ [Some d] in
  (iv = None \/ exists v, iv = Some v /\ iv_cells v = h4 /\
     handles (iv_call v) = [length h2; length h3; length (js_cells s); length h1]) ->
  cells' = fold_left gc_drop [length h3; length h2; length (js_cells s); length h1] h4 ->
  (forall i, ~ live cells' i) /\
  Forall (fun iv => forall i, live (iv_cells iv) i <-> In i (handles (iv_call iv))) (js_log s ++ option_list iv) /\
  Forall (fun i => i < length cells')%nat (flat_map (fun iv => handles (iv_call iv)) (js_log s ++ option_list iv)) /\
  NoDup (flat_map (fun iv => handles (iv_call iv)) (js_log s ++ option_list iv)).
Proof.
  intros (H1 & H2 & H3 & H4) h1 h2 h3 h4 Hiv ->.
  assert (Hlen : length (fold_left gc_drop [length h3; length h2; length (js_cells s); length h1] h4) = (length (js_cells s) + 4)%nat).
  { cbn [fold_left]. unfold gc_drop. rewrite !insert_length. unfold h4, h3, h2, h1. rewrite !app_length. cbn [length]. lia. }
  assert (L1 : length h1 = (length (js_cells s) + 1)%nat) by (unfold h1; rewrite app_length; done).
  assert (L2 : length h2 = (length (js_cells s) + 2)%nat) by (unfold h2; rewrite app_length, L1; cbn [length]; lia).
  assert (L3 : length h3 = (length (js_cells s) + 3)%nat) by (unfold h3; rewrite app_length, L2; cbn [length]; lia).
  split; [|rewrite Hlen, flat_map_app; split; [|split]].
  - intros x. apply dropped. intros y. unfold h4, h3, h2, h1. rewrite live_objects by done. naive_solver.
  - apply Forall_app. split; [done|]. destruct Hiv as [->|(v & -> & Hc & Hh)]; [constructor|].
    constructor; [|constructor]. intros x. rewrite Hc, Hh. unfold h4, h3, h2, h1. rewrite live_objects by done. cbn [In]. naive_solver.
  - apply Forall_app. split; [eapply Forall_impl; [exact H3|]; cbn; intros; lia|].
    destruct Hiv as [->|(v & -> & Hc & Hh)]; [constructor|]. change (flat_map (fun iv => handles (iv_call iv)) (option_list (Some v))) with (handles (iv_call v) ++ []). rewrite Hh, app_nil_r, L1, L2, L3.
    repeat constructor; lia.
  - apply NoDup_app. split; [done|]. destruct Hiv as [->|(v & -> & Hc & Hh)].
    { split; [|constructor]. intros x _ Hx. by apply elem_of_nil in Hx. }
    change (flat_map (fun iv => handles (iv_call iv)) (option_list (Some v))) with (handles (iv_call v) ++ []). rewrite Hh, app_nil_r, L1, L2, L3. split.
    + intros x Hx Hy. rewrite Forall_forall in H3. apply H3 in Hx.
      rewrite !elem_of_cons, elem_of_nil in Hy. lia.
    + repeat (apply NoDup_cons; split; [rewrite ?elem_of_cons, elem_of_nil; lia|]). constructor.
Qed.

Lemma guarded_step js s e s' r : guarded_ok s -> js_handle js s e = Ok (s', r) -> guarded_ok s'.
Proof.
  intros Hg. destruct e as [i c|i c|l c|c i|c i o|c i|c i o|a b v]; cbn [js_handle].
  - unfold js_on_step. destruct (js_step s) eqn:Es; cbn [negb]; [|by intros [= <- _]].
    destruct (active_call s) as [call| |]; cbn [rbind]; [|done..].
    unfold step_objects, gc_new, try_step, set_cells. cbn [js_step]. rewrite Es. unfold invoke.
    intros H. assert (Hs : s' = drop_guards (mkJs (js_enter s) (js_exit s) true (js_fault s) (js_stack s) (js_precompiles_registered s) (js_precompiles s)
        ((((js_cells s ++ [Some (GState c)]) ++ [Some (GDb c)]) ++ [Some (GStack (in_stack i))]) ++ [Some (GMemory (in_memory i))])
        (js_log s' )) [length (((js_cells s ++ [Some (GState c)]) ++ [Some (GDb c)]) ++ [Some (GStack (in_stack i))]);
          length ((js_cells s ++ [Some (GState c)]) ++ [Some (GDb c)]); length (js_cells s); length (js_cells s ++ [Some (GState c)])]
      /\ exists iv, js_log s' = js_log s ++ [iv] /\ iv_cells iv = ((((js_cells s ++ [Some (GState c)]) ++ [Some (GDb c)]) ++ [Some (GStack (in_stack i))]) ++ [Some (GMemory (in_memory i))])
      /\ handles (iv_call iv) = [length ((js_cells s ++ [Some (GState c)]) ++ [Some (GDb c)]); length (((js_cells s ++ [Some (GState c)]) ++ [Some (GDb c)]) ++ [Some (GStack (in_stack i))]);
           length (js_cells s); length (js_cells s ++ [Some (GState c)])]).
    { cbn [js_log js_cells] in H. destruct (js (js_log s) _); injection H as <- _; cbn [js_log drop_guards set_cells js_cells js_enter js_exit js_step js_fault js_stack js_precompiles_registered js_precompiles];
        (split; [reflexivity|]); eexists; (split; [reflexivity|]); split; reflexivity. }
    clear H. destruct Hs as [Hs (iv & Hl & Hc & Hh)].
    pose proof (guarded_objects s (GState c) (GDb c) (GStack (in_stack i)) (GMemory (in_memory i)) (Some iv) (js_cells s') Hg) as Ho.
    cbv zeta in Ho. unfold guarded_ok. rewrite Hl. apply Ho; [right; by exists iv|]. rewrite Hs. reflexivity.
  - unfold js_on_step_end. destruct (js_step s) eqn:Es; cbn [negb]; [|by intros [= <- _]].
    destruct (return_revert (in_result i)); [|by intros [= <- _]].
    destruct (active_call s) as [call| |]; cbn [rbind]; [|done..].
    unfold step_objects, gc_new, try_fault, set_cells. cbn [js_fault].
    destruct (js_fault s) eqn:Ef.
    + unfold invoke. cbn [js_log js_cells js_precompiles]. intros [= <- _].
      match goal with |- guarded_ok (drop_guards (mkJs _ _ _ _ _ _ _ _ (_ ++ [?v])) _) =>
        pose proof (fun h => guarded_objects s (GState c) (GDb c) (GStack (in_stack i)) (GMemory (in_memory i)) (Some v) h Hg) as Ho end.
      cbv zeta in Ho. specialize (Ho _ ltac:(right; eexists; split_and!; reflexivity) eq_refl). exact Ho.
    + intros [= <- _].
      pose proof (fun h => guarded_objects s (GState c) (GDb c) (GStack (in_stack i)) (GMemory (in_memory i)) None h Hg) as Ho.
      cbv zeta in Ho. change (option_list None) with (@nil invocation) in Ho. rewrite app_nil_r in Ho. specialize (Ho _ ltac:(by left) eq_refl). exact Ho.
  - by intros [= <- _].
  - unfold js_on_call. assert (Hr : guarded_ok (register_precompiles s (cx_precompiles c))) by (unfold register_precompiles; by destruct (negb _)).
    revert Hr. generalize (register_precompiles s (cx_precompiles c)). clear s Hg. intros s Hg.
    destruct (match ci_scheme i with CSDelegateCall | CSCallCode => _ | _ => _ end) as [from to].
    destruct (can_call_enter _); [|by intros [= <- _]].
    destruct (active_call _) as [call| |]; cbn [rbind]; [|done..]. unfold try_enter. cbn [js_enter push_call set_stack].
    destruct (js_enter s); [|by intros [= <- _]].
    pose proof (guarded_invoke js (push_call s (mkCSI (mkContract from to (default 0 (ci_transfer_value i)) (ci_input i)) (kind_of_scheme (ci_scheme i)) (ci_gas_limit i)))
      (JEnter (mkJsFrame (cs_contract call) (cs_kind call) (ci_gas_limit i))) Hg eq_refl) as Hi.
    destruct (invoke js _ _) as [s1 err]. destruct err; [done|]. intros [= <- _]. exact Hi.
  - unfold js_on_call_end. pose proof (guarded_end js s (co_result o) Hg). destruct (js_end js s (co_result o)). by intros [= <- _].
  - unfold js_on_create. assert (Hr : guarded_ok (register_precompiles s (cx_precompiles c))) by (unfold register_precompiles; by destruct (negb _)).
    revert Hr. generalize (register_precompiles s (cx_precompiles c)). clear s Hg. intros s Hg.
    destruct (can_call_enter _); [|by intros [= <- _]].
    destruct (active_call _) as [call| |]; cbn [rbind]; [|done..]. unfold try_enter. cbn [js_enter push_call set_stack].
    destruct (js_enter s); [|by intros [= <- _]].
    pose proof (guarded_invoke js (push_call s (mkCSI (mkContract (cr_caller i) (cr_created_address i) (cr_value i) (cr_init_code i)) (kind_of_create (cr_scheme i)) (cr_gas_limit i)))
      (JEnter (mkJsFrame (cs_contract call) (cs_kind call) (cs_gas_limit call))) Hg eq_refl) as Hi.
    destruct (invoke js _ _) as [s1 err]. destruct err; intros [= <- _]; exact Hi.
  - unfold js_on_create_end. pose proof (guarded_end js s (cro_result o) Hg). destruct (js_end js s (cro_result o)). by intros [= <- _].
  - unfold js_on_selfdestruct. destruct (js_enter s) eqn:Ee.
    + destruct (active_call s) as [call| |]; cbn [rbind]; [|done..]. unfold try_enter. rewrite Ee.
      pose proof (guarded_invoke js s (JEnter (mkJsFrame (cs_contract call) (cs_kind call) (cs_gas_limit call))) Hg eq_refl) as Hi.
      destruct (invoke js s _) as [s1 err]. cbn [fst] in *. unfold try_exit. destruct (js_exit s1); [|by intros [= <- _]].
      pose proof (guarded_invoke js s1 (JExit (mkJsFrameResult 0 [] None)) Hi eq_refl) as Hi2. by intros [= <- _].
    + cbn [rbind]. unfold try_exit. destruct (js_exit s); [|by intros [= <- _]].
      pose proof (guarded_invoke js s (JExit (mkJsFrameResult 0 [] None)) Hg eq_refl) as Hi2. by intros [= <- _].
Qed.

Lemma guarded_run js es s s' : guarded_ok s -> run (js_handle js) s es = Ok s' -> guarded_ok s'.
Proof.
  intros Hg. apply (rfold_inv _ guarded_ok (fun _ => True)); [|done|by apply Forall_forall].
  intros s1 e s2 H1 _ H2. destruct (js_handle js s1 e) as [[s3 r]| |] eqn:E; [|done..]. injection H2 as <-. by eapply guarded_step.
Qed.

(** ** Precompiles *)

Lemma registered_step js s e s' r : js_precompiles_registered s = false -> js_precompiles s = None ->
  js_handle js s e = Ok (s', r) -> js_precompiles_registered s' = false /\ js_precompiles s' = None.
Proof.
  intros H1 H2. assert (Hinv : forall s c, js_precompiles_registered s = false /\ js_precompiles s = None ->
    js_precompiles_registered (fst (invoke js s c)) = false /\ js_precompiles (fst (invoke js s c)) = None) by done.
  assert (Hend : forall r, js_precompiles_registered (fst (js_end js s r)) = false /\ js_precompiles (fst (js_end js s r)) = None).
  { intros r'. unfold js_end. destruct (can_call_exit s); [|done]. unfold try_exit. destruct (js_exit s); [|done].
    unfold invoke. by destruct (js (js_log s) _). }
  destruct e as [i c|i c|l c|c i|c i o|c i|c i o|a b v]; cbn [js_handle].
  - unfold js_on_step. destruct (negb (js_step s)); [by intros [= <- _]|].
    destruct (active_call s) as [call| |]; cbn [rbind]; [|done..]. unfold step_objects, gc_new, try_step, set_cells. cbn [js_step].
    destruct (js_step s); [unfold invoke; destruct (js _ _)|]; by intros [= <- _].
  - unfold js_on_step_end. destruct (negb (js_step s)); [by intros [= <- _]|]. destruct (return_revert _); [|by intros [= <- _]].
    destruct (active_call s) as [call| |]; cbn [rbind]; [|done..]. unfold step_objects, gc_new, try_fault, set_cells. cbn [js_fault].
    destruct (js_fault s); [unfold invoke|]; by intros [= <- _].
  - by intros [= <- _].
  - unfold js_on_call. rewrite register_false by done. destruct (match ci_scheme i with CSDelegateCall | CSCallCode => _ | _ => _ end) as [from to].
    destruct (can_call_enter _); [|by intros [= <- _]]. destruct (active_call _) as [call| |]; cbn [rbind]; [|done..].
    unfold try_enter. cbn [js_enter push_call set_stack]. destruct (js_enter s); [|by intros [= <- _]].
    unfold invoke. destruct (js _ _); [done|]. by intros [= <- _].
  - unfold js_on_call_end. specialize (Hend (co_result o)). destruct (js_end js s (co_result o)). by intros [= <- _].
  - unfold js_on_create. rewrite register_false by done.
    destruct (can_call_enter _); [|by intros [= <- _]]. destruct (active_call _) as [call| |]; cbn [rbind]; [|done..].
    unfold try_enter. cbn [js_enter push_call set_stack]. destruct (js_enter s); [|by intros [= <- _]].
    unfold invoke. destruct (js _ _); by intros [= <- _].
  - unfold js_on_create_end. specialize (Hend (cro_result o)). destruct (js_end js s (cro_result o)). by intros [= <- _].
  - unfold js_on_selfdestruct. destruct (js_enter s) eqn:Ee.
    + destruct (active_call s) as [call| |]; cbn [rbind]; [|done..]. unfold try_enter. rewrite Ee. unfold invoke. cbn [fst js_exit].
      unfold try_exit. cbn [js_exit]. destruct (js_exit s); by intros [= <- _].
    + cbn [rbind]. unfold try_exit. destruct (js_exit s); by intros [= <- _].
Qed.
Lemma registered_run js es s s' : js_precompiles_registered s = false -> js_precompiles s = None ->
  run (js_handle js) s es = Ok s' -> js_precompiles s' = None.
Proof.
  intros H1 H2 H. assert (Hs : js_precompiles_registered s' = false /\ js_precompiles s' = None); [|by destruct Hs].
  revert H. apply (rfold_inv _ (fun s => js_precompiles_registered s = false /\ js_precompiles s = None) (fun _ => True)); [|done|by apply Forall_forall].
  intros s1 e s2 [H3 H4] _ H5. destruct (js_handle js s1 e) as [[s3 r]| |] eqn:E; [|done..]. injection H5 as <-. by eapply registered_step.
Qed.

(** ** Reactions *)

Lemma handle_reaction js s e s' r : js_handle js s e = Ok (s', r) ->
  untouched e r \/ exists h iv err, js h iv = Some err /\ aborted err e r.
Proof.
  assert (Hend : forall o, snd (js_end js s o) = o \/
    exists h iv err, js h iv = Some err /\ error_revert err (snd (js_end js s o))).
  { intros o. unfold js_end. destruct (can_call_exit s); [|by left]. unfold try_exit. destruct (js_exit s); [|by left].
    unfold invoke. destruct (js (js_log s) _) as [err|] eqn:E; [|by left]. right. eexists _, _, err. split; [exact E|]. done. }
  destruct e as [i c|i c|j l|c i|c i o|c i|c i o|a b v]; cbn [js_handle].
  - unfold js_on_step. destruct (js_step s) eqn:Es; cbn [negb]; [|intros [= <- <-]; by left].
    unfold active_call. destruct (last (js_stack s)) as [call|]; cbn [expect rbind]; [|done].
    unfold step_objects, gc_new, try_step, set_cells, invoke. cbn [js_step js_log js_cells js_precompiles]. rewrite Es.
    match goal with |- context [js ?h ?iv] => destruct (js h iv) as [err|] eqn:E end; intros [= <- <-]; [|by left].
    right. eexists _, _, err. split; [exact E|]. done.
  - unfold js_on_step_end. destruct (js_step s) eqn:Es; cbn [negb]; [|intros [= <- <-]; by left].
    destruct (return_revert (in_result i)); [|intros [= <- <-]; by left].
    unfold active_call. destruct (last (js_stack s)) as [call|]; cbn [expect rbind]; [|done].
    unfold step_objects, gc_new. destruct (try_fault _ _ _ _) as [s2 x]. intros [= <- <-]. by left.
  - intros [= <- <-]. by left.
  - unfold js_on_call. set (s0 := register_precompiles s _). clearbody s0.
    destruct (match ci_scheme i with CSDelegateCall | CSCallCode => _ | _ => _ end) as [from to].
    match goal with |- context [can_call_enter ?x] => set (s1 := x) end. clearbody s1.
    destruct (can_call_enter s1); [|intros [= <- <-]; by left].
    unfold active_call. destruct (last (js_stack s1)); cbn [expect rbind]; [|done].
    destruct (try_enter _ _ _) as [s2 [err|]]; [done|]. intros [= <- <-]. by left.
  - unfold js_on_call_end. destruct (Hend (co_result o)) as [He|(h & iv & err & H1 & H2)];
      destruct (js_end js s (co_result o)) as [s1 r1]; cbn [snd] in *; intros [= <- <-].
    + left. cbn. subst r1. by destruct o.
    + right. by exists h, iv, err.
  - unfold js_on_create. set (s0 := register_precompiles s _). clearbody s0.
    match goal with |- context [can_call_enter ?x] => set (s1 := x) end. clearbody s1.
    destruct (can_call_enter s1); [|intros [= <- <-]; by left].
    unfold active_call. destruct (last (js_stack s1)); cbn [expect rbind]; [|done].
    unfold try_enter. destruct (js_enter s1); [|intros [= <- <-]; by left].
    unfold invoke. destruct (js (js_log s1) _) as [err|] eqn:E; intros [= <- <-]; [|by left].
    right. eexists _, _, err. split; [exact E|]. done.
  - unfold js_on_create_end. destruct (Hend (cro_result o)) as [He|(h & iv & err & H1 & H2)];
      destruct (js_end js s (cro_result o)) as [s1 r1]; cbn [snd] in *; intros [= <- <-].
    + left. cbn. subst r1. by destruct o.
    + right. by exists h, iv, err.
  - unfold js_on_selfdestruct. destruct (js_enter s).
    + unfold active_call. destruct (last (js_stack s)); cbn [expect rbind]; [|done].
      destruct (js_exit _); intros [= <- <-]; by left.
    + cbn [rbind]. destruct (js_exit s); intros [= <- <-]; by left.
Qed.

(** ** Exits *)

Lemma exits_inner f : Forall2 (fun x e => x = SExit (match e with Some e => spec_result e | None => empty_result end))
  (List.filter is_exit (inner_scopes f)) (scope_ends f).
Proof.
  induction f as [s body e IH] using frame_ind'. cbn [inner_scopes scope_ends].
  assert (Hh : forall hs, Forall2 (fun x e => x = SExit (match e with Some e => spec_result e | None => empty_result end))
    (List.filter is_exit (flat_map (hook_scopes s) hs)) (flat_map hook_ends hs)).
  { induction hs as [|[j l|a b v] hs IHh]; [constructor|exact IHh|]. cbn [flat_map hook_scopes hook_ends].
    cbn. constructor; [done|exact IHh]. }
  induction body as [|it body IHb]; [constructor|]. cbn [flat_map]. rewrite List.filter_app. apply Forall2_app.
  2:{ apply IHb. destruct it; cbn [subs flat_map] in IH; try exact IH.
      change ([f] ++ ?l) with (f :: l) in IH. by apply Forall_cons_1 in IH as [_ IH]. }
  destruct it as [o|h|g]; [apply Hh| |].
  - specialize (Hh [h]). cbn [flat_map] in Hh. by rewrite !app_nil_r in Hh.
  - change (subs (ISub g :: body)) with (g :: subs body) in IH. apply Forall_cons_1 in IH as [IH _].
    cbn [List.filter is_exit]. rewrite List.filter_app. apply Forall2_app; [exact IH|]. cbn. by constructor.
Qed.

Lemma filter_filter_sub {A} (P Q : A -> bool) l : (forall x, P x = true -> Q x = true) ->
  List.filter P (List.filter Q l) = List.filter P l.
Proof.
  intros H. induction l as [|x l IH]; [done|]. cbn [List.filter]. destruct (Q x) eqn:Eq; cbn [List.filter]; destruct (P x) eqn:Ep.
  - by rewrite IH.
  - done.
  - apply H in Ep. congruence.
  - done.
Qed.
Lemma filter_none {A} (P : A -> bool) l : (forall x, P x = false) -> List.filter P l = [].
Proof. intros H. induction l as [|x l IH]; [done|]. cbn [List.filter]. by rewrite H. Qed.

(** ** Retained handles *)

Lemma handles_distinct (log : list invocation) p q a b i :
  NoDup (flat_map (fun iv => handles (iv_call iv)) log) -> (p < q)%nat -> log !! p = Some a -> log !! q = Some b ->
  In i (handles (iv_call a)) -> In i (handles (iv_call b)) -> False.
Proof.
  revert p q. induction log as [|x log IH]; intros p q Hn Hpq Ha Hb Hi Hj; [done|]. cbn [flat_map] in Hn.
  apply NoDup_app in Hn as (H1 & H2 & H3). destruct q as [|q]; [lia|]. cbn in Hb. destruct p as [|p]; cbn in Ha.
  - injection Ha as ->. apply (H2 i); [by apply elem_of_list_In|]. apply elem_of_list_In, in_flat_map. exists b.
    split; [|done]. by apply elem_of_list_In, (elem_of_list_lookup_2 log q).
  - apply (IH p q); done || lia.
Qed.
