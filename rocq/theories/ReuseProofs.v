(** * ReuseProofs: a history recorded on top of an earlier recording *)

From Verif Require Export SpecReuse ParityProofs SpecExec TxFacts HistoryProofs TxTextProofs OrderingProofs.

Section Added.
  Context (r : CallTraceNode) (rs : list CallTraceNode).
  Notation k := (length rs).
  Notation mv := (moved_idx k).

  (** What becomes of node [i] of the later recording. *)
  Definition lift (i : nat) (n : CallTraceNode) : CallTraceNode :=
    if i =? 0 then
      mkNode None (nd_children r ++ (mv <$> nd_children n)) 0 (nd_trace n) (nd_logs r ++ nd_logs n)
        (nd_ordering r ++ (moved_member (length (nd_children r)) (length (nd_logs r)) <$> nd_ordering n))
    else moved_node k n.

  Lemma lift_trace i n : nd_trace (lift i n) = nd_trace n.
  Proof. unfold lift. by destruct (i =? 0). Qed.
  Lemma added_cons n ns : added (r :: rs) (n :: ns) = lift 0 n :: rs ++ (moved_node k <$> ns).
  Proof. done. Qed.
  Lemma added_lookup ns i n : ns !! i = Some n -> added (r :: rs) ns !! mv i = Some (lift i n).
  Proof.
    destruct ns as [|m ns]; [done|]. rewrite added_cons. unfold moved_idx. destruct i as [|i]; [by intros [= <-]|].
    intros H. change (ns !! i = Some n) in H. change ((rs ++ (moved_node k <$> ns)) !! (i + k) = Some (lift (S i) n)).
    rewrite lookup_app_r by lia. replace (i + k - k) with i by lia. rewrite list_lookup_fmap, H. done.
  Qed.
  Lemma added_length ns : ns <> [] -> length (added (r :: rs) ns) = mv (length ns).
  Proof. destruct ns as [|m ns]; [done|]. intros _. rewrite added_cons. cbn. rewrite app_length, fmap_length. lia. Qed.
  Lemma added_insert ns i n : i < length ns -> <[mv i := lift i n]> (added (r :: rs) ns) = added (r :: rs) (<[i := n]> ns).
  Proof.
    destruct ns as [|m ns]; [cbn; lia|]. intros Hi. rewrite added_cons. unfold moved_idx. destruct i as [|i]; [done|].
    change (lift 0 m :: <[i + k := moved_node k n]> (rs ++ (moved_node k <$> ns)) =
      lift 0 m :: rs ++ (moved_node k <$> <[i := n]> ns)). f_equal. rewrite insert_app_r_alt by lia.
    replace (i + k - k) with i by lia. by rewrite list_fmap_insert.
  Qed.
  Lemma added_snoc ns n : ns <> [] -> added (r :: rs) (ns ++ [n]) = added (r :: rs) ns ++ [moved_node k n].
  Proof.
    destruct ns as [|m ns]; [done|]. intros _. rewrite <- app_comm_cons, !added_cons, fmap_app. cbn. by rewrite <- app_assoc.
  Qed.

  Lemma added_index ns i n : index ns i = Ok n -> index (added (r :: rs) ns) (mv i) = Ok (lift i n).
  Proof.
    unfold index. destruct (ns !! i) eqn:E; [|done]. intros [= ->]. by rewrite (added_lookup _ _ _ E).
  Qed.
  Lemma added_update ns i f g ns' : (forall n, ns !! i = Some n -> g (lift i n) = lift i (f n)) ->
    update ns i f = Ok ns' -> update (added (r :: rs) ns) (mv i) g = Ok (added (r :: rs) ns') /\ ns' <> [].
  Proof.
    intros Hg. unfold update. destruct (ns !! i) as [n|] eqn:E; [|done]. intros [= <-].
    rewrite (added_lookup _ _ _ E), Hg by done. rewrite added_insert by (by eapply lookup_lt_Some). split; [done|].
    intros H. apply (f_equal length) in H. rewrite insert_length in H. apply lookup_lt_Some in E. cbn in H. lia.
  Qed.

  Lemma mv_eqb i : (mv i =? 0) = (i =? 0).
  Proof. unfold moved_idx. by destruct i. Qed.

  (** ** Node updates *)
  Lemma lift_set_trace i n t : nd_set_trace (lift i n) t = lift i (nd_set_trace n t).
  Proof. unfold lift. by destruct (i =? 0). Qed.
  Lemma lift_push_step i n st : push_step st (lift i n) = lift i (push_step st n).
  Proof.
    unfold lift, push_step. destruct (i =? 0); cbn; [|done]. by rewrite fmap_app, app_assoc.
  Qed.
  Lemma lift_push_log i n l : push_log l (lift i n) = lift i (push_log l n).
  Proof.
    unfold lift, push_log. destruct (i =? 0); cbn; [|done]. by rewrite fmap_app, !app_assoc, app_length.
  Qed.
  Lemma lift_attach i n id : id <> 0 -> attach_child (mv id) (lift i n) = lift i (attach_child id n).
  Proof.
    intros Hid. unfold lift, attach_child. destruct (i =? 0); cbn.
    - by rewrite !fmap_app, !app_assoc, app_length, fmap_length.
    - unfold moved_node. cbn. by rewrite fmap_app, fmap_length.
  Qed.

  Lemma last_app_some {A} (l l' : list A) x : last l' = Some x -> last (l ++ l') = Some x.
  Proof. intros H. rewrite last_app. by rewrite H. Qed.
  Lemma lift_last_child i n c : last (nd_children n) = Some c -> last (nd_children (lift i n)) = Some (mv c).
  Proof.
    intros H. unfold lift. destruct (i =? 0); cbn; [apply last_app_some|]; rewrite fmap_last, H; done.
  Qed.

  (** ** Starting a call *)
  Lemma added_push fuel : forall fuel' ns entry kind t ns' id, fuel <= fuel' -> ns <> [] ->
    push_trace_loop fuel ns entry kind t = Ok (ns', id) ->
    push_trace_loop fuel' (added (r :: rs) ns) (mv entry) kind t = Ok (added (r :: rs) ns', mv id) /\ ns' <> [].
  Proof.
    induction fuel as [|fuel IH]; intros [|fuel'] ns entry kind t ns' id Hf Hne; [done|done|lia|].
    cbn [push_trace_loop]. destruct (tr_depth t) as [|d] eqn:Ed.
    - intros H. inv_bind H. injection H as <- <-. change 0 with (mv 0) at 1.
      destruct (added_update ns 0 _ (fun n => nd_set_trace n t) _ (fun n _ => lift_set_trace 0 n t) E) as [-> Hn]. done.
    - intros H. inv_bind H. rename a into e. rewrite (added_index _ _ _ E). cbn [rbind]. rewrite lift_trace.
      destruct (tr_depth (nd_trace e) =? d).
      + inv_bind H. injection H as <- <-. rewrite added_length by done.
        replace (added (r :: rs) ns ++ [mkNode (Some (mv entry)) [] (mv (length ns)) t [] []])
          with (added (r :: rs) (ns ++ [mkNode (Some entry) [] (length ns) t [] []])) by (by rewrite added_snoc).
        destruct (is_attach_to_parent kind).
        * destruct (added_update _ entry (attach_child (length ns)) (attach_child (mv (length ns))) _
            (fun n _ => lift_attach entry n (length ns) ltac:(by destruct ns)) E0) as [-> Hn]. done.
        * injection E0 as <-. split; [done|]. by destruct ns.
      + inv_bind H. unfold expect in E0 |- *. destruct (last (nd_children e)) as [c|] eqn:El; [|done]. injection E0 as ->.
        rewrite (lift_last_child _ _ _ El). cbn [rbind]. apply IH; [lia|done|done].
  Qed.

  Lemma added_push_trace ns kind t ns' id : ns <> [] -> push_trace ns 0 kind t = Ok (ns', id) ->
    push_trace (added (r :: rs) ns) 0 kind t = Ok (added (r :: rs) ns', mv id) /\ ns' <> [].
  Proof.
    intros Hne. unfold push_trace. change 0 with (mv 0) at 2. apply added_push; [|done]. rewrite added_length by done.
    unfold moved_idx. destruct ns as [|n ns]; [done|]. cbn. lia.
  Qed.

  (** ** The simulation *)
  Definition moved_step (x : StackStep) : StackStep := mkStackStep (ss_record x) (mv (ss_trace_idx x)) (ss_step_idx x).
  Record sim (below : list StackStep) (t s : TracingInspector) : Prop := {
    sim_config : ti_config s = ti_config t;
    sim_traces : ti_traces s = added (r :: rs) (ti_traces t);
    sim_some : ti_traces t <> [];
    sim_stack : ti_trace_stack s = mv <$> ti_trace_stack t;
    sim_steps : ti_step_stack s = (moved_step <$> ti_step_stack t) ++ below;
    sim_spec : ti_spec_id s = ti_spec_id t }.

  Context (below : list StackStep).

  Lemma sim_start t s c a inp v kd cl gl mp t' : sim below t s ->
    start_trace_on_call t c a inp v kd cl gl mp = Ok t' ->
    exists s', start_trace_on_call s c a inp v kd cl gl mp = Ok s' /\ sim below t' s'.
  Proof.
    intros [S1 S2 S3 S4 S5 S6]. unfold start_trace_on_call. rewrite S4. cbn zeta.
    destruct (ti_trace_stack t) as [|x xs] eqn:Est; cbn [fmap list_fmap].
    - intros H. inv_bind H. destruct a0 as [ns' id]. injection H as <-. rewrite S2.
      destruct (added_push_trace _ _ _ _ _ S3 E) as [-> Hn]. cbn [rbind fst snd]. eexists. split; [reflexivity|]. by split.
    - intros H. inv_bind H. destruct a0 as [ns' id]. injection H as <-. rewrite S2.
      destruct (added_push_trace _ _ _ _ _ S3 E) as [-> Hn]. cbn [rbind fst snd]. eexists. split; [reflexivity|]. by split.
  Qed.

  Lemma sim_end t s c res cr t' : sim below t s -> fill_trace_on_call_end t c res cr = Ok t' ->
    exists s', fill_trace_on_call_end s c res cr = Ok s' /\ sim below t' s'.
  Proof.
    intros [S1 S2 S3 S4 S5 S6]. unfold fill_trace_on_call_end. rewrite S4, S2.
    destruct (ti_trace_stack t) as [|x xs] eqn:Est; [done|]. cbn [fmap list_fmap]. rewrite mv_eqb.
    intros H. inv_bind H. injection H as <-.
    destruct (added_update _ x _ (fun n => nd_set_trace n (fill_trace (x =? 0) (cx_spec c) res cr (nd_trace n))) _
      (fun n _ => eq_trans (f_equal (fun t => nd_set_trace (lift x n) (fill_trace (x =? 0) (cx_spec c) res cr t)) (lift_trace x n))
         (lift_set_trace x n _)) E) as [-> Hn]. cbn [rbind].
    eexists. split; [reflexivity|]. by split.
  Qed.

  Lemma sim_last t s f t' : sim below t s -> (forall i n, f (lift i n) = lift i (f n)) ->
    on_last_trace t f = Ok t' -> exists s', on_last_trace s f = Ok s' /\ sim below t' s'.
  Proof.
    intros [S1 S2 S3 S4 S5 S6] Hf. unfold on_last_trace, ti_last_trace_idx. rewrite S4, S2.
    destruct (ti_trace_stack t) as [|x xs] eqn:Est; [done|]. cbn [fmap list_fmap head expect rbind].
    intros H. inv_bind H. injection H as <-. destruct (added_update _ x _ f _ (fun n _ => Hf x n) E) as [-> Hn]. cbn [rbind].
    eexists. split; [reflexivity|]. split; cbn; done.
  Qed.

  Lemma sim_step t s i c t' : sim below t s -> start_step t i c = Ok t' ->
    exists s', start_step s i c = Ok s' /\ sim below t' s'.
  Proof.
    intros [S1 S2 S3 S4 S5 S6]. unfold start_step, ti_last_trace_idx. rewrite S4, S2, S1.
    destruct (ti_trace_stack t) as [|x xs] eqn:Est; [done|]. cbn [fmap list_fmap head expect rbind].
    intros H. inv_bind H. rename a into n. rewrite (added_index _ _ _ E). cbn [rbind]. rewrite lift_trace.
    destruct (negb (should_record_opcode (ti_config t) (in_op i))).
    - injection H as <-. eexists. split; [reflexivity|]. split; cbn; try done; [by rewrite S5].
    - inv_bind H. injection H as <-.
      destruct (added_update _ x _ (push_step (new_step (ti_config t) (last (tr_steps (nd_trace n))) i c)) _
        (fun m _ => lift_push_step x m _) E0) as [-> Hn]. cbn [rbind].
      eexists. split; [reflexivity|]. split; cbn; try done; [by rewrite S5].
  Qed.

  Lemma sim_step_end t s i c t' : sim below t s -> fill_step_on_step_end t i c = Ok t' ->
    exists s', fill_step_on_step_end s i c = Ok s' /\ sim below t' s'.
  Proof.
    intros [S1 S2 S3 S4 S5 S6]. unfold fill_step_on_step_end. rewrite S5, S2, S1.
    destruct (ti_step_stack t) as [|[rc ti si] xs] eqn:Est; [done|]. cbn [fmap list_fmap app moved_step ss_record ss_trace_idx ss_step_idx].
    destruct (negb rc).
    - intros [= <-]. eexists. split; [reflexivity|]. by split.
    - intros H. inv_bind H. rename a into n. rewrite (added_index _ _ _ E). cbn [rbind]. rewrite lift_trace.
      inv_bind H. cbn [rbind]. inv_bind H. cbn [rbind]. inv_bind H. injection H as <-.
      destruct (added_update _ ti _ (set_step si a0) _
        (fun m _ => eq_trans (f_equal (fun t => nd_set_trace (lift ti m) (tr_set_steps t (<[si := a0]> (tr_steps t)))) (lift_trace ti m))
           (lift_set_trace ti m _)) E2) as [-> Hn]. cbn [rbind].
      eexists. split; [reflexivity|]. by split.
  Qed.

  Lemma sim_active t s p : sim below t s -> ti_active_trace t = Ok p ->
    exists p', ti_active_trace s = Ok p' /\ nd_trace <$> p' = nd_trace <$> p.
  Proof.
    intros [S1 S2 S3 S4 S5 S6]. unfold ti_active_trace. rewrite S4, S2.
    destruct (ti_trace_stack t) as [|x xs]; cbn [fmap list_fmap]; [intros [= <-]; by exists None|].
    intros H. inv_bind H. injection H as <-. rewrite (added_index _ _ _ E). eexists. split; [reflexivity|].
    cbn. by rewrite lift_trace.
  Qed.

  Lemma sim_deep t s : sim below t s -> ti_is_deep s = ti_is_deep t.
  Proof. intros [S1 S2 S3 S4 S5 S6]. unfold ti_is_deep. rewrite S4. by destruct (ti_trace_stack t). Qed.

  Lemma sim_handle t s e t' o : sim below t s -> ti_handle t e = Ok (t', o) ->
    exists s', ti_handle s e = Ok (s', o) /\ sim below t' s'.
  Proof.
    intros HS. pose proof (sim_config _ _ _ HS) as Hc. destruct e as [i c|i c|l c|c i|c i oc|c i|c i oc|a b v]; cbn [ti_handle].
    - rewrite Hc. destruct (record_steps (ti_config t)); intros H; inv_bind H; injection H as <- <-.
      + destruct (sim_step _ _ _ _ _ HS E) as (s' & -> & HS'). cbn [rbind]. eauto.
      + injection E as <-. cbn [rbind]. eauto.
    - rewrite Hc. destruct (record_steps (ti_config t)); intros H; inv_bind H; injection H as <- <-.
      + destruct (sim_step_end _ _ _ _ _ HS E) as (s' & -> & HS'). cbn [rbind]. eauto.
      + injection E as <-. cbn [rbind]. eauto.
    - rewrite Hc. destruct (record_logs (ti_config t)); intros H; inv_bind H; injection H as <- <-.
      + destruct (sim_last _ _ _ _ HS (fun i n => lift_push_log i n l) E) as (s' & -> & HS'). cbn [rbind]. eauto.
      + injection E as <-. cbn [rbind]. eauto.
    - intros H. inv_bind H. injection H as <- <-. unfold ti_call in E |- *. destruct (call_from_to i) as [fr to].
      inv_bind E. rename a0 into v.
      assert (Hv : match ci_scheme i with
        | CSDelegateCall => let! parent := ti_active_trace s in
            Ok (match parent with Some p => tr_value (nd_trace p) | None => ci_call_value i end)
        | _ => Ok (ci_call_value i) end = Ok v).
      { destruct (ci_scheme i); try done. inv_bind E0. destruct (sim_active _ _ _ HS E1) as (p' & -> & Hp). cbn [rbind].
        rewrite <- E0. destruct p' as [p'|], a0 as [p|]; try done. cbn in Hp. by injection Hp as ->. }
      rewrite Hv. cbn [rbind]. unfold ti_is_precompile_call in E |- *. rewrite Hc, (sim_deep _ _ HS).
      destruct (sim_start _ _ _ _ _ _ _ _ _ _ _ HS E) as (s' & -> & HS'). cbn [rbind]. eauto.
    - intros H. inv_bind H. injection H as <- <-. destruct (sim_end _ _ _ _ _ _ HS E) as (s' & -> & HS'). cbn [rbind]. eauto.
    - intros H. inv_bind H. injection H as <- <-. unfold ti_create in E |- *.
      destruct (sim_start _ _ _ _ _ _ _ _ _ _ _ HS E) as (s' & -> & HS'). cbn [rbind]. eauto.
    - intros H. inv_bind H. injection H as <- <-. destruct (sim_end _ _ _ _ _ _ HS E) as (s' & -> & HS'). cbn [rbind]. eauto.
    - intros H. inv_bind H. injection H as <- <-.
      assert (G : forall i n, mark_selfdestruct a b v (lift i n) = lift i (mark_selfdestruct a b v n)).
      { intros i n. unfold mark_selfdestruct. rewrite lift_trace. apply lift_set_trace. }
      destruct (sim_last _ _ _ _ HS G E) as (s' & -> & HS'). cbn [rbind]. eauto.
  Qed.

  Lemma sim_run es : forall t s t', sim below t s -> ti_run t es = Ok t' -> exists s', ti_run s es = Ok s' /\ sim below t' s'.
  Proof.
    induction es as [|e es IH]; intros t s t' HS; unfold ti_run, run; cbn [rfold]; [intros [= <-]; eauto|].
    intros H. inv_bind H. unfold rmap in E. destruct (ti_handle t e) as [[t1 o]| |] eqn:Eh; try done. injection E as <-.
    destruct (sim_handle _ _ _ _ _ HS Eh) as (s1 & Es & HS1). unfold rmap. rewrite Es. cbn [rbind fst]. by eapply IH.
  Qed.
End Added.

(** ** The first event of the later history *)

Lemma sim_root cfg s e r rs t o : ti_config s = cfg -> ti_traces s = r :: rs -> nd_parent r = None -> nd_idx r = 0 ->
  ti_trace_stack s = [] -> is_root_start e = true -> ti_handle (ti_new cfg) e = Ok (t, o) ->
  exists s', ti_handle s e = Ok (s', o) /\ sim r rs (ti_step_stack s) t s'.
Proof.
  intros Hc Ht Hp Hi Hs He. subst cfg.
  assert (G : forall c a inp v kd cl gl mp t, cx_depth c = 0 ->
    start_trace_on_call (ti_new (ti_config s)) c a inp v kd cl gl mp = Ok t ->
    exists s', start_trace_on_call s c a inp v kd cl gl mp = Ok s' /\ sim r rs (ti_step_stack s) t s').
  { clear - Hs Ht Hp Hi. intros c a inp v kd cl gl mp t Hd. unfold start_trace_on_call. cbn [ti_new ti_trace_stack ti_traces].
    rewrite Hs, Ht. unfold push_trace, push_trace_loop. cbn [new_trace_of tr_depth]. rewrite Hd. cbn. intros [= <-].
    eexists. split; [reflexivity|]. split; cbn; try done. rewrite !app_nil_r. f_equal. unfold nd_set_trace.
    by rewrite Hp, Hi. }
  destruct e as [i c|i c|l c|c i|c i oc|c i|c i oc|a b v]; try discriminate He; apply Nat.eqb_eq in He; cbn [ti_handle];
    intros H; inv_bind H; injection H as <- <-.
  - unfold ti_call in E |- *. destruct (call_from_to i) as [fr to]. unfold ti_is_precompile_call, ti_is_deep, ti_active_trace in E |- *.
    rewrite Hs. cbn [ti_new ti_trace_stack ti_config] in E. inv_bind E. cbn [rbind].
    destruct (G _ _ _ _ _ _ _ _ _ He E) as (s' & -> & HS). cbn [rbind]. eauto.
  - unfold ti_create in E |- *. destruct (G _ _ _ _ _ _ _ _ _ He E) as (s' & -> & HS). cbn [rbind]. eauto.
Qed.

Lemma reuse_run cfg s e es r rs t : ti_config s = cfg -> ti_traces s = r :: rs -> nd_parent r = None -> nd_idx r = 0 ->
  ti_trace_stack s = [] -> is_root_start e = true -> ti_run (ti_new cfg) (e :: es) = Ok t ->
  exists s', ti_run s (e :: es) = Ok s' /\ sim r rs (ti_step_stack s) t s'.
Proof.
  intros H1 H2 H3 H4 H5 H6 H. unfold ti_run, run in H. cbn [rfold] in H. inv_bind H. unfold rmap in E.
  destruct (ti_handle (ti_new cfg) e) as [[t1 o]| |] eqn:Eh; try done. injection E as <-.
  destruct (sim_root _ _ _ _ _ _ _ H1 H2 H3 H4 H5 H6 Eh) as (s1 & E1 & HS).
  destruct (sim_run r rs _ es _ _ _ HS H) as (s' & E' & HS'). exists s'. split; [|done].
  unfold ti_run, run. cbn [rfold]. unfold rmap at 1. rewrite E1. cbn [rbind fst]. exact E'.
Qed.

Lemma reuse cfg es s e later t : ti_run (ti_new cfg) es = Ok s -> ti_trace_stack s = [] -> is_root_start e = true ->
  ti_run (ti_new cfg) (e :: later) = Ok t ->
  exists s', ti_run s (e :: later) = Ok s' /\ ti_traces s' = added (ti_traces s) (ti_traces t) /\
    (ti_trace_stack t = [] -> ti_trace_stack s' = []).
Proof.
  intros Hs Hst He Ht. pose proof (inv_tree _ (run_tree_inv _ _ _ Hs)) as Htree.
  destruct (at_root _ Htree) as (r & Hr & Hp & _). pose proof (at_idx _ Htree _ _ Hr) as Hi.
  destruct (ti_traces s) as [|r' rs] eqn:Etr; [done|]. injection Hr as ->.
  assert (Hc : ti_config s = cfg) by (by rewrite (ti_run_config _ _ _ Hs)).
  destruct (reuse_run cfg s e later r rs t Hc Etr Hp Hi Hst He Ht) as (s' & H & HS). exists s'. split; [done|].
  split; [by rewrite (sim_traces _ _ _ _ _ HS)|]. intros E. by rewrite (sim_stack _ _ _ _ _ HS), E.
Qed.

(** ** Parity traces *)

Section Parity.
  Context (r n : CallTraceNode) (rs ns : list CallTraceNode).
  Notation old := (r :: rs).
  Notation new := (n :: ns).
  Notation all := (added old new).
  Notation K := (length (nd_children r)).
  Hypothesis (Ho : tree_inv old) (Hn : tree_inv new) (Ha : tree_inv all).

  Lemma child_nonzero l : arena_tree l -> forall i m c, l !! i = Some m -> c ∈ nd_children m -> c <> 0.
  Proof.
    intros Ht i m c Hm Hc ->. apply elem_of_list_In, (at_children _ Ht _ _ Hm) in Hc as (m' & Hm' & Hp & _).
    destruct (at_root _ Ht) as (r0 & Hr0 & Hp0 & _). congruence.
  Qed.

  Lemma all_old i m : i <> 0 -> old !! i = Some m -> all !! i = Some m.
  Proof.
    destruct i as [|i]; [done|]. intros _ H. change (rs !! i = Some m) in H.
    change ((rs ++ (moved_node (length rs) <$> ns)) !! i = Some m). by apply lookup_app_l_Some.
  Qed.

  Lemma follow_old a : forall i j, i <> 0 -> follow old i a = Some j -> follow all i a = Some j.
  Proof.
    induction a as [|k a IH]; intros i j Hi; [done|]. cbn [follow]. destruct (old !! i) as [m|] eqn:Em; [|done].
    rewrite (all_old _ _ Hi Em). destruct (nd_children m !! k) as [c|] eqn:Ec; [|done]. apply IH.
    apply (child_nonzero _ (inv_tree _ Ho) _ _ _ Em). by eapply elem_of_list_lookup_2.
  Qed.
  Lemma follow_old_root a j : a <> [] -> follow old 0 a = Some j -> follow all 0 a = Some j.
  Proof.
    destruct a as [|k a]; [done|]. intros _ H. change (match nd_children r !! k with Some c => follow old c a | None => None end = Some j) in H.
    change (match (nd_children r ++ (moved_idx (length rs) <$> nd_children n)) !! k with Some c => follow all c a | None => None end = Some j).
    destruct (nd_children r !! k) as [c|] eqn:Ec; [|done]. rewrite (lookup_app_l_Some _ _ _ _ Ec). apply follow_old; [|done].
    apply (child_nonzero _ (inv_tree _ Ho) 0 r c eq_refl). by eapply elem_of_list_lookup_2.
  Qed.

  Notation mv := (moved_idx (length rs)).
  Lemma follow_new a : forall i j, i <> 0 -> follow new i a = Some j -> follow all (mv i) a = Some (mv j).
  Proof.
    induction a as [|k a IH]; intros i j Hi; [by intros [= ->]|]. cbn [follow]. destruct (new !! i) as [m|] eqn:Em; [|done].
    rewrite (added_lookup r rs new i m Em). unfold lift. destruct (Nat.eqb_spec i 0); [done|]. unfold moved_node. cbn [nd_children].
    rewrite list_lookup_fmap. destruct (nd_children m !! k) as [c|] eqn:Ec; [|done]. cbn [fmap option_fmap option_map]. apply IH.
    apply (child_nonzero _ (inv_tree _ Hn) _ _ _ Em). by eapply elem_of_list_lookup_2.
  Qed.
  Lemma follow_new_root k a j : follow new 0 (k :: a) = Some j -> follow all 0 (K + k :: a) = Some (mv j).
  Proof.
    intros H. change (match nd_children n !! k with Some c => follow new c a | None => None end = Some j) in H.
    change (match (nd_children r ++ (mv <$> nd_children n)) !! (K + k) with Some c => follow all c a | None => None end = Some (mv j)).
    rewrite lookup_app_r by lia. replace (K + k - K) with k by lia. rewrite list_lookup_fmap.
    destruct (nd_children n !! k) as [c|] eqn:Ec; [|done]. cbn [fmap option_fmap option_map]. apply follow_new; [|done].
    apply (child_nonzero _ (inv_tree _ Hn) 0 n c eq_refl). by eapply elem_of_list_lookup_2.
  Qed.

  Lemma addr_old i m : i <> 0 -> old !! i = Some m -> nd_is_precompile m = false -> addr all i = addr old i /\ addr old i <> [].
  Proof.
    intros Hi Hm Hp. pose proof (addr_follow _ Ho _ _ Hm Hp) as Hf.
    assert (Hne : addr old i <> []). { intros E. rewrite E in Hf. injection Hf as Hf. by symmetry in Hf. }
    split; [|done]. unfold addr at 1. by rewrite (trace_address_follow _ Ha _ _ (follow_old_root _ _ Hne Hf)).
  Qed.
  Lemma addr_new i m : i <> 0 -> new !! i = Some m -> nd_is_precompile m = false ->
    exists k a, addr new i = k :: a /\ addr all (mv i) = K + k :: a.
  Proof.
    intros Hi Hm Hp. pose proof (addr_follow _ Hn _ _ Hm Hp) as Hf. destruct (addr new i) as [|k a] eqn:E; [injection Hf as Hf; by symmetry in Hf|].
    exists k, a. split; [done|]. unfold addr. by rewrite (trace_address_follow _ Ha _ _ (follow_new_root _ _ _ Hf)).
  Qed.

  Lemma items_root m : trace_iter_items (lift r rs 0 m, []) = map (after_calls K) (trace_iter_items (m, [])).
  Proof.
    unfold trace_iter_items. change (nd_is_selfdestruct (lift r rs 0 m)) with (nd_is_selfdestruct m).
    assert (E : parity_transaction_trace (lift r rs 0 m) [] = after_calls K (parity_transaction_trace m [])).
    { unfold parity_transaction_trace, after_calls. cbn. by rewrite app_length, fmap_length. }
    rewrite E. destruct (nd_is_selfdestruct m) eqn:Es; [|done]. cbn [map]. f_equal.
    - unfold tt_inc_subtraces, after_calls. cbn. f_equal. lia.
    - unfold parity_selfdestruct_trace, parity_selfdestruct_action. change (nd_is_selfdestruct (lift r rs 0 m)) with (nd_is_selfdestruct m).
      rewrite Es. cbn. done.
  Qed.
  Lemma items_moved m k a : trace_iter_items (moved_node (length rs) m, K + k :: a) = map (after_calls K) (trace_iter_items (m, k :: a)).
  Proof.
    unfold trace_iter_items. change (nd_is_selfdestruct (moved_node (length rs) m)) with (nd_is_selfdestruct m).
    assert (E : parity_transaction_trace (moved_node (length rs) m) (K + k :: a) = after_calls K (parity_transaction_trace m (k :: a))).
    { unfold parity_transaction_trace, after_calls. cbn. by rewrite fmap_length. }
    rewrite E. destruct (nd_is_selfdestruct m) eqn:Es; [|done]. cbn [map]. f_equal.
    unfold parity_selfdestruct_trace, parity_selfdestruct_action. change (nd_is_selfdestruct (moved_node (length rs) m)) with (nd_is_selfdestruct m).
    rewrite Es. done.
  Qed.
  Lemma about_root_items m e : In e (trace_iter_items (m, [])) -> about_root e = true.
  Proof.
    unfold trace_iter_items. destruct (nd_is_selfdestruct m) eqn:Es; cbn [In]; [|by intros [<-|[]]].
    unfold parity_selfdestruct_trace, parity_selfdestruct_action. rewrite Es. cbn. by intros [<-|[<-|[]]].
  Qed.
  Lemma about_other_items m k a e : In e (trace_iter_items (m, k :: a)) -> about_root e = false.
  Proof.
    assert (G : forall x y z t, about_root (mkTT (parity_action m) x y (z :: a) t) = false).
    { intros. unfold about_root. cbn. destruct a; [|done]. unfold parity_action. by destruct (tr_kind (nd_trace m)). }
    unfold trace_iter_items. destruct (nd_is_selfdestruct m) eqn:Es; cbn [In]; [|intros [<-|[]]; apply G].
    unfold parity_selfdestruct_trace, parity_selfdestruct_action. rewrite Es. cbn. intros [<-|[<-|[]]]; [apply G|].
    unfold about_root. cbn. by destruct a.
  Qed.

  Lemma filter_all_true {A} (p : A -> bool) l : (forall x, In x l -> p x = true) -> List.filter p l = l.
  Proof. induction l as [|x l IH]; intros H; [done|]. cbn. rewrite (H x) by (by left). f_equal. apply IH. intros y Hy. apply H. by right. Qed.
  Lemma filter_all_false {A} (p : A -> bool) l : (forall x, In x l -> p x = false) -> List.filter p l = [].
  Proof. induction l as [|x l IH]; intros H; [done|]. cbn. rewrite (H x) by (by left). apply IH. intros y Hy. apply H. by right. Qed.

  (** The entries of a recording, those of the root apart. *)
  Definition root_items (m : CallTraceNode) : list TransactionTrace :=
    if nd_is_precompile m then [] else trace_iter_items (m, []).
  Lemma parity_split x l : tree_inv (x :: l) ->
    parity_list (x :: l) = root_items x ++ flat_map (node_items (x :: l)) (iter_traceable_nodes l) /\
    List.filter about_root (parity_list (x :: l)) = root_items x /\
    List.filter (fun e => negb (about_root e)) (parity_list (x :: l)) = flat_map (node_items (x :: l)) (iter_traceable_nodes l).
  Proof.
    intros Hx. set (others := flat_map (node_items (x :: l)) (iter_traceable_nodes l)).
    assert (E : parity_list (x :: l) = root_items x ++ others).
    { unfold parity_list, shown, iter_traceable_nodes, root_items, others. cbn [List.filter].
      destruct (nd_is_precompile x); [done|]. cbn [negb flat_map]. f_equal. unfold node_items.
      by rewrite (at_idx _ (inv_tree _ Hx) 0 x eq_refl). }
    assert (H1 : forall e, In e (root_items x) -> about_root e = true).
    { unfold root_items. destruct (nd_is_precompile x); [done|]. apply about_root_items. }
    assert (H2 : forall e, In e others -> about_root e = false).
    { intros e He. apply in_flat_map in He as (m & Hm & He). unfold iter_traceable_nodes in Hm. apply filter_In in Hm as [Hm Hp].
      apply negb_true_iff in Hp. apply elem_of_list_In, elem_of_list_lookup in Hm as (i & Hi).
      change ((x :: l) !! S i = Some m) in Hi. unfold node_items in He. rewrite (at_idx _ (inv_tree _ Hx) _ _ Hi) in He.
      pose proof (addr_follow _ Hx _ _ Hi Hp) as Hf. destruct (addr (x :: l) (S i)) as [|k a]; [done|]. by eapply about_other_items. }
    split_and!; [done| |]; rewrite E, List.filter_app.
    - rewrite filter_all_true by done. rewrite (filter_all_false _ others) by done. by rewrite app_nil_r.
    - rewrite filter_all_false by (intros e He; by rewrite H1). rewrite (filter_all_true _ others) by (intros e He; by rewrite H2). done.
  Qed.

  Lemma parity_added : parity_list all =
    map (after_calls K) (List.filter about_root (parity_list new)) ++
    List.filter (fun e => negb (about_root e)) (parity_list old) ++
    map (after_calls K) (List.filter (fun e => negb (about_root e)) (parity_list new)).
  Proof.
    destruct (parity_split _ _ Ho) as (_ & _ & Eo). destruct (parity_split _ _ Hn) as (_ & Er & En). rewrite Eo, Er, En.
    change all with (lift r rs 0 n :: rs ++ (moved_node (length rs) <$> ns)) in Ha.
    destruct (parity_split _ _ Ha) as (Ea & _ & _). change (parity_list all) with (parity_list (lift r rs 0 n :: rs ++ (moved_node (length rs) <$> ns))).
    rewrite Ea. change (lift r rs 0 n :: rs ++ (moved_node (length rs) <$> ns)) with all. f_equal.
    - unfold root_items. change (nd_is_precompile (lift r rs 0 n)) with (nd_is_precompile n). destruct (nd_is_precompile n); [done|]. apply items_root.
    - unfold iter_traceable_nodes. rewrite List.filter_app, flat_map_app. f_equal.
      + assert (G : forall l, (forall m, In m l -> In m rs) ->
          flat_map (node_items all) (List.filter (fun n => negb (nd_is_precompile n)) l) =
          flat_map (node_items old) (List.filter (fun n => negb (nd_is_precompile n)) l)).
        { induction l as [|m l IH]; intros Hl; [done|]. cbn [List.filter].
          assert (Hm : In m rs) by (apply Hl; by left). destruct (nd_is_precompile m) eqn:Hp; [apply IH; intros; apply Hl; by right|].
          cbn [negb flat_map]. f_equal; [|apply IH; intros; apply Hl; by right].
          apply elem_of_list_In, elem_of_list_lookup in Hm as (i & Hi). change (old !! S i = Some m) in Hi.
          unfold node_items. rewrite (at_idx _ (inv_tree _ Ho) _ _ Hi). by destruct (addr_old (S i) m ltac:(lia) Hi Hp) as [-> _]. }
        by apply G.
      + assert (G : forall l, (forall m, In m l -> In m ns) ->
          flat_map (node_items all) (List.filter (fun n => negb (nd_is_precompile n)) (moved_node (length rs) <$> l)) =
          map (after_calls K) (flat_map (node_items new) (List.filter (fun n => negb (nd_is_precompile n)) l))).
        { induction l as [|m l IH]; intros Hl; [done|]. cbn [fmap list_fmap List.filter].
          change (nd_is_precompile (moved_node (length rs) m)) with (nd_is_precompile m).
          assert (Hm : In m ns) by (apply Hl; by left). destruct (nd_is_precompile m) eqn:Hp; [apply IH; intros; apply Hl; by right|].
          cbn [negb flat_map]. rewrite map_app. f_equal; [|apply IH; intros; apply Hl; by right].
          apply elem_of_list_In, elem_of_list_lookup in Hm as (i & Hi). change (new !! S i = Some m) in Hi.
          unfold node_items. cbn [moved_node nd_idx]. rewrite (at_idx _ (inv_tree _ Hn) _ _ Hi).
          destruct (addr_new (S i) m ltac:(lia) Hi Hp) as (k & a & -> & ->). apply items_moved. }
        by apply G.
  Qed.
End Parity.

(** ** The writer *)

Lemma io_bind_some {A B} (m : io A) (f : A -> io B) w w' b : io_bind m f w = Ok (w', Some b) ->
  exists w1 a, m w = Ok (w1, Some a) /\ f a w1 = Ok (w', Some b).
Proof. unfold io_bind. destruct (m w) as [[w1 [a|]]| |]; try done. eauto. Qed.
Lemma io_lift_some {A} (r : res A) w w' a : io_lift r w = Ok (w', Some a) -> r = Ok a /\ w' = w.
Proof. unfold io_lift. destruct r; try done. by intros [= <- <-]. Qed.

Section Written.
  Context (ck : address -> list byte) (ns : list CallTraceNode) (i : nat) (n : CallTraceNode).
  Hypothesis Hn : ns !! i = Some n.
  Hypothesis Hd : Forall (fun st => st_decoded st = None) (tr_steps (nd_trace n)).

  Lemma written_step fuel item si w w' j : write_step ck fuel ns i item si w = Ok (w', Some j) ->
    si < length (tr_steps (nd_trace n)) /\ j = S item.
  Proof.
    destruct fuel as [|fuel]; [done|]. rewrite write_step_S. intros H.
    apply io_bind_some in H as (w1 & m & H1 & H). apply io_lift_some in H1 as [H1 ->]. unfold index in H1. rewrite Hn in H1. injection H1 as <-.
    apply io_bind_some in H as (w2 & st & H1 & H). apply io_lift_some in H1 as [H1 ->]. unfold index in H1.
    destruct (tr_steps (nd_trace n) !! si) as [st'|] eqn:E; [|done]. injection H1 as ->.
    split; [by eapply lookup_lt_Some|]. rewrite (Forall_lookup_1 _ _ _ _ Hd E) in H. by injection H as <- <-.
  Qed.

  Lemma written_item fuel item w w' j o : nd_ordering n !! item = Some o -> write_item ck fuel ns i item w = Ok (w', Some j) ->
    j = S item /\ match o with OStep si => si < length (tr_steps (nd_trace n)) | _ => True end.
  Proof.
    intros Ho. destruct fuel as [|fuel]; [done|]. rewrite write_item_S. intros H.
    apply io_bind_some in H as (w1 & m & H1 & H). apply io_lift_some in H1 as [H1 ->]. unfold index in H1. rewrite Hn in H1. injection H1 as <-.
    apply io_bind_some in H as (w2 & o' & H1 & H). apply io_lift_some in H1 as [H1 ->]. unfold index in H1. rewrite Ho in H1. injection H1 as <-.
    destruct o as [k|k|k].
    - apply io_bind_some in H as (w3 & l & _ & H). apply io_bind_some in H as (w4 & u & _ & H). by injection H as _ <-.
    - apply io_bind_some in H as (w3 & l & _ & H). apply io_bind_some in H as (w4 & u & _ & H). by injection H as _ <-.
    - apply written_step in H as [H ->]. done.
  Qed.

  Lemma written_items fuel : forall item w w' j m si, item <= m -> nd_ordering n !! m = Some (OStep si) ->
    write_items_until ck fuel ns i item (fun x => Ok (x =? length (nd_ordering n))) w = Ok (w', Some j) ->
    si < length (tr_steps (nd_trace n)).
  Proof.
    induction fuel as [|fuel IH]; intros item w w' j m si Hm Ho; [done|]. rewrite write_items_until_S. intros H.
    apply io_bind_some in H as (w1 & stop & H1 & H). apply io_lift_some in H1 as [H1 ->]. injection H1 as <-.
    pose proof (lookup_lt_Some _ _ _ Ho) as Hlt. destruct (Nat.eqb_spec item (length (nd_ordering n))) as [->|Hne]; [lia|].
    apply io_bind_some in H as (w2 & item' & H1 & H).
    destruct (nd_ordering n !! item) as [o|] eqn:E; [|apply lookup_ge_None in E; lia].
    destruct (written_item _ _ _ _ _ _ E H1) as [-> Hs]. destruct (decide (item = m)) as [->|Hd'].
    - rewrite Ho in E. by injection E as <-.
    - apply (IH (S item) w2 w' j m si); [lia|exact Ho|exact H].
  Qed.

  Lemma written_node fuel w w' m si : nd_ordering n !! m = Some (OStep si) -> write_node ck fuel ns i w = Ok (w', Some tt) ->
    si < length (tr_steps (nd_trace n)).
  Proof.
    intros Ho. destruct fuel as [|fuel]; [done|]. rewrite write_node_S. intros H.
    apply io_bind_some in H as (w1 & m' & H1 & H). apply io_lift_some in H1 as [H1 ->]. unfold index in H1. rewrite Hn in H1. injection H1 as <-.
    do 4 (apply io_bind_some in H as (? & ? & _ & H)). cbn zeta in H. apply io_bind_some in H as (? & ? & H1 & H).
    refine (written_items _ 0 _ _ _ m si _ Ho H1). lia.
  Qed.
End Written.

(** A root of a recorded transaction: its steps are not decoded, and its ordering lists every step. *)
Lemma tx_root cfg w f s n : env_ok cfg w f -> ti_run (ti_new cfg) (tx_events w f) = Ok s -> ti_traces s !! 0 = Some n ->
  Forall (fun st => st_decoded st = None) (tr_steps (nd_trace n)).
Proof.
  intros Henv Hrun Hn. rewrite (tx_traces _ _ _ _ Henv Hrun) in Hn. unfold layout in Hn.
  apply elem_of_list_lookup_2, elem_of_list_fmap in Hn as (x & -> & _). rewrite node_of_steps. apply steps_from_decoded.
Qed.

Lemma start_root w s : is_root_start (start_event w 0 s) = true.
Proof. by destruct s. Qed.
Lemma tx_events_cons w f : exists e es, tx_events w f = e :: es /\ is_root_start e = true.
Proof. destruct f as [s body e]. unfold tx_events. cbn [frame_events]. do 2 eexists. split; [reflexivity|apply start_root]. Qed.
Lemma tx_ordered cfg w f s : ti_run (ti_new cfg) (tx_events w f) = Ok s -> Forall ordering_complete (ti_traces s).
Proof.
  intros Hs. pose proof (tx_no_root w f) as Hno. destruct (tx_events_cons w f) as (e & es & Ee & He). rewrite Ee in *. cbn [tail] in Hno.
  assert (Hf : List.filter is_root_start es = []).
  { clear Hs Ee. induction Hno as [|x l Hx Hl IH]; [done|]. cbn. by rewrite Hx. }
  eapply run_ordered; [|apply new_all_ordered| | |exact Hs]; [apply arena_tree_default| |intros _; apply new_pre_root].
  cbn. by rewrite He, Hf.
Qed.
