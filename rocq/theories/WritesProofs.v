(** * WritesProofs: the recorded changes of storage of a whole execution *)

From Verif Require Export SpecWrites TxTextProofs.

Section writes.
  Context (cfg : TracingInspectorConfig) (w : world) (ns : list CallTraceNode).
  Context (Hst : record_steps cfg = true) (Hdiff : record_state_diff cfg = true) (Hflt : should_record_opcode cfg OP_SSTORE = true).
  Notation placed := (placed cfg w ns).

  Lemma step_of_change n d prev o a : snapshot_safe cfg o -> ExecProofs.recorded cfg o = true ->
    nd_execution_address n = a ->
    (forall b k v, In (b, k, v) (change_made o) -> b = a) ->
    (in_op (op_pre o) = 0x55%N -> change_made o = [] ->
       forall l a k had, last (j_journal (op_post_j o)) = Some l -> last l <> Some (JStorageChanged a k had)) ->
    step_change n (step_of cfg w d prev o) = change_made o.
  Proof.
    intros Hs Hr Ha Hown Hno. destruct (fill_step_ok cfg w d prev o Hr Hs) as (st' & Hst').
    unfold step_change, step_of. rewrite Hst'. apply fill_step_fields in Hst' as
      (_ & _ & _ & _ & _ & _ & _ & _ & _ & _ & _ & _ & _ & _ & Hsc).
    cbn [new_step st_op st_storage_change] in Hsc. unfold storage_snapshot in Hsc. rewrite Hdiff in Hsc.
    inv_bind Hsc. rename a0 into jn. apply expect_Ok in E. cbn [ctx_of cx_journal cx_present] in *.
    unfold change_made in *. rewrite E in *. change 0x55%N with OP_SSTORE in *.
    destruct (N.eqb_spec (in_op (op_pre o)) OP_SSTORE) as [Ho|Ho].
    - specialize (Hno Ho). rewrite Ho in Hsc. cbn [orb] in Hsc. change ((OP_SSTORE =? OP_SLOAD)%N) with false in Hsc. change ((OP_SSTORE =? OP_SSTORE)%N) with true in Hsc. cbn [orb] in Hsc.
      destruct (last jn) as [[b k had|]|] eqn:El.
      + destruct (j_present (op_post_j o) b k) as [v|] eqn:Ep; [|by cbn in Hsc]. cbn in Hsc. injection Hsc as <-. cbn [sc_reason sc_key sc_value].
        destruct (last (j_journal (op_pre_j o))) as [before|]; [|by destruct (Hno eq_refl _ b k had eq_refl)].
        destruct (bool_decide _ && _); [|by destruct (Hno eq_refl _ b k had eq_refl)].
        rewrite (Hown b k v (or_introl eq_refl)). by rewrite Ha.
      + cbn in Hsc. injection Hsc as <-. destruct (last (j_journal (op_pre_j o))); [|done]. by destruct (bool_decide _ && _).
      + cbn in Hsc. injection Hsc as <-. destruct (last (j_journal (op_pre_j o))); [|done]. by destruct (bool_decide _ && _).
    - rewrite orb_false_r in Hsc.
      destruct (last jn) as [[b k had|]|]; [|injection Hsc as <-; done..].
      destruct (in_op (op_pre o) =? OP_SLOAD)%N; [|injection Hsc as <-; done].
      destruct (j_present (op_post_j o) b k) as [v|] eqn:Ep; [|by cbn in Hsc]. cbn in Hsc. injection Hsc as <-. done.
  Qed.

  Definition item_changes (it : item) : list change_of_slot :=
    match it with IOp o => change_made o | IHook _ => [] | ISub g => changes_by g end.
  Lemma changes_unfold s body e : changes_by (Frame s body e) = if frame_ok_result e then flat_map item_changes body else [].
  Proof. done. Qed.

  Definition reads (g : frame) : Prop := forall par pos d inh fuel,
    every_frame (fun g => Forall (snapshot_safe cfg) (instrs (f_body g))) g ->
    (exclude_precompile_calls cfg = true -> precompiles_are_leaves w g) -> evm_addresses g -> evm_writes w g -> no_leftover g ->
    frame_size g <= fuel -> placed pos (entries par pos d inh g) ->
    recorded_changes fuel ns pos = changes_by g.

  Lemma hook_ords_none {A} (f : TraceMemberOrder -> list A) lg hs : (forall j, f (OLog j) = []) -> flat_map f (hook_ords cfg lg hs) = [].
  Proof.
    intros Hf. unfold hook_ords. destruct (record_logs cfg); [|done]. induction (seq _ _) as [|j l IH]; cbn; [done|]. by rewrite Hf, IH.
  Qed.
  Lemma unrecorded_change o : ExecProofs.recorded cfg o = false -> change_made o = [].
  Proof.
    unfold ExecProofs.recorded, change_made. rewrite Hst. cbn [andb]. destruct (N.eqb_spec (in_op (op_pre o)) 0x55) as [->|]; [|done].
    change 0x55%N with OP_SSTORE. congruence.
  Qed.

  Lemma excluded_changes g v : excluded cfg w (f_start g) (Some v) = true ->
    (exclude_precompile_calls cfg = true -> precompiles_are_leaves w g) -> evm_writes w g -> changes_by g = [].
  Proof.
    destruct g as [s body e]. cbn [f_start]. rewrite excluded_hidden. unfold hidden_call. intros Hh Hl Hw.
    apply andb_prop in Hh as [[[Hx Hc]%andb_prop Hp]%andb_prop _]. specialize (Hl Hx).
    inversion_clear Hl as [? ? ? Hl' _]. inversion_clear Hw as [? ? ? [_ Hi] _]. cbn [f_start f_body] in Hl', Hi.
    specialize (Hl' Hc Hp). specialize (Hi Hc Hp). rewrite changes_unfold. destruct (frame_ok_result e); [|done].
    clear -Hl' Hi. induction body as [|[o|h|g] r IH]; [done|by cbn in Hi| |by cbn in Hl']. cbn [flat_map item_changes app]. by apply IH.
  Qed.

  Definition read_member (n : CallTraceNode) (fuel : nat) (m : TraceMemberOrder) : list change_of_slot :=
    match m with
    | OStep j => match tr_steps (nd_trace n) !! j with Some st => step_change n st | None => [] end
    | OCall j => match nd_children n !! j with Some c => recorded_changes fuel ns c | None => [] end
    | OLog _ => []
    end.
  Lemma body_reads n a fuel pos d v : nd_execution_address n = a -> forall body lg preC preS prev next,
    Forall reads (subs body) -> Forall (snapshot_safe cfg) (instrs body) ->
    Forall (every_frame (fun g => Forall (snapshot_safe cfg) (instrs (f_body g)))) (subs body) ->
    (exclude_precompile_calls cfg = true -> Forall (precompiles_are_leaves w) (subs body)) ->
    Forall evm_addresses (subs body) -> Forall (evm_writes w) (subs body) -> Forall no_leftover (subs body) ->
    Forall (fun o => forall b k v, In (b, k, v) (change_made o) -> b = a) (instrs body) ->
    Forall (fun o => in_op (op_pre o) = 0x55%N -> change_made o = [] ->
       forall l a k had, last (j_journal (op_post_j o)) = Some l -> last l <> Some (JStorageChanged a k had)) (instrs body) ->
    subs_size body <= fuel -> placed next (sub_entries pos d v next body) ->
    nd_children n = preC ++ child_positions cfg w v next body ->
    tr_steps (nd_trace n) = preS ++ steps_from cfg w (S d) prev (instrs body) ->
    flat_map (read_member n fuel) (body_ords cfg w v lg (length preC) (length preS) body) = flat_map item_changes body.
  Proof.
    intros Ha. induction body as [|[o|h|g] r IH]; intros lg preC preS prev next Hf Hsafe Hsafes Hl Had Hw Hn Ho1 Ho2 Hfuel Hpl Hc Hs;
      cbn [body_ords flat_map item_changes]; [done|..].
    - change (instrs (IOp o :: r)) with (o :: instrs r) in *. change (subs (IOp o :: r)) with (subs r) in *.
      inversion_clear Hsafe as [|? ? So Sr]. inversion_clear Ho1 as [|? ? Oo Or]. inversion_clear Ho2 as [|? ? Po Pr].
      rewrite !flat_map_app, hook_ords_none by done. cbn [app]. cbn [steps_from] in Hs.
      destruct (ExecProofs.recorded cfg o) eqn:Hr.
      + f_equal.
        * cbn [flat_map read_member]. rewrite Hs, lookup_app_r, Nat.sub_diag by done. cbn [lookup list_lookup]. rewrite app_nil_r.
          by apply (step_of_change n _ _ _ a).
        * specialize (IH (lg + shown_count cfg (op_hooks o)) preC (preS ++ [step_of cfg w (S d) prev o]) (Some (step_of cfg w (S d) prev o)) next).
          rewrite app_length, Nat.add_1_r in IH. apply IH; try done. by rewrite Hs, <- app_assoc.
      + rewrite unrecorded_change by done. cbn [flat_map app]. by eapply IH.
    - rewrite flat_map_app, hook_ords_none by done. by eapply IH.
    - change (instrs (ISub g :: r)) with (instrs r) in *. change (subs (ISub g :: r)) with (g :: subs r) in *.
      inversion_clear Hf as [|? ? Fg Fr]. inversion_clear Hsafes as [|? ? Sg Sr]. inversion_clear Had as [|? ? Ag Ar].
      inversion_clear Hw as [|? ? Wg Wr]. inversion_clear Hn as [|? ? Ng Nr].
      assert (Lr : exclude_precompile_calls cfg = true -> Forall (precompiles_are_leaves w) (subs r)) by (intros Hx; specialize (Hl Hx); by inversion_clear Hl).
      assert (Lg : exclude_precompile_calls cfg = true -> precompiles_are_leaves w g) by (intros Hx; specialize (Hl Hx); by inversion_clear Hl).
      cbn [sub_entries] in Hpl. apply placed_app in Hpl as [Hp1 Hp2]. rewrite entries_length in Hp2.
      cbn [child_positions] in Hc. cbn [subs_size] in Hfuel. destruct (excluded cfg w (f_start g) (Some v)) eqn:Ex.
      + rewrite (excluded_changes g v) by done. cbn [app]. eapply IH; try done. lia.
      + cbn [flat_map read_member]. rewrite Hc, lookup_app_r, Nat.sub_diag by done. cbn [app lookup list_lookup].
        rewrite (Fg (Some pos) next (S d) (Some v) fuel) by (done || lia). f_equal.
        specialize (IH lg (preC ++ [next]) preS prev (next + frame_size g)). rewrite app_length, Nat.add_1_r in IH.
        apply IH; try done; [lia|]. by rewrite Hc, <- app_assoc.
  Qed.

  Lemma reads_all g : reads g.
  Proof.
    induction g as [s body e IH] using frame_ind'. intros par pos d inh fuel Hsafe Hl Ha Hw Hn Hfuel Hpl.
    rewrite entries_eq in Hpl. apply placed_cons in Hpl as [Hnode Hpl]. set (x := mkEntry par pos d inh (Frame s body e)) in *.
    destruct fuel as [|fuel]; [cbn in Hfuel; lia|]. cbn [recorded_changes]. rewrite Hnode, changes_unfold.
    destruct (node_of_end cfg w x) as (_ & Hsu & _ & _). cbn [x en_frame f_end] in Hsu. fold x in Hsu. rewrite Hsu.
    assert (Hok : spec_success (status e) = frame_ok_result e) by (unfold frame_ok_result, status, spec_success; by destruct (ir_result (fe_result e))).
    rewrite Hok. destruct (frame_ok_result e); [|done].
    inversion_clear Ha as [? ? ? (_ & A2 & A3) As]. inversion_clear Hw as [? ? ? (W1 & _) Ws]. inversion_clear Hn as [? ? ? N1 Ns].
    inversion_clear Hsafe as [? ? ? S1 Ss]. cbn [f_start f_body f_end] in *.
    rewrite node_of_ords. cbn [x en_frame en_inherited f_start f_body].
    apply (body_reads _ (executing_account s) fuel pos d (value_of s inh) (execution_address cfg w par pos d inh (Frame s body e) A2 A3)
             body 0 [] [] None (S pos)); try done.
    - intros Hx. specialize (Hl Hx). by inversion_clear Hl.
    - cbn in Hfuel. unfold subs_size. lia.
    - by rewrite node_of_children.
    - by rewrite node_of_steps.
  Qed.

  (** *** The slots *)
  Definition same_slots (l l' : list change_of_slot) : Prop := forall a k, left_in_slot l a k = left_in_slot l' a k.
  Lemma left_app l l' a k : left_in_slot (l ++ l') a k = match left_in_slot l' a k with Some v => Some v | None => left_in_slot l a k end.
  Proof. unfold left_in_slot. rewrite flat_map_app, last_app. done. Qed.
  Lemma same_app l1 l2 l1' l2' : same_slots l1 l1' -> same_slots l2 l2' -> same_slots (l1 ++ l2) (l1' ++ l2').
  Proof. intros H1 H2 a k. by rewrite !left_app, H1, H2. Qed.
  Lemma same_again l a k v : left_in_slot l a k = Some v -> same_slots (l ++ [(a, k, v)]) l.
  Proof.
    intros H b m. rewrite left_app. unfold left_in_slot at 1. cbn [flat_map fst snd]. case_bool_decide as E; cbn; [|done].
    injection E as <- <-. by rewrite H.
  Qed.

  Lemma step_of_slot n d prev o a acc : snapshot_safe cfg o -> ExecProofs.recorded cfg o = true ->
    nd_execution_address n = a ->
    (forall b k v, In (b, k, v) (change_made o) -> b = a) ->
    (in_op (op_pre o) = 0x55%N -> change_made o = [] ->
     forall j b k had, last (j_journal (op_post_j o)) = Some j -> last j = Some (JStorageChanged b k had) ->
     b = a /\ exists v, j_present (op_post_j o) b k = Some v /\ left_in_slot acc b k = Some v) ->
    same_slots (acc ++ step_change n (step_of cfg w d prev o)) (acc ++ change_made o).
  Proof.
    intros Hs Hr Ha Hown Hno.
    destruct (decide (in_op (op_pre o) = 0x55%N /\ change_made o = [])) as [[Ho Hc]|Hne].
    2: { rewrite (step_of_change n d prev o a) by (done || tauto). by intros ? ?. }
    rewrite Hc, app_nil_r. specialize (Hno Ho Hc). destruct (fill_step_ok cfg w d prev o Hr Hs) as (st' & Hst').
    unfold step_change, step_of. rewrite Hst'. apply fill_step_fields in Hst' as
      (_ & _ & _ & _ & _ & _ & _ & _ & _ & _ & _ & _ & _ & _ & Hsc).
    cbn [new_step st_op st_storage_change] in Hsc. unfold storage_snapshot in Hsc. rewrite Hdiff in Hsc.
    inv_bind Hsc. rename a0 into jn. apply expect_Ok in E. cbn [ctx_of cx_journal cx_present] in *.
    change 0x55%N with OP_SSTORE in Ho. rewrite Ho in Hsc. change ((OP_SSTORE =? OP_SLOAD)%N) with false in Hsc. change ((OP_SSTORE =? OP_SSTORE)%N) with true in Hsc. cbn [orb] in Hsc.
    destruct (last jn) as [[b k had|]|] eqn:El; [|injection Hsc as <-; rewrite app_nil_r; by intros ? ?..].
    destruct (Hno _ _ _ _ E El) as (-> & v & Hv & Hl). rewrite Hv in Hsc. injection Hsc as <-. cbn [sc_reason sc_key sc_value].
    rewrite Ha. by apply same_again.
  Qed.

  Definition reads_slots (g : frame) : Prop := forall par pos d inh fuel,
    every_frame (fun g => Forall (snapshot_safe cfg) (instrs (f_body g))) g ->
    (exclude_precompile_calls cfg = true -> precompiles_are_leaves w g) -> evm_addresses g -> evm_writes w g -> own_leftovers g ->
    frame_size g <= fuel -> placed pos (entries par pos d inh g) ->
    same_slots (recorded_changes fuel ns pos) (changes_by g).

  Lemma same_left l1 l1' l2 : same_slots l1 l1' -> same_slots (l1 ++ l2) (l1' ++ l2).
  Proof. intros H. apply same_app; [done|by intros ? ?]. Qed.
  Lemma same_trans l1 l2 l3 : same_slots l1 l2 -> same_slots l2 l3 -> same_slots l1 l3.
  Proof. intros H1 H2 a k. by rewrite H1. Qed.

  Lemma body_slots n a fuel pos d v : nd_execution_address n = a -> forall body lg preC preS prev next acc,
    Forall reads_slots (subs body) -> Forall (snapshot_safe cfg) (instrs body) ->
    Forall (every_frame (fun g => Forall (snapshot_safe cfg) (instrs (f_body g)))) (subs body) ->
    (exclude_precompile_calls cfg = true -> Forall (precompiles_are_leaves w) (subs body)) ->
    Forall evm_addresses (subs body) -> Forall (evm_writes w) (subs body) -> Forall own_leftovers (subs body) ->
    Forall (fun o => forall b k v, In (b, k, v) (change_made o) -> b = a) (instrs body) ->
    leftovers_in a acc body ->
    subs_size body <= fuel -> placed next (sub_entries pos d v next body) ->
    nd_children n = preC ++ child_positions cfg w v next body ->
    tr_steps (nd_trace n) = preS ++ steps_from cfg w (S d) prev (instrs body) ->
    same_slots (acc ++ flat_map (read_member n fuel) (body_ords cfg w v lg (length preC) (length preS) body))
      (acc ++ flat_map item_changes body).
  Proof.
    intros Ha. induction body as [|[o|h|g] r IH]; intros lg preC preS prev next acc Hf Hsafe Hsafes Hl Had Hw Hn Ho1 Ho2 Hfuel Hpl Hc Hs;
      cbn [body_ords flat_map item_changes]; [by intros ? ?|..].
    - change (instrs (IOp o :: r)) with (o :: instrs r) in *. change (subs (IOp o :: r)) with (subs r) in *.
      inversion_clear Hsafe as [|? ? So Sr]. inversion_clear Ho1 as [|? ? Oo Or]. destruct Ho2 as [Po Pr].
      rewrite !flat_map_app, hook_ords_none by done. cbn [app]. cbn [steps_from] in Hs.
      destruct (ExecProofs.recorded cfg o) eqn:Hr.
      + rewrite !app_assoc. eapply same_trans.
        * apply same_left. cbn [flat_map read_member]. rewrite Hs, lookup_app_r, Nat.sub_diag by done. cbn [lookup list_lookup]. rewrite app_nil_r.
          by apply (step_of_slot n _ _ _ a).
        * specialize (IH (lg + shown_count cfg (op_hooks o)) preC (preS ++ [step_of cfg w (S d) prev o]) (Some (step_of cfg w (S d) prev o)) next (acc ++ change_made o)).
          rewrite app_length, Nat.add_1_r in IH. apply IH; try done. by rewrite Hs, <- app_assoc.
      + rewrite unrecorded_change in Pr |- * by done. rewrite app_nil_r in Pr. cbn [flat_map app]. by eapply IH.
    - rewrite flat_map_app, hook_ords_none by done. by eapply IH.
    - change (instrs (ISub g :: r)) with (instrs r) in *. change (subs (ISub g :: r)) with (g :: subs r) in *.
      inversion_clear Hf as [|? ? Fg Fr]. inversion_clear Hsafes as [|? ? Sg Sr]. inversion_clear Had as [|? ? Ag Ar].
      inversion_clear Hw as [|? ? Wg Wr]. inversion_clear Hn as [|? ? Ng Nr]. cbn [leftovers_in] in Ho2.
      assert (Lr : exclude_precompile_calls cfg = true -> Forall (precompiles_are_leaves w) (subs r)) by (intros Hx; specialize (Hl Hx); by inversion_clear Hl).
      assert (Lg : exclude_precompile_calls cfg = true -> precompiles_are_leaves w g) by (intros Hx; specialize (Hl Hx); by inversion_clear Hl).
      cbn [sub_entries] in Hpl. apply placed_app in Hpl as [Hp1 Hp2]. rewrite entries_length in Hp2.
      cbn [child_positions] in Hc. cbn [subs_size] in Hfuel. destruct (excluded cfg w (f_start g) (Some v)) eqn:Ex.
      + rewrite (excluded_changes g v) in Ho2 |- * by done. rewrite app_nil_r in Ho2. cbn [app]. eapply IH; try done. lia.
      + cbn [flat_map read_member]. rewrite Hc, lookup_app_r, Nat.sub_diag by done. cbn [app lookup list_lookup]. rewrite !app_assoc.
        eapply same_trans; [apply same_left, (same_app acc _ acc); [by intros ? ?|apply (Fg (Some pos) next (S d) (Some v) fuel); (done || lia)]|].
        specialize (IH lg (preC ++ [next]) preS prev (next + frame_size g) (acc ++ changes_by g)). rewrite app_length, Nat.add_1_r in IH.
        apply IH; try done; [lia|]. by rewrite Hc, <- app_assoc.
  Qed.

  Lemma reads_slots_all g : reads_slots g.
  Proof.
    induction g as [s body e IH] using frame_ind'. intros par pos d inh fuel Hsafe Hl Ha Hw Hn Hfuel Hpl.
    rewrite entries_eq in Hpl. apply placed_cons in Hpl as [Hnode Hpl]. set (x := mkEntry par pos d inh (Frame s body e)) in *.
    destruct fuel as [|fuel]; [cbn in Hfuel; lia|]. cbn [recorded_changes]. rewrite Hnode, changes_unfold.
    destruct (node_of_end cfg w x) as (_ & Hsu & _ & _). cbn [x en_frame f_end] in Hsu. fold x in Hsu. rewrite Hsu.
    assert (Hok : spec_success (status e) = frame_ok_result e) by (unfold frame_ok_result, status, spec_success; by destruct (ir_result (fe_result e))).
    rewrite Hok. destruct (frame_ok_result e); [|by intros ? ?].
    inversion_clear Ha as [? ? ? (_ & A2 & A3) As]. inversion_clear Hw as [? ? ? (W1 & _) Ws]. inversion_clear Hn as [? ? ? N1 Ns].
    inversion_clear Hsafe as [? ? ? S1 Ss]. cbn [f_start f_body f_end] in *.
    rewrite node_of_ords. cbn [x en_frame en_inherited f_start f_body].
    apply (body_slots _ (executing_account s) fuel pos d (value_of s inh) (execution_address cfg w par pos d inh (Frame s body e) A2 A3)
             body 0 [] [] None (S pos) []); try done.
    - intros Hx. specialize (Hl Hx). by inversion_clear Hl.
    - cbn in Hfuel. unfold subs_size. lia.
    - by rewrite node_of_children.
    - by rewrite node_of_steps.
  Qed.
End writes.

Lemma tx_changes cfg w f s : env_ok cfg w f -> evm_addresses f -> evm_writes w f -> no_leftover f ->
  record_steps cfg = true -> record_state_diff cfg = true -> should_record_opcode cfg OP_SSTORE = true ->
  ti_run (ti_new cfg) (tx_events w f) = Ok s ->
  recorded_changes (length (ti_traces s)) (ti_traces s) 0 = changes_by f.
Proof.
  intros He Ha Hw Hn H1 H2 H3 Hr. pose proof (tx_traces _ _ _ _ He Hr) as Hns.
  assert (Hpl : placed cfg w (ti_traces s) 0 (entries None 0 0 None f)).
  { intros k x Hk. rewrite Hns. unfold layout. by rewrite list_lookup_fmap, Nat.add_0_l, Hk. }
  eapply (reads_all cfg w (ti_traces s) H1 H2 H3 f None 0 0 None); try done; [apply He|apply He|].
  rewrite Hns. unfold layout. rewrite map_length, entries_length. done.
Qed.

Lemma tx_slots cfg w f s a k : env_ok cfg w f -> evm_addresses f -> evm_writes w f -> own_leftovers f ->
  record_steps cfg = true -> record_state_diff cfg = true -> should_record_opcode cfg OP_SSTORE = true ->
  ti_run (ti_new cfg) (tx_events w f) = Ok s ->
  left_in_slot (recorded_changes (length (ti_traces s)) (ti_traces s) 0) a k = left_in_slot (changes_by f) a k.
Proof.
  intros He Ha Hw Hn H1 H2 H3 Hr. pose proof (tx_traces _ _ _ _ He Hr) as Hns.
  assert (Hpl : placed cfg w (ti_traces s) 0 (entries None 0 0 None f)).
  { intros i x Hk. rewrite Hns. unfold layout. by rewrite list_lookup_fmap, Nat.add_0_l, Hk. }
  eapply (reads_slots_all cfg w (ti_traces s) H1 H2 H3 f None 0 0 None); try done; [apply He|apply He|].
  rewrite Hns. unfold layout. rewrite map_length, entries_length. done.
Qed.
