(** * ReceiptProofs: the logs of a whole execution *)

From Verif Require Export SpecReceipt TxTextProofs.

Section logs.
  Context (cfg : TracingInspectorConfig) (w : world) (ns : list CallTraceNode).
  Context (Hlog : record_logs cfg = true).
  Notation placed := (placed cfg w ns).

  Definition item_logs (it : item) : list Log :=
    match it with IOp o => logs_of (op_hooks o) | IHook h => logs_of [h] | ISub g => receipt_logs g end.
  Lemma receipt_unfold s body e : receipt_logs (Frame s body e) = if frame_ok_result e then flat_map item_logs body else [].
  Proof. done. Qed.

  Definition read_log_member (n : CallTraceNode) (fuel : nat) (m : TraceMemberOrder) : list Log :=
    match m with
    | OLog j => match nd_logs n !! j with Some l => [Evm.mkLog (nd_execution_address n) (cl_topics l) (cl_data l)] | None => [] end
    | OCall j => match nd_children n !! j with Some c => recorded_logs fuel ns c | None => [] end
    | OStep _ => []
    end.

  Definition reads_logs (g : frame) : Prop := forall par pos d inh fuel,
    (exclude_precompile_calls cfg = true -> precompiles_are_leaves w g) -> evm_addresses g -> evm_silent w g ->
    frame_size g <= fuel -> placed pos (entries par pos d inh g) ->
    recorded_logs fuel ns pos = receipt_logs g.

  Lemma excluded_logs g v : excluded cfg w (f_start g) (Some v) = true ->
    (exclude_precompile_calls cfg = true -> precompiles_are_leaves w g) -> evm_silent w g -> receipt_logs g = [].
  Proof.
    destruct g as [s body e]. cbn [f_start]. rewrite excluded_hidden. unfold hidden_call. intros Hh Hl Hw.
    apply andb_prop in Hh as [[[Hx Hc]%andb_prop Hp]%andb_prop _]. specialize (Hl Hx).
    inversion_clear Hl as [? ? ? Hl' _]. inversion_clear Hw as [? ? ? Hi _]. cbn [f_start f_body] in Hl', Hi.
    specialize (Hl' Hc Hp). specialize (Hi Hc Hp). rewrite receipt_unfold. destruct (frame_ok_result e); [|done].
    clear -Hl' Hi. induction body as [|[o|h|g] r IH]; [done| | |by cbn in Hl'].
    - cbn [hooks flat_map] in Hi. fold (hooks r) in Hi. rewrite logs_of_app in Hi. apply app_eq_nil in Hi as [H1 H2].
      cbn [flat_map item_logs]. rewrite H1. by apply IH.
    - cbn [hooks flat_map] in Hi. fold (hooks r) in Hi. rewrite logs_of_app in Hi. apply app_eq_nil in Hi as [H1 H2].
      cbn [flat_map item_logs]. rewrite H1. by apply IH.
  Qed.

  Lemma read_hook_logs n fuel a hs : nd_execution_address n = a -> Forall (fun l => lg_address l = a) (logs_of hs) ->
    forall preL post, nd_logs n = preL ++ map calllog_of (logs_of hs) ++ post ->
    flat_map (read_log_member n fuel) (hook_ords cfg (length preL) hs) = logs_of hs.
  Proof.
    intros Ha. unfold hook_ords. rewrite Hlog. induction (logs_of hs) as [|l ls IH]; intros Hf preL post Hn; [done|].
    inversion_clear Hf as [|? ? Hl Hls]. cbn [length seq map flat_map read_log_member].
    cbn [map app] in Hn. rewrite Hn at 1. rewrite lookup_app_r, Nat.sub_diag by done. cbn [lookup list_lookup app].
    f_equal; [rewrite Ha; destruct l; cbn in *; by subst|].
    specialize (IH Hls (preL ++ [calllog_of l]) post). rewrite app_length, Nat.add_1_r in IH. apply IH. by rewrite Hn, <- app_assoc.
  Qed.

  Lemma body_logs n a fuel pos d v : nd_execution_address n = a -> forall body preL preC st next,
    Forall reads_logs (subs body) ->
    (exclude_precompile_calls cfg = true -> Forall (precompiles_are_leaves w) (subs body)) ->
    Forall evm_addresses (subs body) -> Forall (evm_silent w) (subs body) ->
    Forall (fun l => lg_address l = a) (logs_of (hooks body)) ->
    subs_size body <= fuel -> placed next (sub_entries pos d v next body) ->
    nd_children n = preC ++ child_positions cfg w v next body ->
    nd_logs n = preL ++ map calllog_of (logs_of (hooks body)) ->
    flat_map (read_log_member n fuel) (body_ords cfg w v (length preL) (length preC) st body) = flat_map item_logs body.
  Proof.
    intros Ha. induction body as [|[o|h|g] r IH]; intros preL preC st next Hf Hl Had Hw Ho Hfuel Hpl Hc Hn;
      cbn [body_ords flat_map item_logs]; [done|..].
    - change (subs (IOp o :: r)) with (subs r) in *. cbn [hooks flat_map] in Ho, Hn. fold (hooks r) in Ho, Hn.
      rewrite logs_of_app in Ho, Hn. apply Forall_app in Ho as [O1 O2]. rewrite map_app in Hn.
      rewrite !flat_map_app. rewrite (read_hook_logs n fuel a (op_hooks o) Ha O1 preL _ Hn).
      replace (flat_map (read_log_member n fuel) (if ExecProofs.recorded cfg o then [OStep st] else [])) with (@nil Log) by (by destruct (ExecProofs.recorded cfg o)).
      cbn [app]. f_equal.
      specialize (IH (preL ++ map calllog_of (logs_of (op_hooks o))) preC (if ExecProofs.recorded cfg o then S st else st) next).
      rewrite app_length, map_length in IH. unfold shown_count. rewrite Hlog. apply IH; try done. by rewrite Hn, <- app_assoc.
    - change (subs (IHook h :: r)) with (subs r) in *. cbn [hooks flat_map] in Ho, Hn. fold (hooks r) in Ho, Hn.
      rewrite logs_of_app in Ho, Hn. apply Forall_app in Ho as [O1 O2]. rewrite map_app in Hn.
      rewrite !flat_map_app. rewrite (read_hook_logs n fuel a [h] Ha O1 preL _ Hn). f_equal.
      specialize (IH (preL ++ map calllog_of (logs_of [h])) preC st next).
      rewrite app_length, map_length in IH. unfold shown_count. rewrite Hlog. apply IH; try done. by rewrite Hn, <- app_assoc.
    - change (subs (ISub g :: r)) with (g :: subs r) in *. change (hooks (ISub g :: r)) with (hooks r) in *.
      inversion_clear Hf as [|? ? Fg Fr]. inversion_clear Had as [|? ? Ag Ar]. inversion_clear Hw as [|? ? Wg Wr].
      assert (Lr : exclude_precompile_calls cfg = true -> Forall (precompiles_are_leaves w) (subs r)) by (intros Hx; specialize (Hl Hx); by inversion_clear Hl).
      assert (Lg : exclude_precompile_calls cfg = true -> precompiles_are_leaves w g) by (intros Hx; specialize (Hl Hx); by inversion_clear Hl).
      cbn [sub_entries] in Hpl. apply placed_app in Hpl as [Hp1 Hp2]. rewrite entries_length in Hp2.
      cbn [child_positions] in Hc. cbn [subs_size] in Hfuel. destruct (excluded cfg w (f_start g) (Some v)) eqn:Ex.
      + rewrite (excluded_logs g v) by done. cbn [app]. eapply IH; try done. lia.
      + cbn [flat_map read_log_member]. rewrite Hc, lookup_app_r, Nat.sub_diag by done. cbn [app lookup list_lookup].
        rewrite (Fg (Some pos) next (S d) (Some v) fuel) by (done || lia). f_equal.
        specialize (IH preL (preC ++ [next]) st (next + frame_size g)). rewrite app_length, Nat.add_1_r in IH.
        apply IH; try done; [lia|]. by rewrite Hc, <- app_assoc.
  Qed.

  Lemma reads_logs_all g : reads_logs g.
  Proof.
    induction g as [s body e IH] using frame_ind'. intros par pos d inh fuel Hl Ha Hw Hfuel Hpl.
    rewrite entries_eq in Hpl. apply placed_cons in Hpl as [Hnode Hpl]. set (x := mkEntry par pos d inh (Frame s body e)) in *.
    destruct fuel as [|fuel]; [cbn in Hfuel; lia|]. cbn [recorded_logs]. rewrite Hnode, receipt_unfold.
    destruct (node_of_end cfg w x) as (_ & Hsu & _ & _). cbn [x en_frame f_end] in Hsu. fold x in Hsu. rewrite Hsu.
    assert (Hok : spec_success (status e) = frame_ok_result e) by (unfold frame_ok_result, status, spec_success; by destruct (ir_result (fe_result e))).
    rewrite Hok. destruct (frame_ok_result e); [|done].
    inversion_clear Ha as [? ? ? (A1 & A2 & A3) As]. inversion_clear Hw as [? ? ? _ Ws]. cbn [f_start f_body f_end] in *.
    rewrite node_of_ords. cbn [x en_frame en_inherited f_start f_body].
    apply (body_logs _ (executing_account s) fuel pos d (value_of s inh) (execution_address cfg w par pos d inh (Frame s body e) A2 A3)
             body [] [] 0 (S pos)); try done.
    - intros Hx. specialize (Hl Hx). by inversion_clear Hl.
    - cbn in Hfuel. unfold subs_size. lia.
    - by rewrite node_of_children.
    - by rewrite node_of_logs, Hlog.
  Qed.
End logs.

Lemma tx_recorded_logs cfg w f s : env_ok cfg w f -> evm_addresses f -> evm_silent w f -> record_logs cfg = true ->
  ti_run (ti_new cfg) (tx_events w f) = Ok s ->
  recorded_logs (length (ti_traces s)) (ti_traces s) 0 = receipt_logs f.
Proof.
  intros He Ha Hw H1 Hr. pose proof (tx_traces _ _ _ _ He Hr) as Hns.
  assert (Hpl : placed cfg w (ti_traces s) 0 (entries None 0 0 None f)).
  { intros k x Hk. rewrite Hns. unfold layout. by rewrite list_lookup_fmap, Nat.add_0_l, Hk. }
  eapply (reads_logs_all cfg w (ti_traces s) H1 f None 0 0 None); try done; [apply He|].
  rewrite Hns. unfold layout. rewrite map_length, entries_length. done.
Qed.

(** ** The geth call tree *)
Lemma tree_logs_without : forall c, tree_logs (without_selfdestructs c) = tree_logs c.
Proof.
  fix IH 1. intros [i calls]. cbn [without_selfdestructs tree_logs]. destruct (String.eqb _ _); [done|]. f_equal.
  induction calls as [|x l IHl]; [done|]. specialize (IH x). rewrite <- IH, <- IHl.
  case_bool_decide as E; [|done]. destruct x as [j cs]. cbn [cf_info] in E. cbn [without_selfdestructs tree_logs]. by rewrite E.
Qed.

Lemma shown_logs a ls : Forall (fun l => lg_address l = a) ls ->
  flat_map log_shown (map (fun l => mkLogFrame (Some (lg_address l)) (Some (lg_topics l)) (Some (lg_data l))) ls) = ls.
Proof. induction 1 as [|l ls _ _ IH]; [done|]. cbn. rewrite IH. by destruct l. Qed.

Lemma tree_typ rr cfg w root gas v lg g : String.eqb (fi_typ (spec_info rr cfg w root gas v lg g)) "SELFDESTRUCT" = false.
Proof. destruct g as [[j c|j c] body e]; cbn; [by destruct (ci_scheme c)|by destruct (cr_scheme c)]. Qed.

(** Nothing is shown inside a frame that failed. *)
Lemma tree_logs_failed rr cfg w gas g : forall v, tree_logs (spec_calls rr cfg w true gas false false v g) = [].
Proof.
  induction g as [s body e IH] using frame_ind'. intros v. cbn [spec_calls tree_logs]. rewrite tree_typ. cbn [andb orb].
  assert (fi_logs (spec_info rr cfg w false gas v false (Frame s body e)) = []) as -> by done. cbn [flat_map app].
  induction body as [|it body IHb]; [done|]. destruct it as [o|h|g]; [by apply IHb..|].
  change (subs (ISub g :: body)) with (g :: subs body) in IH. inversion_clear IH as [|? ? H1 H2].
  rewrite H1. by apply IHb.
Qed.

Lemma hooks_logs_split body : flat_map item_logs body ≡ₚ logs_of (hooks body) ++ flat_map receipt_logs (subs body).
Proof.
  induction body as [|[o|h|g] r IH]; [done|..]; cbn [flat_map item_logs].
  - change (subs (IOp o :: r)) with (subs r). cbn [hooks flat_map]. fold (hooks r). by rewrite logs_of_app, <- app_assoc, IH.
  - change (subs (IHook h :: r)) with (subs r). cbn [hooks flat_map]. fold (hooks r). by rewrite logs_of_app, <- app_assoc, IH.
  - change (subs (ISub g :: r)) with (g :: subs r). change (hooks (ISub g :: r)) with (hooks r). cbn [flat_map]. rewrite IH.
    rewrite !app_assoc. by rewrite (Permutation_app_comm (receipt_logs g)).
Qed.

Lemma tree_logs_reading rr cfg w gas g : record_logs cfg = true -> forall root v, (root = true -> frame_ok_result (f_end g) = true) -> evm_addresses g ->
  tree_logs (spec_calls rr cfg w true gas root true v g) ≡ₚ receipt_logs g.
Proof.
  intros Hlog. induction g as [s body e IH] using frame_ind'. intros root v Hroot Ha. cbn [f_end] in Hroot.
  cbn [spec_calls tree_logs]. rewrite tree_typ, receipt_unfold.
  assert (Hok : spec_success (status e) = frame_ok_result e) by (unfold frame_ok_result, status, spec_success; by destruct (ir_result (fe_result e))).
  rewrite Hok. cbn [andb]. inversion_clear Ha as [? ? ? (A1 & _ & _) As]. cbn [f_start f_body] in A1.
  destruct (frame_ok_result e) eqn:Ho.
  - rewrite orb_true_r. rewrite hooks_logs_split. apply Permutation_app.
    + unfold spec_info. cbn [fi_logs f_body]. rewrite Hlog. cbn [andb]. by rewrite (shown_logs _ _ A1).
    + clear A1 Hok Ho Hroot. induction body as [|it body IHb]; [done|]. destruct it as [o|h|g]; [by apply IHb..|].
      change (subs (ISub g :: body)) with (g :: subs body) in *. inversion_clear IH as [|? ? H1 H2]. inversion_clear As as [|? ? S1 S2].
      cbn [flat_map]. by rewrite H1, IHb by done.
  - destruct root; [by specialize (Hroot eq_refl)|]. cbn [orb].
    pose proof (tree_logs_failed rr cfg w gas (Frame s body e) v) as Hf. cbn [spec_calls tree_logs] in Hf. rewrite tree_typ in Hf. cbn [andb orb] in Hf.
    by rewrite Hf.
Qed.

(** A root that failed still shows its own logs, and those alone. *)
Lemma tree_logs_failed_root rr cfg w gas g v : record_logs cfg = true -> frame_ok_result (f_end g) = false -> evm_addresses g ->
  tree_logs (spec_calls rr cfg w true gas true true v g) = logs_of (hooks (f_body g)).
Proof.
  intros Hlog Ho Ha. destruct g as [s body e]. cbn [f_end f_body] in *. cbn [spec_calls tree_logs]. rewrite tree_typ.
  assert (Hok : spec_success (status e) = frame_ok_result e) by (unfold frame_ok_result, status, spec_success; by destruct (ir_result (fe_result e))).
  rewrite Hok, Ho. cbn [andb orb]. inversion_clear Ha as [? ? ? (A1 & _ & _) _]. cbn [f_start f_body] in A1.
  rewrite <- (app_nil_r (logs_of (hooks body))). f_equal.
  - unfold spec_info. cbn [fi_logs f_body]. rewrite Hlog. cbn [andb]. by rewrite (shown_logs _ _ A1).
  - clear A1. induction body as [|[o|h|g] body IHb]; [done|by apply IHb..|]. rewrite tree_logs_failed. by apply IHb.
Qed.
