(** * PropertiesEdited: C147, reports on an edited recording *)

From Verif Require Import SpecEdited GethProofs VmProofs FlagProofs PropertiesParity PropertiesGeth PropertiesWriter Examples.
Local Open Scope nat_scope.

(** Whatever a user writes into the calls of a recording, all reports can be built. *)
Definition C147_statement : Prop :=
  forall cfg es s ns, ti_run (ti_new cfg) es = Ok s -> edited (ti_traces s) ns -> reported ns.

Lemma vm_parts ns : arena_tree ns -> exists t addrs, vm_trace ns = Ok t /\
  rmap (map (fun n => tr_address (nd_trace n))) (walk_bf ns) = Ok addrs /\
  forall db, exists r, populate_vm_trace_bytecodes db t addrs = Ok r.
Proof.
  intros Ht. destruct (vm_trace_ok _ Ht) as (t & Hvm & Hsize). exists t. rewrite (walk_levels _ Ht). cbn [rmap rbind]. eexists. split_and!; [done|done|].
  intros db. apply populate_ok. rewrite map_length. rewrite <-(level_waves _ (length ns) 0) in Hsize.
  etransitivity; [exact Hsize|].
  assert (Hall : Forall (fun i => i < length ns) (concat (map (level ns) (seq 0 (length ns))))).
  { apply Forall_forall. intros i Hi. apply elem_of_list_In, in_concat in Hi as (q & Hq & Hi).
    apply in_map_iff in Hq as (k & <- & _). apply level_follow in Hi as (a & _ & Hf).
    destruct (follow_info _ Ht _ _ Hf) as (n & Hn & _). by eapply lookup_lt_Some. }
  clear Hsize. induction Hall as [|i q Hi Hq IH]; [done|]. unfold nodes_at. cbn [omap list_omap length].
  destruct (lookup_lt_is_Some_2 _ _ Hi) as [n Hn]. rewrite Hn. cbn [length]. apply le_n_S. exact IH.
Qed.
Lemma tree_geth ns : arena_tree ns ->
  (forall rr opts gas, exists r, geth_call_traces rr ns opts gas = Ok r) /\
  (forall gas out opts, exists r, geth_traces ns gas out opts = Ok r).
Proof.
  intros Ht. destruct (at_root _ Ht) as (r0 & Hr0 & _). split.
  - intros rr opts gas. destruct (unwrap_or_default_bool (only_top_call opts)) eqn:E.
    + unfold geth_call_traces. destruct ns; [done|]. rewrite E. by eexists.
    + destruct (geth_call_traces_ok rr ns Ht opts gas E) as (r & Hr & _). by exists r.
  - intros gas out opts. destruct (steps_exist ns Ht (length ns) 0) as (l & Hl); [lia|by apply lookup_lt_Some in Hr0|].
    destruct (geth_traces_ok ns Ht opts gas out l Hl) as (root & _ & H). by eexists.
Qed.

(** The geth reports and the vm trace do not look at the flags: they are built after every edit. *)
Theorem C147_geth :
  forall cfg es s ns, ti_run (ti_new cfg) es = Ok s -> edited (ti_traces s) ns ->
  (forall rr opts gas, exists r, geth_call_traces rr ns opts gas = Ok r) /\
  (forall gas out opts, exists r, geth_traces ns gas out opts = Ok r) /\
  (exists t, vm_trace ns = Ok t).
Proof.
  intros cfg es s ns Hr He. pose proof (inv_tree _ (flag_as_inv _ ns (run_tree_inv _ _ _ Hr) He)) as Ht.
  pose proof (flag_as_unflag _ _ He) as Hu. destruct (tree_geth _ Ht) as [H1 H2]. destruct (vm_parts _ Ht) as (t & _ & Hvm & _).
  split_and!.
  - intros rr opts gas. rewrite <-geth_call_traces_unflag, <-Hu, geth_call_traces_unflag. apply H1.
  - intros gas out opts. rewrite <-geth_traces_unflag, <-Hu, geth_traces_unflag. apply H2.
  - exists t. by rewrite <-vm_trace_unflag, <-Hu, vm_trace_unflag.
Qed.
Print Assumptions C147_geth.

(** All reports are built after every edit that clears no precompile flag. *)
Theorem C147_reports_partial :
  forall cfg es s ns, ti_run (ti_new cfg) es = Ok s -> edited (ti_traces s) ns -> no_flag_cleared (ti_traces s) ns -> reported ns.
Proof.
  intros cfg es s ns Hr He Hf. pose proof (run_tree_inv _ _ _ Hr) as Hinv.
  destruct (C147_geth _ _ _ _ Hr He) as (H1 & H2 & _).
  pose proof (inv_tree _ (flag_as_inv _ ns Hinv He)) as Ht. pose proof (flag_as_unflag _ _ He) as Hu.
  destruct (vm_parts _ Ht) as (t & addrs & Hvm & Haddrs & Hpop).
  rewrite <-vm_trace_unflag, Hu, vm_trace_unflag in Hvm. rewrite <-walk_addresses_unflag, Hu, walk_addresses_unflag in Haddrs.
  assert (Hne : (length ns =? 0) = false).
  { destruct (at_root _ (inv_tree _ Hinv)) as (r0 & Hr0 & _). rewrite <-(Forall2_length _ _ _ He). by destruct (ti_traces s). }
  assert (Htt : forall types, exists trs, into_trace_type_traces ns types =
     Ok (trs, if ty_vm_trace types then Some t else None, if ty_state_diff types then Some ∅ else None)).
  { intros types. unfold into_trace_type_traces. destruct (ty_is_empty types) eqn:Ee.
    - unfold ty_is_empty in Ee. apply negb_true_iff, orb_false_iff in Ee as [Ee E3]. apply orb_false_iff in Ee as [E1 E2].
      rewrite E2, E3. by eexists.
    - rewrite Hne. cbn [orb]. rewrite Hvm. destruct (type_total _ _ Hinv He Hf (ty_trace types)) as [l Hl]. rewrite Hl.
      destruct (ty_vm_trace types); cbn [rmap rbind]; eexists; done. }
  split.
  - exact H1.
  - exact H2.
  - by eapply traces_total.
  - intros info. unfold into_localized_transaction_traces. destruct (traces_total _ _ Hinv He Hf) as [l ->]. by eexists.
  - intros r types. destruct (Htt types) as (trs & H). unfold into_trace_results. rewrite H. by eexists.
  - intros r state types db. destruct (Htt types) as (trs & H). unfold into_trace_results_with_state, into_trace_results.
    rewrite H. destruct (ty_vm_trace types); rewrite ?Haddrs; cbn [rbind rs_state_diff rs_vm_trace].
    + destruct (ty_state_diff types); [destruct (populate_state_diff ∅ db state)|]; try (by eexists);
        destruct (Hpop db) as [o Ho]; rewrite Ho; eexists; done.
    + destruct (ty_state_diff types); [destruct (populate_state_diff ∅ db state)|]; by eexists.
Qed.
Print Assumptions C147_reports_partial.

(** Every call keeps its address in the parity traces. *)
Theorem C147_addresses :
  forall cfg es s ns, ti_run (ti_new cfg) es = Ok s -> edited (ti_traces s) ns -> same_flags (ti_traces s) ns ->
  forall i, i < length ns -> trace_address ns i = trace_address (ti_traces s) i.
Proof.
  intros cfg es s ns Hr He Hf i Hi. pose proof (run_tree_inv _ _ _ Hr) as Hinv.
  pose proof (edited_shape _ _ He Hf) as Hs. pose proof (tree_inv_shape _ _ Hs Hinv) as Hinv'.
  destruct (lookup_lt_is_Some_2 ns i Hi) as [n Hn].
  destruct (Forall2_lookup_r _ _ _ _ _ Hf Hn) as (n0 & Hn0 & Hp).
  destruct (nd_is_precompile n) eqn:E.
  - unfold trace_address. destruct (i =? 0); [done|]. unfold index. rewrite Hn, Hn0. cbn [rbind].
    assert (nd_is_precompile n0 = true) as -> by (revert E; unfold nd_is_precompile; by rewrite Hp). by rewrite E.
  - destruct (shown_follow _ Hinv' _ _ Hn E) as [a Ha]. rewrite (trace_address_follow _ Hinv' _ _ Ha).
    symmetry. apply trace_address_follow; [done|]. by rewrite (follow_shape _ _ Hs).
Qed.
Print Assumptions C147_addresses.

Lemma called_by_edited ns ns' i : edited ns ns' -> called_by ns i = called_by ns' i.
Proof.
  intros H. unfold called_by. rewrite (Forall2_length _ _ _ H). apply List.filter_ext. intros j.
  destruct (ns !! j) as [n|] eqn:E.
  - destruct (Forall2_lookup_l _ _ _ _ _ H E) as (n' & -> & Hs). by rewrite (sl_parent _ _ Hs).
  - destruct (ns' !! j) as [n'|] eqn:E'; [|done].
    destruct (Forall2_lookup_r _ _ _ _ _ H E') as (n & ? & _). congruence.
Qed.
Lemma call_tree_links ns ns' P : (forall i, called_by ns i = called_by ns' i) ->
  forall i r, call_tree ns P i r -> call_tree ns' P i r.
Proof.
  intros H. fix IH 3. intros i r [j info calls extra HP Hc He]. constructor; [done| |done]. rewrite <-H.
  clear HP He. induction Hc as [|c x cs xs Hx _ IHc]; constructor; [by apply IH|done].
Qed.

(** The call tree of the edited recording nests the calls as they were recorded, and shows what the edited calls say. *)
Theorem C147_call_tree :
  forall rr cfg es s ns opts gas, ti_run (ti_new cfg) es = Ok s -> edited (ti_traces s) ns -> only_top_call opts <> Some true ->
  exists r, geth_call_traces rr ns opts gas = Ok r /\
    call_tree (ti_traces s) (fun i x _ => exists n, ns !! i = Some n /\ frame_fields rr n x /\
       fi_gas_used x = if i =? 0 then gas else tr_gas_used (nd_trace n)) 0 r.
Proof.
  intros rr cfg es s ns opts gas Hr He Htop.
  pose proof (inv_tree _ (flag_as_inv _ ns (run_tree_inv _ _ _ Hr) He)) as Ht. pose proof (flag_as_edited _ _ He) as He1.
  destruct (geth_call_traces_ok rr _ Ht opts gas (not_true_false _ Htop)) as (r & Hok & Htree). exists r.
  rewrite <-geth_call_traces_unflag, (flag_as_unflag _ _ He), geth_call_traces_unflag in Hok. split; [exact Hok|].
  eapply call_tree_links; [intros; symmetry; by apply called_by_edited, He1|].
  destruct (at_root _ Ht) as (root & H0 & _). apply lookup_lt_Some in H0.
  eapply call_tree_impl with (n := length (zip_with flag_as (ti_traces s) ns)); [|lia|done|done|exact Htree].
  intros i x e [-> ->] Hi. destruct (lookup_lt_is_Some_2 _ _ Hi) as [n1 Hn1].
  pose proof (info_of_fields rr _ (unwrap_or_default_bool (with_log opts)) gas i n1 Hn1) as Hfld.
  rewrite lookup_zip_with in Hn1. destruct (ti_traces s !! i) as [n0|]; [|done]. cbn in Hn1.
  destruct (ns !! i) as [n|]; [|done]. cbn in Hn1. injection Hn1 as <-. exists n. split; [done|]. destruct Hfld as [Hff Hg]. split; [by destruct Hff|exact Hg].
Qed.
Print Assumptions C147_call_tree.

(** Clearing the flag of a hidden call of a precompile makes the parity traces panic: the call is in no list of children. *)
Definition erase (n : CallTraceNode) : CallTraceNode :=
  nd_set_trace n (tr_set_steps (tr_set_gas_used (nd_trace n) 7%N) []).
Lemma edited_map f l : (forall x, same_links x (f x)) -> edited l (map f l).
Proof. intros H. unfold edited. induction l; constructor; [apply H|done]. Qed.
Lemma unflag_links x : same_links x (unflag x).
Proof. by split. Qed.
Lemma erase_links x : same_links x (erase x).
Proof. by split. Qed.
Lemma erase_flags l : same_flags l (map erase l).
Proof. unfold same_flags. induction l; constructor; [reflexivity|done]. Qed.
Theorem C147_refuted : ~ C147_statement.
Proof.
  intros H.
  assert (Hv : exists s, ti_run (ti_new ex_cfg) (tx_events ex_world ex_tx) = Ok s /\ into_transaction_traces (map unflag (ti_traces s)) = Panic PExpect).
  { eexists. split; [vm_compute; reflexivity|]. vm_compute; reflexivity. }
  destruct Hv as (s & Hs & Hp).
  pose proof (rp_parity _ (H ex_cfg (tx_events ex_world ex_tx) s _ Hs (edited_map _ _ unflag_links))) as [l Hl].
  rewrite Hp in Hl. discriminate Hl.
Qed.
Print Assumptions C147_refuted.

(** An edit that drops all steps and rewrites the gas. *)
Lemma c147_edit s : edited (ti_traces s) (map erase (ti_traces s)) /\ same_flags (ti_traces s) (map erase (ti_traces s)).
Proof. split; [exact (edited_map _ _ erase_links)|apply erase_flags]. Qed.
Example C147_example : exists s r l, ti_run (ti_new ex_cfg) (tx_events ex_world ex_tx) = Ok s /\
  (edited (ti_traces s) (map erase (ti_traces s)) /\ same_flags (ti_traces s) (map erase (ti_traces s))) /\
  geth_call_traces (fun _ => None) (map erase (ti_traces s)) (mkCallConfig None None) 99%N = Ok r /\
  map (fun x => fi_gas_used (cf_info x)) (cf_calls r) = [7; 7; 7; 7]%N /\
  into_transaction_traces (map erase (ti_traces s)) = Ok l /\ length l = 6.
Proof.
  do 3 eexists. split; [vm_compute; reflexivity|]. split; [apply c147_edit|].
  split; [vm_compute; reflexivity|]. split; [vm_compute; reflexivity|]. split; vm_compute; reflexivity.
Qed.

(** ** The text *)

(** The text can be written whatever the edit, if the levels of the tree fit into a [u16]. *)
Definition C147_text_statement : Prop :=
  forall to_checksum cfg es s ns w, length (List.filter is_root_start es) <= 1 -> ti_run (ti_new cfg) es = Ok s ->
  edited (ti_traces s) ns -> same_flags (ti_traces s) ns -> fits ns 0 (tw_level w) ->
  exists w' ok, write_arena to_checksum ns w = Ok (w', ok).

(** The writer follows the member ordering: dropping the steps but not their entries there makes it panic. *)
Definition c147_w : TraceWriter := mkTW [] None true false false 0%N.
Theorem C147_text_refuted : ~ C147_text_statement.
Proof.
  intros H.
  assert (Hv : exists s, ti_run (ti_new cfg_all) (tx_events ex_world ex_tx) = Ok s /\
    forallb (fun n => (N.of_nat (S (tr_depth (nd_trace n))) * 1 <=? 65535)%N) (map erase (ti_traces s)) = true /\
    write_arena (fun _ => []) (map erase (ti_traces s)) c147_w = Panic PIndex).
  { eexists. split; [vm_compute; reflexivity|]. split; [vm_compute; reflexivity|]. vm_compute; reflexivity. }
  destruct Hv as (s & Hs & Hf & Hp).
  destruct (fun H1 H2 => H (fun _ => []) cfg_all (tx_events ex_world ex_tx) s _ c147_w H1 Hs (edited_map _ _ erase_links) (erase_flags _) H2)
    as (w' & ok & Hw).
  - apply Nat.leb_le. vm_compute. reflexivity.
  - unfold fits. apply List.Forall_forall. intros n Hn. apply forallb_forall with (2 := Hn) in Hf. apply N.leb_le in Hf. exact Hf.
  - rewrite Hp in Hw. discriminate Hw.
Qed.
Print Assumptions C147_text_refuted.

(** When the ordering of each edited call still names its logs, calls and steps, and its decoded internal calls are nested, the
    text is written, and it is the rendering of the edited calls. *)
Theorem C147_text_partial :
  forall to_checksum cfg es s ns D w, ti_run (ti_new cfg) es = Ok s -> edited (ti_traces s) ns -> same_flags (ti_traces s) ns ->
  Forall ordering_complete ns -> Forall (fun n => well_nested n D (nd_ordering n)) ns -> fits ns D (tw_level w) ->
  (exists cs, node_layout ns (tw_level w) 0 cs) /\
  (exists w' ok, write_arena to_checksum ns w = Ok (w', ok)) /\
  forall cs, node_layout ns (tw_level w) 0 cs -> tw_budget w = None -> tw_flush w = true ->
  write_arena to_checksum ns w =
    Ok (mkTW (tw_out w ++ rendering to_checksum (tw_use_colors w) (tw_color_cheatcodes w) ns cs) None true
          (tw_use_colors w) (tw_color_cheatcodes w) (tw_level w), Some tt).
Proof.
  intros ck cfg es s ns D w Hr He Hfl Ho Hn Hfit.
  pose proof (inv_tree _ (tree_inv_shape _ _ (edited_shape _ _ He Hfl) (run_tree_inv _ _ _ Hr))) as Ht.
  assert (Hex : exists cs, node_layout ns (tw_level w) 0 cs).
  { unfold fits in Hfit. rewrite Forall_lookup in Hn, Hfit. by apply (root_exists ns Ht D (tw_level w)). }
  assert (Hdown : forall i n j c, ns !! i = Some n -> nd_children n !! j = Some c -> (i < c)%nat).
  { intros i n j c Hi Hc. by destruct (child_lookup ns Ht i n j c Hi Hc) as (_ & _ & _ & _ & ? & _). }
  assert (Hem : forall cs, node_layout ns (tw_level w) 0 cs ->
    let ps := map (fun c => (fst c, chunk_text ck (tw_use_colors w) (tw_color_cheatcodes w) ns c)) cs in
    concat (map snd ps) = rendering ck (tw_use_colors w) (tw_color_cheatcodes w) ns cs /\
    write_arena ck ns w =
      Ok (if snd (emit ps w) then (tw_set_level (fst (emit ps w)) (tw_level w), if tw_flush w then Some tt else None)
          else (fst (emit ps w), None))).
  { intros cs Hl ps. split; [unfold ps, rendering; f_equal; by rewrite map_map|].
    pose proof (write_node_layout (tw_use_colors w) (tw_color_cheatcodes w) ck ns Hdown _ _ _ Hl (writer_fuel ns)) as Hw.
    unfold write_arena, io_bind. rewrite Hw by done. fold ps. pose proof (emit_budget ps w) as [_ Hf].
    destruct (snd (emit ps w)); [|done]. unfold flush. cbn [tw_flush tw_set_level]. by rewrite Hf. }
  split; [done|]. split.
  - destruct Hex as (cs & Hl). destruct (Hem cs Hl) as [_ ->]. destruct (snd _); by do 2 eexists.
  - intros cs Hl Hb Hfw. destruct (Hem cs Hl) as [Hc ->]. rewrite Hfw.
    set (ps := map _ cs) in *. pose proof (emit_budget ps w) as [Hb' Hf']. rewrite Hb in Hb'. destruct Hb' as (Hb' & H1 & H2).
    destruct (emit_conf ps w) as [Hc1 Hc2].
    destruct (emit ps w) as [w' ok]. cbn [fst snd] in *. injection Hb' as ->. f_equal. f_equal.
    destruct w' as [o b f c cc l]. unfold tw_set_level. cbn in *. subst. by rewrite Hfw, Hc.
Qed.
Print Assumptions C147_text_partial.

(** Other gas values, and all else as recorded. *)
Definition regas (n : CallTraceNode) : CallTraceNode := nd_set_trace n (tr_set_gas_used (nd_trace n) 7%N).
Lemma regas_links x : same_links x (regas x).
Proof. by split. Qed.
Lemma regas_flags l : same_flags l (map regas l).
Proof. unfold same_flags. induction l; constructor; [reflexivity|done]. Qed.
Lemma regas_ordered l : Forall ordering_complete l -> Forall ordering_complete (map regas l).
Proof. induction 1 as [|n l [H1 H2 H3]]; constructor; [by constructor|done]. Qed.
Definition is_plain (n : CallTraceNode) : bool :=
  forallb (fun st => match st_decoded st with Some (InternalCall _ _) => false | _ => true end) (tr_steps (nd_trace n)).
Lemma plain_nested l : forallb is_plain l = true -> Forall (fun n => well_nested n 0 (nd_ordering n)) l.
Proof.
  intros H. apply List.Forall_forall. intros n Hn. apply forallb_forall with (2 := Hn) in H. apply plain_well_nested.
  intros st call e Hst Hd. unfold is_plain in H. apply forallb_forall with (2 := Hst) in H. by rewrite Hd in H.
Qed.
Example C147_text_example : exists s, ti_run (ti_new ex_cfg) (tx_events ex_world ex_tx) = Ok s /\
  (let ns := map regas (ti_traces s) in
   edited (ti_traces s) ns /\ same_flags (ti_traces s) ns /\ Forall ordering_complete ns /\
   Forall (fun n => well_nested n 0 (nd_ordering n)) ns /\ fits ns 0 (tw_level c147_w)) /\ length (ti_traces s) = 6.
Proof.
  assert (Hv : exists s, ti_run (ti_new ex_cfg) (tx_events ex_world ex_tx) = Ok s /\ forallb is_plain (map regas (ti_traces s)) = true /\
    forallb (fun n => (N.of_nat (S (tr_depth (nd_trace n))) * 1 <=? 65535)%N) (map regas (ti_traces s)) = true /\ length (ti_traces s) = 6).
  { eexists. split; [vm_compute; reflexivity|]. split; [vm_compute; reflexivity|]. split; vm_compute; reflexivity. }
  destruct Hv as (s & Hs & Hp & Hf & Hl). exists s. split; [exact Hs|]. split; [|exact Hl]. cbv zeta.
  split; [exact (edited_map _ _ regas_links)|]. split; [apply regas_flags|]. split.
  { apply regas_ordered. eapply run_ordered; [|apply new_all_ordered| | |exact Hs].
    - apply arena_tree_default.
    - apply Nat.leb_le. vm_compute. reflexivity.
    - intros _. apply new_pre_root. }
  split; [by apply plain_nested|]. unfold fits. apply List.Forall_forall. intros n Hn.
  apply forallb_forall with (2 := Hn) in Hf. apply N.leb_le in Hf. exact Hf.
Qed.

(** Flagging the calls of one account as calls of a precompile: fewer entries. *)
Definition reflag (n : CallTraceNode) : CallTraceNode :=
  if (nd_idx n =? 4)%nat then flag_as (nd_set_trace n (mkTrace (tr_depth (nd_trace n)) false 0 0 (Some true) None None KCall 0 [] [] 0 0
    (tr_status (nd_trace n)) [] decoded_none)%N) n else n.
Lemma reflag_links x : same_links x (reflag x).
Proof. unfold reflag. destruct (nd_idx x =? 4)%nat; by split. Qed.
Lemma reflag_flags l : no_flag_cleared l (map reflag l).
Proof. unfold no_flag_cleared. induction l as [|n l IH]; constructor; [|done]. unfold reflag. by destruct (nd_idx n =? 4)%nat. Qed.
Lemma c147_reflag s : edited (ti_traces s) (map reflag (ti_traces s)) /\ no_flag_cleared (ti_traces s) (map reflag (ti_traces s)).
Proof. split; [exact (edited_map _ _ reflag_links)|apply reflag_flags]. Qed.
Example C147_flag_example : exists s l l', ti_run (ti_new ex_cfg) (tx_events ex_world ex_tx) = Ok s /\
  (edited (ti_traces s) (map reflag (ti_traces s)) /\ no_flag_cleared (ti_traces s) (map reflag (ti_traces s))) /\
  into_transaction_traces (ti_traces s) = Ok l /\ into_transaction_traces (map reflag (ti_traces s)) = Ok l' /\
  length l = 6 /\ length l' = 5.
Proof.
  do 3 eexists. split; [vm_compute; reflexivity|]. split; [apply c147_reflag|].
  split; [vm_compute; reflexivity|]. split; [vm_compute; reflexivity|]. split; vm_compute; reflexivity.
Qed.
