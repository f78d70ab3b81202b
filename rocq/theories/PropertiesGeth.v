(** * PropertiesGeth: C16, C27-C34, C65, the geth builders *)

From Verif Require Import GethProofs TreeProofs Examples.

Lemma not_true_false (o : option bool) : o <> Some true -> unwrap_or_default_bool o = false.
Proof. destruct o as [[]|]; done. Qed.

Lemma run_arena cfg es s : ti_run (ti_new cfg) es = Ok s -> arena_tree (ti_traces s).
Proof. intros H. apply inv_tree. by eapply run_tree_inv. Qed.

Lemma empty_frame_fields rr n b g : frame_fields rr n (fi_set_gas_used (cf_info (geth_empty_call_frame rr n b)) g).
Proof.
  unfold geth_empty_call_frame, fi_set_gas_used. cbn [cf_info].
  split; cbn [fi_typ fi_from fi_to fi_value fi_gas fi_input fi_output fi_error fi_revert_reason]; try done.
  - by destruct (tr_kind (nd_trace n)).
  - by destruct (tr_kind (nd_trace n)).
  - destruct (tr_output (nd_trace n)); [by left|by right].
  - by intros ->.
  - intros ->. split; [done|]. cbn [negb]. unfold tr_as_error_msg, tr_is_error. by destruct (tr_status (nd_trace n)).
Qed.
Lemma set_gas_same i : fi_set_gas_used i (fi_gas_used i) = i.
Proof. by destruct i. Qed.

Lemma info_of_fields rr ns logs gas i n : ns !! i = Some n ->
  frame_fields rr n (info_of rr ns logs gas i) /\
  fi_gas_used (info_of rr ns logs gas i) = (if i =? 0 then gas else tr_gas_used (nd_trace n)).
Proof.
  intros Hn. unfold info_of. rewrite Hn. destruct (i =? 0); (split; [|done]); [apply empty_frame_fields|].
  rewrite <-(set_gas_same (cf_info _)). apply empty_frame_fields.
Qed.

Lemma selfdestructed_iff n : nd_is_selfdestruct n = true <-> selfdestructed n.
Proof.
  unfold nd_is_selfdestruct, tr_is_selfdestruct, selfdestructed. split.
  - destruct (tr_selfdestruct_refund_target (nd_trace n)); [eauto|]. destruct (tr_status (nd_trace n)); try done. by left.
  - intros [->|(t & ->)]; [done|]. by destruct (tr_status (nd_trace n)).
Qed.

Lemma sd_frame n c : geth_selfdestruct_call_trace n = Some c -> selfdestruct_frame n (cf_info c) /\ cf_calls c = [].
Proof.
  unfold geth_selfdestruct_call_trace. destruct (nd_is_selfdestruct n) eqn:E; [|done]. intros [= <-]. split; [|done].
  split; try done. by apply selfdestructed_iff.
Qed.
Lemma sd_none n : geth_selfdestruct_call_trace n = None -> ~ selfdestructed n.
Proof.
  unfold geth_selfdestruct_call_trace. destruct (nd_is_selfdestruct n) eqn:E; [done|]. intros _ H%selfdestructed_iff. congruence.
Qed.
Lemma sd_infos_reports o : reports o (sd_infos o).
Proof.
  destruct o as [n|]; cbn.
  - destruct (geth_selfdestruct_call_trace n) as [c|] eqn:E.
    + left. exists n, (cf_info c). split_and!; try done. by apply sd_frame.
    + right. split; [done|]. intros ? [= <-]. by apply sd_none.
  - right. done.
Qed.

(** Weakening of the general theorem of GethProofs. *)
Lemma call_traces_weaken rr cfg es s opts gas (Q : nat -> FrameInfo -> list FrameInfo -> Prop) :
  ti_run (ti_new cfg) es = Ok s -> only_top_call opts <> Some true ->
  (forall i n, ti_traces s !! i = Some n ->
     Q i (info_of rr (ti_traces s) (unwrap_or_default_bool (with_log opts)) gas i) (extra_of (ti_traces s) (ti_traces s !! 0) i)) ->
  exists r, geth_call_traces rr (ti_traces s) opts gas = Ok r /\ call_tree (ti_traces s) Q 0 r.
Proof.
  intros Hr Htop HQ. pose proof (run_arena _ _ _ Hr) as Ht.
  destruct (geth_call_traces_ok rr _ Ht opts gas (not_true_false _ Htop)) as (r & Hok & Htree). exists r. split; [done|].
  destruct (at_root _ Ht) as (root & H0 & _). apply lookup_lt_Some in H0.
  eapply (call_tree_impl _ _ Q) with (n := length (ti_traces s)); [|lia|done|done|exact Htree].
  intros i x e [-> ->] Hi. destruct (lookup_lt_is_Some_2 _ _ Hi) as [n Hn]. by eapply HQ.
Qed.

(** ** C27 *)
Theorem C27_call_tree :
  forall rr cfg es s opts gas, ti_run (ti_new cfg) es = Ok s -> only_top_call opts <> Some true ->
  exists r, geth_call_traces rr (ti_traces s) opts gas = Ok r /\
    call_tree (ti_traces s) (fun i x _ =>
      exists n, ti_traces s !! i = Some n /\ frame_fields rr n x /\
                fi_gas_used x = if i =? 0 then gas else tr_gas_used (nd_trace n)) 0 r.
Proof.
  intros rr cfg es s opts gas Hr Htop. eapply call_traces_weaken; [done..|]. intros i n Hn. exists n. split; [done|].
  by apply info_of_fields.
Qed.
Print Assumptions C27_call_tree.

Theorem C27_only_top_call :
  forall rr cfg es s opts gas, ti_run (ti_new cfg) es = Ok s -> only_top_call opts = Some true ->
  exists r root extra, geth_call_traces rr (ti_traces s) opts gas = Ok r /\ ti_traces s !! 0 = Some root /\
    frame_fields rr root (cf_info r) /\ fi_gas_used (cf_info r) = gas /\
    cf_calls r = map synthetic extra /\ reports (Some root) extra.
Proof.
  intros rr cfg es s opts gas Hr Htop. destruct (at_root _ (run_arena _ _ _ Hr)) as (root & H0 & _).
  unfold geth_call_traces. destruct (ti_traces s) as [|root' rest]; [done|]. injection H0 as ->. rewrite Htop. cbn [unwrap_or_default_bool default].
  do 2 eexists. exists (sd_infos (Some root)). split; [done|]. split; [done|].
  set (b := unwrap_or_default_bool _). pose proof (sd_infos_reports (Some root)) as Hrep. cbn [sd_infos] in *.
  destruct (geth_selfdestruct_call_trace root) as [c|] eqn:E; cbn [cf_push cf_info cf_calls geth_empty_call_frame app map].
  - split_and!; [apply (empty_frame_fields rr root b gas)|done| |done]. do 2 f_equal. by apply sd_info_frame in E as [-> _].
  - split_and!; [apply (empty_frame_fields rr root b gas)|done|done|done].
Qed.
Print Assumptions C27_only_top_call.
Example C27_example : exists s r, ex_state ex_cfg = Ok s /\
  geth_call_traces (fun _ => None) (ti_traces s) (mkCallConfig None (Some true)) 99%N = Ok r /\
  map fi_typ (call_infos r) = ["CALL"; "DELEGATECALL"; "STATICCALL"; "CREATE"; "CALL"; "CALL"] /\
  map (fun c => fi_typ (cf_info c)) (cf_calls r) = ["DELEGATECALL"; "STATICCALL"; "CREATE"; "CALL"].
Proof. do 2 eexists. split_and!; vm_compute; reflexivity. Qed.

(** ** C16: the call tracer still lists the excluded calls *)
Definition C16_statement : Prop :=
  forall rr cfg w f s opts gas r, env_ok cfg w f -> ti_run (ti_new cfg) (tx_events w f) = Ok s ->
  exclude_precompile_calls cfg = true -> geth_call_traces rr (ti_traces s) opts gas = Ok r ->
  Forall (fun x => ~ zero_precompile_call w x) (tail (call_infos r)).
Theorem C16_refuted : ~ C16_statement.
Proof.
  intros H.
  assert (Hs : exists s r, ti_run (ti_new ex_cfg) (tx_events ex_world ex_tx) = Ok s /\ geth_call_traces (fun _ => None) (ti_traces s) (mkCallConfig None None) 0%N = Ok r /\
            exists x, call_infos r !! 2 = Some x /\ fi_typ x = "STATICCALL" /\ fi_to x = Some 1%N /\ fi_value x = None).
  { do 2 eexists. split; [vm_compute; reflexivity|]. split; [vm_compute; reflexivity|]. eexists. split; [vm_compute; reflexivity|].
    done. }
  destruct Hs as (s & r & Hs & Hr & x & Hx & Ht & Hto & Hv).
  specialize (H (fun _ => None) ex_cfg ex_world ex_tx s (mkCallConfig None None) 0%N r (ex_env ex_cfg) Hs eq_refl Hr). rewrite Forall_forall in H. apply (H x).
  - clear -Hx. apply (elem_of_list_lookup_2 _ 1). destruct (call_infos r); [done|exact Hx].
  - clear -Ht Hto Hv. unfold zero_precompile_call. rewrite Ht, Hto, Hv. split_and!; try done; [|by left]. eexists. split; [done|reflexivity].
Qed.
Print Assumptions C16_refuted.

Lemma sorted_filter (p : nat -> bool) l : StronglySorted lt l -> StronglySorted lt (List.filter p l).
Proof.
  induction 1 as [|x l Hs IH Hall]; cbn; [constructor|]. destruct (p x); [|done]. constructor; [done|].
  apply Forall_forall. intros y Hy. apply elem_of_list_In, filter_In in Hy as [Hy _]. rewrite Forall_forall in Hall.
  apply Hall. by apply elem_of_list_In.
Qed.
Lemma sorted_seq n : forall k, StronglySorted lt (seq k n).
Proof.
  induction n as [|n IH]; intros k; cbn; constructor; [done|]. apply Forall_forall. intros y Hy. apply elem_of_seq in Hy. lia.
Qed.
Lemma sorted_ext l1 : forall l2, StronglySorted lt l1 -> StronglySorted lt l2 -> (forall x, In x l1 <-> In x l2) -> l1 = l2.
Proof.
  induction l1 as [|x l1 IH]; intros [|y l2] H1 H2 Hin; [done|exfalso; apply (Hin y); by left|exfalso; apply (Hin x); by left|].
  inversion_clear H1 as [|? ? Hs1 Ha1]. inversion_clear H2 as [|? ? Hs2 Ha2]. rewrite Forall_forall in Ha1, Ha2.
  assert (x = y) as ->.
  { destruct (proj1 (Hin x)) as [|Hx]; [by left|done|]. destruct (proj2 (Hin y)) as [|Hy]; [by left|done|].
    apply elem_of_list_In in Hx, Hy. specialize (Ha1 _ Hy). specialize (Ha2 _ Hx). lia. }
  f_equal. apply IH; try done. intros z. specialize (Hin z). split; intros Hz.
  - assert (y < z) by (apply Ha1; by apply elem_of_list_In). destruct (proj1 Hin) as [|]; [by right|lia|done].
  - assert (y < z) by (apply Ha2; by apply elem_of_list_In). destruct (proj2 Hin) as [|]; [by right|lia|done].
Qed.

(** What holds: the calls listed beyond the recorded children of a node are exactly the excluded precompile calls. *)
Theorem C16_listed_calls_partial :
  forall cfg es s i n, ti_run (ti_new cfg) es = Ok s -> ti_traces s !! i = Some n ->
  nd_children n = List.filter (fun j => match ti_traces s !! j with Some m => negb (nd_is_precompile m) | None => false end)
                    (called_by (ti_traces s) i).
Proof.
  intros cfg es s i n Hr Hn. pose proof (run_arena _ _ _ Hr) as Ht.
  apply sorted_ext; [by eapply at_children_sorted|apply sorted_filter, sorted_filter, sorted_seq|].
  intros j. rewrite (at_children _ Ht _ _ Hn), filter_In. unfold called_by. rewrite filter_In, in_seq. unfold attached_to. split.
  - intros (m & Hm & Hp & Hpre). rewrite Hm, Hpre. split; [|done]. split; [|by apply bool_decide_eq_true].
    apply lookup_lt_Some in Hm. lia.
  - intros [[_ H1] H2]. destruct (ti_traces s !! j) as [m|]; [|done]. exists m. apply bool_decide_eq_true in H1.
    destruct (nd_is_precompile m) eqn:E; [done|]. done.
Qed.
Print Assumptions C16_listed_calls_partial.
(** In the example node 2 is the excluded call. *)
Example C16_example : exists s, ex_state ex_cfg = Ok s /\ called_by (ti_traces s) 0 = [1; 2; 3; 4] /\
  exists n, ti_traces s !! 0 = Some n /\ nd_children n = [1; 3; 4].
Proof. eexists. split; [vm_compute; reflexivity|]. split; [vm_compute; reflexivity|]. eexists. split; vm_compute; reflexivity. Qed.

(** ** C28 *)
Definition C28_statement : Prop :=
  forall rr cfg w f s opts gas, env_ok cfg w f -> ti_run (ti_new cfg) (tx_events w f) = Ok s -> only_top_call opts <> Some true ->
  exists r, geth_call_traces rr (ti_traces s) opts gas = Ok r /\
    call_tree (ti_traces s) (fun i _ extra =>
      Forall (fun y => exists j n, ti_traces s !! j = Some n /\ selfdestruct_frame n y /\ (j = i \/ nd_parent n = Some i)) extra) 0 r.

(** The second call of the root selfdestructs: the synthetic frame ends up in the first call. *)
Definition sd_call : frame :=
  Frame (SCall ex_j0 (mkCallInputs [] 30000 0xF0 0xF0 0xC0 (Transfer 0) CSCall false)%N)
    [ IOp (ex_op OP_SELFDESTRUCT 0 [0xBB]%N [] 500%N ex_j0 [HSelfdestruct 0xF0 0xBB 5]%N SelfDestruct) ] (ex_end SelfDestruct None).
Definition sd_tx : frame :=
  Frame (SCall ex_j0 (mkCallInputs [] 90000 0xC0 0xC0 0xAA (Transfer 7) CSCall false)%N)
    [ IOp (ex_op OP_CALL 3 [0; 0; 0; 0; 0; 0; 0]%N [] 8000%N ex_j0 [] CallOrCreate);
      ISub (Frame (SCall ex_j0 (mkCallInputs [] 30000 0xF1 0xF1 0xC0 (Transfer 0) CSCall false)%N) [] (ex_end Stop None));
      IOp (ex_op OP_CALL 4 [0; 0; 0; 0; 0; 0; 0]%N [] 7000%N ex_j0 [] CallOrCreate);
      ISub sd_call;
      IOp (ex_op OP_STOP 7 [] [] 4000%N ex_j0 [] Stop) ] (ex_end Stop None).

Lemma synthetic_inj l l' : map synthetic l = map synthetic l' -> l = l'.
Proof. revert l'. induction l as [|x l IH]; intros [|y l']; cbn; intros H; try done. injection H as -> H. f_equal. by apply IH. Qed.

Theorem C28_refuted : ~ C28_statement.
Proof.
  intros H.
  assert (Hs : exists s r0 c1 c2, ti_run (ti_new cfg_none) (tx_events ex_world sd_tx) = Ok s /\
    geth_call_traces (fun _ => None) (ti_traces s) (mkCallConfig None None) 0%N = Ok r0 /\
    cf_calls r0 = [c1; c2] /\ map (fun c => (cf_calls c, fi_typ (cf_info c), fi_to (cf_info c))) (cf_calls c1) = [([], "SELFDESTRUCT", Some 0xBB%N)] /\
    map nd_parent (ti_traces s) = [None; Some 0; Some 0] /\
    map (fun n => tr_selfdestruct_refund_target (nd_trace n)) (ti_traces s) = [None; None; Some 0xBB%N] /\
    called_by (ti_traces s) 0 = [1; 2] /\ called_by (ti_traces s) 1 = []).
  { do 4 eexists. split; [vm_compute; reflexivity|]. split; [vm_compute; reflexivity|]. split; [vm_compute; reflexivity|].
    split_and!; vm_compute; reflexivity. }
  destruct Hs as (s & r0 & c1 & c2 & Hs & Hr0 & Hcalls & Hc1 & Hpar & Hsd & Hb0 & Hb1).
  destruct (H (fun _ => None) cfg_none ex_world sd_tx s (mkCallConfig None None) 0%N (env_okb_ok cfg_none ex_world sd_tx eq_refl) Hs) as (r & Hr & Htree); [done|].
  rewrite Hr0 in Hr. injection Hr as <-. clear H Hs Hr0.
  inversion Htree as [i info calls extra _ Hc _ Hi Heq]. subst i. rewrite <-Heq in Hcalls. cbn [cf_calls] in Hcalls. rewrite Hb0 in Hc.
  inversion Hc as [|? c1' ? rest Htree1 Hrest Hx1 Hx2]. clear Hrest. subst calls. cbn [app] in Hcalls. injection Hcalls as -> _.
  inversion Htree1 as [i1 info1 calls1 extra1 HP Hk _ Hi1 Heq1]. subst i1. rewrite Hb1 in Hk. inversion Hk. subst calls1.
  rewrite <-Heq1 in Hc1. cbn [cf_calls app] in Hc1. destruct extra1 as [|y [|y' ls]]; [done| |done].
  cbn in Hc1. injection Hc1 as Hty Hto. inversion_clear HP as [|? ? (j & n & Hj & Hf & Hor) _].
  assert (Hn : tr_selfdestruct_refund_target (nd_trace n) = Some 0xBB%N) by (rewrite <-(sf_to _ _ Hf); exact Hto).
  assert (Hpj : map nd_parent (ti_traces s) !! j = Some (nd_parent n)) by (by rewrite list_lookup_fmap, Hj).
  assert (Htj : map (fun n => tr_selfdestruct_refund_target (nd_trace n)) (ti_traces s) !! j = Some (Some 0xBB%N)) by (by rewrite list_lookup_fmap, Hj, <-Hn).
  rewrite Hpar in Hpj. rewrite Hsd in Htj. destruct j as [|[|[|j]]]; cbn in Htj, Hpj; try done.
  injection Hpj as Hpn. destruct Hor as [?|Hor]; [done|]. congruence.
Qed.
Print Assumptions C28_refuted.

(** What holds: exactly one synthetic frame per selfdestruct, the root's in the root frame, that of any other node in the
    frame of the node recorded just before it. *)
Theorem C28_placement_partial :
  forall rr cfg es s opts gas, ti_run (ti_new cfg) es = Ok s -> only_top_call opts <> Some true ->
  exists r, geth_call_traces rr (ti_traces s) opts gas = Ok r /\
    call_tree (ti_traces s) (fun i _ extra => exists own next, extra = own ++ next /\
      (if i =? 0 then reports (ti_traces s !! 0) own else own = []) /\ reports (ti_traces s !! S i) next) 0 r.
Proof.
  intros rr cfg es s opts gas Hr Htop. eapply call_traces_weaken; [done..|]. intros i n Hn. unfold extra_of.
  do 2 eexists. split; [done|]. split; [|apply sd_infos_reports]. destruct (i =? 0); [apply sd_infos_reports|done].
Qed.
Print Assumptions C28_placement_partial.

(** So the claim holds when only the root and nodes recorded right after their parent selfdestruct. *)
Theorem C28_first_call_partial :
  forall rr cfg es s opts gas, ti_run (ti_new cfg) es = Ok s -> only_top_call opts <> Some true ->
  (forall i n, ti_traces s !! S i = Some n -> selfdestructed n -> nd_parent n = Some i) ->
  exists r, geth_call_traces rr (ti_traces s) opts gas = Ok r /\
    call_tree (ti_traces s) (fun i _ extra =>
      Forall (fun y => exists j n, ti_traces s !! j = Some n /\ selfdestruct_frame n y /\ (j = i \/ nd_parent n = Some i)) extra) 0 r.
Proof.
  intros rr cfg es s opts gas Hr Htop Hfirst. eapply call_traces_weaken; [done..|]. intros i n Hn. unfold extra_of.
  apply Forall_app. split.
  - destruct (Nat.eqb_spec i 0) as [->|]; [|constructor].
    destruct (sd_infos_reports (ti_traces s !! 0)) as [(m & y & Hm & -> & Hy)|[-> _]]; [|constructor].
    constructor; [|constructor]. exists 0, m. split_and!; [done|done|by left].
  - destruct (sd_infos_reports (ti_traces s !! S i)) as [(m & y & Hm & -> & Hy)|[-> _]]; [|constructor].
    constructor; [|constructor]. exists (S i), m. split_and!; [done|done|]. right. eapply Hfirst; [done|apply (sf_selfdestructed _ _ Hy)].
Qed.
Print Assumptions C28_first_call_partial.
(** A root whose first call selfdestructs meets the hypothesis. *)
Definition sd_first : frame :=
  Frame (SCall ex_j0 (mkCallInputs [] 90000 0xC0 0xC0 0xAA (Transfer 7) CSCall false)%N)
    [ IOp (ex_op OP_CALL 3 [0; 0; 0; 0; 0; 0; 0]%N [] 8000%N ex_j0 [] CallOrCreate); ISub sd_call;
      IOp (ex_op OP_STOP 7 [] [] 4000%N ex_j0 [] Stop) ] (ex_end Stop None).
Example C28_example : exists s, ti_run (ti_new cfg_none) (tx_events ex_world sd_first) = Ok s /\
  map (fun n => (nd_parent n, nd_is_selfdestruct n)) (ti_traces s) = [(None, false); (Some 0, true)] /\
  exists r c, geth_call_traces (fun _ => None) (ti_traces s) (mkCallConfig None None) 0%N = Ok r /\
    map (fun c => fi_typ (cf_info c)) (cf_calls r) = ["CALL"; "SELFDESTRUCT"] /\ cf_calls r !! 0 = Some c /\ cf_calls c = [].
Proof.
  eexists. split; [vm_compute; reflexivity|]. split; [vm_compute; reflexivity|]. do 2 eexists. split_and!; vm_compute; reflexivity.
Qed.

(** ** C29 *)
Definition C29_logs (ns : list CallTraceNode) (opts : CallConfig) (i : nat) (x : FrameInfo) : Prop :=
  exists n, ns !! i = Some n /\
    (fi_logs x <> [] -> with_log opts = Some true /\ chain_succeeded ns i) /\
    (with_log opts = Some true -> chain_succeeded ns i ->
     map (fun l => (lf_topics l, lf_data l)) (fi_logs x) = map (fun l => (Some (cl_topics l), Some (cl_data l))) (nd_logs n)).
Definition C29_statement : Prop :=
  forall rr cfg w f s opts gas, env_ok cfg w f -> ti_run (ti_new cfg) (tx_events w f) = Ok s -> only_top_call opts <> Some true ->
  exists r, geth_call_traces rr (ti_traces s) opts gas = Ok r /\
    call_tree (ti_traces s) (fun i x _ => C29_logs (ti_traces s) opts i x) 0 r.

(** A reverted transaction that had emitted a log. *)
Definition log_cfg : TracingInspectorConfig := from_geth_call_config (mkCallConfig None (Some true)).
Definition log_tx : frame :=
  Frame (SCall ex_j0 (mkCallInputs [] 90000 0xC0 0xC0 0xAA (Transfer 7) CSCall false)%N)
    [ IOp (ex_op OP_LOG0 2 [5; 5]%N [] 9000%N ex_j0 [HLog ex_j0 ex_log] Continue);
      IOp (ex_op OP_REVERT 3 [0; 0]%N [] 8000%N ex_j0 [] Revert) ] (ex_end Revert None).
Theorem C29_refuted : ~ C29_statement.
Proof.
  intros H.
  assert (Hs : exists s r n, ti_run (ti_new log_cfg) (tx_events ex_world log_tx) = Ok s /\
    geth_call_traces (fun _ => None) (ti_traces s) (mkCallConfig None (Some true)) 0%N = Ok r /\ fi_logs (cf_info r) <> [] /\
    ti_traces s !! 0 = Some n /\ tr_status (nd_trace n) = Revert).
  { do 3 eexists. split; [vm_compute; reflexivity|]. split; [vm_compute; reflexivity|]. split; [by vm_compute|].
    split; [vm_compute; reflexivity|done]. }
  destruct Hs as (s & r0 & n & Hs & Hr0 & Hl & Hn & Hst).
  destruct (H (fun _ => None) log_cfg ex_world log_tx s (mkCallConfig None (Some true)) 0%N (env_okb_ok log_cfg ex_world log_tx eq_refl) Hs) as (r & Hr & Htree); [done|].
  rewrite Hr0 in Hr. injection Hr as <-. clear H Hs Hr0.
  inversion Htree as [i info calls extra HP _ _ Hi Heq]. subst i. rewrite <-Heq in Hl. cbn [cf_info] in Hl.
  destruct HP as (n' & Hn' & H1 & _). destruct (H1 Hl) as [_ Hc]. specialize (Hc 0 n (encloses_self _ _) Hn). rewrite Hst in Hc. done.
Qed.
Print Assumptions C29_refuted.

(** What holds: the claim for every node but the root, and for the root if it succeeded.  A failed root reports its
    logs too. *)
Theorem C29_logs_partial :
  forall rr cfg es s opts gas, ti_run (ti_new cfg) es = Ok s -> only_top_call opts <> Some true ->
  exists r, geth_call_traces rr (ti_traces s) opts gas = Ok r /\
    call_tree (ti_traces s) (fun i x _ =>
      (i <> 0 \/ chain_succeeded (ti_traces s) 0 -> C29_logs (ti_traces s) opts i x) /\
      (i = 0 -> exists n, ti_traces s !! 0 = Some n /\
         map (fun l => (lf_topics l, lf_data l)) (fi_logs x) =
         if unwrap_or_default_bool (with_log opts) then map (fun l => (Some (cl_topics l), Some (cl_data l))) (nd_logs n) else [])) 0 r.
Proof.
  intros rr cfg es s opts gas Hr Htop. pose proof (run_arena _ _ _ Hr) as Ht. eapply call_traces_weaken; [done..|].
  intros i n Hn. unfold info_of. rewrite Hn.
  assert (Hlog : forall b, map (fun l => (lf_topics l, lf_data l)) (fi_logs (cf_info (geth_empty_call_frame rr n b))) =
            if b then map (fun l => (Some (cl_topics l), Some (cl_data l))) (nd_logs n) else []).
  { intros []; [|done]. cbn [cf_info geth_empty_call_frame fi_logs]. by rewrite map_map. }
  assert (Hne : forall b, fi_logs (cf_info (geth_empty_call_frame rr n b)) <> [] -> b = true) by (intros []; done).
  set (wl := unwrap_or_default_bool (with_log opts)).
  assert (Hwl : wl = true <-> with_log opts = Some true) by (unfold wl; destruct (with_log opts) as [[]|]; done).
  destruct (Nat.eqb_spec i 0) as [->|Hi].
  - split.
    + intros [?|Hc]; [done|]. exists n. split; [done|]. cbn [fi_set_gas_used fi_logs]. split.
      * intros H%Hne. split; [by apply Hwl|done].
      * intros Hw _. rewrite Hlog. apply Hwl in Hw. by rewrite Hw.
    + intros _. exists n. split; [done|]. apply Hlog.
  - split; [|done]. intros _. exists n. split; [done|].
    destruct (call_or_parent_failed_ok (ti_traces s) Ht i n Hn) as (b & Hb & Hiff).
    unfold failedb. rewrite Hb. split.
    + intros H%Hne. apply andb_true_iff in H as [H1 H2]. split; [by apply Hwl|]. apply Hiff. by destruct b.
    + intros Hw Hc. rewrite Hlog. apply Hwl in Hw. apply Hiff in Hc. by rewrite Hw, Hc.
Qed.
Print Assumptions C29_logs_partial.
Example C29_example : exists s r, ex_state ex_cfg = Ok s /\
  geth_call_traces (fun _ => None) (ti_traces s) (mkCallConfig None (Some true)) 99%N = Ok r /\ length (fi_logs (cf_info r)) = 1.
Proof. do 2 eexists. split_and!; vm_compute; reflexivity. Qed.

(** ** C30 *)
Theorem C30_log_addresses :
  forall rr cfg w f s opts gas,
  env_ok cfg w f -> evm_addresses f -> ti_run (ti_new cfg) (tx_events w f) = Ok s -> only_top_call opts <> Some true ->
  exists r, geth_call_traces rr (ti_traces s) opts gas = Ok r /\
    call_tree (ti_traces s) (fun i x _ => exists par d g, entered None 0 0 f !! i = Some (par, d, g) /\
      (fi_logs x <> [] ->
       Forall2 (fun l lf => lf_address lf = Some (lg_address l) /\ lf_topics lf = Some (lg_topics l) /\ lf_data lf = Some (lg_data l))
         (logs_of (hooks (f_body g))) (fi_logs x))) 0 r.
Proof.
  intros rr cfg w f s opts gas Henv Haddr Hrun Htop. eapply call_traces_weaken; [done..|]. intros i n Hn.
  assert (Hi : i < length (entered None 0 0 f)).
  { rewrite entered_length, <-(tx_length cfg w f s Henv Hrun). by eapply lookup_lt_Some. }
  destruct (lookup_lt_is_Some_2 _ _ Hi) as [[[par d] g] He]. exists par, d, g. split; [done|].
  pose proof (every_entered _ _ Haddr _ _ _ _ _ _ _ He) as (Hlogs & Hsd & Hcr). cbn beta in *.
  assert (Hex : nd_execution_address n = executing_account (f_start g)).
  { destruct (tx_start cfg w f s Henv Hrun _ _ _ _ _ He Hn) as (Hk & Hc & _).
    destruct (tx_marks cfg w f s Henv Hrun _ _ _ _ _ He Hn) as (Ha & _).
    unfold nd_execution_address. rewrite Hk, Hc, Ha. unfold spec_address.
    assert (Hlast : forall x, last (selfdestructs_of (hooks (f_body g))) = Some x -> fst (fst x) = executing_account (f_start g)).
    { intros x Hx. apply last_Some in Hx as [l' Hx]. rewrite Hx in Hsd. apply Forall_app in Hsd as [_ Hsd]. by inversion_clear Hsd. }
    destruct (f_start g) as [j c|j c] eqn:Ef; cbn [spec_kind spec_caller executing_account is_call code_address] in *.
    - destruct (ci_scheme c); cbn; try done;
        (destruct (last _) as [[[a b] v]|] eqn:El; [by specialize (Hlast _ eq_refl)|done]).
    - assert (Hown : match last (selfdestructs_of (hooks (f_body g))) with Some (a, _, _) => a | None => cr_created_address c end = cr_created_address c).
      { destruct (last _) as [[[a b] v]|] eqn:El; [by specialize (Hlast _ eq_refl)|done]. }
      assert (Hd : (if is_delegate (match cr_scheme c with CrCreate => KCreate | CrCreate2 _ => KCreate2 end) then cr_caller c else
                      match fe_address (f_end g) with Some a => a | None => match last (selfdestructs_of (hooks (f_body g))) with Some (a, _, _) => a | None => cr_created_address c end end)
                   = match fe_address (f_end g) with Some a => a | None => match last (selfdestructs_of (hooks (f_body g))) with Some (a, _, _) => a | None => cr_created_address c end end).
      { by destruct (cr_scheme c). }
      rewrite Hd. destruct (fe_address (f_end g)) as [a|] eqn:Ea; [by apply Hcr|exact Hown]. }
  assert (Hgen : forall b, fi_logs (cf_info (geth_empty_call_frame rr n b)) <> [] ->
     Forall2 (fun l lf => lf_address lf = Some (lg_address l) /\ lf_topics lf = Some (lg_topics l) /\ lf_data lf = Some (lg_data l))
         (logs_of (hooks (f_body g))) (fi_logs (cf_info (geth_empty_call_frame rr n b)))).
  { intros [] Hne; [|done]. cbn [cf_info geth_empty_call_frame fi_logs] in *.
    rewrite (tx_logs cfg w f s Henv Hrun _ _ _ _ _ He Hn) in *. destruct (record_logs cfg); [|done].
    rewrite map_map, Hex. clear Hne. induction Hlogs as [|l ls Hl _ IH]; cbn; [constructor|]. constructor; [|done].
    by rewrite Hl. }
  unfold info_of. rewrite Hn. destruct (i =? 0); [exact (Hgen _)|exact (Hgen _)].
Qed.
Print Assumptions C30_log_addresses.

(** A delegate call logging under the address of its caller, next to the root's own log. *)
Definition addr_tx : frame :=
  Frame (SCall ex_j0 (mkCallInputs [] 90000 0xC0 0xC0 0xAA (Transfer 7) CSCall false)%N)
    [ IOp (ex_op OP_LOG0 2 [5; 5]%N [] 9000%N ex_j0 [HLog ex_j0 ex_log] Continue);
      IOp (ex_op OP_DELEGATECALL 3 [0; 0; 0; 0; 0; 0]%N [] 8000%N ex_j0 [] CallOrCreate);
      ISub (Frame (SCall ex_j0 (mkCallInputs [] 50000 0xD0 0xC0 0xAA (Apparent 7) CSDelegateCall false)%N)
              [ IOp (ex_op OP_LOG0 2 [5; 5]%N [] 900%N ex_j0 [HLog ex_j0 ex_log] Continue) ] (ex_end Stop None));
      IOp (ex_op OP_STOP 7 [] [] 4000%N ex_j0 [] Stop) ] (ex_end Stop None).
Example C30_example : evm_addresses addr_tx /\ exists s r,
  ti_run (ti_new log_cfg) (tx_events ex_world addr_tx) = Ok s /\
  geth_call_traces (fun _ => None) (ti_traces s) (mkCallConfig None (Some true)) 99%N = Ok r /\
  map (fun x => map lf_address (fi_logs x)) (call_infos r) = [[Some 0xC0%N]; [Some 0xC0%N]].
Proof.
  split.
  - repeat (constructor; cbn; try done).
  - do 2 eexists. split_and!; vm_compute; reflexivity.
Qed.

(** ** C31 *)

(** On every recorded arena: the logs are those of the steps, interleaved at the call-like steps. *)
Lemma logs_of_steps cfg es s gas out opts : ti_run (ti_new cfg) es = Ok s ->
  exists l r root, steps_in_order (ti_traces s) 0 l /\ ti_traces s !! 0 = Some root /\
    geth_traces (ti_traces s) gas out opts = Ok r /\ dfr_failed r = negb (tr_success (nd_trace root)) /\ dfr_gas r = gas /\
    dfr_return_value r = out /\ dfr_struct_logs r = snd (after opts l).
Proof.
  intros Hr. pose proof (run_arena _ _ _ Hr) as Ht. destruct (at_root _ Ht) as (root & H0 & _).
  destruct (steps_exist _ Ht (length (ti_traces s)) 0) as [l Hl]; [lia|by eapply lookup_lt_Some|].
  destruct (geth_traces_ok _ Ht opts gas out l Hl) as (root' & H0' & Hok). rewrite H0 in H0'. injection H0' as <-.
  exists l. eexists _, root. split_and!; [done|done|exact Hok|done..].
Qed.

Lemma matches_describes cfg w opts d g o n st ls :
  matches (step_describes cfg w) (d, g, o) (n, st) ->
  log_describes cfg opts d g o (struct_log st opts ls (if is_return_data_enabled opts then Some (tr_output (nd_trace n)) else None)).
Proof.
  intros [H Hout]. cbn [fst snd] in *. unfold struct_log.
  split; cbn [sl_pc sl_op sl_depth sl_gas sl_gas_cost sl_refund_counter sl_stack sl_return_data]; try apply H.
  - intros Hz. rewrite (sd_refund _ _ _ _ _ H Hz). destruct (Z.eqb_spec (g_refunded (in_gas (op_pre o))) 0) as [->|Hne]; [done|].
    destruct (N.ltb_spec 0 (Z.to_N (g_refunded (in_gas (op_pre o))))); [done|lia].
  - by rewrite (sd_stack _ _ _ _ _ H).
  - by rewrite Hout.
Qed.

Theorem C31_chronological :
  forall cfg w f s gas out opts,
  env_ok cfg w f -> evm_calls f -> ti_run (ti_new cfg) (tx_events w f) = Ok s ->
  record_steps cfg = true -> record_opcodes_filter cfg = None -> exclude_precompile_calls cfg = false ->
  exists r, geth_traces (ti_traces s) gas out opts = Ok r /\
    Forall2 (fun x l => let '(d, g, o) := x in log_describes cfg opts d g o l) (executed 0 f) (dfr_struct_logs r).
Proof.
  intros cfg w f s gas out opts Henv Hcalls Hrun Hst Hflt Hex. pose proof (tx_tree cfg w f s Hrun) as Ht.
  destruct (frame_steps_all cfg w (ti_traces s) Hst Hflt Hex (step_describes cfg w) f None 0 0 None) as (l & Hl & Hm).
  { apply Henv. }
  { eapply every_frame_impl; [|apply Henv]. intros g Hg d. eapply steps_from_all; [done..|]. intros. by apply step_of_describes. }
  { done. }
  { intros k x Hk. rewrite (tx_traces cfg w f s Henv Hrun). unfold layout. rewrite list_lookup_fmap. cbn [Nat.add]. by rewrite Hk. }
  destruct (geth_traces_ok _ Ht opts gas out l Hl) as (root & H0 & Hok). eexists. split; [exact Hok|]. cbn [dfr_struct_logs].
  change (snd (fold_left (do_log opts) l log0)) with (snd (after opts l)).
  apply Forall2_same_length_lookup. rewrite after_length. split; [by eapply Forall2_length|].
  intros j [[d g] o] sl Hx Hsl. destruct (Forall2_lookup_l _ _ _ _ _ Hm Hx) as ([n st] & Hy & Hmatch).
  destruct (after_lookup opts l j n st Hy) as (ls & Hlog & _). rewrite Hlog in Hsl. injection Hsl as <-.
  by apply (matches_describes cfg w).
Qed.
Print Assumptions C31_chronological.

(** Without the conditions on the configuration: one log per step, in the order of the weave, and the loop never panics. *)
Theorem C31_every_arena :
  forall cfg es s gas out opts, ti_run (ti_new cfg) es = Ok s ->
  exists l r, steps_in_order (ti_traces s) 0 l /\ geth_traces (ti_traces s) gas out opts = Ok r /\
    Forall2 (fun x sl => sl_pc sl = st_pc (snd x) /\ sl_op sl = st_op (snd x) /\ sl_depth sl = st_depth (snd x) /\
                         sl_gas sl = st_gas_remaining (snd x) /\ sl_gas_cost sl = st_gas_cost (snd x)) l (dfr_struct_logs r).
Proof.
  intros cfg es s gas out opts Hr. destruct (logs_of_steps _ _ _ gas out opts Hr) as (l & r & root & Hl & H0 & Hok & _ & _ & _ & Hlogs).
  exists l, r. split_and!; [done|done|]. rewrite Hlogs. apply Forall2_same_length_lookup. rewrite after_length. split; [done|].
  intros j [n st] sl Hx Hsl. destruct (after_lookup opts l j n st Hx) as (ls & Hlog & _). rewrite Hlog in Hsl. injection Hsl as <-. done.
Qed.
Print Assumptions C31_every_arena.
Definition ex_opts : GethDefaultTracingOptions := mkGethOpts None None None None (Some true) None.
Example C31_example : env_ok cfg_default_geth ex_world ex_tx /\ evm_calls ex_tx /\ exists s r,
  ti_run (ti_new cfg_default_geth) (tx_events ex_world ex_tx) = Ok s /\
  geth_traces (ti_traces s) 5%N [] ex_opts = Ok r /\
  map (fun l => (sl_depth l, sl_op l)) (dfr_struct_logs r) =
  map (fun x => (fst (fst x), in_op (op_pre (snd x)))) (executed 0 ex_tx) /\ length (dfr_struct_logs r) = 13.
Proof.
  split; [apply ex_env|]. split.
  - repeat (constructor; cbn; try done).
  - do 2 eexists. split_and!; vm_compute; reflexivity.
Qed.

(** ** C32 *)
Theorem C32_storage :
  forall cfg es s gas out opts, ti_run (ti_new cfg) es = Ok s -> disable_storage opts <> Some true ->
  exists l r, steps_in_order (ti_traces s) 0 l /\ geth_traces (ti_traces s) gas out opts = Ok r /\
    length (dfr_struct_logs r) = length l /\
    forall j n st sl, l !! j = Some (n, st) -> dfr_struct_logs r !! j = Some sl ->
      (is_Some (sl_storage sl) <-> is_Some (st_storage_change st)) /\
      (forall m, sl_storage sl = Some m -> forall k, m !! k = latest (map snd (take (S j) l)) (st_contract st) k).
Proof.
  intros cfg es s gas out opts Hr Hd. destruct (logs_of_steps _ _ _ gas out opts Hr) as (l & r & root & Hl & H0 & Hok & _ & _ & _ & Hlogs).
  exists l, r. rewrite Hlogs. split_and!; [done|done|apply after_length|].
  intros j n st sl Hx Hsl. destruct (after_lookup opts l j n st Hx) as (ls & Hlog & Hls). rewrite Hlog in Hsl. injection Hsl as <-.
  unfold struct_log. cbn [sl_storage].
  assert (Hen : is_storage_enabled opts = true) by (unfold is_storage_enabled; by rewrite (not_true_false _ Hd)).
  destruct ls as [m|].
  - destruct Hls as (_ & Hch & Hm). split; [split; [done|by eexists]|]. by intros ? [= <-].
  - destruct Hls as [?|Hch]; [congruence|]. rewrite Hch. split; [|done]. split; by intros [? ?].
Qed.
Print Assumptions C32_storage.
Example C32_example : exists s r, ti_run (ti_new cfg_default_geth) (tx_events ex_world ex_tx) = Ok s /\
  geth_traces (ti_traces s) 5%N [] ex_opts = Ok r /\
  omap (fun l => map_to_list <$> sl_storage l) (dfr_struct_logs r) = [[(1, 9)]]%N.
Proof. do 2 eexists. split_and!; vm_compute; reflexivity. Qed.

(** ** C33 *)
Lemma weave_In n steps : forall ls x, In x (weave n steps ls) -> (fst x = n /\ In (snd x) steps) \/ exists l, In l ls /\ In x l.
Proof.
  induction steps as [|s steps IH]; intros ls x Hx; [done|]. cbn [weave] in Hx.
  assert (Hd : In x ((n, s) :: weave n steps ls) -> (fst x = n /\ In (snd x) (s :: steps)) \/ exists l, In l ls /\ In x l).
  { intros [<-|H]; [left; split; [done|by left]|]. apply IH in H as [[? ?]|?]; [left; split; [done|by right]|by right]. }
  destruct (existsb _ _); [|by apply Hd]. destruct ls as [|l ls]; [by apply Hd|].
  destruct Hx as [<-|Hx]; [left; split; [done|by left]|]. apply in_app_or in Hx as [Hx|Hx].
  - right. exists l. split; [by left|done].
  - apply IH in Hx as [[? ?]|(l' & ? & ?)]; [left; split; [done|by right]|]. right. exists l'. split; [by right|done].
Qed.

Lemma steps_in_nodes ns : arena_tree ns -> forall m i l, length ns <= i + m -> steps_in_order ns i l ->
  forall n st, In (n, st) l -> exists j, ns !! j = Some n /\ In st (tr_steps (nd_trace n)).
Proof.
  intros Ht m. induction m as [|m IH]; intros i l Hm Hl n st Hin; inversion Hl as [i' n0 ls Hn0 Hsub Hi' Heq]; subst.
  { apply lookup_lt_Some in Hn0. lia. }
  apply weave_In in Hin as [[<- Hin]|(l' & Hl' & Hin)]; [by exists i|].
  apply elem_of_list_In, elem_of_list_lookup in Hl' as [k Hk]. destruct (Forall2_lookup_r _ _ _ _ _ Hsub Hk) as (c & Hc & Hs).
  apply lookup_take_Some in Hc as [Hc _]. apply elem_of_list_lookup_2, elem_of_list_In in Hc.
  destruct (child_lt ns Ht _ _ _ Hn0 Hc). eapply (IH c); [lia|done|done].
Qed.

Definition C33_content (opts : GethDefaultTracingOptions) (sl : StructLog) : Prop :=
  (is_Some (sl_stack sl) <-> disable_stack opts <> Some true) /\
  (is_Some (sl_memory sl) <-> is_memory_enabled opts = true) /\
  (is_Some (sl_storage sl) -> disable_storage opts <> Some true) /\
  (is_Some (sl_return_data sl) <-> is_return_data_enabled opts = true).
Definition C33_statement : Prop :=
  forall w f s gas out opts r,
  env_ok (from_geth_config opts) w f -> ti_run (ti_new (from_geth_config opts)) (tx_events w f) = Ok s ->
  geth_traces (ti_traces s) gas out opts = Ok r -> Forall (C33_content opts) (dfr_struct_logs r).

Theorem C33_content_partial :
  forall w f s gas out opts,
  env_ok (from_geth_config opts) w f -> ti_run (ti_new (from_geth_config opts)) (tx_events w f) = Ok s ->
  is_memory_enabled opts = unwrap_or_default_bool (enable_memory opts) ->
  exists r, geth_traces (ti_traces s) gas out opts = Ok r /\ Forall (C33_content opts) (dfr_struct_logs r).
Proof.
  intros w f s gas out opts Henv Hrun Hmem. destruct (logs_of_steps _ _ _ gas out opts Hrun) as (l & r & root & Hl & H0 & Hok & _ & _ & _ & Hlogs).
  exists r. split; [done|]. rewrite Hlogs. apply Forall_lookup. intros j sl Hsl.
  assert (Hj : j < length l). { rewrite <-(after_length opts). by eapply lookup_lt_Some. }
  destruct (lookup_lt_is_Some_2 _ _ Hj) as [[n st] Hx].
  destruct (after_lookup opts l j n st Hx) as (ls & Hlog & Hls). rewrite Hlog in Hsl. injection Hsl as <-.
  destruct (steps_in_nodes _ (run_arena _ _ _ Hrun) (length (ti_traces s)) 0 l ltac:(lia) Hl n st) as (i & Hn & Hst).
  { apply elem_of_list_In. by eapply elem_of_list_lookup_2. }
  assert (Hi : i < length (entered None 0 0 f)).
  { rewrite entered_length, <-(tx_length _ w f s Henv Hrun). by eapply lookup_lt_Some. }
  destruct (lookup_lt_is_Some_2 _ _ Hi) as [[[par d] g] He].
  pose proof (tx_steps _ w f s Henv Hrun _ _ _ _ _ He Hn) as Hdesc.
  apply elem_of_list_In, elem_of_list_lookup in Hst as [k Hk]. destruct (Forall2_lookup_r _ _ _ _ _ Hdesc Hk) as (o & _ & Ho).
  unfold C33_content, struct_log. cbn [sl_stack sl_memory sl_storage sl_return_data].
  rewrite (sd_stack _ _ _ _ _ Ho). pose proof (sd_memory_recorded _ _ _ _ _ Ho) as Hm.
  cbn [from_geth_config record_stack_snapshots record_memory_snapshots] in *. rewrite Hmem.
  split_and!.
  - unfold is_stack_enabled. destruct (disable_stack opts) as [[]|]; cbn; split; try done; try (by intros [? ?]); intros _; by eexists.
  - destruct (unwrap_or_default_bool (enable_memory opts)) eqn:E.
    + destruct Hm as [_ Hm]. destruct (Hm eq_refl) as [m Hm']. rewrite Hm'. split; [done|]. intros _. by eexists.
    + split; [by intros [? ?]|done].
  - destruct ls as [m|]; [|by intros [? ?]]. destruct Hls as (Hs & _). intros _ Hd. unfold is_storage_enabled in Hs. by rewrite Hd in Hs.
  - destruct (is_return_data_enabled opts); split; try done; try (by intros [? ?]); intros _; by eexists.
Qed.
Print Assumptions C33_content_partial.

(** For every options: each part of a log is there exactly when it is enabled, memory exactly when it is enabled both
    for showing ([is_memory_enabled]) and for recording ([enable_memory] given as true). *)
Theorem C33_content_exactly :
  forall w f s gas out opts,
  env_ok (from_geth_config opts) w f -> ti_run (ti_new (from_geth_config opts)) (tx_events w f) = Ok s ->
  exists r, geth_traces (ti_traces s) gas out opts = Ok r /\ Forall (fun sl =>
    (is_Some (sl_stack sl) <-> disable_stack opts <> Some true) /\
    (is_Some (sl_memory sl) <-> is_memory_enabled opts = true /\ enable_memory opts = Some true) /\
    (is_Some (sl_storage sl) -> disable_storage opts <> Some true) /\
    (is_Some (sl_return_data sl) <-> is_return_data_enabled opts = true)) (dfr_struct_logs r).
Proof.
  intros w f s gas out opts Henv Hrun. destruct (logs_of_steps _ _ _ gas out opts Hrun) as (l & r & root & Hl & H0 & Hok & _ & _ & _ & Hlogs).
  exists r. split; [done|]. rewrite Hlogs. apply Forall_lookup. intros j sl Hsl.
  assert (Hj : j < length l). { rewrite <-(after_length opts). by eapply lookup_lt_Some. }
  destruct (lookup_lt_is_Some_2 _ _ Hj) as [[n st] Hx].
  destruct (after_lookup opts l j n st Hx) as (ls & Hlog & Hls). rewrite Hlog in Hsl. injection Hsl as <-.
  destruct (steps_in_nodes _ (run_arena _ _ _ Hrun) (length (ti_traces s)) 0 l ltac:(lia) Hl n st) as (i & Hn & Hst).
  { apply elem_of_list_In. by eapply elem_of_list_lookup_2. }
  assert (Hi : i < length (entered None 0 0 f)).
  { rewrite entered_length, <-(tx_length _ w f s Henv Hrun). by eapply lookup_lt_Some. }
  destruct (lookup_lt_is_Some_2 _ _ Hi) as [[[par d] g] He].
  pose proof (tx_steps _ w f s Henv Hrun _ _ _ _ _ He Hn) as Hdesc.
  apply elem_of_list_In, elem_of_list_lookup in Hst as [k Hk]. destruct (Forall2_lookup_r _ _ _ _ _ Hdesc Hk) as (o & _ & Ho).
  unfold struct_log. cbn [sl_stack sl_memory sl_storage sl_return_data].
  rewrite (sd_stack _ _ _ _ _ Ho). pose proof (sd_memory_recorded _ _ _ _ _ Ho) as Hm.
  cbn [from_geth_config record_stack_snapshots record_memory_snapshots] in *.
  split_and!.
  - unfold is_stack_enabled. destruct (disable_stack opts) as [[]|]; cbn; split; try done; try (by intros [? ?]); intros _; by eexists.
  - destruct (is_memory_enabled opts); [|split; [by intros [? ?]|by intros [? _]]].
    destruct (enable_memory opts) as [[]|]; cbn [unwrap_or_default_bool] in Hm.
    + destruct Hm as [_ Hm]. destruct (Hm eq_refl) as [m Hm']. rewrite Hm'. split; [done|]. intros _. by eexists.
    + destruct (st_memory st) as [m|]; [destruct Hm as [Hm _]; discriminate Hm; by eexists|]. split; [by intros [? ?]|by intros [_ ?]].
    + destruct (st_memory st) as [m|]; [destruct Hm as [Hm _]; discriminate Hm; by eexists|]. split; [by intros [? ?]|by intros [_ ?]].
  - destruct ls as [m|]; [|by intros [? ?]]. destruct Hls as (Hs & _). intros _ Hd. unfold is_storage_enabled in Hs. by rewrite Hd in Hs.
  - destruct (is_return_data_enabled opts); split; try done; try (by intros [? ?]); intros _; by eexists.
Qed.
Print Assumptions C33_content_exactly.


(** With [enable_memory] absent and [disable_memory] false, memory counts as enabled but is not recorded. *)
Definition bad_opts : GethDefaultTracingOptions := mkGethOpts None (Some false) None None None None.
Theorem C33_refuted : ~ C33_statement.
Proof.
  intros H.
  assert (Hs : exists s r sl, ti_run (ti_new (from_geth_config bad_opts)) (tx_events ex_world log_tx) = Ok s /\
    geth_traces (ti_traces s) 0%N [] bad_opts = Ok r /\ dfr_struct_logs r !! 0 = Some sl /\ sl_memory sl = None).
  { do 3 eexists. split; [vm_compute; reflexivity|]. split; [vm_compute; reflexivity|]. split; vm_compute; reflexivity. }
  destruct Hs as (s & r & sl & Hs & Hr & Hsl & Hm).
  specialize (H ex_world log_tx s 0%N [] bad_opts r (env_okb_ok (from_geth_config bad_opts) ex_world log_tx eq_refl) Hs Hr).
  clear Hs Hr. rewrite Forall_lookup in H. destruct (H 0 sl Hsl) as (_ & [_ H1] & _). rewrite Hm in H1.
  destruct (H1 eq_refl) as [? ?]. done.
Qed.
Print Assumptions C33_refuted.
Example C33_example : is_memory_enabled ex_opts = unwrap_or_default_bool (enable_memory ex_opts) /\
  env_ok (from_geth_config ex_opts) ex_world ex_tx /\ exists s, ti_run (ti_new (from_geth_config ex_opts)) (tx_events ex_world ex_tx) = Ok s.
Proof. split; [done|]. split; [apply ex_env|]. eexists. vm_compute. reflexivity. Qed.

(** ** C34 *)
Definition C34_statement : Prop :=
  forall cfg w f s gas out opts r l j n st sl,
  env_ok cfg w f -> ti_run (ti_new cfg) (tx_events w f) = Ok s ->
  geth_traces (ti_traces s) gas out opts = Ok r -> steps_in_order (ti_traces s) 0 l ->
  l !! j = Some (n, st) -> dfr_struct_logs r !! j = Some sl ->
  (is_Some (sl_error sl) <-> failing (st_status st) = true).

Lemma in_order_logs cfg es s gas out opts r l : ti_run (ti_new cfg) es = Ok s ->
  geth_traces (ti_traces s) gas out opts = Ok r -> steps_in_order (ti_traces s) 0 l -> dfr_struct_logs r = snd (after opts l).
Proof.
  intros Hr Hok Hl. destruct (geth_traces_ok _ (run_arena _ _ _ Hr) opts gas out l Hl) as (root & _ & Hok').
  rewrite Hok in Hok'. by injection Hok' as ->.
Qed.

Theorem C34_errors_partial :
  forall cfg es s gas out opts r l j n st sl, ti_run (ti_new cfg) es = Ok s ->
  geth_traces (ti_traces s) gas out opts = Ok r -> steps_in_order (ti_traces s) 0 l ->
  l !! j = Some (n, st) -> dfr_struct_logs r !! j = Some sl ->
  st_status st <> CallOrCreate ->
  sl_error sl = if failing (st_status st) then Some (ir_debug (st_status st)) else None.
Proof.
  intros cfg es s gas out opts r l j n st sl Hr Hok Hl Hx Hsl Hne. rewrite (in_order_logs _ _ _ _ _ _ _ _ Hr Hok Hl) in Hsl.
  destruct (after_lookup opts l j n st Hx) as (ls & Hlog & _). rewrite Hlog in Hsl. injection Hsl as <-.
  unfold struct_log. cbn [sl_error]. unfold st_as_error, st_is_error. clear -Hne. by destruct (st_status st).
Qed.
Print Assumptions C34_errors_partial.

(** For every result: an error is shown exactly for failing steps and for those that end in the in-flight marker, and
    it is the name of the result. *)
Theorem C34_errors_exactly :
  forall cfg es s gas out opts r l j n st sl, ti_run (ti_new cfg) es = Ok s ->
  geth_traces (ti_traces s) gas out opts = Ok r -> steps_in_order (ti_traces s) 0 l ->
  l !! j = Some (n, st) -> dfr_struct_logs r !! j = Some sl ->
  (is_Some (sl_error sl) <-> failing (st_status st) = true \/ st_status st = CallOrCreate) /\
  (forall e, sl_error sl = Some e -> e = ir_debug (st_status st)).
Proof.
  intros cfg es s gas out opts r l j n st sl Hr Hok Hl Hx Hsl. rewrite (in_order_logs _ _ _ _ _ _ _ _ Hr Hok Hl) in Hsl.
  destruct (after_lookup opts l j n st Hx) as (ls & Hlog & _). rewrite Hlog in Hsl. injection Hsl as <-.
  unfold struct_log. cbn [sl_error]. unfold st_as_error, st_is_error. clear.
  destruct (st_status st); cbn; (split; [split; [try (by intros [? ?]); intros _; (by left) || (by right)|
    try (by intros [?|?]); intros _; by eexists]|by intros e [= <-]]).
Qed.
Print Assumptions C34_errors_exactly.

(** The step of a CALL that succeeds carries the in-flight marker [CallOrCreate], which is reported as an error. *)
Theorem C34_refuted : ~ C34_statement.
Proof.
  intros H.
  assert (Hs : exists s r n, ti_run (ti_new cfg_default_geth) (tx_events ex_world sd_first) = Ok s /\
    geth_traces (ti_traces s) 0%N [] ex_opts = Ok r /\ ti_traces s !! 0 = Some n /\
    (exists sl, dfr_struct_logs r !! 0 = Some sl /\ sl_error sl = Some "CallOrCreate") /\
    exists st rest, tr_steps (nd_trace n) = st :: rest /\ st_status st = CallOrCreate).
  { do 3 eexists. split; [vm_compute; reflexivity|]. split; [vm_compute; reflexivity|]. split; [vm_compute; reflexivity|].
    split; [eexists; split; vm_compute; reflexivity|]. do 2 eexists. split; vm_compute; reflexivity. }
  destruct Hs as (s & r & n & Hs & Hr & Hn & (sl & Hsl & He) & st & rest & Hsteps & Hst).
  pose proof (run_arena _ _ _ Hs) as Ht.
  destruct (steps_exist _ Ht (length (ti_traces s)) 0) as [l Hl]; [lia|by eapply lookup_lt_Some|].
  assert (Hl0 : l !! 0 = Some (n, st)).
  { clear -Hl Hn Hsteps. inversion Hl as [i n0 ls Hn0 Hsub Hi Heq]. subst. assert (n0 = n) as -> by congruence.
    rewrite Hsteps. cbn [weave]. destruct (existsb _ _); [|done]. by destruct ls. }
  specialize (H cfg_default_geth ex_world sd_first s 0%N [] ex_opts r l 0 n st sl
                (env_okb_ok cfg_default_geth ex_world sd_first eq_refl) Hs Hr Hl Hl0 Hsl).
  clear -H He Hst. rewrite He, Hst in H. destruct H as [H _]. discriminate H. by eexists.
Qed.
Print Assumptions C34_refuted.
Example C34_example : exists s r, ti_run (ti_new cfg_default_geth) (tx_events ex_world log_tx) = Ok s /\
  geth_traces (ti_traces s) 0%N [] ex_opts = Ok r /\ map sl_error (dfr_struct_logs r) = [None; Some "Revert"].
Proof. do 2 eexists. split_and!; vm_compute; reflexivity. Qed.

(** ** C65 *)
Theorem C65_result :
  forall cfg w f s gas out opts, env_ok cfg w f -> ti_run (ti_new cfg) (tx_events w f) = Ok s ->
  exists r, geth_traces (ti_traces s) gas out opts = Ok r /\
    dfr_failed r = negb (spec_success (ir_result (fe_result (f_end f)))) /\ dfr_gas r = gas /\ dfr_return_value r = out.
Proof.
  intros cfg w f s gas out opts Henv Hrun. destruct (logs_of_steps _ _ _ gas out opts Hrun) as (l & r & root & _ & H0 & Hok & Hf & Hg & Ho & _).
  exists r. split_and!; try done. rewrite Hf. f_equal.
  assert (He : exists d, entered None 0 0 f !! 0 = Some (None, d, f)) by (destruct f; rewrite entered_eq; by eexists).
  destruct He as [d He]. destruct (tx_end cfg w f s Henv Hrun _ _ _ _ _ He H0) as (_ & Hs & _). done.
Qed.
Print Assumptions C65_result.
Example C65_example : env_ok cfg_default_geth ex_world log_tx /\ exists s r,
  ti_run (ti_new cfg_default_geth) (tx_events ex_world log_tx) = Ok s /\
  geth_traces (ti_traces s) 0%N [] ex_opts = Ok r /\ dfr_failed r = true.
Proof. split; [by apply env_okb_ok|]. do 2 eexists. split_and!; vm_compute; reflexivity. Qed.
