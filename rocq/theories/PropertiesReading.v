(** * PropertiesReading: C139, reading struct logs as a tree of calls *)

From Verif Require Import ReadingProofs CutLogProofs PropertiesGeth PropertiesGasFlow PropertiesHistory PropertiesCutLogs Examples.

(** ** Lines and logs *)
Definition log_of_line (cfg : TracingInspectorConfig) (x : nat * nat * instr) (l : StructLog) : Prop :=
  sl_depth l = fst (fst x) /\ sl_op l = in_op (op_pre (snd x)) /\ sl_pc l = in_pc (op_pre (snd x)) /\
  sl_gas l = g_remaining (in_gas (op_pre (snd x))) /\ sl_gas_cost l = op_cost (snd x).
Lemma logs_lines cfg w f s gas out opts r :
  env_ok cfg w f -> evm_calls f -> ti_run (ti_new cfg) (tx_events w f) = Ok s ->
  record_steps cfg = true -> record_opcodes_filter cfg = None -> exclude_precompile_calls cfg = false ->
  geth_traces (ti_traces s) gas out opts = Ok r -> Forall2 (log_of_line cfg) (flines 0 0 f) (dfr_struct_logs r).
Proof.
  intros Henv Hc Hrun Hst Hflt Hex Hr. destruct (C31_chronological cfg w f s gas out opts Henv Hc Hrun Hst Hflt Hex) as (r' & Hr' & H).
  rewrite Hr in Hr'. injection Hr' as <-. pose proof (flines_executed f 0 0) as E.
  apply Forall2_same_length_lookup. split.
  { rewrite <- (Forall2_length _ _ _ H). apply (f_equal length) in E. by rewrite !map_length in E. }
  intros j x l Hx Hl. apply (f_equal (fun L => L !! j)) in E. rewrite !list_lookup_fmap, Hx in E. cbn in E.
  destruct (executed 0 f !! j) as [[[d g] o]|] eqn:Ee; [|done]. cbn in E. injection E as E1 E2.
  pose proof (Forall2_lookup_lr _ _ _ _ _ _ H Ee Hl) as D. cbn in D. unfold log_of_line. rewrite E1, E2.
  split_and!; [apply D..|]. pose proof (ld_cost _ _ _ _ _ _ D). unfold op_cost. lia.
Qed.
Lemma depth_line cfg L ls j x : Forall2 (log_of_line cfg) L ls -> L !! j = Some x -> depth_at ls j = fst (fst x).
Proof. intros H Hx. destruct (Forall2_lookup_l _ _ _ _ _ H Hx) as (l & Hl & D). unfold depth_at. rewrite Hl. apply D. Qed.
Lemma ran_line f j p : ran_in 0 f !! j = Some p <-> exists d o, flines 0 0 f !! j = Some (d, p, o).
Proof.
  rewrite <- (flines_ran f 0 0), list_lookup_fmap. split.
  - destruct (flines 0 0 f !! j) as [[[d q] o]|]; [|done]. cbn. intros [= ->]. eauto.
  - by intros (d & o & ->).
Qed.
Lemma call_line cfg x l : log_of_line cfg x l -> line_is_call l = instr_is_call (snd x).
Proof. intros (_ & H & _). unfold line_is_call, instr_is_call. by rewrite H. Qed.
Lemma between cfg L ls k j (P : nat -> Prop) : Forall2 (log_of_line cfg) L ls -> j <= length L ->
  ((forall m, k < m < j -> P (depth_at ls m)) <-> (forall m x, k < m < j -> L !! m = Some x -> P (fst (fst x)))).
Proof.
  intros H Hj. split; intros A m.
  - intros x Hm Hx. rewrite <- (depth_line _ _ _ _ _ H Hx). by apply A.
  - intros Hm. destruct (L !! m) as [x|] eqn:Ex; [|apply lookup_ge_None in Ex; lia]. rewrite (depth_line _ _ _ _ _ H Ex). by eapply A.
Qed.

(** ** C139 *)

(** Every line belongs to one call, and the lines of a call are its recorded steps. *)
Theorem C139_lines :
  forall cfg w f s gas out opts,
  env_ok cfg w f -> evm_calls f -> ti_run (ti_new cfg) (tx_events w f) = Ok s ->
  record_steps cfg = true -> record_opcodes_filter cfg = None -> exclude_precompile_calls cfg = false ->
  exists r, geth_traces (ti_traces s) gas out opts = Ok r /\ length (ran_in 0 f) = length (dfr_struct_logs r) /\
    forall i n, ti_traces s !! i = Some n -> Forall2 line_shows (tr_steps (nd_trace n)) (lines_of (ran_in 0 f) (dfr_struct_logs r) i).
Proof.
  intros cfg w f s gas out opts Henv Hc Hrun Hst Hflt Hex.
  destruct (C31_chronological cfg w f s gas out opts Henv Hc Hrun Hst Hflt Hex) as (r & Hr & _).
  pose proof (logs_lines _ _ _ _ _ _ _ _ Henv Hc Hrun Hst Hflt Hex Hr) as H. exists r. split; [done|].
  rewrite <- (flines_ran f 0 0). split; [rewrite map_length; by eapply Forall2_length|]. intros i n Hn.
  destruct (entered_at _ _ _ _ Henv Hrun _ _ Hn) as (par & d & g & He).
  pose proof (all_steps _ _ _ _ Henv Hrun Hst Hflt _ _ _ _ _ He Hn) as Hs.
  assert (Hat : at_pos None 0 0 f i (par, d, g)) by (split; [lia|by rewrite Nat.sub_0_r]).
  pose proof (call_lines f _ _ _ _ _ _ _ Hat) as El.
  assert (Hdep : Forall (fun x : nat * nat * instr => snd (fst x) = i -> fst (fst x) = S d) (flines 0 0 f)).
  { apply Forall_lookup. intros j [[dj ij] oj] Hj Ei. cbn in Ei. subst ij. cbn.
    by eapply (line_depth f None 0 0 j). }
  revert El Hs. generalize (instrs (f_body g)) as os. generalize (tr_steps (nd_trace n)) as sts. unfold lines_of.
  induction H as [|[[dj ij] oj] l L ls D H IH]; intros sts os El Hs.
  - cbn in El. subst os. inversion Hs. constructor.
  - apply Forall_cons_1 in Hdep as [Hd Hdep]. cbn [List.filter fst snd] in El, Hd. cbn [map zip_with List.filter fst snd].
    destruct (Nat.eqb_spec ij i) as [Ei|Ei]; [|by eapply IH]. cbn [map snd] in El |- *. subst os. inversion Hs as [|? st ? sts' Ho Hs']; subst.
    constructor; [|by eapply IH]. destruct D as (D1 & D2 & D3 & D4 & D5). cbn [fst snd] in *. split_and!.
    + rewrite D1, (Hd eq_refl). symmetry. apply Ho.
    + rewrite D2. symmetry. apply Ho.
    + rewrite D3. symmetry. apply Ho.
    + rewrite D4. symmetry. apply Ho.
    + rewrite D5. pose proof (sd_cost _ _ _ _ _ Ho). unfold op_cost. lia.
Qed.
Print Assumptions C139_lines.

(** Two lines are from the same call if and only if they have the same depth and no line in between has a lower one. *)
Theorem C139_same_call :
  forall cfg w f s gas out opts r j k p q,
  env_ok cfg w f -> evm_calls f -> ti_run (ti_new cfg) (tx_events w f) = Ok s ->
  record_steps cfg = true -> record_opcodes_filter cfg = None -> exclude_precompile_calls cfg = false ->
  geth_traces (ti_traces s) gas out opts = Ok r ->
  ran_in 0 f !! j = Some p -> ran_in 0 f !! k = Some q -> j < k ->
  (p = q <-> same_call (dfr_struct_logs r) j k).
Proof.
  intros cfg w f s gas out opts r j k p q Henv Hc Hrun Hst Hflt Hex Hr Hj Hk Hjk.
  pose proof (logs_lines _ _ _ _ _ _ _ _ Henv Hc Hrun Hst Hflt Hex Hr) as H.
  apply ran_line in Hj as (dj & oj & Hj). apply ran_line in Hk as (dk & ok & Hk).
  rewrite (flines_same f Hc 0 0 _ _ _ _ _ _ _ _ Hjk Hj Hk). unfold same_call, no_return.
  rewrite (between _ _ _ _ _ (fun x => depth_at (dfr_struct_logs r) j <= x) H) by (apply lookup_lt_Some in Hk; lia).
  rewrite (depth_line _ _ _ _ _ H Hj), (depth_line _ _ _ _ _ H Hk). done.
Qed.
Print Assumptions C139_same_call.

(** The last earlier line at a lower depth than a line is the call instruction that made the line's call: it exists
    unless the line is the transaction's own, is exactly one level up and belongs to the call recorded as the parent. *)
Theorem C139_caller :
  forall cfg w f s gas out opts r j i,
  env_ok cfg w f -> evm_calls f -> ti_run (ti_new cfg) (tx_events w f) = Ok s ->
  record_steps cfg = true -> record_opcodes_filter cfg = None -> exclude_precompile_calls cfg = false ->
  geth_traces (ti_traces s) gas out opts = Ok r -> ran_in 0 f !! j = Some i ->
  (i = 0 -> depth_at (dfr_struct_logs r) j = 1 /\ forall k, ~ calling_line (dfr_struct_logs r) k j) /\
  (i <> 0 -> exists k l p n, calling_line (dfr_struct_logs r) k j /\ dfr_struct_logs r !! k = Some l /\ line_is_call l = true /\
     S (sl_depth l) = depth_at (dfr_struct_logs r) j /\ ran_in 0 f !! k = Some p /\ ti_traces s !! i = Some n /\ nd_parent n = Some p).
Proof.
  intros cfg w f s gas out opts r j i Henv Hc Hrun Hst Hflt Hex Hr Hj.
  pose proof (logs_lines _ _ _ _ _ _ _ _ Henv Hc Hrun Hst Hflt Hex Hr) as H. apply ran_line in Hj as (dj & oj & Hj). split; intros Hi.
  - subst i. pose proof (flines_range f 0 0) as R.
    assert (Hd : depth_at (dfr_struct_logs r) j = 1).
    { rewrite (depth_line _ _ _ _ _ H Hj). destruct (in_range _ _ _ _ _ _ _ R Hj) as [[? ?]|[? ?]]; cbn in *; lia. }
    split; [done|]. intros k (H1 & H2 & _). rewrite Hd in H2.
    destruct (lookup_lt_is_Some_2 (flines 0 0 f) k) as (x & Hx); [apply lookup_lt_Some in Hj; lia|]. rewrite (depth_line _ _ _ _ _ H Hx) in H2.
    destruct (in_range _ _ _ _ _ _ _ R Hx) as [[? ?]|[? ?]]; lia.
  - destruct (flines_caller f Hc None 0 0 _ _ _ _ Hj Hi) as (k & dk & p & ok & d' & g' & H1 & H2 & H3 & H4 & H5 & _ & H6).
    rewrite Nat.sub_0_r in H6. destruct (tx_lookup _ _ _ _ Henv Hrun _ _ H6) as (n & Hn). destruct (tx_shape _ _ _ _ Henv Hrun _ _ _ _ _ H6 Hn) as (Hp & _).
    destruct (Forall2_lookup_l _ _ _ _ _ H H2) as (l & Hl & D). exists k, l, p, n.
    pose proof (depth_line _ _ _ _ _ H Hj) as Ej. pose proof (depth_line _ _ _ _ _ H H2) as Ek. cbn in Ej, Ek. split_and!; try done.
    + split_and!; [done|rewrite Ej, Ek; lia|]. rewrite Ej. by apply (between _ _ _ _ _ (fun x => dj <= x) H); [apply lookup_lt_Some in Hj; lia|].
    + rewrite (call_line _ _ _ D). done.
    + destruct D as (D & _). rewrite D, Ej. done.
    + apply ran_line. eauto.
Qed.
Print Assumptions C139_caller.

(** From a line to the next line of the same call the gas falls by the cost. If the line is a call instruction, it also
    rises by what the call gave back; the lines in between are those of this call and the calls it made. *)
Theorem C139_gas :
  forall cfg w f s gas out opts r j k lj lk,
  env_ok cfg w f -> gas_flows f -> evm_calls f -> ti_run (ti_new cfg) (tx_events w f) = Ok s ->
  record_steps cfg = true -> record_opcodes_filter cfg = None -> exclude_precompile_calls cfg = false ->
  geth_traces (ti_traces s) gas out opts = Ok r -> dfr_struct_logs r !! j = Some lj -> dfr_struct_logs r !! k = Some lk ->
  next_line (dfr_struct_logs r) j k ->
  if line_is_call lj
  then exists i n, ti_traces s !! i = Some n /\ nd_parent n = ran_in 0 f !! j /\
    (sl_gas lk + sl_gas_cost lj = sl_gas lj + node_gave_back n)%N /\
    (S j < k <-> tr_steps (nd_trace n) <> []) /\
    forall m, j < m < k -> depth_at (dfr_struct_logs r) m = S (sl_depth lj) -> ran_in 0 f !! m = Some i
  else k = S j /\ (sl_gas lk + sl_gas_cost lj = sl_gas lj)%N.
Proof.
  intros cfg w f s gas out opts r j k lj lk Henv Hg Hc Hrun Hst Hflt Hex Hr Hlj Hlk (H1 & H2 & H3).
  pose proof (logs_lines _ _ _ _ _ _ _ _ Henv Hc Hrun Hst Hflt Hex Hr) as H.
  destruct (Forall2_lookup_r _ _ _ _ _ H Hlj) as ([[dj ij] oj] & Hj & Dj). destruct (Forall2_lookup_r _ _ _ _ _ H Hlk) as ([[dk ik] ok] & Hk & Dk).
  pose proof (flines_same f Hc 0 0) as HS.
  pose proof (depth_line _ _ _ _ _ H Hj) as Ej. pose proof (depth_line _ _ _ _ _ H Hk) as Ek. cbn in Ej, Ek.
  assert (E : ij = ik).
  { apply (HS _ _ _ _ _ _ _ _ H1 Hj Hk). split; [congruence|]. intros m x Hm Hx. specialize (H3 m Hm). rewrite (depth_line _ _ _ _ _ H Hx), Ej in H3. lia. }
  subst ik. assert (Hcon : consecutive (flines 0 0 f) j dj ij oj k dk ok).
  { split_and!; [done..|]. intros m [[dm im] om] Hm Hx. cbn. intros ->. destruct (proj1 (HS j m _ _ _ _ _ _ ltac:(lia) Hj Hx) eq_refl) as [Hd _].
    specialize (H3 m Hm). rewrite (depth_line _ _ _ _ _ H Hx), Ej in H3. cbn in H3. lia. }
  pose proof (flines_next f Hc Hg None 0 0 _ _ _ _ _ _ _ Hcon) as HN. unfold next_in in HN. rewrite (call_line _ _ _ Dj). cbn [snd].
  destruct Dj as (Dj1 & _ & _ & Dj4 & Dj5), Dk as (Dk1 & _ & _ & Dk4 & Dk5). cbn [fst snd] in *.
  destruct (instr_is_call oj); [|by rewrite Dk4, Dj4, Dj5].
  destruct HN as (i & d' & g' & [_ Hat] & Hgas & Hbet & Hsteps). rewrite Nat.sub_0_r in Hat.
  destruct (tx_lookup _ _ _ _ Henv Hrun _ _ Hat) as (n & Hn). destruct (tx_shape _ _ _ _ Henv Hrun _ _ _ _ _ Hat Hn) as (Hp & _).
  exists i, n. split_and!.
  - done.
  - rewrite Hp. symmetry. apply ran_line. eauto.
  - rewrite Dk4, Dj4, Dj5, (gave_back _ _ _ _ Henv Hrun Hg _ _ _ _ _ Hat Hn). exact Hgas.
  - rewrite Hsteps. pose proof (all_steps _ _ _ _ Henv Hrun Hst Hflt _ _ _ _ _ Hat Hn) as Hs.
    destruct (instrs (f_body g')), (tr_steps (nd_trace n)); inversion Hs; done.
  - intros m Hm Hd. destruct (lookup_lt_is_Some_2 (flines 0 0 f) m) as ([[dm im] om] & Hx); [apply lookup_lt_Some in Hk; lia|].
    rewrite (depth_line _ _ _ _ _ H Hx), Dj1 in Hd. pose proof (Hbet _ _ Hm Hx Hd) as Hi. cbn in Hi. subst im. apply ran_line. eauto.
Qed.
Print Assumptions C139_gas.

(** The transaction of C138: two inner calls from depth 1, one of them with three lines. *)
Example C139_example :
  env_ok cfg_default_geth ex_world gx_tx /\ gas_flows gx_tx /\ evm_calls gx_tx /\
  exists s r, ti_run (ti_new cfg_default_geth) (tx_events ex_world gx_tx) = Ok s /\
    geth_traces (ti_traces s) 5%N [] ex_opts = Ok r /\ ran_in 0 gx_tx = [0; 0; 1; 1; 0; 0; 2; 2; 2; 0] /\
    map sl_depth (dfr_struct_logs r) = [1; 1; 2; 2; 1; 1; 2; 2; 2; 1] /\
    next_line (dfr_struct_logs r) 1 4 /\ calling_line (dfr_struct_logs r) 5 7 /\
    sl_gas <$> dfr_struct_logs r !! 4 = Some (9997 - 4000 + 1790)%N.
Proof.
  split; [apply gx_env|]. split; [apply gx_flows|]. split; [apply gx_calls|]. do 2 eexists.
  split; [vm_compute; reflexivity|]. split; [vm_compute; reflexivity|]. split; [vm_compute; reflexivity|]. split; [vm_compute; reflexivity|].
  split; [|split; [|vm_compute; reflexivity]].
  - split; [lia|]. split; [vm_compute; reflexivity|]. intros m Hm. assert (m = 2 \/ m = 3) as [->| ->] by lia; vm_compute; lia.
  - split; [lia|]. split; [vm_compute; lia|]. intros m Hm. assert (m = 6) as -> by lia. vm_compute. lia.
Qed.

(** *** Transactions that were cut off *)
Lemma ran_tags f : forall pos, map fst (tags pos f) = ran_in pos f.
Proof.
  induction f as [s body e IH] using frame_ind'. intros pos. rewrite tags_eq. cbn [ran_in].
  generalize 0 as k, (S pos) as next. induction body as [|[o|h|g] r IHr]; intros k next; cbn [tags_body map fst]; [done|..].
  - by rewrite IHr.
  - by apply IHr.
  - cbn [subs flat_map app] in IH. apply Forall_cons_1 in IH as [Hg IH]. by rewrite map_app, Hg, IHr.
Qed.

(** Each line of a transaction that was cut off has its call in the recording. *)
Lemma cut_ran cfg w f es1 es2 s1 : record_steps cfg = true -> record_opcodes_filter cfg = None -> exclude_precompile_calls cfg = false ->
  env_ok cfg w f -> evm_calls f -> tx_events w f = es1 ++ es2 -> ti_run (ti_new cfg) es1 = Ok s1 ->
  steps_begun es1 <= length (ran_in 0 f) /\ forall j i, j < steps_begun es1 -> ran_in 0 f !! j = Some i -> is_Some (ti_traces s1 !! i).
Proof.
  intros Hst Hflt Hex Henv Hc Heq H1.
  destruct (cut_order cfg w f es1 es2 s1 Hst Hflt Hex Henv Hc Heq H1) as (T & HT & Hp & Hlen & _).
  destruct (tags_steps _ (run_arena_tree _ _ _ H1) (length (ti_traces s1)) 0 T ltac:(lia) HT) as (l & _ & Hr).
  split; [rewrite <- ran_tags, map_length, <- Hlen; by apply prefix_length|].
  intros j i Hj Hi. destruct (lookup_lt_is_Some_2 T j) as (t & Ht); [lia|].
  pose proof (prefix_lookup _ _ _ _ Ht Hp) as Ht'. rewrite <- ran_tags, list_lookup_fmap, Ht' in Hi. injection Hi as <-.
  destruct (Forall2_lookup_l _ _ _ _ _ Hr Ht) as (x & _ & [Hx _]). eauto.
Qed.

(** Asked for after any hook call, the lines read the same way: two of them are from the same call if and only if they
    have the same depth and no line in between has a lower one, and the last earlier line at a lower depth is the call
    instruction of the call recorded as the parent. *)
Theorem C139_cut_off :
  forall cfg w f es1 es2 s1 gas out opts r,
  env_ok cfg w f -> evm_calls f -> tx_events w f = es1 ++ es2 -> ti_run (ti_new cfg) es1 = Ok s1 ->
  record_steps cfg = true -> record_opcodes_filter cfg = None -> exclude_precompile_calls cfg = false ->
  geth_traces (ti_traces s1) gas out opts = Ok r ->
  length (dfr_struct_logs r) = steps_begun es1 /\
  (forall j k, j < k -> k < length (dfr_struct_logs r) ->
     (ran_in 0 f !! j = ran_in 0 f !! k <-> same_call (dfr_struct_logs r) j k)) /\
  (forall j, j < length (dfr_struct_logs r) ->
     exists i n, ran_in 0 f !! j = Some i /\ ti_traces s1 !! i = Some n /\
       (i = 0 -> depth_at (dfr_struct_logs r) j = 1 /\ forall k, ~ calling_line (dfr_struct_logs r) k j) /\
       (i <> 0 -> exists k l p, calling_line (dfr_struct_logs r) k j /\ dfr_struct_logs r !! k = Some l /\ line_is_call l = true /\
          S (sl_depth l) = depth_at (dfr_struct_logs r) j /\ ran_in 0 f !! k = Some p /\ nd_parent n = Some p)).
Proof.
  intros cfg w f es1 es2 s1 gas out opts r1 Henv Hc Heq H1 Hst Hflt Hex Hr1.
  destruct (tx_layout cfg w f Henv) as (lr & H2). match type of H2 with _ = Ok ?x => set (s2 := x) in * end. clearbody s2.
  destruct (C133_lines cfg w f es1 es2 s1 s2 opts gas out gas out Henv Hc Hst Hflt Hex Heq H1 H2) as (r1' & r2 & Hr1' & Hr2 & Hlen & Hbeg & _).
  rewrite Hr1 in Hr1'. injection Hr1' as <-.
  destruct (cut_ran cfg w f es1 es2 s1 Hst Hflt Hex Henv Hc Heq H1) as [Hle Hran].
  assert (Hline : forall j l, dfr_struct_logs r1 !! j = Some l -> exists l', dfr_struct_logs r2 !! j = Some l' /\ began_with l = began_with l').
  { intros j l Hl. apply (f_equal (fun x => x !! j)) in Hbeg. rewrite list_lookup_fmap, Hl in Hbeg. cbn [fmap option_map] in Hbeg.
    rewrite lookup_take in Hbeg by (apply lookup_lt_Some in Hl; lia). rewrite list_lookup_fmap in Hbeg.
    destruct (dfr_struct_logs r2 !! j) as [l'|]; [|done]. exists l'. split; [done|]. apply (inj Some). exact Hbeg. }
  assert (Hd : forall j, j < steps_begun es1 -> depth_at (dfr_struct_logs r1) j = depth_at (dfr_struct_logs r2) j).
  { intros j Hj. destruct (lookup_lt_is_Some_2 (dfr_struct_logs r1) j) as (l & Hl); [lia|]. destruct (Hline _ _ Hl) as (l' & Hl' & E).
    unfold depth_at. rewrite Hl, Hl'. cbn. by injection E. }
  assert (Hcl : forall k j, j < steps_begun es1 -> (calling_line (dfr_struct_logs r1) k j <-> calling_line (dfr_struct_logs r2) k j)).
  { intros k j Hj. unfold calling_line. split; intros (A & B & C); (split; [done|]); split.
    - rewrite <- !Hd by lia. done.
    - intros m Hm. rewrite <- !Hd by lia. by apply C.
    - rewrite !Hd by lia. done.
    - intros m Hm. rewrite !Hd by lia. by apply C. }
  split; [done|]. rewrite Hlen. split.
  - intros j k Hjk Hk. destruct (lookup_lt_is_Some_2 (ran_in 0 f) j) as (p & Hp); [lia|]. destruct (lookup_lt_is_Some_2 (ran_in 0 f) k) as (q & Hq); [lia|].
    pose proof (C139_same_call cfg w f s2 gas out opts r2 j k p q Henv Hc H2 Hst Hflt Hex Hr2 Hp Hq Hjk) as HS.
    rewrite Hp, Hq. transitivity (p = q); [split; [by injection 1|by intros ->]|]. rewrite HS. unfold same_call, no_return.
    rewrite !Hd by lia. split; intros [A B]; (split; [done|]); intros m Hm; specialize (B m Hm); [rewrite Hd by lia|rewrite Hd in B by lia]; done.
  - intros j Hj. destruct (lookup_lt_is_Some_2 (ran_in 0 f) j) as (i & Hi); [lia|]. destruct (Hran _ _ Hj Hi) as (n & Hn). exists i, n. split; [done|]. split; [done|].
    destruct (C139_caller cfg w f s2 gas out opts r2 j i Henv Hc H2 Hst Hflt Hex Hr2 Hi) as [C0 C1]. rewrite Hd by lia. split.
    + intros E. destruct (C0 E) as [A B]. split; [done|]. intros k Hk. apply (B k). by apply Hcl.
    + intros E. destruct (C1 E) as (k & l & p & n2 & A1 & A2 & A3 & A4 & A5 & A6 & A7).
      assert (Hk : k < steps_begun es1) by (destruct A1; lia).
      destruct (lookup_lt_is_Some_2 (dfr_struct_logs r1) k) as (l1 & Hl1); [lia|]. destruct (Hline _ _ Hl1) as (l' & Hl' & Eb). rewrite A2 in Hl'. injection Hl' as <-.
      unfold began_with in Eb. injection Eb as E1 E2 E3 E4 E5 E6 E7.
      exists k, l1, p. split_and!.
      * by apply Hcl.
      * done.
      * unfold line_is_call in *. by rewrite E3.
      * by rewrite E1.
      * done.
      * assert (Hne : es1 <> []) by (intros ->; cbn in Hj; lia).
        destruct (C85_interrupted cfg w f es1 es2 Henv Heq Hne) as (s1' & s2' & H1' & H2' & Hlater & _).
        rewrite H1 in H1'. injection H1' as <-. rewrite H2 in H2'. injection H2' as <-.
        destruct (Hlater _ _ Hn) as (n2' & Hn2 & HL). rewrite A6 in Hn2. injection Hn2 as <-. rewrite <- A7. symmetry. apply HL.
Qed.
Print Assumptions C139_cut_off.

(** Cut off in the middle of the second inner call. *)
Example C139_cut_off_example :
  exists s1 r, ti_run (ti_new cfg_default_geth) (take 19 (tx_events ex_world gx_tx)) = Ok s1 /\
    geth_traces (ti_traces s1) 0%N [] ex_opts = Ok r /\ map sl_depth (dfr_struct_logs r) = [1; 1; 2; 2; 1; 1; 2; 2].
Proof. do 2 eexists. split; [vm_compute; reflexivity|]. split; vm_compute; reflexivity. Qed.
