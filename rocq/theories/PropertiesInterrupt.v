(** * PropertiesInterrupt: C130, reports of a transaction that was cut off *)

From Verif Require Import InterruptProofs GethProofs PropertiesRecord PropertiesParity PropertiesGeth Examples.

(** ** C130: what is reported when the execution is cut off after any number of hook calls *)

(** A call that has not ended is not reported as one that has succeeded. *)
Definition C130_statement : Prop :=
  forall cfg w f es1 es2 s l, env_ok cfg w f -> tx_events w f = es1 ++ es2 -> ti_run (ti_new cfg) es1 = Ok s ->
  into_transaction_traces (ti_traces s) = Ok l ->
  forall e i, In e l -> i ∈ unended [] 0 es1 -> follow (ti_traces s) 0 (tt_address e) = Some i ->
  tt_error e <> None \/ tt_result e = None.

(** A creation cut off right after its init code began. *)
Definition cut : list event := take 24 (tx_events ex_world ex_tx).
Theorem C130_refuted : ~ C130_statement.
Proof.
  intros H. destruct (ti_run (ti_new ex_cfg) cut) as [s| |] eqn:E; [|vm_compute in E; discriminate..].
  destruct (into_transaction_traces (ti_traces s)) as [l| |] eqn:El; [|vm_compute in E; injection E as <-; vm_compute in El; discriminate..].
  assert (Heq : tx_events ex_world ex_tx = cut ++ drop 24 (tx_events ex_world ex_tx)) by (unfold cut; by rewrite take_drop).
  specialize (H ex_cfg ex_world ex_tx cut _ s l (ex_env ex_cfg) Heq E El). clear Heq.
  vm_compute in E. injection E as <-. vm_compute in El. injection El as <-.
  edestruct H as [H1|H1]; [do 2 right; left; reflexivity| |vm_compute; reflexivity|exact (H1 eq_refl)|discriminate H1].
  vm_compute. constructor.
Qed.
Print Assumptions C130_refuted.

(** What is reported: the calls that have not ended stand in the Parity traces as successes without output that used no
    gas; in the call tracer's frames, as calls without output or error; the struct log trace of the transaction is
    marked as failed. *)
Theorem C130_unended_partial :
  forall cfg w f es1 es2 s, env_ok cfg w f -> tx_events w f = es1 ++ es2 -> ti_run (ti_new cfg) es1 = Ok s ->
  (forall l e i, into_transaction_traces (ti_traces s) = Ok l -> In e l -> i ∈ unended [] 0 es1 ->
     follow (ti_traces s) 0 (tt_address e) = Some i -> idle_success e) /\
  (forall rr opts gas, only_top_call opts <> Some true ->
     exists r, geth_call_traces rr (ti_traces s) opts gas = Ok r /\
       call_tree (ti_traces s) (fun i x _ => i ∈ unended [] 0 es1 ->
         fi_error x = None /\ fi_output x = None /\ fi_revert_reason x = rr [] /\ fi_gas_used x = if i =? 0 then gas else 0%N) 0 r) /\
  (es1 <> [] -> es2 <> [] -> forall gas out opts r, geth_traces (ti_traces s) gas out opts = Ok r -> dfr_failed r = true).
Proof.
  intros cfg w f es1 es2 s Henv Heq Hrun. split; [|split].
  - intros l e i Hl He Hi Hf. destruct (tx_unended cfg w f es1 es2 s i Henv Heq Hrun Hi) as (n & Hn & [_ Hst Hout Hgas]).
    destruct (C22_entry_contents cfg es1 s l Hrun Hl) as [Hc _]. destruct (Hc e He) as (i' & n' & Hn' & _ & [[Hce Hf']|(_ & a & Ha & Hadd)]).
    + rewrite Hf in Hf'. injection Hf' as <-. rewrite Hn in Hn'. injection Hn' as <-.
      destruct Hce as [C1 C2 C3 _ _ C4 C5]. rewrite Hst, Hout, Hgas in *. split; [by apply C3|].
      destruct (spec_is_create (tr_kind (nd_trace n))); [rewrite C2 by done|rewrite C1 by done].
      * eexists. apply C5; [by left|done].
      * apply C4; [by left|done].
    + exfalso. rewrite Hadd, follow_app, Ha in Hf. cbn in Hf. rewrite Hn' in Hf.
      by rewrite (proj2 (lookup_ge_None _ _)) in Hf.
  - intros rr opts gas Htop. eapply call_traces_weaken; [done..|]. intros i n Hn Hi.
    destruct (tx_unended cfg w f es1 es2 s i Henv Heq Hrun Hi) as (n' & Hn' & [Hsu Hst Hout Hgas]). rewrite Hn in Hn'. injection Hn' as <-.
    destruct (info_of_fields rr (ti_traces s) (unwrap_or_default_bool (with_log opts)) gas i n Hn) as [Hff Hg].
    rewrite Hg, Hgas. destruct (ff_failure _ _ _ Hff Hsu) as (Hrr & _ & Herr). rewrite Hst in Herr. rewrite Hout in Hrr.
    split; [by apply Herr|]. split; [|done]. destruct (ff_output _ _ _ Hff) as [[_ ?]|[? _]]; done.
  - intros Hne1 Hne2 gas out opts r Hr.
    assert (H0 : 0 ∈ unended [] 0 es1) by (eapply root_unended; eauto).
    destruct (tx_unended cfg w f es1 es2 s 0 Henv Heq Hrun H0) as (n & Hn & [Hsu _ _ _]).
    unfold geth_traces in Hr. destruct (ti_traces s) as [|m ms]; [done|]. injection Hn as ->. inv_bind Hr. injection Hr as <-. cbn. by rewrite Hsu.
Qed.
Print Assumptions C130_unended_partial.

(** The calls that have ended: their entries are those of the report made at the end of the transaction. *)
Theorem C130_ended :
  forall cfg w f es1 es2 s1 s2 l1 l2, env_ok cfg w f -> tx_events w f = es1 ++ es2 ->
  ti_run (ti_new cfg) es1 = Ok s1 -> ti_run (ti_new cfg) (tx_events w f) = Ok s2 ->
  into_transaction_traces (ti_traces s1) = Ok l1 -> into_transaction_traces (ti_traces s2) = Ok l2 ->
  forall i, i < length (List.filter is_start es1) -> i ∉ unended [] 0 es1 ->
  ti_traces s1 !! i = ti_traces s2 !! i /\
  forall e, In e l1 /\ about (ti_traces s1) i e <-> In e l2 /\ about (ti_traces s2) i e.
Proof.
  intros cfg w f es1 es2 s1 s2 l1 l2 Henv Heq H1 H2 Hl1 Hl2 i Hi Hnot.
  pose proof (ended_final cfg w f es1 es2 s1 s2 i Henv Heq H1 H2 Hi Hnot) as Hsame. split; [done|]. intros e.
  assert (Hne : es1 <> []) by (intros ->; cbn in Hi; lia).
  destruct (tx_interrupted cfg w f es1 es2 Henv Heq Hne) as (s1' & s2' & H1' & H2' & Hlater & Hlen).
  rewrite H1 in H1'. injection H1' as <-. rewrite H2 in H2'. injection H2' as <-.
  pose proof (run_tree_inv _ _ _ H1) as Hinv1. pose proof (run_tree_inv _ _ _ H2) as Hinv2.
  rewrite (into_transaction_traces_ok _ Hinv1) in Hl1. injection Hl1 as <-.
  rewrite (into_transaction_traces_ok _ Hinv2) in Hl2. injection Hl2 as <-.
  destruct (lookup_lt_is_Some_2 (ti_traces s1) i) as [n Hn1]; [lia|]. assert (Hn2 : ti_traces s2 !! i = Some n) by congruence.
  rewrite (about_iff _ _ _ e Hinv1 Hn1), (about_iff _ _ _ e Hinv2 Hn2). split; intros [Hp He]; (split; [done|]).
  - by rewrite <- (node_items_later _ _ _ _ Hinv1 Hinv2 Hlater Hn1 Hn2 Hp).
  - by rewrite (node_items_later _ _ _ _ Hinv1 Hinv2 Hlater Hn1 Hn2 Hp).
Qed.
Print Assumptions C130_ended.

(** The call tracer's frames of ended calls are final too, except that a call may lose its logs: if one of its callers
    fails later. *)
Theorem C130_frames :
  forall rr cfg w f es1 es2 s1 s2 opts gas, env_ok cfg w f -> tx_events w f = es1 ++ es2 -> es1 <> [] ->
  ti_run (ti_new cfg) es1 = Ok s1 -> ti_run (ti_new cfg) (tx_events w f) = Ok s2 -> only_top_call opts <> Some true ->
  exists r1 r2 final,
    geth_call_traces rr (ti_traces s1) opts gas = Ok r1 /\ geth_call_traces rr (ti_traces s2) opts gas = Ok r2 /\
    call_tree (ti_traces s2) (fun i x _ => x = final i) 0 r2 /\
    call_tree (ti_traces s1) (fun i x _ => i ∉ unended [] 0 es1 ->
      but_logs x (final i) /\
      (fi_logs (final i) = fi_logs x \/ fi_logs (final i) = [] /\ ~ chain_succeeded (ti_traces s2) i)) 0 r1.
Proof.
  intros rr cfg w f es1 es2 s1 s2 opts gas Henv Heq Hne H1 H2 Htop.
  destruct (tx_interrupted cfg w f es1 es2 Henv Heq Hne) as (s1' & s2' & H1' & H2' & Hlater & Hlen).
  rewrite H1 in H1'. injection H1' as <-. rewrite H2 in H2'. injection H2' as <-.
  set (wl := unwrap_or_default_bool (with_log opts)). set (final := info_of rr (ti_traces s2) wl gas).
  destruct (call_traces_weaken rr cfg _ s2 opts gas (fun i x _ => x = final i) H2 Htop) as (r2 & Hr2 & Ht2); [done|].
  destruct (call_traces_weaken rr cfg _ s1 opts gas (fun i x _ => i ∉ unended [] 0 es1 ->
      but_logs x (final i) /\
      (fi_logs (final i) = fi_logs x \/ fi_logs (final i) = [] /\ ~ chain_succeeded (ti_traces s2) i)) H1 Htop) as (r1 & Hr1 & Ht1).
  2: { exists r1, r2, final. done. }
  intros i n Hn Hnot. assert (Hi : i < length (ti_traces s1)) by (by eapply lookup_lt_Some). rewrite Hlen in Hi.
  pose proof (ended_final cfg w f es1 es2 s1 s2 i Henv Heq H1 H2 Hi Hnot) as Hsame. rewrite Hn in Hsame.
  unfold final, info_of. rewrite Hn, Hsame. fold wl. destruct (i =? 0); [split; [by split_and!|by left]|]. split; [by split_and!|].
  pose proof (run_arena _ _ _ H1) as A1. pose proof (run_arena _ _ _ H2) as A2.
  destruct (call_or_parent_failed_ok (ti_traces s1) A1 i n Hn) as (b1 & Hb1 & Hiff1).
  destruct (call_or_parent_failed_ok (ti_traces s2) A2 i n Hsame) as (b2 & Hb2 & Hiff2).
  unfold failedb. rewrite Hb1, Hb2. destruct b2.
  { right. rewrite andb_false_r. split; [done|]. intros Hc. by apply Hiff2 in Hc. }
  left. assert (b1 = false) as ->; [|done]. apply Hiff1. assert (Hc : chain_succeeded (ti_traces s2) i) by by apply Hiff2.
  intros j m Hj Hm. assert (Hj2 : encloses (ti_traces s2) j i).
  { clear -Hj Hlater. induction Hj as [|j i n p Hn Hp Hj IH]; [constructor|]. destruct (Hlater _ _ Hn) as (n2 & Hn2 & Hl).
    eapply encloses_parent; [done| |done]. by rewrite (ln_parent _ _ Hl). }
  destruct (decide (j ∈ unended [] 0 es1)) as [Hu|Hu].
  - destruct (tx_unended cfg w f es1 es2 s1 j Henv Heq H1 Hu) as (m' & Hm' & [_ Hst _ _]). rewrite Hm in Hm'. injection Hm' as <-. by rewrite Hst.
  - assert (Hlt : j < length (ti_traces s1)) by (by eapply lookup_lt_Some). rewrite Hlen in Hlt.
    apply (Hc j m Hj2). rewrite (ended_final cfg w f es1 es2 s1 s2 j Henv Heq H1 H2 Hlt Hu). done.
Qed.
Print Assumptions C130_frames.

(** In the cut example the calls 0 and 3 have not ended, 1 and 2 have. *)
Example C130_example : exists s l, ti_run (ti_new ex_cfg) cut = Ok s /\ into_transaction_traces (ti_traces s) = Ok l /\
  unended [] 0 cut = [3; 0] /\ length (List.filter is_start cut) = 4 /\
  map tt_address l = [[]; [0]; [1]] /\ map (fun e => follow (ti_traces s) 0 (tt_address e)) l = [Some 0; Some 1; Some 3] /\
  map tt_error l = [None; None; None] /\
  map tt_result l = [Some (OutCall 0 []); Some (OutCall 40000 [x2a]); Some (OutCreate 0 [] 0xE0)]%N.
Proof. do 2 eexists. split_and!; vm_compute; reflexivity. Qed.
