(** * PropertiesReuseCut: C136, an inspector used again without a reset after a transaction that was cut off *)

From Verif Require Import ReuseCutProofs SpecTraces SpecGeth PropertiesParity PropertiesGeth Examples.

(** ** C136 *)

(** Whatever has been recorded, if calls are still open, hook calls that begin with a top-level call and go on inside
    it are recorded if a new inspector could record them, and are [added] to what was there as after a complete
    transaction (C126), except that the top-level call is recorded as an inner one. *)
Theorem C136_added :
  forall cfg es s e later t,
  ti_run (ti_new cfg) es = Ok s -> ti_trace_stack s <> [] ->
  top_level_start e = true -> inner_calls_only 1 later -> ti_run (ti_new cfg) (e :: later) = Ok t ->
  exists s', ti_run s (e :: later) = Ok s' /\ ti_traces s' = added (ti_traces s) (root_as_inner cfg e (ti_traces t)).
Proof.
  intros cfg es s e later t H1 H2 H3 H4 H5. destruct (reuse_cut _ _ _ _ _ _ H1 H2 H3 H4 H5) as (s' & H & E & _). eauto.
Qed.
Print Assumptions C136_added.

(** So after a transaction cut off anywhere; the next one may be cut off as well. *)
Theorem C136_transactions :
  forall cfg w f cut rest s w' f' e later rest' t,
  tx_events w f = cut ++ rest -> cut <> [] -> rest <> [] -> ti_run (ti_new cfg) cut = Ok s ->
  tx_events w' f' = (e :: later) ++ rest' -> top_level_start e = true -> ti_run (ti_new cfg) (e :: later) = Ok t ->
  exists s', ti_run s (e :: later) = Ok s' /\ ti_trace_stack s' <> [] /\
    ti_traces s' = added (ti_traces s) (root_as_inner cfg e (ti_traces t)).
Proof.
  intros cfg w f cut rest s w' f' e later rest' t H1 H2 H3 Hs H4 He Ht.
  destruct (reuse_cut cfg cut s e later t Hs (cut_open _ _ _ _ _ _ H1 H2 H3 Hs) He (inner_tx _ _ _ _ _ H4) Ht) as (s' & ? & ? & ?).
  eauto.
Qed.
Print Assumptions C136_transactions.

Definition action_gas (a : Action) : option u64 :=
  match a with ActCall _ _ _ gas _ _ | ActCreate _ _ gas _ => Some gas | _ => None end.

(** The reports: the Parity traces have no entry for a top-level call that is taken for a left-out one; otherwise that
    entry, and in any case the call tracer's frame, shows the gas of the call instead of the transaction's. *)
Theorem C136_reports :
  forall cfg es s e later t s',
  ti_run (ti_new cfg) es = Ok s -> ti_trace_stack s <> [] ->
  top_level_start e = true -> inner_calls_only 1 later -> ti_run (ti_new cfg) (e :: later) = Ok t ->
  ti_run s (e :: later) = Ok s' ->
  (forall l, into_transaction_traces (ti_traces s') = Ok l ->
     if to_be_left_out cfg e then Forall (fun x => tt_address x <> []) l
     else exists x, In x l /\ tt_address x = [] /\ action_gas (tt_action x) = Some (call_gas e)) /\
  (forall rr opts gas, exists r, geth_call_traces rr (ti_traces s') opts gas = Ok r /\ fi_gas (cf_info r) = call_gas e).
Proof.
  intros cfg es s e later t s' Hs Hst He Hin Ht Hs'.
  destruct (reuse_cut _ _ _ _ _ _ Hs Hst He Hin Ht) as (s1 & Hs1 & E & _). rewrite Hs' in Hs1. injection Hs1 as <-.
  assert (Hall : ti_run (ti_new cfg) (es ++ e :: later) = Ok s').
  { unfold ti_run in *. rewrite run_app, Hs. exact Hs'. }
  assert (Hroot : exists n, ti_traces s' !! 0 = Some n /\ nd_is_precompile n = to_be_left_out cfg e /\
    tr_gas_limit (nd_trace n) = call_gas e).
  { destruct (at_root _ (inv_tree _ (run_tree_inv _ _ _ Hs))) as (r & Hr & _).
    destruct (at_root _ (inv_tree _ (run_tree_inv _ _ _ Ht))) as (m & Hm & _).
    pose proof (new_root_shown _ _ _ _ _ He Hin Ht Hm) as Hp. rewrite E.
    destruct (ti_traces s) as [|r' rs]; [done|]. destruct (ti_traces t) as [|m' ms]; [done|]. injection Hm as ->.
    eexists. split; [reflexivity|]. split; [|done]. unfold nd_is_precompile in *. cbn. by destruct (to_be_left_out cfg e). }
  destruct Hroot as (n & Hn & Hp & Hg). split.
  - intros l Hl. destruct (C22_entry_contents _ _ _ _ Hall Hl) as [H1 H2]. destruct (to_be_left_out cfg e).
    + apply Forall_forall. intros x Hx Ha. destruct (H1 x (proj1 (elem_of_list_In _ _) Hx)) as (i & m & Hm & Hpm & [[_ Hf]|(_ & a & _ & Hf)]).
      * rewrite Ha in Hf. injection Hf as <-. congruence.
      * rewrite Ha in Hf. by destruct a.
    + destruct (H2 0 n Hn Hp) as [(x & Hx & Hc & Hf) _]. exists x. split; [done|]. split.
      * destruct (tt_address x) as [|k a] eqn:Ea; [done|]. exfalso.
        assert (Hzero : forall b j c, follow (ti_traces s') j (c :: b) <> Some 0).
        { pose proof (inv_tree _ (run_tree_inv _ _ _ Hall)) as Htree. induction b as [|c' b IH]; intros j c; cbn [follow].
          - destruct (ti_traces s' !! j) as [m|] eqn:Em; [|done]. destruct (nd_children m !! c) as [y|] eqn:Ey; [|done].
            intros [= ->]. eapply (child_nonzero _ Htree _ _ 0 Em); [|done]. by eapply elem_of_list_lookup_2.
          - destruct (ti_traces s' !! j) as [m|] eqn:Em; [|done]. destruct (nd_children m !! c) as [y|] eqn:Ey; [|done].
            apply IH. }
        by apply Hzero in Hf.
      * destruct Hc as [C1 C2 _ _ _ _ _]. destruct (spec_is_create (tr_kind (nd_trace n))); [rewrite C2 by done|rewrite C1 by done]; cbn; by rewrite Hg.
  - intros rr opts gas. destruct (decide (only_top_call opts = Some true)) as [Ho|Ho].
    + destruct (C27_only_top_call rr _ _ _ opts gas Hall Ho) as (r & root & extra & Hr & Hroot & Hff & _). exists r. split; [done|].
      rewrite (ff_gas _ _ _ Hff). congruence.
    + destruct (C27_call_tree rr _ _ _ opts gas Hall Ho) as (r & Hr & Htree). exists r. split; [done|].
      inversion Htree as [i info calls extra (m & Hm & Hff & _) _ _]; subst. cbn. rewrite (ff_gas _ _ _ Hff). congruence.
Qed.
Print Assumptions C136_reports.

(** The example transaction is cut off after 24 hook calls. Then a call of a precompile without value as a transaction of
    its own: a new inspector reports it with the gas of the transaction, the reused one not at all. Then the example
    transaction: reported with the gas of its call. *)
Local Definition ex_call_precompile : frame :=
  Frame (SCall ex_j0 (mkCallInputs [x0a] 30000 1 1 0xAA (Transfer 0) CSCall false)%N) [] (ex_end Return None).
Local Definition entries (r : res TracingInspector) : res (list (list nat * option u64)) :=
  let! s := r in rmap (map (fun x => (tt_address x, action_gas (tt_action x)))) (into_transaction_traces (ti_traces s)).
Example C136_example : exists e later s t, tx_events ex_world ex_call_precompile = e :: later /\
  top_level_start e = true /\ inner_calls_only 1 later /\ to_be_left_out ex_cfg e = true /\
  ti_run (ti_new ex_cfg) (take 24 (tx_events ex_world ex_tx)) = Ok s /\ ti_trace_stack s = [3; 0] /\
  ti_run (ti_new ex_cfg) (e :: later) = Ok t /\
  entries (Ok t) = Ok [([], Some 1000000%N)] /\
  entries (ti_run s (e :: later)) = Ok [([0], Some 50000%N); ([1], Some 40000%N)] /\
  entries (ti_run (ti_new ex_cfg) (tx_events ex_world ex_tx)) =
    Ok [([], Some 1000000%N); ([0], Some 50000%N); ([1], Some 40000%N); ([1; 0], None); ([2], Some 30000%N); ([2; 0], Some 3000%N)] /\
  entries (ti_run s (tx_events ex_world ex_tx)) =
    Ok [([], Some 90000%N); ([0], Some 50000%N); ([1], Some 40000%N); ([2], Some 50000%N); ([3], Some 40000%N); ([3; 0], None);
        ([4], Some 30000%N); ([4; 0], Some 3000%N)].
Proof.
  do 4 eexists. split; [reflexivity|]. split; [reflexivity|]. split; [cbn; by repeat split|]. split; [reflexivity|].
  split; [vm_compute; reflexivity|]. split; [reflexivity|]. split; [vm_compute; reflexivity|]. split; [vm_compute; reflexivity|].
  split; [vm_compute; reflexivity|]. split; [vm_compute; reflexivity|]. vm_compute. reflexivity.
Qed.
