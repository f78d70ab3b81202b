(** * PropertiesReuse: C126, an inspector used again without a reset *)

From Verif Require Import ReuseProofs SpecSession Examples.

(** ** C126 *)

(** Whatever has been recorded, if no call is open, a history that begins with a top-level call is recorded on top of it
    if a new inspector could record it, and it is [added] to what was there. *)
Theorem C126_added :
  forall cfg es s e later t,
  ti_run (ti_new cfg) es = Ok s -> ti_trace_stack s = [] -> is_root_start e = true ->
  ti_run (ti_new cfg) (e :: later) = Ok t ->
  exists s', ti_run s (e :: later) = Ok s' /\ ti_traces s' = added (ti_traces s) (ti_traces t).
Proof.
  intros cfg es s e later t H1 H2 H3 H4. destruct (reuse _ _ _ _ _ _ H1 H2 H3 H4) as (s' & H & E & _). eauto.
Qed.
Print Assumptions C126_added.

(** Transactions recorded in a row. *)
Theorem C126_transactions :
  forall cfg txs recordings,
  Forall2 (fun tx ns => env_ok cfg (fst tx) (snd tx) /\
    exists t, ti_run (ti_new cfg) (tx_events (fst tx) (snd tx)) = Ok t /\ ti_traces t = ns) txs recordings ->
  exists s, ti_run (ti_new cfg) (flat_map (fun tx => tx_events (fst tx) (snd tx)) txs) = Ok s /\
    ti_traces s = fold_left added recordings (ti_traces (ti_new cfg)).
Proof.
  intros cfg txs recordings H.
  enough (G : exists s, ti_run (ti_new cfg) (flat_map (fun tx => tx_events (fst tx) (snd tx)) txs) = Ok s /\
    ti_trace_stack s = [] /\ ti_traces s = fold_left added recordings (ti_traces (ti_new cfg))).
  { destruct G as (s & ? & _ & ?). eauto. }
  revert recordings H. induction txs as [|[w f] txs IH] using rev_ind; intros recordings H.
  - apply Forall2_nil_inv_l in H as ->. by exists (ti_new cfg).
  - apply Forall2_app_inv_l in H as (rs & last & H & Hl & ->). apply Forall2_cons_inv_l in Hl as (ns & l' & [Henv (t & Ht & Hns)] & Hl & ->).
    apply Forall2_nil_inv_l in Hl as ->. destruct (IH _ H) as (s & Hs & Hst & Htr). cbn [fst snd] in *.
    destruct (tx_events_cons w f) as (e & later & Ee & He). rewrite Ee in Ht.
    destruct (reuse _ _ _ _ _ _ Hs Hst He Ht) as (s' & Hs' & Htr' & Hst').
    exists s'. rewrite flat_map_app. cbn [flat_map fst snd]. rewrite app_nil_r. unfold ti_run in *. rewrite run_app, Hs. cbn [rbind].
    rewrite Ee. split; [exact Hs'|]. split.
    + apply Hst'. rewrite <- Ee in Ht. by destruct (tx_state _ _ _ _ Henv Ht) as (_ & ? & _).
    + rewrite Htr', Htr, Hns, fold_left_app. done.
Qed.
Print Assumptions C126_transactions.

(** The parity traces are then those of the last transaction's top-level call, those of the calls made by the earlier
    ones, and those of the calls made by the last one, whose addresses and whose parent count the earlier calls. *)
Theorem C126_parity :
  forall cfg es s e later t root l l',
  ti_run (ti_new cfg) es = Ok s -> ti_trace_stack s = [] -> is_root_start e = true ->
  ti_run (ti_new cfg) (e :: later) = Ok t ->
  ti_traces s !! 0 = Some root ->
  into_transaction_traces (ti_traces s) = Ok l -> into_transaction_traces (ti_traces t) = Ok l' ->
  let k := length (nd_children root) in
  exists s', ti_run s (e :: later) = Ok s' /\
    into_transaction_traces (ti_traces s') =
      Ok (map (after_calls k) (List.filter about_root l') ++
          List.filter (fun x => negb (about_root x)) l ++
          map (after_calls k) (List.filter (fun x => negb (about_root x)) l')).
Proof.
  intros cfg es s e later t root l l' H1 H2 H3 H4 Hr Hl Hl' k.
  destruct (reuse _ _ _ _ _ _ H1 H2 H3 H4) as (s' & H & E & _). exists s'. split; [done|].
  assert (Hall : ti_run (ti_new cfg) (es ++ e :: later) = Ok s').
  { unfold ti_run. rewrite run_app. unfold ti_run in H1. rewrite H1. exact H. }
  pose proof (run_tree_inv _ _ _ H1) as Io. pose proof (run_tree_inv _ _ _ H4) as In_. pose proof (run_tree_inv _ _ _ Hall) as Ia.
  rewrite (into_transaction_traces_ok _ Io) in Hl. rewrite (into_transaction_traces_ok _ In_) in Hl'.
  injection Hl as <-. injection Hl' as <-. rewrite (into_transaction_traces_ok _ Ia). f_equal. rewrite E in Ia |- *.
  destruct (at_root _ (inv_tree _ In_)) as (n & Hn & _).
  destruct (ti_traces s) as [|r rs]; [done|]. injection Hr as ->. destruct (ti_traces t) as [|n' ns]; [done|].
  by apply parity_added.
Qed.
Print Assumptions C126_parity.

(** Such a recording cannot always be written as text: if the earlier transaction's top-level call executed more
    recorded instructions than the later one's, the writer never succeeds. *)
Theorem C126_not_written :
  forall cfg w f w' f' s t s' root root' to_checksum wr wr',
  env_ok cfg w f -> env_ok cfg w' f' ->
  ti_run (ti_new cfg) (tx_events w f) = Ok s -> ti_run (ti_new cfg) (tx_events w' f') = Ok t ->
  ti_run s (tx_events w' f') = Ok s' ->
  ti_traces s !! 0 = Some root -> ti_traces t !! 0 = Some root' ->
  length (tr_steps (nd_trace root')) < length (tr_steps (nd_trace root)) ->
  write_arena to_checksum (ti_traces s') wr <> Ok (wr', Some tt).
Proof.
  intros cfg w f w' f' s t s' root root' ck wr wr' He He' Hs Ht Hs' Hr Hr' Hlt Hw.
  destruct (tx_state _ _ _ _ He Hs) as (_ & Hst & _). pose proof (tx_root _ _ _ _ _ He' Ht Hr') as Hd.
  pose proof (run_tree_inv _ _ _ Hs) as Io.
  assert (Hord : ordering_complete root).
  { eapply Forall_lookup_1; [exact (tx_ordered _ _ _ _ Hs)|exact Hr]. }
  destruct (tx_events_cons w' f') as (e & later & Ee & Hroot). rewrite Ee in Ht, Hs'.
  destruct (reuse _ _ _ _ _ _ Hs Hst Hroot Ht) as (s1 & Hs1 & E & _). rewrite Hs' in Hs1. injection Hs1 as <-.
  destruct (ti_traces s) as [|r rs] eqn:Es; [done|]. injection Hr as ->. destruct (ti_traces t) as [|n ns] eqn:Et; [done|]. injection Hr' as ->.
  unfold write_arena in Hw. apply io_bind_some in Hw as (w1 & [] & Hw & _). rewrite E in Hw.
  set (k := length (tr_steps (nd_trace root')) ) in *.
  assert (Hin : OStep k ∈ nd_ordering root).
  { assert (Hk : k ∈ omap ord_step (nd_ordering root)). { rewrite (oc_steps _ Hord). apply elem_of_seq. lia. }
    apply elem_of_list_omap in Hk as ([i|i|i] & Hi & Hk); try discriminate Hk. by injection Hk as ->. }
  apply elem_of_list_lookup in Hin as (m & Hm).
  assert (Hlast : k < length (tr_steps (nd_trace root'))); [|unfold k in Hlast; lia].
  refine (written_node ck (added (root :: rs) (root' :: ns)) 0 (lift root rs 0 root') eq_refl _ _ _ _ m k _ Hw); [done|].
  change ((nd_ordering root ++ (moved_member (length (nd_children root)) (length (nd_logs root)) <$> nd_ordering root')) !! m = Some (OStep k)).
  by apply lookup_app_l_Some.
Qed.
Print Assumptions C126_not_written.

(** The example transaction, then its reverted call as a transaction of its own: the parity traces, and what the writer
    does. The delegate call, the create with its self-destruct and the reverted call of the first transaction are
    listed as calls of the second, whose own call is the fourth. *)
Example C126_example :
  (forall cfg, env_ok cfg ex_world ex_tx /\ env_ok cfg ex_world ex_reverted) /\
  exists s t s', ex_state ex_cfg = Ok s /\ ti_run (ti_new ex_cfg) (tx_events ex_world ex_reverted) = Ok t /\
    ti_trace_stack s = [] /\ ti_run s (tx_events ex_world ex_reverted) = Ok s' /\
    rmap (map (fun e => (tt_address e, tt_subtraces e))) (into_transaction_traces (ti_traces s)) =
      Ok [([], 3); ([0], 0); ([1], 1); ([1; 0], 0); ([2], 1); ([2; 0], 0)] /\
    rmap (map (fun e => (tt_address e, tt_subtraces e))) (into_transaction_traces (ti_traces t)) = Ok [([], 1); ([0], 0)] /\
    rmap (map (fun e => (tt_address e, tt_subtraces e))) (into_transaction_traces (ti_traces s')) =
      Ok [([], 4); ([0], 0); ([1], 1); ([1; 0], 0); ([2], 1); ([2; 0], 0); ([3], 0)] /\
    write_arena (fun _ => []) (ti_traces s') (mkTW [] None true false false 0) = Panic PIndex.
Proof.
  split; [intros cfg; split; apply env_okb_ok; vm_compute; reflexivity|].
  destruct (ex_state ex_cfg) as [s| |] eqn:Es; [|vm_compute in Es; discriminate..].
  destruct (ti_run (ti_new ex_cfg) (tx_events ex_world ex_reverted)) as [t| |] eqn:Et; [|vm_compute in Et; discriminate..].
  vm_compute in Es. injection Es as <-. vm_compute in Et. injection Et as <-.
  do 3 eexists. split; [reflexivity|]. split; [reflexivity|]. split; [reflexivity|]. split; [vm_compute; reflexivity|].
  split_and!; vm_compute; reflexivity.
Qed.
