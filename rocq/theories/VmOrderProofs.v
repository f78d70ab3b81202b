(** * VmOrderProofs: the order in which the codes of a vm trace are filled in *)

From Verif Require Export VmCodeProofs.

(** ** Breadth first over a forest *)
Fixpoint bfs (fuel : nat) (q : list VmTrace) : list VmTrace :=
  match fuel, q with
  | S fuel, x :: q => x :: bfs fuel (q ++ subtraces x)
  | _, _ => []
  end.
Fixpoint forest_level (q : list VmTrace) (k : nat) : list VmTrace :=
  match k with O => q | S k => flat_map subtraces (forest_level q k) end.
Definition forest_size (q : list VmTrace) : nat := lsum (map vm_size q).

Lemma forest_level_shift q k : forest_level (flat_map subtraces q) k = forest_level q (S k).
Proof. induction k as [|k IH]; [done|]. cbn [forest_level]. by rewrite IH. Qed.
Lemma forest_size_app q1 q2 : forest_size (q1 ++ q2) = forest_size q1 + forest_size q2.
Proof. unfold forest_size. by rewrite map_app, lsum_app. Qed.
Lemma subtraces_size x : vm_size x = S (forest_size (subtraces x)).
Proof.
  destruct x as [c ops]. rewrite vm_size_eq. f_equal. unfold subtraces, forest_size, ops_size. cbn [vm_ops].
  induction ops as [|i ops IH]; [done|]. cbn [map lsum omap list_omap]. rewrite IH. unfold sub_size.
  destruct (vi_sub i); done.
Qed.
Lemma children_size q : forest_size (flat_map subtraces q) + length q = forest_size q.
Proof.
  induction q as [|x q IH]; [done|]. cbn [flat_map length]. rewrite forest_size_app.
  change (forest_size (x :: q)) with (vm_size x + forest_size q). rewrite (subtraces_size x). lia.
Qed.
Lemma bfs_round q : forall fuel nx, length q <= fuel -> bfs fuel (q ++ nx) = q ++ bfs (fuel - length q) (nx ++ flat_map subtraces q).
Proof.
  induction q as [|x q IH]; intros fuel nx Hf; cbn [app length flat_map] in *.
  - by rewrite Nat.sub_0_r, app_nil_r.
  - destruct fuel as [|fuel]; [lia|]. cbn [bfs]. f_equal. rewrite <-app_assoc, IH by lia. by rewrite <-!app_assoc.
Qed.
Lemma bfs_nil fuel : bfs fuel [] = [].
Proof. by destruct fuel. Qed.
Lemma bfs_levels m : forall fuel q, forest_size q <= fuel -> forest_size q <= m -> bfs fuel q = concat (map (forest_level q) (seq 0 m)).
Proof.
  induction m as [|m IH]; intros fuel q Hf Hm.
  - destruct q as [|x q]; [by rewrite bfs_nil|]. change (forest_size (x :: q)) with (vm_size x + forest_size q) in Hm. rewrite (subtraces_size x) in Hm. lia.
  - pose proof (children_size q) as Hc. rewrite <-(app_nil_r q) at 1. rewrite bfs_round by lia. cbn [seq map concat forest_level app]. f_equal.
    rewrite <-seq_shift, map_map. destruct (decide (q = [])) as [->|Hq].
    { rewrite bfs_nil. symmetry. apply concat_nil_Forall, Forall_forall. intros x Hx. apply elem_of_list_In, in_map_iff in Hx as (k & <- & _).
      induction k as [|k IHk]; [done|]. cbn [forest_level] in *. by rewrite IHk. }
    assert (length q <> 0) by (by destruct q). rewrite IH by lia. f_equal. apply map_ext. intros k. apply forest_level_shift.
Qed.
Lemma trace_level_forest t k : trace_level t k = forest_level [t] k.
Proof. induction k as [|k IH]; [done|]. cbn. by rewrite IH. Qed.
Lemma bfs_by_level t : bfs (vm_size t) [t] = traces_by_level t.
Proof.
  unfold traces_by_level. rewrite (bfs_levels (vm_size t)) by (unfold forest_size; cbn; lia). f_equal. apply map_ext. intros k. by rewrite trace_level_forest.
Qed.

(** ** Codes do not matter *)
Lemma without_codes_set p : forall t c, without_codes (vm_set_code t p c) = without_codes t.
Proof.
  induction p as [|k p IH]; intros [c0 ops] c; [done|]. cbn [vm_set_code without_codes vm_ops]. f_equal. apply list_eq. intros x.
  rewrite !list_lookup_fmap. destruct (decide (k = x)) as [->|Hne]; [|by rewrite list_lookup_alter_ne]. rewrite list_lookup_alter.
  destruct (ops !! x) as [[pc cost ex [s|] op]|]; [|done..]. cbn. by rewrite IH.
Qed.
Lemma shape_valid t t' p : shape t p = shape t' p -> is_Some (vm_at t' p) -> is_Some (vm_at t p).
Proof. unfold shape. intros H [x Hx]. rewrite Hx in H. destruct (vm_at t p); [eauto|done]. Qed.

(** ** Filling in *)
Definition comparable (p q : list nat) : Prop := (exists r, q = p ++ r) \/ (exists r, p = q ++ r).
Definition apart (ps : list (list nat)) : Prop := ForallOrdPairs (fun p q => ~ comparable p q) ps.
(** [p] lies in a part of the tree that the queue still has to visit *)
Definition pending (ps : list (list nat)) (p : list nat) : Prop := exists q r, In q ps /\ p = q ++ r.

Lemma in_sub_paths p x q : In q (sub_paths p x) -> exists k, q = p ++ [k] /\ In k (subs_at 0 (map has_sub (vm_ops x))).
Proof. rewrite sub_paths_at. intros H. apply in_map_iff in H as (k & <- & H). eauto. Qed.
Lemma subs_at_sorted ops : forall pre, StronglySorted lt (subs_at pre ops) /\ Forall (fun k => pre <= k) (subs_at pre ops).
Proof.
  induction ops as [|b ops IH]; intros pre; cbn [subs_at]; [split; constructor|]. destruct (IH (S pre)) as [H1 H2].
  assert (H3 : Forall (fun k => pre <= k) (subs_at (S pre) ops)) by (eapply Forall_impl; [exact H2|]; cbn; lia).
  destruct b; cbn [app]; [|done]. split; constructor; try done.
Qed.

Lemma apart_next p ps x : apart (p :: ps) -> apart (ps ++ sub_paths p x).
Proof.
  unfold apart. intros H. inversion_clear H as [|? ? Hp Hps].
  assert (Hsub : ForallOrdPairs (fun p q => ~ comparable p q) (sub_paths p x)).
  { rewrite sub_paths_at. destruct (subs_at_sorted (map has_sub (vm_ops x)) 0) as [H _]. revert H. generalize (subs_at 0 (map has_sub (vm_ops x))).
    induction 1 as [|k l Hl IH Hk]; cbn [map]; constructor; [|done]. apply Forall_fmap. eapply Forall_impl; [exact Hk|]. intros k' Hlt [[r H]|[r H]]; cbn in H.
    all: rewrite <-app_assoc in H; apply app_inv_head in H; cbn in H; injection H; intros; lia. }
  revert Hp Hps. induction ps as [|q ps IH]; cbn [app]; [done|]. intros Hp Hps. inversion_clear Hp as [|? ? Hpq Hp']. inversion_clear Hps as [|? ? Hq Hps'].
  constructor; [|by apply IH]. apply Forall_app. split; [done|]. apply Forall_forall. intros q' Hq' Hc.
  apply elem_of_list_In, in_sub_paths in Hq' as (k & -> & _). apply Hpq. destruct Hc as [[r Hr]|[r Hr]].
  - destruct (decide (r = [])) as [->|Hne]; [left; exists [k]; by rewrite app_nil_r in Hr|]. destruct (exists_last Hne) as (r' & y & ->).
    rewrite app_assoc in Hr. apply app_inj_tail in Hr as [-> ->]. right. by exists r'.
  - left. exists ([k] ++ r). by rewrite app_assoc.
Qed.

Lemma subtraces_paths t p x : vm_at t p = Some x -> subtraces x = omap (vm_at t) (sub_paths p x).
Proof.
  intros Hx. unfold subtraces, sub_paths. generalize (eq_refl (vm_ops x)). generalize (vm_ops x) at 1 3. intros ops Hops.
  enough (H : forall r pre, (forall k, r !! k = ops !! (pre + k)) ->
    omap vi_sub r = omap (vm_at t) (omap (fun k => match ops !! k with Some i => match vi_sub i with Some _ => Some (p ++ [k]) | None => None end | None => None end) (seq pre (length r)))).
  { rewrite (H ops 0) by done. by rewrite Hops. }
  induction r as [|i r IH]; intros pre H; [done|]. pose proof (H 0) as H0. rewrite Nat.add_0_r in H0. cbn in H0.
  cbn [length seq omap list_omap]. rewrite <-H0.
  assert (IH' : forall k, r !! k = ops !! (S pre + k)) by (intros k; specialize (H (S k)); replace (S pre + k) with (pre + S k) by lia; exact H).
  apply IH in IH'. destruct (vi_sub i) as [s|] eqn:Es; [|exact IH']. cbn [omap list_omap].
  rewrite vm_at_app, Hx. replace (vm_ops x) with ops by congruence. rewrite <-H0, Es. f_equal. exact IH'.
Qed.

Lemma pending_next p ps x t p' : vm_at t p = Some x -> is_Some (vm_at t p') ->
  pending (p :: ps) p' -> p' = p \/ pending (ps ++ sub_paths p x) p'.
Proof.
  intros Hx [y Hy] (q & r & Hq & ->). destruct Hq as [<-|Hq].
  - destruct r as [|k r]; [left; by rewrite app_nil_r|]. right. exists (p ++ [k]), r. split; [|by rewrite <-app_assoc].
    apply in_app_iff. right. rewrite sub_paths_at. apply (in_map (fun k => p ++ [k])), (subs_at_In k _ 0). rewrite list_lookup_fmap.
    assert (H : is_Some (vm_at t (p ++ [k]))).
    { clear -Hy. replace (p ++ k :: r) with ((p ++ [k]) ++ r) in Hy by (by rewrite <-app_assoc). revert Hy. generalize (p ++ [k]). clear p. intros p. revert t.
      induction p as [|z p IH]; intros t Hy; [by eexists|]. cbn [vm_at app] in *. destruct (vm_ops t !! z) as [i|]; [|done]. destruct (vi_sub i); [|done]. by eapply IH. }
    destruct H as [z Hz]. rewrite vm_at_app, Hx in Hz. destruct (vm_ops x !! k) as [i|]; [|done]. cbn. unfold has_sub. by rewrite Hz.
  - right. exists q, r. split; [|done]. apply in_app_iff. by left.
Qed.
Lemma pending_back p ps x p' : pending (ps ++ sub_paths p x) p' -> pending (p :: ps) p'.
Proof.
  intros (q & r & Hq & ->). apply in_app_iff in Hq as [Hq|Hq]; [exists q, r; split; [by right|done]|].
  apply in_sub_paths in Hq as (k & -> & _). exists p, ([k] ++ r). split; [by left|by rewrite <-app_assoc].
Qed.
Lemma not_pending p ps x : apart (p :: ps) -> ~ pending (ps ++ sub_paths p x) p.
Proof.
  intros H (q & r & Hq & E). inversion_clear H as [|? ? Hp _]. apply in_app_iff in Hq as [Hq|Hq].
  - rewrite Forall_forall in Hp. apply elem_of_list_In in Hq. apply (Hp q Hq). right. eauto.
  - apply in_sub_paths in Hq as (k & -> & _). rewrite <-app_assoc in E. rewrite <-(app_nil_r p) in E at 1. by apply app_inv_head in E.
Qed.
Lemma sub_paths_shape t t' p x x' : shape t p = shape t' p -> vm_at t p = Some x -> vm_at t' p = Some x' -> sub_paths p x = sub_paths p x'.
Proof.
  intros H H1 H2. rewrite !sub_paths_at. do 2 f_equal. unfold shape in H. rewrite H1, H2 in H. cbn in H. apply (inj Some) in H.
  assert (E : forall l, map has_sub l = map (fun y => snd (fst y)) (map erase l)) by (intros l; rewrite map_map; apply map_ext; by intros []).
  by rewrite !E, H.
Qed.

Lemma fill_order db fuel : forall t ps addrs r,
  apart ps -> Forall (fun p => is_Some (vm_at t p)) ps ->
  (forall p c, pending ps p -> code_at t p = Some c -> c = []) ->
  populate_loop fuel db t ps addrs = Ok (Some r) ->
  without_codes r = without_codes t /\ (forall p, shape r p = shape t p) /\
  (forall p, ~ pending ps p -> code_at r p = code_at t p) /\
  exists n, Forall2 (fun x a => stored_code db a (vm_code x)) (bfs fuel (omap (vm_at r) ps)) (take n addrs).
Proof.
  induction fuel as [|fuel IH]; intros t ps addrs r Hap Hv Hc Hr.
  { destruct ps; [|done]. injection Hr as <-. split_and!; try done. exists 0. constructor. }
  destruct ps as [|p ps].
  { injection Hr as <-. split_and!; try done. exists 0. constructor. }
  inversion_clear Hv as [|? ? [x Hx] Hv']. cbn [populate_loop] in Hr. rewrite Hx in Hr. cbn [expect rbind] in Hr.
  destruct addrs as [|a addrs]; [done|]. destruct (db_basic db a) as [o|] eqn:Eb; [|done].
  assert (Hvn : forall t', (forall p, shape t' p = shape t p) -> Forall (fun p => is_Some (vm_at t' p)) (ps ++ sub_paths p x)).
  { intros t' Hsh. apply Forall_app. split.
    - eapply Forall_impl; [exact Hv'|]. intros q Hq. eapply shape_valid; [apply Hsh|done].
    - apply Forall_forall. intros q Hq. apply elem_of_list_In, in_sub_paths in Hq as (k & -> & Hk). eapply shape_valid; [apply Hsh|].
      rewrite vm_at_app, Hx. apply (subs_at_In k _ 0) in Hk. rewrite list_lookup_fmap in Hk. destruct (vm_ops x !! k) as [i|]; [|done].
      cbn in Hk. injection Hk as Hk. unfold has_sub in Hk. destruct (vi_sub i); [eauto|done]. }
  assert (Hstep : forall t' code, stored_code db a code -> (forall p, shape t' p = shape t p) -> without_codes t' = without_codes t ->
    (forall q, code_at t' q = if decide (p = q) then Some code else code_at t q) ->
    populate_loop fuel db t' (ps ++ sub_paths p x) addrs = Ok (Some r) ->
    without_codes r = without_codes t /\ (forall p, shape r p = shape t p) /\
    (forall q, ~ pending (p :: ps) q -> code_at r q = code_at t q) /\
    exists n, Forall2 (fun x a => stored_code db a (vm_code x)) (bfs (S fuel) (omap (vm_at r) (p :: ps))) (take n (a :: addrs))).
  { intros t' code Hcode Hsh Hwo Hset Hr'. apply IH in Hr' as (H1 & H2 & H3 & n & Hn); [|by apply apart_next|by apply Hvn|].
    2:{ intros q c Hq Hcq. rewrite Hset in Hcq. rewrite decide_False in Hcq by (intros <-; by apply (not_pending _ _ _ Hap) in Hq).
        eapply Hc; [by eapply pending_back|done]. }
    split; [congruence|]. split; [intros q; by rewrite H2, Hsh|]. split.
    - intros q Hq. rewrite H3 by (intros Hq'; apply Hq; by eapply pending_back). rewrite Hset. rewrite decide_False; [done|].
      intros <-. apply Hq. exists p, []. split; [by left|by rewrite app_nil_r].
    - exists (S n). cbn [take omap list_omap].
      assert (Hrp : is_Some (vm_at r p)) by (eapply shape_valid; [rewrite H2; apply Hsh|eauto]). destruct Hrp as [y Hy]. rewrite Hy. cbn [bfs].
      constructor.
      + pose proof (H3 p (not_pending _ _ _ Hap)) as Hcp. rewrite Hset, decide_True in Hcp by done. unfold code_at in Hcp. rewrite Hy in Hcp.
        cbn in Hcp. injection Hcp as ->. done.
      + rewrite (subtraces_paths r p y Hy). rewrite <-(sub_paths_shape t r p x y); [|by rewrite H2, Hsh|done|done].
        by rewrite <-omap_app. }
  assert (Hold : code_at t p = Some []).
  { unfold code_at. rewrite Hx. cbn. f_equal. apply (Hc p); [exists p, []; split; [by left|by rewrite app_nil_r]|]. unfold code_at. by rewrite Hx. }
  destruct (_ =? _)%N eqn:Eh.
  - apply (Hstep t []); try done.
    + exists o. split; [done|]. cbn zeta. by rewrite Eh.
    + intros q. by destruct (decide (p = q)) as [<-|].
  - destruct (db_code_by_hash db _) as [code|] eqn:Ec; [|done]. apply (Hstep (vm_set_code t p code) code); try done.
    + exists o. split; [done|]. cbn zeta. by rewrite Eh.
    + intros q. by rewrite shape_set_code.
    + apply without_codes_set.
    + intros q. apply code_set_code. eauto.
Qed.

(** ** The whole function *)
Lemma without_codes_id_code t : without_codes t = t -> forall p c, code_at t p = Some c -> c = [].
Proof.
  intros Ht p. unfold code_at. revert t Ht. induction p as [|k p IH]; intros [c0 ops] Ht c; cbn [without_codes] in Ht; injection Ht as <- Ho; cbn [vm_at vm_ops].
  - by intros [= <-].
  - destruct (ops !! k) as [[pc cost ex sub op]|] eqn:E; [|done]. cbn [vi_sub]. destruct sub as [s|]; [|done]. apply IH.
    pose proof (f_equal (lookup k) Ho) as Hk. rewrite list_lookup_fmap, E in Hk. cbn in Hk. by injection Hk.
Qed.

Definition bare (t : VmTrace) : Prop := without_codes t = t.
Definition bare_sub (o : option VmTrace) : Prop := forall s, o = Some s -> bare s.
Lemma bare_ops l : Forall (fun i => bare_sub (vi_sub i)) l -> bare (mkVm [] l).
Proof.
  intros H. unfold bare. cbn [without_codes]. f_equal. induction H as [|[pc cost ex sub op] l Hi Hl IH]; [done|]. cbn [map]. rewrite IH. f_equal. f_equal.
  destruct sub as [s|]; [|done]. f_equal. by apply Hi.
Qed.
Lemma frame_loop_bare b steps : forall l q, Forall (fun i => bare_sub (vi_sub i)) l -> Forall bare_sub q ->
  match frame_loop b steps l q with
  | FDone l' q' => Forall (fun i => bare_sub (vi_sub i)) l' /\ Forall bare_sub q'
  | FBreak l' => Forall (fun i => bare_sub (vi_sub i)) l'
  end.
Proof.
  induction steps as [|st steps IH]; intros l q Hl Hq; [done|]. cbn [frame_loop].
  destruct (if st_is_calllike st then _ else _) as [o q'] eqn:E.
  assert (H : bare_sub o /\ Forall bare_sub q').
  { destruct (st_is_calllike st); [|by injection E as <- <-]. destruct q as [|y q]; cbn in E; injection E as <- <-; [done|].
    inversion_clear Hq as [|? ? Hy Hq']. split; [|done]. by destruct y. }
  destruct H as [Ho Hq']. destruct (_ && _); [done|]. apply IH; [|done]. apply Forall_app. split; [done|]. by repeat constructor.
Qed.
Lemma vm_loop_bare ns fuel : forall stack q cur ci l, Forall bare_sub q -> vm_loop fuel ns stack q cur ci = Ok l -> bare (mkVm [] l).
Proof.
  induction fuel as [|fuel IH]; intros stack q cur ci l Hq Hr; [done|]. cbn [vm_loop] in Hr. destruct (nd_children cur !! ci) as [c|].
  - destruct (ns !! c) as [n|]; [|done]. cbn [expect rbind] in Hr. by eapply IH.
  - pose proof (frame_loop_bare (is_last_step_stop_op ns) (tr_steps (nd_trace cur)) [] q) as H. destruct (frame_loop _ _ _ _) as [l' q'|l'].
    + destruct H as [Hl Hq']; [constructor|done|]. destruct (nd_parent cur) as [par|]; [|injection Hr as <-; by apply bare_ops].
      destruct stack as [|x stack]; [done|]. destruct (ns !! par) as [n|]; [|done]. cbn [expect rbind] in Hr. eapply IH; [|exact Hr].
      apply Forall_app. split; [done|]. constructor; [|constructor]. intros s [= <-]. by apply bare_ops.
    + injection Hr as <-. apply bare_ops, H; [constructor|done].
Qed.
Lemma vm_trace_bare ns t : vm_trace ns = Ok t -> bare t.
Proof.
  unfold vm_trace. destruct ns as [|n ns]; [by intros [= <-]|]. unfold make_vm_trace. destruct (vm_loop _ _ _ _ _ _) as [l| |] eqn:E; [|done..].
  intros [= <-]. eapply vm_loop_bare; [|exact E]. constructor.
Qed.

Lemma populate_order db t addrs r : bare t -> populate_vm_trace_bytecodes db t addrs = Ok (Some r) ->
  without_codes r = t /\ exists n, Forall2 (fun x a => stored_code db a (vm_code x)) (traces_by_level r) (take n addrs).
Proof.
  intros Hb Hr. unfold populate_vm_trace_bytecodes in Hr. apply fill_order in Hr as (H1 & H2 & _ & n & Hn).
  - split; [by rewrite H1|]. exists n. cbn in Hn. rewrite <-bfs_by_level. 
    assert (Hs : vm_size r = vm_size t); [|by rewrite Hs].
    assert (He : forall m t, vm_size t <= m -> vm_size (without_codes t) = vm_size t).
    { clear. induction m as [|m IH]; intros [c ops]; rewrite vm_size_eq; [lia|]. intros Hm. cbn [without_codes]. rewrite vm_size_eq. f_equal.
      unfold ops_size in *. induction ops as [|[pc cost ex sub op] ops IHo]; [done|]. cbn [map lsum] in *. rewrite IHo by lia. f_equal.
      unfold sub_size in *. cbn [vi_sub] in *. destruct sub as [s|]; [|done]. apply IH. lia. }
    rewrite <-(He (vm_size r) r) by done. rewrite H1, Hb. done.
  - repeat constructor.
  - repeat constructor. by exists t.
  - intros p c _. by apply without_codes_id_code.
Qed.
