(** * VmProofs: the vm trace loop *)

From Verif Require Export ParityProofs SpecVm.

(** ** Sizes *)
Fixpoint lsum (l : list nat) : nat := match l with [] => 0 | x :: l => x + lsum l end.
Definition sub_size (i : VmInstruction) : nat := match vi_sub i with Some s => vm_size s | None => 0 end.
Definition ops_size (l : list VmInstruction) : nat := lsum (map sub_size l).
Definition opt_size (o : option VmTrace) : nat := match o with Some t => vm_size t | None => 0 end.
Definition queue_size (q : list (option VmTrace)) : nat := lsum (map opt_size q).

Lemma vm_size_eq c ops : vm_size (mkVm c ops) = S (ops_size ops).
Proof.
  cbn [vm_size]. f_equal. induction ops as [|[pc cost ex sub op] ops IH]; [done|]. unfold ops_size. cbn [map lsum sub_size vi_sub].
  rewrite IH. done.
Qed.
Lemma lsum_app l1 l2 : lsum (l1 ++ l2) = lsum l1 + lsum l2.
Proof. induction l1 as [|x l1 IH]; [done|]. cbn. rewrite IH. lia. Qed.
Lemma ops_size_app l1 l2 : ops_size (l1 ++ l2) = ops_size l1 + ops_size l2.
Proof. unfold ops_size. by rewrite map_app, lsum_app. Qed.
Lemma queue_size_app l1 l2 : queue_size (l1 ++ l2) = queue_size l1 + queue_size l2.
Proof. unfold queue_size. by rewrite map_app, lsum_app. Qed.

Lemma frame_loop_break b steps : forall l q l', frame_loop b steps l q = FBreak l' -> l' = [].
Proof.
  induction steps as [|s steps IH]; intros l q l'; cbn [frame_loop]; [done|].
  destruct (if st_is_calllike s then _ else _) as [o q0]. destruct (st_is_stop s && _ && b) eqn:E.
  - intros [= <-]. destruct l; [done|]. by rewrite andb_false_r in E.
  - apply IH.
Qed.
Lemma frame_loop_size b steps : forall l q l' q', frame_loop b steps l q = FDone l' q' ->
  ops_size l' + queue_size q' = ops_size l + queue_size q.
Proof.
  induction steps as [|s steps IH]; intros l q l' q'; cbn [frame_loop]; [by intros [= <- <-]|].
  destruct (if st_is_calllike s then _ else _) as [o q0] eqn:Eq. destruct (st_is_stop s && _ && b); [done|].
  intros H. rewrite (IH _ _ _ _ H), ops_size_app.
  assert (ops_size [make_instruction s o] = opt_size o) as -> by (change (sub_size (make_instruction s o) + 0 = opt_size o); by rewrite Nat.add_0_r).
  assert (opt_size o + queue_size q0 = queue_size q); [|lia].
  destruct (st_is_calllike s); [|by injection Eq as <- <-]. destruct q as [|[t|] q]; injection Eq as <- <-; done.
Qed.

(** ** Termination *)
Section visit.
  Context (ns : list CallTraceNode) (Ht : arena_tree ns).
  Notation kids_of := (kids_of ns).
  Notation waves := (waves ns).

  Lemma kids_of_app a b : kids_of (a ++ b) = kids_of a ++ kids_of b.
  Proof. apply flat_map_app. Qed.
  Lemma waves_app m : forall a b, length (waves m (a ++ b)) = length (waves m a) + length (waves m b).
  Proof.
    induction m as [|m IH]; intros a b; [done|]. cbn [ParityProofs.waves]. rewrite !app_length, kids_of_app, IH. lia.
  Qed.
  Lemma iter_kids_app m : forall a b, Nat.iter m kids_of (a ++ b) = Nat.iter m kids_of a ++ Nat.iter m kids_of b.
  Proof. induction m as [|m IH]; intros a b; [done|]. rewrite !Nat.iter_succ. by rewrite IH, kids_of_app. Qed.

  Lemma waves_cons m c cs : length (waves m (c :: cs)) = length (waves m [c]) + length (waves m cs).
  Proof. exact (waves_app m [c] cs). Qed.
  Lemma iter_kids_cons m c cs : Nat.iter m kids_of (c :: cs) = Nat.iter m kids_of [c] ++ Nat.iter m kids_of cs.
  Proof. exact (iter_kids_app m [c] cs). Qed.

  (** The outcome of visiting the subtree below [i], starting with queue [q]. *)
  Definition visited (n : CallTraceNode) (stack : list nat) (q : list (option VmTrace)) (cost : nat)
      (k : nat) (next : CallTraceNode) (next_stack : list nat) (next_k : nat) (gain : nat) : Prop :=
    forall fuel,
      vm_loop (cost + fuel) ns stack q n k = Ok [] \/
      exists q', vm_loop (cost + fuel) ns stack q n k = vm_loop fuel ns next_stack q' next next_k /\
                 queue_size q' = queue_size q + gain.

  Lemma visit_children m :
    (forall i n p pn c stack q, ns !! i = Some n -> nd_parent n = Some p -> ns !! p = Some pn -> Nat.iter m kids_of [i] = [] ->
       visited n (c :: stack) q (2 * length (waves m [i]) - 1) 0 pn stack c (length (waves m [i]))) ->
    forall p pn cs pre stack q, ns !! p = Some pn -> nd_children pn = pre ++ cs -> Nat.iter m kids_of cs = [] ->
    visited pn stack q (2 * length (waves m cs)) (length pre) pn stack (length (nd_children pn)) (length (waves m cs)).
  Proof.
    intros IHm p pn cs. induction cs as [|c cs IH]; intros pre stack q Hpn Hch Hend fuel.
    - right. exists q. rewrite Hch, app_nil_r. assert (waves m [] = []) as ->; [|cbn; by rewrite Nat.add_0_r].
      clear. induction m as [|m IH]; [done|]. cbn. apply IH.
    - assert (Hc : nd_children pn !! length pre = Some c) by (rewrite Hch; by apply list_lookup_middle).
      destruct (child_lookup _ Ht _ _ _ _ Hpn Hc) as (cn & Hcn & Hpar & _).
      rewrite (iter_kids_cons m c cs) in Hend. apply app_eq_nil in Hend as [Hend1 Hend2].
      rewrite (waves_cons m c cs).
      assert (Hpos : 0 < length (waves m [c])).
      { destruct m as [|m]; [done|]. cbn [ParityProofs.waves]. rewrite app_length. cbn. lia. }
      replace (2 * (length (waves m [c]) + length (waves m cs)) + fuel)
        with (S ((2 * length (waves m [c]) - 1) + (2 * length (waves m cs) + fuel))) by lia.
      cbn [vm_loop]. rewrite Hc, Hcn. cbn [expect rbind].
      destruct (IHm c cn p pn (length pre + 1) stack q Hcn Hpar Hpn Hend1 (2 * length (waves m cs) + fuel))
        as [->|(q' & -> & Hq')]; [by left|].
      specialize (IH (pre ++ [c]) stack q' Hpn). rewrite <-app_assoc in IH. specialize (IH Hch Hend2 fuel).
      rewrite app_length in IH. cbn [length] in IH. destruct IH as [->|(q'' & -> & Hq'')]; [by left|].
      right. exists q''. split; [done|lia].
  Qed.

  Lemma visit m : forall i n p pn c stack q, ns !! i = Some n -> nd_parent n = Some p -> ns !! p = Some pn ->
    Nat.iter m kids_of [i] = [] ->
    visited n (c :: stack) q (2 * length (waves m [i]) - 1) 0 pn stack c (length (waves m [i])).
  Proof.
    induction m as [|m IHm]; intros i n p pn c stack q Hn Hpar Hpn Hend fuel; [done|].
    rewrite Nat.iter_succ_r in Hend. cbn [ParityProofs.waves]. 
    assert (Hk : kids_of [i] = nd_children n) by (cbn; unfold kids; by rewrite Hn, app_nil_r). rewrite Hk in *.
    rewrite app_length. cbn [length].
    replace (2 * (1 + length (waves m (nd_children n))) - 1 + fuel)
      with (2 * length (waves m (nd_children n)) + S fuel) by lia.
    destruct (visit_children m IHm i n (nd_children n) [] (c :: stack) q Hn eq_refl Hend (S fuel)) as [E|(q' & E & Hq')];
      cbn [length] in E; rewrite E; [by left|]. clear E.
    cbn [vm_loop]. rewrite (proj2 (lookup_ge_None _ _)) by done.
    destruct (frame_loop _ _ _ _) as [l q''|l] eqn:E.
    - apply frame_loop_size in E. rewrite Hpar, Hpn. cbn [expect rbind]. right. eexists. split; [done|].
      rewrite queue_size_app. unfold queue_size at 2. cbn [map lsum]. unfold opt_size. rewrite vm_size_eq.
      change (ops_size []) with 0 in E. lia.
    - apply frame_loop_break in E as ->. by left.
  Qed.

  Lemma vm_trace_ok : exists t, vm_trace ns = Ok t /\ vm_size t <= length (waves (length ns) [0]).
  Proof.
    destruct (at_root _ Ht) as (r & Hr & Hpr & _). destruct ns as [|r' ns'] eqn:Ens; [done|]. cbn in Hr. injection Hr as ->.
    unfold vm_trace, make_vm_trace. rewrite <-Ens in *.
    assert (Hend : Nat.iter (length ns) kids_of [0] = []).
    { destruct (Nat.iter _ _ _) as [|x l] eqn:E; [done|]. exfalso. rewrite <-level_iter in E.
      assert (Hx : In x (level ns (length ns))) by (rewrite E; by left). apply level_follow in Hx as (a & Ha & Hf).
      destruct (follow_info _ Ht _ _ Hf) as (n & Hn & _ & Hle & _). apply lookup_lt_Some in Hn. lia. }
    assert (Hlen : length (waves (length ns) [0]) <= length ns).
    { pose proof (levels_length ns Ht (length ns) 0) as H. by rewrite level_waves in H. }
    destruct (length ns) as [|m] eqn:El; [by rewrite Ens in El|].
    assert (H0 : ns !! 0 = Some r) by (by rewrite Ens).
    rewrite Nat.iter_succ_r in Hend. cbn [ParityProofs.waves] in *.
    assert (Hk : kids_of [0] = nd_children r) by (cbn; unfold kids; by rewrite H0, app_nil_r). rewrite Hk in *.
    rewrite app_length in *. cbn [length] in *.
    set (w := length (waves m (nd_children r))) in *.
    replace (2 * S m) with (2 * w + S (2 * S m - 2 * w - 1)) by lia.
    destruct (visit_children m (visit m) 0 r (nd_children r) [] [] [] H0 eq_refl Hend (S (2 * S m - 2 * w - 1))) as [E|(q' & E & Hq')];
      fold w in E; cbn [length] in E; rewrite E.
    - eexists. split; [done|]. rewrite vm_size_eq. change (ops_size []) with 0. lia.
    - cbn [vm_loop]. rewrite (proj2 (lookup_ge_None _ _)) by done. rewrite Hpr.
      destruct (frame_loop _ _ _ _) as [l q''|l] eqn:E'.
      + apply frame_loop_size in E'. eexists. split; [done|]. rewrite vm_size_eq.
        change (ops_size []) with 0 in E'. change (queue_size []) with 0 in Hq'. fold w in Hq'. lia.
      + apply frame_loop_break in E' as ->. eexists. split; [done|]. rewrite vm_size_eq. change (ops_size []) with 0. lia.
  Qed.
End visit.

(** ** Filling in the bytecodes *)

Lemma ops_size_alter (f : VmInstruction -> VmInstruction) k l :
  (forall i, l !! k = Some i -> sub_size (f i) = sub_size i) -> ops_size (alter f k l) = ops_size l.
Proof.
  revert k. induction l as [|x l IH]; intros k H; [done|]. destruct k as [|k]; unfold ops_size; cbn.
  - by rewrite (H x eq_refl).
  - change (sub_size x + ops_size (alter f k l) = sub_size x + ops_size l). rewrite IH; [done|]. intros i Hi. by apply H.
Qed.

Lemma vm_size_set_code p : forall t c, vm_size (vm_set_code t p c) = vm_size t.
Proof.
  induction p as [|k p IH]; intros [c0 ops] c; cbn [vm_set_code vm_code vm_ops]; [by rewrite !vm_size_eq|].
  rewrite !vm_size_eq. f_equal. apply ops_size_alter. intros [pc cost ex sub op] _. unfold sub_size. cbn.
  destruct sub; [apply IH|done].
Qed.

Lemma vm_at_set_code p : forall t c p', vm_size <$> vm_at (vm_set_code t p c) p' = vm_size <$> vm_at t p'.
Proof.
  induction p as [|k p IH]; intros [c0 ops] c p'; cbn [vm_set_code vm_code vm_ops].
  - destruct p' as [|k' p']; [cbn [vm_at fmap option_fmap option_map]; by rewrite !vm_size_eq|done].
  - destruct p' as [|k' p'].
    + cbn [vm_at fmap option_fmap option_map]. f_equal.
      apply (vm_size_set_code (k :: p) (mkVm c0 ops) c).
    + cbn [vm_at vm_ops]. destruct (decide (k = k')) as [->|Hne].
      * rewrite list_lookup_alter. destruct (ops !! k') as [[pc cost ex [s|] op]|]; cbn [fmap option_fmap option_map vi_sub]; [|done..].
        apply IH.
      * by rewrite list_lookup_alter_ne.
Qed.

Lemma vm_at_app p t k : vm_at t (p ++ [k]) =
  match vm_at t p with Some s => match vm_ops s !! k with Some i => vi_sub i | None => None end | None => None end.
Proof.
  revert t. induction p as [|x p IH]; intros t.
  - cbn. destruct (vm_ops t !! k) as [i|]; [|done]. by destruct (vi_sub i).
  - cbn [vm_at app]. destruct (vm_ops t !! x) as [i|]; [|done]. destruct (vi_sub i); [|done]. apply IH.
Qed.

Definition path_size (t : VmTrace) (p : list nat) : nat := opt_size (vm_at t p).
Definition paths_size (t : VmTrace) (ps : list (list nat)) : nat := lsum (map (path_size t) ps).

Lemma sub_paths_size t p s : vm_at t p = Some s -> paths_size t (sub_paths p s) = ops_size (vm_ops s).
Proof.
  intros Hp. unfold sub_paths.
  assert (H : forall l base, (forall k, l !! k = vm_ops s !! (base + k)) ->
    paths_size t (omap (fun k => match vm_ops s !! k with
                 | Some i => match vi_sub i with Some _ => Some (p ++ [k]) | None => None end
                 | None => None end) (seq base (length l))) = ops_size l).
  { induction l as [|i l IH]; intros base Hl; [done|]. cbn [length seq omap list_omap].
    assert (Hi : vm_ops s !! base = Some i) by (rewrite <-(Nat.add_0_r base), <-Hl; done).
    assert (Hl' : forall k, l !! k = vm_ops s !! (S base + k)).
    { intros k. specialize (Hl (S k)). cbn in Hl. etransitivity; [exact Hl|]. f_equal. lia. }
    rewrite Hi. change (ops_size (i :: l)) with (sub_size i + ops_size l). rewrite <-(IH _ Hl').
    unfold sub_size. destruct (vi_sub i) as [s'|] eqn:Es; [|done].
    unfold paths_size. cbn [map lsum]. f_equal. unfold path_size. by rewrite vm_at_app, Hp, Hi, Es. }
  apply (H (vm_ops s) 0). done.
Qed.

Lemma paths_size_set_code t p c ps : paths_size (vm_set_code t p c) ps = paths_size t ps.
Proof.
  unfold paths_size. f_equal. apply map_ext. intros p'. unfold path_size, opt_size.
  pose proof (vm_at_set_code p t c p') as H. destruct (vm_at (vm_set_code t p c) p'), (vm_at t p'); cbn in H; congruence.
Qed.

Lemma populate_loop_ok db fuel : forall t ps addrs,
  Forall (fun p => is_Some (vm_at t p)) ps -> paths_size t ps <= fuel -> paths_size t ps <= length addrs ->
  exists r, populate_loop fuel db t ps addrs = Ok r.
Proof.
  induction fuel as [|fuel IH]; intros t ps addrs Hps Hf Ha.
  - destruct ps as [|p ps]; [by eexists|]. inversion_clear Hps as [|? ? [s Hs] _]. unfold paths_size in Hf. cbn in Hf.
    unfold path_size in Hf. rewrite Hs in Hf. cbn in Hf. destruct s. rewrite vm_size_eq in Hf. lia.
  - destruct ps as [|p ps]; [by eexists|]. inversion_clear Hps as [|? ? [s Hs] Hps']. cbn [populate_loop]. rewrite Hs. cbn [expect rbind].
    assert (Hsize : paths_size t (ps ++ sub_paths p s) + 1 = paths_size t (p :: ps)).
    { unfold paths_size. rewrite map_app, lsum_app. cbn [map lsum]. unfold path_size at 3. rewrite Hs. cbn [opt_size].
      fold (paths_size t (sub_paths p s)). rewrite (sub_paths_size _ _ _ Hs). destruct s as [c ops]. rewrite vm_size_eq. cbn [vm_ops]. lia. }
    assert (Hall : Forall (fun p0 => is_Some (vm_at t p0)) (ps ++ sub_paths p s)).
    { apply Forall_app. split; [done|]. apply Forall_forall. intros p' Hp'. unfold sub_paths in Hp'.
      apply elem_of_list_omap in Hp' as (k & _ & Hk).
      destruct (vm_ops s !! k) as [i|] eqn:Ei; [|done]. destruct (vi_sub i) as [s'|] eqn:Es; [|done]. injection Hk as <-.
      rewrite vm_at_app, Hs, Ei, Es. eauto. }
    destruct addrs as [|a addrs]; [cbn [length] in Ha; lia|]. cbn [length] in Ha.
    destruct (db_basic db a) as [o|]; [|by eexists].
    destruct (_ =? _)%N; [apply IH; [done|lia..]|].
    destruct (db_code_by_hash db _) as [code|]; [|by eexists]. apply IH; rewrite ?paths_size_set_code; [|lia..].
    eapply Forall_impl; [done|]. intros p' [s' Hs']. pose proof (vm_at_set_code p t code p') as H. rewrite Hs' in H. cbn in H.
    destruct (vm_at (vm_set_code t p code) p'); [eauto|done].
Qed.

Lemma populate_ok db t addrs : vm_size t <= length addrs -> exists r, populate_vm_trace_bytecodes db t addrs = Ok r.
Proof.
  intros H. apply populate_loop_ok; [by repeat constructor; eexists| |]; unfold paths_size; cbn; lia.
Qed.

(** ** The shape of the vm trace *)
Lemma frame_loop_attach b steps : forall l (subs : list VmTrace),
  b = false \/ l <> [] \/ (forall s, head steps = Some s -> st_is_stop s = false) ->
  length subs <= length (List.filter st_is_calllike steps) ->
  frame_loop b steps l (map Some subs) = FDone (l ++ attach steps subs) [].
Proof.
  induction steps as [|s steps IH]; intros l subs Hb Hlen; cbn [frame_loop attach].
  - destruct subs; [by rewrite app_nil_r|cbn in Hlen; lia].
  - assert (Hno : st_is_stop s && match l with [] => true | _ => false end && b = false).
    { destruct Hb as [->|[Hl|Hs]]; [apply andb_false_r|destruct l; [done|by rewrite andb_false_r]|by rewrite (Hs s eq_refl)]. }
    assert (Hb' : forall x, b = false \/ l ++ [x] <> [] \/ (forall s, head steps = Some s -> st_is_stop s = false)).
    { intros x. right. left. intros H. by apply app_eq_nil in H as [_ ?]. }
    cbn [List.filter] in Hlen. destruct (st_is_calllike s) eqn:Ec.
    + destruct subs as [|t subs]; cbn [map pop_front flatten]; rewrite Hno.
      * rewrite (IH _ [] (Hb' _)) by (cbn; lia). by rewrite <-app_assoc.
      * rewrite (IH _ subs (Hb' _)) by (cbn [length] in Hlen; lia). by rewrite <-app_assoc.
    + rewrite Hno. rewrite (IH _ subs (Hb' _)) by done. by rewrite <-app_assoc.
Qed.

(** A frame without call-like steps leaves the queue alone. *)
Lemma frame_loop_quiet b steps : forall l q,
  b = false \/ l <> [] \/ (forall s, head steps = Some s -> st_is_stop s = false) ->
  List.filter st_is_calllike steps = [] ->
  frame_loop b steps l q = FDone (l ++ attach steps []) q.
Proof.
  induction steps as [|s steps IH]; intros l q Hb Hq; cbn [frame_loop attach]; [by rewrite app_nil_r|].
  assert (Hno : st_is_stop s && match l with [] => true | _ => false end && b = false).
  { destruct Hb as [->|[Hl|Hs]]; [apply andb_false_r|destruct l; [done|by rewrite andb_false_r]|by rewrite (Hs s eq_refl)]. }
  cbn [List.filter] in Hq. destruct (st_is_calllike s); [done|]. rewrite Hno, IH; [by rewrite <-app_assoc| |done].
  right. left. intros H. by apply app_eq_nil in H as [_ ?].
Qed.

Section shape.
  Context (ns : list CallTraceNode) (Ht : arena_tree ns).
  (** every subcall was made by a call-like instruction *)
  Hypothesis Hcalls : forall i n, ns !! i = Some n -> length (nd_children n) <= call_count n.
  (** only the first subcall of a frame makes calls itself *)
  Hypothesis Hfirst : forall i n k c cn, ns !! i = Some n -> nd_children n !! k = Some c -> 0 < k -> ns !! c = Some cn -> call_count cn = 0.
  (** the single-STOP shortcut does not apply *)
  Hypothesis Hstop : is_last_step_stop_op ns = false \/
    forall i n s, ns !! i = Some n -> head n.(nd_trace).(tr_steps) = Some s -> st_is_stop s = false.
  Notation kids_of := (kids_of ns).
  Notation waves := (waves ns).

  Lemma stop_ok i n l : ns !! i = Some n -> 
    is_last_step_stop_op ns = false \/ l <> ([] : list VmInstruction) \/ (forall s, head n.(nd_trace).(tr_steps) = Some s -> st_is_stop s = false).
  Proof. intros Hn. destruct Hstop as [?|H]; [by left|]. right. right. intros s. by apply (H i). Qed.

  (** Visiting a node with queue [q] appends its trace, provided the queue is empty or the node makes no calls. *)
  Definition adds (n : CallTraceNode) (stack : list nat) (q : list (option VmTrace)) (cost k : nat)
     (next : CallTraceNode) (next_stack : list nat) (next_k : nat) (ts : list VmTrace) : Prop :=
    forall fuel, vm_loop (cost + fuel) ns stack q n k = vm_loop fuel ns next_stack (q ++ map Some ts) next next_k.

  Definition visits (m : nat) : Prop :=
    forall i n p pn c stack q, ns !! i = Some n -> nd_parent n = Some p -> ns !! p = Some pn -> Nat.iter m kids_of [i] = [] ->
      q = [] \/ call_count n = 0 ->
      exists t, vm_spec ns i t /\ adds n (c :: stack) q (2 * length (waves m [i]) - 1) 0 pn stack c [t].

  Lemma shape_children m : visits m ->
    forall p pn cs pre stack ts, ns !! p = Some pn -> nd_children pn = pre ++ cs -> Nat.iter m kids_of cs = [] ->
    length ts = length pre ->
    exists ts', Forall2 (vm_spec ns) cs ts' /\
      adds pn stack (map Some ts) (2 * length (waves m cs)) (length pre) pn stack (length (nd_children pn)) ts'.
  Proof.
    intros Hv p pn cs. induction cs as [|c cs IH]; intros pre stack ts Hpn Hch Hend Hlen.
    - exists []. split; [constructor|]. intros fuel. rewrite Hch, !app_nil_r. assert (waves m [] = []) as ->; [|done].
      clear. induction m as [|m IH]; [done|]. cbn. apply IH.
    - assert (Hc : nd_children pn !! length pre = Some c) by (rewrite Hch; by apply list_lookup_middle).
      destruct (child_lookup _ Ht _ _ _ _ Hpn Hc) as (cn & Hcn & Hpar & _).
      rewrite (iter_kids_cons ns m c cs) in Hend. apply app_eq_nil in Hend as [Hend1 Hend2].
      assert (Hpos : 0 < length (waves m [c])).
      { destruct m as [|m]; [done|]. cbn [ParityProofs.waves]. rewrite app_length. cbn. lia. }
      destruct (Hv c cn p pn (length pre + 1) stack (map Some ts) Hcn Hpar Hpn Hend1) as (t & Hspec & Hadds).
      { destruct ts as [|t0 ts]; [by left|]. right. eapply (Hfirst p pn (length pre)); [done|done|cbn in Hlen; lia|done]. }
      destruct (IH (pre ++ [c]) stack (ts ++ [t])) as (ts' & Hspec' & Hadds'); [done|by rewrite <-app_assoc|done|rewrite !app_length; cbn; lia|].
      exists (t :: ts'). split; [by constructor|]. intros fuel. rewrite (waves_cons ns m c cs).
      replace (2 * (length (waves m [c]) + length (waves m cs)) + fuel)
        with (S ((2 * length (waves m [c]) - 1) + (2 * length (waves m cs) + fuel))) by lia.
      cbn [vm_loop]. rewrite Hc, Hcn. cbn [expect rbind]. rewrite Hadds.
      specialize (Hadds' fuel). rewrite !map_app, app_length in Hadds'. cbn [map length] in *. rewrite Hadds'.
      by rewrite <-app_assoc.
  Qed.

  Lemma shape m : visits m.
  Proof.
    induction m as [|m IHm]; intros i n p pn c stack q Hn Hpar Hpn Hend Hq; [done|].
    rewrite Nat.iter_succ_r in Hend.
    assert (Hk : kids_of [i] = nd_children n) by (cbn; unfold kids; by rewrite Hn, app_nil_r). rewrite Hk in *.
    assert (Hcost : forall fuel, 2 * length (waves (S m) [i]) - 1 + fuel = 2 * length (waves m (nd_children n)) + S fuel).
    { intros fuel. cbn [ParityProofs.waves]. rewrite Hk, app_length. cbn [length]. lia. }
    destruct (decide (call_count n = 0)) as [Hzero|Hnz].
    - assert (Hnil : nd_children n = []).
      { pose proof (Hcalls _ _ Hn). destruct (nd_children n); [done|cbn in *; lia]. }
      exists (mkVm [] (attach n.(nd_trace).(tr_steps) [])). split; [constructor 1 with (n := n); [done|rewrite Hnil; constructor]|].
      intros fuel. rewrite Hcost, Hnil.
      assert (Hw : waves m [] = []) by (clear; induction m as [|m IH]; [done|apply IH]).
      rewrite Hw. cbn [length Nat.mul Nat.add].
      cbn [vm_loop]. rewrite Hnil. cbn [lookup list_lookup].
      rewrite (frame_loop_quiet _ _ [] q (stop_ok i n [] Hn)); [|by apply nil_length_inv].
      rewrite Hpar, Hpn. done.
    - destruct Hq as [->|?]; [|done].
      destruct (shape_children m IHm i n (nd_children n) [] (c :: stack) [] Hn eq_refl Hend eq_refl) as (ts & Hspec & Hadds).
      exists (mkVm [] (attach n.(nd_trace).(tr_steps) ts)). split; [by constructor 1 with (n := n)|].
      intros fuel. rewrite Hcost. specialize (Hadds (S fuel)). cbn [length map app] in Hadds. rewrite Hadds.
      cbn [vm_loop]. rewrite (proj2 (lookup_ge_None _ _)) by done.
      rewrite (frame_loop_attach _ _ [] ts (stop_ok i n [] Hn)).
      + rewrite Hpar, Hpn. done.
      + rewrite <-(Forall2_length _ _ _ Hspec). by apply (Hcalls i).
  Qed.

  Lemma vm_trace_shape : exists t, vm_trace ns = Ok t /\ vm_spec ns 0 t.
  Proof.
    destruct (at_root _ Ht) as (r & Hr & Hpr & _). destruct ns as [|r' ns'] eqn:Ens; [done|]. cbn in Hr. injection Hr as ->.
    unfold vm_trace, make_vm_trace. rewrite <-Ens in *.
    assert (Hend : Nat.iter (length ns) kids_of [0] = []).
    { destruct (Nat.iter _ _ _) as [|x l] eqn:E; [done|]. exfalso. rewrite <-level_iter in E.
      assert (Hx : In x (level ns (length ns))) by (rewrite E; by left). apply level_follow in Hx as (a & Ha & Hf).
      destruct (follow_info _ Ht _ _ Hf) as (n & Hn & _ & Hle & _). apply lookup_lt_Some in Hn. lia. }
    assert (Hlen : length (waves (length ns) [0]) <= length ns).
    { pose proof (levels_length ns Ht (length ns) 0) as H. by rewrite level_waves in H. }
    destruct (length ns) as [|m] eqn:El; [by rewrite Ens in El|].
    assert (H0 : ns !! 0 = Some r) by (by rewrite Ens).
    rewrite Nat.iter_succ_r in Hend. cbn [ParityProofs.waves] in *.
    assert (Hk : kids_of [0] = nd_children r) by (cbn; unfold kids; by rewrite H0, app_nil_r). rewrite Hk in *.
    rewrite app_length in *. cbn [length] in *.
    set (w := length (waves m (nd_children r))) in *.
    replace (2 * S m) with (2 * w + S (2 * S m - 2 * w - 1)) by lia.
    destruct (shape_children m (shape m) 0 r (nd_children r) [] [] [] H0 eq_refl Hend eq_refl) as (ts & Hspec & Hadds).
    specialize (Hadds (S (2 * S m - 2 * w - 1))). fold w in Hadds. cbn [length map app] in Hadds. rewrite Hadds.
    cbn [vm_loop]. rewrite (proj2 (lookup_ge_None _ _)) by done.
    rewrite (frame_loop_attach _ _ [] ts (stop_ok 0 r [] H0)).
    - rewrite Hpr. cbn [rbind]. eexists. split; [done|]. by constructor 1 with (n := r).
    - rewrite <-(Forall2_length _ _ _ Hspec). by apply (Hcalls 0).
  Qed.
End shape.
