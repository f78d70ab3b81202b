(** * ArenaProofs: invariants of the recorded arena under any hook sequence *)

From Verif Require Export Inspector SpecTree.

(** What [arena_tree] depends on. *)
Definition shape (n : CallTraceNode) : option nat * list nat * nat * nat * bool :=
  (nd_parent n, nd_children n, nd_idx n, tr_depth (nd_trace n),
   match nd_parent n with None => false | Some _ => nd_is_precompile n end).

Lemma lookup_same_shape ns ns' i n :
  map shape ns = map shape ns' -> ns !! i = Some n ->
  exists n', ns' !! i = Some n' /\ shape n = shape n'.
Proof.
  intros Heq Hi.
  assert (H : map shape ns !! i = Some (shape n)) by (by rewrite list_lookup_fmap, Hi).
  rewrite Heq, list_lookup_fmap in H.
  destruct (ns' !! i) as [n'|] eqn:E; [|done]. injection H as H. exists n'. split; [done|].
  unfold shape. congruence.
Qed.

Lemma attached_same_shape ns ns' p i :
  map shape ns = map shape ns' -> attached_to ns p i -> attached_to ns' p i.
Proof.
  intros Heq (n & Hn & Hp & Hpre).
  destruct (lookup_same_shape _ _ _ _ Heq Hn) as (n' & Hn' & Hs).
  unfold shape in Hs. injection Hs as H1 H2 H3 H4 H5.
  exists n'. split; [done|]. rewrite <-H1 in H5 |- *. split; [done|].
  rewrite Hp in H5. congruence.
Qed.

Lemma arena_tree_shape ns ns' :
  map shape ns = map shape ns' -> arena_tree ns -> arena_tree ns'.
Proof.
  intros Heq [Hroot Hidx Hpar Hsort Hch].
  assert (Heq' : map shape ns' = map shape ns) by done.
  split.
  - destruct Hroot as (r & Hr & Hp & Hd).
    destruct (lookup_same_shape _ _ _ _ Heq Hr) as (r' & Hr' & Hs).
    unfold shape in Hs. injection Hs as H1 H2 H3 H4 H5. exists r'. rewrite Hr'. split; [done|].
    split; congruence.
  - intros i n Hi. destruct (lookup_same_shape _ _ _ _ Heq' Hi) as (r' & Hr' & Hs).
    unfold shape in Hs. injection Hs as H1 H2 H3 H4 H5. rewrite H3. by apply Hidx.
  - intros i n Hi Hne. destruct (lookup_same_shape _ _ _ _ Heq' Hi) as (n' & Hn' & Hs).
    unfold shape in Hs. injection Hs as H1 H2 H3 H4 H5.
    destruct (Hpar _ _ Hn' Hne) as (p & pn & Hp & Hlt & Hpn & Hd).
    destruct (lookup_same_shape _ _ _ _ Heq Hpn) as (pn' & Hpn' & Hs').
    unfold shape in Hs'. injection Hs' as G1 G2 G3 G4 G5.
    exists p, pn'. repeat split; [congruence|done|done|congruence].
  - intros p pn Hp. destruct (lookup_same_shape _ _ _ _ Heq' Hp) as (n' & Hn' & Hs).
    unfold shape in Hs. injection Hs as H1 H2 H3 H4 H5. rewrite H2. by eapply Hsort.
  - intros p pn Hp i. destruct (lookup_same_shape _ _ _ _ Heq' Hp) as (n' & Hn' & Hs).
    unfold shape in Hs. injection Hs as H1 H2 H3 H4 H5. rewrite H2, (Hch _ _ Hn').
    split; apply attached_same_shape; done.
Qed.

(** Updating one node without changing its shape. *)
Lemma map_shape_insert ns i n n' :
  ns !! i = Some n -> shape n' = shape n -> map shape (<[i := n']> ns) = map shape ns.
Proof.
  intros Hi Hs. apply list_eq. intros j. rewrite !list_lookup_fmap.
  destruct (decide (i = j)) as [->|Hne].
  - rewrite list_lookup_insert by (by eapply lookup_lt_Some). rewrite Hi. cbn. by f_equal.
  - by rewrite list_lookup_insert_ne.
Qed.

Lemma update_Ok {A} (l : list A) i f l' :
  update l i f = Ok l' -> exists a, l !! i = Some a /\ l' = <[i := f a]> l.
Proof. unfold update. destruct (l !! i) eqn:E; [|done]. intros [= <-]. eauto. Qed.

Lemma index_Ok {A} (l : list A) i a : index l i = Ok a -> l !! i = Some a.
Proof. unfold index. destruct (l !! i); [|done]. by intros [= <-]. Qed.

Lemma expect_Ok {A} (o : option A) a : expect o = Ok a -> o = Some a.
Proof. destruct o; [|done]. by intros [= <-]. Qed.

Lemma arena_tree_update ns i f ns' :
  (forall n, shape (f n) = shape n) -> update ns i f = Ok ns' -> arena_tree ns -> arena_tree ns'.
Proof.
  intros Hf Hu Ht. apply update_Ok in Hu as (a & Ha & ->).
  eapply arena_tree_shape; [|exact Ht]. symmetry. by eapply map_shape_insert.
Qed.

Lemma arena_tree_default : arena_tree arena_default.
Proof.
  split.
  - exists node_default. done.
  - intros [|i] n; [|done]. by intros [= <-].
  - intros [|i] n Hi; [done|]. done.
  - intros [|i] n; [|done]. intros [= <-]. constructor.
  - intros [|p] n; [|done]. intros [= <-] i. split; [done|].
    intros (n' & Hn' & Hp & _). destruct i; [|done]. cbn in Hn'. injection Hn' as <-. done.
Qed.

(** ** push_trace *)

Lemma StronglySorted_snoc {A} (R : A -> A -> Prop) l x :
  StronglySorted R l -> Forall (fun y => R y x) l -> StronglySorted R (l ++ [x]).
Proof.
  intros Hs. induction Hs as [|a l Hs IH Ha]; intros Hf; cbn.
  - repeat constructor.
  - inversion_clear Hf. constructor; [by apply IH|].
    rewrite Forall_app. split; [done|]. by repeat constructor.
Qed.

Lemma attached_app ns n p i :
  attached_to (ns ++ [n]) p i <->
  attached_to ns p i \/ (i = length ns /\ nd_parent n = Some p /\ nd_is_precompile n = false).
Proof.
  unfold attached_to. split.
  - intros (m & Hm & Hp & Hpre). apply lookup_app_Some in Hm as [Hm|[Hle Hm]].
    + left. eauto.
    + right. destruct (i - length ns) eqn:E; [|done]. cbn in Hm. injection Hm as <-.
      split; [lia|done].
  - intros [(m & Hm & Hp & Hpre)|(-> & Hp & Hpre)].
    + exists m. split; [by apply lookup_app_l_Some|done].
    + exists n. split; [|done]. by rewrite lookup_app_r, Nat.sub_diag.
Qed.

(** Attach kind: appending a non-precompile child to entry. *)
Lemma arena_tree_attach ns p pn t id :
  arena_tree ns -> ns !! p = Some pn -> id = length ns ->
  tr_depth t = S (tr_depth (nd_trace pn)) -> default false (tr_maybe_precompile t) = false ->
  arena_tree (<[p := attach_child id pn]> (ns ++ [mkNode (Some p) [] id t [] []])).
Proof.
  intros [Hroot Hidx Hpar Hsort Hch] Hp -> Hd Hpre.
  assert (Hplt : p < length ns) by (by eapply lookup_lt_Some).
  set (nd := mkNode (Some p) [] (length ns) t [] []).
  set (ns' := <[p := attach_child (length ns) pn]> (ns ++ [nd])).
  assert (Hlk : forall i, ns' !! i =
      if decide (i = p) then Some (attach_child (length ns) pn)
      else if decide (i = length ns) then Some nd else ns !! i).
  { intros i. unfold ns'. destruct (decide (i = p)) as [->|].
    - apply list_lookup_insert. rewrite app_length. cbn. lia.
    - rewrite list_lookup_insert_ne by done. destruct (decide (i = length ns)) as [->|].
      + by rewrite lookup_app_r, Nat.sub_diag.
      + destruct (decide (i < length ns)).
        * by rewrite lookup_app_l.
        * rewrite (lookup_ge_None_2 ns) by lia. apply lookup_ge_None_2. rewrite app_length. cbn. lia. }
  assert (Hatt : forall q i, attached_to ns' q i <->
            attached_to ns q i \/ (q = p /\ i = length ns)).
  { intros q i. transitivity (attached_to (ns ++ [nd]) q i).
    - unfold attached_to, ns'. split; intros (m & Hm & Hq & Hm').
      + destruct (decide (i = p)) as [->|].
        * rewrite list_lookup_insert in Hm by (rewrite app_length; cbn; lia).
          injection Hm as <-. exists pn. split; [by apply lookup_app_l_Some|done].
        * rewrite list_lookup_insert_ne in Hm by done. eauto.
      + destruct (decide (i = p)) as [->|].
        * rewrite lookup_app_l, Hp in Hm by done. injection Hm as <-.
          exists (attach_child (length ns) pn). rewrite list_lookup_insert; [done|].
          rewrite app_length. cbn. lia.
        * exists m. by rewrite list_lookup_insert_ne.
    - rewrite attached_app. cbn. split; (intros [?|H]; [by left|right]).
      + destruct H as (-> & [= ->] & _). done.
      + destruct H as (-> & ->). done. }
  split.
  - destruct Hroot as (r & Hr & H1 & H2). rewrite (Hlk 0).
    destruct (decide (0 = p)) as [<-|].
    + rewrite Hr in Hp. injection Hp as <-. eauto.
    + destruct (decide (0 = length ns)); [lia|]. eauto.
  - intros i n. rewrite Hlk. destruct (decide (i = p)) as [->|].
    + intros [= <-]. cbn. by apply Hidx.
    + destruct (decide (i = length ns)) as [->|]; [by intros [= <-]|]. apply Hidx.
  - intros i n Hi Hne.
    assert (Hlift : forall q qn, ns !! q = Some qn -> exists qn', ns' !! q = Some qn' /\
        tr_depth (nd_trace qn') = tr_depth (nd_trace qn)).
    { intros q qn Hq. rewrite Hlk. destruct (decide (q = p)) as [->|].
      - rewrite Hp in Hq. injection Hq as <-. eauto.
      - destruct (decide (q = length ns)) as [->|].
        + apply lookup_lt_Some in Hq. lia.
        + eauto. }
    assert (Hold : forall n0, ns !! i = Some n0 ->
       exists q qn, nd_parent n0 = Some q /\ q < i /\ ns' !! q = Some qn /\
         tr_depth (nd_trace n0) = S (tr_depth (nd_trace qn))).
    { intros n0 Hn0. destruct (Hpar i n0 Hn0 Hne) as (q & qn & H1 & H2 & H3 & H4).
      destruct (Hlift _ _ H3) as (qn' & H5 & H6). exists q, qn'. rewrite H6. done. }
    rewrite Hlk in Hi. destruct (decide (i = p)) as [->|].
    + injection Hi as <-. destruct (Hold pn Hp) as (q & qn & ?). exists q, qn. done.
    + destruct (decide (i = length ns)) as [->|].
      * injection Hi as <-. destruct (Hlift _ _ Hp) as (qn' & H5 & H6).
        exists p, qn'. repeat split; [done|done|]. cbn. congruence.
      * eauto.
  - intros q qn. rewrite Hlk. destruct (decide (q = p)) as [->|].
    + intros [= <-]. cbn. apply StronglySorted_snoc; [by eapply Hsort|].
      apply Forall_forall. intros j Hj. apply elem_of_list_In in Hj.
      apply (Hch _ _ Hp) in Hj as (m & Hm & _). by eapply lookup_lt_Some.
    + destruct (decide (q = length ns)) as [->|]; [intros [= <-]; constructor|]. apply Hsort.
  - intros q qn. rewrite Hlk. intros Hq i. rewrite Hatt.
    destruct (decide (q = p)) as [->|].
    + injection Hq as <-. cbn. rewrite in_app_iff, (Hch _ _ Hp). cbn. naive_solver.
    + destruct (decide (q = length ns)) as [->|].
      * injection Hq as <-. cbn. split; [done|]. intros [(m & Hm & Hpm & _)|[? _]]; [|lia].
        destruct (decide (i = 0)) as [->|Hi0].
        -- destruct Hroot as (r & Hr & Hr2 & _). congruence.
        -- destruct (Hpar _ _ Hm Hi0) as (q & ? & Hq & ? & Hlq & _).
           rewrite Hpm in Hq. injection Hq as <-. apply lookup_lt_Some in Hlq. lia.
      * rewrite (Hch _ _ Hq). naive_solver.
Qed.

(** Push-only kind: appending an excluded precompile node. *)
Lemma arena_tree_pushonly ns p pn t :
  arena_tree ns -> ns !! p = Some pn ->
  tr_depth t = S (tr_depth (nd_trace pn)) -> default false (tr_maybe_precompile t) = true ->
  arena_tree (ns ++ [mkNode (Some p) [] (length ns) t [] []]).
Proof.
  intros [Hroot Hidx Hpar Hsort Hch] Hp Hd Hpre.
  set (nd := mkNode (Some p) [] (length ns) t [] []).
  assert (Hlk : forall i n, (ns ++ [nd]) !! i = Some n -> ns !! i = Some n \/ (i = length ns /\ n = nd)).
  { intros i n Hi. apply lookup_app_Some in Hi as [Hi|[Hle Hi]]; [by left|right].
    destruct (i - length ns) eqn:E; [|done]. cbn in Hi. injection Hi as <-. split; [lia|done]. }
  split.
  - destruct Hroot as (r & Hr & ?). exists r. split; [by apply lookup_app_l_Some|done].
  - intros i n Hi. apply Hlk in Hi as [Hi|[-> ->]]; [by apply Hidx|done].
  - intros i n Hi Hne. apply Hlk in Hi as [Hi|[-> ->]].
    + destruct (Hpar i n Hi Hne) as (q & qn & H1 & H2 & H3 & H4). exists q, qn.
      repeat split; [done..|by apply lookup_app_l_Some|done].
    + exists p, pn. repeat split; [by eapply lookup_lt_Some|by apply lookup_app_l_Some|done].
  - intros i n Hi. apply Hlk in Hi as [Hi|[-> ->]]; [by eapply Hsort|constructor].
  - intros q qn Hq i. rewrite attached_app. cbn. apply Hlk in Hq as [Hq|[-> ->]].
    + rewrite (Hch _ _ Hq). unfold nd_is_precompile. cbn. split; [tauto|].
      intros [?|(_ & _ & ?)]; [done|]. rewrite Hpre in *. done.
    + cbn. split; [done|]. intros [(m & Hm & Hpm & _)|(_ & _ & Hx)].
      * destruct (decide (i = 0)) as [->|Hi0].
        -- destruct Hroot as (r & Hr & Hr2 & _). congruence.
        -- destruct (Hpar _ _ Hm Hi0) as (q & ? & Hq & ? & Hlq & _).
           rewrite Hpm in Hq. injection Hq as <-. apply lookup_lt_Some in Hlq. lia.
      * unfold nd_is_precompile in Hx. cbn in Hx. congruence.
Qed.

(** A depth-0 push replaces the root's trace. *)
Lemma arena_tree_set_root ns n t :
  arena_tree ns -> ns !! 0 = Some n -> tr_depth t = 0 ->
  arena_tree (<[0 := nd_set_trace n t]> ns).
Proof.
  intros Ht Hn Hd. eapply arena_tree_shape; [|exact Ht]. symmetry.
  eapply map_shape_insert; [done|].
  destruct (at_root _ Ht) as (r & Hr & Hp & Hrd). rewrite Hn in Hr. injection Hr as <-.
  unfold shape. cbn. rewrite Hp. congruence.
Qed.

(** Everything [push_trace] can do. *)
Inductive push_result (ns : list CallTraceNode) (kind : PushTraceKind) (t : CallTrace)
    : list CallTraceNode -> nat -> Prop :=
  | push_root n :
      tr_depth t = 0 -> ns !! 0 = Some n -> push_result ns kind t (<[0 := nd_set_trace n t]> ns) 0
  | push_attach p pn :
      kind = PushAndAttachToParent -> ns !! p = Some pn -> tr_depth t = S (tr_depth (nd_trace pn)) ->
      push_result ns kind t
        (<[p := attach_child (length ns) pn]> (ns ++ [mkNode (Some p) [] (length ns) t [] []]))
        (length ns)
  | push_only p pn :
      kind = PushOnly -> ns !! p = Some pn -> tr_depth t = S (tr_depth (nd_trace pn)) ->
      push_result ns kind t (ns ++ [mkNode (Some p) [] (length ns) t [] []]) (length ns).

Lemma push_trace_loop_Ok fuel ns entry kind t r :
  push_trace_loop fuel ns entry kind t = Ok r -> push_result ns kind t (fst r) (snd r).
Proof.
  revert entry. induction fuel as [|fuel IH]; intros entry; [done|]. cbn [push_trace_loop].
  destruct (tr_depth t) as [|d] eqn:Hd.
  - destruct (update ns 0 _) eqn:E; cbn [rbind]; [|done..]. intros [= <-].
    apply update_Ok in E as (n & Hn & ->). by apply push_root.
  - destruct (index ns entry) as [e| |] eqn:E; cbn [rbind]; [|done..]. apply index_Ok in E.
    destruct (tr_depth (nd_trace e) =? d) eqn:Hde.
    + apply Nat.eqb_eq in Hde. destruct kind; cbn [is_attach_to_parent].
      * cbn [rbind]. intros [= <-]. cbn. eapply push_only; [done..|]. congruence.
      * destruct (update _ entry _) eqn:U; cbn [rbind]; [|done..]. intros [= <-].
        apply update_Ok in U as (a0 & Ha & ->). cbn.
        rewrite lookup_app_l, E in Ha by (by eapply lookup_lt_Some). injection Ha as <-.
        eapply push_attach; [done..|]. congruence.
    + destruct (expect _) eqn:E2; cbn [rbind]; [|done..]. apply IH.
Qed.

Lemma push_trace_Ok ns kind t r :
  push_trace ns 0 kind t = Ok r -> push_result ns kind t (fst r) (snd r).
Proof. apply push_trace_loop_Ok. Qed.

(** Termination of the descent on tree-shaped arenas. *)
Lemma push_trace_loop_fuel ns kind t fuel entry :
  arena_tree ns -> 0 < fuel -> length ns < fuel + entry ->
  push_trace_loop fuel ns entry kind t <> OutOfFuel.
Proof.
  intros Ht. revert entry. induction fuel as [|fuel IH]; intros entry H0 Hf; [lia|].
  cbn [push_trace_loop]. destruct (tr_depth t) as [|d].
  - unfold update. by destruct (ns !! 0).
  - unfold index. destruct (ns !! entry) as [e|] eqn:E; cbn [rbind]; [|done].
    destruct (_ =? d).
    + destruct (is_attach_to_parent kind); cbn [rbind]; [|done].
      unfold update. by destruct ((ns ++ _) !! entry).
    + destruct (last (nd_children e)) as [c|] eqn:L; cbn [expect rbind]; [|done].
      assert (Hc : In c (nd_children e)).
      { apply elem_of_list_In. by apply last_Some_elem_of. }
      apply (at_children _ Ht _ _ E) in Hc as (m & Hm & Hp & _).
      assert (c <> 0). { intros ->. destruct (at_root _ Ht) as (r & Hr & Hr2 & _). congruence. }
      destruct (at_parent _ Ht _ _ Hm) as (q & qn & Hq & Hlt & _); [done|].
      rewrite Hp in Hq. injection Hq as <-.
      apply lookup_lt_Some in Hm. apply IH; lia.
Qed.

Lemma push_trace_terminates ns kind t :
  arena_tree ns -> push_trace ns 0 kind t <> OutOfFuel.
Proof. intros Ht. apply push_trace_loop_fuel; [done|lia..]. Qed.

(** ** Invariant of all hooks *)

Lemma shape_set_trace n t :
  tr_depth t = tr_depth (nd_trace n) -> tr_maybe_precompile t = tr_maybe_precompile (nd_trace n) ->
  shape (nd_set_trace n t) = shape n.
Proof. intros H1 H2. unfold shape, nd_is_precompile. cbn. by rewrite H1, H2. Qed.

Lemma shape_push_step st n : shape (push_step st n) = shape n.
Proof. done. Qed.
Lemma shape_set_step k st n : shape (set_step k st n) = shape n.
Proof. done. Qed.
Lemma shape_push_log l n : shape (push_log l n) = shape n.
Proof. done. Qed.
Lemma shape_mark_selfdestruct a b v n : shape (mark_selfdestruct a b v n) = shape n.
Proof. done. Qed.
Lemma shape_fill_trace b sp r cr n : shape (nd_set_trace n (fill_trace b sp r cr (nd_trace n))) = shape n.
Proof. done. Qed.

Ltac inv_bind H :=
  match type of H with
  | rbind ?m _ = Ok _ => let E := fresh "E" in destruct m eqn:E; cbn [rbind] in H; [|discriminate H..]
  end.

Lemma start_trace_tree s c a inp v k from g mp s' :
  start_trace_on_call s c a inp v k from g mp = Ok s' ->
  arena_tree (ti_traces s) -> arena_tree (ti_traces s').
Proof.
  unfold start_trace_on_call. intros H Ht.
  destruct (match ti_trace_stack s with [] => _ | _ => _ end) as [gl sp].
  inv_bind H. injection H as <-. cbn [ti_traces].
  apply push_trace_Ok in E. destruct E as [n Hd Hn|p pn Hk Hp Hd|p pn Hk Hp Hd].
  - by apply arena_tree_set_root.
  - eapply arena_tree_attach; [done..|]. cbn. by destruct (default false mp).
  - eapply arena_tree_pushonly; [done..|]. cbn. by destruct (default false mp).
Qed.

Lemma ti_handle_tree s e s' r :
  ti_handle s e = Ok (s', r) -> arena_tree (ti_traces s) -> arena_tree (ti_traces s').
Proof.
  destruct e as [i c|i c|l c|c i|c i o|c i|c i o|a b v]; cbn [ti_handle]; intros H Ht;
    inv_bind H; injection H as <- _.
  - destruct (record_steps _); [|by injection E as <-]. unfold start_step in E.
    do 2 inv_bind E. destruct (negb _).
    + injection E as <-. done.
    + inv_bind E. injection E as <-. cbn. eapply arena_tree_update; [|done..]. done.
  - destruct (record_steps _); [|by injection E as <-]. unfold fill_step_on_step_end in E.
    destruct (ti_step_stack s) as [|[rc ti si] rest]; [done|]. destruct (negb _).
    + injection E as <-. done.
    + do 4 inv_bind E. injection E as <-. cbn. eapply arena_tree_update; [|done..]. done.
  - destruct (record_logs _); [|by injection E as <-]. unfold on_last_trace in E.
    do 2 inv_bind E. injection E as <-. cbn. eapply arena_tree_update; [|done..]. done.
  - unfold ti_call in E. destruct (call_from_to i). inv_bind E. by eapply start_trace_tree.
  - unfold fill_trace_on_call_end in E. destruct (ti_trace_stack s) as [|ti rest]; [done|].
    inv_bind E. injection E as <-. cbn. eapply arena_tree_update; [|done..]. done.
  - by eapply start_trace_tree.
  - unfold fill_trace_on_call_end in E. destruct (ti_trace_stack s) as [|ti rest]; [done|].
    inv_bind E. injection E as <-. cbn. eapply arena_tree_update; [|done..]. done.
  - unfold on_last_trace in E. do 2 inv_bind E. injection E as <-. cbn.
    eapply arena_tree_update; [|done..]. done.
Qed.

Lemma run_inv {S} (h : inspector S) (P : S -> Prop) :
  (forall s e s' r, P s -> h s e = Ok (s', r) -> P s') ->
  forall es s s', P s -> run h s es = Ok s' -> P s'.
Proof.
  intros Hh es s s' HP Hr. unfold run in Hr.
  eapply (rfold_inv _ P (fun _ => True)); [|done| |exact Hr].
  - intros s0 e s1 HP0 _ H. unfold rmap in H. destruct (h s0 e) as [[s2 r]| |] eqn:E; [|done..].
    injection H as <-. by eapply Hh.
  - by apply Forall_true.
Qed.

Lemma run_tree s es s' :
  arena_tree (ti_traces s) -> ti_run s es = Ok s' -> arena_tree (ti_traces s').
Proof.
  apply (run_inv ti_handle (fun s => arena_tree (ti_traces s))).
  intros. by eapply ti_handle_tree.
Qed.
