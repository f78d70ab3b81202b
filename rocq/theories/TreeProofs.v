(** * TreeProofs: paths in recorded arenas *)

From Verif Require Export ArenaProofs SpecParity.

Lemma follow_app ns a : forall i b, follow ns i (a ++ b) = match follow ns i a with Some j => follow ns j b | None => None end.
Proof.
  induction a as [|k a IH]; intros i b; [done|]. cbn [app follow].
  destruct (ns !! i) as [n|]; [|done]. destruct (nd_children n !! k); [|done]. apply IH.
Qed.
Lemma follow_snoc ns i a k j : follow ns i (a ++ [k]) = Some j <->
  exists p pn, follow ns i a = Some p /\ ns !! p = Some pn /\ nd_children pn !! k = Some j.
Proof.
  rewrite follow_app. split.
  - destruct (follow ns i a) as [p|]; [|done]. cbn. destruct (ns !! p) as [pn|] eqn:E; [|done].
    destruct (nd_children pn !! k) as [c|] eqn:Ec; [|done]. intros [= ->]. eauto 10.
  - intros (p & pn & -> & Hp & Hc). cbn. by rewrite Hp, Hc.
Qed.

Lemma StronglySorted_lt_NoDup l : StronglySorted lt l -> NoDup l.
Proof.
  induction 1 as [|x l Hs IH Hall]; constructor; [|done]. intros Hin. rewrite Forall_forall in Hall.
  specialize (Hall x Hin). lia.
Qed.

Section tree.
  Context (ns : list CallTraceNode) (Ht : arena_tree ns).

  Lemma child_info p pn c : ns !! p = Some pn -> In c (nd_children pn) ->
    exists n, ns !! c = Some n /\ nd_parent n = Some p /\ nd_is_precompile n = false /\ p < c /\
              tr_depth (nd_trace n) = S (tr_depth (nd_trace pn)).
  Proof.
    intros Hp Hc. apply (at_children _ Ht _ _ Hp) in Hc as (n & Hn & Hpar & Hpre).
    assert (c <> 0). { intros ->. destruct (at_root _ Ht) as (r & Hr & Hr2 & _). congruence. }
    destruct (at_parent _ Ht _ _ Hn) as (q & qn & Hq & Hlt & Hqn & Hd); [done|].
    rewrite Hpar in Hq. injection Hq as <-. rewrite Hp in Hqn. injection Hqn as <-. eauto 10.
  Qed.
  Lemma child_lookup p pn k c : ns !! p = Some pn -> nd_children pn !! k = Some c ->
    exists n, ns !! c = Some n /\ nd_parent n = Some p /\ nd_is_precompile n = false /\ p < c /\
              tr_depth (nd_trace n) = S (tr_depth (nd_trace pn)).
  Proof. intros Hp Hc. eapply child_info; [done|]. apply elem_of_list_In. by eapply elem_of_list_lookup_2. Qed.

  Lemma follow_info a : forall i, follow ns 0 a = Some i ->
    exists n, ns !! i = Some n /\ tr_depth (nd_trace n) = length a /\ length a <= i /\
              (i = 0 \/ nd_is_precompile n = false).
  Proof.
    induction a as [|k a IH] using rev_ind; intros i Hf.
    - injection Hf as <-. destruct (at_root _ Ht) as (r & Hr & _ & Hd). exists r. cbn. split_and!; auto.
    - apply follow_snoc in Hf as (p & pn & Hp & Hpn & Hc). destruct (IH _ Hp) as (pn' & Hpn' & Hd & Hle & _).
      rewrite Hpn in Hpn'. injection Hpn' as <-.
      destruct (child_lookup _ _ _ _ Hpn Hc) as (n & Hn & _ & Hpre & Hlt & Hdn).
      exists n. rewrite app_length. cbn. split_and!; [done|lia|lia|by right].
  Qed.

  Lemma follow_root a : follow ns 0 a = Some 0 -> a = [].
  Proof. intros H. destruct (follow_info _ _ H) as (n & _ & _ & Hle & _). destruct a; [done|]. cbn in Hle. lia. Qed.

  Lemma children_nodup p pn : ns !! p = Some pn -> NoDup (nd_children pn).
  Proof. intros Hp. apply StronglySorted_lt_NoDup. by eapply at_children_sorted. Qed.

  Lemma follow_inj a : forall b i, follow ns 0 a = Some i -> follow ns 0 b = Some i -> a = b.
  Proof.
    induction a as [|k a IH] using rev_ind; intros b i Ha Hb.
    - injection Ha as <-. symmetry. by apply follow_root.
    - destruct b as [|k' b _] using rev_ind.
      { injection Hb as <-. apply follow_root in Ha. by destruct a. }
      apply follow_snoc in Ha as (p & pn & Hp & Hpn & Hc). apply follow_snoc in Hb as (q & qn & Hq & Hqn & Hc').
      destruct (child_lookup _ _ _ _ Hpn Hc) as (n & Hn & Hpar & _).
      destruct (child_lookup _ _ _ _ Hqn Hc') as (n' & Hn' & Hpar' & _).
      rewrite Hn in Hn'. injection Hn' as <-. rewrite Hpar in Hpar'. injection Hpar' as <-.
      rewrite Hpn in Hqn. injection Hqn as <-. f_equal; [by eapply IH|].
      f_equal. eapply NoDup_lookup; [exact (children_nodup _ _ Hpn)|done|done].
  Qed.
End tree.

(** ** Parents are part of the call graph *)

Definition flag (n : CallTraceNode) : bool := match nd_parent n with None => false | Some _ => nd_is_precompile n end.

Definition parents_shown (ns : list CallTraceNode) : Prop :=
  forall i n p pn, ns !! i = Some n -> nd_parent n = Some p -> ns !! p = Some pn -> flag pn = false.

(** Shown nodes can be reached from the root. *)
Lemma follow_exists ns : arena_tree ns -> parents_shown ns ->
  forall i n, ns !! i = Some n -> flag n = false -> exists a, follow ns 0 a = Some i.
Proof.
  intros Ht Hs i. induction i as [i IH] using lt_wf_ind. intros n Hn Hf.
  destruct (decide (i = 0)) as [->|Hne]; [by exists []|].
  destruct (at_parent _ Ht _ _ Hn Hne) as (p & pn & Hp & Hlt & Hpn & _).
  destruct (IH p Hlt pn Hpn) as (a & Ha); [exact (Hs _ _ _ _ Hn Hp Hpn)|].
  assert (Hin : In i (nd_children pn)).
  { apply (at_children _ Ht _ _ Hpn). exists n. split_and!; [done|done|]. unfold flag in Hf. by rewrite Hp in Hf. }
  apply elem_of_list_In, elem_of_list_lookup in Hin as (k & Hk).
  exists (a ++ [k]). apply follow_snoc. eauto.
Qed.

(** ** Order of creation is order of addresses *)

Definition ordered (ns : list CallTraceNode) : Prop :=
  forall a b i j, follow ns 0 a = Some i -> follow ns 0 b = Some j -> i < j -> lex_lt a b.

(** A path through last children. *)
Fixpoint rightmost (ns : list CallTraceNode) (i : nat) (a : list nat) : Prop :=
  match a with
  | [] => True
  | k :: r => exists n c, ns !! i = Some n /\ nd_children n !! k = Some c /\ S k = length (nd_children n) /\ rightmost ns c r
  end.

Lemma rightmost_snoc ns a : forall i p pn k c, rightmost ns i a -> follow ns i a = Some p -> ns !! p = Some pn ->
  nd_children pn !! k = Some c -> S k = length (nd_children pn) -> rightmost ns i (a ++ [k]).
Proof.
  induction a as [|x a IH]; intros i p pn k c Hr Hf Hp Hc Hk.
  - injection Hf as <-. cbn. eauto 10.
  - cbn [rightmost app] in *. destruct Hr as (n & c' & Hn & Hc' & Hx & Hr). exists n, c'. split_and!; try done.
    cbn [follow] in Hf. rewrite Hn, Hc' in Hf. by eapply IH.
Qed.

Lemma rightmost_max ns a : forall i p pn, rightmost ns i a -> follow ns i a = Some p -> ns !! p = Some pn ->
  forall b j, follow ns i b = Some j -> lex_lt b (a ++ [length (nd_children pn)]).
Proof.
  induction a as [|k a IH]; intros i p pn Hr Hf Hp b j Hb.
  - injection Hf as <-. destruct b as [|k' b]; [constructor|]. cbn [follow] in Hb. rewrite Hp in Hb.
    destruct (nd_children pn !! k') as [c|] eqn:E; [|done]. apply lookup_lt_Some in E. by constructor.
  - cbn [rightmost] in Hr. destruct Hr as (n & c & Hn & Hc & Hk & Hr). destruct b as [|k' b]; [constructor|].
    cbn [follow app] in *. rewrite Hn in Hb, Hf. rewrite Hc in Hf.
    destruct (nd_children n !! k') as [c'|] eqn:E; [|done]. pose proof (lookup_lt_Some _ _ _ E).
    destruct (decide (k' = k)) as [->|]; [|constructor; lia].
    apply lex_tail. rewrite Hc in E. injection E as <-. by eapply IH.
Qed.

Lemma lex_lt_asym a b : lex_lt a b -> lex_lt b a -> False.
Proof. induction 1; inversion 1; subst; [lia|lia|lia|auto]. Qed.
Lemma lex_lt_trans a b : lex_lt a b -> forall c, lex_lt b c -> lex_lt a c.
Proof.
  induction 1 as [x l|x y l m Hxy|x l m H IH]; intros c Hc; inversion Hc; subst.
  - constructor.
  - constructor.
  - constructor. lia.
  - by constructor.
  - by constructor.
  - apply lex_tail. auto.
Qed.

(** ** What a push does *)

Lemma push_loop_path ns kind t : arena_tree ns -> forall fuel entry a r,
  rightmost ns 0 a -> follow ns 0 a = Some entry ->
  push_trace_loop fuel ns entry kind t = Ok r ->
  (tr_depth t = 0 /\ exists n, ns !! 0 = Some n /\ fst r = <[0 := nd_set_trace n t]> ns) \/
  exists a p pn, rightmost ns 0 a /\ follow ns 0 a = Some p /\ ns !! p = Some pn /\
    tr_depth t = S (tr_depth (nd_trace pn)) /\
    fst r = (if is_attach_to_parent kind then <[p := attach_child (length ns) pn]> else id)
              (ns ++ [mkNode (Some p) [] (length ns) t [] []]).
Proof.
  intros Ht fuel. induction fuel as [|fuel IH]; intros entry a r Hr Ha; [done|]. cbn [push_trace_loop].
  destruct (tr_depth t) as [|d] eqn:Hd.
  - destruct (update ns 0 _) eqn:E; cbn [rbind]; [|done..]. intros [= <-].
    apply update_Ok in E as (n & Hn & ->). left. eauto.
  - destruct (index ns entry) as [e| |] eqn:E; cbn [rbind]; [|done..]. apply index_Ok in E.
    destruct (tr_depth (nd_trace e) =? d) eqn:Hde.
    + apply Nat.eqb_eq in Hde. intros H. right. exists a, entry, e. split_and!; [done|done|done|congruence|].
      destruct kind; cbn [is_attach_to_parent rbind] in *.
      * by injection H as <-.
      * destruct (update _ entry _) eqn:U; cbn [rbind] in H; [|done..]. injection H as <-.
        apply update_Ok in U as (e0 & Ha0 & ->). cbn.
        rewrite lookup_app_l, E in Ha0 by (by eapply lookup_lt_Some). by injection Ha0 as <-.
    + destruct (expect _) as [c| |] eqn:E2; cbn [rbind]; [|done..]. apply expect_Ok in E2.
      rewrite last_lookup in E2. apply IH with (a := a ++ [pred (length (nd_children e))]).
      * eapply rightmost_snoc; [done|done|done|done|]. apply lookup_lt_Some in E2. lia.
      * apply follow_snoc. eauto.
Qed.

Lemma push_path ns kind t r : arena_tree ns -> push_trace ns 0 kind t = Ok r ->
  map shape (fst r) = map shape ns \/
  exists a p pn, rightmost ns 0 a /\ follow ns 0 a = Some p /\ ns !! p = Some pn /\
    tr_depth t = S (tr_depth (nd_trace pn)) /\
    fst r = (if is_attach_to_parent kind then <[p := attach_child (length ns) pn]> else id)
              (ns ++ [mkNode (Some p) [] (length ns) t [] []]).
Proof.
  intros Ht H. destruct (push_loop_path ns kind t Ht _ 0 [] r I eq_refl H) as [(Hd & n & Hn & ->)|]; [left|by right].
  eapply map_shape_insert; [done|].
  destruct (at_root _ Ht) as (r' & Hr & Hp & Hrd). rewrite Hn in Hr. injection Hr as <-.
  unfold shape. cbn. rewrite Hp. congruence.
Qed.

(** A hook either keeps the shapes or pushes. *)
Lemma ti_handle_shape s e s' r : ti_handle s e = Ok (s', r) ->
  map shape (ti_traces s') = map shape (ti_traces s) \/
  exists t x, push_trace (ti_traces s) 0 (if default false (tr_maybe_precompile t) then PushOnly else PushAndAttachToParent) t = Ok x /\
    ti_traces s' = fst x.
Proof.
  assert (Hup : forall ns i f ns', (forall n, shape (f n) = shape n) -> update ns i f = Ok ns' -> map shape ns' = map shape ns).
  { intros ns i f ns' Hf Hu. apply update_Ok in Hu as (n & Hn & ->). by eapply map_shape_insert. }
  assert (Hst : forall c a inp v k from g mp s', start_trace_on_call s c a inp v k from g mp = Ok s' ->
    exists t x, push_trace (ti_traces s) 0 (if default false (tr_maybe_precompile t) then PushOnly else PushAndAttachToParent) t = Ok x /\
    ti_traces s' = fst x).
  { intros c a inp v k from g mp s1 H. unfold start_trace_on_call in H.
    destruct (match ti_trace_stack s with [] => _ | _ => _ end) as [gl sp].
    inv_bind H. injection H as <-. cbn [ti_traces]. do 2 eexists. split; [|reflexivity]. exact E. }
  destruct e as [i c|i c|l c|c i|c i o|c i|c i o|a b v]; cbn [ti_handle]; intros H; inv_bind H; injection H as <- _.
  - left. destruct (record_steps _); [|by injection E as <-]. unfold start_step in E. do 2 inv_bind E. destruct (negb _).
    + by injection E as <-.
    + inv_bind E. injection E as <-. cbn. by eapply Hup, E2.
  - left. destruct (record_steps _); [|by injection E as <-]. unfold fill_step_on_step_end in E.
    destruct (ti_step_stack s) as [|[rc ti si] rest]; [done|]. destruct (negb _).
    + by injection E as <-.
    + do 4 inv_bind E. injection E as <-. cbn. by eapply Hup, E3.
  - left. destruct (record_logs _); [|by injection E as <-]. unfold on_last_trace in E.
    do 2 inv_bind E. injection E as <-. cbn. by eapply Hup, E1.
  - right. unfold ti_call in E. destruct (call_from_to i). inv_bind E. by eapply Hst.
  - left. unfold fill_trace_on_call_end in E. destruct (ti_trace_stack s) as [|ti rest]; [done|].
    inv_bind E. injection E as <-. cbn. by eapply Hup, E0.
  - right. by eapply Hst.
  - left. unfold fill_trace_on_call_end in E. destruct (ti_trace_stack s) as [|ti rest]; [done|].
    inv_bind E. injection E as <-. cbn. by eapply Hup, E0.
  - left. unfold on_last_trace in E. do 2 inv_bind E. injection E as <-. cbn. by eapply Hup, E1.
Qed.

(** ** The invariant *)

Record tree_inv (ns : list CallTraceNode) : Prop := {
  inv_tree : arena_tree ns; inv_shown : parents_shown ns; inv_ordered : ordered ns }.

Lemma follow_shape ns ns' : map shape ns = map shape ns' -> forall a i, follow ns i a = follow ns' i a.
Proof.
  intros Heq a. induction a as [|k a IH]; intros i; [done|]. cbn [follow].
  destruct (ns !! i) as [n|] eqn:E.
  - destruct (lookup_same_shape _ _ _ _ Heq E) as (n' & -> & Hs). unfold shape in Hs. injection Hs as _ H2 _ _ _.
    rewrite H2. destruct (nd_children n' !! k); [apply IH|done].
  - destruct (ns' !! i) as [n'|] eqn:E'; [|done].
    destruct (lookup_same_shape _ _ _ _ (eq_sym Heq) E') as (? & ? & _). congruence.
Qed.

Lemma tree_inv_shape ns ns' : map shape ns = map shape ns' -> tree_inv ns -> tree_inv ns'.
Proof.
  intros Heq [H1 H2 H3]. split.
  - by eapply arena_tree_shape.
  - intros i n p pn Hi Hp Hpn.
    destruct (lookup_same_shape _ _ _ _ (eq_sym Heq) Hi) as (n' & Hi' & Hs').
    destruct (lookup_same_shape _ _ _ _ (eq_sym Heq) Hpn) as (pn' & Hpn' & Hs).
    unfold shape in Hs, Hs'. injection Hs as S1 S2 S3 S4 S5. injection Hs' as T1 T2 T3 T4 T5.
    assert (Hf : flag pn' = false) by (apply (H2 i n' p pn'); [done|congruence|done]). unfold flag in *. congruence.
  - intros a b i j. rewrite <-!(follow_shape _ _ Heq). apply H3.
Qed.

Lemma tree_inv_default : tree_inv arena_default.
Proof.
  split; [apply arena_tree_default| |].
  - intros i n p pn Hi Hp Hpn. unfold arena_default in Hi. destruct i as [|i]; cbn in Hi; [|done].
    injection Hi as <-. done.
  - intros a b i j Ha Hb Hij. destruct (follow_info _ arena_tree_default _ _ Hb) as (n & Hn & _).
    destruct j; [lia|]. done.
Qed.

Lemma follow_pushonly ns p t : arena_tree ns -> forall b j, let ns' := ns ++ [mkNode (Some p) [] (length ns) t [] []] in
  follow ns' 0 b = Some j -> follow ns 0 b = Some j.
Proof.
  intros Ht b. induction b as [|k b IH] using rev_ind; intros j ns' H; [done|].
  apply follow_snoc in H as (i & n & Hi & Hn & Hc). specialize (IH _ Hi). apply follow_snoc. exists i, n.
  destruct (follow_info _ Ht _ _ IH) as (n0 & Hn0 & _). unfold ns' in Hn. erewrite lookup_app_l_Some in Hn by done.
  injection Hn as <-. done.
Qed.

Lemma follow_attach ns a p pn t : arena_tree ns -> follow ns 0 a = Some p -> ns !! p = Some pn ->
  forall b j, let ns' := <[p := attach_child (length ns) pn]> (ns ++ [mkNode (Some p) [] (length ns) t [] []]) in
  follow ns' 0 b = Some j ->
  follow ns 0 b = Some j \/ (b = a ++ [length (nd_children pn)] /\ j = length ns).
Proof.
  intros Ht Ha Hp b. pose proof (lookup_lt_Some _ _ _ Hp) as Hplt.
  induction b as [|k b IH] using rev_ind; intros j ns' H; [by left|].
  apply follow_snoc in H as (i & n & Hi & Hn & Hc). destruct (IH _ Hi) as [Hf|[-> ->]].
  - destruct (follow_info _ Ht _ _ Hf) as (n0 & Hn0 & _). unfold ns' in Hn.
    destruct (decide (i = p)) as [->|Hne].
    + rewrite list_lookup_insert in Hn by (rewrite app_length; cbn; lia). injection Hn as <-.
      cbn [attach_child nd_children] in Hc. apply lookup_app_Some in Hc as [Hc|[Hle Hc]].
      * left. apply follow_snoc. eauto.
      * right. destruct (k - length (nd_children pn)) eqn:Ek; [|done]. cbn in Hc. injection Hc as <-.
        rewrite (follow_inj _ Ht _ _ _ Hf Ha). split; [|done]. do 2 f_equal. lia.
    + rewrite list_lookup_insert_ne in Hn by done. erewrite lookup_app_l_Some in Hn by done. injection Hn as <-.
      left. apply follow_snoc. eauto.
  - exfalso. unfold ns' in Hn. rewrite list_lookup_insert_ne in Hn by lia.
    rewrite lookup_app_r, Nat.sub_diag in Hn by lia. injection Hn as <-. done.
Qed.

Lemma flag_root_or ns a p pn : arena_tree ns -> follow ns 0 a = Some p -> ns !! p = Some pn -> flag pn = false.
Proof.
  intros Ht Ha Hp. destruct (follow_info _ Ht _ _ Ha) as (n & Hn & _ & _ & [->|Hpre]).
  - destruct (at_root _ Ht) as (r & Hr & Hr2 & _). rewrite Hp in Hr. injection Hr as <-. unfold flag. by rewrite Hr2.
  - rewrite Hp in Hn. injection Hn as <-. unfold flag. by destruct (nd_parent pn).
Qed.

Lemma tree_inv_push ns t r :
  push_trace ns 0 (if default false (tr_maybe_precompile t) then PushOnly else PushAndAttachToParent) t = Ok r ->
  tree_inv ns -> tree_inv (fst r).
Proof.
  intros H Hinv. pose proof Hinv as [Ht Hs Ho]. destruct (push_path _ _ _ _ Ht H) as [Hsh|(a & p & pn & Hr & Ha & Hp & Hd & Hres)].
  { by eapply tree_inv_shape. }
  pose proof (lookup_lt_Some _ _ _ Hp) as Hplt. pose proof (flag_root_or _ _ _ _ Ht Ha Hp) as Hflag.
  assert (Hparlt : forall i n q, ns !! i = Some n -> nd_parent n = Some q -> q < length ns).
  { intros i n q Hi Hq. destruct (decide (i = 0)) as [->|Hne].
    - destruct (at_root _ Ht) as (r' & Hr' & Hr2 & _). congruence.
    - destruct (at_parent _ Ht _ _ Hi Hne) as (q' & qn & Hq' & Hlt & _). apply lookup_lt_Some in Hi. rewrite Hq in Hq'.
      injection Hq' as <-. lia. }
  destruct (default false (tr_maybe_precompile t)) eqn:Epre; cbn [is_attach_to_parent] in Hres; rewrite Hres.
  - unfold id. split.
    + by eapply arena_tree_pushonly.
    + intros i n q qn Hi Hq Hqn. apply lookup_app_Some in Hi as [Hi|[Hle Hi]].
      * pose proof (Hparlt _ _ _ Hi Hq). rewrite lookup_app_l in Hqn by done. exact (Hs _ _ _ _ Hi Hq Hqn).
      * destruct (i - length ns) eqn:E; [|done]. cbn in Hi. injection Hi as <-. cbn in Hq. injection Hq as <-.
        rewrite lookup_app_l, Hp in Hqn by done. by injection Hqn as <-.
    + intros b c i j Hb Hc. apply follow_pushonly in Hb; [|done]. apply follow_pushonly in Hc; [|done]. by eapply Ho.
  - split.
    + by eapply arena_tree_attach.
    + set (ns' := <[p:=_]> _).
      assert (Hlk : forall i n, ns' !! i = Some n -> (exists n0, ns !! i = Some n0 /\ nd_parent n = nd_parent n0 /\ flag n = flag n0) \/
                        (i = length ns /\ nd_parent n = Some p)).
      { intros i n Hi. unfold ns' in Hi. destruct (decide (i = p)) as [->|Hne].
        - rewrite list_lookup_insert in Hi by (rewrite app_length; cbn; lia). injection Hi as <-. left. exists pn. done.
        - rewrite list_lookup_insert_ne in Hi by done. apply lookup_app_Some in Hi as [Hi|[Hle Hi]]; [left; eauto|right].
          destruct (i - length ns) eqn:E; [|done]. cbn in Hi. injection Hi as <-. split; [lia|done]. }
      intros i n q qn Hi Hq Hqn.
      assert (Hqlt : q < length ns).
      { apply Hlk in Hi as [(n0 & Hi & Hpar & _)|[_ Hpar]]; [apply (Hparlt i n0); [done|congruence]|]. congruence. }
      apply Hlk in Hqn as [(qn0 & Hqn & _ & Hfl)|[-> _]]; [|lia]. rewrite Hfl.
      apply Hlk in Hi as [(n0 & Hi & Hpar & _)|[_ Hpar]].
      * apply (Hs i n0 q qn0); [done|congruence|done].
      * rewrite Hpar in Hq. injection Hq as <-. rewrite Hp in Hqn. by injection Hqn as <-.
    + intros b c i j Hb Hc Hij.
      apply (follow_attach _ _ _ _ _ Ht Ha Hp) in Hb. apply (follow_attach _ _ _ _ _ Ht Ha Hp) in Hc.
      destruct Hb as [Hb|[-> ->]], Hc as [Hc|[-> ->]].
      * by eapply Ho.
      * by eapply rightmost_max.
      * destruct (follow_info _ Ht _ _ Hc) as (n & Hn & _). apply lookup_lt_Some in Hn. lia.
      * lia.
Qed.

Theorem run_tree_inv cfg es s : ti_run (ti_new cfg) es = Ok s -> tree_inv (ti_traces s).
Proof.
  apply (run_inv ti_handle (fun s => tree_inv (ti_traces s))); [|apply tree_inv_default].
  intros s0 e s1 r Hinv H. apply ti_handle_shape in H as [Hs|(t & x & Hx & ->)].
  - by eapply tree_inv_shape.
  - by eapply tree_inv_push.
Qed.
