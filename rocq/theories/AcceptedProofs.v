(** * AcceptedProofs: which hook calls can be recorded *)

From Verif Require Export SpecAccepted TreeProofs HistoryProofs SessionProofs.

(** ** The path of last children *)

(** The path through last children from the root ends at depth [R]. *)
Definition edge (ns : list CallTraceNode) (R : nat) : Prop :=
  exists a p pn, rightmost ns 0 a /\ follow ns 0 a = Some p /\ ns !! p = Some pn /\ nd_children pn = [] /\ length a = R.

Lemma rightmost_le ns a : forall i p pn b, rightmost ns i a -> follow ns i a = Some p -> ns !! p = Some pn ->
  nd_children pn = [] -> rightmost ns i b -> length b <= length a.
Proof.
  induction a as [|k a IH]; intros i p pn b Ha Hf Hp Hc Hb.
  - injection Hf as ->. destruct b as [|k b]; [done|]. destruct Hb as (n & c & Hn & Hk & _). rewrite Hp in Hn. injection Hn as <-.
    by rewrite Hc in Hk.
  - destruct b as [|k' b]; [cbn; lia|]. cbn [rightmost follow] in *. destruct Ha as (n & c & Hn & Hk & Hl & Ha).
    destruct Hb as (n' & c' & Hn' & Hk' & Hl' & Hb). rewrite Hn in Hn', Hf. injection Hn' as <-. rewrite Hk in Hf.
    assert (k' = k) as -> by lia. rewrite Hk in Hk'. injection Hk' as <-. cbn. pose proof (IH _ _ _ _ Ha Hf Hp Hc Hb). lia.
Qed.

Lemma rightmost_app ns a : forall i b, rightmost ns i (a ++ b) -> rightmost ns i a.
Proof. induction a as [|k a IH]; intros i b; [done|]. cbn. intros (n & c & H1 & H2 & H3 & H4). exists n, c. split_and!; try done. by eapply IH. Qed.

(** The loop reaches every depth on that path. *)
Lemma push_loop_reaches ns kind t d : arena_tree ns -> tr_depth t = S d ->
  forall b a entry p fuel, rightmost ns 0 (a ++ b) -> follow ns 0 a = Some entry -> follow ns 0 (a ++ b) = Some p ->
  length a <= d <= length a + length b -> d - length a < fuel ->
  exists r, push_trace_loop fuel ns entry kind t = Ok r.
Proof.
  intros Ht Hd. induction b as [|k b IH]; intros a entry p fuel Hr Ha Hp Hl Hf; (destruct fuel as [|fuel]; [lia|]); cbn [push_trace_loop]; rewrite Hd.
  - destruct (follow_info _ Ht _ _ Ha) as (n & Hn & Hdn & _). unfold index. rewrite Hn. cbn [rbind].
    cbn in Hl. assert (E : tr_depth (nd_trace n) =? d = true) by (apply Nat.eqb_eq; lia). rewrite E.
    destruct (is_attach_to_parent kind); [|by eexists]. unfold update. rewrite lookup_app_l by (by eapply lookup_lt_Some). rewrite Hn. by eexists.
  - destruct (follow_info _ Ht _ _ Ha) as (n & Hn & Hdn & _). unfold index. rewrite Hn. cbn [rbind].
    destruct (Nat.eqb_spec (tr_depth (nd_trace n)) d) as [E|E].
    + destruct (is_attach_to_parent kind); [|by eexists]. unfold update. rewrite lookup_app_l by (by eapply lookup_lt_Some). rewrite Hn. by eexists.
    + assert (Hk : exists c, nd_children n !! k = Some c /\ S k = length (nd_children n)).
      { clear - Hr Ha Hn. revert Hr Ha. generalize 0. induction a as [|x a IH]; intros i Hr Ha.
        - injection Ha as ->. destruct Hr as (m & c & Hm & Hc & Hl & _). rewrite Hn in Hm. injection Hm as <-. eauto.
        - cbn [app rightmost follow] in *. destruct Hr as (m & c & Hm & Hc & _ & Hr). rewrite Hm, Hc in Ha. by eapply IH. }
      destruct Hk as (c & Hc & Hlast).
      assert (El : last (nd_children n) = Some c). { rewrite last_lookup, <- Hlast. done. }
      rewrite El. cbn [expect rbind]. replace (a ++ k :: b) with ((a ++ [k]) ++ b) in Hr, Hp by (by rewrite <- app_assoc).
      apply (IH (a ++ [k]) c p fuel); try done; [apply follow_snoc; eauto| |]; rewrite app_length; cbn in Hl |- *; lia.
Qed.

Lemma push_accepts ns kind t R : arena_tree ns -> edge ns R ->
  (exists r, push_trace ns 0 kind t = Ok r) <-> tr_depth t <= S R.
Proof.
  intros Ht (a & p & pn & Hr & Hf & Hp & Hc & Hl). split.
  - intros (r & H). unfold push_trace in H. destruct (push_loop_path ns kind t Ht _ 0 [] r I eq_refl H) as [(Hd & _)|(b & q & qn & Hb & Hfb & Hq & Hd & _)]; [lia|].
    destruct (follow_info _ Ht _ _ Hfb) as (qn' & Hq' & Hdq & _). rewrite Hq in Hq'. injection Hq' as <-.
    pose proof (rightmost_le _ _ _ _ _ _ Hr Hf Hp Hc Hb). lia.
  - intros Hd. unfold push_trace. destruct (tr_depth t) as [|d] eqn:E.
    + cbn [push_trace_loop]. rewrite E. destruct (at_root _ Ht) as (r & Hr0 & _). unfold update. rewrite Hr0. by eexists.
    + destruct (follow_info _ Ht _ _ Hf) as (_ & _ & _ & Hle & _). pose proof (lookup_lt_Some _ _ _ Hp).
      apply (push_loop_reaches ns kind t d Ht E a [] 0 p); try done; cbn; lia.
Qed.

Lemma rightmost_shape ns ns' : map shape ns = map shape ns' -> forall a i, rightmost ns i a -> rightmost ns' i a.
Proof.
  intros Heq a. induction a as [|k a IH]; intros i; [done|]. cbn. intros (n & c & Hn & Hc & Hl & Hr).
  destruct (lookup_same_shape _ _ _ _ Heq Hn) as (n' & Hn' & Hs). unfold shape in Hs. injection Hs as _ H2 _ _ _.
  exists n', c. rewrite <- H2. split_and!; try done. by apply IH.
Qed.
Lemma edge_shape ns ns' R : map shape ns = map shape ns' -> edge ns R -> edge ns' R.
Proof.
  intros Heq (a & p & pn & Hr & Hf & Hp & Hc & Hl). destruct (lookup_same_shape _ _ _ _ Heq Hp) as (pn' & Hp' & Hs).
  unfold shape in Hs. injection Hs as _ H2 _ _ _. exists a, p, pn'. rewrite <- (follow_shape _ _ Heq), <- H2. split_and!; try done.
  by eapply rightmost_shape.
Qed.

(** Appending a node changes no path. *)
Lemma rightmost_snoc_node ns x a : forall i, rightmost ns i a -> rightmost (ns ++ [x]) i a.
Proof.
  induction a as [|k a IH]; intros i; [done|]. cbn. intros (n & c & Hn & Hc & Hl & Hr). exists n, c.
  split_and!; try done; [|by apply IH]. by apply lookup_app_l_Some.
Qed.
Lemma follow_snoc_node ns x a : forall i j, follow ns i a = Some j -> follow (ns ++ [x]) i a = Some j.
Proof.
  induction a as [|k a IH]; intros i j; [done|]. cbn [follow]. destruct (ns !! i) as [n|] eqn:E; [|done].
  rewrite (lookup_app_l_Some _ _ _ _ E). destruct (nd_children n !! k); [|done]. apply IH.
Qed.
(** Nor does a new last child of the node at the end of a path. *)
Lemma path_attach ns p pn id a : arena_tree ns -> ns !! p = Some pn -> forall i, follow ns i a = Some p ->
  rightmost ns i a -> follow (<[p := attach_child id pn]> ns) i a = Some p /\ rightmost (<[p := attach_child id pn]> ns) i a.
Proof.
  intros Ht Hp. induction a as [|k a IH]; intros i Hf Hr; [done|]. cbn [follow rightmost] in *.
  destruct Hr as (n & c & Hn & Hc & Hl & Hr). rewrite Hn, Hc in Hf. destruct (IH _ Hf Hr) as [Hf' Hr'].
  assert (Hne : i <> p).
  { destruct (child_lookup _ Ht _ _ _ _ Hn Hc) as (_ & _ & _ & _ & Hlt & _).
    enough (c <= p) by lia. clear - Ht Hf. revert c Hf. induction a as [|k a IH]; intros c Hf; [by injection Hf as ->|].
    cbn [follow] in Hf. destruct (ns !! c) as [n|] eqn:E; [|done]. destruct (nd_children n !! k) as [c'|] eqn:E'; [|done].
    destruct (child_lookup _ Ht _ _ _ _ E E') as (_ & _ & _ & _ & Hlt & _). apply IH in Hf. lia. }
  rewrite list_lookup_insert_ne by done. rewrite Hn, Hc. split; [done|]. exists n, c. done.
Qed.

Lemma push_edge ns kind t r R : arena_tree ns -> edge ns R -> arena_tree (fst r) -> push_trace ns 0 kind t = Ok r ->
  edge (fst r) (if (tr_depth t =? 0) || negb (is_attach_to_parent kind) then R else tr_depth t).
Proof.
  intros Ht He Ht' H. unfold push_trace in H.
  destruct (push_loop_path ns kind t Ht _ 0 [] r I eq_refl H) as [(Hd & n & Hn & E)|(b & q & qn & Hb & Hfb & Hq & Hd & E)].
  - rewrite Hd, E. cbn. eapply edge_shape; [|exact He]. symmetry. eapply map_shape_insert; [done|].
    destruct (at_root _ Ht) as (r' & Hr & Hp & Hrd). rewrite Hn in Hr. injection Hr as <-. unfold shape. cbn. rewrite Hp. congruence.
  - rewrite Hd, E. cbn [Nat.eqb orb]. destruct He as (a & p & pn & Hr & Hf & Hp & Hc & Hl).
    set (x := mkNode (Some q) [] (length ns) t [] []) in *.
    destruct (is_attach_to_parent kind); cbn [negb].
    + assert (Hq' : (ns ++ [x]) !! q = Some qn) by (by apply lookup_app_l_Some).
      destruct (follow_info _ Ht _ _ Hfb) as (qn' & Hqn' & Hdq & _). rewrite Hq in Hqn'. injection Hqn' as <-.
      pose proof (rightmost_snoc_node _ x _ _ Hb) as Hb'. pose proof (follow_snoc_node _ x _ _ _ Hfb) as Hfb'.
      set (m := <[q := attach_child (length ns) qn]> (ns ++ [x])) in *.
      assert (Hm : m !! q = Some (attach_child (length ns) qn)).
      { unfold m. apply list_lookup_insert. rewrite app_length. apply lookup_lt_Some in Hq. lia. }
      assert (Hpath : follow m 0 b = Some q /\ rightmost m 0 b).
      { clear - Ht Ht' Hq Hq' Hb' Hfb' E. revert Hb' Hfb'. generalize 0.
        unfold m. intros i Hb' Hfb'. revert i Hb' Hfb'. induction b as [|k b IH]; intros i Hb Hf; [done|]. cbn [follow rightmost] in *.
        destruct Hb as (n & c & Hn & Hc & Hl & Hr). rewrite Hn, Hc in Hf. destruct (IH _ Hr Hf) as [Hf' Hr'].
        assert (Hup : forall j d p', (ns ++ [x]) !! j = Some p' -> nd_children p' !! d <> Some j /\ forall c', nd_children p' !! d = Some c' -> j < c').
        { intros j d p' Hj. assert (G : forall c', nd_children p' !! d = Some c' -> j < c').
          { intros c' Hc'. apply lookup_app_Some in Hj as [Hj|[_ Hj]].
            - by destruct (child_lookup _ Ht _ _ _ _ Hj Hc') as (_ & _ & _ & _ & ? & _).
            - apply list_lookup_singleton_Some in Hj as [_ <-]. done. }
          split; [|done]. intros Hx. apply G in Hx. lia. }
        assert (Hne : i <> q).
        { pose proof (proj2 (Hup _ k _ Hn) _ Hc) as Hlt. enough (c <= q) by lia.
          clear - Hup Hf. revert c Hf. induction b as [|k b IH]; intros c Hf; [by injection Hf as ->|].
          cbn [follow] in Hf. destruct ((ns ++ [x]) !! c) as [n|] eqn:E; [|done]. destruct (nd_children n !! k) as [c'|] eqn:E'; [|done].
          pose proof (proj2 (Hup _ k _ E) _ E') as Hlt. apply IH in Hf. lia. }
        rewrite list_lookup_insert_ne by done. rewrite Hn, Hc. split; [done|]. exists n, c. done. }
      destruct Hpath as [Hf1 Hr1].
      exists (b ++ [length (nd_children qn)]), (length ns), x. split_and!.
      * eapply rightmost_snoc; [exact Hr1|exact Hf1|exact Hm| |].
        -- cbn. rewrite lookup_app_r by lia. by rewrite Nat.sub_diag.
        -- cbn. rewrite app_length. cbn. lia.
      * apply follow_snoc. exists q, (attach_child (length ns) qn). split_and!; try done. cbn. rewrite lookup_app_r by lia. by rewrite Nat.sub_diag.
      * unfold m. rewrite list_lookup_insert_ne by (apply lookup_lt_Some in Hq; lia). rewrite lookup_app_r by lia. by rewrite Nat.sub_diag.
      * done.
      * rewrite app_length. cbn. lia.
    + exists a, p, pn. split_and!; try done; [by apply rightmost_snoc_node|by apply follow_snoc_node|by apply lookup_app_l_Some].
Qed.

(** ** The end of an instruction *)

Lemma fill_step_accepts cfg i x st : (exists st', fill_step cfg i x st = Ok st') <-> recordable cfg (st_op st) i x.
Proof.
  unfold recordable, fill_step, push_snapshot, storage_snapshot. split.
  - intros (st' & H). inv_bind H. inv_bind H. clear H. split.
    + intros Hs. rewrite Hs in E. destruct (Nat.leb_spec (stack_push_count (st_op st)) (length (in_stack i))); [done|done].
    + intros Hd. rewrite Hd in E0. inv_bind E0. destruct (last (cx_journal x)) as [jn|] eqn:Ej; [|done]. injection E1 as <-.
      exists jn. split; [done|]. intros ad k h Hop Hl Hn. rewrite Hl in E0. unfold OP_SLOAD, OP_SSTORE in E0.
      assert (Ho : ((st_op st =? 84) || (st_op st =? 85))%N = true).
      { destruct Hop as [->| ->]; done. }
      rewrite Ho, Hn in E0. done.
  - intros [Hs Hd].
    assert (H1 : exists ps, (if snap_is_pushes (record_stack_snapshots cfg)
      then if stack_push_count (st_op st) <=? length (in_stack i)
           then Ok (Some (drop (length (in_stack i) - stack_push_count (st_op st)) (in_stack i))) else Panic PUnderflow
      else Ok (st_push_stack st)) = Ok ps).
    { destruct (snap_is_pushes _); [|by eexists]. rewrite (proj2 (Nat.leb_le _ _) (Hs eq_refl)). by eexists. }
    destruct H1 as (ps & ->). cbn [rbind].
    destruct (record_state_diff cfg); [|cbn [rbind]; by eexists]. destruct (Hd eq_refl) as (jn & -> & Hp). cbn [expect rbind].
    destruct (last jn) as [[a k h|]|] eqn:El; cbn [rbind]; try by eexists.
    unfold OP_SLOAD, OP_SSTORE.
    destruct (((st_op st =? 84) || (st_op st =? 85))%N) eqn:Ho; cbn [rbind]; [|by eexists].
    assert (Hop : st_op st = 0x54%N \/ st_op st = 0x55%N).
    { apply orb_true_iff in Ho as [H|H]; apply N.eqb_eq in H; auto. }
    specialize (Hp a k h Hop eq_refl). destruct (cx_present x a k); [|done]. cbn [rbind]. by eexists.
Qed.

(** ** The invariant *)

Definition open_ok (ns : list CallTraceNode) (idx : nat) (v : U256) : Prop :=
  exists n, ns !! idx = Some n /\ tr_value (nd_trace n) = v.
Definition begun_ok (ns : list CallTraceNode) (ss : StackStep) (b : u8 * bool) : Prop :=
  ss_record ss = snd b /\
  (snd b = true -> exists n st, ns !! ss_trace_idx ss = Some n /\ tr_steps (nd_trace n) !! ss_step_idx ss = Some st /\ st_op st = fst b).

Record ainv (cfg : TracingInspectorConfig) (s : TracingInspector) (R : nat) (open : list U256) (begun : list (u8 * bool))
    (no nb : nat) : Prop := {
  ai_cfg : ti_config s = cfg;
  ai_tree : arena_tree (ti_traces s);
  ai_edge : edge (ti_traces s) R;
  ai_open : Forall2 (open_ok (ti_traces s)) (ti_trace_stack s) open;
  ai_begun : Forall2 (begun_ok (ti_traces s)) (ti_step_stack s) begun;
  ai_no : length open = no;
  ai_nb : length begun = if record_steps cfg then nb else 0 }.

Lemma open_later ns ns' l o : later_arena ns ns' -> Forall2 (open_ok ns) l o -> Forall2 (open_ok ns') l o.
Proof.
  intros Hl H. eapply Forall2_impl; [exact H|]. intros i v (n & Hn & Hv). destruct (Hl _ _ Hn) as (b & Hb & Hlb). exists b. split; [done|].
  by rewrite (ln_value _ _ Hlb).
Qed.
Lemma begun_later ns ns' l o : later_arena ns ns' -> Forall2 (begun_ok ns) l o -> Forall2 (begun_ok ns') l o.
Proof.
  intros Hl H. eapply Forall2_impl; [exact H|]. intros ss b [H1 H2]. split; [done|]. intros Hb. destruct (H2 Hb) as (n & st & Hn & Hst & Ho).
  destruct (Hl _ _ Hn) as (m & Hm & Hlm). destruct (ln_steps _ _ Hlm _ _ Hst) as (y & Hy & Hs). exists m, y. split_and!; try done.
  by rewrite (ssm_op _ _ Hs).
Qed.

Lemma step_iff s e es (P A : Prop) : (P -> exists s1 r, ti_handle s e = Ok (s1, r)) ->
  (forall s1 r, ti_handle s e = Ok (s1, r) -> P /\ ((exists s', ti_run s1 es = Ok s') <-> A)) ->
  (exists s', ti_run s (e :: es) = Ok s') <-> P /\ A.
Proof.
  intros H1 H2. split.
  - intros (s' & H). unfold ti_run in H. rewrite run_cons in H. inv_bind H. destruct a as [s1 r]. destruct (H2 _ _ eq_refl) as [HP HA].
    split; [done|]. apply HA. eauto.
  - intros [HP HA]. destruct (H1 HP) as (s1 & r & E). destruct (H2 _ _ E) as [_ HA']. destruct (proj2 HA' HA) as (s' & H). exists s'.
    unfold ti_run. rewrite run_cons, E. exact H.
Qed.

(** Starting a call or create. *)
Lemma start_accepts cfg s R open begun no nb c a inp v k from g mp : ainv cfg s R open begun no nb ->
  (exists s', start_trace_on_call s c a inp v k from g mp = Ok s') <-> cx_depth c <= S R.
Proof.
  intros Hi. unfold start_trace_on_call. destruct (match ti_trace_stack s with [] => _ | _ => _ end) as [gl sp].
  rewrite <- (push_accepts (ti_traces s) (if default false mp then PushOnly else PushAndAttachToParent)
    (new_trace_of (cx_depth c) a inp v k from gl mp) R (ai_tree _ _ _ _ _ _ _ Hi) (ai_edge _ _ _ _ _ _ _ Hi)).
  split.
  - intros (s' & H). inv_bind H. eauto.
  - intros (r & ->). cbn [rbind]. by eexists.
Qed.

Lemma start_inv cfg s R open begun no nb e s1 r c a inp v k from g mp : ainv cfg s R open begun no nb ->
  ti_handle s e = Ok (s1, r) -> start_trace_on_call s c a inp v k from g mp = Ok s1 ->
  is_root_start e = (cx_depth c =? 0) -> (is_root_start e = true -> no = 0 /\ nb = 0) ->
  ainv cfg s1 (if (cx_depth c =? 0) || default false mp then R else cx_depth c) (v :: open) begun (S no) nb.
Proof.
  intros [H1 H2 H3 H4 H5 H6 H7] Hh Hs Hroot Hz. pose proof (ti_handle_tree _ _ _ _ Hh H2) as Ht1.
  pose proof (ti_handle_later _ _ _ _ Hh) as Hlater.
  unfold start_trace_on_call in Hs. destruct (match ti_trace_stack s with [] => _ | _ => _ end) as [gl sp]. inv_bind Hs.
  injection Hs as <-. cbn [ti_traces ti_trace_stack ti_step_stack ti_config] in *. rename a0 into x.
  set (t := new_trace_of (cx_depth c) a inp v k from gl mp) in *.
  pose proof (push_edge _ _ _ _ _ H2 H3 Ht1 E) as He.
  assert (Hv : open_ok (fst x) (snd x) v).
  { unfold push_trace in E. pose proof (push_trace_loop_Ok _ _ _ _ _ _ E) as Hp. inversion Hp as [n Hd Hn Ex Ei|p pn Hk Hp' Hd Ex Ei|p pn Hk Hp' Hd Ex Ei].
    - exists (nd_set_trace n t). split; [|done]. apply list_lookup_insert. by eapply lookup_lt_Some.
    - exists (mkNode (Some p) [] (length (ti_traces s)) t [] []). split; [|done].
      rewrite list_lookup_insert_ne by (apply lookup_lt_Some in Hp'; lia). rewrite lookup_app_r by lia. by rewrite Nat.sub_diag.
    - exists (mkNode (Some p) [] (length (ti_traces s)) t [] []). split; [|done]. rewrite lookup_app_r by lia. by rewrite Nat.sub_diag. }
  split; cbn [ti_traces ti_trace_stack ti_step_stack ti_config]; try done.
  - replace (tr_depth t) with (cx_depth c) in He by done. destruct (default false mp); exact He.
  - constructor; [done|]. rewrite Hroot in *. destruct (cx_depth c =? 0) eqn:Ed.
    + destruct (Hz eq_refl) as [-> _]. destruct open; [|done]. by inversion H4.
    + eapply open_later; [|exact H4]. by apply Hlater.
  - rewrite Hroot in *. destruct (cx_depth c =? 0) eqn:Ed.
    + destruct (Hz eq_refl) as [_ ->]. destruct begun; [by inversion H5|]. by destruct (record_steps cfg).
    + eapply begun_later; [|exact H5]. by apply Hlater.
  - cbn. by rewrite H6.
Qed.

(** The other hooks change no shape. *)
Lemma quiet_shape s e s' r : ti_handle s e = Ok (s', r) -> is_start e = false ->
  map shape (ti_traces s') = map shape (ti_traces s).
Proof.
  assert (Hup : forall ns i f ns', (forall n, shape (f n) = shape n) -> update ns i f = Ok ns' -> map shape ns' = map shape ns).
  { intros ns i f ns' Hf Hu. apply update_Ok in Hu as (n & Hn & ->). by eapply map_shape_insert. }
  destruct e as [i c|i c|l c|c i|c i o|c i|c i o|a b v]; cbn [ti_handle is_start]; intros H Hs; try done; inv_bind H; injection H as <- _.
  - destruct (record_steps _); [|by injection E as <-]. unfold start_step in E. do 2 inv_bind E. destruct (negb _).
    + by injection E as <-.
    + inv_bind E. injection E as <-. cbn. by eapply Hup, E2.
  - destruct (record_steps _); [|by injection E as <-]. unfold fill_step_on_step_end in E.
    destruct (ti_step_stack s) as [|[rc ti si] rest]; [done|]. destruct (negb _).
    + by injection E as <-.
    + do 4 inv_bind E. injection E as <-. cbn. by eapply Hup, E3.
  - destruct (record_logs _); [|by injection E as <-]. unfold on_last_trace in E.
    do 2 inv_bind E. injection E as <-. cbn. by eapply Hup, E1.
  - unfold fill_trace_on_call_end in E. destruct (ti_trace_stack s) as [|ti rest]; [done|].
    inv_bind E. injection E as <-. cbn. by eapply Hup, E0.
  - unfold fill_trace_on_call_end in E. destruct (ti_trace_stack s) as [|ti rest]; [done|].
    inv_bind E. injection E as <-. cbn. by eapply Hup, E0.
  - unfold on_last_trace in E. do 2 inv_bind E. injection E as <-. cbn. by eapply Hup, E1.
Qed.
Lemma quiet_inv cfg s R open begun no nb e s1 r open' begun' no' nb' : ainv cfg s R open begun no nb ->
  ti_handle s e = Ok (s1, r) -> is_start e = false ->
  Forall2 (open_ok (ti_traces s1)) (ti_trace_stack s1) open' ->
  Forall2 (begun_ok (ti_traces s1)) (ti_step_stack s1) begun' ->
  length open' = no' -> (length begun' = if record_steps cfg then nb' else 0) -> ainv cfg s1 R open' begun' no' nb'.
Proof.
  intros [H1 H2 H3 H4 H5 H6 H7] Hh Hns Ho Hb E1 E2. split; try done.
  - by rewrite (ti_handle_config _ _ _ _ Hh).
  - by eapply ti_handle_tree.
  - eapply edge_shape; [|exact H3]. symmetry. eapply quiet_shape; eauto.
Qed.

Lemma selected_op cfg op : record_steps cfg = true -> selected cfg op = should_record_opcode cfg op.
Proof. intros H. unfold selected, should_record_opcode. rewrite H. cbn [andb]. destruct (record_opcodes_filter cfg); [|done]. unfold filter_is_enabled. apply andb_comm. Qed.

Lemma update_in (ns : list CallTraceNode) i n f : ns !! i = Some n -> update ns i f = Ok (<[i := f n]> ns).
Proof. intros H. unfold update. by rewrite H. Qed.

(** An end of a call. *)
Lemma end_case cfg s R open begun no nb e es c res created : ainv cfg s R open begun no nb ->
  (forall open' begun' no' nb' s1, ainv cfg s1 R open' begun' no' nb' -> one_after_another no' nb' es ->
     (exists s', ti_run s1 es = Ok s') <-> accepted cfg R open' begun' es) ->
  (forall s1 r, ti_handle s e = Ok (s1, r) -> fill_trace_on_call_end s c res created = Ok s1) ->
  (forall s1, fill_trace_on_call_end s c res created = Ok s1 -> exists r, ti_handle s e = Ok (s1, r)) ->
  is_start e = false -> is_root_start e = false -> one_after_another (pred no) nb es ->
  (exists s', ti_run s (e :: es) = Ok s') <-> open <> [] /\ accepted cfg R (tail open) begun es.
Proof.
  intros Hi IH Hto Hfrom Hs Hr Ho. pose proof Hi as [H1 H2 H3 H4 H5 H6 H7]. apply step_iff.
  - intros Hne.
    assert (E : exists s1, fill_trace_on_call_end s c res created = Ok s1).
    { unfold fill_trace_on_call_end. destruct (ti_trace_stack s) as [|idx st]; [by inversion H4; subst|].
      inversion H4 as [|? v ? open' (n & Hn & Hv) H4' Ea Eb]; subst. rewrite (update_in _ _ _ _ Hn). by eexists. }
    destruct E as (s1 & E). destruct (Hfrom _ E) as (r & E'). eauto.
  - intros s1 r Hh. pose proof (Hto _ _ Hh) as E. unfold fill_trace_on_call_end in E.
    pose proof (ti_handle_later _ _ _ _ Hh Hr) as Hl.
    destruct (ti_trace_stack s) as [|idx st] eqn:Est; [done|]. inversion H4 as [|? v ? open' Hx H4' Ea Eb]; subst. inv_bind E.
    injection E as <-. split; [done|]. apply (IH _ _ (pred (length (v :: open'))) nb); [|exact Ho].
    eapply quiet_inv; try done.
    + cbn. eapply open_later; [exact Hl|exact H4'].
    + cbn. eapply begun_later; [exact Hl|exact H5].
Qed.

Theorem accepts cfg es : forall s R open begun no nb, ainv cfg s R open begun no nb -> one_after_another no nb es ->
  (exists s', ti_run s es = Ok s') <-> accepted cfg R open begun es.
Proof.
  induction es as [|e es IH]; intros s R open begun no nb Hi Ho.
  { split; [done|]. intros _. by exists s. }
  pose proof Hi as [H1 H2 H3 H4 H5 H6 H7]. cbn [one_after_another] in Ho. destruct Ho as [Hroot Ho].
  destruct e as [i c|i c|l c|c i|c i o|c i|c i o|a b v]; cbn [accepted is_start is_end] in *.
  - (* step *)
    destruct (record_steps cfg) eqn:Ers.
    + apply step_iff.
      * intros Hne. destruct (ti_trace_stack s) as [|idx st] eqn:Est; [by inversion H4; subst|].
        inversion H4 as [|? v ? open' (n & Hn & Hv) H4' Ea Eb]; subst. cbn [ti_handle]. rewrite Ers. unfold start_step, ti_last_trace_idx.
        rewrite Est. cbn [head expect rbind]. unfold index. rewrite Hn. cbn [rbind]. destruct (negb _); cbn [rbind]; [eauto|].
        rewrite (update_in _ _ _ _ Hn). cbn [rbind]. eauto.
      * intros s1 r Hh. pose proof (ti_handle_later _ _ _ _ Hh eq_refl) as Hl. pose proof Hh as Hh'. cbn [ti_handle] in Hh. rewrite H1, Ers in Hh.
        inv_bind Hh. injection Hh as -> _. unfold start_step, ti_last_trace_idx in E.
        destruct (ti_trace_stack s) as [|idx st] eqn:Est; [done|]. cbn [head expect rbind] in E. inversion H4 as [|? v ? open' (n & Hn & Hv) H4' Ea Eb].
        unfold index in E. rewrite Hn in E. cbn [rbind] in E. split; [done|].
        apply (IH _ _ _ _ no (S nb)); [|exact Ho]. eapply quiet_inv; try done.
        -- assert (Es : ti_trace_stack s1 = idx :: st).
           { destruct (negb _); [by injection E as <-|]. inv_bind E. by injection E as <-. }
           rewrite Es, Eb. eapply open_later; [exact Hl|exact H4].
        -- assert (Es : ti_step_stack s1 = mkStackStep (should_record_opcode (ti_config s) (in_op i)) idx (length (tr_steps (nd_trace n))) :: ti_step_stack s).
           { destruct (negb _); [by injection E as <-|]. inv_bind E. by injection E as <-. }
           rewrite Es. constructor; [|eapply begun_later; [exact Hl|exact H5]]. split; cbn [ss_record snd fst ss_trace_idx ss_step_idx].
           ++ by rewrite H1, selected_op.
           ++ rewrite (selected_op _ _ Ers), <- H1. intros Hsel. rewrite Hsel in E. cbn [negb] in E. rewrite (update_in _ _ _ _ Hn) in E.
              cbn [rbind] in E. injection E as <-. cbn [ti_traces].
              exists (push_step (new_step (ti_config s) (last (tr_steps (nd_trace n))) i c) n), (new_step (ti_config s) (last (tr_steps (nd_trace n))) i c).
              split_and!; [apply list_lookup_insert; by eapply lookup_lt_Some| |done]. cbn. rewrite lookup_app_r by lia. by rewrite Nat.sub_diag.
        -- by rewrite Eb.
        -- cbn. rewrite Ers. congruence.
    + rewrite <- (left_id True and (accepted cfg R open begun es)). apply step_iff.
      * intros _. cbn [ti_handle]. rewrite H1, Ers. cbn [rbind]. eauto.
      * intros s1 r Hh. cbn [ti_handle] in Hh. rewrite H1, Ers in Hh. cbn [rbind] in Hh. injection Hh as <- _. split; [done|].
        apply (IH _ _ _ _ no (S nb)); [|exact Ho]. split; try done. by rewrite Ers.
  - (* step_end *)
    destruct (record_steps cfg) eqn:Ers.
    + destruct begun as [|[op rec] begun].
      { split; [|done]. intros (s' & H). unfold ti_run in H. rewrite run_cons in H. inv_bind H. cbn [ti_handle] in E. rewrite H1, Ers in E.
        unfold fill_step_on_step_end in E. inversion H5 as [Ea|]. by rewrite <- Ea in E. }
      inversion H5 as [|ss ? rest ? [Hrec Hstep] H5' Ea Eb]. subst. cbn [fst snd] in *. apply step_iff.
      * intros Hok. cbn [ti_handle]. rewrite Ers. unfold fill_step_on_step_end. rewrite <- Ea. destruct ss as [rc ti si]. cbn [ss_record] in *.
        rewrite Hrec. destruct rec; cbn [negb]; [|cbn [rbind]; eauto].
        destruct (Hstep eq_refl) as (n & st & Hn & Hst & Hop). cbn in Hn, Hst. unfold index. rewrite Hn. cbn [rbind]. rewrite Hst. cbn [rbind].
        destruct (proj2 (fill_step_accepts (ti_config s) i c st)) as (st' & ->); [rewrite Hop; by apply Hok|]. cbn [rbind].
        rewrite (update_in _ _ _ _ Hn). cbn [rbind]. eauto.
      * intros s1 r Hh. pose proof (ti_handle_later _ _ _ _ Hh eq_refl) as Hl. pose proof Hh as Hh'. cbn [ti_handle] in Hh. rewrite Ers in Hh.
        inv_bind Hh. injection Hh as -> _. unfold fill_step_on_step_end in E. rewrite <- Ea in E. destruct ss as [rc ti si]. cbn [ss_record] in *.
        split.
        -- intros Hr. destruct (Hstep Hr) as (n & st & Hn & Hst & Hop). cbn in Hn, Hst. rewrite Hrec, Hr in E. cbn [negb] in E. unfold index in E.
           rewrite Hn in E. cbn [rbind] in E. rewrite Hst in E. cbn [rbind] in E. inv_bind E. rewrite <- Hop. apply fill_step_accepts. eauto.
        -- assert (Es : ti_step_stack s1 = rest /\ ti_trace_stack s1 = ti_trace_stack s).
           { destruct (negb _); [by injection E as <-|]. do 4 inv_bind E. by injection E as <-. }
           destruct Es as [Es Et]. apply (IH _ _ _ _ (length open) (pred (length ((op, rec) :: begun)))); [|exact Ho]. eapply quiet_inv; try done.
           ++ rewrite Et. eapply open_later; [exact Hl|exact H4].
           ++ rewrite Es. eapply begun_later; [exact Hl|exact H5'].
           ++ by rewrite Ers.
    + rewrite <- (left_id True and (accepted cfg R open begun es)). apply step_iff.
      * intros _. cbn [ti_handle]. rewrite H1, Ers. cbn [rbind]. eauto.
      * intros s1 r Hh. cbn [ti_handle] in Hh. rewrite H1, Ers in Hh. cbn [rbind] in Hh. injection Hh as <- _. split; [done|].
        apply (IH _ _ _ _ no (pred nb)); [|exact Ho]. split; try done. by rewrite Ers.
  - (* log *)
    apply step_iff.
    + intros Hne. cbn [ti_handle]. rewrite H1. destruct (record_logs cfg); [|cbn [rbind]; eauto]. unfold on_last_trace, ti_last_trace_idx.
      inversion H4 as [Ea Eb|idx v st open' (n & Hn & Hv) H4' Ea Eb]; [exfalso; apply Hne; done|]. cbn [head expect rbind].
      rewrite (update_in _ _ _ _ Hn). cbn [rbind]. eauto.
    + intros s1 r Hh. pose proof (ti_handle_later _ _ _ _ Hh eq_refl) as Hl. pose proof Hh as Hh'. cbn [ti_handle] in Hh. rewrite H1 in Hh. inv_bind Hh.
      injection Hh as -> _.
      assert (Es : ti_step_stack s1 = ti_step_stack s /\ ti_trace_stack s1 = ti_trace_stack s /\ (record_logs cfg = true -> open <> [])).
      { destruct (record_logs cfg); [|by injection E as <-]. unfold on_last_trace, ti_last_trace_idx in E. inv_bind E. inv_bind E. injection E as <-.
        split_and!; try done. intros _ ->. by inversion H4 as [Ea|]; rewrite <- Ea in E0. }
      destruct Es as (Es & Et & Hne). split; [done|]. apply (IH _ _ _ _ no nb); [|exact Ho]. eapply quiet_inv; try done.
      * rewrite Et. eapply open_later; [exact Hl|exact H4].
      * rewrite Es. eapply begun_later; [exact Hl|exact H5].
  - (* call *)
    assert (Hval : exists from to, call_from_to i = (from, to) /\ ti_handle s (ECall c i) =
      (let! s' := start_trace_on_call s c to (ci_input i) (passed_value open i) (kind_of_scheme (ci_scheme i)) from (ci_gas_limit i)
        (if exclude_precompile_calls cfg then Some (ti_is_precompile_call s c to (passed_value open i)) else None) in Ok (s', RCall i None)) /\
      default false (if exclude_precompile_calls cfg then Some (ti_is_precompile_call s c to (passed_value open i)) else None) = left_out cfg c open i).
    { destruct (call_from_to i) as [from to] eqn:Eft. exists from, to. split; [done|]. split.
      - cbn [ti_handle]. unfold ti_call. rewrite Eft, H1. unfold passed_value, ti_active_trace.
        destruct (ci_scheme i); cbn [rbind]; try done.
        inversion H4 as [Ea Eb|idx v st open' (n & Hn & Hv) H4' Ea Eb]; cbn [rbind]; [done|]. unfold index. rewrite Hn. cbn [rbind]. by rewrite Hv.
      - unfold left_out, ti_is_precompile_call, ti_is_deep. rewrite Eft. cbn [snd]. destruct (exclude_precompile_calls cfg); [|done]. cbn [default].
        inversion H4; subst; destruct (cx_precompiles c to); done. }
    destruct Hval as (from & to & Eft & Eh & Emp). apply step_iff.
    + intros Hd. eapply (start_accepts _ _ _ _ _ _ _ _ to) in Hi as [_ Hi]. destruct (Hi Hd) as (s1 & E). rewrite Eh, E. cbn [rbind]. eauto.
    + intros s1 r Hh. pose proof Hh as Hh'. rewrite Eh in Hh. inv_bind Hh. injection Hh as -> _. split.
      * eapply start_accepts; [exact Hi|]. eauto.
      * apply (IH _ _ _ _ (S no) nb); [|exact Ho]. rewrite <- Emp. eapply start_inv; [exact Hi|exact Hh'|exact E|done|done].
  - (* call_end *)
    eapply end_case; [exact Hi| | | |done|done|exact Ho].
    + intros. by eapply IH.
    + intros s1 r Hh. cbn [ti_handle] in Hh. inv_bind Hh. by injection Hh as -> _.
    + intros s1 E. cbn [ti_handle]. rewrite E. cbn [rbind]. eauto.
  - (* create *)
    apply step_iff.
    + intros Hd. cbn [ti_handle]. unfold ti_create. eapply (start_accepts _ _ _ _ _ _ _ _ (cr_created_address i)) in Hi as [_ Hi].
      destruct (Hi Hd) as (s1 & E). rewrite E. cbn [rbind]. eauto.
    + intros s1 r Hh. pose proof Hh as Hh'. cbn [ti_handle] in Hh. inv_bind Hh. injection Hh as -> _. unfold ti_create in E. split.
      * eapply start_accepts; [exact Hi|]. eauto.
      * apply (IH _ _ _ _ (S no) nb); [|exact Ho].
        pose proof (start_inv _ _ _ _ _ _ _ (ECreate c i) _ _ _ _ _ _ _ _ _ _ Hi Hh' E eq_refl Hroot) as G.
        cbn [default] in G. by rewrite orb_false_r in G.
  - (* create_end *)
    eapply end_case; [exact Hi| | | |done|done|exact Ho].
    + intros. by eapply IH.
    + intros s1 r Hh. cbn [ti_handle] in Hh. inv_bind Hh. by injection Hh as -> _.
    + intros s1 E. cbn [ti_handle]. rewrite E. cbn [rbind]. eauto.
  - (* selfdestruct *)
    apply step_iff.
    + intros Hne. cbn [ti_handle]. unfold on_last_trace, ti_last_trace_idx.
      inversion H4 as [Ea Eb|idx w st open' (n & Hn & Hv) H4' Ea Eb]; [exfalso; apply Hne; done|]. cbn [head expect rbind].
      rewrite (update_in _ _ _ _ Hn). cbn [rbind]. eauto.
    + intros s1 r Hh. pose proof (ti_handle_later _ _ _ _ Hh eq_refl) as Hl. pose proof Hh as Hh'. cbn [ti_handle] in Hh. inv_bind Hh.
      injection Hh as -> _.
      assert (Es : ti_step_stack s1 = ti_step_stack s /\ ti_trace_stack s1 = ti_trace_stack s /\ (open <> [])).
      { unfold on_last_trace, ti_last_trace_idx in E. inv_bind E. inv_bind E. injection E as <-.
        split_and!; try done. intros ->. by inversion H4 as [Ea|]; rewrite <- Ea in E0. }
      destruct Es as (Es & Et & Hne). split; [done|]. apply (IH _ _ _ _ no nb); [|exact Ho]. eapply quiet_inv; try done.
      * rewrite Et. eapply open_later; [exact Hl|exact H4].
      * rewrite Es. eapply begun_later; [exact Hl|exact H5].
Qed.

Lemma ainv_new cfg : ainv cfg (ti_new cfg) 0 [] [] 0 0.
Proof.
  split; try done; [apply arena_tree_default| |by constructor|by constructor|by destruct (record_steps cfg)].
  exists [], 0. by eexists.
Qed.
