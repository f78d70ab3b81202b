(** * InterruptProofs: the records of ended calls, and the reports made of them, do not change any more *)

From Verif Require Export SpecInterrupt HistoryProofs ParityProofs EofProofs.
From Verif Require Import PropertiesRecord OptionProofs.

(** ** Instructions are not interrupted by calls *)

Fixpoint calm (mid : bool) (es : list event) : Prop :=
  match es with
  | [] => True
  | EStep _ _ :: es => mid = false /\ calm true es
  | EStepEnd _ _ :: es => mid = true /\ calm false es
  | (ELog _ _ | ESelfdestruct _ _ _) :: es => calm mid es
  | _ :: es => mid = false /\ calm false es
  end.
Lemma calm_hooks w d hs mid es : calm mid es -> calm mid (map (hook_event w d) hs ++ es).
Proof. intros H. induction hs as [|h hs IH]; [done|]. by destruct h. Qed.
Lemma calm_frame w f : forall d es, calm false es -> calm false (frame_events w d f ++ es).
Proof.
  induction f as [s body e IH] using frame_ind'. intros d es H. cbn [frame_events]. rewrite <- app_comm_cons, <- app_assoc.
  assert (Hb : calm false (flat_map (item_events w (S d)) body ++ [end_event w d s e] ++ es)).
  { assert (He : calm false ([end_event w d s e] ++ es)) by by destruct s.
    revert He. generalize ([end_event w d s e] ++ es). intros tl He. clear H.
    induction body as [|[i|h|g] r IHr]; [done|..]; cbn [flat_map subs] in *; rewrite <- app_assoc.
    - unfold instr_events. rewrite <- app_comm_cons, <- app_assoc. split; [done|]. apply calm_hooks. split; [done|]. by apply IHr.
    - apply (calm_hooks w (S d) [h]). by apply IHr.
    - apply Forall_cons in IH as [Hg IH]. apply Hg. by apply IHr. }
  by destruct s.
Qed.
Lemma calm_app es1 es2 : forall mid, calm mid (es1 ++ es2) -> exists mid', calm mid' es2.
Proof.
  induction es1 as [|e es1 IH]; intros mid H; [eauto|]. destruct e; cbn in H; first [destruct H as [_ H]; by eapply IH|by eapply IH].
Qed.

(** The instruction in progress belongs to an open call. *)
Definition in_step (mid : bool) (s : TracingInspector) : Prop :=
  match ti_step_stack s with
  | [] => True
  | [x] => record_steps (ti_config s) = true /\ mid = true /\ ss_trace_idx x ∈ ti_trace_stack s
  | _ => False
  end.

Definition next_mid (mid : bool) (e : event) : bool :=
  match e with EStep _ _ => true | ELog _ _ | ESelfdestruct _ _ _ => mid | _ => false end.
Lemma calm_cons mid e es : calm mid (e :: es) -> calm (next_mid mid e) es.
Proof. destruct e; cbn; tauto. Qed.

Lemma start_trace_same s c a inp v kd from g mp s1 : start_trace_on_call s c a inp v kd from g mp = Ok s1 ->
  ti_step_stack s1 = ti_step_stack s.
Proof. intros H. unfold start_trace_on_call in H. destruct (match ti_trace_stack s with [] => _ | _ => _ end). inv_bind H. by injection H as <-. Qed.
Lemma fill_same s c r cr s1 : fill_trace_on_call_end s c r cr = Ok s1 -> ti_step_stack s1 = ti_step_stack s.
Proof. intros H. unfold fill_trace_on_call_end in H. destruct (ti_trace_stack s); [done|]. inv_bind H. by injection H as <-. Qed.
Lemma on_last_same s f s1 : on_last_trace s f = Ok s1 -> ti_step_stack s1 = ti_step_stack s /\ ti_trace_stack s1 = ti_trace_stack s.
Proof. intros H. unfold on_last_trace in H. inv_bind H. inv_bind H. by injection H as <-. Qed.

Lemma handle_in_step mid s e s' r es : ti_handle s e = Ok (s', r) -> calm mid (e :: es) -> in_step mid s -> in_step (next_mid mid e) s'.
Proof.
  intros H Hc Hi. pose proof (ti_handle_config _ _ _ _ H) as Hcfg. unfold in_step in *. rewrite Hcfg. clear Hcfg.
  destruct e as [i c|i c|l c|c i|c i o|c i|c i o|a b v]; cbn [ti_handle calm next_mid] in *; inv_bind H; injection H as <- _.
  - destruct Hc as [-> _]. destruct (record_steps _); [|injection E as <-; destruct (ti_step_stack s) as [|x [|? ?]]; naive_solver].
    unfold start_step in E. inv_bind E. inv_bind E. unfold ti_last_trace_idx in E0.
    destruct (ti_trace_stack s) as [|j rest] eqn:Es; [done|]. injection E0 as <-.
    destruct (ti_step_stack s) as [|x [|? ?]] eqn:Ess; [|naive_solver|done].
    destruct (negb _); [injection E as <-|inv_bind E; injection E as <-]; cbn; rewrite ?Ess, ?Es; (split; [done|split; [done|constructor]]).
  - destruct (record_steps (ti_config s)) eqn:Er.
    + unfold fill_step_on_step_end in E. destruct (ti_step_stack s) as [|[rec ti si] [|? ?]]; [done| |done].
      destruct (negb _); [by injection E as <-|]. do 4 inv_bind E. by injection E as <-.
    + injection E as <-. destruct (ti_step_stack s) as [|x [|? ?]]; naive_solver.
  - destruct (record_logs _); [|by injection E as <-]. apply on_last_same in E as [-> ->]. done.
  - destruct Hc as [-> _]. unfold ti_call in E. destruct (call_from_to i). inv_bind E. apply start_trace_same in E as ->.
    destruct (ti_step_stack s) as [|x [|? ?]]; naive_solver.
  - destruct Hc as [-> _]. apply fill_same in E as ->. destruct (ti_step_stack s) as [|x [|? ?]]; naive_solver.
  - destruct Hc as [-> _]. apply start_trace_same in E as ->. destruct (ti_step_stack s) as [|x [|? ?]]; naive_solver.
  - destruct Hc as [-> _]. apply fill_same in E as ->. destruct (ti_step_stack s) as [|x [|? ?]]; naive_solver.
  - apply on_last_same in E as [-> ->]. done.
Qed.

(** ** What one hook call touches *)

Lemma update_other {A} (l l' : list A) i f j : update l i f = Ok l' -> j <> i -> l' !! j = l !! j.
Proof. intros H Hj. apply update_Ok in H as (n & Hn & ->). by rewrite list_lookup_insert_ne. Qed.

Lemma start_trace_touches s c a inp v kd from g mp s1 : start_trace_on_call s c a inp v kd from g mp = Ok s1 ->
  cx_depth c <> 0 ->
  exists p n, ti_traces s1 !! length (ti_traces s) = Some n /\ nd_parent n = Some p /\
    ti_trace_stack s1 = length (ti_traces s) :: ti_trace_stack s /\ length (ti_traces s1) = S (length (ti_traces s)) /\
    forall j, j < length (ti_traces s) -> j <> p -> ti_traces s1 !! j = ti_traces s !! j.
Proof.
  intros H Hd. unfold start_trace_on_call in H. destruct (match ti_trace_stack s with [] => _ | _ => _ end). inv_bind H.
  injection H as <-. cbn [ti_traces ti_trace_stack]. apply push_trace_Ok in E.
  destruct E as [n0 H0 _|p pn Hk Hp Hdp|p pn Hk Hp Hdp]; [done|..].
  - exists p. eexists. rewrite list_lookup_insert_ne by (apply lookup_lt_Some in Hp; lia).
    rewrite lookup_app_r, Nat.sub_diag by lia. split; [done|]. split; [done|]. split; [done|].
    rewrite insert_length, app_length. cbn. split; [lia|]. intros j Hj Hne. rewrite list_lookup_insert_ne by done.
    by rewrite lookup_app_l.
  - exists p. eexists. rewrite lookup_app_r, Nat.sub_diag by lia. split; [done|]. split; [done|]. split; [done|].
    rewrite app_length. cbn. split; [lia|]. intros j Hj Hne. by rewrite lookup_app_l.
Qed.

(** Whatever is not open keeps its record through a hook call; a new call has to come from an open one. *)
Lemma handle_untouched mid s e s' r es : ti_handle s e = Ok (s', r) -> calm mid (e :: es) -> in_step mid s -> is_root_start e = false ->
  (is_start e = true -> exists n p, ti_traces s' !! length (ti_traces s) = Some n /\ nd_parent n = Some p /\
     (p ∈ ti_trace_stack s -> forall j, j < length (ti_traces s) -> j ∉ ti_trace_stack s -> ti_traces s' !! j = ti_traces s !! j)) /\
  (is_start e = false -> forall j, j ∉ ti_trace_stack s -> ti_traces s' !! j = ti_traces s !! j) /\
  length (ti_traces s') = (if is_start e then S (length (ti_traces s)) else length (ti_traces s)) /\
  ti_trace_stack s' = (if is_start e then length (ti_traces s) :: ti_trace_stack s else if is_end e then tail (ti_trace_stack s) else ti_trace_stack s).
Proof.
  intros H Hc Hi Hr.
  assert (Hlast : forall f s1, on_last_trace s f = Ok s1 -> (forall j, j ∉ ti_trace_stack s -> ti_traces s1 !! j = ti_traces s !! j) /\
    length (ti_traces s1) = length (ti_traces s) /\ ti_trace_stack s1 = ti_trace_stack s).
  { intros f s1 HE. unfold on_last_trace in HE. inv_bind HE. inv_bind HE. injection HE as <-. cbn.
    unfold ti_last_trace_idx in E. destruct (ti_trace_stack s) as [|k rest]; [done|]. injection E as <-.
    split; [|by rewrite (update_length _ _ _ _ E0)]. intros j Hj. eapply update_other; [done|]. intros ->. apply Hj. constructor. }
  assert (Hfill : forall c r cr s1, fill_trace_on_call_end s c r cr = Ok s1 -> (forall j, j ∉ ti_trace_stack s -> ti_traces s1 !! j = ti_traces s !! j) /\
    length (ti_traces s1) = length (ti_traces s) /\ ti_trace_stack s1 = tail (ti_trace_stack s)).
  { intros c r0 cr s1 HE. unfold fill_trace_on_call_end in HE. destruct (ti_trace_stack s) as [|k rest]; [done|].
    inv_bind HE. injection HE as <-. cbn. split; [|by rewrite (update_length _ _ _ _ E)].
    intros j Hj. eapply update_other; [done|]. intros ->. apply Hj. constructor. }
  unfold in_step in Hi.
  destruct e as [i c|i c|l c|c i|c i o|c i|c i o|a b v]; cbn [ti_handle calm is_start is_end is_root_start] in *; inv_bind H; injection H as <- _.
  - split; [done|]. destruct (record_steps _); [|by injection E as <-]. unfold start_step in E.
    inv_bind E. inv_bind E. unfold ti_last_trace_idx in E0. destruct (ti_trace_stack s) as [|k rest] eqn:Es; [done|]. injection E0 as <-.
    destruct (negb _); [injection E as <-; cbn; done|]. inv_bind E. injection E as <-. cbn.
    split; [|by rewrite (update_length _ _ _ _ E0)]. intros _ j Hj. eapply update_other; [done|]. intros ->. apply Hj. constructor.
  - split; [done|]. destruct (record_steps _); [|by injection E as <-]. unfold fill_step_on_step_end in E.
    destruct (ti_step_stack s) as [|[rc ti si] [|? ?]]; [done| |done]. destruct Hi as (_ & _ & Hin). cbn in Hin.
    destruct (negb _); [by injection E as <-|]. do 4 inv_bind E. injection E as <-. cbn.
    split; [|by rewrite (update_length _ _ _ _ E3)]. intros _ j Hj. eapply update_other; [done|]. by intros ->.
  - split; [done|]. destruct (record_logs _); [|by injection E as <-]. apply Hlast in E as (H1 & H2). by split.
  - unfold ti_call in E. destruct (call_from_to i). inv_bind E. apply start_trace_touches in E as (p & nn & Hn & Hp & Hs & Hl & Hj); [|by apply Nat.eqb_neq].
    split; [|done]. intros _. exists nn, p. split; [done|]. split; [done|]. intros Hin j Hlt Hnot. apply Hj; [done|]. by intros ->.
  - split; [done|]. apply Hfill in E as (H1 & H2). by split.
  - apply start_trace_touches in E as (p & nn & Hn & Hp & Hs & Hl & Hj); [|by apply Nat.eqb_neq].
    split; [|done]. intros _. exists nn, p. split; [done|]. split; [done|]. intros Hin j Hlt Hnot. apply Hj; [done|]. by intros ->.
  - split; [done|]. apply Hfill in E as (H1 & H2). by split.
  - split; [done|]. apply Hlast in E as (H1 & H2). by split.
Qed.

Lemma rest_untouched es : forall mid s s2, ti_run s es = Ok s2 -> calm mid es -> in_step mid s ->
  Forall (fun e => is_root_start e = false) es ->
  map nd_parent (drop (length (ti_traces s)) (ti_traces s2)) = map head (in_progress (ti_trace_stack s) (length (ti_traces s)) es) ->
  forall j, j < length (ti_traces s) -> j ∉ ti_trace_stack s -> ti_traces s2 !! j = ti_traces s !! j.
Proof.
  induction es as [|e es IH]; intros mid s s2 Hrun Hc Hi Hnr Hpar j Hlt Hnot.
  - by injection Hrun as <-.
  - apply Forall_cons in Hnr as [Hr Hnr]. unfold ti_run in Hrun. rewrite run_cons in Hrun.
    destruct (ti_handle s e) as [[s' r]| |] eqn:E; [|done..]. cbn [rbind fst] in Hrun.
    pose proof (handle_in_step _ _ _ _ _ _ E Hc Hi) as Hi'. pose proof (calm_cons _ _ _ Hc) as Hc'.
    destruct (handle_untouched _ _ _ _ _ _ E Hc Hi Hr) as (Hs & Hns & Hl & Hst).
    assert (Hlater : later_arena (ti_traces s') (ti_traces s2)) by (by eapply ti_run_later).
    cbn [in_progress] in Hpar. destruct (is_start e) eqn:Hse.
    + destruct (Hs eq_refl) as (n & p & Hn & Hp & Hu). destruct (Hlater _ _ Hn) as (n2 & Hn2 & Hl2).
      pose proof (drop_S _ _ _ Hn2) as Hd. rewrite Hd in Hpar. cbn [map] in Hpar. injection Hpar as Hpn Hpar.
      rewrite (ln_parent _ _ Hl2), Hp in Hpn.
      assert (Hin : p ∈ ti_trace_stack s).
      { destruct (ti_trace_stack s); [done|]. injection Hpn as ->. constructor. }
      rewrite <- (Hu Hin j Hlt Hnot). apply (IH _ _ _ Hrun Hc' Hi' Hnr).
      * by rewrite Hl, Hst.
      * lia.
      * rewrite Hst. apply not_elem_of_cons. split; [lia|done].
    + rewrite <- (Hns eq_refl j Hnot). apply (IH _ _ _ Hrun Hc' Hi' Hnr).
      * rewrite Hl, Hst. done.
      * lia.
      * rewrite Hst. destruct (is_end e); [|done]. destruct (ti_trace_stack s); [done|]. by apply not_elem_of_cons in Hnot as [_ ?].
Qed.

Lemma in_progress_app es1 es2 : forall o n,
  in_progress o n (es1 ++ es2) = in_progress o n es1 ++ in_progress (unended o n es1) (n + length (List.filter is_start es1)) es2.
Proof.
  induction es1 as [|e es1 IH]; intros o n; cbn [app in_progress unended List.filter length]; [by rewrite Nat.add_0_r|].
  destruct (is_start e); cbn [app length].
  - f_equal. rewrite IH. f_equal. f_equal. lia.
  - destruct (is_end e); apply IH.
Qed.
Lemma in_progress_length es : forall o n, length (in_progress o n es) = length (List.filter is_start es).
Proof. induction es as [|e es IH]; intros o n; [done|]. cbn. destruct (is_start e); cbn; by rewrite IH. Qed.

Lemma run_in_step es1 es2 : forall mid s s', ti_run s es1 = Ok s' -> calm mid (es1 ++ es2) -> in_step mid s ->
  exists mid', calm mid' es2 /\ in_step mid' s'.
Proof.
  induction es1 as [|e es1 IH]; intros mid s s' H Hc Hi; [injection H as <-; eauto|].
  unfold ti_run in H. rewrite run_cons in H. destruct (ti_handle s e) as [[s1 r]| |] eqn:E; [|done..]. cbn [rbind fst] in H.
  eapply IH; [done|by eapply calm_cons|]. by eapply handle_in_step.
Qed.

(** ** The records of ended calls are final *)
Lemma ended_final cfg w f es1 es2 s1 s2 i :
  env_ok cfg w f -> tx_events w f = es1 ++ es2 -> ti_run (ti_new cfg) es1 = Ok s1 -> ti_run (ti_new cfg) (tx_events w f) = Ok s2 ->
  i < length (List.filter is_start es1) -> i ∉ unended [] 0 es1 -> ti_traces s2 !! i = ti_traces s1 !! i.
Proof.
  intros Henv Heq H1 H2 Hi Hnot.
  assert (Hne : es1 <> []) by (intros ->; cbn in Hi; lia).
  destruct (tx_interrupted cfg w f es1 es2 Henv Heq Hne) as (s1' & s2' & H1' & H2' & _ & Hl).
  rewrite H1 in H1'. injection H1' as <-. rewrite H2 in H2'. injection H2' as <-.
  destruct (tx_opened cfg w f es1 es2 s1 Heq H1) as [Hst _].
  assert (Hcalm : calm false (es1 ++ es2)).
  { rewrite <- Heq. unfold tx_events. rewrite <- (app_nil_r (frame_events w 0 f)). by apply calm_frame. }
  destruct (run_in_step _ _ _ _ _ H1 Hcalm) as (mid & Hc2 & Hi2); [done|].
  pose proof (tx_no_root w f) as Hnr. destruct es1 as [|e0 es1]; [done|]. rewrite Heq in Hnr. cbn [app tail] in Hnr. apply Forall_app in Hnr as [_ Hnr].
  eapply rest_untouched; [|exact Hc2|exact Hi2|exact Hnr| |by rewrite Hl|by rewrite Hst].
  - rewrite Heq in H2. unfold ti_run in *. rewrite run_app, H1 in H2. exact H2.
  - assert (Hpar : map nd_parent (ti_traces s2) = map head (in_progress [] 0 (tx_events w f))).
    { unfold tx_events. rewrite <- (app_nil_r (frame_events w 0 f)). rewrite in_progress_frame. cbn [head in_progress map]. rewrite app_nil_r.
      destruct (C01_arena_is_call_tree cfg w f Henv) as (s2' & Hr & _ & Hlen & Hall). rewrite H2 in Hr. injection Hr as <-.
      apply list_eq. intros k. rewrite !list_lookup_fmap.
      destruct (entered None 0 0 f !! k) as [[[par d] g]|] eqn:Ek.
      - destruct (Hall _ _ _ _ Ek) as (n & Hn & _ & Hp & _). rewrite Hn. cbn. by rewrite Hp.
      - apply lookup_ge_None in Ek. rewrite lookup_ge_None_2 by lia. done. }
    rewrite Heq, in_progress_app, map_app in Hpar. rewrite Hl, Hst. apply (f_equal (drop (length (List.filter is_start (e0 :: es1))))) in Hpar.
    rewrite drop_app_alt in Hpar by (by rewrite map_length, in_progress_length). rewrite Nat.add_0_l in Hpar. rewrite <- Hpar. by rewrite skipn_map.
Qed.

(** ** Addresses do not change either *)

Lemma follow_later ns1 ns2 a : later_arena ns1 ns2 -> forall i j, follow ns1 i a = Some j -> follow ns2 i a = Some j.
Proof.
  intros Hl. induction a as [|k a IH]; intros i j; [done|]. cbn [follow].
  destruct (ns1 !! i) as [n|] eqn:Hn; [|done]. destruct (Hl _ _ Hn) as (n2 & Hn2 & H2). rewrite Hn2.
  destruct (ln_children _ _ H2) as (more & Hc). rewrite Hc.
  destruct (nd_children n !! k) as [c|] eqn:Hk; [|done].
  rewrite lookup_app_l by (by eapply lookup_lt_Some). rewrite Hk. apply IH.
Qed.

Lemma about_iff ns i n e : tree_inv ns -> ns !! i = Some n ->
  (In e (parity_list ns) /\ about ns i e) <-> (nd_is_precompile n = false /\ In e (node_items ns n)).
Proof.
  intros Hinv Hn. pose proof (at_idx _ (inv_tree _ Hinv) _ _ Hn) as Hidx. split.
  - intros [Hin Hab]. unfold parity_list in Hin. apply in_flat_map in Hin as (m & Hm & He).
    assert (Hown : owns ns (tt_address e) (nd_idx m)) by (apply item_owner; [done|done|by apply in_map]).
    assert (Hi : owns ns (tt_address e) i).
    { destruct Hab as [H|(a & n' & Ha & Hn' & Hadd)]; [by left|]. right. rewrite Hadd. rewrite Hn in Hn'. injection Hn' as <-.
      split; [|by do 2 eexists]. rewrite follow_app, Ha. cbn. rewrite Hn. by rewrite (proj2 (lookup_ge_None _ _)). }
    pose proof (owns_fun _ _ _ _ Hown Hi) as Heq. apply (shown_In _ Hinv) in Hm as (j & Hj & Hj' & Hp). rewrite Heq in Hj'. rewrite <- Hj', Hn in Hj. by injection Hj as <-.
  - intros [Hp He]. split.
    + unfold parity_list. apply in_flat_map. exists n. split; [|done]. apply (shown_In _ Hinv). eauto.
    + assert (Hin : In (tt_address e) (item_addresses ns n)) by (by apply in_map). rewrite item_addresses_eq in Hin.
      pose proof (addr_follow _ Hinv _ _ Hn Hp) as Hf. rewrite Hidx in Hin. destruct Hin as [Hin|Hin]; [left; by rewrite <- Hin|].
      destruct (nd_is_selfdestruct n); [|done]. destruct Hin as [Hin|[]]. right. eauto.
Qed.

Lemma node_items_later ns1 ns2 i n : tree_inv ns1 -> tree_inv ns2 -> later_arena ns1 ns2 -> ns1 !! i = Some n -> ns2 !! i = Some n ->
  nd_is_precompile n = false -> node_items ns1 n = node_items ns2 n.
Proof.
  intros H1 H2 Hl Hn1 Hn2 Hp. unfold node_items. do 2 f_equal. rewrite (at_idx _ (inv_tree _ H1) _ _ Hn1).
  pose proof (addr_follow _ H1 _ _ Hn1 Hp) as Hf. apply (follow_later _ _ _ Hl) in Hf.
  pose proof (trace_address_follow _ H2 _ _ Hf) as Ha. rewrite (trace_address_ok _ H2 i) in Ha by (by eapply lookup_lt_Some). by injection Ha.
Qed.

(** ** Until the last hook call the transaction's own call has not ended *)

Lemma unended_app es1 es2 : forall o n, unended o n (es1 ++ es2) = unended (unended o n es1) (n + length (List.filter is_start es1)) es2.
Proof.
  induction es1 as [|e es1 IH]; intros o n; cbn [app unended List.filter length]; [by rewrite Nat.add_0_r|].
  destruct (is_start e); cbn [length]; [rewrite IH; f_equal; lia|]. destruct (is_end e); apply IH.
Qed.

(** After a part of [es] the calls open before are still open; after all of [es] nothing else is. *)
Definition keeps_open (es : list event) : Prop :=
  (forall p q o n, es = p ++ q -> exists k, unended o n p = k ++ o) /\ (forall o n, unended o n es = o).
Lemma keeps_nil : keeps_open [].
Proof. split; [|done]. intros p q o n H. symmetry in H. apply app_nil in H as [-> _]. by exists []. Qed.
Lemma keeps_app a b : keeps_open a -> keeps_open b -> keeps_open (a ++ b).
Proof.
  intros [Ha Ha'] [Hb Hb']. split.
  - intros p q o n H. destruct (app_eq_app _ _ _ _ H) as (l & [[-> ->]|[-> ->]]).
    + by eapply Ha.
    + rewrite unended_app, Ha'. by eapply Hb.
  - intros o n. by rewrite unended_app, Ha', Hb'.
Qed.
Lemma keeps_one e : is_start e = false -> is_end e = false -> keeps_open [e].
Proof.
  intros H1 H2. split; [|intros; cbn; by rewrite H1, H2].
  intros [|x p] q o n H; [by exists []|]. injection H as <- H. symmetry in H. apply app_nil in H as [-> _]. cbn. rewrite H1, H2. by exists [].
Qed.
Lemma keeps_hooks w d hs : keeps_open (map (hook_event w d) hs).
Proof. induction hs as [|h hs IH]; [apply keeps_nil|]. apply (keeps_app [_]); [by apply keeps_one; destruct h|done]. Qed.
Lemma keeps_frame w f : forall d, keeps_open (frame_events w d f).
Proof.
  induction f as [s body e IH] using frame_ind'. intros d. cbn [frame_events].
  assert (Hb : keeps_open (flat_map (item_events w (S d)) body)).
  { induction body as [|[i|h|g] r IHr]; [apply keeps_nil|..]; cbn [flat_map subs] in *; (apply keeps_app; [|try by apply IHr]).
    - unfold instr_events. apply (keeps_app [_]); [by apply keeps_one|]. apply keeps_app; [apply keeps_hooks|by apply keeps_one].
    - apply (keeps_hooks w (S d) [h]).
    - apply Forall_cons in IH as [Hg _]. apply Hg.
    - apply IHr. by apply Forall_cons in IH as [_ IH]. }
  assert (Hs : is_start (start_event w d s) = true) by by destruct s.
  assert (He : is_start (end_event w d s e) = false /\ is_end (end_event w d s e) = true) by by destruct s. destruct He as [He1 He2].
  destruct Hb as [Hb Hb']. split.
  - intros [|x p] q o n H; [by exists []|]. injection H as <- H. cbn [unended]. rewrite Hs.
    destruct (app_eq_app _ _ _ _ H) as (l & [[Hl ->]|[-> Hl]]).
    + destruct (Hb _ _ (n :: o) (S n) Hl) as (k & ->). exists (k ++ [n]). by rewrite <- app_assoc.
    + rewrite unended_app, Hb'. destruct l as [|y l]; [by exists [n]|]. injection Hl as <- Hl. symmetry in Hl. apply app_nil in Hl as [-> _].
      cbn [unended]. rewrite He1, He2. by exists [].
  - intros o n. cbn [unended]. rewrite Hs, unended_app, Hb'. cbn [unended]. by rewrite He1, He2.
Qed.
Lemma root_unended w f es1 es2 : tx_events w f = es1 ++ es2 -> es1 <> [] -> es2 <> [] -> 0 ∈ unended [] 0 es1.
Proof.
  intros Heq H1 H2. destruct f as [s body e]. unfold tx_events in Heq. cbn [frame_events] in Heq.
  destruct es1 as [|x p]; [done|]. injection Heq as <- H. cbn [unended]. replace (is_start (start_event w 0 s)) with true by by destruct s.
  assert (Hb : keeps_open (flat_map (item_events w 1) body)).
  { clear. induction body as [|[i|h|g] r IHr]; [apply keeps_nil|..]; cbn [flat_map]; (apply keeps_app; [|by apply IHr]).
    - unfold instr_events. apply (keeps_app [_]); [by apply keeps_one|]. apply keeps_app; [apply keeps_hooks|by apply keeps_one].
    - apply (keeps_hooks w 1 [h]).
    - apply keeps_frame. }
  destruct Hb as [Hb Hb']. destruct (app_eq_app _ _ _ _ H) as (l & [[Hl ->]|[-> Hl]]).
  - destruct (Hb _ _ [0] 1 Hl) as (k & ->). apply elem_of_app. right. constructor.
  - rewrite unended_app, Hb'. destruct l as [|y l]; [constructor|]. injection Hl as _ Hl. symmetry in Hl. by apply app_nil in Hl as [_ ->].
Qed.
