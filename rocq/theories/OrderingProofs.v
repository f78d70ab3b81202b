(** * OrderingProofs: the member ordering and absence of unbounded loops, for any hook sequence *)

From Verif Require Export ArenaProofs.

Lemma omap_snoc {A B} (f : A -> option B) l x :
  omap f (l ++ [x]) = omap f l ++ match f x with Some y => [y] | None => [] end.
Proof. rewrite omap_app. cbn. by destruct (f x). Qed.

Lemma seq_snoc n : seq 0 (S n) = seq 0 n ++ [n].
Proof. by rewrite seq_S. Qed.

Lemma oc_push_step st n : ordering_complete n -> ordering_complete (push_step st n).
Proof.
  intros [H1 H2 H3]. split; cbn [push_step nd_ordering nd_logs nd_children nd_trace tr_set_steps tr_steps];
    rewrite omap_snoc; cbn; rewrite ?app_nil_r, ?app_length; cbn; [done..|].
  by rewrite Nat.add_1_r, seq_snoc, H3.
Qed.

Lemma oc_push_log l n : ordering_complete n -> ordering_complete (push_log l n).
Proof.
  intros [H1 H2 H3]. split; cbn [push_log nd_ordering nd_logs nd_children nd_trace];
    rewrite omap_snoc; cbn; rewrite ?app_nil_r, ?app_length; cbn; [|done..].
  by rewrite Nat.add_1_r, seq_snoc, H1.
Qed.

Lemma oc_attach id n : ordering_complete n -> ordering_complete (attach_child id n).
Proof.
  intros [H1 H2 H3]. split; cbn [attach_child nd_ordering nd_logs nd_children nd_trace];
    rewrite omap_snoc; cbn; rewrite ?app_nil_r, ?app_length; cbn; [done| |done].
  by rewrite Nat.add_1_r, seq_snoc, H2.
Qed.

Lemma oc_same n n' :
  nd_ordering n' = nd_ordering n -> length (nd_logs n') = length (nd_logs n) ->
  length (nd_children n') = length (nd_children n) ->
  length (tr_steps (nd_trace n')) = length (tr_steps (nd_trace n)) ->
  ordering_complete n -> ordering_complete n'.
Proof. intros Ho Hl Hc Hs [H1 H2 H3]. split; rewrite Ho, ?Hl, ?Hc, ?Hs; done. Qed.

Lemma oc_empty p id t : tr_steps t = [] -> ordering_complete (mkNode p [] id t [] []).
Proof. intros H. split; cbn; rewrite ?H; done. Qed.

Definition all_ordered (ns : list CallTraceNode) : Prop := Forall ordering_complete ns.

Lemma all_ordered_insert ns i n :
  all_ordered ns -> ordering_complete n -> all_ordered (<[i := n]> ns).
Proof. intros H1 H2. by apply Forall_insert. Qed.

Lemma all_ordered_update ns i f ns' :
  (forall n, ordering_complete n -> ordering_complete (f n)) ->
  update ns i f = Ok ns' -> all_ordered ns -> all_ordered ns'.
Proof.
  intros Hf Hu Ha. apply update_Ok in Hu as (n & Hn & ->). apply all_ordered_insert; [done|].
  apply Hf. by eapply Forall_lookup_1.
Qed.

(** The root has not been started yet: it is not active and has no steps. *)
Definition pre_root (s : TracingInspector) : Prop :=
  ~ In 0 (ti_trace_stack s) /\
  forall n, ti_traces s !! 0 = Some n -> tr_steps (nd_trace n) = [].

Lemma push_all_ordered ns kind t ns' id :
  push_result ns kind t ns' id -> tr_steps t = [] -> all_ordered ns ->
  (tr_depth t = 0 -> forall n, ns !! 0 = Some n -> tr_steps (nd_trace n) = []) ->
  all_ordered ns'.
Proof.
  intros [n Hd Hn|p pn Hk Hp Hd|p pn Hk Hp Hd] Hs Ha Hroot.
  - apply all_ordered_insert; [done|]. eapply oc_same; [..|by eapply Forall_lookup_1]; try done.
    cbn. by rewrite Hs, (Hroot Hd n Hn).
  - apply all_ordered_insert.
    + apply Forall_app. split; [done|]. repeat constructor. all: cbn; by rewrite ?Hs.
    + apply oc_attach. by eapply Forall_lookup_1.
  - apply Forall_app. split; [done|]. repeat constructor. all: cbn; by rewrite ?Hs.
Qed.

Lemma start_trace_ordered s c a inp v k from g mp s' :
  start_trace_on_call s c a inp v k from g mp = Ok s' -> all_ordered (ti_traces s) ->
  (cx_depth c = 0 -> pre_root s) -> all_ordered (ti_traces s').
Proof.
  unfold start_trace_on_call. intros H Ha Hpre.
  destruct (match ti_trace_stack s with [] => _ | _ => _ end) as [gl sp].
  inv_bind H. injection H as <-. cbn [ti_traces].
  apply push_trace_Ok in E. eapply push_all_ordered; [exact E|done..|].
  cbn. intros Hd. apply Hpre in Hd as [_ Hd]. done.
Qed.

Definition start_depth_ok (e : event) (s : TracingInspector) : Prop :=
  is_root_start e = true -> pre_root s.

Lemma ti_handle_ordered s e s' r :
  ti_handle s e = Ok (s', r) -> all_ordered (ti_traces s) -> start_depth_ok e s ->
  all_ordered (ti_traces s').
Proof.
  unfold start_depth_ok.
  destruct e as [i c|i c|l c|c i|c i o|c i|c i o|a b v]; cbn [ti_handle is_root_start]; intros H Ht Hd;
    inv_bind H; injection H as <- _.
  - destruct (record_steps _); [|by injection E as <-]. unfold start_step in E.
    do 2 inv_bind E. destruct (negb _).
    + injection E as <-. done.
    + inv_bind E. injection E as <-. cbn. eapply all_ordered_update; [|done..].
      intros; by apply oc_push_step.
  - destruct (record_steps _); [|by injection E as <-]. unfold fill_step_on_step_end in E.
    destruct (ti_step_stack s) as [|[rc ti si] rest]; [done|]. destruct (negb _).
    + injection E as <-. done.
    + do 4 inv_bind E. injection E as <-. cbn. eapply all_ordered_update; [|done..].
      intros n. apply oc_same; try done. cbn. by rewrite insert_length.
  - destruct (record_logs _); [|by injection E as <-]. unfold on_last_trace in E.
    do 2 inv_bind E. injection E as <-. cbn. eapply all_ordered_update; [|done..].
    intros; by apply oc_push_log.
  - unfold ti_call in E. destruct (call_from_to i). inv_bind E. eapply start_trace_ordered; [done..|].
    intros Hz. apply Hd. by apply Nat.eqb_eq.
  - unfold fill_trace_on_call_end in E. destruct (ti_trace_stack s) as [|ti rest]; [done|].
    inv_bind E. injection E as <-. cbn. eapply all_ordered_update; [|done..].
    intros n. by apply oc_same.
  - eapply start_trace_ordered; [done..|]. intros Hz. apply Hd. by apply Nat.eqb_eq.
  - unfold fill_trace_on_call_end in E. destruct (ti_trace_stack s) as [|ti rest]; [done|].
    inv_bind E. injection E as <-. cbn. eapply all_ordered_update; [|done..].
    intros n. by apply oc_same.
  - unfold on_last_trace in E. do 2 inv_bind E. injection E as <-. cbn.
    eapply all_ordered_update; [|done..]. intros n. by apply oc_same.
Qed.

Lemma update_root_steps ns i f ns' :
  update ns i f = Ok ns' -> i <> 0 ->
  (forall n, ns !! 0 = Some n -> tr_steps (nd_trace n) = []) ->
  forall n, ns' !! 0 = Some n -> tr_steps (nd_trace n) = [].
Proof.
  intros Hu Hi Hs n. apply update_Ok in Hu as (m & Hm & ->).
  rewrite list_lookup_insert_ne by done. apply Hs.
Qed.

Lemma update_root_steps' ns i f ns' :
  update ns i f = Ok ns' ->
  (forall n, tr_steps (nd_trace n) = [] -> tr_steps (nd_trace (f n)) = []) ->
  (forall n, ns !! 0 = Some n -> tr_steps (nd_trace n) = []) ->
  forall n, ns' !! 0 = Some n -> tr_steps (nd_trace n) = [].
Proof.
  intros Hu Hf Hs n. apply update_Ok in Hu as (m & Hm & ->). destruct i as [|i].
  - rewrite list_lookup_insert by (by eapply lookup_lt_Some). intros [= <-]. apply Hf. by apply Hs.
  - rewrite list_lookup_insert_ne by done. apply Hs.
Qed.

Lemma start_trace_pre_root s c a inp v k from g mp s' :
  start_trace_on_call s c a inp v k from g mp = Ok s' -> arena_tree (ti_traces s) ->
  cx_depth c <> 0 -> pre_root s -> pre_root s'.
Proof.
  unfold start_trace_on_call. intros H Ht Hc [Hpre1 Hpre2].
  destruct (match ti_trace_stack s with [] => _ | _ => _ end) as [gl sp].
  inv_bind H. injection H as <-. apply push_trace_Ok in E.
  assert (Hpos : 0 < length (ti_traces s)).
  { destruct (at_root _ Ht) as (r & Hr & _). by eapply lookup_lt_Some. }
  destruct E as [n Hd Hn|p pn Hk Hp Hd|p pn Hk Hp Hd]; [done|..]; (split; cbn [ti_trace_stack ti_traces]).
  - cbn. intros [?|?]; [lia|done].
  - intros n. destruct p as [|p].
    + rewrite list_lookup_insert by (rewrite app_length; cbn; lia). intros [= <-]. cbn. by apply Hpre2.
    + rewrite list_lookup_insert_ne by done. rewrite lookup_app_l by done. apply Hpre2.
  - cbn. intros [?|?]; [lia|done].
  - intros n. rewrite lookup_app_l by done. apply Hpre2.
Qed.

Lemma ti_handle_pre_root s e s' r :
  ti_handle s e = Ok (s', r) -> arena_tree (ti_traces s) -> is_root_start e = false ->
  pre_root s -> pre_root s'.
Proof.
  destruct e as [i c|i c|l c|c i|c i o|c i|c i o|a b v]; cbn [ti_handle is_root_start]; intros H Ht Hd Hpre;
    inv_bind H; injection H as <- _.
  - destruct (record_steps _); [|by injection E as <-]. unfold start_step in E.
    do 2 inv_bind E. destruct (negb _).
    + injection E as <-. done.
    + inv_bind E. injection E as <-. destruct Hpre as [Hp1 Hp2]. split; [done|]. cbn.
      eapply update_root_steps; [done| |done].
      unfold ti_last_trace_idx in E0. apply expect_Ok in E0. destruct (ti_trace_stack s); [done|].
      cbn in E0. injection E0 as ->. intros ->. apply Hp1. by left.
  - destruct (record_steps _); [|by injection E as <-]. unfold fill_step_on_step_end in E.
    destruct (ti_step_stack s) as [|[rc ti si] rest]; [done|]. destruct (negb _).
    + injection E as <-. done.
    + do 4 inv_bind E. injection E as <-. destruct Hpre as [Hp1 Hp2]. split; [done|]. cbn.
      eapply update_root_steps'; [done| |done]. intros n Hn. cbn. by rewrite Hn.
  - destruct (record_logs _); [|by injection E as <-]. unfold on_last_trace in E.
    do 2 inv_bind E. injection E as <-. destruct Hpre as [Hp1 Hp2]. split; [done|]. cbn.
    eapply update_root_steps'; done.
  - unfold ti_call in E. destruct (call_from_to i). inv_bind E.
    eapply start_trace_pre_root; [done..| |done]. by apply Nat.eqb_neq.
  - unfold fill_trace_on_call_end in E. destruct (ti_trace_stack s) as [|ti rest] eqn:Es; [done|].
    inv_bind E. injection E as <-. destruct Hpre as [Hp1 Hp2]. split; cbn.
    + intros ?. apply Hp1. rewrite Es. by right.
    + eapply update_root_steps'; done.
  - eapply start_trace_pre_root; [done..| |done]. by apply Nat.eqb_neq.
  - unfold fill_trace_on_call_end in E. destruct (ti_trace_stack s) as [|ti rest] eqn:Es; [done|].
    inv_bind E. injection E as <-. destruct Hpre as [Hp1 Hp2]. split; cbn.
    + intros ?. apply Hp1. rewrite Es. by right.
    + eapply update_root_steps'; done.
  - unfold on_last_trace in E. do 2 inv_bind E. injection E as <-. destruct Hpre as [Hp1 Hp2].
    split; [done|]. cbn. eapply update_root_steps'; done.
Qed.

Lemma run_cons {S} (h : inspector S) s e es :
  run h s (e :: es) = let! sr := h s e in run h (fst sr) es.
Proof. unfold run. cbn [rfold]. unfold rmap. by destruct (h s e) as [[s' r]| |]. Qed.

Lemma run_ordered es : forall s s',
  arena_tree (ti_traces s) -> all_ordered (ti_traces s) ->
  length (List.filter is_root_start es) <= 1 ->
  (length (List.filter is_root_start es) = 1 -> pre_root s) ->
  ti_run s es = Ok s' -> all_ordered (ti_traces s').
Proof.
  induction es as [|e es IH]; intros s s' Ht Ha Hle Hpre Hr.
  - unfold ti_run, run in Hr. cbn in Hr. by injection Hr as <-.
  - unfold ti_run in Hr. rewrite run_cons in Hr. inv_bind Hr. destruct a as [s1 r]. cbn [fst] in Hr.
    assert (Hd : start_depth_ok e s).
    { intros He. apply Hpre. cbn [List.filter] in Hle |- *. rewrite He in Hle |- *. cbn in *. lia. }
    pose proof (ti_handle_tree _ _ _ _ E Ht) as Ht1.
    pose proof (ti_handle_ordered _ _ _ _ E Ha Hd) as Ha1.
    cbn [List.filter] in Hle, Hpre. destruct (is_root_start e) eqn:He.
    + cbn [length] in Hle. eapply (IH s1); [done|done|lia|lia|done].
    + eapply (IH s1); [done|done|lia| |done].
      intros H1. eapply ti_handle_pre_root; [done..|]. by apply Hpre.
Qed.

Lemma new_all_ordered cfg : all_ordered (ti_traces (ti_new cfg)).
Proof. repeat constructor. Qed.

Lemma new_pre_root cfg : pre_root (ti_new cfg).
Proof. split; [by intros []|]. by intros n [= <-]. Qed.

(** ** No hook can loop forever *)

Lemma rbind_fuel {A B} (m : res A) (k : A -> res B) :
  m <> OutOfFuel -> (forall a, m = Ok a -> k a <> OutOfFuel) -> rbind m k <> OutOfFuel.
Proof. intros Hm Hk. destruct m; cbn; [by apply Hk|done|done]. Qed.

Lemma update_fuel {A} (l : list A) i f : update l i f <> OutOfFuel.
Proof. unfold update. by destruct (l !! i). Qed.
Lemma index_fuel {A} (l : list A) i : index l i <> OutOfFuel.
Proof. unfold index. by destruct (l !! i). Qed.
Lemma expect_fuel {A} (o : option A) : expect o <> OutOfFuel.
Proof. by destruct o. Qed.

Lemma start_trace_fuel s c a inp v k from g mp :
  arena_tree (ti_traces s) -> start_trace_on_call s c a inp v k from g mp <> OutOfFuel.
Proof.
  intros Ht. unfold start_trace_on_call.
  destruct (match ti_trace_stack s with [] => _ | _ => _ end) as [gl sp].
  apply rbind_fuel; [by apply push_trace_terminates|done].
Qed.

Lemma ti_handle_fuel s e : arena_tree (ti_traces s) -> ti_handle s e <> OutOfFuel.
Proof.
  intros Ht.
  destruct e as [i c|i c|l c|c i|c i o|c i|c i o|a b v]; cbn [ti_handle]; (apply rbind_fuel; [|done]).
  - destruct (record_steps _); [|done]. unfold start_step. apply rbind_fuel; [apply expect_fuel|].
    intros n _. apply rbind_fuel; [apply index_fuel|]. intros nd _. destruct (negb _); [done|].
    apply rbind_fuel; [apply update_fuel|done].
  - destruct (record_steps _); [|done]. unfold fill_step_on_step_end.
    destruct (ti_step_stack s) as [|[rc ti si] rest]; [done|]. destruct (negb _); [done|].
    apply rbind_fuel; [apply index_fuel|]. intros n _.
    apply rbind_fuel; [apply index_fuel|]. intros st _.
    apply rbind_fuel.
    + unfold fill_step. apply rbind_fuel.
      * unfold push_snapshot. destruct (snap_is_pushes _); [|done]. by destruct (_ <=? _).
      * intros ps _. apply rbind_fuel; [|done]. unfold storage_snapshot.
        destruct (record_state_diff _); [|done]. apply rbind_fuel; [apply expect_fuel|].
        intros jn _. destruct (last jn) as [[a k h|]|]; [|done..]. destruct (_ || _); [|done].
        by destruct (cx_present c a k).
    + intros st' _. apply rbind_fuel; [apply update_fuel|done].
  - destruct (record_logs _); [|done]. unfold on_last_trace. apply rbind_fuel; [apply expect_fuel|].
    intros n _. apply rbind_fuel; [apply update_fuel|done].
  - unfold ti_call. destruct (call_from_to i). apply rbind_fuel.
    + destruct (ci_scheme i); try done. apply rbind_fuel; [|done]. unfold ti_active_trace.
      destruct (ti_trace_stack s); [done|]. apply rbind_fuel; [apply index_fuel|done].
    + intros v _. by apply start_trace_fuel.
  - unfold fill_trace_on_call_end. destruct (ti_trace_stack s); [done|].
    apply rbind_fuel; [apply update_fuel|done].
  - by apply start_trace_fuel.
  - unfold fill_trace_on_call_end. destruct (ti_trace_stack s); [done|].
    apply rbind_fuel; [apply update_fuel|done].
  - unfold on_last_trace. apply rbind_fuel; [apply expect_fuel|].
    intros n _. apply rbind_fuel; [apply update_fuel|done].
Qed.

Lemma ti_run_fuel es : forall s, arena_tree (ti_traces s) -> ti_run s es <> OutOfFuel.
Proof.
  induction es as [|e es IH]; intros s Ht; [done|]. unfold ti_run. rewrite run_cons.
  apply rbind_fuel; [by apply ti_handle_fuel|]. intros [s1 r] E. apply IH. by eapply ti_handle_tree.
Qed.
