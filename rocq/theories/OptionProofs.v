(** * OptionProofs: recording options do not influence each other *)

From Verif Require Export SpecOptions ArenaProofs Parity Geth.

Section Keep.
  Context (k : keep).
  Notation e := (kept k).

  Lemma upd1 ns i f a :
    update ns i f = Ok a -> (forall n, ns !! i = Some n -> e (f n) = e n) -> e <$> a = e <$> ns.
  Proof.
    unfold update. destruct (ns !! i) as [n|] eqn:E; [|done]. intros [= <-] H.
    rewrite list_fmap_insert, (H n eq_refl). apply list_insert_id. by rewrite list_lookup_fmap, E.
  Qed.
  Lemma lookup2 (ns ns' : list CallTraceNode) (i : nat) n n' : e <$> ns = e <$> ns' -> ns !! i = Some n -> ns' !! i = Some n' -> e n = e n'.
  Proof.
    intros H Hn Hn'. apply (f_equal (lookup i)) in H. rewrite !list_lookup_fmap, Hn, Hn' in H. exact (inj Some _ _ H).
  Qed.
  Lemma upd2 ns ns' i f f' a a' :
    e <$> ns = e <$> ns' -> update ns i f = Ok a -> update ns' i f' = Ok a' ->
    (forall n n', ns !! i = Some n -> ns' !! i = Some n' -> e n = e n' -> e (f n) = e (f' n')) ->
    e <$> a = e <$> a'.
  Proof.
    unfold update. destruct (ns !! i) as [n|] eqn:E; [|done]. destruct (ns' !! i) as [n'|] eqn:E'; [|done].
    intros H [= <-] [= <-] Hf. rewrite !list_fmap_insert, H. f_equal. apply Hf; [done..|]. by apply (lookup2 ns ns' i).
  Qed.
  Lemma upd2g ns ns' i f g a a' :
    e <$> ns = e <$> ns' -> update ns i f = Ok a -> update ns' i f = Ok a' ->
    (forall n, e (f n) = g (e n)) -> e <$> a = e <$> a'.
  Proof. intros H Ha Ha' Hg. eapply upd2; [done..|]. intros n n' _ _ Hn. by rewrite !Hg, Hn. Qed.

  Lemma kept_children n n' : e n = e n' -> nd_children n = nd_children n'.
  Proof. intros H. by apply (f_equal nd_children) in H. Qed.
  Lemma kept_trace n n' (p : CallTrace -> nat) :
    (forall t s, p (tr_set_steps t s) = p t) -> e n = e n' -> p (nd_trace n) = p (nd_trace n').
  Proof. intros Hp H. apply (f_equal nd_trace) in H. cbn [kept nd_trace] in H. apply (f_equal p) in H. by rewrite !Hp in H. Qed.

  Lemma kept_attach id n : e (attach_child id n) = attach_child id (e n).
  Proof. unfold attach_child, kept. cbn. f_equal. by rewrite List.filter_app. Qed.
  Lemma kept_set_trace n t : tr_steps t = [] -> e (nd_set_trace n t) = nd_set_trace (e n) t.
  Proof. intros H. unfold nd_set_trace, kept. cbn. rewrite H. f_equal. destruct t; cbn in *. subst. by destruct (k_steps k). Qed.

  Lemma push_trace_loop_kept fuel fuel' ns ns' entry kind t r r' :
    tr_steps t = [] ->
    e <$> ns = e <$> ns' ->
    push_trace_loop fuel ns entry kind t = Ok r -> push_trace_loop fuel' ns' entry kind t = Ok r' ->
    e <$> fst r = e <$> fst r' /\ snd r = snd r'.
  Proof.
    intros Ht Hns. revert fuel' entry. induction fuel as [|fuel IH]; intros fuel' entry; [done|].
    destruct fuel' as [|fuel']; [done|]. cbn [push_trace_loop].
    destruct (tr_depth t) as [|d].
    - intros H H'. inv_bind H. inv_bind H'. injection H as <-. injection H' as <-. cbn [fst snd]. split; [|done].
      eapply (upd2g _ _ _ _ (fun n => nd_set_trace n t)); [exact Hns|exact E|exact E0|]. intros n. by apply kept_set_trace.
    - intros H H'. inv_bind H. inv_bind H'.
      unfold index in E, E0. destruct (ns !! entry) as [n|] eqn:En; [injection E as <-|done].
      destruct (ns' !! entry) as [n'|] eqn:En'; [injection E0 as <-|done].
      assert (Hn := lookup2 _ _ _ _ _ Hns En En').
      assert (Hd : tr_depth (nd_trace n) = tr_depth (nd_trace n')) by by apply (kept_trace _ _ tr_depth).
      rewrite <- Hd in H'. rewrite <- (kept_children _ _ Hn) in H'.
      assert (Hlen : length ns = length ns') by (apply (f_equal length) in Hns; by rewrite !fmap_length in Hns).
      destruct (tr_depth (nd_trace n) =? d).
      + inv_bind H. inv_bind H'. injection H as <-. injection H' as <-. cbn [fst snd]. split; [|done].
        rewrite <- Hlen in E0. destruct (is_attach_to_parent kind).
        * eapply (upd2g _ _ _ _ (attach_child (length ns))); [|exact E|exact E0|intros; apply kept_attach]. by rewrite !fmap_app, Hns.
        * injection E as <-. injection E0 as <-. by rewrite !fmap_app, Hns.
      + inv_bind H. cbn [rbind] in H'. by eapply IH.
  Qed.

  Definition agree (s s' : TracingInspector) : Prop :=
    e <$> ti_traces s = e <$> ti_traces s' /\ ti_trace_stack s = ti_trace_stack s' /\ ti_spec_id s = ti_spec_id s' /\
    ti_last_call_return_data s = ti_last_call_return_data s' /\
    (k_steps k = true -> ti_step_stack s = ti_step_stack s').

  Lemma start_trace_kept s s' c a inp v kd from g mp s1 s1' :
    agree s s' -> start_trace_on_call s c a inp v kd from g mp = Ok s1 ->
    start_trace_on_call s' c a inp v kd from g mp = Ok s1' -> agree s1 s1'.
  Proof.
    intros (H1 & H2 & H3 & H4 & H5). unfold start_trace_on_call. rewrite <- H2, <- H3. intros H H'.
    destruct (match ti_trace_stack s with [] => _ | _ => _ end) as [gl sp]. inv_bind H. inv_bind H'.
    injection H as <-. injection H' as <-.
    unfold push_trace in E, E0. eapply push_trace_loop_kept in E0; [|done|exact H1|exact E]. destruct E0 as [Ha Hb].
    split; [exact Ha|]. cbn. by rewrite Hb.
  Qed.

  Lemma on_last_kept s s' f s1 s1' :
    agree s s' -> (forall n, e (f n) = f (e n)) ->
    on_last_trace s f = Ok s1 -> on_last_trace s' f = Ok s1' -> agree s1 s1'.
  Proof.
    intros (H1 & H2 & H3 & H4 & H5) Hf. unfold on_last_trace, ti_last_trace_idx. rewrite <- H2. intros H H'.
    inv_bind H. cbn [rbind] in H'. inv_bind H. inv_bind H'. injection H as <-. injection H' as <-.
    split; [|done]. cbn. by eapply (upd2g _ _ _ _ f).
  Qed.

  Lemma fill_trace_kept s s' c r cr s1 s1' :
    agree s s' -> fill_trace_on_call_end s c r cr = Ok s1 -> fill_trace_on_call_end s' c r cr = Ok s1' -> agree s1 s1'.
  Proof.
    intros (H1 & H2 & H3 & H4 & H5). unfold fill_trace_on_call_end. rewrite <- H2.
    destruct (ti_trace_stack s) as [|i rest] eqn:Es; [done|]. intros H H'. inv_bind H. inv_bind H'.
    injection H as <-. injection H' as <-. split; [|done]. cbn.
    eapply (upd2g _ _ _ _ (fun n => nd_set_trace n (fill_trace (i =? 0) (cx_spec c) r cr (nd_trace n)))); done.
  Qed.

  Context (cfg cfg' : TracingInspectorConfig) (Hopt : same_options k cfg cfg').

  Lemma new_step_kept p p' i c :
    kept_step k <$> p = kept_step k <$> p' -> k_steps k = true ->
    kept_step k (new_step cfg p i c) = kept_step k (new_step cfg' p' i c).
  Proof.
    destruct Hopt as (_ & Hs & Hst & Hm & Hr & Hd & _). intros Hp Hk. destruct (Hs Hk) as [_ Hf].
    unfold kept_step, new_step. cbn [st_depth st_pc st_op st_contract st_stack st_push_stack st_memory st_returndata
      st_gas_remaining st_gas_refund_counter st_gas_used st_gas_cost st_storage_change st_status st_decoded].
    f_equal.
    - destruct (k_stack k); [|done]. by rewrite Hst.
    - destruct (k_memory k) eqn:Ek; [|done]. unfold snapshot_memory. rewrite <- Hm, <- Hf by done.
      destruct (record_memory_snapshots cfg); [|done]. destruct (record_opcodes_filter cfg); [done|].
      destruct p as [p|], p' as [p'|]; cbn in Hp; try done. apply (inj Some) in Hp.
      assert (Ho : st_op p = st_op p') by by apply (f_equal st_op) in Hp.
      assert (Hmm : st_memory p = st_memory p').
      { apply (f_equal st_memory) in Hp. cbn in Hp. by rewrite Ek in Hp. }
      by rewrite Ho, Hmm.
    - destruct (k_returndata k); [|done]. by rewrite Hr.
  Qed.

  Lemma fill_step_kept i c st st' st1 st1' :
    kept_step k st = kept_step k st' -> fill_step cfg i c st = Ok st1 -> fill_step cfg' i c st' = Ok st1' ->
    kept_step k st1 = kept_step k st1'.
  Proof.
    destruct Hopt as (_ & _ & Hst & Hm & Hr & Hd & _). unfold fill_step. intros He H H'.
    inv_bind H. inv_bind H. inv_bind H'. inv_bind H'. injection H as <-. injection H' as <-.
    destruct st as [d pc op ct sk psk mem rd gr grc gu gc sc sts dec].
    destruct st' as [d' pc' op' ct' sk' psk' mem' rd' gr' grc' gu' gc' sc' sts' dec'].
    unfold kept_step in He |- *. cbn in *.
    injection He as -> -> -> -> Hsk Hpsk Hmem Hrd -> -> -> -> Hsc -> ->.
    f_equal; try done.
    - destruct (k_stack k); [|done]. unfold push_snapshot in E, E1. rewrite <- Hst in E1 by done. rewrite Hpsk in E.
      rewrite E in E1. by injection E1.
    - destruct (k_diff k); [|done]. unfold storage_snapshot in E0, E2. rewrite <- Hd in E2 by done. rewrite Hsc in E0.
      rewrite E0 in E2. by injection E2.
  Qed.

  Lemma push_step_dropped st n : k_steps k = false -> e (push_step st n) = e n.
  Proof.
    intros Hk. unfold push_step, kept. cbn. rewrite Hk, List.filter_app. cbn. rewrite Hk, app_nil_r. done.
  Qed.
  Lemma set_step_dropped i st n : k_steps k = false -> e (set_step i st n) = e n.
  Proof. intros Hk. unfold set_step, kept. cbn. by rewrite Hk. Qed.
  Lemma push_step_kept st n : k_steps k = true -> e (push_step st n) = push_step (kept_step k st) (e n).
  Proof.
    intros Hk. unfold push_step, kept. cbn. rewrite Hk, List.filter_app. cbn. rewrite Hk.
    unfold tr_set_steps. cbn. by rewrite fmap_app, fmap_length.
  Qed.
  Lemma set_step_kept i st n : k_steps k = true -> e (set_step i st n) = set_step i (kept_step k st) (e n).
  Proof. intros Hk. unfold set_step, kept. cbn. rewrite Hk. unfold nd_set_trace, tr_set_steps. cbn. by rewrite list_fmap_insert. Qed.
  Lemma push_log_kept l n : k_logs k = true -> e (push_log l n) = push_log l (e n).
  Proof. intros Hk. unfold push_log, kept. cbn. rewrite Hk, List.filter_app. cbn. by rewrite Hk. Qed.
  Lemma push_log_dropped l n : k_logs k = false -> e (push_log l n) = e n.
  Proof. intros Hk. unfold push_log, kept. cbn. rewrite Hk, List.filter_app. cbn. by rewrite Hk, app_nil_r. Qed.

  (** A step event changes nothing that is looked at when steps are not. *)
  Lemma start_step_dropped s i c s1 : k_steps k = false -> start_step s i c = Ok s1 ->
    e <$> ti_traces s1 = e <$> ti_traces s /\ ti_trace_stack s1 = ti_trace_stack s /\ ti_spec_id s1 = ti_spec_id s /\
    ti_last_call_return_data s1 = ti_last_call_return_data s.
  Proof.
    intros Hk. unfold start_step. intros H. inv_bind H. inv_bind H.
    destruct (should_record_opcode _ _); cbn [negb] in H.
    - inv_bind H. injection H as <-. split; [|done]. cbn. eapply upd1; [done|]. intros. by apply push_step_dropped.
    - by injection H as <-.
  Qed.
  Lemma fill_step_dropped s i c s1 : k_steps k = false -> fill_step_on_step_end s i c = Ok s1 ->
    e <$> ti_traces s1 = e <$> ti_traces s /\ ti_trace_stack s1 = ti_trace_stack s /\ ti_spec_id s1 = ti_spec_id s /\
    ti_last_call_return_data s1 = ti_last_call_return_data s.
  Proof.
    intros Hk. unfold fill_step_on_step_end. destruct (ti_step_stack s) as [|[rec ti si] rest]; [done|].
    destruct rec; cbn [negb].
    - intros H. inv_bind H. inv_bind H. inv_bind H. inv_bind H. injection H as <-. split; [|done]. cbn.
      eapply upd1; [done|]. intros. by apply set_step_dropped.
    - by intros [= <-].
  Qed.

  Lemma kept_last n n' : k_steps k = true -> e n = e n' ->
    kept_step k <$> last (tr_steps (nd_trace n)) = kept_step k <$> last (tr_steps (nd_trace n')) /\
    length (tr_steps (nd_trace n)) = length (tr_steps (nd_trace n')) /\
    kept_step k <$> tr_steps (nd_trace n) = kept_step k <$> tr_steps (nd_trace n').
  Proof.
    intros Hk H. apply (f_equal (fun n => tr_steps (nd_trace n))) in H. cbn in H. rewrite Hk in H. split_and!; [| |done].
    - by rewrite <- !fmap_last, H.
    - apply (f_equal length) in H. by rewrite !fmap_length in H.
  Qed.

  Lemma handle_kept s s' ev s1 r1 s1' r1' :
    ti_config s = cfg -> ti_config s' = cfg' -> agree s s' ->
    ti_handle s ev = Ok (s1, r1) -> ti_handle s' ev = Ok (s1', r1') ->
    agree s1 s1'.
  Proof.
    intros Hc Hc' Ha. assert (Hopt' := Hopt). destruct Hopt' as (Hex & Hs & Hst & Hm & Hr & Hd & Hl).
    destruct ev as [i c|i c|l c|c i|c i o|c i|c i o|sa sb sv]; cbn [ti_handle]; intros H H'; inv_bind H; inv_bind H';
      injection H as <- <-; injection H' as <- <-; rename a into s1; rename a0 into s1'.
    - rewrite Hc in E. rewrite Hc' in E0. destruct (k_steps k) eqn:Ek.
      + destruct (Hs eq_refl) as [Hrs Hf]. rewrite <- Hrs in E0. destruct (record_steps cfg); [|by simplify_eq].
        unfold start_step in E, E0. destruct Ha as (H1 & H2 & H3 & H4 & H5).
        unfold ti_last_trace_idx in E, E0. rewrite <- H2 in E0. inv_bind E. cbn [rbind] in E0. inv_bind E. inv_bind E0.
        unfold index in E2, E3. destruct (ti_traces s !! a) as [n|] eqn:En; [injection E2 as <-|done].
        destruct (ti_traces s' !! a) as [n'|] eqn:En'; [injection E3 as <-|done].
        assert (Hn := lookup2 _ _ _ _ _ H1 En En').
        destruct (kept_last n n' Ek Hn) as (HA & HB & _). rewrite <- HB, Hc' in E0. rewrite Hc in E.
        assert (Hrec : should_record_opcode cfg' (in_op i) = should_record_opcode cfg (in_op i))
          by (unfold should_record_opcode; by rewrite Hf).
        rewrite Hrec in E0. rewrite <- (H5 Ek) in E0. destruct (should_record_opcode cfg (in_op i)); cbn [negb] in E, E0.
        * inv_bind E. inv_bind E0. injection E as <-. injection E0 as <-.
          unfold agree. cbn. split_and!; try done. eapply upd2; [exact H1|exact E2|exact E3|].
          intros m m' _ _ Hmm. rewrite !push_step_kept by done. by rewrite Hmm, (new_step_kept _ _ _ _ HA Ek).
        * injection E as <-. injection E0 as <-. unfold agree. cbn. by split_and!.
      + destruct Ha as (H1 & H2 & H3 & H4 & H5).
        assert (HA : e <$> ti_traces s1 = e <$> ti_traces s /\ ti_trace_stack s1 = ti_trace_stack s /\
                     ti_spec_id s1 = ti_spec_id s /\ ti_last_call_return_data s1 = ti_last_call_return_data s).
        { destruct (record_steps cfg); [by eapply start_step_dropped|by injection E as <-]. }
        assert (HB : e <$> ti_traces s1' = e <$> ti_traces s' /\ ti_trace_stack s1' = ti_trace_stack s' /\
                     ti_spec_id s1' = ti_spec_id s' /\ ti_last_call_return_data s1' = ti_last_call_return_data s').
        { destruct (record_steps cfg'); [by eapply start_step_dropped|by injection E0 as <-]. }
        destruct HA as (HA1 & HA2 & HA3 & HA4). destruct HB as (HB1 & HB2 & HB3 & HB4). unfold agree.
        rewrite HA1, HA2, HA3, HA4, HB1, HB2, HB3, HB4, Ek. by split_and!.
    - rewrite Hc in E. rewrite Hc' in E0. destruct (k_steps k) eqn:Ek.
      + destruct (Hs eq_refl) as [Hrs Hf]. rewrite <- Hrs in E0. destruct (record_steps cfg); [|by simplify_eq].
        unfold fill_step_on_step_end in E, E0. destruct Ha as (H1 & H2 & H3 & H4 & H5).
        rewrite <- (H5 Ek) in E0. destruct (ti_step_stack s) as [|[rec ti si] rest]; [done|].
        destruct rec; cbn [negb] in E, E0.
        * inv_bind E. inv_bind E0. unfold index in E1, E2.
          destruct (ti_traces s !! ti) as [n|] eqn:En; [injection E1 as <-|done].
          destruct (ti_traces s' !! ti) as [n'|] eqn:En'; [injection E2 as <-|done].
          assert (Hn := lookup2 _ _ _ _ _ H1 En En').
          destruct (kept_last n n' Ek Hn) as (_ & _ & HC).
          inv_bind E. inv_bind E. inv_bind E. inv_bind E0. inv_bind E0. inv_bind E0.
          rewrite Hc in E2. rewrite Hc' in E5. unfold index in E1, E4.
          destruct (tr_steps (nd_trace n) !! si) as [st|] eqn:Est; [injection E1 as <-|done].
          destruct (tr_steps (nd_trace n') !! si) as [st'|] eqn:Est'; [injection E4 as <-|done].
          apply (f_equal (lookup si)) in HC. rewrite !list_lookup_fmap, Est, Est' in HC. apply (inj Some) in HC.
          injection E as <-. injection E0 as <-. unfold agree. cbn. split_and!; try done.
          eapply upd2; [exact H1|exact E3|exact E6|].
          intros m m' _ _ Hmm. rewrite !set_step_kept by done.
          by rewrite Hmm, (fill_step_kept _ _ _ _ _ _ HC E2 E5).
        * injection E as <-. injection E0 as <-. unfold agree. cbn. by split_and!.
      + destruct Ha as (H1 & H2 & H3 & H4 & H5).
        assert (HA : e <$> ti_traces s1 = e <$> ti_traces s /\ ti_trace_stack s1 = ti_trace_stack s /\
                     ti_spec_id s1 = ti_spec_id s /\ ti_last_call_return_data s1 = ti_last_call_return_data s).
        { destruct (record_steps cfg); [by eapply fill_step_dropped|by injection E as <-]. }
        assert (HB : e <$> ti_traces s1' = e <$> ti_traces s' /\ ti_trace_stack s1' = ti_trace_stack s' /\
                     ti_spec_id s1' = ti_spec_id s' /\ ti_last_call_return_data s1' = ti_last_call_return_data s').
        { destruct (record_steps cfg'); [by eapply fill_step_dropped|by injection E0 as <-]. }
        destruct HA as (HA1 & HA2 & HA3 & HA4). destruct HB as (HB1 & HB2 & HB3 & HB4). unfold agree.
        rewrite HA1, HA2, HA3, HA4, HB1, HB2, HB3, HB4, Ek. by split_and!.
    - rewrite Hc in E. rewrite Hc' in E0. destruct (k_logs k) eqn:Ek.
      + rewrite <- Hl in E0 by done. destruct (record_logs cfg); [|by simplify_eq].
        eapply on_last_kept; [exact Ha| |exact E|exact E0]. intros. by apply push_log_kept.
      + assert (HA : forall t t1 b, (if b : bool then on_last_trace t (push_log l) else Ok t) = Ok t1 ->
                     e <$> ti_traces t1 = e <$> ti_traces t /\ ti_trace_stack t1 = ti_trace_stack t /\
                     ti_spec_id t1 = ti_spec_id t /\ ti_last_call_return_data t1 = ti_last_call_return_data t /\
                     ti_step_stack t1 = ti_step_stack t).
        { intros t t1 [] Ht; [|by injection Ht as <-]. unfold on_last_trace in Ht. inv_bind Ht. inv_bind Ht.
          injection Ht as <-. split; [|done]. cbn. eapply upd1; [done|]. intros. by apply push_log_dropped. }
        destruct (HA _ _ _ E) as (HA1 & HA2 & HA3 & HA4 & HA5).
        destruct (HA _ _ _ E0) as (HB1 & HB2 & HB3 & HB4 & HB5).
        unfold agree. by rewrite HA1, HA2, HA3, HA4, HA5, HB1, HB2, HB3, HB4, HB5.
    - unfold ti_call in E, E0. destruct (call_from_to i) as [from to].
      assert (Hv : forall v v',
        match ci_scheme i with
        | CSDelegateCall => let! parent := ti_active_trace s in
            Ok match parent with Some p => tr_value (nd_trace p) | None => ci_call_value i end
        | _ => Ok (ci_call_value i) end = Ok v ->
        match ci_scheme i with
        | CSDelegateCall => let! parent := ti_active_trace s' in
            Ok match parent with Some p => tr_value (nd_trace p) | None => ci_call_value i end
        | _ => Ok (ci_call_value i) end = Ok v' -> v = v').
      { intros v v'. destruct (ci_scheme i); try (intros [= <-] [= <-]; done).
        unfold ti_active_trace. destruct Ha as (H1 & H2 & _). rewrite <- H2. destruct (ti_trace_stack s) as [|x ?].
        - by intros [= <-] [= <-].
        - unfold index. destruct (ti_traces s !! x) as [n|] eqn:En; [|done].
          destruct (ti_traces s' !! x) as [n'|] eqn:En'; [|done]. cbn. intros [= <-] [= <-].
          assert (Hn := lookup2 _ _ _ _ _ H1 En En'). apply (f_equal (fun n => tr_value (nd_trace n))) in Hn. exact Hn. }
      inv_bind E. inv_bind E0. rewrite (Hv _ _ eq_refl eq_refl) in E. rewrite Hc in E. rewrite Hc', <- Hex in E0.
      assert (Hd' : ti_is_precompile_call s' c to a0 = ti_is_precompile_call s c to a0).
      { unfold ti_is_precompile_call, ti_is_deep. destruct Ha as (_ & -> & _). done. }
      rewrite Hd' in E0. by eapply start_trace_kept.
    - by eapply fill_trace_kept.
    - unfold ti_create in E, E0. by eapply start_trace_kept.
    - by eapply fill_trace_kept.
    - eapply on_last_kept; [exact Ha| |exact E|exact E0]. done.
  Qed.
End Keep.

Lemma ti_handle_config s ev s' r : ti_handle s ev = Ok (s', r) -> ti_config s' = ti_config s.
Proof.
  assert (Hst : forall c a inp v kd from g mp s1, start_trace_on_call s c a inp v kd from g mp = Ok s1 -> ti_config s1 = ti_config s).
  { intros * H. unfold start_trace_on_call in H. destruct (match ti_trace_stack s with [] => _ | _ => _ end). inv_bind H.
    by injection H as <-. }
  assert (Hf : forall c r cr s1, fill_trace_on_call_end s c r cr = Ok s1 -> ti_config s1 = ti_config s).
  { intros * H. unfold fill_trace_on_call_end in H. destruct (ti_trace_stack s); [done|]. inv_bind H. by injection H as <-. }
  assert (Hl : forall f s1, on_last_trace s f = Ok s1 -> ti_config s1 = ti_config s).
  { intros * H. unfold on_last_trace in H. inv_bind H. inv_bind H. by injection H as <-. }
  destruct ev as [i c|i c|l c|c i|c i o|c i|c i o|sa sb sv]; cbn [ti_handle]; intros H; inv_bind H; injection H as <- <-.
  - destruct (record_steps _); [|by injection E as <-]. unfold start_step in E. inv_bind E. inv_bind E.
    destruct (negb _); [by injection E as <-|]. inv_bind E. by injection E as <-.
  - destruct (record_steps _); [|by injection E as <-]. unfold fill_step_on_step_end in E.
    destruct (ti_step_stack s) as [|[rec ti si] rest]; [done|]. destruct rec; cbn [negb] in E.
    + inv_bind E. inv_bind E. inv_bind E. inv_bind E. by injection E as <-.
    + by injection E as <-.
  - destruct (record_logs _); [by eapply Hl|by injection E as <-].
  - unfold ti_call in E. destruct (call_from_to i). inv_bind E. by eapply Hst.
  - by eapply Hf.
  - by eapply Hst.
  - by eapply Hf.
  - by eapply Hl.
Qed.

Lemma run_kept k cfg cfg' (Hopt : same_options k cfg cfg') es : forall s s' s1 s1',
  ti_config s = cfg -> ti_config s' = cfg' -> agree k s s' ->
  ti_run s es = Ok s1 -> ti_run s' es = Ok s1' -> agree k s1 s1'.
Proof.
  induction es as [|ev es IH]; intros s s' s1 s1' Hc Hc' Ha; unfold ti_run, run; cbn [rfold].
  - by intros [= <-] [= <-].
  - destruct (ti_handle s ev) as [[s2 r2]| |] eqn:E; cbn [rmap rbind fst]; [|done..].
    destruct (ti_handle s' ev) as [[s2' r2']| |] eqn:E'; cbn [rmap rbind fst]; [|done..].
    apply IH.
    + by rewrite (ti_handle_config _ _ _ _ E).
    + by rewrite (ti_handle_config _ _ _ _ E').
    + by eapply handle_kept.
Qed.

Lemma options_independent k cfg cfg' es s s' :
  same_options k cfg cfg' -> ti_run (ti_new cfg) es = Ok s -> ti_run (ti_new cfg') es = Ok s' ->
  kept k <$> ti_traces s = kept k <$> ti_traces s'.
Proof. intros Hopt H H'. by apply (run_kept k cfg cfg' Hopt es (ti_new cfg) (ti_new cfg') s s'). Qed.

(** ** What the outputs depend on *)

Lemma index_kept k (ns : list CallTraceNode) i : index (kept k <$> ns) i = rmap (kept k) (index ns i).
Proof. unfold index. rewrite list_lookup_fmap. by destruct (ns !! i). Qed.

Lemma trace_address_loop_kept k fuel ns : forall n g,
  trace_address_loop fuel (kept k <$> ns) (kept k n) g = trace_address_loop fuel ns n g.
Proof.
  induction fuel as [|fuel IH]; intros n g; [done|]. cbn [trace_address_loop]. cbn [kept nd_parent nd_idx].
  destruct (nd_parent n) as [p|]; [|done]. rewrite index_kept. destruct (index ns p) as [pn| |]; cbn [rmap rbind]; [|done..].
  change (nd_children (kept k pn)) with (nd_children pn). destruct (expect _); cbn [rbind]; [apply IH|done..].
Qed.
Lemma trace_address_kept k ns i : trace_address (kept k <$> ns) i = trace_address ns i.
Proof.
  unfold trace_address. destruct (i =? 0); [done|]. rewrite index_kept. destruct (index ns i) as [n| |]; cbn [rmap rbind]; [|done..].
  change (nd_is_precompile (kept k n)) with (nd_is_precompile n). destruct (nd_is_precompile n); [done|].
  by rewrite fmap_length, trace_address_loop_kept.
Qed.
Lemma rmapM_ext {A B} (f g : A -> res B) l : (forall x, f x = g x) -> rmapM f l = rmapM g l.
Proof. intros H. induction l as [|x l IH]; [done|]. cbn [rmapM]. by rewrite H, IH. Qed.
Lemma into_transaction_traces_kept k ns : into_transaction_traces (kept k <$> ns) = into_transaction_traces ns.
Proof.
  unfold into_transaction_traces, trace_addresses. rewrite fmap_length, (rmapM_ext _ (trace_address ns)) by apply trace_address_kept.
  destruct (rmapM _ _) as [addrs| |]; cbn [rbind]; [|done..]. f_equal. revert addrs.
  induction ns as [|n ns IH]; intros addrs; [done|]. destruct addrs as [|a addrs]; [done|]. cbn [fmap list_fmap zip_with List.filter fst].
  change (nd_is_precompile (kept k n)) with (nd_is_precompile n).
  destruct (negb (nd_is_precompile n)); cbn [flat_map]; [|apply IH]. f_equal. apply IH.
Qed.

Section Calls.
  Context (rr : bytes -> option string) (k : keep).

  Lemma parent_failed_kept fuel ns : forall p, parent_failed fuel (kept k <$> ns) p = parent_failed fuel ns p.
  Proof.
    induction fuel as [|fuel IH]; intros [p|]; cbn [parent_failed]; try done. rewrite index_kept.
    destruct (index ns p) as [n| |]; cbn [rmap rbind]; [|done..].
    change (tr_is_error (nd_trace (kept k n))) with (tr_is_error (nd_trace n)).
    destruct (tr_is_error _); [done|]. apply IH.
  Qed.
  Lemma call_or_parent_failed_kept ns n :
    call_or_parent_failed (kept k <$> ns) (kept k n) = call_or_parent_failed ns n.
  Proof.
    unfold call_or_parent_failed. change (tr_is_error (nd_trace (kept k n))) with (tr_is_error (nd_trace n)).
    by rewrite fmap_length, parent_failed_kept.
  Qed.
  Lemma empty_frame_kept n b : (b = true -> k_logs k = true) ->
    geth_empty_call_frame rr (kept k n) b = geth_empty_call_frame rr n b.
  Proof. intros H. unfold geth_empty_call_frame, kept. cbn. destruct b; [|done]. by rewrite H. Qed.
  Lemma roll_up_kept fuel ns : forall fs, roll_up fuel (kept k <$> ns) fs = roll_up fuel ns fs.
  Proof.
    induction fuel as [|fuel IH]; intros fs; [done|]. cbn [roll_up]. destruct (last fs) as [[i c]|]; [|done].
    rewrite index_kept. destruct (index ns i) as [n| |]; cbn [rmap rbind]; [|done..].
    change (nd_parent (kept k n)) with (nd_parent n). destruct (nd_parent n); [|done].
    destruct (update _ _ _); cbn [rbind]; [apply IH|done..].
  Qed.
  Lemma frames_kept ns b (Hb : b = true -> k_logs k = true) l : forall is fs,
    rfold (frames_step rr (kept k <$> ns) b) fs (zip is (kept k <$> l)) = rfold (frames_step rr ns b) fs (zip is l).
  Proof.
    induction l as [|n l IH]; intros [|i is] fs; [done..|]. cbn [fmap list_fmap zip_with rfold].
    replace (frames_step rr (kept k <$> ns) b fs (i, kept k n)) with (frames_step rr ns b fs (i, n)).
    2:{ unfold frames_step. change (geth_selfdestruct_call_trace (kept k n)) with (geth_selfdestruct_call_trace n).
        destruct (match geth_selfdestruct_call_trace n with Some _ => _ | None => _ end); cbn [rbind]; [|done..].
        rewrite call_or_parent_failed_kept. destruct (if b then _ else _) as [f| |]; cbn [rbind]; [|done..].
        rewrite empty_frame_kept; [done|]. intros [? _]%andb_true_iff. by apply Hb. }
    destruct (frames_step _ _ _ _ _); cbn [rbind]; [apply IH|done..].
  Qed.
  Lemma geth_call_traces_kept ns opts g :
    (unwrap_or_default_bool (with_log opts) = true -> k_logs k = true) ->
    geth_call_traces rr (kept k <$> ns) opts g = geth_call_traces rr ns opts g.
  Proof.
    intros Hb. destruct ns as [|n ns]; [done|]. unfold geth_call_traces. cbn [fmap list_fmap].
    change (geth_selfdestruct_call_trace (kept k n)) with (geth_selfdestruct_call_trace n).
    rewrite empty_frame_kept by done. destruct (unwrap_or_default_bool (only_top_call opts)); [done|].
    change (list_fmap _ _ (kept k) ns) with (kept k <$> ns).
    change (kept k n :: (kept k <$> ns)) with (kept k <$> n :: ns). rewrite frames_kept, fmap_length by done.
    destruct (rfold _ _ _); cbn [rbind]; [|done..]. by rewrite roll_up_kept, fmap_length.
  Qed.
End Calls.

Section Logs.
  Context (k : keep) (Hk : k_steps k = true) (opts : GethDefaultTracingOptions).
  Context (Hs : is_stack_enabled opts = true -> k_stack k = true) (Hm : is_memory_enabled opts = true -> k_memory k = true)
          (Hd : is_storage_enabled opts = true -> k_diff k = true).

  Definition kept_item (i : StackItem) : StackItem := mkItem (kept k (it_node i)) (kept_step k (it_step i)) (it_child i).
  Lemma step_items_kept n steps : forall c,
    step_items (kept k n) c (kept_step k <$> steps) = kept_item <$> step_items n c steps.
  Proof.
    induction steps as [|s steps IH]; intros c; [done|]. cbn [fmap list_fmap step_items].
    change (st_is_calllike (kept_step k s)) with (st_is_calllike s). change (nd_children (kept k n)) with (nd_children n).
    change (list_fmap _ _ (kept_step k) steps) with (kept_step k <$> steps).
    destruct (st_is_calllike s); [destruct (nd_children n !! c)|]; cbn [list_fmap]; by rewrite IH.
  Qed.
  Lemma call_step_stack_kept n : call_step_stack (kept k n) = kept_item <$> call_step_stack n.
  Proof. unfold call_step_stack. rewrite <- step_items_kept. unfold kept at 2. cbn. by rewrite Hk. Qed.
  Lemma struct_log_kept s st rd : struct_log (kept_step k s) opts st rd = struct_log s opts st rd.
  Proof.
    unfold struct_log, kept_step. cbn. f_equal.
    - destruct (is_stack_enabled opts); [|done]. by rewrite Hs.
    - destruct (is_memory_enabled opts); [|done]. by rewrite Hm.
  Qed.
  Lemma fill_geth_kept fuel ns : forall stack storage logs,
    fill_geth_trace fuel (kept k <$> ns) opts (kept_item <$> stack) storage logs =
    fill_geth_trace fuel ns opts stack storage logs.
  Proof.
    induction fuel as [|fuel IH]; intros [|[n s c] stack] storage logs; try done.
    cbn [fmap list_fmap fill_geth_trace kept_item it_node it_step it_child].
    change (list_fmap _ _ kept_item stack) with (kept_item <$> stack).
    change (st_contract (kept_step k s)) with (st_contract s).
    change (tr_output (nd_trace (kept k n))) with (tr_output (nd_trace n)).
    assert (Hsc : (if is_storage_enabled opts then st_storage_change (kept_step k s) else None) =
                  (if is_storage_enabled opts then st_storage_change s else None)).
    { destruct (is_storage_enabled opts); [|done]. cbn. by rewrite Hd. }
    destruct c as [c|].
    - rewrite index_kept. destruct (is_storage_enabled opts).
      + rewrite Hsc. destruct (st_storage_change s); rewrite struct_log_kept;
          (destruct (index ns c) as [m| |]; cbn [rmap rbind]; [|done..]); by rewrite call_step_stack_kept, <- fmap_app, IH.
      + rewrite struct_log_kept. destruct (index ns c) as [m| |]; cbn [rmap rbind]; [|done..].
        by rewrite call_step_stack_kept, <- fmap_app, IH.
    - destruct (is_storage_enabled opts).
      + rewrite Hsc. destruct (st_storage_change s); rewrite struct_log_kept; cbn [rbind]; by rewrite IH.
      + rewrite struct_log_kept. cbn [rbind]. by rewrite IH.
  Qed.
  Lemma total_steps_kept ns : total_steps (kept k <$> ns) = total_steps ns.
  Proof.
    induction ns as [|n ns IH]; [done|]. cbn [fmap list_fmap total_steps].
    change (list_fmap _ _ (kept k) ns) with (kept k <$> ns). rewrite IH. f_equal. cbn. by rewrite Hk, fmap_length.
  Qed.
  Lemma geth_traces_kept ns g v : geth_traces (kept k <$> ns) g v opts = geth_traces ns g v opts.
  Proof.
    destruct ns as [|n ns]; [done|]. cbn [fmap list_fmap]. unfold geth_traces.
    change (kept k n :: (kept k <$> ns)) with (kept k <$> n :: ns).
    by rewrite total_steps_kept, call_step_stack_kept, fill_geth_kept.
  Qed.
End Logs.
