(** * AloneProofs: the traces of a call at any depth *)

From Verif Require Import SpecRecord SpecTx ExecProofs GethProofs CreatedProofs.
From Verif Require Export LedgerProofs SpecAlone.
Local Open Scope nat_scope.

Section Alone.
  Context (cfg : TracingInspectorConfig) (w w' : world) (Hw : forall a, w_precompiles w' a = w_precompiles w a).

  Lemma hidden_same v s : hidden_call cfg w' v s = hidden_call cfg w v s.
  Proof. unfold hidden_call. by rewrite Hw. Qed.

  Lemma below_entries a p v n g : map (below a) (frame_entries w' false v p n g) = frame_entries w false v (a ++ p) n g.
  Proof.
    unfold frame_entries. destruct (refund_of g) as [r|]; [destruct (default _ r)|]; cbn [map]; unfold below, spec_entry; cbn [tt_action tt_error tt_result tt_address tt_subtraces];
      rewrite ?app_assoc; done.
  Qed.
  Lemma filter_hidden v (l : list frame) :
    List.filter (fun h => negb (hidden_call cfg w' v (f_start h))) l = List.filter (fun h => negb (hidden_call cfg w v (f_start h))) l.
  Proof. apply List.filter_ext. intros h. by rewrite hidden_same. Qed.

  Lemma below_traces g : forall a p v, map (below a) (spec_traces cfg w' false v p g) = spec_traces cfg w false v (a ++ p) g.
  Proof.
    induction g as [s body e IH] using frame_ind'. intros a p v. rewrite !spec_traces_unfold, map_app, below_entries, filter_hidden. f_equal.
    generalize 0. induction IH as [|h r Hh _ IHr]; intros k; [done|]. cbn [sub_traces]. rewrite hidden_same.
    destruct (hidden_call _ _ _ _); [apply IHr|]. by rewrite map_app, Hh, IHr, app_assoc.
  Qed.

  (** The root's entry alone depends on being the root. *)
  Lemma root_entry g v a : exists e e' r, spec_traces cfg w' true v [] g = e' :: r /\
    spec_traces cfg w false v a g = e :: map (below a) r /\ without_gas e = without_gas (below a e').
  Proof.
    destruct g as [s body e]. rewrite !spec_traces_unfold, filter_hidden. set (n := length _).
    assert (Hs : map (below a) (sub_traces cfg w' v [] 0 (subs body)) = sub_traces cfg w v a 0 (subs body)).
    { generalize 0. induction (subs body) as [|h r IH]; intros k; [done|]. cbn [sub_traces]. rewrite hidden_same.
      destruct (hidden_call _ _ _ _); [apply IH|]. rewrite map_app, IH, below_traces. done. }
    rewrite <-Hs. unfold frame_entries.
    assert (He : forall m, without_gas (spec_entry w false v a m (Frame s body e)) = without_gas (below a (spec_entry w' true v [] m (Frame s body e)))).
    { intros m. unfold without_gas, below, spec_entry, spec_action, spec_output. cbn [tt_action tt_error tt_result tt_address tt_subtraces].
      rewrite app_nil_r. f_equal; [by destruct (is_call _)|]. destruct (status _); try done; by destruct (is_call _). }
    destruct (refund_of _) as [x|]; [destruct (default _ x) as [t q]|]; cbn [app]; do 3 eexists; (split; [reflexivity|]); (split; [|apply He]); done.
  Qed.

  (** The entries below the address of a call. *)
  Lemma made_block v f u g : made cfg w v f u g -> forall root p, exists a, a <> [] /\
    List.filter (fun x => bool_decide ((p ++ a) `prefix_of` tt_address x)) (spec_traces cfg w root v p f) = spec_traces cfg w false u (p ++ a) g.
  Proof.
    assert (Hkey : forall v s body e h, In h (subs body) -> hidden_call cfg w v (f_start h) = false -> forall root p, exists k,
      forall a, List.filter (fun x => bool_decide ((p ++ k :: a) `prefix_of` tt_address x)) (spec_traces cfg w root v p (Frame s body e)) =
        List.filter (fun x => bool_decide ((p ++ k :: a) `prefix_of` tt_address x)) (spec_traces cfg w false (call_value v (f_start h)) (p ++ [k]) h)).
    { clear. intros v s body e h Hin Hh root p. apply in_split in Hin as (l1 & l2 & Hb).
      exists (length (List.filter (fun h => negb (hidden_call cfg w v (f_start h))) l1)). intros a.
      rewrite spec_traces_unfold, Hb, List.filter_app. rewrite filter_none.
      2: { intros x Hx. apply bool_decide_eq_false_2. apply frame_entries_address in Hx as [Hx|Hx].
           - eapply longer; [|exact Hx]. exists a. by rewrite <-app_assoc.
           - eapply (apart p); [|exists a; by rewrite <-app_assoc|by rewrite Hx].
             rewrite List.filter_app, app_length. cbn [List.filter]. rewrite Hh. cbn. lia. }
      cbn [app]. clear Hb.
      assert (G : forall l1 k, List.filter (fun x => bool_decide ((p ++ (k + length (List.filter (fun h => negb (hidden_call cfg w v (f_start h))) l1)) :: a) `prefix_of` tt_address x))
          (sub_traces cfg w v p k (l1 ++ h :: l2)) =
        List.filter (fun x => bool_decide ((p ++ (k + length (List.filter (fun h => negb (hidden_call cfg w v (f_start h))) l1)) :: a) `prefix_of` tt_address x))
          (spec_traces cfg w false (call_value v (f_start h)) (p ++ [k + length (List.filter (fun h => negb (hidden_call cfg w v (f_start h))) l1)]) h)).
      2: by apply (G l1 0).
      clear l1. induction l1 as [|x l1 IH]; intros k.
      - cbn [app List.filter length sub_traces]. rewrite Hh, Nat.add_0_r, List.filter_app, (filter_none _ (sub_traces _ _ _ _ _ _)); [by rewrite app_nil_r|].
        intros y Hy. apply bool_decide_eq_false_2. destruct (sub_traces_prefix _ _ _ _ _ _ _ Hy) as (j & Hj & Hp).
        eapply (apart p k j); [lia|exists a; by rewrite <-app_assoc|done].
      - cbn [app List.filter sub_traces]. destruct (hidden_call cfg w v (f_start x)); cbn [negb]; [apply IH|]. cbn [length].
        rewrite List.filter_app, filter_none.
        + cbn [app]. rewrite <-Nat.add_succ_comm. apply IH.
        + intros y Hy. apply bool_decide_eq_false_2. apply spec_traces_prefix in Hy.
          eapply (apart p _ k); [|exists a; by rewrite <-app_assoc|done]. lia. }
    induction 1 as [v s body e g Hin Hh|v s body e h u g Hin Hh _ IH]; intros root p; destruct (Hkey v s body e _ Hin Hh root p) as (k & Hk).
    - exists [k]. split; [done|]. rewrite Hk. apply filter_all. intros x Hx. apply bool_decide_eq_true_2. by eapply spec_traces_prefix.
    - destruct (IH false (p ++ [k])) as (a & _ & Ha). exists (k :: a). split; [done|]. rewrite Hk.
      rewrite <-app_assoc in Ha. exact Ha.
  Qed.

  Lemma made_every (P : frame -> Prop) v f u g : made cfg w v f u g -> every_frame P f -> every_frame P g.
  Proof.
    induction 1 as [v s body e g Hin _|v s body e h u g Hin _ _ IH]; intros H; apply every_frame_inv in H as [_ H];
      rewrite List.Forall_forall in H; [by apply H|by apply IH, H].
  Qed.
  Lemma made_value v f u g : made cfg w v f u g -> is_delegatecall (f_start g) = false -> u = spec_value (f_start g).
  Proof. induction 1 as [v s body e g Hin _|v s body e h u g Hin _ _ IH]; intros H; [unfold call_value; by rewrite H|by apply IH]. Qed.

  (** *** The call tree, without logs *)
  Context (rr : bytes -> option string).
  Definition sub_calls (ww : world) (gas : u64) (ok : bool) (v : U256) (l : list frame) : list CallFrame :=
    map (fun h => spec_calls rr cfg ww false gas false ok (call_value v (f_start h)) h) l.
  Lemma spec_calls_unfold ww gas root ok v s body e :
    spec_calls rr cfg ww false gas root ok v (Frame s body e) =
    mkCF (spec_info rr cfg ww root gas v false (Frame s body e)) (sub_calls ww gas (ok && spec_success (status e)) v (subs body)).
  Proof.
    cbn [spec_calls andb]. f_equal. unfold sub_calls. induction body as [|it body IH]; [done|]. destruct it as [o|h|g]; [apply IH..|].
    change (subs (ISub g :: body)) with (g :: subs body). cbn [map]. by rewrite IH.
  Qed.
  Lemma calls_same g : forall gas gas' ok ok' v,
    spec_calls rr cfg w false gas false ok v g = spec_calls rr cfg w' false gas' false ok' v g.
  Proof.
    induction g as [s body e IH] using frame_ind'. intros gas gas' ok ok' v. rewrite !spec_calls_unfold. f_equal. unfold sub_calls.
    induction IH as [|h r Hh _ IHr]; [done|]. cbn [map]. f_equal; [apply Hh|apply IHr].
  Qed.
  Lemma made_inside v f u g : made cfg w v f u g -> forall gas root ok, exists ok',
    inside (spec_calls rr cfg w false gas false ok' u g) (spec_calls rr cfg w false gas root ok v f).
  Proof.
    induction 1 as [v s body e g Hin _|v s body e h u g Hin _ _ IH]; intros gas root ok; rewrite spec_calls_unfold.
    - eexists. apply inside_here. unfold sub_calls. apply in_map_iff. by exists g.
    - destruct (IH gas false (ok && spec_success (status e))) as (ok' & Hi). exists ok'. eapply inside_deeper; [|exact Hi].
      unfold sub_calls. apply in_map_iff. by exists h.
  Qed.

  (** *** The call tree with logs *)
  Definition sub_calls_logs (ww : world) (b : bool) (gas : u64) (ok : bool) (v : U256) (l : list frame) : list CallFrame :=
    map (fun h => spec_calls rr cfg ww b gas false ok (call_value v (f_start h)) h) l.
  Lemma spec_calls_logs ww b gas root ok v s body e :
    spec_calls rr cfg ww b gas root ok v (Frame s body e) =
    mkCF (spec_info rr cfg ww root gas v (b && (root || (ok && spec_success (status e)))) (Frame s body e))
      (sub_calls_logs ww b gas (ok && spec_success (status e)) v (subs body)).
  Proof.
    cbn [spec_calls]. f_equal. unfold sub_calls_logs. induction body as [|it body IH]; [done|]. destruct it as [o|h|g]; [apply IH..|].
    change (subs (ISub g :: body)) with (g :: subs body). cbn [map]. by rewrite IH.
  Qed.
  Lemma calls_logs_same b g : forall gas gas' ok v,
    spec_calls rr cfg w b gas false ok v g = spec_calls rr cfg w' b gas' false ok v g.
  Proof.
    induction g as [s body e IH] using frame_ind'. intros gas gas' ok v. rewrite !spec_calls_logs. f_equal. unfold sub_calls_logs.
    induction IH as [|h r Hh _ IHr]; [done|]. cbn [map]. f_equal; [apply Hh|apply IHr].
  Qed.
  Lemma made_kept_made v f u g : made_kept cfg w v f u g -> made cfg w v f u g.
  Proof. induction 1; [by apply made_here|by eapply made_deeper]. Qed.
  Lemma kept_inside b v f u g : made_kept cfg w v f u g -> forall gas root,
    inside (spec_calls rr cfg w b gas false true u g) (spec_calls rr cfg w b gas root true v f).
  Proof.
    induction 1 as [v s body e g Hs Hin _|v s body e h u g Hs Hin _ _ IH]; intros gas root; rewrite spec_calls_logs, Hs; cbn [andb].
    - apply inside_here. unfold sub_calls_logs. apply in_map_iff. by exists g.
    - eapply inside_deeper; [|apply (IH gas false)]. unfold sub_calls_logs. apply in_map_iff. by exists h.
  Qed.
End Alone.
