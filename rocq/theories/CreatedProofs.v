(** * CreatedProofs: the entries in effect, as a function of the execution *)

From Verif Require Import SpecRecord SpecTx.
From Verif Require Export LedgerProofs SpecCreated.

Section Effect.
  Context (cfg : TracingInspectorConfig) (w : world).

  (** The entries of the frames that succeed inside frames that succeed. *)
  Fixpoint effect_traces (root : bool) (v : U256) (p : list nat) (g : frame) : list TransactionTrace :=
    match g with
    | Frame s body e =>
        if frame_ok_result e then
          frame_entries w root v p (length (List.filter (fun h => negb (hidden_call cfg w v (f_start h))) (subs body))) g
          ++ (fix go (k : nat) (l : list item) : list TransactionTrace :=
                match l with
                | [] => []
                | ISub h :: r =>
                    if hidden_call cfg w v (f_start h) then go k r
                    else effect_traces false (call_value v (f_start h)) (p ++ [k]) h ++ go (S k) r
                | _ :: r => go k r
                end) 0 body
        else []
    end.
  Fixpoint sub_effect (v : U256) (p : list nat) (k : nat) (l : list frame) : list TransactionTrace :=
    match l with
    | [] => []
    | h :: r => if hidden_call cfg w v (f_start h) then sub_effect v p k r
                else effect_traces false (call_value v (f_start h)) (p ++ [k]) h ++ sub_effect v p (S k) r
    end.
  Lemma effect_traces_unfold root v p s body e :
    effect_traces root v p (Frame s body e) =
    if frame_ok_result e then
      frame_entries w root v p (length (List.filter (fun h => negb (hidden_call cfg w v (f_start h))) (subs body))) (Frame s body e)
        ++ sub_effect v p 0 (subs body)
    else [].
  Proof.
    cbn [effect_traces]. destruct (frame_ok_result e); [|done]. f_equal. generalize 0.
    induction body as [|it body IH]; intros k; [done|]. destruct it as [o|h|g]; [apply IH..|].
    change (subs (ISub g :: body)) with (g :: subs body). cbn [sub_effect]. destruct (hidden_call _ _ _ _); [apply IH|]. by rewrite IH.
  Qed.

  Lemma filter_ext_in' {A} (P Q : A -> bool) l : (forall x, In x l -> P x = Q x) -> List.filter P l = List.filter Q l.
  Proof. apply List.filter_ext_in. Qed.
  Lemma filter_all {A} (P : A -> bool) l : (forall x, In x l -> P x = true) -> List.filter P l = l.
  Proof.
    induction l as [|x l IH]; intros H; [done|]. cbn. rewrite H by (by left). f_equal. apply IH. intros y Hy. apply H. by right.
  Qed.
  Lemma filter_none {A} (P : A -> bool) l : (forall x, In x l -> P x = false) -> List.filter P l = [].
  Proof.
    induction l as [|x l IH]; intros H; [done|]. cbn. rewrite H by (by left). apply IH. intros y Hy. apply H. by right.
  Qed.

  Lemma effect_reading g : forall root v p,
    List.filter (in_effect (spec_traces cfg w root v p g)) (spec_traces cfg w root v p g) = effect_traces root v p g.
  Proof.
    induction g as [s body e IH] using frame_ind'. intros root v p.
    rewrite effect_traces_unfold, spec_traces_unfold. set (n := length (List.filter _ _)). set (E := frame_entries _ _ _ _ _ _). set (G := sub_traces _ _ _ _ _ _).
    destruct (frame_ok_result e) eqn:Ho.
    - assert (HE : forall t, in_effect E t = true).
      { intros t. apply forallb_forall. intros x Hx. by rewrite (ok_no_errors w _ _ _ _ _ _ _ _ Ho Hx). }
      assert (HT : forall t, in_effect (E ++ G) t = in_effect G t) by (intros t; by rewrite in_effect_app, HE).
      rewrite List.filter_app. rewrite (filter_all _ E).
      2: { intros t Ht. rewrite HT. apply in_effect_apart. intros x Hx. destruct (sub_traces_prefix _ _ _ _ _ _ _ Hx) as (j & Hj & Hp).
           apply frame_entries_address in Ht as [Ht|Ht]; [by eapply longer|]. eapply (apart p j n); [unfold n; lia|done|by rewrite Ht]. }
      f_equal. rewrite (filter_ext_in' _ (in_effect G)) by (intros; apply HT). unfold G. clear HT HE E G n Ho. generalize 0.
      induction (subs body) as [|h r IHr]; intros k; [done|]. cbn [sub_traces sub_effect].
      inversion_clear IH as [|? ? Ih Ir]. specialize (IHr Ir).
      destruct (hidden_call cfg w v (f_start h)) eqn:Hh; [apply IHr|].
      rewrite List.filter_app. f_equal.
      + rewrite <- Ih. apply filter_ext_in'. intros t Ht. rewrite in_effect_app. rewrite (in_effect_apart (sub_traces _ _ _ _ _ _)); [by rewrite andb_true_r|].
        intros x Hx. destruct (sub_traces_prefix _ _ _ _ _ _ _ Hx) as (j & Hj & Hp). apply spec_traces_prefix in Ht.
        eapply (apart p j k); [lia|done..].
      + rewrite <- (IHr (S k)). apply filter_ext_in'. intros t Ht. rewrite in_effect_app.
        rewrite (in_effect_apart (spec_traces _ _ _ _ _ _)); [done|]. intros x Hx. destruct (sub_traces_prefix _ _ _ _ _ _ _ Ht) as (j & Hj & Hp).
        apply spec_traces_prefix in Hx. eapply (apart p k j); [lia|done..].
    - apply filter_none. intros t Ht.
      assert (Hp : p `prefix_of` tt_address t).
      { eapply (spec_traces_prefix cfg w (Frame s body e) root v). rewrite spec_traces_unfold. exact Ht. }
      assert (Hok : spec_success (status e) = false) by (unfold frame_ok_result, status, spec_success in *; by destruct (ir_result (fe_result e))).
      assert (Hx : exists x err, In x E /\ tt_error x = Some err /\ tt_address x = p).
      { unfold E, frame_entries. destruct (refund_of _) as [r|]; [destruct (default _ r)|]; (eexists _, _; split_and!; [by left| |done]);
          unfold spec_entry; cbn; by rewrite Hok. }
      destruct Hx as (x & err & Hx & Herr & Hxp). eapply in_effect_out; [apply in_app_iff; by left|done|]. by rewrite Hxp.
  Qed.

  (** *** What the entries of a frame say *)
  Lemma created_unfold s body e : created_by (Frame s body e) =
    if frame_ok_result e then
      (match s with SCreate _ i => [(cr_created_address i, ir_output (fe_result e))] | SCall _ _ => [] end) ++ flat_map created_by (subs body)
    else [].
  Proof.
    cbn [created_by]. destruct (frame_ok_result e); [|done]. f_equal. induction body as [|it body IH]; [done|]. cbn [flat_map]. rewrite IH. by destruct it.
  Qed.
  Lemma destroyed_unfold s body e : destroyed_by (Frame s body e) =
    if frame_ok_result e then selfdestructs_of (hooks body) ++ flat_map destroyed_by (subs body) else [].
  Proof.
    cbn [destroyed_by]. destruct (frame_ok_result e); [|done]. f_equal. induction body as [|it body IH]; [done|]. cbn [flat_map]. rewrite IH. by destruct it.
  Qed.
  Lemma created_entries root v p n s body e : frame_ok_result e = true -> evm_value w (Frame s body e) ->
    flat_map created_entry (frame_entries w root v p n (Frame s body e)) =
    match s with SCreate _ i => [(cr_created_address i, ir_output (fe_result e))] | SCall _ _ => [] end.
  Proof.
    intros Ho Hv. inversion_clear Hv as [? ? ? (Hc & _ & _) _]. cbn [f_start f_end] in Hc.
    assert (He : forall m, created_entry (spec_entry w root v p m (Frame s body e)) =
      match s with SCreate _ i => [(cr_created_address i, ir_output (fe_result e))] | SCall _ _ => [] end).
    { intros m. unfold created_entry, spec_entry, spec_action. cbn [tt_action tt_result f_start f_end]. destruct s as [j i|j i]; cbn [is_call]; [done|].
      unfold spec_output. cbn [f_start is_call f_end]. unfold spec_address. cbn [f_start f_end]. rewrite (Hc eq_refl Ho).
      unfold frame_ok_result in Ho. unfold status. by destruct (ir_result (fe_result e)). }
    unfold frame_entries. destruct (refund_of _) as [r|]; [destruct (default _ r)|]; cbn [flat_map]; rewrite He; by rewrite ?app_nil_r.
  Qed.
  Lemma destroyed_entries root v p n s body e : frame_ok_result e = true -> evm_addresses (Frame s body e) -> evm_value w (Frame s body e) ->
    evm_selfdestructs (Frame s body e) ->
    flat_map destroyed_entry (frame_entries w root v p n (Frame s body e)) = selfdestructs_of (hooks body).
  Proof.
    intros Ho Ha Hv Hs. inversion_clear Ha as [? ? ? (_ & Ha' & _) _]. inversion_clear Hv as [? ? ? (Hc & H1 & _) _].
    inversion_clear Hs as [? ? ? Hs' _]. cbn [f_start f_body f_end] in Ha', Hc, H1, Hs'.
    assert (He : forall m, destroyed_entry (spec_entry w root v p m (Frame s body e)) = []).
    { intros m. unfold destroyed_entry, spec_entry, spec_action. cbn [tt_action]. by destruct (is_call _). }
    unfold frame_entries, refund_of. cbn [f_body f_end].
    destruct (selfdestructs_of (hooks body)) as [|[[c t] x] [|y l]] eqn:E; [| |cbn in H1; lia].
    - cbn [last]. destruct (status e); cbn [flat_map]; rewrite ?He; try done. by destruct Hs'.
    - cbn [last default id flat_map]. rewrite He. cbn. apply Forall_cons_1 in Ha' as [Ec _]. cbn in Ec. subst c.
      unfold spec_address. cbn [f_start f_body f_end]. rewrite E. cbn. destruct s as [j i|j i]; [done|]. by rewrite (Hc eq_refl Ho).
  Qed.

  Lemma hidden_created v g : hidden_call cfg w v (f_start g) = true -> (exclude_precompile_calls cfg = true -> precompiles_are_leaves w g) ->
    evm_value w g -> created_by g = [] /\ destroyed_by g = [].
  Proof.
    destruct g as [s body e]. cbn [f_start]. unfold hidden_call. intros Hh Hl Hv.
    apply andb_prop in Hh as [[[Hx Hc]%andb_prop Hp]%andb_prop Hz]. specialize (Hl Hx).
    inversion_clear Hl as [? ? ? Hl' _]. inversion_clear Hv as [? ? ? (_ & _ & Hv') _]. cbn [f_start f_body] in Hl', Hv'.
    rewrite created_unfold, destroyed_unfold, (Hl' Hc Hp), (Hv' Hc Hp). destruct (frame_ok_result e); [|done]. by destruct s.
  Qed.

  Lemma effect_created g : forall root v p, (exclude_precompile_calls cfg = true -> precompiles_are_leaves w g) -> evm_value w g ->
    flat_map created_entry (effect_traces root v p g) = created_by g.
  Proof.
    induction g as [s body e IH] using frame_ind'. intros root v p Hl Hv. rewrite effect_traces_unfold, created_unfold.
    destruct (frame_ok_result e) eqn:Ho; [|done]. rewrite flat_map_app, created_entries by done. f_equal.
    assert (Hl' : exclude_precompile_calls cfg = true -> Forall (precompiles_are_leaves w) (subs body))
      by (intros Hx; specialize (Hl Hx); by inversion_clear Hl).
    assert (Hv' : Forall (evm_value w) (subs body)) by (by inversion_clear Hv). clear Hl Hv Ho. generalize 0.
    induction (subs body) as [|h r IHr]; intros k; [done|]. cbn [flat_map sub_effect].
    inversion_clear IH as [|? ? Ih Ir]. inversion_clear Hv' as [|? ? Vh Vr].
    assert (Lr : exclude_precompile_calls cfg = true -> Forall (precompiles_are_leaves w) r) by (intros Hx; specialize (Hl' Hx); by inversion_clear Hl').
    assert (Lh : exclude_precompile_calls cfg = true -> precompiles_are_leaves w h) by (intros Hx; specialize (Hl' Hx); by inversion_clear Hl').
    destruct (hidden_call cfg w v (f_start h)) eqn:Hh.
    - destruct (hidden_created v h Hh Lh Vh) as [-> _]. by apply IHr.
    - rewrite flat_map_app, Ih, IHr by done. done.
  Qed.
  Lemma effect_destroyed g : forall root v p, (exclude_precompile_calls cfg = true -> precompiles_are_leaves w g) -> evm_addresses g ->
    evm_value w g -> evm_selfdestructs g -> flat_map destroyed_entry (effect_traces root v p g) = destroyed_by g.
  Proof.
    induction g as [s body e IH] using frame_ind'. intros root v p Hl Ha Hv Hs. rewrite effect_traces_unfold, destroyed_unfold.
    destruct (frame_ok_result e) eqn:Ho; [|done]. rewrite flat_map_app, destroyed_entries by done. f_equal.
    assert (Hl' : exclude_precompile_calls cfg = true -> Forall (precompiles_are_leaves w) (subs body))
      by (intros Hx; specialize (Hl Hx); by inversion_clear Hl).
    assert (Ha' : Forall evm_addresses (subs body)) by (by inversion_clear Ha).
    assert (Hs' : Forall evm_selfdestructs (subs body)) by (by inversion_clear Hs).
    assert (Hv' : Forall (evm_value w) (subs body)) by (by inversion_clear Hv). clear Hl Ha Hs Hv Ho. generalize 0.
    induction (subs body) as [|h r IHr]; intros k; [done|]. cbn [flat_map sub_effect].
    inversion_clear IH as [|? ? Ih Ir]. inversion_clear Hv' as [|? ? Vh Vr]. inversion_clear Ha' as [|? ? Ah Ar]. inversion_clear Hs' as [|? ? Sh Sr].
    assert (Lr : exclude_precompile_calls cfg = true -> Forall (precompiles_are_leaves w) r) by (intros Hx; specialize (Hl' Hx); by inversion_clear Hl').
    assert (Lh : exclude_precompile_calls cfg = true -> precompiles_are_leaves w h) by (intros Hx; specialize (Hl' Hx); by inversion_clear Hl').
    destruct (hidden_call cfg w v (f_start h)) eqn:Hh.
    - destruct (hidden_created v h Hh Lh Vh) as [_ ->]. by apply IHr.
    - rewrite flat_map_app, Ih, IHr by done. done.
  Qed.
End Effect.

(** ** The geth call tree *)
Lemma tree_created_without : forall c, tree_created (without_selfdestructs c) = tree_created c.
Proof.
  fix IH 1. intros [i calls]. cbn [without_selfdestructs tree_created]. destruct (String.eqb _ _); [done|]. destruct (fi_error i); [done|]. f_equal.
  induction calls as [|x l IHl]; [done|]. specialize (IH x). rewrite <- IH, <- IHl.
  case_bool_decide as E; [|done]. destruct x as [j cs]. cbn [cf_info] in E. cbn [without_selfdestructs tree_created]. by rewrite E.
Qed.

Lemma tree_created_reading rr cfg w lg gas g : forall root ok v, evm_addresses g -> evm_value w g ->
  tree_created (spec_calls rr cfg w lg gas root ok v g) = created_by g.
Proof.
  induction g as [s body e IH] using frame_ind'. intros root ok v Ha Hv. cbn [spec_calls tree_created]. rewrite created_unfold.
  set (i := spec_info _ _ _ _ _ _ _ _). set (ok' := ok && _).
  inversion_clear Ha as [? ? ? (_ & Ha' & _) As]. inversion_clear Hv as [? ? ? (Hc & _ & _) Vs]. cbn [f_start f_body f_end] in Ha', Hc.
  assert (Ht : fi_typ i = spec_call_name (spec_kind s)) by done.
  assert (String.eqb (fi_typ i) "SELFDESTRUCT" = false) as ->.
  { rewrite Ht. destruct s as [j c|j c]; cbn [spec_kind]; [by destruct (ci_scheme c)|by destruct (cr_scheme c)]. }
  assert (Herr : fi_error i = if frame_ok_result e then None else Some (spec_parity_error (status e))).
  { unfold i, spec_info. cbn. unfold spec_success, frame_ok_result, status. by destruct (ir_result (fe_result e)). }
  rewrite Herr. destruct (frame_ok_result e) eqn:Ho; [|done]. f_equal.
  - rewrite Ht. destruct s as [j c|j c]; cbn [spec_kind]; [by destruct (ci_scheme c)|].
    assert (Hto : fi_to i = Some (cr_created_address c)).
    { unfold i, spec_info. cbn [fi_to]. unfold spec_address. cbn [f_body f_start f_end]. rewrite (Hc eq_refl eq_refl). cbn [executing_account].
      destruct (last (selfdestructs_of (hooks body))) as [[[x y] z]|] eqn:E; [|done].
      apply last_Some in E as [l' E]. rewrite E in Ha'. apply Forall_app in Ha' as [_ [Hx _]%Forall_cons_1]. cbn in Hx. by subst x. }
    rewrite Hto. assert (default [] (fi_output i) = ir_output (fe_result e)) as ->.
    { unfold i, spec_info. cbn. by destruct (ir_output (fe_result e)). }
    by destruct (cr_scheme c).
  - clear Ha' Hc Herr Ho Ht i. induction body as [|it body IHb]; [done|]. destruct it as [o|h|g]; [by apply IHb..|].
    change (subs (ISub g :: body)) with (g :: subs body) in *.
    inversion_clear IH as [|? ? H1 H2]. inversion_clear As as [|? ? S1 S2]. inversion_clear Vs as [|? ? V1 V2].
    cbn [flat_map]. rewrite H1, IHb by done. done.
Qed.
