(** * LedgerProofs: the balances after an execution and the sums over the reports *)

From Verif Require Import SpecRecord SpecTx.
From Verif Require Export SpecLedger.
Local Open Scope Z_scope.

(** ** Sums *)
Lemma zsum_app l1 l2 : zsum (l1 ++ l2) = zsum l1 + zsum l2.
Proof. induction l1 as [|x l1 IH]; cbn; [done|]. change (foldr Z.add 0) with zsum. rewrite IH. lia. Qed.
Lemma zsum_cons x l : zsum (x :: l) = x + zsum l.
Proof. done. Qed.
Lemma share_0 a b : share a b 0 = 0.
Proof. unfold share. by case_match. Qed.

(** ** The change an execution makes to the balance of [a] *)
Definition hook_delta (a : address) (h : hook) : Z :=
  match h with HSelfdestruct c t v => (if (c =? t)%N then 0 else share a t v) - share a c v | HLog _ _ => 0 end.
Definition start_delta (a : address) (s : fstart) : Z :=
  match s with
  | SCall _ i => match ci_value i with Transfer v => share a (ci_target_address i) v - share a (ci_caller i) v | Apparent _ => 0 end
  | SCreate _ i => share a (cr_created_address i) (cr_value i) - share a (cr_caller i) (cr_value i)
  end.
Fixpoint delta (a : address) (f : frame) : Z :=
  match f with
  | Frame s body e =>
      if frame_ok_result e then
        start_delta a s
        + zsum (map (fun it => match it with
                               | IOp o => zsum (map (hook_delta a) (op_hooks o))
                               | IHook h => hook_delta a h
                               | ISub g => delta a g
                               end) body)
      else 0
  end.
Lemma hooks_after a hs : forall b : ledger, fold_left (fun b h => hook_balances h b) hs b a = b a + zsum (map (hook_delta a) hs).
Proof.
  induction hs as [|h hs IH]; intros b; cbn [fold_left map zsum foldr]; [lia|]. change (foldr Z.add 0) with zsum. rewrite IH.
  destruct h as [j l|c t v]; cbn [hook_balances hook_delta]; unfold destroy; [lia|]. case_match; lia.
Qed.
Lemma after_delta a f : forall b : ledger, balances_after f b a = b a + delta a f.
Proof.
  induction f as [s body e IH] using frame_ind'. intros b. cbn [balances_after delta]. destruct (frame_ok_result e); [|lia].
  assert (Hs : start_balances s b a = b a + start_delta a s).
  { destruct s as [j i|j i]; cbn [start_balances start_delta]; [destruct (ci_value i)|]; unfold pay; lia. }
  rewrite Z.add_assoc, <- Hs. generalize (start_balances s b). clear b Hs.
  induction body as [|it body IHb]; intros b; cbn [map zsum foldr]; [lia|]. change (foldr Z.add 0) with zsum.
  destruct it as [o|h|g].
  - rewrite IHb, hooks_after by done. lia.
  - rewrite IHb by done. destruct h as [j l|c t v]; cbn [hook_balances hook_delta]; unfold destroy; [lia|]. case_match; lia.
  - change (subs (ISub g :: body)) with (g :: subs body) in IH. inversion_clear IH as [|? ? H1 H2].
    rewrite IHb, H1 by done. lia.
Qed.

(** By its hooks and its sub-frames. *)
Lemma delta_unfold a s body e :
  delta a (Frame s body e) =
  if frame_ok_result e then start_delta a s + zsum (map (hook_delta a) (hooks body)) + zsum (map (delta a) (subs body)) else 0.
Proof.
  cbn [delta]. destruct (frame_ok_result e); [|done]. rewrite <- Z.add_assoc. f_equal.
  induction body as [|it body IH]; [done|]. cbn [map]. rewrite zsum_cons, IH. destruct it as [o|h|g].
  - change (hooks (IOp o :: body)) with (op_hooks o ++ hooks body). change (subs (IOp o :: body)) with (subs body).
    rewrite map_app, zsum_app. lia.
  - change (hooks (IHook h :: body)) with (h :: hooks body). change (subs (IHook h :: body)) with (subs body).
    cbn [map]. rewrite zsum_cons. lia.
  - change (hooks (ISub g :: body)) with (hooks body). change (subs (ISub g :: body)) with (g :: subs body).
    cbn [map]. rewrite zsum_cons. lia.
Qed.
Lemma hook_deltas a hs :
  zsum (map (hook_delta a) hs) =
  zsum (map (fun x => (if (fst (fst x) =? snd (fst x))%N then 0 else share a (snd (fst x)) (snd x)) - share a (fst (fst x)) (snd x)) (selfdestructs_of hs)).
Proof.
  induction hs as [|h hs IH]; [done|]. cbn [map]. rewrite zsum_cons, IH. by destruct h as [j l|c t v].
Qed.

(** ** Transfers *)
Lemma effective_delta w a f : evm_value w f -> zsum (map (transferred a) (effective_movements true f)) = delta a f.
Proof.
  induction f as [s body e IH] using frame_ind'. intros Hv. inversion_clear Hv as [? ? ? (Hc & _ & _) Hsub]. cbn in Hc.
  rewrite delta_unfold. cbn [effective_movements]. destruct (frame_ok_result e) eqn:He; [|done].
  rewrite !map_app, !zsum_app.
  assert (Hse : zsum (map (transferred a) (call_movement s)) + zsum (map (transferred a) (create_movement s e)) = start_delta a s).
  { destruct s as [j i|j i]; cbn [call_movement create_movement start_delta].
    - destruct (ci_value i) as [v|v]; [|done]. destruct (0 <? v)%N eqn:Hz; cbn; [lia|].
      apply N.ltb_ge in Hz. assert (v = 0)%N as -> by lia. rewrite !share_0. lia.
    - cbn in Hc. rewrite (Hc eq_refl eq_refl). destruct (cr_scheme i); cbn; lia. }
  rewrite Z.add_assoc, (Z.add_comm (_ + _)), <- Hse. clear Hse.
  enough (zsum (map (transferred a) (flat_map (fun it => match it with
                               | IOp o => flat_map hook_movement (op_hooks o)
                               | IHook h => hook_movement h
                               | ISub g => effective_movements true g
                               end) body)) =
          zsum (map (hook_delta a) (hooks body)) + zsum (map (delta a) (subs body))) by lia.
  assert (Hh : forall hs, zsum (map (transferred a) (flat_map hook_movement hs)) = zsum (map (hook_delta a) hs)).
  { clear. induction hs as [|h hs IH]; [done|]. cbn [flat_map map]. rewrite map_app, zsum_app, zsum_cons, IH.
    destruct h; cbn; lia. }
  clear Hc. induction body as [|it body IHb]; [done|]. cbn [flat_map]. rewrite map_app, zsum_app. destruct it as [o|h|g].
  - change (hooks (IOp o :: body)) with (op_hooks o ++ hooks body). change (subs (IOp o :: body)) with (subs body) in *.
    rewrite IHb, Hh, map_app, zsum_app by done. lia.
  - change (hooks (IHook h :: body)) with (h :: hooks body). change (subs (IHook h :: body)) with (subs body) in *.
    rewrite IHb by done. cbn [map]. rewrite zsum_cons. destruct h; cbn; lia.
  - change (hooks (ISub g :: body)) with (hooks body). change (subs (ISub g :: body)) with (g :: subs body) in *.
    inversion_clear IH as [|? ? H1 H2]. inversion_clear Hsub as [|? ? H3 H4]. rewrite IHb, H1 by done. cbn [map]. rewrite zsum_cons. lia.
Qed.

(** ** Parity traces *)
Lemma in_effect_app l1 l2 t : in_effect (l1 ++ l2) t = in_effect l1 t && in_effect l2 t.
Proof. apply forallb_app. Qed.
Lemma in_effect_apart l t : (forall x, In x l -> ~ tt_address x `prefix_of` tt_address t) -> in_effect l t = true.
Proof.
  intros H. apply forallb_forall. intros x Hx. destruct (tt_error x); [|done]. apply negb_true_iff, bool_decide_eq_false_2. by apply H.
Qed.
Lemma in_effect_out l t x e : In x l -> tt_error x = Some e -> tt_address x `prefix_of` tt_address t -> in_effect l t = false.
Proof.
  intros Hx He Hp. destruct (in_effect l t) eqn:E; [|done]. unfold in_effect in E. rewrite forallb_forall in E.
  specialize (E _ Hx). rewrite He in E. rewrite bool_decide_eq_true_2 in E by done. done.
Qed.

Section Reading.
  Context (cfg : TracingInspectorConfig) (w : world) (a : address).

  (** The entries of the sub-frames. *)
  Fixpoint sub_traces (v : U256) (p : list nat) (k : nat) (l : list frame) : list TransactionTrace :=
    match l with
    | [] => []
    | h :: r => if hidden_call cfg w v (f_start h) then sub_traces v p k r
                else spec_traces cfg w false (call_value v (f_start h)) (p ++ [k]) h ++ sub_traces v p (S k) r
    end.
  Lemma spec_traces_unfold root v p s body e :
    spec_traces cfg w root v p (Frame s body e) =
    frame_entries w root v p (length (List.filter (fun h => negb (hidden_call cfg w v (f_start h))) (subs body))) (Frame s body e)
      ++ sub_traces v p 0 (subs body).
  Proof.
    cbn [spec_traces]. f_equal. generalize 0%nat. induction body as [|it body IH]; intros k; [done|]. destruct it as [o|h|g]; [apply IH..|].
    change (subs (ISub g :: body)) with (g :: subs body). cbn [sub_traces]. destruct (hidden_call _ _ _ _); [apply IH|]. by rewrite IH.
  Qed.

  Lemma frame_entries_address root v p n g t : In t (frame_entries w root v p n g) -> tt_address t = p \/ tt_address t = p ++ [n].
  Proof.
    unfold frame_entries. destruct (refund_of g) as [r|]; [destruct (default _ r)|]; cbn.
    - intros [<-|[<-|[]]]; cbn; eauto.
    - intros [<-|[]]; cbn; eauto.
  Qed.
  Lemma spec_traces_prefix g : forall root v p t, In t (spec_traces cfg w root v p g) -> p `prefix_of` tt_address t.
  Proof.
    induction g as [s body e IH] using frame_ind'. intros root v p t. rewrite spec_traces_unfold, in_app_iff. intros [H|H].
    - apply frame_entries_address in H as [->| ->]; [done|]. by apply prefix_app_r.
    - revert H. generalize 0%nat. induction IH as [|h r Hh _ IHr]; intros k H; [done|]. cbn [sub_traces] in H.
      destruct (hidden_call _ _ _ _); [by eapply IHr|]. apply in_app_iff in H as [H|H]; [|by eapply IHr].
      etransitivity; [|by apply (Hh _ _ _ _ H)]. by apply prefix_app_r.
  Qed.
  Lemma sub_traces_prefix v p l : forall k t, In t (sub_traces v p k l) ->
    exists j, (k <= j < k + length (List.filter (fun h => negb (hidden_call cfg w v (f_start h))) l))%nat /\ (p ++ [j]) `prefix_of` tt_address t.
  Proof.
    induction l as [|h r IH]; intros k t H; [done|]. cbn [sub_traces] in H. cbn [List.filter].
    destruct (hidden_call _ _ _ _); cbn [negb].
    - by apply IH.
    - cbn [length]. apply in_app_iff in H as [H|H].
      + exists k. split; [lia|]. by eapply spec_traces_prefix.
      + destruct (IH _ _ H) as (j & Hj & Hp). exists j. split; [lia|done].
  Qed.
  Lemma apart (p : list nat) (j k : nat) (t x : list nat) : j <> k -> (p ++ [j]) `prefix_of` x -> (p ++ [k]) `prefix_of` t -> ~ x `prefix_of` t.
  Proof.
    intros Hjk [x' ->] [t' ->] [y Hy]. rewrite <- !app_assoc in Hy. apply app_inv_head in Hy. cbn in Hy. by injection Hy as Hy _.
  Qed.
  Lemma longer (p : list nat) j x t : (p ++ [j]) `prefix_of` x -> t = p -> ~ x `prefix_of` t.
  Proof. intros H1 -> H2. apply prefix_length in H1, H2. rewrite app_length in H1. cbn in H1. lia. Qed.

  Definition sum_in (ctx l : list TransactionTrace) : Z := zsum (map (fun t => if in_effect ctx t then entry_paid a t else 0) l).
  Lemma sum_in_app ctx l1 l2 : sum_in ctx (l1 ++ l2) = sum_in ctx l1 + sum_in ctx l2.
  Proof. unfold sum_in. by rewrite map_app, zsum_app. Qed.
  Lemma sum_in_ext ctx ctx' l : (forall t, In t l -> in_effect ctx t = in_effect ctx' t) -> sum_in ctx l = sum_in ctx' l.
  Proof. intros H. unfold sum_in. f_equal. apply map_ext_in. intros t Ht. by rewrite H. Qed.
  Lemma sum_in_none ctx l : (forall t, In t l -> in_effect ctx t = false) -> sum_in ctx l = 0.
  Proof.
    intros H. unfold sum_in. induction l as [|t l IH]; [done|]. cbn [map]. rewrite zsum_cons, H by (by left). rewrite IH; [done|].
    intros x Hx. apply H. by right.
  Qed.
  Lemma sum_in_all ctx l : (forall t, In t l -> in_effect ctx t = true) -> sum_in ctx l = zsum (map (entry_paid a) l).
  Proof. intros H. unfold sum_in. f_equal. apply map_ext_in. intros t Ht. by rewrite H. Qed.

  (** A frame that is left out moves nothing. *)
  Lemma hidden_delta v g :
    hidden_call cfg w v (f_start g) = true -> (exclude_precompile_calls cfg = true -> precompiles_are_leaves w g) ->
    evm_schemes g -> evm_value w g -> delta a g = 0.
  Proof.
    destruct g as [s body e]. cbn [f_start]. unfold hidden_call. intros Hh Hl Hs Hv.
    apply andb_prop in Hh as [[[Hx Hc]%andb_prop Hp]%andb_prop Hz]. specialize (Hl Hx).
    inversion_clear Hl as [? ? ? Hl' _]. inversion_clear Hs as [? ? ? Hs' _]. inversion_clear Hv as [? ? ? (_ & _ & Hv') _].
    cbn [f_start f_body f_end] in Hl', Hs', Hv'. rewrite delta_unfold, hook_deltas, (Hl' Hc Hp), (Hv' Hc Hp). destruct (frame_ok_result e); [|done].
    cbn [map zsum foldr]. destruct s as [j i|]; [|done]. cbn [start_delta is_delegatecall spec_value] in *.
    destruct (ci_scheme i).
    - destruct Hs' as [x Hx']. rewrite Hx' in *. apply N.eqb_eq in Hz as ->. rewrite !share_0. lia.
    - destruct Hs' as [E [x Hx']]. rewrite Hx', E. lia.
    - destruct Hs' as [x Hx']. rewrite Hx'. lia.
    - rewrite Hs', !share_0. lia.
  Qed.

  (** The entries of a frame that succeeds. *)
  Lemma own_entries root v p n s body e : frame_ok_result e = true -> (is_delegatecall s = false -> v = spec_value s) ->
    evm_addresses (Frame s body e) -> evm_schemes (Frame s body e) -> evm_value w (Frame s body e) ->
    zsum (map (entry_paid a) (frame_entries w root v p n (Frame s body e))) = start_delta a s + zsum (map (hook_delta a) (hooks body)).
  Proof.
    intros Ho Hval Ha Hs Hv. inversion_clear Ha as [? ? ? (_ & Ha' & _) _]. inversion_clear Hs as [? ? ? Hs' _].
    inversion_clear Hv as [? ? ? (Hc & H1 & _) _]. cbn [f_start f_body f_end] in Ha', Hs', Hc, H1.
    assert (Hok : spec_success (status e) = true) by (unfold frame_ok_result, status, spec_success in *; by destruct (ir_result (fe_result e))).
    assert (Hres : forall m, tt_result (spec_entry w root v p m (Frame s body e)) = Some (spec_output w root (Frame s body e))).
    { intros m. unfold spec_entry. cbn. unfold spec_success in Hok. by destruct (status e). }
    assert (Hadr : selfdestructs_of (hooks body) = [] \/
      exists t x, selfdestructs_of (hooks body) = [(executing_account s, t, x)]).
    { destruct (selfdestructs_of (hooks body)) as [|[[c t] x] [|y l]]; [by left| |cbn in H1; lia].
      right. apply Forall_cons_1 in Ha' as [E _]. cbn in E. subst c. eauto. }
    assert (Hto : is_delegatecall s = false -> (match s with SCall _ i => ci_scheme i <> CSCallCode | _ => True end) ->
      spec_address (Frame s body e) = executing_account s).
    { intros Hd Hcc. unfold spec_address. cbn [f_body f_start f_end]. destruct s as [j i|j i].
      - destruct Hadr as [->|(t & x & ->)]; cbn; [|done]. cbn in Hd. by destruct (ci_scheme i).
      - by rewrite (Hc eq_refl Ho). }
    assert (Hself : selfdestructs_of (hooks body) <> [] -> spec_address (Frame s body e) = executing_account s).
    { intros Hne. destruct Hadr as [|(t & x & E)]; [done|]. unfold spec_address. cbn [f_body f_start f_end]. rewrite E. cbn.
      destruct s as [j i|j i]; [done|]. by rewrite (Hc eq_refl Ho). }
    assert (He : forall m, entry_paid a (spec_entry w root v p m (Frame s body e)) = start_delta a s).
    { intros m. unfold entry_paid. rewrite Hres. unfold spec_entry, spec_action. cbn [tt_action f_start].
      destruct s as [j i|j i]; cbn [is_call].
      - cbn [start_delta]. cbn [is_delegatecall spec_value] in Hval, Hto. unfold spec_call_type, spec_kind, spec_caller. destruct (ci_scheme i) eqn:Esc.
        + destruct Hs' as [x Hx]. rewrite Hx in *. rewrite Hto, Hval by done. done.
        + destruct Hs' as [E [x Hx]]. rewrite Hx, E. lia.
        + destruct Hs' as [x Hx]. by rewrite Hx.
        + by rewrite Hs', !share_0.
      - unfold spec_output. cbn [f_start is_call]. rewrite Hto, Hval by done. done. }
    rewrite hook_deltas. unfold frame_entries, refund_of. cbn [f_body f_end]. destruct Hadr as [E|(t & x & E)]; rewrite E; cbn [last].
    - destruct (status e) eqn:Est; cbn [default map]; rewrite ?zsum_cons, He; cbn; try lia.
      change (from_option id (0%N, 0%N) None) with (0%N, 0%N). cbn. rewrite !share_0. destruct (_ =? 0)%N; lia.
    - cbn [default map id]. cbn [map].
      rewrite !zsum_cons, He. cbn [zsum foldr]. unfold entry_paid. cbn [tt_action fst snd]. rewrite Hself by (by rewrite E). lia.
  Qed.
  Lemma ok_no_errors root v p n s body e t : frame_ok_result e = true -> In t (frame_entries w root v p n (Frame s body e)) -> tt_error t = None.
  Proof.
    intros Ho. assert (Hok : spec_success (status e) = true) by (unfold frame_ok_result, status, spec_success in *; by destruct (ir_result (fe_result e))).
    unfold frame_entries. destruct (refund_of _) as [r|]; [destruct (default _ r)|]; cbn [In].
    - intros [<-|[<-|[]]]; [|done]. unfold spec_entry. cbn. by rewrite Hok.
    - intros [<-|[]]. unfold spec_entry. cbn. by rewrite Hok.
  Qed.

  Lemma reading g : forall root v p, (is_delegatecall (f_start g) = false -> v = spec_value (f_start g)) ->
    (exclude_precompile_calls cfg = true -> precompiles_are_leaves w g) -> evm_addresses g -> evm_schemes g -> evm_value w g ->
    sum_in (spec_traces cfg w root v p g) (spec_traces cfg w root v p g) = delta a g.
  Proof.
    induction g as [s body e IH] using frame_ind'. intros root v p Hval Hl Ha Hs Hv. cbn [f_start] in Hval.
    rewrite spec_traces_unfold, delta_unfold. set (n := length (List.filter _ _)). set (E := frame_entries _ _ _ _ _ _). set (G := sub_traces _ _ _ _).
    destruct (frame_ok_result e) eqn:Ho.
    - assert (HE : forall t, in_effect E t = true).
      { intros t. apply forallb_forall. intros x Hx. by rewrite (ok_no_errors _ _ _ _ _ _ _ _ Ho Hx). }
      assert (HT : forall t, in_effect (E ++ G) t = in_effect G t) by (intros t; by rewrite in_effect_app, HE).
      rewrite sum_in_app. rewrite (sum_in_all (E ++ G) E).
      2: { intros t Ht. rewrite HT. apply in_effect_apart. intros x Hx. destruct (sub_traces_prefix _ _ _ _ _ Hx) as (j & Hj & Hp).
           apply frame_entries_address in Ht as [Ht|Ht]; [by eapply longer|]. eapply (apart p j n); [unfold n; lia|done|by rewrite Ht]. }
      unfold E. rewrite own_entries by done. f_equal. rewrite (sum_in_ext _ G) by (intros; apply HT). unfold G. clear HT HE E G n Hval.
      assert (Hl' : exclude_precompile_calls cfg = true -> Forall (precompiles_are_leaves w) (subs body))
        by (intros Hx; specialize (Hl Hx); by inversion_clear Hl).
      assert (Ha' : Forall evm_addresses (subs body)) by (by inversion_clear Ha).
      assert (Hs' : Forall evm_schemes (subs body)) by (by inversion_clear Hs).
      assert (Hv' : Forall (evm_value w) (subs body)) by (by inversion_clear Hv).
      clear Hl Ha Hs Hv Ho. generalize 0%nat.
      induction (subs body) as [|h r IHr]; intros k; [done|]. cbn [map sub_traces]. rewrite zsum_cons.
      inversion_clear IH as [|? ? Ih Ir]. inversion_clear Ha' as [|? ? Ah Ar]. inversion_clear Hs' as [|? ? Sh Sr].
      inversion_clear Hv' as [|? ? Vh Vr].
      assert (Lr : exclude_precompile_calls cfg = true -> Forall (precompiles_are_leaves w) r) by (intros Hx; specialize (Hl' Hx); by inversion_clear Hl').
      assert (Lh : exclude_precompile_calls cfg = true -> precompiles_are_leaves w h) by (intros Hx; specialize (Hl' Hx); by inversion_clear Hl').
      destruct (hidden_call cfg w v (f_start h)) eqn:Hh.
      + rewrite (hidden_delta v h) by done. rewrite IHr by done. lia.
      + rewrite sum_in_app. f_equal.
        * rewrite <- (Ih false (call_value v (f_start h)) (p ++ [k])); [|by unfold call_value; intros ->|done..].
          apply sum_in_ext. intros t Ht. rewrite in_effect_app. rewrite (in_effect_apart (sub_traces _ _ _ _)); [by rewrite andb_true_r|].
          intros x Hx. destruct (sub_traces_prefix _ _ _ _ _ Hx) as (j & Hj & Hp). apply spec_traces_prefix in Ht.
          eapply (apart p j k); [lia|done..].
        * rewrite <- (IHr Ir Lr Ar Sr Vr (S k)). apply sum_in_ext. intros t Ht. rewrite in_effect_app.
          rewrite (in_effect_apart (spec_traces _ _ _ _ _ _)); [done|]. intros x Hx. destruct (sub_traces_prefix _ _ _ _ _ Ht) as (j & Hj & Hp).
          apply spec_traces_prefix in Hx. eapply (apart p k j); [lia|done..].
    - apply sum_in_none. intros t Ht.
      assert (Hp : p `prefix_of` tt_address t).
      { eapply (spec_traces_prefix (Frame s body e) root v). rewrite spec_traces_unfold. exact Ht. }
      assert (Hok : spec_success (status e) = false) by (unfold frame_ok_result, status, spec_success in *; by destruct (ir_result (fe_result e))).
      assert (Hx : exists x err, In x E /\ tt_error x = Some err /\ tt_address x = p).
      { unfold E, frame_entries. destruct (refund_of _) as [r|]; [destruct (default _ r)|]; (eexists _, _; split_and!; [by left| |done]);
          unfold spec_entry; cbn; by rewrite Hok. }
      destruct Hx as (x & err & Hx & Herr & Hxp). eapply in_effect_out; [apply in_app_iff; by left|done|]. by rewrite Hxp.
  Qed.
End Reading.

(** ** The geth call tree *)
Definition no_destruction (f : frame) : Prop :=
  every_frame (fun g => status (f_end g) <> SelfDestruct /\ selfdestructs_of (hooks (f_body g)) = []) f.

Lemma tree_reading rr cfg w lg gas a g : forall root ok v, (is_delegatecall (f_start g) = false -> v = spec_value (f_start g)) ->
  evm_schemes g -> evm_value w g -> no_destruction g ->
  tree_paid a (spec_calls rr cfg w lg gas root ok v g) = delta a g.
Proof.
  induction g as [s body e IH] using frame_ind'. intros root ok v Hval Hs Hv Hn. cbn [f_start] in Hval. cbn [spec_calls tree_paid].
  rewrite delta_unfold. set (i := spec_info _ _ _ _ _ _ _ _). set (ok' := ok && _).
  inversion_clear Hs as [? ? ? Hs' Ss]. inversion_clear Hv as [? ? ? (Hc & _ & _) Vs]. inversion_clear Hn as [? ? ? [_ Hn'] Ns].
  cbn [f_start f_body f_end] in Hs', Hc, Hn'.
  assert (Herr : fi_error i = if frame_ok_result e then None else Some (spec_parity_error (status e))).
  { unfold i, spec_info. cbn. unfold spec_success, frame_ok_result, status. by destruct (ir_result (fe_result e)). }
  rewrite Herr. destruct (frame_ok_result e) eqn:Ho; [|done]. rewrite hook_deltas, Hn'. cbn [map]. change (zsum []) with 0.
  rewrite Z.add_0_r. f_equal.
  - unfold frame_paid, i, spec_info. cbn [fi_to fi_value fi_typ fi_from f_start]. unfold spec_address. cbn [f_body f_start f_end]. rewrite Hn'. cbn [last].
    destruct s as [j c|j c]; cbn [start_delta spec_kind spec_caller code_address] in *.
    + cbn [is_delegatecall spec_value] in Hval. destruct (ci_scheme c); cbn.
      * destruct Hs' as [x Hx]. rewrite Hx in *. rewrite Hval by done. done.
      * destruct Hs' as [E [x Hx]]. rewrite Hx, E. lia.
      * destruct Hs' as [x Hx]. by rewrite Hx.
      * by rewrite Hs', !share_0.
    + rewrite (Hc eq_refl eq_refl), Hval by done. destruct (cr_scheme c); cbn; done.
  - clear Hval Hs' Hc Hn' Herr Ho i. induction body as [|it body IHb]; [done|]. destruct it as [o|h|g]; [by apply IHb..|].
    change (subs (ISub g :: body)) with (g :: subs body) in *.
    inversion_clear IH as [|? ? H1 H2]. inversion_clear Ss as [|? ? S1 S2]. inversion_clear Vs as [|? ? V1 V2]. inversion_clear Ns as [|? ? N1 N2].
    cbn [map]. rewrite zsum_cons, H1, IHb by (done || unfold call_value; by intros ->). done.
Qed.
