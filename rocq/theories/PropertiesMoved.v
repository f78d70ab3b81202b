(** * PropertiesMoved: C150, the struct logs of a call are the same at every depth *)

From Verif Require Import PropertiesScopes.
From Verif Require Import SpecMoved SpecGeth StepProofs TreeProofs GethProofs PropertiesConfig PropertiesGeth PropertiesLogs Examples.
Import SpecGeth.
Local Open Scope nat_scope.

Definition deeper (k : nat) (x : nat * frame * instr) : nat * frame * instr := (k + fst (fst x), snd (fst x), snd x).

Lemma executed_deeper f : forall k d, executed (k + d) f = map (deeper k) (executed d f).
Proof.
  induction f as [s body e IH] using frame_ind'. intros k d. rewrite !executed_eq. generalize (Frame s body e) as f0. intros f0.
  induction body as [|it body IHb]; [done|]. destruct it as [o|h|g]; cbn [exec_body map].
  - unfold deeper at 1. cbn [fst snd]. rewrite <-Nat.add_succ_r. f_equal. by apply IHb.
  - by apply IHb.
  - change (subs (ISub g :: body)) with (g :: subs body) in IH. inversion_clear IH as [|? ? Hg Hr].
    rewrite map_app, <-Nat.add_succ_r, Hg. f_equal. by apply IHb.
Qed.

Lemma executed_within f : forall d g, In g (frames_of f) -> exists k pre post, executed d f = pre ++ executed (k + d) g ++ post.
Proof.
  induction f as [s body e IH] using frame_ind'. intros d g Hin. cbn [frames_of] in Hin. destruct Hin as [<-|Hin].
  { exists 0, [], []. by rewrite app_nil_r. }
  rewrite executed_eq. generalize (Frame s body e) as f0. intros f0. induction body as [|it body IHb]; [done|].
  destruct it as [o|h|h]; cbn [exec_body].
  - destruct (IHb IH Hin) as (k & pre & post & E). exists k, ((S d, f0, o) :: pre), post. cbn [app]. by rewrite E.
  - by apply IHb.
  - change (subs (ISub h :: body)) with (h :: subs body) in IH. inversion_clear IH as [|? ? Hg Hr].
    apply in_app_iff in Hin as [Hin|Hin].
    + destruct (Hg (S d) g Hin) as (k & pre & post & E). exists (S k), pre, (post ++ exec_body d f0 body). rewrite E.
      rewrite <-!app_assoc, Nat.add_succ_r. done.
    + destruct (IHb Hr Hin) as (k & pre & post & E). exists k, (executed (S d) h ++ pre), post. by rewrite E, <-app_assoc.
Qed.

Lemma slot_value_app l1 l2 a k v : slot_value l2 a k = Some v -> slot_value (l1 ++ l2) a k = Some v.
Proof. unfold slot_value. intros H. rewrite omap_app, last_app, H. done. Qed.
Lemma slot_value_deeper l n a k : slot_value (map (deeper n) l) a k = slot_value l a k.
Proof. unfold slot_value. f_equal. induction l as [|x l IH]; [done|]. cbn. rewrite IH. done. Qed.

Lemma log_of_moved opts pre upto n d h o l' l : log_of opts upto d h o l' -> log_of opts (pre ++ map (deeper n) upto) (n + d) h o l ->
  log_moved n l' l.
Proof.
  intros H' H. split.
  - by rewrite (lo_depth _ _ _ _ _ _ H'), (lo_depth _ _ _ _ _ _ H).
  - by rewrite (lo_pc _ _ _ _ _ _ H'), (lo_pc _ _ _ _ _ _ H).
  - by rewrite (lo_op _ _ _ _ _ _ H'), (lo_op _ _ _ _ _ _ H).
  - by rewrite (lo_gas _ _ _ _ _ _ H'), (lo_gas _ _ _ _ _ _ H).
  - apply N2Z.inj. by rewrite (lo_cost _ _ _ _ _ _ H'), (lo_cost _ _ _ _ _ _ H).
  - by rewrite (lo_error _ _ _ _ _ _ H'), (lo_error _ _ _ _ _ _ H).
  - by rewrite (lo_stack _ _ _ _ _ _ H'), (lo_stack _ _ _ _ _ _ H).
  - by rewrite (lo_return_data _ _ _ _ _ _ H'), (lo_return_data _ _ _ _ _ _ H).
  - pose proof (lo_storage _ _ _ _ _ _ H') as S'. pose proof (lo_storage _ _ _ _ _ _ H) as S.
    destruct (sl_storage l') as [m'|], (sl_storage l) as [m|]; [|naive_solver congruence..|done].
    destruct S' as (_ & _ & S'), S as (_ & _ & S). apply map_subseteq_spec. intros k v Hk. rewrite S' in Hk. rewrite S.
    apply slot_value_app. by rewrite slot_value_deeper.
  - pose proof (lo_memory _ _ _ _ _ _ H') as S'. pose proof (lo_memory _ _ _ _ _ _ H) as S.
    destruct (flagged (enable_memory opts)); [|by rewrite S', S].
    destruct S' as (ws' & -> & S'), S as (ws & -> & S). eauto.
Qed.

(** The call [g] made anywhere in the transaction [f], and [g] as a transaction of its own: the logs of the second report are
    a stretch of the first, moved to the depth of the call. *)
Theorem C150_struct_logs :
  forall w w' f g s s' gas gas' out out' opts,
  env_ok (from_geth_config opts) w f -> evm_calls f -> evm_memory f -> In g (frames_of f) ->
  ti_run (ti_new (from_geth_config opts)) (tx_events w f) = Ok s ->
  ti_run (ti_new (from_geth_config opts)) (tx_events w' g) = Ok s' ->
  exists r r' i k, geth_traces (ti_traces s) gas out opts = Ok r /\ geth_traces (ti_traces s') gas' out' opts = Ok r' /\
    Forall2 (log_moved k) (dfr_struct_logs r') (take (length (dfr_struct_logs r')) (drop i (dfr_struct_logs r))) /\
    (counters_ok g ->
     Forall2 (fun l' l => sl_refund_counter l = sl_refund_counter l') (dfr_struct_logs r')
       (take (length (dfr_struct_logs r')) (drop i (dfr_struct_logs r)))).
Proof.
  intros w w' f g s s' gas gas' out out' opts He Hc Hm Hin Hr Hr'.
  assert (He' : env_ok (from_geth_config opts) w' g).
  { destruct He as [_ H2]. split; [done|]. by eapply frames_whole. }
  destruct (C81_struct_logs w f s gas out opts He Hc Hm Hr) as (r & Hg & Hlen & Hl).
  destruct (C81_struct_logs w' g s' gas' out' opts He' (frames_whole _ _ Hc _ Hin) (frames_whole _ _ Hm _ Hin) Hr') as (r' & Hg' & Hlen' & Hl').
  destruct (executed_within f 0 g Hin) as (k & pre & post & E). rewrite executed_deeper in E.
  exists r, r', (length pre), k. split; [done|]. split; [done|].
  assert (Hn : length (take (length (dfr_struct_logs r')) (drop (length pre) (dfr_struct_logs r))) = length (dfr_struct_logs r')).
  { rewrite take_length, drop_length, Hlen, E, Hlen', !app_length, map_length. lia. }
  assert (Hboth : forall j l' l, dfr_struct_logs r' !! j = Some l' ->
    take (length (dfr_struct_logs r')) (drop (length pre) (dfr_struct_logs r)) !! j = Some l ->
    exists d h o, executed 0 g !! j = Some (d, h, o) /\ log_of opts (take (S j) (executed 0 g)) d h o l' /\
      log_of opts (pre ++ map (deeper k) (take (S j) (executed 0 g))) (k + d) h o l).
  { intros j l' l H1 H2. pose proof (lookup_lt_Some _ _ _ H1) as Hj. rewrite lookup_take, lookup_drop in H2 by done.
    rewrite Hlen' in Hj. destruct (lookup_lt_is_Some_2 _ _ Hj) as ([[d h] o] & Hx). exists d, h, o. split; [done|]. split; [by apply Hl'|].
    assert (E2 : executed 0 f !! (length pre + j) = Some (k + d, h, o)).
    { rewrite E, lookup_app_r, lookup_app_l by (rewrite ?map_length; lia). replace (length pre + j - length pre) with j by lia.
      rewrite list_lookup_fmap, Hx. done. }
    pose proof (Hl _ _ _ _ _ E2 H2) as L. rewrite E in L. rewrite <-Nat.add_succ_r, take_add_app in L by done.
    rewrite take_app_le in L by (rewrite map_length; lia). rewrite <-firstn_map. exact L. }
  split; [|intros Hk]; apply Forall2_same_length_lookup; (split; [done|]); intros j l' l H1 H2;
    destruct (Hboth j l' l H1 H2) as (d & h & o & Hx & L' & L).
  - by eapply log_of_moved.
  - assert (Hz : (0 <= g_refunded (in_gas (op_pre o)) < 18446744073709551616)%Z).
    { clear -Hk Hx. apply elem_of_list_lookup_2 in Hx. revert Hx. generalize 0. revert Hk.
      induction g as [st body e IH] using frame_ind'. intros Hk n Hx. apply every_frame_inv in Hk as [H1 H2]. cbn [f_body] in H1, H2.
      rewrite executed_eq in Hx. revert Hx. generalize (Frame st body e) as f0. intros f0 Hx.
      induction body as [|it body IHb]; [by apply elem_of_nil in Hx|]. destruct it as [o'|hk|g']; cbn [exec_body] in Hx.
      - change (instrs (IOp o' :: body)) with (o' :: instrs body) in H1. apply Forall_cons_1 in H1 as [H1 H1'].
        apply elem_of_cons in Hx as [[= -> -> ->]|Hx]; [done|]. by apply IHb.
      - by apply IHb.
      - change (subs (ISub g' :: body)) with (g' :: subs body) in IH, H2. inversion_clear IH as [|? ? Hg Hr0].
        apply Forall_cons_1 in H2 as [H2 H2']. apply elem_of_app in Hx as [Hx|Hx]; [by eapply Hg|]. by apply IHb. }
    by rewrite (lo_refund _ _ _ _ _ _ L Hz), (lo_refund _ _ _ _ _ _ L' Hz).
Qed.
Print Assumptions C150_struct_logs.

(** The inner call of the transaction of C81. *)
Definition c150_inner : frame := default logs_tx (frames_of logs_tx !! 1).
Example C150_example : env_ok (from_geth_config logs_opts) ex_world logs_tx /\ evm_calls logs_tx /\ evm_memory logs_tx /\
  In c150_inner (frames_of logs_tx) /\ counters_ok c150_inner /\
  exists s s' r r', ti_run (ti_new (from_geth_config logs_opts)) (tx_events ex_world logs_tx) = Ok s /\
    ti_run (ti_new (from_geth_config logs_opts)) (tx_events ex_world c150_inner) = Ok s' /\
    geth_traces (ti_traces s) 5%N [] logs_opts = Ok r /\ geth_traces (ti_traces s') 5%N [] logs_opts = Ok r' /\
    map sl_depth (dfr_struct_logs r) = [1; 1; 2; 2; 1; 1] /\ map sl_depth (dfr_struct_logs r') = [1; 1].
Proof.
  destruct C81_example as (H1 & H2 & H3 & _). split; [done|]. split; [done|]. split; [done|]. split; [right; left; reflexivity|].
  split; [repeat (constructor; cbn; try done)|]. do 4 eexists. split; [vm_compute; reflexivity|]. split; [vm_compute; reflexivity|].
  split; [vm_compute; reflexivity|]. split; [vm_compute; reflexivity|]. split; vm_compute; reflexivity.
Qed.
