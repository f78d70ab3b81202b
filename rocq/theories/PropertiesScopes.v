(** * PropertiesScopes: C95, a JavaScript tracer's scopes and the geth call tree *)

From Verif Require Import JsProofs PartiesProofs TxTraceProofs PropertiesTx PropertiesParties PropertiesJs Examples.
From Verif Require Export SpecScopes.
Local Open Scope N_scope.

Definition C95_statement : Prop :=
  forall js st fa rr cfg w f s s' opts gas, env_ok cfg w f -> evm_addresses f -> evm_inputs f ->
  ti_run (ti_new cfg) (tx_events w f) = Ok s -> only_top_call opts <> Some true ->
  run (js_handle js) (js_new_state true true st fa) (tx_events w f) = Ok s' ->
  exists r, geth_call_traces rr (ti_traces s) opts gas = Ok r /\
    scopes_agree (same_enter true) (selfdestruct_count f) (List.filter is_scope (SpecJs.shown s')) (tree_scopes (without_selfdestructs r)).

Lemma agree_app P n m a b ta tb : scopes_agree P n a ta -> scopes_agree P m b tb -> scopes_agree P (n + m) (a ++ b) (ta ++ tb).
Proof. induction 1 as [|? ? ? ? ? Hp _ IH|? ? ? ? ? Hp _ IH|? ? ? ? _ IH]; intros Hb; cbn; [done|constructor; auto..]. Qed.

Lemma agree_hooks P s hs : scopes_agree P (length (selfdestructs_of hs)) (flat_map (hook_scopes s) hs) [].
Proof.
  induction hs as [|[j l|a b v] hs IH]; [constructor|exact IH|]. cbn. by constructor.
Qed.

Lemma agree_frames rr cfg w lg gas (P : JsFrame -> FrameInfo -> Prop) g : forall root ok v,
  (forall h ok v, In h (tail (frames_of g)) -> P (SpecJs.spec_frame (f_start h)) (spec_info rr cfg w false gas (call_value v (f_start h)) ok h)) ->
  scopes_agree P (selfdestruct_count g) (inner_scopes g) (tree_scopes (spec_calls rr cfg w lg gas root ok v g)).
Proof.
  induction g as [s body e IH] using frame_ind'. intros root ok v HP. cbn [spec_calls inner_scopes tree_scopes].
  unfold selfdestruct_count. cbn [frames_of flat_map f_body]. cbn [frames_of tail] in HP. clear root.
  generalize (ok && spec_success (status e)) as ok'. clear ok. intros ok.
  set (frs := fix go (l : list item) : list frame := match l with [] => [] | ISub g :: r => frames_of g ++ go r | _ :: r => go r end) in *.
  set (trs := fix go (l : list item) : list CallFrame := match l with [] => [] | ISub h :: r =>
     spec_calls rr cfg w lg gas false ok (call_value v (f_start h)) h :: go r | _ :: r => go r end).
  set (scs := fix go (l : list CallFrame) : list tree_scope := match l with [] => [] | x :: l =>
     TEnter (cf_info x) :: tree_scopes x ++ TExit (cf_info x) :: go l end).
  rewrite app_length.
  induction body as [|it body IHb]; [constructor|].
  destruct it as [o|h|g].
  - change (hooks (IOp o :: body)) with (op_hooks o ++ hooks body). unfold selfdestructs_of at 1. rewrite flat_map_app, app_length.
    rewrite <-Nat.add_assoc. cbn [flat_map]. change (scs (trs (IOp o :: body))) with ([] ++ scs (trs body)). apply agree_app; [apply agree_hooks|].
    exact (IHb IH HP).
  - change (hooks (IHook h :: body)) with ([h] ++ hooks body). unfold selfdestructs_of at 1. rewrite flat_map_app, app_length.
    rewrite <-Nat.add_assoc. cbn [flat_map]. change (scs (trs (IHook h :: body))) with ([] ++ scs (trs body)). apply agree_app; [|exact (IHb IH HP)].
    pose proof (agree_hooks P s [h]) as H. cbn [flat_map] in H. by rewrite app_nil_r in H.
  - cbn [subs flat_map app] in IH. apply Forall_cons_1 in IH as [Hg IH].
    change (frs (ISub g :: body)) with (frames_of g ++ frs body) in *. change (hooks (ISub g :: body)) with (hooks body).
    rewrite flat_map_app, app_length. 
    replace (length (selfdestructs_of (hooks body)) + (length (flat_map (fun g => selfdestructs_of (hooks (f_body g))) (frames_of g)) +
      length (flat_map (fun g => selfdestructs_of (hooks (f_body g))) (frs body))))%nat
    with (selfdestruct_count g + (length (selfdestructs_of (hooks body)) + length (flat_map (fun g => selfdestructs_of (hooks (f_body g))) (frs body))))%nat
      by (unfold selfdestruct_count; lia).
    change (trs (ISub g :: body)) with (spec_calls rr cfg w lg gas false ok (call_value v (f_start g)) g :: trs body).
    set (c := spec_calls rr cfg w lg gas false ok (call_value v (f_start g)) g).
    change (scs (c :: trs body)) with (TEnter (cf_info c) :: tree_scopes c ++ TExit (cf_info c) :: scs (trs body)). cbn [flat_map app].
    assert (Hin : In g (frames_of g)) by (destruct g; by left).
    assert (Hi : exists b, cf_info c = spec_info rr cfg w false gas (call_value v (f_start g)) b g).
    { unfold c. destruct g as [s' body' e']. cbn [spec_calls cf_info]. by eexists. }
    destruct Hi as [b Hi]. constructor.
    { rewrite Hi. apply HP. apply in_or_app. by left. }
    rewrite <-app_assoc. apply agree_app.
    { apply Hg. intros h ok' v' Hh. apply HP. apply in_or_app. left. destruct g; cbn [frames_of tail] in *. by right. }
    cbn [app]. constructor.
    { rewrite Hi. unfold same_exit, spec_info, spec_result. cbn [fi_gas_used fi_output jr_gas_used jr_output]. split; [done|].
      destruct (ir_output _); [by left|by right]. }
    apply IHb; [exact IH|]. intros h ok' v' Hh. apply HP. apply in_or_app. by right.
Qed.

(** The parent's value is reported for a DELEGATECALL by the call tree, zero by the tracer. *)
Theorem C95_refuted : ~ C95_statement.
Proof.
  intros H.
  assert (Ha : evm_addresses ex_tx) by (repeat (constructor; cbn; try done); by intros a _ [= <-]).
  assert (Hi : evm_inputs ex_tx) by (repeat (constructor; cbn; try done)).
  assert (Henv : env_ok ex_cfg ex_world ex_tx) by (by apply env_okb_ok).
  destruct (quiet_run (fun _ _ => None) true true false false ex_world ex_tx) as (s' & Hs' & Hsh); [done|].
  assert (Hs : exists s, ti_run (ti_new ex_cfg) (tx_events ex_world ex_tx) = Ok s) by (eexists; vm_compute; reflexivity). destruct Hs as [s Hs].
  assert (Hopt : only_top_call (mkCallConfig None None) <> Some true) by discriminate.
  destruct (H _ false false (fun _ => None) ex_cfg ex_world ex_tx s s' (mkCallConfig None None) 0 Henv Ha Hi Hs Hopt Hs') as (r & Hr & Hag).
  destruct (C75_call_tree (fun _ => None) ex_cfg ex_world ex_tx s (mkCallConfig None None) 0 Henv Ha Hs Hopt) as (r' & Hr' & Heq & _).
  rewrite Hr in Hr'. injection Hr' as <-. rewrite Heq, Hsh in Hag. vm_compute in Hag.
  inversion Hag as [|? ? ? ? ? Hp _|?|? ? ? ? Hx]; subst.
  destruct (sn_value _ _ _ Hp) as [Hv|[Hv _]]; vm_compute in Hv; discriminate Hv.
Qed.
Print Assumptions C95_refuted.

Lemma frames_whole P g : every_frame P g -> forall h, In h (frames_of g) -> every_frame P h.
Proof.
  induction g as [s body e IH] using frame_ind'. intros H h Hh. cbn [frames_of] in Hh.
  destruct Hh as [<-|Hh]; [done|]. apply every_frame_inv in H as [_ H2].
  induction body as [|[o|h'|g] body IHb]; [done|by apply IHb..|].
  cbn [subs flat_map app] in IH, H2. apply Forall_cons_1 in IH as [Hg IH]. apply Forall_cons_1 in H2 as [Ha H2].
  apply in_app_or in Hh as [Hh|Hh]; [by apply Hg|by apply IHb].
Qed.

Lemma filter_defined_all l : Forall (fun x => is_scope x = true) l -> List.filter (defined true true) l = l.
Proof. induction 1 as [|x l H _ IH]; [done|]. cbn [List.filter]. rewrite IH. by destruct x. Qed.
Lemma inner_scopes_all f : Forall (fun x => is_scope x = true) (inner_scopes f).
Proof.
  induction (nested_scopes f) as [|f' r inside rest _ IH1 _ IH2]; [constructor|]. constructor; [done|].
  apply Forall_app. split; [done|]. by constructor.
Qed.

Lemma enter_same rr cfg w gas v ok h : evm_addresses h -> evm_inputs h ->
  same_enter false (SpecJs.spec_frame (f_start h)) (spec_info rr cfg w false gas (call_value v (f_start h)) ok h).
Proof.
  intros Ha Hi. pose proof (callee_spec h Ha) as Hto. apply every_frame_head in Hi. unfold spec_info.
  constructor; cbn [fi_typ fi_from fi_to fi_value fi_gas fi_input]; unfold SpecJs.spec_frame, call_value in *; cbn [jf_kind jf_contract jf_gas].
  - destruct (f_start h) as [j i|j i]; cbn; [by destruct (ci_scheme i)|by destruct (cr_scheme i)].
  - destruct (f_start h) as [j i|j i]; cbn; [by destruct (ci_scheme i)|done].
  - rewrite Hto. destruct (f_start h) as [j i|j i]; cbn.
    + destruct Hi as [_ Hi]. destruct (ci_scheme i), (selfdestructs_of _); cbn; try rewrite Hi; auto.
    + left. by destruct (selfdestructs_of _).
  - destruct (f_start h) as [j i|j i]; cbn.
    + destruct Hi as [Hi _]. destruct (ci_scheme i), (ci_value i); cbn; try done; auto.
    + left. by destruct (cr_scheme i).
  - destruct (f_start h) as [j i|j i]; done.
  - destruct (f_start h) as [j i|j i]; done.
Qed.
(** What holds: everything but the value of a DELEGATECALL and the called account of a frame that C93 excepts. *)
Theorem C95_scopes_partial :
  forall js st fa rr cfg w f s s' opts gas, env_ok cfg w f -> evm_addresses f -> evm_inputs f ->
  ti_run (ti_new cfg) (tx_events w f) = Ok s -> only_top_call opts <> Some true ->
  run (js_handle js) (js_new_state true true st fa) (tx_events w f) = Ok s' ->
  exists r, geth_call_traces rr (ti_traces s) opts gas = Ok r /\
    scopes_agree (same_enter false) (selfdestruct_count f) (List.filter is_scope (SpecJs.shown s')) (tree_scopes (without_selfdestructs r)).
Proof.
  intros js st fa rr cfg w f s s' opts gas Henv Ha Hi Hrun Htop Hjs.
  destruct (C75_call_tree rr cfg w f s opts gas Henv Ha Hrun Htop) as (r & Hr & Heq & _). exists r. split; [done|]. rewrite Heq.
  destruct (C56_scopes_partial js true true st fa w f s' Hjs) as [Hsc _]. rewrite Hsc by (by left).
  rewrite filter_defined_all by apply inner_scopes_all. apply agree_frames. intros h ok v Hin.
  assert (Hin' : In h (frames_of f)) by (destruct f; by right).
  apply enter_same; by eapply frames_whole.
Qed.
Print Assumptions C95_scopes_partial.

Example C95_example :
  env_ok ex_cfg ex_world ex_tx /\ evm_addresses ex_tx /\ evm_inputs ex_tx /\ selfdestruct_count ex_tx = 1%nat /\
  exists s', run (js_handle (fun _ _ => None)) (js_new_state true true false false) (tx_events ex_world ex_tx) = Ok s' /\
    length (List.filter is_scope (SpecJs.shown s')) = 12%nat /\
    exists s, ti_run (ti_new ex_cfg) (tx_events ex_world ex_tx) = Ok s.
Proof.
  split; [by apply env_okb_ok|]. split; [repeat (constructor; cbn; try done); by intros a _ [= <-]|].
  split; [repeat (constructor; cbn; try done)|]. split; [vm_compute; reflexivity|].
  destruct C56_example as (s' & H1 & H2). exists s'. split; [exact H1|]. split; [exact H2|]. eexists. vm_compute. reflexivity.
Qed.
