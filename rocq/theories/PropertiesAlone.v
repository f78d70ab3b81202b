(** * PropertiesAlone: C149, a call is reported the same at every depth *)

From Verif Require Import SpecTx GethProofs AloneProofs PropertiesTx Examples.
Local Open Scope nat_scope.

(** The value of a call is the one it was made with; a delegate call has the value of the call around it. *)
Theorem C149_value :
  forall cfg w v f u g, made cfg w v f u g -> is_delegatecall (f_start g) = false -> u = spec_value (f_start g).
Proof. intros cfg w v f u g. apply made_value. Qed.
Print Assumptions C149_value.

(** So when the EVM gives delegate calls the value of the call around them, this is the value of every call. *)
Theorem C149_delegate_value :
  forall cfg w f u g, made cfg w (spec_value (f_start f)) f u g -> evm_delegate_values f -> u = spec_value (f_start g).
Proof.
  intros cfg w f u g Hm. remember (spec_value (f_start f)) as v eqn:Ev. revert Ev.
  induction Hm as [v s body e g Hin _|v s body e h u g Hin _ Hm IH]; intros Ev Hd; apply every_frame_inv in Hd as [H1 H2];
    cbn [f_start f_body] in *; rewrite List.Forall_forall in H1, H2.
  - unfold call_value. destruct (is_delegatecall (f_start g)) eqn:E; [|done]. rewrite Ev. symmetry. by apply H1.
  - apply IH; [|by apply H2]. unfold call_value. destruct (is_delegatecall (f_start h)) eqn:E; [|done]. rewrite Ev. symmetry. by apply H1.
Qed.
Print Assumptions C149_delegate_value.

(** The call [g] made anywhere in the transaction [f], and [g] as a transaction of its own: the entries at and below the
    call's trace address are those of the other report, moved below that address; the first entry may differ in its gas, as
    the gas limit and refund of a transaction are not those of a call. *)
Theorem C149_parity :
  forall cfg w w' f g u s s' l l',
  env_ok cfg w f -> evm_refund f -> evm_refund g -> (forall a, w_precompiles w' a = w_precompiles w a) ->
  made cfg w (spec_value (f_start f)) f u g -> u = spec_value (f_start g) ->
  ti_run (ti_new cfg) (tx_events w f) = Ok s -> into_transaction_traces (ti_traces s) = Ok l ->
  ti_run (ti_new cfg) (tx_events w' g) = Ok s' -> into_transaction_traces (ti_traces s') = Ok l' ->
  exists a e e' r, a <> [] /\ l' = e' :: r /\
    List.filter (fun x => bool_decide (a `prefix_of` tt_address x)) l = e :: map (below a) r /\
    without_gas e = without_gas (below a e').
Proof.
  intros cfg w w' f g u s s' l l' He Hf Hg Hw Hm Hd Hr Hl Hr' Hl'.
  rewrite (C74_parity_traces _ _ _ _ He Hf Hr) in Hl. injection Hl as <-.
  assert (He' : env_ok cfg w' g).
  { destruct He as [H1 H2]. split; [|by eapply made_every]. intros Hx. specialize (H1 Hx).
    eapply made_every in H1; [|exact Hm]. unfold precompiles_are_leaves. eapply every_frame_impl; [|exact H1].
    intros h. cbn beta. by rewrite ?Hw. }
  rewrite (C74_parity_traces _ _ _ _ He' Hg Hr') in Hl'. injection Hl' as <-.
  destruct (made_block cfg w _ _ _ _ Hm true []) as (a & Ha & Hb). cbn [app] in Hb.
  subst u.
  destruct (root_entry cfg w w' Hw g (spec_value (f_start g)) a) as (e & e' & r & H1 & H2 & H3).
  exists a, e, e', r. split; [done|]. split; [exact H1|]. split; [|done]. rewrite <-H2, <-Hb. done.
Qed.
Print Assumptions C149_parity.

(** The same for the call tree, when no logs are asked for: it has a frame whose calls are those of the other tree. *)
Theorem C149_call_tree :
  forall rr cfg w w' f g u s s' opts gas gas',
  env_ok cfg w f -> evm_addresses f -> (forall a, w_precompiles w' a = w_precompiles w a) ->
  made cfg w (spec_value (f_start f)) f u g -> u = spec_value (f_start g) ->
  only_top_call opts <> Some true -> with_log opts <> Some true ->
  ti_run (ti_new cfg) (tx_events w f) = Ok s -> ti_run (ti_new cfg) (tx_events w' g) = Ok s' ->
  exists r r' c, geth_call_traces rr (ti_traces s) opts gas = Ok r /\ geth_call_traces rr (ti_traces s') opts gas' = Ok r' /\
    inside c (without_selfdestructs r) /\ cf_calls c = cf_calls (without_selfdestructs r') /\
    info_without_gas (cf_info c) = info_without_gas (cf_info (without_selfdestructs r')).
Proof.
  intros rr cfg w w' f g u s s' opts gas gas' He Ha Hw Hm Hd Ht Hlg Hr Hr'.
  assert (He' : env_ok cfg w' g).
  { destruct He as [H1 H2]. split; [|by eapply made_every]. intros Hx. specialize (H1 Hx).
    eapply made_every in H1; [|exact Hm]. unfold precompiles_are_leaves. eapply every_frame_impl; [|exact H1].
    intros h. cbn beta. by rewrite ?Hw. }
  assert (Ha' : evm_addresses g) by (eapply made_every; [exact Hm|exact Ha]).
  destruct (C75_call_tree rr cfg w f s opts gas He Ha Hr Ht) as (r & Hg & Hspec & _).
  destruct (C75_call_tree rr cfg w' g s' opts gas' He' Ha' Hr' Ht) as (r' & Hg' & Hspec' & _).
  rewrite bool_decide_eq_false_2 in Hspec, Hspec' by done.
  destruct (made_inside cfg w rr _ _ _ _ Hm gas true true) as (ok & Hi). subst u.
  exists r, r', (spec_calls rr cfg w false gas false ok (spec_value (f_start g)) g). split; [done|]. split; [done|].
  rewrite Hspec, Hspec'. split; [exact Hi|]. destruct g as [st body e]. rewrite !spec_calls_unfold. cbn [cf_calls cf_info f_start].
  split; [|done]. unfold sub_calls. apply map_ext. intros h. apply calls_same.
Qed.
Print Assumptions C149_call_tree.

(** With or without logs: when the call and all calls around it succeeded, the logs are the same as well. *)
Theorem C149_call_tree_logs :
  forall rr cfg w w' f g u s s' opts gas gas',
  env_ok cfg w f -> evm_addresses f -> (forall a, w_precompiles w' a = w_precompiles w a) ->
  made_kept cfg w (spec_value (f_start f)) f u g -> u = spec_value (f_start g) -> spec_success (status (f_end g)) = true ->
  only_top_call opts <> Some true ->
  ti_run (ti_new cfg) (tx_events w f) = Ok s -> ti_run (ti_new cfg) (tx_events w' g) = Ok s' ->
  exists r r' c, geth_call_traces rr (ti_traces s) opts gas = Ok r /\ geth_call_traces rr (ti_traces s') opts gas' = Ok r' /\
    inside c (without_selfdestructs r) /\ cf_calls c = cf_calls (without_selfdestructs r') /\
    info_without_gas (cf_info c) = info_without_gas (cf_info (without_selfdestructs r')).
Proof.
  intros rr cfg w w' f g u s s' opts gas gas' He Ha Hw Hk Hd Hs Ht Hr Hr'.
  pose proof (made_kept_made _ _ _ _ _ _ Hk) as Hm.
  assert (He' : env_ok cfg w' g).
  { destruct He as [H1 H2]. split; [|by eapply made_every]. intros Hx. specialize (H1 Hx).
    eapply made_every in H1; [|exact Hm]. unfold precompiles_are_leaves. eapply every_frame_impl; [|exact H1].
    intros h. cbn beta. by rewrite ?Hw. }
  assert (Ha' : evm_addresses g) by (eapply made_every; [exact Hm|exact Ha]).
  destruct (C75_call_tree rr cfg w f s opts gas He Ha Hr Ht) as (r & Hg & Hspec & _).
  destruct (C75_call_tree rr cfg w' g s' opts gas' He' Ha' Hr' Ht) as (r' & Hg' & Hspec' & _).
  set (b := bool_decide (with_log opts = Some true)) in *.
  pose proof (kept_inside cfg w rr b _ _ _ _ Hk gas true) as Hi. subst u.
  exists r, r', (spec_calls rr cfg w b gas false true (spec_value (f_start g)) g). split; [done|]. split; [done|].
  rewrite Hspec, Hspec'. split; [exact Hi|]. destruct g as [st body e]. rewrite !spec_calls_logs. cbn [cf_calls cf_info f_start f_end] in *.
  rewrite Hs. cbn [orb andb]. split; [|done]. unfold sub_calls_logs. apply map_ext. intros h. apply calls_logs_same.
Qed.
Print Assumptions C149_call_tree_logs.

(** A reverted call that paid a precompile, traced inside the transaction of the examples and alone with another gas limit. *)
Definition c149_world : world := mkWorld (w_spec ex_world) 30000%N (w_precompiles ex_world).
Lemma c149_made : made ex_cfg ex_world (spec_value (f_start ex_tx)) ex_tx 0%N ex_reverted /\
  made ex_cfg ex_world (spec_value (f_start ex_tx)) ex_tx 3%N ex_paid_precompile.
Proof.
  split.
  - apply (made_here ex_cfg ex_world 7%N _ _ _ ex_reverted); [cbn; tauto|reflexivity].
  - eapply (made_deeper ex_cfg ex_world 7%N _ _ _ ex_reverted); [cbn; tauto|reflexivity|].
    apply (made_here ex_cfg ex_world 0%N _ _ _ ex_paid_precompile); [cbn; tauto|reflexivity].
Qed.
Example C149_example : exists s s' l l',
  made ex_cfg ex_world (spec_value (f_start ex_tx)) ex_tx (spec_value (f_start ex_reverted)) ex_reverted /\
  env_ok ex_cfg ex_world ex_tx /\ evm_refund ex_tx /\ evm_refund ex_reverted /\
  ti_run (ti_new ex_cfg) (tx_events ex_world ex_tx) = Ok s /\ into_transaction_traces (ti_traces s) = Ok l /\
  ti_run (ti_new ex_cfg) (tx_events c149_world ex_reverted) = Ok s' /\ into_transaction_traces (ti_traces s') = Ok l' /\
  map tt_address l = [[]; [0]; [1]; [1; 0]; [2]; [2; 0]] /\ map tt_address l' = [[]; [0]].
Proof.
  do 4 eexists. split; [apply c149_made|]. split; [by apply env_okb_ok|]. split; [done|]. split; [done|].
  split; [vm_compute; reflexivity|]. split; [vm_compute; reflexivity|]. split; [vm_compute; reflexivity|].
  split; [vm_compute; reflexivity|]. split; vm_compute; reflexivity.
Qed.

(** The transaction of the examples, called by another account: its log is shown in both trees. *)
Definition c149_outer : frame :=
  Frame (SCall ex_j0 (mkCallInputs [] 95000 0xBB 0xBB 0xA9 (Transfer 0) CSCall false)%N)
    [ IOp (ex_op OP_CALL 0 [0; 0; 0; 0; 0; 0; 0]%N [] 9500%N ex_j0 [] CallOrCreate); ISub ex_tx;
      IOp (ex_op OP_STOP 1 [] [] 4000%N ex_j0 [] Stop) ]
    (ex_end Stop None).
Definition c149_opts : CallConfig := mkCallConfig None (Some true).
Example C149_logs_example : exists s s' r r' c,
  made_kept ex_cfg ex_world (spec_value (f_start c149_outer)) c149_outer (spec_value (f_start ex_tx)) ex_tx /\
  spec_success (status (f_end ex_tx)) = true /\
  env_ok ex_cfg ex_world c149_outer /\ evm_addresses c149_outer /\
  ti_run (ti_new ex_cfg) (tx_events ex_world c149_outer) = Ok s /\
  ti_run (ti_new ex_cfg) (tx_events c149_world ex_tx) = Ok s' /\
  geth_call_traces (fun _ => None) (ti_traces s) c149_opts 90000%N = Ok r /\
  geth_call_traces (fun _ => None) (ti_traces s') c149_opts 30000%N = Ok r' /\
  cf_calls r = [c] /\ length (fi_logs (cf_info c)) = 1 /\ length (fi_logs (cf_info r')) = 1.
Proof.
  do 5 eexists. split; [apply (kept_here ex_cfg ex_world 0%N _ _ _ ex_tx); [reflexivity|cbn; tauto|reflexivity]|].
  split; [reflexivity|]. split; [by apply env_okb_ok|]. 
  split; [repeat constructor; vm_compute; try done; intros; congruence|].
  split; [vm_compute; reflexivity|]. split; [vm_compute; reflexivity|]. split; [vm_compute; reflexivity|].
  split; [vm_compute; reflexivity|]. split; [vm_compute; reflexivity|]. split; vm_compute; reflexivity.
Qed.
