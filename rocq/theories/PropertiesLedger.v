(** * PropertiesLedger: C141, the reports account for the balances *)

From Verif Require Import LedgerProofs SimpleProofs PropertiesSimple PropertiesTx PropertiesDiff PropertiesCalls Examples.
Local Open Scope Z_scope.

(** One would expect the listed transfers to account for the balances. *)
Definition C141_statement : Prop :=
  forall w f s b a, evm_value w f -> run tf_handle (tf_new false) (tx_events w f) = Ok s ->
  balances_after f b a = b a + zsum (map (transferred a) (moved s)).

Definition c141_valueb (w : world) (g : frame) : bool :=
  (is_call (f_start g) || negb (frame_ok_result (f_end g)) || bool_decide (fe_address (f_end g) = Some (executing_account (f_start g))))
  && (length (selfdestructs_of (hooks (f_body g))) <=? 1)%nat
  && (negb (is_call (f_start g)) || negb (w_precompiles w (code_address (f_start g))) ||
      bool_decide (length (selfdestructs_of (hooks (f_body g))) = 0%nat)).
Lemma c141_valueb_ok w f : everyb (c141_valueb w) f = true -> evm_value w f.
Proof.
  apply everyb_ok. intros g. unfold c141_valueb. intros [[H1 H2]%andb_prop H3]%andb_prop. split_and!.
  - intros Hc Ho. rewrite Hc, Ho in H1. cbn in H1. by apply bool_decide_eq_true_1 in H1.
  - by apply Nat.leb_le.
  - intros Hc Hp. rewrite Hc, Hp in H3. cbn in H3. apply bool_decide_eq_true_1 in H3. by apply nil_length_inv.
Qed.

(** A transfer made by a call that is reverted stays in the list. *)
Theorem C141_refuted : ~ C141_statement.
Proof.
  intros H. destruct (C45_transfers_of_transaction false ex_world ex_tx) as (s & Hrun & Hm).
  specialize (H ex_world ex_tx s (fun _ => 100) 1%N (c141_valueb_ok ex_world ex_tx eq_refl) Hrun). rewrite Hm in H. vm_compute in H. discriminate H.
Qed.
Print Assumptions C141_refuted.

(** They do if no call fails. *)
Theorem C141_transfers_partial :
  forall w f s b a, evm_value w f -> every_frame (fun g => frame_ok_result (f_end g) = true) f ->
  run tf_handle (tf_new false) (tx_events w f) = Ok s ->
  balances_after f b a = b a + zsum (map (transferred a) (moved s)).
Proof.
  intros w f s b a Hv Hok Hr. rewrite (C46_transfers_took_effect_partial w f s Hok Hr), (effective_delta w a f Hv). apply after_delta.
Qed.
Print Assumptions C141_transfers_partial.

(** The parity traces account for the balances of every transaction, whatever fails in it: leave out the entries below an
    error. *)
Theorem C141_parity :
  forall cfg w f s l b a, env_ok cfg w f -> evm_refund f -> evm_addresses f -> evm_schemes f -> evm_value w f ->
  ti_run (ti_new cfg) (tx_events w f) = Ok s -> into_transaction_traces (ti_traces s) = Ok l ->
  balances_after f b a = b a + balance_change l a.
Proof.
  intros cfg w f s l b a He Hrf Ha Hs Hv Hr Hl. rewrite (C74_parity_traces cfg w f s He Hrf Hr) in Hl. injection Hl as <-.
  rewrite after_delta. f_equal. symmetry. by apply (reading cfg w a f true (spec_value (f_start f)) []); [|apply He|..].
Qed.
Print Assumptions C141_parity.

(** One would expect the same of the call tree of the geth tracer. *)
Definition C141_call_tree_statement : Prop :=
  forall rr cfg w f s opts gas r b a, env_ok cfg w f -> evm_addresses f -> evm_schemes f -> evm_value w f ->
  ti_run (ti_new cfg) (tx_events w f) = Ok s -> only_top_call opts <> Some true ->
  geth_call_traces rr (ti_traces s) opts gas = Ok r -> balances_after f b a = b a + tree_paid a r.
(** The frame of a SELFDESTRUCT names the caller of the destroyed contract as the one who pays. *)
Theorem C141_call_tree_refuted : ~ C141_call_tree_statement.
Proof.
  intros H. destruct C112_example as (H1 & H2 & H3 & s & r & Hs & Hr & _).
  specialize (H (fun _ => None) ex_cfg ex_world ex_tx s (mkCallConfig None None) 99%N r (fun _ => 100) 0xC0%N H1 H2 H3
    (c141_valueb_ok ex_world ex_tx eq_refl) Hs ltac:(done) Hr).
  vm_compute in Hs. injection Hs as <-. vm_compute in Hr. injection Hr as <-. vm_compute in H. discriminate H.
Qed.
Print Assumptions C141_call_tree_refuted.
(** It is so without SELFDESTRUCT. *)
Theorem C141_call_tree_partial :
  forall rr cfg w f s opts gas r b a, env_ok cfg w f -> evm_addresses f -> evm_schemes f -> evm_value w f ->
  every_frame (fun g => status (f_end g) <> SelfDestruct /\ selfdestructs_of (hooks (f_body g)) = []) f ->
  ti_run (ti_new cfg) (tx_events w f) = Ok s -> only_top_call opts <> Some true ->
  geth_call_traces rr (ti_traces s) opts gas = Ok r -> balances_after f b a = b a + tree_paid a r.
Proof.
  intros rr cfg w f s opts gas r b a He Ha Hs Hv Hn Hr Ho Hg. destruct (C75_call_tree rr cfg w f s opts gas He Ha Hr Ho) as (r' & Hg' & Hc & Hw).
  rewrite Hg in Hg'. injection Hg' as <-. rewrite <- (Hw Hn), Hc, after_delta. f_equal. symmetry. by apply tree_reading.
Qed.
Print Assumptions C141_call_tree_partial.
(** A call that pays, one that is reverted. *)
Definition c141_tx : frame :=
  Frame (SCall ex_j0 (mkCallInputs [] 90000 0xC0 0xC0 0xAA (Transfer 7) CSCall false)%N)
    [ IOp (ex_op OP_CALL 4 [0; 0; 0; 0; 0; 0; 0]%N [] 7000%N ex_j0 [] CallOrCreate); ISub ex_paid_precompile;
      IOp (ex_op OP_CALL 6 [0; 0; 0; 0; 0; 0; 0]%N [] 5000%N ex_j0 [] CallOrCreate); ISub ex_reverted;
      IOp (ex_op OP_STOP 7 [] [] 4000%N ex_j0 [] Stop) ] (ex_end Stop None).
Example C141_call_tree_example :
  env_ok ex_cfg ex_world c141_tx /\ evm_addresses c141_tx /\ evm_schemes c141_tx /\ evm_value ex_world c141_tx /\
  every_frame (fun g => status (f_end g) <> SelfDestruct /\ selfdestructs_of (hooks (f_body g)) = []) c141_tx /\
  exists s r, ti_run (ti_new ex_cfg) (tx_events ex_world c141_tx) = Ok s /\
    geth_call_traces (fun _ => None) (ti_traces s) (mkCallConfig None None) 99%N = Ok r /\
    map (fun a => tree_paid a r) [0xAA; 0xC0; 1; 0xF0]%N = [-7; 4; 3; 0].
Proof.
  split; [by apply env_okb_ok|]. split; [repeat (constructor; cbn; try done)|]. split; [repeat (constructor; cbn; eauto)|].
  split; [by apply c141_valueb_ok|]. split; [repeat (constructor; cbn; try done)|].
  eexists _, _. split; [vm_compute; reflexivity|]. split; [vm_compute; reflexivity|]. vm_compute. reflexivity.
Qed.

(** The state map holds the balances after the execution, fees paid and received included. *)
Definition settled (db : Db) (state : list (address * Account)) (f : frame) (fees : address -> Z) : Prop :=
  exists b, forall a acc, In (a, acc) state -> exists o, db_basic db a = Some o /\
    b a = Z.of_N (ai_balance (db_value o)) /\
    Z.of_N (ai_balance (ac_info acc)) = balances_after f b a + fees a.

(** The changes of balances in the state diff are the sums over the parity traces, up to the fees. *)
Theorem C141_state_diff :
  forall cfg w f s l db state d fees, env_ok cfg w f -> evm_refund f -> evm_addresses f -> evm_schemes f -> evm_value w f ->
  ti_run (ti_new cfg) (tx_events w f) = Ok s -> into_transaction_traces (ti_traces s) = Ok l ->
  NoDup (map fst state) -> (forall a acc, In (a, acc) state -> NoDup (map fst (ac_storage acc))) ->
  settled db state f fees -> populate_state_diff ∅ db state = Some d ->
  forall a acc, In (a, acc) state ->
    (ac_created acc = false -> diff_change (d !! a) = balance_change l a + fees a) /\
    (ac_created acc = true -> ac_selfdestructed acc = false ->
     exists o e v, db_basic db a = Some o /\ d !! a = Some e /\ df_balance e = DAdded v /\
       Z.of_N v = Z.of_N (ai_balance (db_value o)) + balance_change l a + fees a).
Proof.
  intros cfg w f s l db state d fees He Hrf Ha Hs Hv Hr Hl Hn Hst [b Hb] Hd a acc Hin.
  destruct (C25_state_diff_exact db state Hn Hst) as (d' & Hd' & Hacc & _).
  { intros x y Hx _. destruct (Hb _ _ Hx) as (o & E & _). by rewrite E. }
  rewrite Hd in Hd'. injection Hd' as <-. specialize (Hacc _ _ Hin). destruct (Hb _ _ Hin) as (o & Ho & Hbo & Hbal).
  rewrite (C141_parity cfg w f s l b a He Hrf Ha Hs Hv Hr Hl) in Hbal. split.
  - intros Hc. inversion Hacc as [Hc'|e c Hc'|o' Hc' Ho' Hm E|o' e Hc' Ho' Hm Hch _ _ _ E]; [congruence|congruence| |].
    + rewrite Ho in Ho'. injection Ho' as <-. cbn. destruct (decide (ai_balance (db_value o) = ai_balance (ac_info acc))) as [Eq|Ne];
        [rewrite <- Eq in Hbal; lia|]. destruct Hm. unfold modified. tauto.
    + rewrite Ho in Ho'. injection Ho' as <-. cbn. destruct Hch as [[Eq ->]|[_ ->]]; [rewrite <- Eq in Hbal|]; lia.
  - intros Hc Hsd. inversion Hacc as [|e c _ _ _ Hbl _ _ _ E| |]; [congruence| |congruence..].
    exists o, e, (ai_balance (ac_info acc)). split_and!; [done..|lia].
Qed.
Print Assumptions C141_state_diff.

(** A call, a create that is destroyed, and a reverted call that paid a precompile. *)
Lemma c141_facts : env_ok ex_cfg ex_world ex_tx /\ evm_refund ex_tx /\ evm_addresses ex_tx /\ evm_schemes ex_tx /\ evm_value ex_world ex_tx.
Proof.
  destruct C112_example as (H1 & H2 & H3 & _). split_and!; [done|unfold evm_refund; cbn; lia|done..|by apply c141_valueb_ok].
Qed.
Definition c141_account (v : U256) : Account := mkAccount (mkInfo v 0 KECCAK_EMPTY None) [] false false.
Definition c141_db : Db := mkDb (fun _ => Some (Some (mkInfo 100 0 KECCAK_EMPTY None))) (fun _ => None).
Definition c141_state : list (address * Account) := [(0xAA, c141_account 90); (0xC0, c141_account 102); (0xBB, c141_account 105); (1, c141_account 100)]%N.
Example C141_example :
  env_ok ex_cfg ex_world ex_tx /\ evm_refund ex_tx /\ evm_addresses ex_tx /\ evm_schemes ex_tx /\ evm_value ex_world ex_tx /\
  (exists s l, ti_run (ti_new ex_cfg) (tx_events ex_world ex_tx) = Ok s /\ into_transaction_traces (ti_traces s) = Ok l /\
    map (balance_change l) [0xAA; 0xC0; 0xE0; 0xBB; 1]%N = [-7; 2; 0; 5; 0]) /\
  NoDup (map fst c141_state) /\ settled c141_db c141_state ex_tx (fun a => if (a =? 0xAA)%N then -3 else 0) /\
  exists d, populate_state_diff ∅ c141_db c141_state = Some d /\ map (fun a => diff_change (d !! a)) [0xAA; 0xC0; 0xBB; 1]%N = [-10; 2; 5; 0].
Proof.
  destruct c141_facts as (H1 & H2 & H3 & H4 & H5). split; [done|]. split; [done|]. split; [done|]. split; [done|]. split; [done|].
  split; [|split; [|split]].
  - eexists _, _. split; [vm_compute; reflexivity|]. split; [vm_compute; reflexivity|]. vm_compute. reflexivity.
  - apply (bool_decide_eq_true_1 (NoDup _)). vm_compute. reflexivity.
  - exists (fun _ => 100). intros a acc Hin. eexists. split; [reflexivity|]. split; [reflexivity|].
    cbn [c141_state In] in Hin. destruct Hin as [E|[E|[E|[E|[]]]]]; injection E as <- <-; vm_compute; reflexivity.
  - eexists. split; [vm_compute; reflexivity|]. vm_compute. reflexivity.
Qed.
