(** * PropertiesCreated: C142, the contracts created and destroyed can be read off the parity traces *)

From Verif Require Import CreatedProofs SimpleProofs PropertiesTx PropertiesDiff PropertiesChanges PropertiesParties PropertiesLedger Examples.

(** The creates in effect are the accounts that the transaction created, in the order of their creation and with their code. *)
Theorem C142_created :
  forall cfg w f s l, env_ok cfg w f -> evm_refund f -> evm_value w f ->
  ti_run (ti_new cfg) (tx_events w f) = Ok s -> into_transaction_traces (ti_traces s) = Ok l ->
  created_in l = created_by f.
Proof.
  intros cfg w f s l He Hrf Hv Hr Hl. rewrite (C74_parity_traces cfg w f s He Hrf Hr) in Hl. injection Hl as <-.
  unfold created_in. rewrite effect_reading. apply effect_created; [apply He|done].
Qed.
Print Assumptions C142_created.

(** So are those of the geth call tree. *)
Theorem C142_call_tree :
  forall rr cfg w f s opts gas r, env_ok cfg w f -> evm_addresses f -> evm_value w f ->
  ti_run (ti_new cfg) (tx_events w f) = Ok s -> only_top_call opts <> Some true ->
  geth_call_traces rr (ti_traces s) opts gas = Ok r -> tree_created r = created_by f.
Proof.
  intros rr cfg w f s opts gas r He Ha Hv Hr Ho Hg. destruct (C75_call_tree rr cfg w f s opts gas He Ha Hr Ho) as (r' & Hg' & Hc & _).
  rewrite Hg in Hg'. injection Hg' as <-. rewrite <- tree_created_without, Hc. by apply tree_created_reading.
Qed.
Print Assumptions C142_call_tree.

(** One would expect the same of the SELFDESTRUCTs. *)
Definition C142_destroyed_statement : Prop :=
  forall cfg w f s l, env_ok cfg w f -> evm_refund f -> evm_addresses f -> evm_value w f ->
  ti_run (ti_new cfg) (tx_events w f) = Ok s -> into_transaction_traces (ti_traces s) = Ok l ->
  destroyed_in l = destroyed_by f.
(** A SELFDESTRUCT that destroys nothing is listed. *)
Theorem C142_destroyed_refuted : ~ C142_destroyed_statement.
Proof.
  intros H. destruct stay_ok as (H1 & H2 & H3).
  assert (Hs : exists s, ti_run (ti_new cfg_none) (tx_events ex_world stay_tx) = Ok s) by (eexists; vm_compute; reflexivity).
  destruct Hs as [s Hs]. pose proof (C74_parity_traces cfg_none ex_world stay_tx s H1 H2 Hs) as Ht.
  specialize (H cfg_none ex_world stay_tx s _ H1 H2 H3 (c141_valueb_ok ex_world stay_tx eq_refl) Hs Ht). vm_compute in H. discriminate H.
Qed.
Print Assumptions C142_destroyed_refuted.
Theorem C142_destroyed_partial :
  forall cfg w f s l, env_ok cfg w f -> evm_refund f -> evm_addresses f -> evm_value w f -> evm_selfdestructs f ->
  ti_run (ti_new cfg) (tx_events w f) = Ok s -> into_transaction_traces (ti_traces s) = Ok l ->
  destroyed_in l = destroyed_by f.
Proof.
  intros cfg w f s l He Hrf Ha Hv Hs Hr Hl. rewrite (C74_parity_traces cfg w f s He Hrf Hr) in Hl. injection Hl as <-.
  unfold destroyed_in. rewrite effect_reading. by apply effect_destroyed; [apply He|..].
Qed.
Print Assumptions C142_destroyed_partial.

(** The state diff of the transaction has an added account for exactly the creates in effect whose account no SELFDESTRUCT in
    effect names, with the code of the trace; the others it leaves out. *)
Theorem C142_state_diff :
  forall cfg w f s l db state d, env_ok cfg w f -> evm_refund f -> evm_addresses f -> evm_value w f -> evm_selfdestructs f ->
  ti_run (ti_new cfg) (tx_events w f) = Ok s -> into_transaction_traces (ti_traces s) = Ok l ->
  NoDup (map fst state) -> (forall a acc, In (a, acc) state -> NoDup (map fst (ac_storage acc))) ->
  (forall a acc, In (a, acc) state -> ac_created acc = false -> db_basic db a <> None) ->
  marked db state f -> populate_state_diff ∅ db state = Some d ->
  forall a acc, In (a, acc) state ->
    ((exists e v, d !! a = Some e /\ df_balance e = DAdded v) <->
     In a (map fst (created_in l)) /\ ~ In a (map (fun x => fst (fst x)) (destroyed_in l))) /\
    (forall code, In (a, code) (created_in l) ->
     match d !! a with
     | Some e => df_code e = DAdded code
     | None => In a (map (fun x => fst (fst x)) (destroyed_in l))
     end).
Proof.
  intros cfg w f s l db state d He Hrf Ha Hv Hs Hr Hl Hn Hst Hdb Hm Hd a acc Hin.
  rewrite (C142_created cfg w f s l He Hrf Hv Hr Hl), (C142_destroyed_partial cfg w f s l He Hrf Ha Hv Hs Hr Hl).
  destruct (C25_state_diff_exact db state Hn Hst Hdb) as (d' & Hd' & Hacc & _).
  rewrite Hd in Hd'. injection Hd' as <-. specialize (Hacc _ _ Hin). destruct (Hm _ _ Hin) as (M1 & M2 & M3).
  assert (Mc : forall code, In (a, code) (created_by f) -> ac_created acc = true).
  { intros code Hc. apply M1. apply in_map_iff. by exists (a, code). }
  inversion Hacc as [C1 C2 E|e c C1 C2 C3 C4 C5 C6 C7 E|o C1 C2 C3 E|o e C1 C2 C3 C4 C5 C6 C7 E].
  - split; [|intros code _; by apply M3]. split; [by intros (? & ? & ? & _)|]. intros [_ []]. by apply M3.
  - split; [|intros code Hc; rewrite C6; f_equal; eapply code_det; [done|by apply M2]]. split; [|intros _; by eexists _, _].
    intros _. split; [by apply M1|]. intros Hd'. apply M3 in Hd'; congruence.
  - split; [|intros code Hc; apply Mc in Hc; congruence]. split; [by intros (? & ? & ? & _)|]. intros [Hc _]. apply M1 in Hc. congruence.
  - split; [|intros code Hc; apply Mc in Hc; congruence]. split.
    + intros (e' & v & [= <-] & Hb). destruct C4 as [[_ C4]|[_ C4]]; congruence.
    + intros [Hc _]. apply M1 in Hc. congruence.
Qed.
Print Assumptions C142_state_diff.

(** A create that stays, one that is destroyed, and one inside a call that is reverted. *)
Definition c142_create (a : address) : frame :=
  Frame (SCreate ex_j0 (mkCreateInputs 0xC0 CrCreate 5 [xff] 40000 a)%N)
    [ IOp (ex_op OP_RETURN 0 [0; 0]%N [] 500%N ex_j0 [] Return) ] (ex_end Return (Some a)).
Definition c142_tx : frame :=
  Frame (SCall ex_j0 (mkCallInputs [] 90000 0xC0 0xC0 0xAA (Transfer 7) CSCall false)%N)
    [ IOp (ex_op OP_CREATE 1 [0; 0; 0]%N [] 8000%N ex_j0 [] CallOrCreate); ISub (c142_create 0xE1%N);
      IOp (ex_op OP_CREATE 2 [0; 0; 0]%N [] 7000%N ex_j0 [] CallOrCreate); ISub ex_create;
      IOp (ex_op OP_CALL 3 [0; 0; 0; 0; 0; 0; 0]%N [] 5000%N ex_j0 [] CallOrCreate);
      ISub (Frame (SCall ex_j0 (mkCallInputs [] 30000 0xF0 0xF0 0xC0 (Transfer 0) CSCall false)%N)
        [ IOp (ex_op OP_CREATE 0 [0; 0; 0]%N [] 400%N ex_j0 [] CallOrCreate); ISub (c142_create 0xE2%N);
          IOp (ex_op OP_REVERT 1 [0; 0]%N [] 300%N ex_j0 [] Revert) ] (ex_end Revert None));
      IOp (ex_op OP_STOP 7 [] [] 4000%N ex_j0 [] Stop) ] (ex_end Stop None).
Definition c142_db : Db := mkDb (fun _ => Some None) (fun _ => None).
Definition c142_state : list (address * Account) :=
  [ (0xC0, mkAccount (mkInfo 97 1 KECCAK_EMPTY None) [] false false);
    (0xE1, mkAccount (mkInfo 5 1 99 (Some [x2a])) [] true false);
    (0xE0, mkAccount (mkInfo 0 1 99 (Some [x2a])) [] true true);
    (0xE2, mkAccount (mkInfo 0 0 KECCAK_EMPTY None) [] false false) ]%N.
Example C142_example :
  env_ok ex_cfg ex_world c142_tx /\ evm_refund c142_tx /\ evm_addresses c142_tx /\ evm_value ex_world c142_tx /\ evm_selfdestructs c142_tx /\
  (exists s l, ti_run (ti_new ex_cfg) (tx_events ex_world c142_tx) = Ok s /\ into_transaction_traces (ti_traces s) = Ok l /\
    created_in l = [(0xE1%N, [x2a]); (0xE0%N, [x2a])] /\ destroyed_in l = [(0xE0, 0xBB, 5)]%N /\
    flat_map created_entry l = [(0xE1%N, [x2a]); (0xE0%N, [x2a]); (0xE2%N, [x2a])] /\
    exists r, geth_call_traces (fun _ => None) (ti_traces s) (mkCallConfig None None) 99%N = Ok r /\
      tree_created r = [(0xE1%N, [x2a]); (0xE0%N, [x2a])]) /\
  NoDup (map fst c142_state) /\ marked c142_db c142_state c142_tx /\
  exists d, populate_state_diff ∅ c142_db c142_state = Some d /\
    d !! 0xE1%N = Some (mkDiff (DAdded 5%N) (DAdded [x2a]) (DAdded 1%N) ∅) /\ d !! 0xE0%N = None /\ d !! 0xE2%N = None.
Proof.
  split; [by apply env_okb_ok|]. split; [unfold evm_refund; cbn; lia|]. split; [repeat (constructor; cbn; try done); congruence|].
  split; [by apply c141_valueb_ok|]. split; [repeat (constructor; cbn; try done)|].
  split; [eexists _, _; split; [vm_compute; reflexivity|]; split; [vm_compute; reflexivity|];
          split; [vm_compute; reflexivity|]; split; [vm_compute; reflexivity|]; split; [vm_compute; reflexivity|];
          eexists; split; [vm_compute; reflexivity|]; vm_compute; reflexivity|].
  split; [apply (bool_decide_eq_true_1 (NoDup _)); vm_compute; reflexivity|].
  split; [|eexists; split; [vm_compute; reflexivity|]; vm_compute; done].
  intros a acc Hin. cbn [c142_state In] in Hin.
  destruct Hin as [E|[E|[E|[E|[]]]]]; injection E as <- <-; cbn; (split; [intuition (try done)|]); (split; [|intuition (try done)]);
    intros code H; intuition (try done); simplify_eq; by constructor.
Qed.
