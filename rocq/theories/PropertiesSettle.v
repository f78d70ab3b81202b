(** * PropertiesSettle: C145, the prestate tracer and the traces of one transaction *)

From Verif Require Import SpecSettle LedgerProofs CreatedProofs WritesProofs PropertiesTx PropertiesLedger PropertiesCreated PropertiesWrites PropertiesPrestate PropertiesChanges Examples.
Local Open Scope N_scope.

(** The prestate tracer gives the balances before the transaction, the parity traces by how much they change. *)
Theorem C145_balances :
  forall cfg w f s l db state c m fees, env_ok cfg w f -> evm_refund f -> evm_addresses f -> evm_schemes f -> evm_value w f ->
  ti_run (ti_new cfg) (tx_events w f) = Ok s -> into_transaction_traces (ti_traces s) = Ok l ->
  NoDup (map fst state) -> (forall a acc, In (a, acc) state -> NoDup (map fst (ac_storage acc))) ->
  settled db state f fees -> diff_mode c <> Some true -> geth_prestate_traces state c db = Some (PFDefault m) ->
  forall a acc, In (a, acc) state -> exists st v, m !! a = Some st /\ as_balance st = Some v /\
    Z.of_N (ai_balance (ac_info acc)) = (Z.of_N v + balance_change l a + fees a)%Z.
Proof.
  intros cfg w f s l db state c m fees He Hrf Ha Hs Hv Hr Hl Hn Hst [b Hb] Hc Hm a acc Hin.
  destruct (C35_prestate db state c Hc Hn Hst) as (m' & Hm' & Hacc & _).
  { intros x y Hx. destruct (Hb _ _ Hx) as (o & E & _). by rewrite E. }
  rewrite Hm in Hm'. injection Hm' as <-. destruct (Hacc _ _ Hin) as (o & st & Ho & Est & [Pb _ _ _]).
  destruct (Hb _ _ Hin) as (o' & Ho' & Hbo & Hbal). rewrite Ho in Ho'. injection Ho' as <-.
  rewrite (C141_parity cfg w f s l b a He Hrf Ha Hs Hv Hr Hl), Hbo in Hbal. by exists st, (ai_balance (db_value o)).
Qed.
Print Assumptions C145_balances.

(** One would expect it to give the slots before the transaction, and the recorded calls what they are left with. *)
Definition C145_slots_statement : Prop :=
  forall cfg w f s db state c m, env_ok cfg w f -> evm_addresses f -> evm_writes w f ->
  record_steps cfg = true -> record_state_diff cfg = true -> should_record_opcode cfg OP_SSTORE = true ->
  ti_run (ti_new cfg) (tx_events w f) = Ok s ->
  NoDup (map fst state) -> (forall a acc, In (a, acc) state -> NoDup (map fst (ac_storage acc))) ->
  (forall a acc, In (a, acc) state -> db_basic db a <> None) ->
  stored state f -> diff_mode c <> Some true -> geth_prestate_traces state c db = Some (PFDefault m) ->
  forall a acc k slot, In (a, acc) state -> In (k, slot) (ac_storage acc) ->
    exists v, slot_shown (m !! a) k = Some v /\
      sl_present slot = default v (left_in_slot (recorded_changes (length (ti_traces s)) (ti_traces s) 0) a k).
(** An SSTORE without effect is recorded with the change of another contract (see C143). *)
Definition c145_slots : list (address * Account) :=
  [ (0xC0, mkAccount (mkInfo 107 0 KECCAK_EMPTY None) [(1, mkSlot 4 4)] false false);
    (0xD0, mkAccount (mkInfo 100 0 KECCAK_EMPTY None) [(1, mkSlot 0 9)] false false) ].
Lemma c145_stored : stored c145_slots c143_tx.
Proof.
  assert (Hch : changes_by c143_tx = [(0xD0, 1, 9)]) by (vm_compute; reflexivity). unfold stored. rewrite Hch.
  intros a acc [E|[E|[]]]; injection E as <- <-; cbn [ac_storage c145_slots]; (split; [intros k s [[= <- <-]|[]]; vm_compute; reflexivity|]).
  - intros k v. unfold left_in_slot. cbn. by rewrite bool_decide_eq_false_2.
  - intros k v. unfold left_in_slot. cbn. case_bool_decide as E; [|done]. injection E as <-. eexists. by left.
Qed.
Theorem C145_slots_refuted : ~ C145_slots_statement.
Proof.
  intros H. assert (Hs : exists s m, ti_run (ti_new c143_cfg) (tx_events ex_world c143_tx) = Ok s /\
    geth_prestate_traces c145_slots (mkPreStateConfig None) c143_db = Some (PFDefault m) /\
    left_in_slot (recorded_changes (length (ti_traces s)) (ti_traces s) 0) 0xC0 1 = Some 9).
  { eexists _, _. split; [vm_compute; reflexivity|]. split; [vm_compute; reflexivity|]. vm_compute. reflexivity. }
  destruct Hs as (s & m & Hs & Hm & Hc).
  destruct (H c143_cfg ex_world c143_tx s c143_db c145_slots (mkPreStateConfig None) m) with (a := 0xC0)
    (acc := mkAccount (mkInfo 107 0 KECCAK_EMPTY None) [(1, mkSlot 4 4)] false false) (k := 1) (slot := mkSlot 4 4) as (v & _ & Hv).
  - by apply env_okb_ok.
  - apply c143_addresses.
  - apply c143_writesb_ok. vm_compute. reflexivity.
  - done.
  - done.
  - done.
  - done.
  - apply (bool_decide_eq_true_1 (NoDup _)). vm_compute. reflexivity.
  - intros a acc [E|[E|[]]]; injection E as <- <-; apply (bool_decide_eq_true_1 (NoDup _)); vm_compute; reflexivity.
  - done.
  - apply c145_stored.
  - done.
  - done.
  - by left.
  - by left.
  - rewrite Hc in Hv. discriminate Hv.
Qed.
Print Assumptions C145_slots_refuted.
(** It does if such an SSTORE only repeats a change of its own call that is still in effect. *)
Theorem C145_slots_partial :
  forall cfg w f s db state c m, env_ok cfg w f -> evm_addresses f -> evm_writes w f -> own_leftovers f ->
  record_steps cfg = true -> record_state_diff cfg = true -> should_record_opcode cfg OP_SSTORE = true ->
  ti_run (ti_new cfg) (tx_events w f) = Ok s ->
  NoDup (map fst state) -> (forall a acc, In (a, acc) state -> NoDup (map fst (ac_storage acc))) ->
  (forall a acc, In (a, acc) state -> db_basic db a <> None) ->
  stored state f -> diff_mode c <> Some true -> geth_prestate_traces state c db = Some (PFDefault m) ->
  forall a acc k slot, In (a, acc) state -> In (k, slot) (ac_storage acc) ->
    exists v, slot_shown (m !! a) k = Some v /\
      sl_present slot = default v (left_in_slot (recorded_changes (length (ti_traces s)) (ti_traces s) 0) a k).
Proof.
  intros cfg w f s db state c m He Ha Hw Hn H1 H2 H3 Hr Hnd Hst Hdb Hs Hc Hm a acc k slot Hin Hk.
  rewrite (tx_slots cfg w f s a k He Ha Hw Hn H1 H2 H3 Hr).
  destruct (C35_prestate db state c Hc Hnd Hst Hdb) as (m' & Hm' & Hacc & _).
  rewrite Hm in Hm'. injection Hm' as <-. destruct (Hacc _ _ Hin) as (o & st & Ho & Est & [_ _ _ Ps]).
  exists (sl_original slot). rewrite Est. split; [apply Ps; by exists slot|]. destruct (Hs _ _ Hin) as [S1 _]. by apply S1.
Qed.
Print Assumptions C145_slots_partial.

(** What the diff of one account is, from C36. *)
Lemma diff_of : forall db state c g, SpecChanges.executed db state -> diff_mode c = Some true ->
  geth_prestate_traces state c db = Some (PFDiff g) -> forall a acc, In (a, acc) state ->
  exists o code, db_basic db a = Some o /\ has_code db (db_value o) code /\
    prestate_diff (db_value o) code acc (dm_pre g !! a) (dm_post g !! a).
Proof.
  intros db state c g [Hnd Hst Hdb _ _] Hc Hg a acc Hin.
  destruct (C36_diff_partial db state c Hc Hnd Hst Hdb) as (g' & Hg' & Hacc & _). rewrite Hg in Hg'. injection Hg' as <-.
  destruct (C35_prestate db state (mkPreStateConfig None) ltac:(done) Hnd Hst Hdb) as (m & _ & Hm & _).
  destruct (Hm _ _ Hin) as (o & st & Ho & _ & [_ _ (code & Hcode & _) _]). exists o, code. split; [done|]. split; [done|].
  by apply (Hacc a acc o code).
Qed.

(** The diff shows the change of the balance of every account that is not created or destroyed. *)
Theorem C145_diff_balances :
  forall cfg w f s l db state c g fees, env_ok cfg w f -> evm_refund f -> evm_addresses f -> evm_schemes f -> evm_value w f ->
  ti_run (ti_new cfg) (tx_events w f) = Ok s -> into_transaction_traces (ti_traces s) = Ok l ->
  SpecChanges.executed db state -> settled db state f fees -> diff_mode c = Some true -> geth_prestate_traces state c db = Some (PFDiff g) ->
  forall a acc, In (a, acc) state -> ac_created acc = false -> ac_selfdestructed acc = false ->
    change_shown (dm_pre g !! a) (dm_post g !! a) = (balance_change l a + fees a)%Z.
Proof.
  intros cfg w f s l db state c g fees He Hrf Ha Hs Hv Hr Hl Hx [b Hb] Hc Hg a acc Hin Hcr Hsd.
  destruct (diff_of db state c g Hx Hc Hg a acc Hin) as (o & code & Ho & _ & [D1 _ _ D4 D5]).
  destruct (Hb _ _ Hin) as (o' & Ho' & Hbo & Hbal). rewrite Ho in Ho'. injection Ho' as <-.
  rewrite (C141_parity cfg w f s l b a He Hrf Ha Hs Hv Hr Hl), Hbo in Hbal.
  destruct (decide (ai_balance (db_value o) = ai_balance (ac_info acc))) as [Eq|Ne].
  - assert (balance_change l a + fees a = 0)%Z as -> by (rewrite Eq in Hbal; lia). unfold change_shown.
    destruct (dm_pre g !! a) as [p|] eqn:Ep; [|done]. destruct (dm_post g !! a) as [q|] eqn:Eq'; [|done].
    assert (Hns : ~ shown_same (db_value o) code acc) by (intros H; by destruct (D1 H)).
    destruct (D5 Hns Hsd) as (q' & [= <-] & [[_ ->]|[N _]] & _); [by destruct (as_balance p)|congruence].
  - assert (Hns : ~ shown_same (db_value o) code acc) by (intros [H _]; done).
    destruct (D4 Hns Hcr) as (p & -> & Hp & _). destruct (D5 Hns Hsd) as (q & -> & [[E _]|[_ Hq]] & _); [congruence|].
    unfold change_shown. rewrite Hp, Hq. lia.
Qed.
Print Assumptions C145_diff_balances.

(** For a created contract [post] shows the balance if it is another one than the address had before. *)
Theorem C145_diff_created_balances :
  forall cfg w f s l db state c g fees, env_ok cfg w f -> evm_refund f -> evm_addresses f -> evm_schemes f -> evm_value w f ->
  ti_run (ti_new cfg) (tx_events w f) = Ok s -> into_transaction_traces (ti_traces s) = Ok l ->
  SpecChanges.executed db state -> settled db state f fees -> diff_mode c = Some true -> geth_prestate_traces state c db = Some (PFDiff g) ->
  forall a acc, In (a, acc) state -> ac_created acc = true -> ac_selfdestructed acc = false ->
    exists o q, db_basic db a = Some o /\ dm_post g !! a = Some q /\
      Z.of_N (default (ai_balance (db_value o)) (as_balance q)) =
        (Z.of_N (ai_balance (db_value o)) + balance_change l a + fees a)%Z /\
      (as_balance q = None <-> (balance_change l a + fees a = 0)%Z).
Proof.
  intros cfg w f s l db state c g fees He Hrf Ha Hs Hv Hr Hl Hx [b Hb] Hc Hg a acc Hin Hcr Hsd.
  destruct (diff_of db state c g Hx Hc Hg a acc Hin) as (o & code & Ho & _ & [_ _ _ _ D5]).
  destruct (Hb _ _ Hin) as (o' & Ho' & Hbo & Hbal). rewrite Ho in Ho'. injection Ho' as <-.
  rewrite (C141_parity cfg w f s l b a He Hrf Ha Hs Hv Hr Hl), Hbo in Hbal.
  destruct Hx as [_ _ _ _ Hcreated]. destruct (Hcreated a acc o Hin Hcr Ho) as (_ & C2 & C3 & _).
  destruct D5 as (q & Hq & Hbq & _); [by intros (_ & H & _); congruence|done|]. exists o, q. split; [done|]. split; [done|].
  destruct Hbq as [[E ->]|[N ->]]; cbn.
  - injection E as E. rewrite <- E in Hbal. split; [lia|]. split; [lia|done].
  - split; [done|]. split; [done|]. intros Hz. destruct N. f_equal. lia.
Qed.
Print Assumptions C145_diff_created_balances.

(** An account is only in [post] exactly if the traces create it and do not destroy it, and it has the code of the trace. *)
Theorem C145_diff_created :
  forall cfg w f s l db state c g, env_ok cfg w f -> evm_refund f -> evm_addresses f -> evm_value w f -> evm_selfdestructs f ->
  ti_run (ti_new cfg) (tx_events w f) = Ok s -> into_transaction_traces (ti_traces s) = Ok l ->
  SpecChanges.executed db state -> marked db state f -> diff_mode c = Some true -> geth_prestate_traces state c db = Some (PFDiff g) ->
  forall a acc, In (a, acc) state ->
    (dm_pre g !! a = None /\ dm_post g !! a <> None <->
     In a (map fst (created_in l)) /\ ~ In a (map (fun x => fst (fst x)) (destroyed_in l))) /\
    (forall code, In (a, code) (created_in l) ->
     match dm_post g !! a with
     | Some q => as_code q = nonempty code
     | None => In a (map (fun x => fst (fst x)) (destroyed_in l))
     end).
Proof.
  intros cfg w f s l db state c g He Hrf Ha Hv Hs Hr Hl Hx Hm Hc Hg a acc Hin.
  rewrite (C142_created cfg w f s l He Hrf Hv Hr Hl), (C142_destroyed_partial cfg w f s l He Hrf Ha Hv Hs Hr Hl).
  destruct (diff_of db state c g Hx Hc Hg a acc Hin) as (o & code & Ho & Hcode & [D1 D2 D3 D4 D5]).
  destruct (Hm _ _ Hin) as (M1 & M2 & M3). destruct Hx as [_ _ _ _ Hcreated]. specialize (Hcreated a acc o Hin).
  destruct (ac_created acc) eqn:Ecr.
  - destruct (Hcreated eq_refl Ho) as (C1 & C2 & C3 & C4). assert (code = []) as -> by (by eapply code_det).
    assert (Hns : ~ shown_same (db_value o) [] acc) by (intros (_ & H & _); congruence). rewrite (D2 eq_refl).
    specialize (M3 eq_refl). destruct (ac_selfdestructed acc) eqn:Esd.
    + rewrite (D3 eq_refl). split; [|intros ? _; by apply M3]. split; [by intros [_ []]|]. intros [_ []]. by apply M3.
    + destruct (D5 Hns eq_refl) as (q & Hq & _ & _ & Hcd & _). rewrite Hq. split.
      * split; [|done]. intros _. split; [by apply M1|]. intros H. apply M3 in H. done.
      * intros c' Hc'. assert (attached acc = nonempty c') as Hat.
        { unfold attached. destruct (ai_code (ac_info acc)) as [c2|] eqn:E2; [|done]. f_equal. specialize (M2 _ Hc').
          inversion M2; congruence. }
        rewrite Hat in Hcd. destruct Hcd as [[E1 ->]|[_ ->]]; [|done]. by rewrite <- E1.
  - split; [|intros c' Hc'; assert (false = true) by (apply M1, in_map_iff; by exists (a, c')); done]. split.
    + intros [E1 E2]. destruct (decide (ai_balance (db_value o) = ai_balance (ac_info acc))) as [Eb|Nb].
      * exfalso. assert (~ ~ shown_same (db_value o) code acc) as Hnn by (intros H; destruct (D4 H eq_refl) as (? & ? & _); congruence).
        apply Hnn. intros H. by destruct (D1 H).
      * destruct D4 as (? & ? & _); [by intros [H _]|done|congruence].
    + intros [H _]. apply M1 in H. done.
Qed.
Print Assumptions C145_diff_created.

(** The slots shown are those left with another value than they had; zeros are not shown. *)
Theorem C145_diff_slots_partial :
  forall cfg w f s db state c g, env_ok cfg w f -> evm_addresses f -> evm_writes w f -> own_leftovers f ->
  record_steps cfg = true -> record_state_diff cfg = true -> should_record_opcode cfg OP_SSTORE = true ->
  ti_run (ti_new cfg) (tx_events w f) = Ok s ->
  SpecChanges.executed db state -> stored state f -> diff_mode c = Some true -> geth_prestate_traces state c db = Some (PFDiff g) ->
  forall a acc k slot, In (a, acc) state -> In (k, slot) (ac_storage acc) ->
  let new := left_in_slot (recorded_changes (length (ti_traces s)) (ti_traces s) 0) a k in
    (ac_created acc = false -> slot_shown (dm_pre g !! a) k =
       match new with Some v => if v =? sl_original slot then None else nonzero (sl_original slot) | None => None end) /\
    (ac_selfdestructed acc = false -> slot_shown (dm_post g !! a) k =
       match new with Some v => if v =? sl_original slot then None else nonzero v | None => None end).
Proof.
  intros cfg w f s db state c g He Ha Hw Hn H1 H2 H3 Hr Hx Hs Hc Hg a acc k slot Hin Hk.
  rewrite (tx_slots cfg w f s a k He Ha Hw Hn H1 H2 H3 Hr). cbv zeta.
  destruct (diff_of db state c g Hx Hc Hg a acc Hin) as (o & code & Ho & Hcode & [D1 D2 D3 D4 D5]).
  destruct (Hs _ _ Hin) as [S1 _]. specialize (S1 _ _ Hk). destruct Hx as [_ Hst _ _ _]. specialize (Hst _ _ Hin).
  assert (Huniq : forall s', In (k, s') (ac_storage acc) -> s' = slot).
  { intros s2 I2. apply elem_of_list_In in I2. apply elem_of_list_In in Hk.
    apply elem_of_list_lookup in Hk as [i1 I1]. apply elem_of_list_lookup in I2 as [i2 I2].
    assert (i1 = i2) as <-; [|congruence]. eapply NoDup_lookup; [exact Hst| |]; rewrite list_lookup_fmap; [by rewrite I1|by rewrite I2]. }
  assert (Hcn : forall (h : Slot -> U256) m, changed_nonzero h (ac_storage acc) m ->
    m !! k = if sl_original slot =? sl_present slot then None else nonzero (h slot)).
  { intros h m Hm. specialize (Hm k). destruct (N.eqb_spec (sl_original slot) (sl_present slot)) as [E|E].
    - destruct (m !! k) as [v|]; [|done]. destruct (proj1 (Hm v) eq_refl) as (s' & I & N & _). apply Huniq in I as ->. done.
    - unfold nonzero. destruct (N.eqb_spec (h slot) 0) as [Z|Z].
      + destruct (m !! k) as [v|]; [|done]. destruct (proj1 (Hm v) eq_refl) as (s' & I & _ & -> & N). apply Huniq in I as ->. done.
      + apply Hm. by exists slot. }
  assert (Hsame : shown_same (db_value o) code acc -> sl_original slot = sl_present slot) by (intros (_ & _ & _ & H); by eapply H).
  assert (Hnew : match left_in_slot (changes_by f) a k with Some v => v = sl_present slot | None => sl_original slot = sl_present slot end).
  { destruct (left_in_slot _ _ _); cbn in S1; congruence. }
  assert (Hgen : forall e (h : Slot -> U256), (shown_same (db_value o) code acc -> e = None) ->
    (~ shown_same (db_value o) code acc -> exists st, e = Some st /\ changed_nonzero h (ac_storage acc) (as_storage st)) ->
    slot_shown e k = match left_in_slot (changes_by f) a k with
                     | Some v => if v =? sl_original slot then None else nonzero (h slot) | None => None end).
  { intros e h E1 E2. assert (slot_shown e k = if sl_original slot =? sl_present slot then None else nonzero (h slot)) as ->.
    - destruct (N.eqb_spec (sl_original slot) (sl_present slot)) as [E|E].
      + destruct e as [st|]; [|done]. destruct E2 as (st' & [= <-] & Hch); [intros H; by apply E1 in H|].
        cbn. by rewrite (Hcn _ _ Hch).
      + destruct E2 as (st & -> & Hch); [intros H; by apply E, Hsame|]. cbn. by rewrite (Hcn _ _ Hch).
    - destruct (left_in_slot _ _ _) as [v|]; [by rewrite Hnew, N.eqb_sym|by rewrite Hnew, N.eqb_refl]. }
  split.
  - intros Hcr. apply Hgen; [intros H; by destruct (D1 H)|]. intros H. destruct (D4 H Hcr) as (st & ? & _ & _ & _ & ?). by exists st.
  - intros Hsd. rewrite (Hgen _ sl_present); [destruct (left_in_slot _ _ _); [by rewrite Hnew|done]|intros H; by destruct (D1 H)|].
    intros H. destruct (D5 H Hsd) as (st & ? & _ & _ & _ & ?). by exists st.
Qed.
Print Assumptions C145_diff_slots_partial.

(** A contract that stays, one that is destroyed and one that is not created in the end; the sender pays a fee of 3. *)
Definition c145_db : Db :=
  mkDb (fun a => Some (if (a =? 0xAA) || (a =? 0xC0) then Some (mkInfo 100 0 KECCAK_EMPTY None) else None)) (fun _ => None).
Definition c145_state : list (address * Account) :=
  [ (0xAA, mkAccount (mkInfo 90 1 KECCAK_EMPTY None) [] false false);
    (0xC0, mkAccount (mkInfo 97 2 KECCAK_EMPTY None) [] false false);
    (0xE1, mkAccount (mkInfo 5 1 99 (Some [x2a])) [] true false);
    (0xE0, mkAccount (mkInfo 0 1 99 (Some [x2a])) [] true true);
    (0xBB, mkAccount (mkInfo 5 0 KECCAK_EMPTY None) [] false false) ].
Lemma c145_executed : SpecChanges.executed c145_db c145_state.
Proof.
  constructor.
  - apply (bool_decide_eq_true_1 (NoDup _)). vm_compute. reflexivity.
  - intros a acc H. cbn in H. intuition (simplify_eq; cbn); constructor.
  - done.
  - intros a acc o c H Hf Ho Hc. destruct H as [[= <- <-]|[[= <- <-]|[[= <- <-]|[[= <- <-]|[[= <- <-]|[]]]]]]; try done; injection Ho as <-;
      (split; [done|]); inversion Hc as [cc E| | |]; try done; try discriminate; injection E as <-; done.
  - intros a acc o H Hf Ho. destruct H as [[= <- <-]|[[= <- <-]|[[= <- <-]|[[= <- <-]|[[= <- <-]|[]]]]]]; try done; injection Ho as <-;
      split_and!; try done; first [by apply code_attached|by apply code_empty].
Qed.
Definition c145_fees (a : address) : Z := if a =? 0xAA then (-3)%Z else 0%Z.
Lemma c145_settled : settled c145_db c145_state c142_tx c145_fees.
Proof.
  exists (fun a => if (a =? 0xAA) || (a =? 0xC0) then 100%Z else 0%Z). intros a acc Hin.
  cbn [c145_state In] in Hin. destruct Hin as [E|[E|[E|[E|[E|[]]]]]]; injection E as <- <-; eexists;
    (split; [reflexivity|]); (split; [reflexivity|]); vm_compute; reflexivity.
Qed.
Lemma c145_marked : marked c145_db c145_state c142_tx.
Proof.
  intros a acc Hin. cbn [c145_state In] in Hin.
  destruct Hin as [E|[E|[E|[E|[E|[]]]]]]; injection E as <- <-; cbn; (split; [intuition (try done)|]); (split; [|intuition (try done)]);
    intros code H; intuition (try done); simplify_eq; by constructor.
Qed.
Example C145_example :
  env_ok ex_cfg ex_world c142_tx /\ evm_refund c142_tx /\ evm_addresses c142_tx /\ evm_schemes c142_tx /\ evm_value ex_world c142_tx /\
  evm_selfdestructs c142_tx /\ SpecChanges.executed c145_db c145_state /\ settled c145_db c145_state c142_tx c145_fees /\
  marked c145_db c145_state c142_tx /\
  (exists s l, ti_run (ti_new ex_cfg) (tx_events ex_world c142_tx) = Ok s /\ into_transaction_traces (ti_traces s) = Ok l /\
    map (balance_change l) [0xAA; 0xC0; 0xE1; 0xE0; 0xBB] = [-7; -3; 5; 0; 5]%Z) /\
  exists m g, geth_prestate_traces c145_state (mkPreStateConfig None) c145_db = Some (PFDefault m) /\
    geth_prestate_traces c145_state (mkPreStateConfig (Some true)) c145_db = Some (PFDiff g) /\
    map (fun a => as_balance <$> m !! a) [0xAA; 0xC0; 0xE1; 0xE0; 0xBB] = [Some (Some 100); Some (Some 100); Some (Some 0); Some (Some 0); Some (Some 0)] /\
    map (fun a => change_shown (dm_pre g !! a) (dm_post g !! a)) [0xAA; 0xC0; 0xBB] = [-10; -3; 5]%Z /\
    dm_pre g !! 0xE1 = None /\ dm_post g !! 0xE1 = Some (mkAS (Some 5) (Some [x2a]) (Some 1) ∅) /\ dm_post g !! 0xE0 = None.
Proof.
  destruct C142_example as (H1 & H2 & H3 & H4 & H5 & _).
  split; [done|]. split; [done|]. split; [done|]. split; [repeat (constructor; cbn; eauto)|]. split; [done|]. split; [done|].
  split; [apply c145_executed|]. split; [apply c145_settled|]. split; [apply c145_marked|]. clear.
  split; [eexists _, _; split; [vm_compute; reflexivity|]; split; [vm_compute; reflexivity|]; vm_compute; reflexivity|].
  eexists _, _. split; [vm_compute; reflexivity|]. split; [vm_compute; reflexivity|]. split_and!; vm_compute; reflexivity.
Qed.

(** A slot that is changed, and one that is changed by a call that fails. *)
Lemma c145_executed_slots : SpecChanges.executed c143_db c143_state.
Proof.
  constructor.
  - apply (bool_decide_eq_true_1 (NoDup _)). vm_compute. reflexivity.
  - intros a acc H. cbn in H. intuition (simplify_eq; cbn); apply (bool_decide_eq_true_1 (NoDup _)); vm_compute; reflexivity.
  - done.
  - intros a acc o c H Hf Ho Hc. destruct H as [[= <- <-]|[[= <- <-]|[]]]; injection Ho as <-;
      (split; [done|]); inversion Hc as [cc E| | |]; try done; try discriminate; injection E as <-; done.
  - intros a acc o H Hf Ho. by destruct H as [[= <- <-]|[[= <- <-]|[]]].
Qed.
Lemma no_leftover_own f : no_leftover f -> own_leftovers f.
Proof.
  apply every_frame_impl. intros g H. generalize (@nil change_of_slot). induction (f_body g) as [|[o|h|x] r IH]; intros acc; cbn in H |- *; [done|..].
  - apply Forall_cons_1 in H as [Ho H]. split; [|by apply IH]. intros H1 H2 j b k had Hj Hl. by destruct (Ho H1 H2 j b k had Hj).
  - by apply IH.
  - by apply IH.
Qed.
Example C145_slots_example :
  env_ok c143_cfg ex_world c143_good /\ evm_addresses c143_good /\ evm_writes ex_world c143_good /\ own_leftovers c143_good /\
  SpecChanges.executed c143_db c143_state /\ stored c143_state c143_good /\
  (exists s, ti_run (ti_new c143_cfg) (tx_events ex_world c143_good) = Ok s /\
    left_in_slot (recorded_changes (length (ti_traces s)) (ti_traces s) 0) 0xD0 1 = Some 9) /\
  exists m g, geth_prestate_traces c143_state (mkPreStateConfig None) c143_db = Some (PFDefault m) /\
    geth_prestate_traces c143_state (mkPreStateConfig (Some true)) c143_db = Some (PFDiff g) /\
    slot_shown (m !! 0xC0) 2 = Some 4 /\ slot_shown (m !! 0xD0) 1 = Some 0 /\
    slot_shown (dm_pre g !! 0xD0) 1 = None /\ slot_shown (dm_post g !! 0xD0) 1 = Some 9 /\ slot_shown (dm_post g !! 0xC0) 2 = None.
Proof.
  destruct C143_example as (H1 & H2 & H3 & H4 & _ & _ & H5 & _).
  split; [done|]. split; [done|]. split; [done|]. split; [by apply no_leftover_own|]. split; [apply c145_executed_slots|]. split; [done|]. clear.
  split; [eexists; split; [vm_compute; reflexivity|]; vm_compute; reflexivity|].
  eexists _, _. split; [vm_compute; reflexivity|]. split; [vm_compute; reflexivity|]. split_and!; vm_compute; reflexivity.
Qed.
