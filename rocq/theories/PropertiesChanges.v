(** * PropertiesChanges: the parity state diff and the geth prestate diff report the same changes *)

From Verif Require Import SpecChanges PropertiesDiff PropertiesPrestate.
Local Open Scope N_scope.

(** ** C110 *)

Definition C110_statement : Prop :=
  forall db state c, executed db state -> diff_mode c = Some true ->
  exists d g, populate_state_diff ∅ db state = Some d /\ geth_prestate_traces state c db = Some (PFDiff g) /\
    forall a acc o, In (a, acc) state -> db_basic db a = Some o ->
      reports_agree (ai_balance (db_value o)) acc (d !! a) (dm_pre g !! a) (dm_post g !! a).

Lemma nonzero_some n v : nonzero n = Some v <-> n = v /\ v <> 0.
Proof. unfold nonzero. destruct (N.eqb_spec n 0) as [->|H]; split; [done|by intros [<- ?]|intros [= <-]; done|by intros [-> _]]. Qed.
Lemma nonzero_inj a b : nonzero a = nonzero b -> a = b.
Proof. unfold nonzero. destruct (N.eqb_spec a 0) as [->|], (N.eqb_spec b 0) as [->|]; congruence. Qed.
Lemma lookup_nonzero (o : option N) n : (forall v, o = Some v <-> v = n /\ v <> 0) -> o = nonzero n.
Proof.
  intros H. destruct o as [v|].
  - destruct (proj1 (H v) eq_refl) as [-> Hn]. symmetry. by apply nonzero_some.
  - unfold nonzero. destruct (N.eqb_spec n 0) as [|Hn]; [done|]. by rewrite (proj2 (H n)).
Qed.
Lemma slot_once (l : list (U256 * Slot)) k s s' : NoDup (map fst l) -> In (k, s) l -> In (k, s') l -> s = s'.
Proof.
  induction l as [|[k0 s0] l IH]; intros Hnd; [done|]. cbn in Hnd. apply NoDup_cons in Hnd as [Hk Hnd].
  assert (Hno : forall x, In (k, x) l -> k0 <> k).
  { intros x Hx ->. apply Hk, elem_of_list_In. by apply (in_map fst) in Hx. }
  intros [E|H] [E'|H']; simplify_eq; [done| | |by apply IH]; exfalso; by eapply Hno.
Qed.
Lemma changed_none l f m k : changed_slots f l m -> m !! k = None -> forall s, In (k, s) l -> sl_original s = sl_present s.
Proof.
  intros Hm Hk s Hs. destruct (decide (sl_original s = sl_present s)) as [|Hne]; [done|].
  assert (m !! k = Some (f (sl_original s) (sl_present s))) as E by (apply Hm; eauto). congruence.
Qed.
Lemma nonzero_slot l g (m : gmap U256 U256) k s : NoDup (map fst l) -> changed_nonzero g l m -> In (k, s) l -> sl_original s <> sl_present s ->
  m !! k = nonzero (g s).
Proof.
  intros Hnd Hm Hs Hne. apply lookup_nonzero. intros v. rewrite (Hm k v). split.
  - intros (s' & Hs' & _ & -> & Hv). by rewrite (slot_once l k s s' Hnd Hs Hs').
  - intros [-> Hv]. exists s. done.
Qed.
Lemma no_slot l g (m : gmap U256 U256) k : changed_nonzero g l m -> (forall s, In (k, s) l -> sl_original s = sl_present s) -> m !! k = None.
Proof.
  intros Hm H. destruct (m !! k) as [v|] eqn:E; [|done]. apply Hm in E as (s & Hs & Hne & _). by destruct Hne; apply H.
Qed.

Lemma slots_kept l m pre post : NoDup (map fst l) -> changed_slots DChanged l m ->
  changed_nonzero sl_original l pre -> changed_nonzero sl_present l post -> slots_agree m pre post.
Proof.
  intros Hnd Hm Hpre Hpost k. destruct (m !! k) as [d|] eqn:E; cbn.
  - apply Hm in E as (s & Hs & Hne & ->). split_and!; [done|by eapply nonzero_slot..].
  - split; eapply no_slot; try done; by eapply changed_none.
Qed.
Lemma slots_created l m post : NoDup (map fst l) -> changed_slots (fun _ present => DAdded present) l m ->
  changed_nonzero sl_present l post -> slots_agree m ∅ post.
Proof.
  intros Hnd Hm Hpost k. rewrite lookup_empty. destruct (m !! k) as [d|] eqn:E; cbn.
  - apply Hm in E as (s & Hs & Hne & ->). split_and!; [done|by eapply nonzero_slot].
  - split; [done|]. eapply no_slot; try done; by eapply changed_none.
Qed.

Lemma same_slots_dec acc : same_slots acc \/ exists k s, In (k, s) (ac_storage acc) /\ sl_original s <> sl_present s.
Proof.
  unfold same_slots. induction (ac_storage acc) as [|[k s] l IH]; [by left|].
  destruct (decide (sl_original s = sl_present s)) as [E|E]; [|right; exists k, s; split; [by left|done]].
  destruct IH as [IH|(k' & s' & H & Hn)]; [left|right; exists k', s'; split; [by right|done]].
  intros k' s' [[= <- <-]|H]; [done|by eapply IH].
Qed.
Lemma code_det db i c c' : has_code db i c -> has_code db i c' -> c = c'.
Proof. intros [] []; congruence. Qed.
Lemma code_exists db i : exists c, has_code db i c.
Proof.
  destruct (ai_code i) as [c|] eqn:E; [exists c; by constructor|].
  destruct (decide (ai_code_hash i = KECCAK_EMPTY)) as [Eh|Eh]; [exists []; by constructor|].
  destruct (db_code_by_hash db (ai_code_hash i)) as [c|] eqn:Ec; [exists c; by apply code_stored|exists []; by apply code_missing].
Qed.

Lemma agree_one db a acc o c d pre post :
  NoDup (map fst (ac_storage acc)) -> db_basic db a = Some o -> has_code db (db_value o) c ->
  (ac_created acc = false -> ai_code_hash (ac_info acc) = ai_code_hash (db_value o) /\ attached acc = nonempty c) ->
  (ac_created acc = true -> c = [] /\ ai_nonce (db_value o) = 0 /\ ai_nonce (ac_info acc) <> 0 /\ ai_code (ac_info acc) <> None) ->
  account_diff db a acc d -> prestate_diff (db_value o) c acc pre post ->
  ~ empty_handed (db_value o) acc ->
  reports_agree (ai_balance (db_value o)) acc d pre post.
Proof.
  intros Hnd Ho Hc Hex Hcr Hd [P1 P2 P3 P4 P5] Hne.
  destruct Hd as [H1 H2|d code H1 H2 H3 H4 H5 H6 H7|o' H1 H2 H3|o' d H1 H2 H3 H4 H5 H6 H7]; cbn [reports_agree].
  - by rewrite P2, P3.
  - rewrite H1. destruct (Hcr H1) as (-> & Hn0 & Hn1 & Hcode). split; [by apply P2|].
    assert (Hns : ~ shown_same (db_value o) [] acc) by (intros (_ & Hn & _); congruence).
    destruct (P5 Hns H2) as (st & -> & Q1 & Q2 & Q3 & Q4). exists st. split; [done|]. constructor.
    + eexists. split; [exact H4|]. destruct (N.eqb_spec (ai_balance (ac_info acc)) (ai_balance (db_value o))) as [E|E].
      * destruct Q1 as [[_ ->]|[Q1 _]]; [done|]. congruence.
      * destruct Q1 as [[Q1 _]|[_ ->]]; [congruence|done].
    + eexists. split; [exact H5|]. rewrite Hn0 in Q2. destruct Q2 as [[Q2 _]|[_ ->]]; [|by apply nonzero_some].
      symmetry in Q2. unfold nonzero in Q2. cbn in Q2. destruct (N.eqb_spec (ai_nonce (ac_info acc)) 0); done.
    + exists code. split; [done|]. destruct (ai_code (ac_info acc)) as [cc|] eqn:Ecc; [|done].
      assert (code = cc) as -> by (inversion H3; congruence). unfold attached in Q3. rewrite Ecc in Q3. cbn [nonempty] in Q3.
      destruct Q3 as [[Q3 ->]|[_ ->]]; done.
    + by eapply slots_created.
  - rewrite Ho in H2. injection H2 as <-. apply P1. destruct (Hex H1) as [Eh Ea]. unfold modified in H3.
    split_and!; [destruct (decide (ai_balance (db_value o) = ai_balance (ac_info acc))); [done|tauto]
      |destruct (decide (ai_nonce (db_value o) = ai_nonce (ac_info acc))); [done|tauto]|done|].
    destruct (same_slots_dec acc) as [|Hs]; [done|]. tauto.
  - rewrite Ho in H2. injection H2 as <-. rewrite H1. destruct (Hex H1) as [Eh Ea].
    assert (Hns : ~ shown_same (db_value o) c acc).
    { intros (S1 & S2 & S3 & S4). destruct (ac_selfdestructed acc) eqn:Esd; [by apply Hne|].
      destruct H3 as [H3|[(k & s & Hs & Hsn)|[H3|[H3|H3]]]]; [congruence| |congruence..]. by apply Hsn, (S4 k). }
    destruct (P4 Hns H1) as (p & Hp & Q1 & Q2 & Q3 & Q4).
    assert (Hstore : forall k f t, df_storage d !! k = Some (DChanged f t) -> as_storage p !! k = nonzero f).
    { intros k f t Hk. apply H7 in Hk as (s & Hs & Hsn & [= -> ->]). by eapply (nonzero_slot _ sl_original). }
    destruct (ac_selfdestructed acc) eqn:Esd.
    + split; [by apply P3|]. exists p. split; [done|]. constructor; [| |done].
      * intros f t Hf. destruct H4 as [[_ E]|[_ E]]; rewrite E in Hf; [done|]. by injection Hf as <- <-.
      * intros f t Hf. destruct H5 as [[_ E]|[_ E]]; rewrite E in Hf; [done|]. by injection Hf as <- <-.
    + destruct (P5 Hns eq_refl) as (q & Hq & R1 & R2 & R3 & R4). exists p, q. split; [done|]. split; [done|]. constructor.
      * intros f t. rewrite Q1. destruct H4 as [[E ->]|[E ->]], R1 as [[R1 ->]|[R1 ->]]; try congruence.
        -- split; [done|]. by intros [_ ?].
        -- split; [by intros [= <- <-]|]. by intros [[= ->] [= ->]].
      * destruct H4 as [[E ->]|[E ->]], R1 as [[R1 ->]|[R1 ->]]; try congruence; split; done.
      * intros f t Hf. destruct H5 as [[_ E]|[En E]]; rewrite E in Hf; [done|]. injection Hf as <- <-. split; [done|].
        destruct R2 as [[R2 _]|[_ ->]]; [|done]. by apply nonzero_inj in R2.
      * intros Hf. destruct H5 as [[En _]|[_ E]]; [|congruence]. rewrite En in R2. destruct R2 as [[_ ->]|[R2 _]]; done.
      * destruct H5 as [[_ ->]|[_ ->]]; eauto.
      * split; [done|]. rewrite Ea in R3. destruct R3 as [[_ ->]|[R3 _]]; done.
      * by eapply slots_kept.
Qed.

(** The reports agree on every account but those destroyed empty-handed. *)
Theorem C110_reports_partial :
  forall db state c, executed db state -> diff_mode c = Some true ->
  exists d g, populate_state_diff ∅ db state = Some d /\ geth_prestate_traces state c db = Some (PFDiff g) /\
    (forall a acc o, In (a, acc) state -> db_basic db a = Some o ->
       (~ empty_handed (db_value o) acc -> reports_agree (ai_balance (db_value o)) acc (d !! a) (dm_pre g !! a) (dm_post g !! a)) /\
       (** those: parity lists them without a change, geth not at all *)
       (empty_handed (db_value o) acc ->
          d !! a = Some (mkDiff DUnchanged DUnchanged DUnchanged ∅) /\ dm_pre g !! a = None /\ dm_post g !! a = None)) /\
    (** no other account is in either report *)
    (forall a, ~ In a (map fst state) -> d !! a = None /\ dm_pre g !! a = None /\ dm_post g !! a = None).
Proof.
  intros db state c [X1 X2 X3 X4 X5] Hmode.
  destruct (C25_state_diff_exact db state X1 X2) as (d & Hd & Hin & Hout); [eauto|].
  destruct (C36_diff_partial db state c Hmode X1 X2 X3) as (g & Hg & Gin & Gout).
  exists d, g. split; [done|]. split; [done|]. split.
  - intros a acc o Ha Ho. destruct (code_exists db (db_value o)) as (cd & Hcd).
    destruct (Gin a acc o cd Ha Ho Hcd) as [Gp _]. split.
    + intros Hne. eapply (agree_one db a acc o cd); try done; [by eapply X2| | |by apply Hin].
      * intros Hc. by eapply X4.
      * intros Hc. destruct (X5 a acc o Ha Hc Ho) as (K1 & K2 & K3 & K4). split_and!; try done. by eapply code_det.
    + intros (E1 & E2 & E3 & E4 & E5). destruct (X4 a acc o cd Ha E1 Ho Hcd) as [Eh Ea].
      destruct Gp as [P1 _ _ _ _]. destruct P1 as [-> ->]; [by split_and!|]. split; [|done].
      specialize (Hin a acc Ha). inversion Hin as [? ?|? ? ? ?|o' ? Ho' Hm|o' dd ? Ho' Hm B1 B2 B3 B4 Hdd]; try congruence.
      * destruct Hm. by left.
      * rewrite Ho in Ho'. injection Ho' as <-. f_equal. destruct dd as [b cc n st]. cbn in *.
        destruct B1 as [[_ ->]|[]]; [|done]. destruct B2 as [[_ ->]|[]]; [|done]. subst cc. f_equal. apply map_eq. intros k.
        rewrite lookup_empty. destruct (st !! k) as [x|] eqn:Ex; [|done]. apply B4 in Ex as (s & Hs & Hsn & _). by destruct Hsn; eapply E5.
  - intros a Ha. destruct (Gout a Ha) as [G1 G2]. split_and!; [by apply Hout|done..].
Qed.
Print Assumptions C110_reports_partial.

(** A contract without balance is destroyed: the parity diff has it, the geth diff does not. *)
Definition gone_state : list (address * Account) := [(3, mkAccount (mkInfo 0 1 99 (Some [x60])) [] false true)].
Definition gone_db : Db := mkDb (fun _ => Some (Some (mkInfo 0 1 99 None))) (fun _ => Some [x60]).
Lemma gone_executed : executed gone_db gone_state.
Proof.
  constructor.
  - apply NoDup_ListNoDup. repeat constructor; cbn; tauto.
  - intros a acc [[= <- <-]|[]]. constructor.
  - done.
  - intros a acc o c [[= <- <-]|[]] _ [= <-] Hc. split; [done|]. rewrite (code_det _ _ _ [x60] Hc); [done|]. by apply code_stored.
  - by intros a acc o [[= <- <-]|[]].
Qed.
Theorem C110_refuted : ~ C110_statement.
Proof.
  intros H. destruct (H gone_db gone_state (mkPreStateConfig (Some true)) gone_executed eq_refl) as (d & g & Hd & Hg & Ha).
  destruct (C110_reports_partial gone_db gone_state (mkPreStateConfig (Some true)) gone_executed eq_refl) as (d' & g' & Hd' & Hg' & Hb & _).
  rewrite Hd in Hd'. injection Hd' as <-. rewrite Hg in Hg'. injection Hg' as <-.
  specialize (Ha 3 _ _ (or_introl eq_refl) eq_refl). destruct (Hb 3 _ _ (or_introl eq_refl) eq_refl) as [_ Hb'].
  destruct Hb' as (E1 & E2 & E3); [split_and!; try done; by intros ? ? []|]. rewrite E1, E2, E3 in Ha. cbn in Ha.
  destruct Ha as [_ (p & Hp & _)]. done.
Qed.
Print Assumptions C110_refuted.

(** A sender, a created contract, a contract with a changed slot and a destroyed one. *)
Definition c110_db : Db :=
  mkDb (fun a => Some (if a =? 1 then Some (mkInfo 100 4 KECCAK_EMPTY (Some [])) else if (a =? 3) || (a =? 4) then Some (mkInfo 7 1 99 (Some [x60])) else None))
       (fun h => if h =? 99 then Some [x60] else None).
Definition c110_state : list (address * Account) :=
  [ (1, mkAccount (mkInfo 90 5 KECCAK_EMPTY (Some [])) [] false false);
    (2, mkAccount (mkInfo 10 1 98 (Some [x61])) [(5, mkSlot 0 8); (6, mkSlot 0 0)] true false);
    (3, mkAccount (mkInfo 7 1 99 (Some [x60])) [(5, mkSlot 1 0)] false false);
    (4, mkAccount (mkInfo 0 1 99 (Some [x60])) [] false true) ].
Example C110_example : executed c110_db c110_state /\
  exists d g, populate_state_diff ∅ c110_db c110_state = Some d /\
    geth_prestate_traces c110_state (mkPreStateConfig (Some true)) c110_db = Some (PFDiff g) /\
    d !! 1 = Some (mkDiff (DChanged 100 90) DUnchanged (DChanged 4 5) ∅) /\
    dm_pre g !! 1 = Some (mkAS (Some 100) None (Some 4) ∅) /\ dm_post g !! 1 = Some (mkAS (Some 90) None (Some 5) ∅) /\
    d !! 3 = Some (mkDiff DUnchanged DUnchanged DUnchanged {[5 := DChanged 1 0]}) /\
    dm_pre g !! 3 = Some (mkAS (Some 7) (Some [x60]) (Some 1) {[5 := 1]}) /\ dm_post g !! 3 = Some (mkAS None None None ∅) /\
    dm_pre g !! 4 = Some (mkAS (Some 7) (Some [x60]) (Some 1) ∅) /\ dm_post g !! 4 = None.
Proof.
  assert (Hx : executed c110_db c110_state).
  { constructor.
    - apply NoDup_ListNoDup. repeat constructor; cbn; intuition discriminate.
    - intros a acc H. cbn in H. intuition (simplify_eq; cbn); apply NoDup_ListNoDup; repeat constructor; cbn; intuition discriminate.
    - done.
    - intros a acc o c H Hf Ho Hc. destruct H as [[= <- <-]|[[= <- <-]|[[= <- <-]|[[= <- <-]|[]]]]]; [|done|..]; injection Ho as <-;
        (split; [done|]); inversion Hc as [cc E| | |]; try discriminate; injection E as <-; done.
    - intros a acc o H Hf Ho. destruct H as [[= <- <-]|[[= <- <-]|[[= <- <-]|[[= <- <-]|[]]]]]; try done. injection Ho as <-.
      split_and!; try done. by apply code_attached. }
  split; [done|]. destruct (C110_reports_partial c110_db c110_state (mkPreStateConfig (Some true)) Hx eq_refl) as (d & g & Hd & Hg & _).
  exists d, g. split; [done|]. split; [done|].
  assert (H1 : d = match populate_state_diff ∅ c110_db c110_state with Some d => d | _ => ∅ end) by (by rewrite Hd).
  assert (H2 : g = match geth_prestate_traces c110_state (mkPreStateConfig (Some true)) c110_db with Some (PFDiff g) => g | _ => mkDM ∅ ∅ end)
    by (by rewrite Hg).
  clear Hd Hg. subst d g. split_and!; first [apply (bool_decide_unpack _); vm_compute; exact I|vm_compute; reflexivity].
Qed.
