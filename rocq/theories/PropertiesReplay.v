(** * PropertiesReplay: C122, applying the diff of the prestate tracer to its prestate *)

From Verif Require Import SpecReplay PropertiesPrestate PropertiesChanges.
Local Open Scope N_scope.

(** ** C122 *)

(** The diff, applied to the prestate, gives the state after the transaction. *)
Definition C122_statement : Prop :=
  forall db state c c', executed db state -> evm_accounts db state -> diff_mode c <> Some true -> diff_mode c' = Some true ->
  exists m g, geth_prestate_traces state c db = Some (PFDefault m) /\ geth_prestate_traces state c' db = Some (PFDiff g) /\
    forall a acc, In (a, acc) state -> exists st, m !! a = Some st /\ replay_right acc st (dm_pre g !! a) (dm_post g !! a).

(** What the [pre] map of the diff says of an account, the prestate says too. *)
Theorem C122_modes_agree :
  forall db state c c', diff_mode c <> Some true -> diff_mode c' = Some true ->
  NoDup (map fst state) -> (forall a acc, In (a, acc) state -> NoDup (map fst (ac_storage acc))) ->
  (forall a acc, In (a, acc) state -> db_basic db a <> None) ->
  exists m g, geth_prestate_traces state c db = Some (PFDefault m) /\ geth_prestate_traces state c' db = Some (PFDiff g) /\
    (forall a p, dm_pre g !! a = Some p -> exists st, m !! a = Some st /\
       as_balance p = as_balance st /\ as_nonce p = as_nonce st /\ as_code p = as_code st /\
       forall k v, as_storage p !! k = Some v -> as_storage st !! k = Some v) /\
    (forall a, is_Some (dm_post g !! a) -> is_Some (m !! a)).
Proof.
  intros db state c c' Hc Hc' Hnd Hst Hdb.
  destruct (C35_prestate db state c Hc Hnd Hst Hdb) as (m & Hm & Min & Mout).
  destruct (C36_diff_partial db state c' Hc' Hnd Hst Hdb) as (g & Hg & Gin & Gout).
  exists m, g. split; [done|]. split; [done|]. split.
  - intros a p Hp. destruct (in_dec N.eq_dec a (map fst state)) as [Ha|Ha]; [|by rewrite (proj1 (Gout a Ha)) in Hp].
    apply in_map_iff in Ha as ([a' acc] & <- & Ha). cbn [fst] in *.
    destruct (Min a' acc Ha) as (o & st & Ho & Hms & [S1 S2 (cd & Hcd & S3) S4]). exists st. split; [done|].
    destruct (Gin a' acc o cd Ha Ho Hcd) as [[P1 P2 P3 P4 P5] _]. rewrite Hp in *.
    destruct (ac_created acc) eqn:Hcr; [by specialize (P2 eq_refl)|].
    destruct P4 as (p' & [= <-] & Q1 & Q2 & Q3 & Q4); [intros Hs; by destruct (P1 Hs)|done|].
    split; [congruence|]. split; [congruence|]. split; [congruence|].
    intros k v Hv. apply Q4 in Hv as (s & Hs & _ & -> & _). apply S4. by exists s.
  - intros a [q Hq]. destruct (in_dec N.eq_dec a (map fst state)) as [Ha|Ha]; [|by rewrite (proj2 (Gout a Ha)) in Hq].
    apply in_map_iff in Ha as ([a' acc] & <- & Ha). cbn [fst] in *. destruct (Min a' acc Ha) as (o & st & _ & -> & _). by eexists.
Qed.
Print Assumptions C122_modes_agree.

Lemma replaced_listed {A} (before after o : option A) : listed before after o -> (before <> after -> after <> None) -> replaced before o = after.
Proof. intros [[-> ->]|[H ->]] Hn; [done|]. specialize (Hn H). by destruct after. Qed.

Lemma replayed_lookup before pre post k : replayed_slots before pre post !! k =
  match before !! k with
  | None => None
  | Some v => Some (match post !! k with Some v' => v' | None => match pre !! k with Some _ => 0 | None => v end end)
  end.
Proof. unfold replayed_slots. rewrite map_lookup_imap. by destruct (before !! k). Qed.

Lemma replayed_right l before pre post : NoDup (map fst l) ->
  (forall k v, before !! k = Some v <-> exists s, In (k, s) l /\ v = sl_original s) ->
  changed_nonzero sl_present l post ->
  changed_nonzero sl_original l pre \/ (pre = ∅ /\ forall k s, In (k, s) l -> sl_original s = 0) ->
  forall k v, replayed_slots before pre post !! k = Some v <-> exists s, In (k, s) l /\ v = sl_present s.
Proof.
  intros Hnd Hb Hpost Hpre k v. rewrite replayed_lookup.
  assert (Hslot : forall s, In (k, s) l ->
    match post !! k with Some v' => v' | None => match pre !! k with Some _ => 0 | None => sl_original s end end = sl_present s).
  { intros s Hs. destruct (decide (sl_original s = sl_present s)) as [E|E].
    - rewrite (no_slot _ _ _ _ Hpost) by (intros s' Hs'; by rewrite (slot_once _ _ _ _ Hnd Hs' Hs)).
      destruct Hpre as [Hpre|[-> _]]; [|by rewrite lookup_empty].
      rewrite (no_slot _ _ _ _ Hpre) by (intros s' Hs'; by rewrite (slot_once _ _ _ _ Hnd Hs' Hs)). done.
    - rewrite (nonzero_slot _ _ _ _ _ Hnd Hpost Hs E). unfold nonzero at 1.
      destruct (N.eqb_spec (sl_present s) 0) as [Ep|Ep]; [|done]. rewrite Ep.
      destruct Hpre as [Hpre|[-> H0]]; [|rewrite lookup_empty; by eapply H0].
      rewrite (nonzero_slot _ _ _ _ _ Hnd Hpre Hs E). unfold nonzero. destruct (N.eqb_spec (sl_original s) 0); congruence. }
  destruct (before !! k) as [w|] eqn:E.
  - apply Hb in E as (s & Hs & ->). rewrite (Hslot s Hs). split.
    + intros [= <-]. by exists s.
    + intros (s' & Hs' & ->). by rewrite (slot_once _ _ _ _ Hnd Hs' Hs).
  - split; [done|]. intros (s & Hs & _). assert (before !! k = Some (sl_original s)) by (apply Hb; eauto). congruence.
Qed.

(** An account that the transaction did not destroy is as the diff and the prestate say. A destroyed one is gone if it
    existed before and something else about it changed; otherwise neither map has it, as if nothing had happened, which is
    right only if there was no account before. *)
Theorem C122_replay_partial :
  forall db state c c', executed db state -> evm_accounts db state -> diff_mode c <> Some true -> diff_mode c' = Some true ->
  exists m g, geth_prestate_traces state c db = Some (PFDefault m) /\ geth_prestate_traces state c' db = Some (PFDiff g) /\
    forall a acc o, In (a, acc) state -> db_basic db a = Some o -> exists st, m !! a = Some st /\
      let right := replay_right acc st (dm_pre g !! a) (dm_post g !! a) in
      (ac_selfdestructed acc = false -> right) /\
      (ac_selfdestructed acc = true -> ac_created acc = false -> ~ empty_handed (db_value o) acc -> right) /\
      (ac_selfdestructed acc = true -> ac_created acc = true \/ empty_handed (db_value o) acc ->
         dm_pre g !! a = None /\ dm_post g !! a = None /\ (right <-> no_account st)).
Proof.
  intros db state c c' [X1 X2 X3 X4 X5] Hevm Hc Hc'.
  destruct (C35_prestate db state c Hc X1 X2 X3) as (m & Hm & Min & Mout).
  destruct (C36_diff_partial db state c' Hc' X1 X2 X3) as (g & Hg & Gin & Gout).
  exists m, g. split; [done|]. split; [done|]. intros a acc o Ha Ho.
  destruct (Min a acc Ha) as (o' & st & Ho' & Hms & [S1 S2 (cd & Hcd & S3) S4]). rewrite Ho in Ho'. injection Ho' as <-.
  exists st. split; [done|]. destruct (Gin a acc o cd Ha Ho Hcd) as [[P1 P2 P3 P4 P5] _]. destruct (Hevm a acc o Ha Ho) as [E1 E2].
  cbv zeta. unfold replay_right. split_and!.
  - intros Hsd. rewrite Hsd. specialize (E1 Hsd).
    assert (Hdec : shown_same (db_value o) cd acc \/ ~ shown_same (db_value o) cd acc).
    { unfold shown_same. destruct (same_slots_dec acc) as [Hs|(k & s & Hs & Hn)];
        [|right; intros (_ & _ & _ & H); by apply Hn, (H k)].
      destruct (decide (ai_balance (db_value o) = ai_balance (ac_info acc))); [|tauto].
      destruct (decide (ai_nonce (db_value o) = ai_nonce (ac_info acc))); [|tauto].
      destruct (decide (nonempty cd = attached acc)); tauto. }
    destruct Hdec as [Hsame|Hns].
    { destruct (P1 Hsame) as [-> ->]. cbn [replay]. exists st. split; [done|]. destruct Hsame as (B1 & B2 & B3 & B4).
      constructor; [congruence..|]. intros k v. rewrite S4. split; intros (s & Hs & ->); exists s; (split; [done|]); [|symmetry]; by apply (B4 k). }
    destruct (P5 Hns Hsd) as (q & -> & R1 & R2 & R3 & R4).
    assert (Hcode : nonempty cd <> attached acc -> attached acc <> None).
    { destruct (ac_created acc) eqn:Hcr.
      - destruct (X5 a acc o Ha Hcr Ho) as (Hc0 & _). rewrite (code_det _ _ _ _ Hcd Hc0). intros H H'. by rewrite H' in H.
      - destruct (X4 a acc o cd Ha Hcr Ho Hcd) as [_ ->]. done. }
    assert (Hnonce : nonzero (ai_nonce (db_value o)) <> nonzero (ai_nonce (ac_info acc)) -> nonzero (ai_nonce (ac_info acc)) <> None).
    { unfold nonzero. destruct (N.eqb_spec (ai_nonce (ac_info acc)) 0) as [E|]; [|done]. rewrite E in E1.
      assert (ai_nonce (db_value o) = 0) as -> by lia. done. }
    assert (Hrep : exists p, replay st (dm_pre g !! a) (Some q) =
        Some (mkAS (replaced (as_balance st) (as_balance q)) (replaced (as_code st) (as_code q)) (replaced (as_nonce st) (as_nonce q))
                   (replayed_slots (as_storage st) p (as_storage q))) /\
        (changed_nonzero sl_original (ac_storage acc) p \/ (p = ∅ /\ forall k s, In (k, s) (ac_storage acc) -> sl_original s = 0))).
    { destruct (ac_created acc) eqn:Hcr.
      - rewrite (P2 eq_refl). eexists. split; [reflexivity|]. right. split; [done|]. by apply E2.
      - destruct (P4 Hns eq_refl) as (p & -> & _ & _ & _ & Q4). eexists. split; [reflexivity|]. by left. }
    destruct Hrep as (p & -> & Hp). eexists. split; [reflexivity|]. constructor; cbn [as_balance as_nonce as_code as_storage].
    + rewrite S1. by apply replaced_listed.
    + rewrite S2. by apply replaced_listed.
    + rewrite S3. by apply replaced_listed.
    + apply replayed_right; [by eapply X2|done..].
  - intros Hsd Hcr Hne. rewrite Hsd, (P3 Hsd).
    destruct (P4) as (p & -> & _); [|done|done]. intros (B1 & B2 & B3 & B4). by apply Hne.
  - intros Hsd Hl. rewrite Hsd, (P3 Hsd).
    assert (dm_pre g !! a = None) as ->.
    { destruct Hl as [Hcr|(Hcr & _ & B1 & B2 & B4)]; [by apply P2|]. apply P1. split_and!; [done..| |done].
      symmetry. by destruct (X4 a acc o cd Ha Hcr Ho Hcd) as [_ ->]. }
    done.
Qed.
Print Assumptions C122_replay_partial.

(** A contract that holds nothing is destroyed: neither map has it. *)
Theorem C122_refuted : ~ C122_statement.
Proof.
  intros H. destruct (H gone_db gone_state (mkPreStateConfig None) (mkPreStateConfig (Some true)) gone_executed) as (m & g & Hm & Hg & Hall); [|done..|].
  { intros a acc o Ha Ho. cbn in Ha. destruct Ha as [Ha|[]]. injection Ha as <- <-. done. }
  destruct (Hall 3 _ (or_introl eq_refl)) as (st & Hst & Hr).
  assert (Hr' : match geth_prestate_traces gone_state (mkPreStateConfig None) gone_db, geth_prestate_traces gone_state (mkPreStateConfig (Some true)) gone_db with
    | Some (PFDefault m), Some (PFDiff g) => match m !! 3 with Some st => match replay st (dm_pre g !! 3) (dm_post g !! 3) with Some s => as_nonce s | None => None end | None => None end
    | _, _ => None end = Some 1) by (vm_compute; reflexivity).
  rewrite Hm, Hg, Hst in Hr'. unfold replay_right in Hr. cbn [ac_selfdestructed] in Hr.
  destruct (replay st _ _) as [s|]; [|done]. destruct Hr as [_ Hn _ _]. congruence.
Qed.
Print Assumptions C122_refuted.

(** So is an address with a balance where a contract is created and destroyed: its balance is gone, and neither map says so. *)
Definition funded_db : Db := mkDb (fun _ => Some (Some (mkInfo 50 0 KECCAK_EMPTY None))) (fun _ => None).
Definition funded_state : list (address * Account) := [(3, mkAccount (mkInfo 0 1 99 (Some [x60])) [] true true)].
Lemma funded_executed : executed funded_db funded_state /\ evm_accounts funded_db funded_state.
Proof.
  split.
  - constructor.
    + apply NoDup_ListNoDup. repeat constructor; cbn; intuition discriminate.
    + intros a acc [[= <- <-]|[]]. apply NoDup_nil_2.
    + done.
    + by intros a acc o c [[= <- <-]|[]].
    + intros a acc o [[= <- <-]|[]] _ [= <-]. split_and!; [by constructor|done..].
  - by intros a acc o [[= <- <-]|[]] [= <-].
Qed.
Theorem C122_funded_refuted : ~ C122_statement.
Proof.
  intros H. destruct (H funded_db funded_state (mkPreStateConfig None) (mkPreStateConfig (Some true)) (proj1 funded_executed) (proj2 funded_executed)) as (m & g & Hm & Hg & Hall); [done..|].
  destruct (Hall 3 _ (or_introl eq_refl)) as (st & Hst & Hr).
  assert (Hr' : match geth_prestate_traces funded_state (mkPreStateConfig None) funded_db, geth_prestate_traces funded_state (mkPreStateConfig (Some true)) funded_db with
    | Some (PFDefault m), Some (PFDiff g) => match m !! 3 with Some st => match replay st (dm_pre g !! 3) (dm_post g !! 3) with Some s => as_balance s | None => None end | None => None end
    | _, _ => None end = Some 50) by (vm_compute; reflexivity).
  rewrite Hm, Hg, Hst in Hr'. unfold replay_right in Hr. cbn [ac_selfdestructed] in Hr.
  destruct (replay st _ _) as [s|]; [|done]. destruct Hr as [Hn _ _ _]. congruence.
Qed.
Print Assumptions C122_funded_refuted.

(** A sender, a created contract, a contract with a cleared slot and a destroyed one. *)
Example C122_example : executed c110_db c110_state /\ evm_accounts c110_db c110_state /\
  match geth_prestate_traces c110_state (mkPreStateConfig None) c110_db, geth_prestate_traces c110_state (mkPreStateConfig (Some true)) c110_db with
  | Some (PFDefault m), Some (PFDiff g) =>
      map (fun a => match m !! a with
                    | Some st => match replay st (dm_pre g !! a) (dm_post g !! a) with
                                 | Some s => Some (as_balance s, as_nonce s, as_code s, map_to_list (as_storage s))
                                 | None => None
                                 end
                    | None => None end) [1; 2; 3; 4]
  | _, _ => []
  end = [Some (Some 90, Some 5, None, []); Some (Some 10, Some 1, Some [x61], [(5, 8); (6, 0)]);
         Some (Some 7, Some 1, Some [x60], [(5, 0)]); None].
Proof.
  split; [apply C110_example|]. split; [|vm_compute; reflexivity].
  intros a acc o H Ho. destruct H as [[= <- <-]|[[= <- <-]|[[= <- <-]|[[= <- <-]|[]]]]]; cbn in Ho; injection Ho as <-;
    (split; [intros _; cbn; lia|]); try done.
  intros _ k s [[= <- <-]|[[= <- <-]|[]]]; done.
Qed.
