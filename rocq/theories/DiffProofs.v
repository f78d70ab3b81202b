(** * DiffProofs: the state diff loop *)

From Verif Require Export SpecDiff.
Local Open Scope N_scope.

Lemma insert_changed_spec f (g : U256 -> U256 -> Delta U256) storage :
  (forall s, f s = g (sl_original s) (sl_present s)) -> NoDup (map fst storage) ->
  changed_slots g storage (insert_changed f ∅ storage).
Proof.
  intros Hfg. unfold insert_changed.
  assert (H : forall (m : gmap U256 (Delta U256)), NoDup (map fst storage) -> (forall k, In k (map fst storage) -> m !! k = None) ->
    forall k d, fold_left (fun m ks => <[fst ks := f (snd ks)]> m) (List.filter (fun ks => sl_is_changed (snd ks)) storage) m !! k = Some d <->
      m !! k = Some d \/ exists s, In (k, s) storage /\ sl_original s <> sl_present s /\ d = g (sl_original s) (sl_present s)).
  { induction storage as [|[k0 s0] storage IH]; intros m Hnd Hm k d.
    - cbn. split; [by left|]. intros [?|(s & [] & _)]. done.
    - cbn [map fst] in Hnd. apply NoDup_cons in Hnd as [Hni Hnd]. cbn [List.filter snd].
      assert (Hni' : forall s, ~ In (k0, s) storage).
      { intros s Hin. apply Hni, elem_of_list_In. by apply (in_map fst) in Hin. }
      destruct (sl_is_changed s0) eqn:Ec; unfold sl_is_changed in Ec.
      + apply negb_true_iff, N.eqb_neq in Ec. cbn [fold_left fst snd]. rewrite IH; [|done|].
        * destruct (decide (k = k0)) as [->|Hne].
          -- rewrite lookup_insert, (Hm k0) by (by left). split.
             ++ intros [[= <-]|(s & Hs & _)]; [|by apply Hni' in Hs]. right. exists s0. split_and!; [by left|done|apply Hfg].
             ++ intros [?|(s & [[= <-]|Hs] & _ & ->)]; [done| |by apply Hni' in Hs]. left. by rewrite Hfg.
          -- rewrite lookup_insert_ne by done. split.
             ++ intros [?|(s & Hs & H)]; [by left|]. right. exists s. split; [by right|done].
             ++ intros [?|(s & [Heq|Hs] & Hx)]; [by left|exfalso; congruence|]. right. eauto.
        * intros k' Hk'. rewrite lookup_insert_ne; [apply Hm; by right|]. intros ->. by apply Hni, elem_of_list_In.
      + apply negb_false_iff, N.eqb_eq in Ec. rewrite IH; [|done|intros k' Hk'; apply Hm; by right]. split.
        * intros [?|(s & Hs & H)]; [by left|]. right. exists s. split; [by right|done].
        * intros [?|(s & [Heq|Hs] & Hx)]; [by left|exfalso; injection Heq as _ <-; by destruct Hx|]. right. eauto. }
  intros Hnd k d. rewrite H; [|done|intros; apply lookup_empty]. rewrite lookup_empty. split; [intros [?|?]; done|by right].
Qed.

Lemma changed_slots_empty g storage m : changed_slots g storage m ->
  (m = ∅ <-> ~ exists k s, In (k, s) storage /\ sl_original s <> sl_present s).
Proof.
  intros H. split.
  - intros -> (k & s & Hin & Hne). assert (H1 : (∅ : gmap U256 (Delta U256)) !! k = Some (g (sl_original s) (sl_present s))) by (apply H; eauto).
    by rewrite lookup_empty in H1.
  - intros Hn. apply map_eq. intros k. rewrite lookup_empty. destruct (m !! k) as [d|] eqn:E; [|done]. exfalso. apply Hn.
    apply H in E as (s & Hin & Hne & _). eauto.
Qed.

Lemma info_eqb_iff a b : info_eqb a b = true <->
  ai_balance a = ai_balance b /\ ai_nonce a = ai_nonce b /\ ai_code_hash a = ai_code_hash b.
Proof. unfold info_eqb. rewrite !andb_true_iff, !N.eqb_eq. tauto. Qed.

Lemma change_if (x y : N) : change x y (if x =? y then DUnchanged else DChanged x y).
Proof. unfold change. destruct (N.eqb_spec x y); [by left|by right]. Qed.

Lemma load_code db i : has_code db i (default [] (load_account_code db i)).
Proof.
  unfold load_account_code. destruct (ai_code i) as [c|] eqn:E; [by constructor|].
  destruct (N.eqb_spec (ai_code_hash i) KECCAK_EMPTY); [by apply code_empty|].
  destruct (db_code_by_hash db (ai_code_hash i)) eqn:Ed; [by apply code_stored|by apply code_missing].
Qed.

(** One account. *)
Lemma diff_step_spec db d a acc : d !! a = None -> NoDup (map fst (ac_storage acc)) ->
  (ac_created acc = false -> db_basic db a <> None) ->
  exists d', diff_step db d (a, acc) = Some d' /\ account_diff db a acc (d' !! a) /\ forall b, b <> a -> d' !! b = d !! b.
Proof.
  intros Hd Hnd Hdb. unfold diff_step. rewrite Hd. change (default diff_default None) with diff_default. cbn [df_storage df_code diff_default].
  destruct (ac_created acc) eqn:Ec.
  - rewrite andb_true_r. destruct (ac_selfdestructed acc) eqn:Es.
    + exists d. split_and!; [done| |done]. rewrite Hd. by constructor.
    + eexists. split; [done|]. split; [|intros b Hb; by rewrite lookup_insert_ne].
      rewrite lookup_insert. eapply ad_created; cbn; [done|done|apply load_code|done|done|done|].
      by apply insert_changed_spec.
  - rewrite andb_false_r. destruct (db_basic db a) as [o|] eqn:Eb; [|by destruct Hdb].
    assert (Hv : default info_default o = db_value o) by (by destruct o). rewrite Hv.
    set (st := insert_changed _ _ _).
    assert (Hst : changed_slots DChanged (ac_storage acc) st) by (by apply insert_changed_spec).
    pose proof (changed_slots_empty _ _ _ Hst) as Hemp.
    assert (Hmod : bool_decide (st = ∅) && info_eqb (db_value o) (ac_info acc) && negb (ac_selfdestructed acc) = true <-> ~ modified (db_value o) acc).
    { rewrite !andb_true_iff, bool_decide_eq_true, info_eqb_iff, negb_true_iff, Hemp. unfold modified.
      destruct (ac_selfdestructed acc), (decide (ai_balance (db_value o) = ai_balance (ac_info acc))),
        (decide (ai_nonce (db_value o) = ai_nonce (ac_info acc))), (decide (ai_code_hash (db_value o) = ai_code_hash (ac_info acc))); intuition congruence. }
    destruct (bool_decide (st = ∅) && _ && _) eqn:Em.
    + eexists. split; [done|]. split; [|intros b Hb; by rewrite lookup_delete_ne]. rewrite lookup_delete.
      eapply ad_untouched; [done..|]. by apply Hmod.
    + eexists. split; [done|]. split; [|intros b Hb; by rewrite lookup_insert_ne]. rewrite lookup_insert.
      assert (Hm : modified (db_value o) acc).
      { destruct (ac_selfdestructed acc) eqn:Es; [by left|]. right. rewrite andb_true_r in Em.
        destruct (bool_decide (st = ∅)) eqn:E1; cbn in Em.
        - right. unfold info_eqb in Em. apply andb_false_iff in Em as [Em|Em]; [apply andb_false_iff in Em as [Em|Em]|]; apply N.eqb_neq in Em; tauto.
        - left. apply bool_decide_eq_false in E1. apply map_choose in E1 as (k & x & Hx). apply Hst in Hx as (s & ? & ? & _). eauto. }
      eapply ad_modified; cbn; [done|done|done|apply change_if|apply change_if|done|done].
Qed.

Lemma populate_spec db state : forall d,
  NoDup (map fst state) -> (forall a acc, In (a, acc) state -> NoDup (map fst (ac_storage acc))) ->
  (forall a acc, In (a, acc) state -> ac_created acc = false -> db_basic db a <> None) ->
  (forall a, In a (map fst state) -> d !! a = None) ->
  exists d', populate_state_diff d db state = Some d' /\
    (forall a acc, In (a, acc) state -> account_diff db a acc (d' !! a)) /\
    (forall b, ~ In b (map fst state) -> d' !! b = d !! b).
Proof.
  induction state as [|[a acc] state IH]; intros d Hnd Hst Hdb Hd; [by exists d|].
  cbn [map fst] in Hnd. apply NoDup_cons in Hnd as [Hni Hnd]. cbn [populate_state_diff].
  destruct (diff_step_spec db d a acc) as (d1 & -> & Ha & Ho); [apply Hd; by left|eapply Hst; by left|apply Hdb; by left|].
  destruct (IH d1) as (d' & -> & H1 & H2); [done|intros; eapply Hst; by right|intros ? ? ?; apply Hdb; by right| |].
  { intros b Hb. rewrite Ho; [apply Hd; by right|]. intros ->. by apply Hni, elem_of_list_In. }
  exists d'. split_and!; [done| |].
  - intros b acc' [[= <- <-]|Hin]; [|by apply H1]. rewrite H2; [done|]. by rewrite <-elem_of_list_In.
  - intros b Hb. cbn in Hb. rewrite H2 by tauto. apply Ho. intros ->. tauto.
Qed.
