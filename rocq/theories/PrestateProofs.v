(** * PrestateProofs: the prestate loops, account by account *)

From Verif Require Export SpecPrestate DiffProofs.
Local Open Scope N_scope.

(** ** Inserting slots *)

Lemma insert_slots_spec (f : Slot -> U256) storage : forall (m : gmap U256 U256) k v,
  NoDup (map fst storage) -> (forall k, In k (map fst storage) -> m !! k = None) ->
  fold_left (fun m ks => <[fst ks := f (snd ks)]> m) storage m !! k = Some v <->
  m !! k = Some v \/ exists s, In (k, s) storage /\ v = f s.
Proof.
  induction storage as [|[k0 s0] storage IH]; intros m k v Hnd Hm.
  - cbn. split; [by left|]. intros [?|(s & [] & _)]. done.
  - cbn [map fst] in Hnd. apply NoDup_cons in Hnd as [Hni Hnd]. cbn [fold_left fst snd].
    assert (Hni' : forall s, ~ In (k0, s) storage).
    { intros s Hin. apply Hni, elem_of_list_In. by apply (in_map fst) in Hin. }
    rewrite IH; [|done|].
    + destruct (decide (k = k0)) as [->|Hne].
      * rewrite lookup_insert, (Hm k0) by (by left). split.
        -- intros [[= <-]|(s & Hs & _)]; [|by apply Hni' in Hs]. right. exists s0. split; [by left|done].
        -- intros [?|(s & [[= <-]|Hs] & ->)]; [done|by left|by apply Hni' in Hs].
      * rewrite lookup_insert_ne by done. split.
        -- intros [?|(s & Hs & H)]; [by left|]. right. exists s. split; [by right|done].
        -- intros [?|(s & [Heq|Hs] & Hx)]; [by left|exfalso; congruence|]. right. eauto.
    + intros k' Hk'. rewrite lookup_insert_ne; [apply Hm; by right|]. intros ->. by apply Hni, elem_of_list_In.
Qed.

Lemma filter_fst_NoDup {A} (p : U256 * A -> bool) l : NoDup (map fst l) -> NoDup (map fst (List.filter p l)).
Proof.
  induction l as [|x l IH]; cbn; [done|]. intros H. apply NoDup_cons in H as [Hn Hd].
  destruct (p x); [|by apply IH]. cbn. apply NoDup_cons. split; [|by apply IH].
  intros Hin. apply Hn. apply elem_of_list_In in Hin. apply in_map_iff in Hin as (y & <- & Hy). apply filter_In in Hy as [Hy _].
  apply elem_of_list_In. by apply in_map.
Qed.

(** The slots of an account that changed, with one of their two values. *)
Definition slots_of (f : Slot -> U256) (acc : Account) : gmap U256 U256 :=
  fold_left (fun m ks => <[fst ks := f (snd ks)]> m) (List.filter (fun ks => sl_is_changed (snd ks)) (ac_storage acc)) ∅.

Lemma slots_of_spec f acc k v : NoDup (map fst (ac_storage acc)) ->
  slots_of f acc !! k = Some v <-> exists s, In (k, s) (ac_storage acc) /\ sl_original s <> sl_present s /\ v = f s.
Proof.
  intros Hnd. unfold slots_of. rewrite insert_slots_spec; [|by apply filter_fst_NoDup|intros; apply lookup_empty].
  rewrite lookup_empty. split.
  - intros [?|(s & Hs & ->)]; [done|]. apply filter_In in Hs as [Hs Hc]. cbn in Hc. unfold sl_is_changed in Hc.
    apply negb_true_iff, N.eqb_neq in Hc. eauto.
  - intros (s & Hs & Hne & ->). right. exists s. split; [|done]. apply filter_In. split; [done|]. cbn. unfold sl_is_changed.
    by apply negb_true_iff, N.eqb_neq.
Qed.

Lemma slots_same acc : NoDup (map fst (ac_storage acc)) ->
  slots_of sl_original acc = slots_of sl_present acc <-> same_slots acc.
Proof.
  intros Hnd. split.
  - intros Heq k s Hin. destruct (decide (sl_original s = sl_present s)) as [|Hne]; [done|]. exfalso.
    assert (H1 : slots_of sl_original acc !! k = Some (sl_original s)) by (apply slots_of_spec; eauto).
    assert (H2 : slots_of sl_present acc !! k = Some (sl_present s)) by (apply slots_of_spec; eauto).
    congruence.
  - intros Hs. apply map_eq. intros k.
    assert (Hno : forall f, slots_of f acc !! k = None).
    { intros f. destruct (slots_of f acc !! k) as [v|] eqn:E; [|done]. apply slots_of_spec in E as (s & Hin & Hne & _); [|done].
      by apply Hs in Hin. }
    by rewrite !Hno.
Qed.

(** ** Default mode *)

(** The code as [from_account_info] shows it. *)
Definition shown (c : option bytes) : option bytes := as_code (from_account_info 0 0 c).

Lemma nonempty_code db old : exists c, has_code db old c /\
  shown (load_account_code db old) = nonempty c.
Proof.
  exists (default [] (load_account_code db old)). split; [apply load_code|]. by destruct (load_account_code db old) as [[]|].
Qed.

Definition prestate_of (db : Db) (old : AccountInfo) (acc : Account) : AccountState :=
  insert_slots sl_original (ac_storage acc) (from_account_info (ai_nonce old) (ai_balance old) (load_account_code db old)).

Lemma prestate_of_spec db old acc : NoDup (map fst (ac_storage acc)) -> prestate_account db old (ac_storage acc) (prestate_of db old acc).
Proof.
  intros Hnd. split; try done.
  - exact (nonempty_code db old).
  - intros k v. cbn [prestate_of insert_slots from_account_info as_storage].
    rewrite insert_slots_spec; [|done|intros; apply lookup_empty]. rewrite lookup_empty. split; [intros [?|?]; done|by right].
Qed.

Lemma prestate_loop db state : forall m,
  NoDup (map fst state) -> (forall a acc, In (a, acc) state -> db_basic db a <> None) ->
  exists m', try_fold (prestate_step db) m state = Some m' /\
    (forall a acc, In (a, acc) state -> exists o, db_basic db a = Some o /\ m' !! a = Some (prestate_of db (db_value o) acc)) /\
    (forall a, ~ In a (map fst state) -> m' !! a = m !! a).
Proof.
  induction state as [|[a acc] state IH]; intros m Hnd Hdb.
  - exists m. split_and!; try done.
  - cbn [map fst] in Hnd. apply NoDup_cons in Hnd as [Hni Hnd]. cbn [try_fold prestate_step].
    destruct (db_basic db a) as [o|] eqn:Eo; [|exfalso; by apply (Hdb a acc); [left|]].
    destruct (IH (<[a := prestate_of db (default info_default o) acc]> m) Hnd) as (m' & Hok & Hin & Hout).
    { intros. eapply Hdb. by right. }
    exists m'. split_and!; [exact Hok| |].
    + intros a' acc' [[= <- <-]|H]; [|by apply Hin]. exists o. split; [done|].
      rewrite Hout by (intros H; by apply Hni, elem_of_list_In). rewrite lookup_insert. by destruct o.
    + intros a' Ha'. rewrite Hout by (intros H; apply Ha'; by right). apply lookup_insert_ne. intros ->. apply Ha'. by left.
Qed.

(** ** Diff mode *)

Definition pre_of (db : Db) (old : AccountInfo) (acc : Account) : AccountState :=
  mkAS (Some (ai_balance old)) (shown (load_account_code db old)) (nonzero (ai_nonce old))
    (slots_of sl_original acc).
Definition post_of (acc : Account) : AccountState :=
  mkAS (Some (ai_balance (ac_info acc))) (attached acc) (nonzero (ai_nonce (ac_info acc))) (slots_of sl_present acc).

Definition kinds_of (acc : Account) : AccountChangeKind * AccountChangeKind :=
  (if ac_created acc then AKCreate else AKModify, if ac_selfdestructed acc then AKSelfDestruct else AKModify).

Lemma prediff_step_eq db d k a acc o : db_basic db a = Some o ->
  prediff_step db (d, k) (a, acc) =
  Some (mkDM (<[a := post_of acc]> (dm_post d)) (<[a := pre_of db (db_value o) acc]> (dm_pre d)), <[a := kinds_of acc]> k).
Proof.
  intros Ho. unfold prediff_step. rewrite Ho.
  replace (default info_default o) with (db_value o) by (by destruct o). do 4 f_equal.
  unfold insert_slots, from_account_info, post_of, attached. cbn [as_balance as_code as_nonce as_storage].
  f_equal. by destruct (ai_code (ac_info acc)) as [[]|].
Qed.

Lemma prediff_loop db state : forall d k,
  NoDup (map fst state) -> (forall a acc, In (a, acc) state -> db_basic db a <> None) ->
  exists d' k', try_fold (prediff_step db) (d, k) state = Some (d', k') /\
    (forall a acc, In (a, acc) state -> exists o, db_basic db a = Some o /\
       dm_pre d' !! a = Some (pre_of db (db_value o) acc) /\ dm_post d' !! a = Some (post_of acc) /\ k' !! a = Some (kinds_of acc)) /\
    (forall a, ~ In a (map fst state) -> dm_pre d' !! a = dm_pre d !! a /\ dm_post d' !! a = dm_post d !! a /\ k' !! a = k !! a).
Proof.
  induction state as [|[a acc] state IH]; intros d k Hnd Hdb.
  - exists d, k. split_and!; try done.
  - cbn [map fst] in Hnd. apply NoDup_cons in Hnd as [Hni Hnd]. cbn [try_fold].
    destruct (db_basic db a) as [o|] eqn:Eo; [|exfalso; by apply (Hdb a acc); [left|]].
    rewrite (prediff_step_eq db d k a acc o Eo).
    match goal with |- context [try_fold _ (?D, ?K) _] => destruct (IH D K Hnd) as (d' & k' & Hok & Hin & Hout) end.
    { intros. eapply Hdb. by right. }
    exists d', k'. split_and!; [exact Hok| |].
    + intros a' acc' [[= <- <-]|H]; [|by apply Hin]. exists o. split; [done|].
      destruct (Hout a) as (-> & -> & ->); [intros H; by apply Hni, elem_of_list_In|]. cbn. by rewrite !lookup_insert.
    + intros a' Ha'. destruct (Hout a') as (-> & -> & ->); [intros H; apply Ha'; by right|]. cbn.
      rewrite !lookup_insert_ne; [done|..]; intros ->; apply Ha'; by left.
Qed.

(** What the three clean-up passes do to one address. *)
Definition final_pre (kind : AccountChangeKind * AccountChangeKind) (pre post : AccountState) : option AccountState :=
  if decide (pre = post) then None else if ak_is_created (fst kind) then None else Some (remove_zeros pre).
Definition final_post (kind : AccountChangeKind * AccountChangeKind) (pre post : AccountState) : option AccountState :=
  if decide (pre = post) then None
  else if ak_is_selfdestruct (snd kind) then None else Some (remove_matching_account_info (remove_zeros post) (remove_zeros pre)).

Lemma passes d k a : 
  let r := diff_traces (remove_zero_storage_values (retain_changed d)) k in
  (dm_pre d !! a = None -> dm_post d !! a = None -> dm_pre r !! a = None /\ dm_post r !! a = None) /\
  (forall pre post kind, dm_pre d !! a = Some pre -> dm_post d !! a = Some post -> k !! a = Some kind ->
     dm_pre r !! a = final_pre kind pre post /\ dm_post r !! a = final_post kind pre post).
Proof.
  cbn zeta. split.
  - intros H1 H2. unfold diff_traces, remove_zero_storage_values, retain_changed. cbn [dm_pre dm_post]. split.
    + apply map_filter_lookup_None. left. rewrite lookup_fmap. apply fmap_None, map_filter_lookup_None. by left.
    + rewrite map_lookup_imap.
      match goal with |- ?f ≫= _ = None => assert (f = None) as -> end; [|done].
      rewrite lookup_fmap. apply fmap_None, map_filter_lookup_None. by left.
  - intros pre post kind H1 H2 H3.
    assert (Hsame : bool_decide (is_Some (dm_pre d !! a) /\ dm_pre d !! a = dm_post d !! a) = bool_decide (pre = post)).
    { rewrite H1, H2. apply bool_decide_ext. split; [by intros [_ [= ->]]|]. intros ->. split; [by eexists|done]. }
    assert (Epre : dm_pre (retain_changed d) !! a = if decide (pre = post) then None else Some pre).
    { unfold retain_changed. cbn [dm_pre]. destruct (decide (pre = post)) as [Heq|Hne].
      - apply map_filter_lookup_None. right. intros x _. cbn [fst]. rewrite Hsame. by rewrite (bool_decide_eq_true_2 _ Heq).
      - apply map_filter_lookup_Some. split; [done|]. cbn [fst]. rewrite Hsame. by apply bool_decide_eq_false_2. }
    assert (Epost : dm_post (retain_changed d) !! a = if decide (pre = post) then None else Some post).
    { unfold retain_changed. cbn [dm_post]. destruct (decide (pre = post)) as [Heq|Hne].
      - apply map_filter_lookup_None. right. intros x _. cbn [fst]. rewrite Hsame. by rewrite (bool_decide_eq_true_2 _ Heq).
      - apply map_filter_lookup_Some. split; [done|]. cbn [fst]. rewrite Hsame. by apply bool_decide_eq_false_2. }
    unfold diff_traces, remove_zero_storage_values. cbn [dm_pre dm_post].
    unfold final_pre, final_post. split.
    + destruct (decide (pre = post)) as [Heq|Hne].
      * apply map_filter_lookup_None. left. by rewrite lookup_fmap, Epre.
      * destruct (ak_is_created (fst kind)) eqn:Ec.
        -- apply map_filter_lookup_None. right. intros x _. cbn. by rewrite H3, Ec.
        -- apply map_filter_lookup_Some. rewrite lookup_fmap, Epre. split; [done|]. cbn. by rewrite H3, Ec.
    + rewrite map_lookup_imap, !lookup_fmap, Epre, Epost. destruct (decide (pre = post)) as [Heq|Hne]; [done|].
      cbn. rewrite H3. by destruct (ak_is_selfdestruct (snd kind)).
Qed.

Lemma remove_zeros_slots f acc st : NoDup (map fst (ac_storage acc)) -> as_storage st = slots_of f acc ->
  changed_nonzero f (ac_storage acc) (as_storage (remove_zeros st)).
Proof.
  intros Hnd Hst k v. cbn [remove_zeros as_storage]. rewrite map_filter_lookup_Some, Hst, slots_of_spec by done. cbn [snd]. naive_solver.
Qed.

Lemma listed_if {A} `{!EqDecision A} (before after : option A) :
  listed before after (if bool_decide (after = before) then None else after).
Proof. unfold listed. destruct (bool_decide_reflect (after = before)); [by left|by right]. Qed.

Lemma final_spec db old c acc : has_code db old c -> nonempty c = shown (load_account_code db old) ->
  NoDup (map fst (ac_storage acc)) ->
  prestate_diff old c acc (final_pre (kinds_of acc) (pre_of db old acc) (post_of acc))
    (final_post (kinds_of acc) (pre_of db old acc) (post_of acc)).
Proof.
  intros Hc Hload Hnd.
  assert (Hsame : pre_of db old acc = post_of acc <-> shown_same old c acc).
  { unfold pre_of, post_of, shown_same. rewrite <-Hload. split.
    - intros [= H1 H2 H3 H4]. split_and!; try done; [|by apply slots_same]. unfold nonzero in H3.
      destruct (N.eqb_spec (ai_nonce old) 0), (N.eqb_spec (ai_nonce (ac_info acc)) 0); congruence.
    - intros (-> & -> & -> & H). f_equal. by apply slots_same. }
  unfold final_pre, final_post. split.
  - intros Hs. apply Hsame in Hs. by rewrite !decide_True.
  - intros Hcr. unfold kinds_of. rewrite Hcr. cbn. by destruct (decide _).
  - intros Hsd. unfold kinds_of. rewrite Hsd. cbn. by destruct (decide _).
  - intros Hs Hcr. rewrite decide_False by (by rewrite Hsame). unfold kinds_of. rewrite Hcr. cbn [fst ak_is_created].
    eexists. split; [done|]. split_and!; try done. by apply remove_zeros_slots.
  - intros Hs Hsd. rewrite decide_False by (by rewrite Hsame). unfold kinds_of. rewrite Hsd. cbn [snd ak_is_selfdestruct].
    eexists. split; [done|]. cbn [remove_matching_account_info remove_zeros pre_of post_of as_balance as_nonce as_code as_storage].
    rewrite <-Hload. split_and!; [apply listed_if..|]. by apply (remove_zeros_slots sl_present acc (post_of acc)).
Qed.
