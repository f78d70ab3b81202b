(** * PropertiesApply: C124, a parity state diff applied to the state before the transaction *)

From Verif Require Import SpecApply PropertiesDiff PropertiesChanges PropertiesReplay.
Local Open Scope N_scope.

(** ** C124 *)

(** Forwards the diff gives the state after the transaction, backwards the state before. *)
Definition C124_statement : Prop :=
  forall db state, executed db state -> evm_accounts db state ->
  exists d, populate_state_diff ∅ db state = Some d /\
    forall a acc o x, In (a, acc) state -> db_basic db a = Some o -> stood db (db_value o) acc x ->
      stands acc x (forwards x (d !! a)) /\ forall y, stands acc x y -> same (backwards y (d !! a)) x.

Lemma nonempty_inj c c' : nonempty c = nonempty c' -> c = c'.
Proof. destruct c, c'; cbn; congruence. Qed.
Lemma after_change {A} (none f t : A) d : change f t d -> after none f d = t.
Proof. by intros [[-> ->]|[_ ->]]. Qed.
Lemma earlier_change {A} (none f t : A) d : change f t d -> earlier none t d = f.
Proof. by intros [[-> ->]|[_ ->]]. Qed.

Section slots.
  Context (f : U256 -> U256 -> Delta U256) (l : list (U256 * Slot)) (m : gmap U256 (Delta U256)).
  Hypothesis Hnd : NoDup (map fst l).
  Hypothesis Hm : changed_slots f l m.
  Lemma slot_in k s : In (k, s) l -> m !! k = if sl_original s =? sl_present s then None else Some (f (sl_original s) (sl_present s)).
  Proof.
    intros Hs. assert (Hu : forall s', In (k, s') l -> s' = s).
    { intros s' Hs'. apply elem_of_list_In, elem_of_list_lookup in Hs as [i Hi], Hs' as [j Hj].
      assert (i = j) as <-; [|congruence]. apply (NoDup_lookup _ _ _ k Hnd); by rewrite list_lookup_fmap, ?Hi, ?Hj. }
    destruct (N.eqb_spec (sl_original s) (sl_present s)) as [E|E].
    - destruct (m !! k) as [e|] eqn:Ek; [|done]. apply Hm in Ek as (s' & Hs' & Hn & _). by rewrite (Hu s' Hs') in Hn.
    - apply Hm. by exists s.
  Qed.
  Lemma slot_out k : ~ In k (map fst l) -> m !! k = None.
  Proof.
    intros Hk. destruct (m !! k) as [e|] eqn:Ek; [|done]. apply Hm in Ek as (s & Hs & _). destruct Hk.
    apply in_map_iff. by exists (k, s).
  Qed.
End slots.

(** What the diff says: of an account that was not destroyed everything; a created account is told to be new, so
    backwards a balance its address had is lost. Of a destroyed account it never says that it is gone: one that existed
    seems to keep its nonce, code and slots, one created in the transaction seems never to have been there. *)
Theorem C124_apply_partial :
  forall db state, executed db state -> evm_accounts db state ->
  exists d, populate_state_diff ∅ db state = Some d /\
    (forall a acc o x, In (a, acc) state -> db_basic db a = Some o -> stood db (db_value o) acc x ->
      (ac_selfdestructed acc = false -> stands acc x (forwards x (d !! a))) /\
      (ac_selfdestructed acc = true -> ac_created acc = true -> forwards x (d !! a) = x) /\
      (ac_selfdestructed acc = true -> ac_created acc = false ->
       kn_balance (forwards x (d !! a)) = ai_balance (ac_info acc) /\ kn_nonce (forwards x (d !! a)) = ai_nonce (ac_info acc) /\
       kn_code (forwards x (d !! a)) = kn_code x) /\
      (forall y, ac_selfdestructed acc = false -> stands acc x y ->
       if ac_created acc then kn_balance (backwards y (d !! a)) = 0 /\ kn_nonce (backwards y (d !! a)) = kn_nonce x /\
                              kn_code (backwards y (d !! a)) = kn_code x /\ forall k, kn_slots (backwards y (d !! a)) k = kn_slots x k
       else same (backwards y (d !! a)) x)) /\
    (forall a, ~ In a (map fst state) -> d !! a = None).
Proof.
  intros db state [X1 X2 X3 X4 X5] Hev.
  destruct (C25_state_diff_exact db state X1 X2 (fun a acc H _ => X3 a acc H)) as (d & Hd & Hin & Hout).
  exists d. split; [done|]. split; [|done]. intros a acc o x Ha Ho [S1 S2 S3 S4].
  specialize (Hin a acc Ha). specialize (X2 a acc Ha).
  destruct (Hev a acc o Ha Ho) as [_ Hzero].
  assert (Hx4 : ac_created acc = false -> ai_code_hash (ac_info acc) = ai_code_hash (db_value o) /\ attached acc = nonempty (kn_code x))
    by (intros Hc; exact (X4 a acc o (kn_code x) Ha Hc Ho S3)).
  inversion Hin as [Hc Hs E|e code Hc Hs Hcode Eb En Ec Est E|o' Hc Ho' Hmod E|o' e Hc Ho' Hmod Eb En Ec Est E]; rewrite <-E in *; clear E.
  - (* created and destroyed *)
    rewrite Hc, Hs. split; [done|]. split; [done|]. split; [done|]. done.
  - (* created *)
    rewrite Hc, Hs. destruct (X5 a acc o Ha Hc Ho) as (Z1 & Z2 & Z3 & Z4).
    assert (Hx : kn_code x = []).
    { by eapply code_det. }
    split; [|split; [done|split; [done|]]].
    + intros _. unfold stands. rewrite Hs. cbn. rewrite Eb, En, Ec. cbn. split; [done|]. split; [done|]. split.
      { unfold attached. inversion Hcode as [c' Ec'| | |]; subst; by rewrite ?Ec'. }
      intros k. split.
      * intros s Hk. rewrite (slot_in _ _ _ X2 Est k s Hk). destruct (N.eqb_spec (sl_original s) (sl_present s)) as [Eq|]; [|done].
        by rewrite (S4 k s Hk).
      * intros Hk. by rewrite (slot_out _ _ _ Est k Hk).
    + intros y _ Hy. unfold stands in Hy. rewrite Hs in Hy. destruct Hy as (Y1 & Y2 & Y3 & Y4). cbn. rewrite Eb, En, Ec. cbn.
      split; [done|]. split; [congruence|]. split; [done|]. intros k.
      destruct (in_dec N.eq_dec k (map fst (ac_storage acc))) as [Hk|Hk].
      * apply in_map_iff in Hk as ([k' s] & <- & Hk). cbn [fst]. rewrite (slot_in _ _ _ X2 Est k' s Hk). rewrite (S4 k' s Hk).
        pose proof (Hzero Hc k' s Hk) as Hz. destruct (N.eqb_spec (sl_original s) (sl_present s)) as [Eq|]; [|done].
        rewrite (proj1 (Y4 k') s Hk). done.
      * rewrite (slot_out _ _ _ Est k Hk). by apply Y4.
  - (* unchanged *)
    rewrite Ho in Ho'. injection Ho' as <-. destruct (Hx4 Hc) as [_ Hcd]. rewrite Hc.
    assert (Hs : ac_selfdestructed acc = false) by (destruct (ac_selfdestructed acc) eqn:Es; [destruct Hmod; by left|done]).
    assert (Hslot : forall k s, In (k, s) (ac_storage acc) -> sl_original s = sl_present s).
    { intros k s Hk. destruct (N.eq_dec (sl_original s) (sl_present s)) as [|Hne]; [done|]. destruct Hmod. right. left. by exists k, s. }
    assert (Hb : ai_balance (db_value o) = ai_balance (ac_info acc)).
    { destruct (N.eq_dec (ai_balance (db_value o)) (ai_balance (ac_info acc))) as [|Hne]; [done|]. destruct Hmod. right. right. by left. }
    assert (Hn : ai_nonce (db_value o) = ai_nonce (ac_info acc)).
    { destruct (N.eq_dec (ai_nonce (db_value o)) (ai_nonce (ac_info acc))) as [|Hne]; [done|]. destruct Hmod. right. right. right. by left. }
    rewrite Hs. split; [|split; [done|split; [done|]]].
    + intros _. unfold stands. rewrite Hs. cbn. split; [congruence|]. split; [congruence|]. split; [done|]. intros k. split; [|done].
      intros s Hk. rewrite (S4 k s Hk). by apply Hslot with k.
    + intros y _ Hy. unfold stands in Hy. rewrite Hs in Hy. destruct Hy as (Y1 & Y2 & Y3 & Y4). cbn.
      split; [congruence|]. split; [congruence|]. split; [apply nonempty_inj; congruence|]. intros k.
      destruct (in_dec N.eq_dec k (map fst (ac_storage acc))) as [Hk|Hk]; [|by apply Y4].
      apply in_map_iff in Hk as ([k' s] & <- & Hk). cbn [fst]. rewrite (proj1 (Y4 k') s Hk), (S4 k' s Hk). by rewrite (Hslot k' s Hk).
  - (* modified *)
    rewrite Ho in Ho'. injection Ho' as <-. destruct (Hx4 Hc) as [_ Hcd]. rewrite Hc.
    rewrite <-S1 in Eb. rewrite <-S2 in En.
    split; [|split; [done|split]].
    + intros Hs. unfold stands. rewrite Hs. cbn. rewrite (after_change _ _ _ _ Eb), (after_change _ _ _ _ En), Ec. cbn.
      split; [done|]. split; [done|]. split; [done|]. intros k. split.
      * intros s Hk. rewrite (slot_in _ _ _ X2 Est k s Hk). destruct (N.eqb_spec (sl_original s) (sl_present s)) as [Eq|]; [|done].
        by rewrite (S4 k s Hk).
      * intros Hk. by rewrite (slot_out _ _ _ Est k Hk).
    + intros _ _. cbn. rewrite (after_change _ _ _ _ Eb), (after_change _ _ _ _ En), Ec. done.
    + intros y Hs Hy. unfold stands in Hy. rewrite Hs in Hy. destruct Hy as (Y1 & Y2 & Y3 & Y4). unfold same. cbn.
      rewrite <-Y1 in Eb. rewrite <-Y2 in En. rewrite (earlier_change _ _ _ _ Eb), (earlier_change _ _ _ _ En), Ec. cbn.
      split; [done|]. split; [done|]. split; [apply nonempty_inj; congruence|]. intros k.
      destruct (in_dec N.eq_dec k (map fst (ac_storage acc))) as [Hk|Hk].
      * apply in_map_iff in Hk as ([k' s] & <- & Hk). cbn [fst]. rewrite (slot_in _ _ _ X2 Est k' s Hk), (S4 k' s Hk).
        destruct (N.eqb_spec (sl_original s) (sl_present s)) as [Eq|]; [|done]. by rewrite (proj1 (Y4 k') s Hk).
      * rewrite (slot_out _ _ _ Est k Hk). by apply Y4.
Qed.
Print Assumptions C124_apply_partial.

(** A contract destroyed without any other change: the reader still sees its nonce. *)
Theorem C124_refuted : ~ C124_statement.
Proof.
  intros H. destruct (H gone_db gone_state gone_executed) as (d & Hd & Hall).
  { intros a acc o Ha Ho. cbn in Ha. destruct Ha as [Ha|[]]. injection Ha as <- <-. done. }
  destruct (Hall 3 _ _ (mkKnown 0 1 [x60] (fun _ => 0)) (or_introl eq_refl) eq_refl) as [Hf _].
  { constructor; try done. by constructor. }
  destruct Hf as (_ & Hn & _).
  assert (E : match populate_state_diff ∅ gone_db gone_state with Some d => kn_nonce (forwards (mkKnown 0 1 [x60] (fun _ => 0)) (d !! 3)) | None => 0 end = 1)
    by (vm_compute; reflexivity).
  rewrite Hd in E. cbn [kn_nonce nothing] in Hn. congruence.
Qed.
Print Assumptions C124_refuted.

(** A contract created at an address with a balance: backwards the balance is lost. *)
Definition new_state : list (address * Account) := [(3, mkAccount (mkInfo 60 1 99 (Some [x60])) [] true false)].
Lemma new_executed : executed funded_db new_state /\ evm_accounts funded_db new_state.
Proof.
  split.
  - constructor.
    + apply NoDup_ListNoDup. repeat constructor; cbn; intuition discriminate.
    + intros a acc [[= <- <-]|[]]. apply NoDup_nil_2.
    + done.
    + by intros a acc o c [[= <- <-]|[]].
    + intros a acc o [[= <- <-]|[]] _ [= <-]. split_and!; [by constructor|done..].
  - intros a acc o [[= <- <-]|[]] [= <-]. split; [done|]. by intros _ k s [].
Qed.
Theorem C124_funded_refuted : ~ C124_statement.
Proof.
  intros H. destruct (H funded_db new_state (proj1 new_executed) (proj2 new_executed)) as (d & Hd & Hall).
  destruct (Hall 3 _ _ (mkKnown 50 0 [] (fun _ => 0)) (or_introl eq_refl) eq_refl) as [_ Hb].
  { constructor; try done. by constructor. }
  destruct (Hb (mkKnown 60 1 [x60] (fun _ => 0))) as (Hn & _).
  { split; [done|]. split; [done|]. split; [done|]. intros k. split; [by intros s []|done]. }
  assert (E : match populate_state_diff ∅ funded_db new_state with Some d => kn_balance (backwards (mkKnown 60 1 [x60] (fun _ => 0)) (d !! 3)) | None => 50 end = 0)
    by (vm_compute; reflexivity).
  rewrite Hd in E. cbn [kn_balance] in Hn. congruence.
Qed.
Print Assumptions C124_funded_refuted.

(** A sender, a created contract, a contract with a cleared slot and a destroyed one, read forwards and backwards. *)
Example C124_example : executed c110_db c110_state /\ evm_accounts c110_db c110_state /\
  (forall a acc o, In (a, acc) c110_state -> db_basic c110_db a = Some o -> exists x, stood c110_db (db_value o) acc x) /\
  match populate_state_diff ∅ c110_db c110_state with
  | Some d =>
      let sender := mkKnown 100 4 [] (fun _ => 0) in let contract := mkKnown 7 1 [x60] (fun k => if k =? 5 then 1 else 0) in
      map (fun x => (kn_balance x, kn_nonce x, kn_code x, map (kn_slots x) [5; 6]))
        [forwards sender (d !! 1); forwards nothing (d !! 2); forwards contract (d !! 3);
         backwards (forwards sender (d !! 1)) (d !! 1); backwards (forwards contract (d !! 3)) (d !! 3)]
      = [(90, 5, [], [0; 0]); (10, 1, [x61], [8; 0]); (7, 1, [x60], [0; 0]); (100, 4, [], [0; 0]); (7, 1, [x60], [1; 0])]
  | None => False
  end.
Proof.
  split; [apply C122_example|]. split; [apply C122_example|]. split; [|vm_compute; reflexivity].
  intros a acc o H Ho. destruct H as [[= <- <-]|[[= <- <-]|[[= <- <-]|[[= <- <-]|[]]]]]; cbn in Ho; injection Ho as <-.
  - exists (mkKnown 100 4 [] (fun _ => 0)). constructor; try done. by constructor.
  - exists (mkKnown 0 0 [] (fun _ => 0)). constructor; try done; [by constructor|]. intros k s [[= <- <-]|[[= <- <-]|[]]]; done.
  - exists (mkKnown 7 1 [x60] (fun k => if k =? 5 then 1 else 0)). constructor; try done; [by constructor|]. by intros k s [[= <- <-]|[]].
  - exists (mkKnown 7 1 [x60] (fun _ => 0)). constructor; try done. by constructor.
Qed.
