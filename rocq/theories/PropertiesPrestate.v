(** * PropertiesPrestate: C35, C36, the prestate tracer *)

From Verif Require Import PrestateProofs.
Local Open Scope N_scope.

(** ** C35 *)
Theorem C35_prestate :
  forall db state c, diff_mode c <> Some true ->
  NoDup (map fst state) -> (forall a acc, In (a, acc) state -> NoDup (map fst (ac_storage acc))) ->
  (** the database answers *)
  (forall a acc, In (a, acc) state -> db_basic db a <> None) ->
  exists m, geth_prestate_traces state c db = Some (PFDefault m) /\
    (forall a acc, In (a, acc) state -> exists o st,
       db_basic db a = Some o /\ m !! a = Some st /\ prestate_account db (db_value o) (ac_storage acc) st) /\
    (forall a, ~ In a (map fst state) -> m !! a = None).
Proof.
  intros db state c Hc Hnd Hst Hdb. destruct (prestate_loop db state ∅ Hnd Hdb) as (m & Hok & Hin & Hout).
  exists m. unfold geth_prestate_traces, is_default_mode. rewrite Hok.
  assert (negb (unwrap_or_default_bool (diff_mode c)) = true) as -> by (by destruct (diff_mode c) as [[]|]).
  split_and!; [done| |].
  - intros a acc Ha. destruct (Hin a acc Ha) as (o & Ho & Hm). eexists _, _. split_and!; [done|done|].
    apply prestate_of_spec. by eapply Hst.
  - intros a Ha. by rewrite Hout, lookup_empty.
Qed.
Print Assumptions C35_prestate.

(** A database error is passed on. *)
Theorem C35_database_error :
  forall db state c a acc, In (a, acc) state -> db_basic db a = None -> geth_prestate_traces state c db = None.
Proof.
  intros db state c a acc Hin Hdb. unfold geth_prestate_traces.
  assert (H : forall S (step : S -> address * Account -> option S) l, (forall s, step s (a, acc) = None) -> In (a, acc) l ->
    forall s, try_fold step s l = None).
  { intros S step l Hs. induction l as [|x l IH]; intros Hl s; [done|]. cbn. destruct Hl as [->|Hl]; [by rewrite Hs|].
    destruct (step s x); [by apply IH|done]. }
  destruct (is_default_mode c).
  - rewrite H; [done| |done]. intros s. cbn. by rewrite Hdb.
  - rewrite H; [done| |done]. intros [d k]. cbn. by rewrite Hdb.
Qed.
Print Assumptions C35_database_error.

Definition pre_db : Db :=
  mkDb (fun a => Some (if a =? 1 then Some (mkInfo 100 4 KECCAK_EMPTY None) else if a =? 3 then Some (mkInfo 7 1 99 None) else None))
       (fun h => if h =? 99 then Some [x60] else None).
Definition pre_state : list (address * Account) :=
  [ (1, mkAccount (mkInfo 90 5 KECCAK_EMPTY None) [(9, mkSlot 3 3); (8, mkSlot 3 0)] false false);
    (2, mkAccount (mkInfo 10 1 99 (Some [x60])) [(5, mkSlot 0 8); (6, mkSlot 0 0)] true false);
    (3, mkAccount (mkInfo 7 1 99 (Some [x60])) [(5, mkSlot 1 1)] false false);
    (4, mkAccount (mkInfo 0 0 KECCAK_EMPTY None) [] true true) ].
Lemma pre_state_ok : NoDup (map fst pre_state) /\ (forall a acc, In (a, acc) pre_state -> NoDup (map fst (ac_storage acc))) /\
  (forall a acc, In (a, acc) pre_state -> db_basic pre_db a <> None).
Proof.
  split_and!.
  - apply NoDup_ListNoDup. repeat constructor; cbn; intuition discriminate.
  - intros a acc H. cbn in H. intuition (simplify_eq; cbn); apply NoDup_ListNoDup; repeat constructor; cbn; intuition discriminate.
  - done.
Qed.
Example C35_example : exists m, geth_prestate_traces pre_state (mkPreStateConfig None) pre_db = Some (PFDefault m) /\
  m !! 1 = Some (mkAS (Some 100) None (Some 4) {[9 := 3; 8 := 3]}) /\ m !! 3 = Some (mkAS (Some 7) (Some [x60]) (Some 1) {[5 := 1]}).
Proof.
  destruct (C35_prestate pre_db pre_state (mkPreStateConfig None)) as (m & Hm & _); [done|apply pre_state_ok..|].
  exists m. split; [done|].
  assert (H : m = match geth_prestate_traces pre_state (mkPreStateConfig None) pre_db with Some (PFDefault m) => m | _ => ∅ end)
    by (by rewrite Hm).
  clear Hm. subst m. split; apply (bool_decide_unpack _); vm_compute; exact I.
Qed.

(** ** C36 *)

(** The claim: besides what [prestate_diff] says, an account is absent when nothing about it changed. *)
Definition C36_statement : Prop :=
  forall db state c, diff_mode c = Some true ->
  NoDup (map fst state) -> (forall a acc, In (a, acc) state -> NoDup (map fst (ac_storage acc))) ->
  (forall a acc, In (a, acc) state -> db_basic db a <> None) ->
  exists d, geth_prestate_traces state c db = Some (PFDiff d) /\
    (forall a acc o code, In (a, acc) state -> db_basic db a = Some o -> has_code db (db_value o) code ->
       prestate_diff (db_value o) code acc (dm_pre d !! a) (dm_post d !! a) /\
       (unchanged (db_value o) acc -> dm_pre d !! a = None /\ dm_post d !! a = None)) /\
    (forall a, ~ In a (map fst state) -> dm_pre d !! a = None /\ dm_post d !! a = None).

(** A contract that was only read, its code not loaded by the execution: it appears with its code in [pre]. *)
Definition read_state : list (address * Account) := [(3, mkAccount (mkInfo 7 1 99 None) [] false false)].
Theorem C36_refuted : ~ C36_statement.
Proof.
  intros H. destruct (H pre_db read_state (mkPreStateConfig (Some true)) eq_refl) as (d & Hd & Hin & _).
  - apply NoDup_ListNoDup. repeat constructor; cbn; intuition discriminate.
  - intros a acc [[= <- <-]|[]]. apply NoDup_ListNoDup. repeat constructor.
  - done.
  - destruct (Hin 3 (mkAccount (mkInfo 7 1 99 None) [] false false) (Some (mkInfo 7 1 99 None)) [x60]) as [_ Hu]; [by left|done|by apply code_stored|].
    destruct Hu as [Hp _]; [split_and!; [done..|by intros ? ? []]|]. clear Hin H.
    assert (Hn : match geth_prestate_traces read_state (mkPreStateConfig (Some true)) pre_db with Some (PFDiff d) => dm_pre d !! 3 | _ => None end
      = Some (mkAS (Some 7) (Some [x60]) (Some 1) ∅)) by (apply (bool_decide_unpack _); vm_compute; exact I).
    rewrite Hd in Hn. clear Hd. by rewrite Hp in Hn.
Qed.
Print Assumptions C36_refuted.

(** What holds: everything in [prestate_diff], which judges code by what is attached to the account in the state map. *)
Theorem C36_diff_partial :
  forall db state c, diff_mode c = Some true ->
  NoDup (map fst state) -> (forall a acc, In (a, acc) state -> NoDup (map fst (ac_storage acc))) ->
  (forall a acc, In (a, acc) state -> db_basic db a <> None) ->
  exists d, geth_prestate_traces state c db = Some (PFDiff d) /\
    (forall a acc o code, In (a, acc) state -> db_basic db a = Some o -> has_code db (db_value o) code ->
       prestate_diff (db_value o) code acc (dm_pre d !! a) (dm_post d !! a) /\
       (** if the code of an account with unchanged code hash is attached to it *)
       ((ai_code_hash (db_value o) = ai_code_hash (ac_info acc) -> attached acc = nonempty code) ->
        unchanged (db_value o) acc -> dm_pre d !! a = None /\ dm_post d !! a = None)) /\
    (forall a, ~ In a (map fst state) -> dm_pre d !! a = None /\ dm_post d !! a = None).
Proof.
  intros db state c Hc Hnd Hst Hdb. destruct (prediff_loop db state (mkDM ∅ ∅) ∅ Hnd Hdb) as (d & k & Hok & Hin & Hout).
  unfold geth_prestate_traces, is_default_mode. rewrite Hc. cbn [unwrap_or_default_bool default negb]. unfold id. cbn [negb]. rewrite Hok.
  eexists. split; [done|]. split.
  - intros a acc o code Ha Ho Hcode. destruct (Hin a acc Ha) as (o' & Ho' & Hpre & Hpost & Hk).
    rewrite Ho in Ho'. injection Ho' as <-.
    destruct (passes d k a) as [_ Hp]. destruct (Hp _ _ _ Hpre Hpost Hk) as [-> ->].
    assert (Hload : nonempty code = shown (load_account_code db (db_value o))).
    { destruct (nonempty_code db (db_value o)) as (c' & Hc' & ->). f_equal. clear -Hcode Hc'. destruct Hcode, Hc'; congruence. }
    pose proof (final_spec db (db_value o) code acc Hcode Hload (Hst _ _ Ha)) as Hf. split; [done|].
    intros Hatt (H1 & H2 & H3 & H4). apply (pd_same _ _ _ _ _ Hf). split_and!; try done. by rewrite Hatt.
  - intros a Ha. destruct (Hout a Ha) as (H1 & H2 & H3). destruct (passes d k a) as [Hp _]. apply Hp; [by rewrite H1|by rewrite H2].
Qed.
Print Assumptions C36_diff_partial.
Example C36_example : exists d, geth_prestate_traces pre_state (mkPreStateConfig (Some true)) pre_db = Some (PFDiff d) /\
  dm_pre d !! 1 = Some (mkAS (Some 100) None (Some 4) {[8 := 3]}) /\ dm_post d !! 1 = Some (mkAS (Some 90) None (Some 5) ∅) /\
  dm_pre d !! 2 = None /\ dm_post d !! 2 = Some (mkAS (Some 10) (Some [x60]) (Some 1) {[5 := 8]}) /\
  dm_pre d !! 3 = None /\ dm_post d !! 3 = None /\ dm_pre d !! 4 = None /\ dm_post d !! 4 = None.
Proof.
  destruct (C36_diff_partial pre_db pre_state (mkPreStateConfig (Some true))) as (d & Hd & _); [done|apply pre_state_ok..|].
  exists d. split; [done|].
  assert (H : d = match geth_prestate_traces pre_state (mkPreStateConfig (Some true)) pre_db with Some (PFDiff d) => d | _ => mkDM ∅ ∅ end)
    by (by rewrite Hd).
  clear Hd. subst d. split_and!; apply (bool_decide_unpack _); vm_compute; exact I.
Qed.
