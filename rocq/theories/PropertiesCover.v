(** * PropertiesCover: C146, the prestate has every account that the reports mention *)

From Verif Require Import SpecCover ExecProofs GethProofs ReceiptProofs PropertiesTx PropertiesPrestate PropertiesParties PropertiesCreated Examples.

Lemma last_in {A} (l : list A) x : last l = Some x -> In x l.
Proof. intros H. apply elem_of_list_In. by apply last_Some_elem_of. Qed.

Section Cover.
Context (state : list (address * Account)).
Local Notation known a := (In a (map fst state)).

Definition frame_loaded (g : frame) : Prop :=
    known (spec_caller (f_start g)) /\
    (is_call (f_start g) = true \/ spec_success (status (f_end g)) = true \/ status (f_end g) = Revert \/
     logs_of (hooks (f_body g)) <> [] ->
     known (executing_account (f_start g)) /\ known (code_address (f_start g))) /\
    Forall (fun x => known (fst (fst x)) /\ known (snd (fst x))) (selfdestructs_of (hooks (f_body g))).

Lemma address_known g : frame_loaded g ->
  (forall a, is_call (f_start g) = false -> fe_address (f_end g) = Some a -> a = executing_account (f_start g)) ->
  is_call (f_start g) = true \/ spec_success (status (f_end g)) = true \/ status (f_end g) = Revert -> known (spec_address g).
Proof.
  intros (_ & L2 & L3) Ha Hs. assert (Hk : known (executing_account (f_start g)) /\ known (code_address (f_start g))) by (apply L2; tauto).
  destruct Hk as [K1 K2]. unfold spec_address.
  assert (Ho : known (match last (selfdestructs_of (hooks (f_body g))) with Some (a, _, _) => a | None => code_address (f_start g) end)).
  { destruct (last _) as [[[a t] v]|] eqn:E; [|done]. apply last_in in E. rewrite Forall_forall in L3. apply elem_of_list_In in E.
    apply (L3 _ E). }
  destruct (f_start g) as [j c|j c] eqn:Es; [done|]. destruct (fe_address (f_end g)) as [a|] eqn:Ea; [|done].
  rewrite (Ha a eq_refl eq_refl). done.
Qed.

Lemma entry_known w root v ad n g t a : frame_loaded g ->
  (forall a, is_call (f_start g) = false -> fe_address (f_end g) = Some a -> a = executing_account (f_start g)) ->
  t = spec_entry w root v ad n g -> In a (mentioned t) -> known a.
Proof.
  intros Hl Ha -> Hin. unfold mentioned, spec_entry in Hin. cbn [tt_action tt_result] in Hin. unfold spec_action in Hin.
  apply in_app_iff in Hin as [Hin|Hin].
  - destruct (is_call (f_start g)) eqn:Ec; cbn in Hin.
    + destruct Hin as [<-|[<-|[]]]; [apply Hl|]. apply address_known; [done|intros ? E; congruence|auto].
    + destruct Hin as [<-|[]]. apply Hl.
  - unfold spec_output in Hin. destruct (is_call (f_start g)) eqn:Ec; [by destruct (status (f_end g))|].
    destruct (status (f_end g)) eqn:Es; try done; destruct Hin as [<-|[]]; (apply address_known; [done|intros ? _; by apply Ha|rewrite Es; auto]).
Qed.

Lemma traces_known cfg w g : forall root v ad, every_frame frame_loaded g -> evm_addresses g -> evm_selfdestructs g ->
  forall t a, In t (spec_traces cfg w root v ad g) -> In a (mentioned t) -> known a.
Proof.
  induction g as [s body e IH] using frame_ind'. intros root v ad Hl Ha Hs t a Ht Hin.
  apply every_frame_inv in Hl as [Hl Hls]. apply every_frame_inv in Ha as [(A1 & A2 & A3) Has]. apply every_frame_inv in Hs as [Hs Hss].
  cbn [spec_traces] in Ht. apply in_app_iff in Ht as [Ht|Ht].
  - unfold frame_entries in Ht. destruct (refund_of (Frame s body e)) as [r|] eqn:Er.
    + assert (exists x target amount, r = Some (target, amount) /\ last (selfdestructs_of (hooks body)) = Some (x, target, amount))
        as (x & target & amount & -> & El).
      { unfold refund_of in Er. cbn [f_body f_end] in Er, Hs. destruct (last (selfdestructs_of (hooks body))) as [[[x target] amount]|] eqn:El.
        - injection Er as <-. by exists x, target, amount.
        - exfalso. apply last_None in El. destruct (status e) eqn:Es; try done. by apply Hs. }
      cbn [default] in Ht. apply last_in in El. pose proof Hl as (L1 & L2 & L3). rewrite Forall_forall in L3.
      pose proof (L3 _ (proj2 (elem_of_list_In _ _) El)) as [K1 K2]. cbn in K1, K2.
      destruct Ht as [<-|[<-|[]]]; [eapply (entry_known w root v ad _ (Frame s body e)); [exact Hl|exact A3|reflexivity|exact Hin]|]. cbn in Hin.
      destruct Hin as [<-|[<-|[]]]; [|done]. rewrite Forall_forall in A2. pose proof (A2 _ (proj2 (elem_of_list_In _ _) El)) as Ex. cbn in Ex.
      unfold spec_address. cbn [f_start f_body f_end].
      assert (Ho : known (match last (selfdestructs_of (hooks body)) with Some (a, _, _) => a | None => code_address s end)).
      { destruct (last _) as [[[a' t'] v']|] eqn:E.
        - apply last_in in E. apply (L3 _ (proj2 (elem_of_list_In _ _) E)).
        - apply last_None in E. cbn in El. by rewrite E in El. }
      destruct s as [j c|j c]; [done|]. destruct (fe_address e) as [a'|] eqn:Ea; [|done].
      cbn [f_start f_end] in A3. rewrite (A3 a' eq_refl Ea), <- Ex. done.
    + destruct Ht as [<-|[]]. eapply (entry_known w root v ad _ (Frame s body e)); [exact Hl|exact A3|reflexivity|exact Hin].
  - clear A1 A2 A3 Hl Hs. revert Ht. cbn [f_body] in *.
    generalize 0%nat. induction body as [|it body IHb]; intros k Ht; [done|].
    destruct it as [o|h|x]; [by eapply IHb..|]. change (subs (ISub x :: body)) with (x :: subs body) in *.
    inversion_clear IH as [|? ? I1 I2]. inversion_clear Hls as [|? ? L1 L2]. inversion_clear Has as [|? ? A1 A2]. inversion_clear Hss as [|? ? S1 S2].
    destruct (hidden_call _ _ _ _); [by eapply IHb|]. apply in_app_iff in Ht as [Ht|Ht]; [by eapply I1|by eapply IHb].
Qed.

Lemma tree_known rr cfg w lg gas g : forall root ok v, every_frame frame_loaded g -> evm_addresses g ->
  forall a, In a (tree_mentioned (spec_calls rr cfg w lg gas root ok v g)) -> known a.
Proof.
  induction g as [s body e IH] using frame_ind'. intros root ok v Hl Ha a Hin.
  apply every_frame_inv in Hl as [Hl Hls]. apply every_frame_inv in Ha as [(A1 & A2 & A3) Has].
  cbn [spec_calls tree_mentioned] in Hin. rewrite tree_typ in Hin. destruct Hin as [<-|Hin]; [apply Hl|].
  apply in_app_iff in Hin as [Hin|Hin]; [|apply in_app_iff in Hin as [Hin|Hin]].
  - destruct (_ && _) eqn:Ec; [done|]. cbn [spec_info fi_to] in Hin. destruct Hin as [<-|[]]. apply address_known; [done|done|].
    cbn [f_start f_end] in *. cbn [spec_info fi_typ fi_error f_start f_end] in Ec.
    destruct s as [j c|j c]; [by left|right]. destruct (spec_success (status e)) eqn:Es; [by left|right].
    apply andb_false_iff in Ec as [Ec|Ec]; [unfold spec_kind in Ec; destruct (cr_scheme c); vm_compute in Ec; discriminate Ec|]. by destruct (status e).
  - cbn [spec_info fi_logs] in Hin. destruct (_ && _); [|done].
    apply in_flat_map in Hin as (l & Hin & Ha'). apply in_map_iff in Hin as (x & <- & Hx). cbn in Ha'. destruct Ha' as [<-|[]].
    cbn [f_start f_body] in A1, Hx. rewrite Forall_forall in A1. rewrite (A1 _ (proj2 (elem_of_list_In _ _) Hx)).
    destruct Hl as (_ & L2 & _). cbn [f_start f_body] in L2. apply L2. right. right. right. intros E. cbn in Hx. by rewrite E in Hx.
  - clear A1 A2 A3 Hl. cbn [f_body] in *. induction body as [|it body IHb]; [done|].
    destruct it as [o|h|x]; [by eapply IHb..|]. change (subs (ISub x :: body)) with (x :: subs body) in *.
    inversion_clear IH as [|? ? I1 I2]. inversion_clear Hls as [|? ? L1 L2]. inversion_clear Has as [|? ? B1 B2].
    apply in_app_iff in Hin as [Hin|Hin]; [by eapply I1|by apply IHb].
Qed.
End Cover.

Lemma tree_mentioned_without : forall c, tree_mentioned (without_selfdestructs c) = tree_mentioned c.
Proof.
  fix IH 1. intros [i calls]. cbn [without_selfdestructs tree_mentioned]. destruct (String.eqb _ _); [done|]. do 3 f_equal.
  induction calls as [|x l IHl]; [done|]. specialize (IH x). rewrite <- IH, <- IHl.
  case_bool_decide as E; [|done]. destruct x as [j cs]. cbn [cf_info] in E. cbn [without_selfdestructs tree_mentioned]. by rewrite E.
Qed.

(** One would expect the prestate tracer to list every account that the parity traces mention. *)
Definition C146_statement : Prop :=
  forall cfg w f s l db state c m, env_ok cfg w f -> evm_refund f -> evm_addresses f ->
  ti_run (ti_new cfg) (tx_events w f) = Ok s -> into_transaction_traces (ti_traces s) = Ok l ->
  NoDup (map fst state) -> (forall a acc, In (a, acc) state -> NoDup (map fst (ac_storage acc))) ->
  (forall a acc, In (a, acc) state -> db_basic db a <> None) ->
  loaded state f -> diff_mode c <> Some true -> geth_prestate_traces state c db = Some (PFDefault m) ->
  forall t a, In t l -> In a (mentioned t) -> is_Some (m !! a).
(** A SELFDESTRUCT that the EVM does not announce is listed with a refund to account zero. *)
Definition c146_account : Account := mkAccount (mkInfo 5 0 KECCAK_EMPTY None) [] false false.
Definition c146_db : Db := mkDb (fun _ => Some None) (fun _ => None).
Definition c146_stay : list (address * Account) := map (fun a => (a, c146_account)) [0xAA; 0xC0; 0xE0]%N.
Theorem C146_refuted : ~ C146_statement.
Proof.
  intros H. destruct stay_ok as (H1 & H2 & H3).
  assert (Hs : exists s, ti_run (ti_new cfg_none) (tx_events ex_world stay_tx) = Ok s) by (eexists; vm_compute; reflexivity).
  assert (Hm : exists m, geth_prestate_traces c146_stay (mkPreStateConfig None) c146_db = Some (PFDefault m) /\ m !! 0%N = None).
  { eexists. split; [vm_compute; reflexivity|]. vm_compute. reflexivity. }
  destruct Hs as [s Hs]. destruct Hm as (m & Hm & Hz). pose proof (C74_parity_traces cfg_none ex_world stay_tx s H1 H2 Hs) as Ht.
  assert (Hin : exists t, In t (spec_traces cfg_none ex_world true (spec_value (f_start stay_tx)) [] stay_tx) /\ In 0%N (mentioned t)).
  { eexists. split; [vm_compute; right; left; reflexivity|]. vm_compute. auto. }
  destruct Hin as (t & Hin & H0).
  destruct (H cfg_none ex_world stay_tx s _ c146_db c146_stay (mkPreStateConfig None) m H1 H2 H3 Hs Ht) with (t := t) (a := 0%N) as [x Hx].
  - apply (bool_decide_eq_true_1 (NoDup _)). vm_compute. reflexivity.
  - intros a acc Hi. apply in_map_iff in Hi as (? & [= <- <-] & _). constructor.
  - done.
  - clear. repeat (constructor; cbn; try tauto).
  - done.
  - done.
  - done.
  - done.
  - congruence.
Qed.
Print Assumptions C146_refuted.
(** It does if the EVM announces every SELFDESTRUCT. *)
Theorem C146_parity_partial :
  forall cfg w f s l db state c m, env_ok cfg w f -> evm_refund f -> evm_addresses f -> evm_selfdestructs f ->
  ti_run (ti_new cfg) (tx_events w f) = Ok s -> into_transaction_traces (ti_traces s) = Ok l ->
  NoDup (map fst state) -> (forall a acc, In (a, acc) state -> NoDup (map fst (ac_storage acc))) ->
  (forall a acc, In (a, acc) state -> db_basic db a <> None) ->
  loaded state f -> diff_mode c <> Some true -> geth_prestate_traces state c db = Some (PFDefault m) ->
  forall t a, In t l -> In a (mentioned t) -> is_Some (m !! a).
Proof.
  intros cfg w f s l db state c m He Hrf Ha Hs Hr Hl Hn Hst Hdb Hld Hc Hm t a Ht Hin.
  rewrite (C74_parity_traces cfg w f s He Hrf Hr) in Hl. injection Hl as <-.
  pose proof (traces_known state cfg w f _ _ _ Hld Ha Hs t a Ht Hin) as Hk.
  destruct (C35_prestate db state c Hc Hn Hst Hdb) as (m' & Hm' & Hacc & _). rewrite Hm in Hm'. injection Hm' as <-.
  apply in_map_iff in Hk as ([a' acc] & <- & Hk). destruct (Hacc _ _ Hk) as (o & st & _ & E & _). by exists st.
Qed.
Print Assumptions C146_parity_partial.

(** It lists every account that the geth call tree mentions. *)
Theorem C146_call_tree :
  forall rr cfg w f s opts gas r db state c m, env_ok cfg w f -> evm_addresses f ->
  ti_run (ti_new cfg) (tx_events w f) = Ok s -> only_top_call opts <> Some true -> geth_call_traces rr (ti_traces s) opts gas = Ok r ->
  NoDup (map fst state) -> (forall a acc, In (a, acc) state -> NoDup (map fst (ac_storage acc))) ->
  (forall a acc, In (a, acc) state -> db_basic db a <> None) ->
  loaded state f -> diff_mode c <> Some true -> geth_prestate_traces state c db = Some (PFDefault m) ->
  forall a, In a (tree_mentioned r) -> is_Some (m !! a).
Proof.
  intros rr cfg w f s opts gas r db state c m He Ha Hr Ho Hg Hn Hst Hdb Hld Hc Hm a Hin.
  destruct (C75_call_tree rr cfg w f s opts gas He Ha Hr Ho) as (r' & Hg' & Hcc & _). rewrite Hg in Hg'. injection Hg' as <-.
  rewrite <- tree_mentioned_without, Hcc in Hin. pose proof (tree_known state rr cfg w _ gas f _ _ _ Hld Ha a Hin) as Hk.
  destruct (C35_prestate db state c Hc Hn Hst Hdb) as (m' & Hm' & Hacc & _). rewrite Hm in Hm'. injection Hm' as <-.
  apply in_map_iff in Hk as ([a' acc] & <- & Hk). destruct (Hacc _ _ Hk) as (o & st & _ & E & _). by exists st.
Qed.
Print Assumptions C146_call_tree.

(** Creates that stay, are destroyed and are undone. *)
Definition c146_state : list (address * Account) := map (fun a => (a, c146_account)) [0xAA; 0xC0; 0xE1; 0xE0; 0xBB; 0xF0; 0xE2]%N.
Lemma c146_loaded : loaded c146_state c142_tx.
Proof. repeat (constructor; cbn; try tauto). Qed.
Example C146_example :
  env_ok ex_cfg ex_world c142_tx /\ evm_refund c142_tx /\ evm_addresses c142_tx /\ evm_selfdestructs c142_tx /\
  NoDup (map fst c146_state) /\ (forall a acc, In (a, acc) c146_state -> NoDup (map fst (ac_storage acc))) /\
  loaded c146_state c142_tx /\
  (exists m, geth_prestate_traces c146_state (mkPreStateConfig None) c146_db = Some (PFDefault m) /\ is_Some (m !! 0xE2%N)) /\
  exists s l r, ti_run (ti_new ex_cfg) (tx_events ex_world c142_tx) = Ok s /\ into_transaction_traces (ti_traces s) = Ok l /\
    geth_call_traces (fun _ => None) (ti_traces s) (mkCallConfig None None) 99%N = Ok r /\
    flat_map mentioned l = [0xAA; 0xC0; 0xC0; 0xE1; 0xC0; 0xE0; 0xE0; 0xBB; 0xC0; 0xF0; 0xC0; 0xE2]%N /\
    tree_mentioned r = [0xAA; 0xC0; 0xC0; 0xE1; 0xC0; 0xE0; 0xC0; 0xF0; 0xC0; 0xE2]%N.
Proof.
  destruct C142_example as (H1 & H2 & H3 & _ & H5 & _).
  split; [done|]. split; [done|]. split; [done|]. split; [done|]. split; [apply (bool_decide_eq_true_1 (NoDup _)); vm_compute; reflexivity|].
  split; [intros a acc Hi; apply in_map_iff in Hi as (? & [= <- <-] & _); constructor|]. split; [apply c146_loaded|]. clear.
  split; [eexists; split; [vm_compute; reflexivity|]; vm_compute; by eexists|].
  eexists _, _, _. split; [vm_compute; reflexivity|]. split; [vm_compute; reflexivity|]. split; [vm_compute; reflexivity|]. split; vm_compute; reflexivity.
Qed.
