(** * PropertiesWrites: C143, the recorded changes account for the storage *)

From Verif Require Import WritesProofs PropertiesDiff Examples.
Local Open Scope N_scope.

(** One would expect the recorded changes of storage to say what every slot is left with. *)
Definition C143_statement : Prop :=
  forall cfg w f s a k, env_ok cfg w f -> evm_addresses f -> evm_writes w f ->
  record_steps cfg = true -> record_state_diff cfg = true -> record_opcodes_filter cfg = None ->
  ti_run (ti_new cfg) (tx_events w f) = Ok s ->
  left_in_slot (recorded_changes (length (ti_traces s)) (ti_traces s) 0) a k = left_in_slot (changes_by f) a k.

(** Contract 0xC0 calls 0xD0, which sets its slot 1 to 9; then 0xC0 writes to its slot 2 the value it has. *)
Definition c143_interp (op : N) (pc : nat) (c : address) (stack : list N) (r : InstructionResult) : Interp :=
  mkInterp op pc c stack [] [] (ex_gas 900) r.
Definition c143_op (op : N) (pc : nat) (c : address) (before after : list N) (j j' : jview) (r : InstructionResult) : instr :=
  mkInstr (c143_interp op pc c before Continue) j [] (c143_interp op (S pc) c after r) j'.
Definition c143_j (ls : list (list JournalEntry)) : jview := mkJ ls (fun a k => Some (if (a =? 0xD0) && (k =? 1) then 9 else 0)).
Definition c143_j0 := c143_j [[JOther]].
Definition c143_j1 := c143_j [[JOther]; []].
Definition c143_j2 := c143_j [[JOther]; [JOther; JStorageChanged 0xD0 1 0]].
Definition c143_writer (r : InstructionResult) : frame :=
  Frame (SCall c143_j1 (mkCallInputs [] 30000 0xD0 0xD0 0xC0 (Transfer 0) CSCall false))
    [ IOp (c143_op OP_SSTORE 0 0xD0 [9; 1] [] c143_j1 c143_j2 Continue);
      IOp (c143_op OP_STOP 1 0xD0 [] [] c143_j2 c143_j2 r) ] (ex_end r None).
Definition c143_tx : frame :=
  Frame (SCall c143_j0 (mkCallInputs [] 90000 0xC0 0xC0 0xAA (Transfer 7) CSCall false))
    [ IOp (c143_op OP_CALL 0 0xC0 [0; 0; 0; 0; 0; 0; 0] [] c143_j0 c143_j0 CallOrCreate);
      ISub (c143_writer Stop);
      IOp (c143_op OP_SSTORE 1 0xC0 [0; 2] [] c143_j2 c143_j2 Continue);
      IOp (c143_op OP_STOP 2 0xC0 [] [] c143_j2 c143_j2 Stop) ] (ex_end Stop None).
Definition c143_cfg : TracingInspectorConfig := mkConfig true false SnapNone true false None false true.

Definition c143_writesb (w : world) (g : frame) : bool :=
  forallb (fun o => forallb (fun c => fst (fst c) =? executing_account (f_start g)) (change_made o)) (instrs (f_body g))
  && (negb (is_call (f_start g)) || negb (w_precompiles w (code_address (f_start g))) || bool_decide (length (instrs (f_body g)) = 0%nat)).
Lemma c143_writesb_ok w f : everyb (c143_writesb w) f = true -> evm_writes w f.
Proof.
  apply everyb_ok. intros g. unfold c143_writesb. intros [H1 H2]%andb_prop. split.
  - apply Forall_forall. intros o Ho a k v Hin. rewrite forallb_forall in H1. apply elem_of_list_In in Ho. specialize (H1 _ Ho).
    rewrite forallb_forall in H1. specialize (H1 _ Hin). by apply N.eqb_eq in H1.
  - intros Hc Hp. rewrite Hc, Hp in H2. cbn in H2. apply bool_decide_eq_true_1 in H2. by apply nil_length_inv.
Qed.

Definition c143_leftb (g : frame) : bool :=
  forallb (fun o => negb (in_op (op_pre o) =? 0x55) || negb (bool_decide (length (change_made o) = 0%nat)) ||
             match last (j_journal (op_post_j o)) with Some l => match last l with Some (JStorageChanged _ _ _) => false | _ => true end | None => true end)
    (instrs (f_body g)).
Lemma c143_leftb_ok f : everyb c143_leftb f = true -> no_leftover f.
Proof.
  apply everyb_ok. intros g. unfold c143_leftb. intros H. apply Forall_forall. intros o Ho Hop Hc l a k had Hl E.
  rewrite forallb_forall in H. apply elem_of_list_In in Ho. specialize (H _ Ho). by rewrite Hop, Hc, Hl, E in H.
Qed.

Lemma c143_addresses : evm_addresses c143_tx.
Proof. repeat (constructor; cbn; try done). Qed.

(** The SSTORE that changes nothing is recorded with the change of the call before it, as a change of slot 1 of 0xC0. *)
Theorem C143_refuted : ~ C143_statement.
Proof.
  intros H. assert (Hs : exists s, ti_run (ti_new c143_cfg) (tx_events ex_world c143_tx) = Ok s /\
    recorded_changes (length (ti_traces s)) (ti_traces s) 0 = [(0xD0, 1, 9); (0xC0, 1, 9)]).
  { eexists. split; [vm_compute; reflexivity|]. vm_compute. reflexivity. }
  destruct Hs as (s & Hs & Hc).
  assert (Hw : evm_writes ex_world c143_tx) by (apply c143_writesb_ok; vm_compute; reflexivity).
  specialize (H c143_cfg ex_world c143_tx s 0xC0 1 (env_okb_ok c143_cfg ex_world c143_tx eq_refl) c143_addresses Hw eq_refl eq_refl eq_refl Hs).
  rewrite Hc in H. vm_compute in H. discriminate H.
Qed.
Print Assumptions C143_refuted.

(** They do, and are the changes themselves in their order, if no SSTORE that changes nothing finds a change as the newest
    entry of the journal. *)
Theorem C143_changes_partial :
  forall cfg w f s, env_ok cfg w f -> evm_addresses f -> evm_writes w f -> no_leftover f ->
  record_steps cfg = true -> record_state_diff cfg = true -> should_record_opcode cfg OP_SSTORE = true ->
  ti_run (ti_new cfg) (tx_events w f) = Ok s ->
  recorded_changes (length (ti_traces s)) (ti_traces s) 0 = changes_by f.
Proof. exact tx_changes. Qed.
Print Assumptions C143_changes_partial.

(** What the slots are left with they say also if such an SSTORE finds a change of its own account, which the slot still has:
    then that change is recorded again. *)
Theorem C143_slots_partial :
  forall cfg w f s a k, env_ok cfg w f -> evm_addresses f -> evm_writes w f -> own_leftovers f ->
  record_steps cfg = true -> record_state_diff cfg = true -> should_record_opcode cfg OP_SSTORE = true ->
  ti_run (ti_new cfg) (tx_events w f) = Ok s ->
  left_in_slot (recorded_changes (length (ti_traces s)) (ti_traces s) 0) a k = left_in_slot (changes_by f) a k.
Proof. exact tx_slots. Qed.
Print Assumptions C143_slots_partial.

(** The slots of the state diff are the recorded ones that are left with another value than they had. *)
Theorem C143_state_diff_partial :
  forall cfg w f s db state d, env_ok cfg w f -> evm_addresses f -> evm_writes w f -> own_leftovers f ->
  record_steps cfg = true -> record_state_diff cfg = true -> should_record_opcode cfg OP_SSTORE = true ->
  ti_run (ti_new cfg) (tx_events w f) = Ok s ->
  NoDup (map fst state) -> (forall a acc, In (a, acc) state -> NoDup (map fst (ac_storage acc))) ->
  (forall a acc, In (a, acc) state -> ac_created acc = false -> db_basic db a <> None) ->
  stored state f -> populate_state_diff ∅ db state = Some d ->
  forall a acc, In (a, acc) state -> ac_created acc = false ->
  forall k old new,
    (exists e, d !! a = Some e /\ df_storage e !! k = Some (DChanged old new)) <->
    (exists slot, In (k, slot) (ac_storage acc) /\ sl_original slot = old) /\ old <> new /\
    left_in_slot (recorded_changes (length (ti_traces s)) (ti_traces s) 0) a k = Some new.
Proof.
  intros cfg w f s db state d He Ha Hw Hn H1 H2 H3 Hr Hnd Hst Hdb Hs Hd a acc Hin Hc k old new.
  rewrite (tx_slots cfg w f s a k He Ha Hw Hn H1 H2 H3 Hr).
  destruct (C25_state_diff_exact db state Hnd Hst Hdb) as (d' & Hd' & Hacc & _).
  rewrite Hd in Hd'. injection Hd' as <-. specialize (Hacc _ _ Hin). destruct (Hs _ _ Hin) as [S1 S2].
  assert (Huniq : forall s1 s2, In (k, s1) (ac_storage acc) -> In (k, s2) (ac_storage acc) -> s1 = s2).
  { intros s1 s2 I1 I2. specialize (Hst _ _ Hin). apply elem_of_list_In in I1, I2.
    apply elem_of_list_lookup in I1 as [i1 I1]. apply elem_of_list_lookup in I2 as [i2 I2].
    assert (i1 = i2) as <-; [|congruence]. eapply NoDup_lookup; [exact Hst| |].
    - rewrite list_lookup_fmap, I1. done.
    - rewrite list_lookup_fmap, I2. done. }
  split.
  - intros (e & Ed & Ek). rewrite Ed in Hacc. inversion Hacc as [| |  |o e' _ _ _ _ _ _ Hch]; [congruence|]. subst e'.
    apply Hch in Ek as (sl & Hsl & Hne & [= -> ->]). split; [by exists sl|]. split; [done|]. specialize (S1 _ _ Hsl).
    destruct (left_in_slot _ _ _) as [v|]; cbn in S1; congruence.
  - intros ((sl & Hsl & <-) & Hne & Hl). specialize (S1 _ _ Hsl). rewrite Hl in S1. cbn in S1. rewrite <- S1 in Hne |- *.
    inversion Hacc as [| |o Hc' Ho Hm E|o e Hc' Ho Hm Hb Hno Hco Hch E]; [congruence|congruence| |].
    + destruct Hm. unfold modified. right. left. by exists k, sl.
    + exists e. split; [done|]. apply Hch. by exists sl.
Qed.
Print Assumptions C143_state_diff_partial.

(** A call that changes a slot, and one that is reverted. With a second SSTORE in them that changes nothing the change is
    recorded twice. *)
Definition c143_good : frame :=
  Frame (SCall c143_j0 (mkCallInputs [] 90000 0xC0 0xC0 0xAA (Transfer 7) CSCall false))
    [ IOp (c143_op OP_CALL 0 0xC0 [0; 0; 0; 0; 0; 0; 0] [] c143_j0 c143_j0 CallOrCreate);
      ISub (c143_writer Stop);
      IOp (c143_op OP_CALL 1 0xC0 [0; 0; 0; 0; 0; 0; 0] [] c143_j0 c143_j0 CallOrCreate);
      ISub (c143_writer Revert);
      IOp (c143_op OP_STOP 2 0xC0 [] [] c143_j0 c143_j0 Stop) ] (ex_end Stop None).
Definition c143_again : frame :=
  Frame (SCall c143_j0 (mkCallInputs [] 30000 0xD0 0xD0 0xAA (Transfer 0) CSCall false))
    [ IOp (c143_op OP_SSTORE 0 0xD0 [9; 1] [] c143_j1 c143_j2 Continue);
      IOp (c143_op OP_SSTORE 1 0xD0 [0; 2] [] c143_j2 c143_j2 Continue);
      IOp (c143_op OP_STOP 2 0xD0 [] [] c143_j2 c143_j2 Stop) ] (ex_end Stop None).
Lemma c143_again_ok : evm_addresses c143_again /\ own_leftovers c143_again.
Proof.
  split; [repeat (constructor; cbn; try done)|]. constructor; [|constructor]. cbn [f_start f_body c143_again executing_account leftovers_in].
  split; [intros _ H; vm_compute in H; discriminate H|]. split; [|split; [|done]].
  - intros _ _ j b k had [= <-] [= <- <- <-]. split; [done|]. exists 9. split; vm_compute; reflexivity.
  - intros H. vm_compute in H. discriminate H.
Qed.
Definition c143_db : Db := mkDb (fun _ => Some (Some (mkInfo 100 0 KECCAK_EMPTY None))) (fun _ => None).
Definition c143_state : list (address * Account) :=
  [ (0xC0, mkAccount (mkInfo 107 0 KECCAK_EMPTY None) [(2, mkSlot 4 4)] false false);
    (0xD0, mkAccount (mkInfo 100 0 KECCAK_EMPTY None) [(1, mkSlot 0 9)] false false) ].
Example C143_example :
  env_ok c143_cfg ex_world c143_good /\ evm_addresses c143_good /\ evm_writes ex_world c143_good /\ no_leftover c143_good /\
  (exists s, ti_run (ti_new c143_cfg) (tx_events ex_world c143_good) = Ok s /\
    recorded_changes (length (ti_traces s)) (ti_traces s) 0 = [(0xD0, 1, 9)]) /\
  NoDup (map fst c143_state) /\ stored c143_state c143_good /\
  (evm_addresses c143_again /\ evm_writes ex_world c143_again /\ own_leftovers c143_again /\
   exists s, ti_run (ti_new c143_cfg) (tx_events ex_world c143_again) = Ok s /\
     recorded_changes (length (ti_traces s)) (ti_traces s) 0 = [(0xD0, 1, 9); (0xD0, 1, 9)]) /\
  exists d, populate_state_diff ∅ c143_db c143_state = Some d /\ (df_storage <$> d !! 0xD0) = Some {[1 := DChanged 0 9]}.
Proof.
  split; [by apply env_okb_ok|]. split; [repeat (constructor; cbn; try done)|]. split; [apply c143_writesb_ok; vm_compute; reflexivity|].
  split; [apply c143_leftb_ok; vm_compute; reflexivity|]. split; [eexists; split; [vm_compute; reflexivity|]; vm_compute; reflexivity|].
  split; [apply (bool_decide_eq_true_1 (NoDup _)); vm_compute; reflexivity|].
  split; [|split; [destruct c143_again_ok; split; [done|]; split; [apply c143_writesb_ok; vm_compute; reflexivity|]; split; [done|];
              eexists; split; [vm_compute; reflexivity|]; vm_compute; reflexivity
            |eexists; split; [vm_compute; reflexivity|]; vm_compute; reflexivity]].
  assert (Hch : changes_by c143_good = [(0xD0, 1, 9)]) by (vm_compute; reflexivity). unfold stored. rewrite Hch.
  intros a acc [E|[E|[]]]; injection E as <- <-; cbn [ac_storage c143_state]; (split; [intros k s [[= <- <-]|[]]; vm_compute; reflexivity|]).
  - intros k v. unfold left_in_slot. cbn. by rewrite bool_decide_eq_false_2.
  - intros k v. unfold left_in_slot. cbn. case_bool_decide as E; [|done].
    injection E as <-. eexists. by left.
Qed.
