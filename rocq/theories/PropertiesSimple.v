(** * PropertiesSimple: C13 and C40-C46, the counting and collecting inspectors *)

From Verif Require Import SimpleProofs Examples.
Local Open Scope N_scope.

(** ** C13: what the hooks hand back is what revm's default (no inspector) would hand back *)
Theorem C13_opcode_gas_passive : forall s e s' r, og_handle s e = Ok (s', r) -> r = default_response e.
Proof. intros s [] s' r H; cbn in *; try (destruct (og_step_end s i); cbn in H); congruence. Qed.
Print Assumptions C13_opcode_gas_passive.
Theorem C13_access_list_passive : forall s e, exists s', al_handle s e = Ok (s', default_response e).
Proof. intros s []; eexists; reflexivity. Qed.
Print Assumptions C13_access_list_passive.
Theorem C13_transfer_passive : forall s e, exists s', tf_handle s e = Ok (s', default_response e).
Proof. intros s []; eexists; reflexivity. Qed.
Print Assumptions C13_transfer_passive.
Theorem C13_fourbyte_passive : forall s e, exists s', fb_handle s e = Ok (s', default_response e).
Proof. intros s []; eexists; reflexivity. Qed.
Print Assumptions C13_fourbyte_passive.
Theorem C13_opcount_passive : forall s e, exists s', oc_handle s e = Ok (s', default_response e).
Proof. intros s []; eexists; reflexivity. Qed.
Print Assumptions C13_opcount_passive.

(** ** C40 *)
Theorem C40_access_list_exact :
  forall request from to precompiles es,
  exists s, run al_handle (al_new request from to precompiles) es = Ok s /\
  let out := al_access_list s in
  (** no address twice, keys strictly ascending *)
  NoDup (map fst out) /\
  (forall a ks, In (a, ks) out -> StronglySorted N.lt ks) /\
  (** which addresses *)
  (forall a, In a (map fst out) <->
     In a (map fst request) \/
     (exists e k, In e es /\ accesses_slot e a k) \/
     ((exists e, In e es /\ names_account e a) /\ a <> from /\ a <> to /\ ~ In a precompiles)) /\
  (** which keys *)
  (forall a ks k, In (a, ks) out ->
     (In k ks <-> (exists rks, last_entry request a rks /\ In k rks) \/ exists e, In e es /\ accesses_slot e a k)).
Proof.
  intros request from to pre es. exists (fold_left al_pure es (al_new request from to pre)).
  split; [apply al_run|]. set (s := fold_left al_pure es _). cbn zeta.
  destruct (al_fold es (al_new request from to pre)) as (_ & Hknown & Hkeys). fold s in Hknown, Hkeys.
  assert (Hreq : forall a ss, al_keys (al_new request from to pre) a = Some ss <->
                 exists rks, last_entry request a rks /\ ss = list_to_set rks).
  { intros a ss. unfold al_keys, al_new. cbn [al_list]. rewrite request_fold, lookup_empty. naive_solver. }
  assert (Hfst : forall m a, In a (map fst (al_access_list m)) <-> al_keys m a <> None).
  { intros m a. rewrite in_map_iff. split.
    - intros ([a' ks] & <- & Hin). apply al_output in Hin as (ss & Hs & _). cbn [fst]. congruence.
    - intros Hk. destruct (al_keys m a) as [ss|] eqn:E; [|done]. exists (a, btree_elements ss). split; [done|].
      apply al_output. eauto. }
  split_and!.
  - apply al_output_nodup.
  - intros a ks Hin. apply al_output in Hin as (ss & _ & ->). apply btree_elements_spec.
  - intros a. rewrite Hfst, Hknown. unfold al_new at 2. cbn [al_excluded].
    assert (H1 : al_keys (al_new request from to pre) a <> None <-> In a (map fst request)).
    { rewrite last_entry_in. specialize (Hreq a). destruct (al_keys _ a) as [ss|].
      - split; [|done]. intros _. destruct (proj1 (Hreq ss) eq_refl) as (rks & H & _). by exists rks.
      - split; [done|]. intros [rks H]. pose proof (proj2 (Hreq (list_to_set rks)) (ex_intro _ rks (conj H eq_refl))). done. }
    rewrite H1. assert (H2 : a ∉ (list_to_set (from :: to :: pre) : gset address) <-> a <> from /\ a <> to /\ ~ In a pre).
    { rewrite elem_of_list_to_set, !elem_of_cons, elem_of_list_In. tauto. }
    rewrite H2. tauto.
  - intros a ks k Hin. apply al_output in Hin as (ss & Hs & ->). rewrite (proj1 (btree_elements_spec ss)).
    specialize (Hkeys a k). rewrite Hs in Hkeys. cbn [default] in Hkeys. unfold id in Hkeys. rewrite Hkeys.
    enough (H : k ∈ default ∅ (al_keys (al_new request from to pre) a) <->
            exists rks, last_entry request a rks /\ In k rks) by (by rewrite H).
    specialize (Hreq a). destruct (al_keys _ a) as [s0|]; cbn [default]; unfold id.
    + destruct (proj1 (Hreq s0) eq_refl) as (rks & H & ->). rewrite elem_of_list_to_set, elem_of_list_In.
      split; [by exists rks|]. intros (rks' & H' & Hk).
      pose proof (proj2 (Hreq (list_to_set rks')) (ex_intro _ rks' (conj H' eq_refl))) as [= He].
      by rewrite <-elem_of_list_In, <-(elem_of_list_to_set (C := gset U256)), He, elem_of_list_to_set, elem_of_list_In.
    + split; [set_solver|]. intros (rks & H & _).
      pose proof (proj2 (Hreq (list_to_set rks)) (ex_intro _ rks (conj H eq_refl))). done.
Qed.
Print Assumptions C40_access_list_exact.

Definition al_ex_events : list event :=
  map (fun i => EStep i (ctx_of ex_world 1 ex_j0))
    [ ex_interp OP_SLOAD 0 [7; 4] 100 Continue; ex_interp OP_SSTORE 0 [7; 2] 100 Continue;
      ex_interp OP_BALANCE 0 [0xBEEF] 100 Continue; ex_interp OP_CALL 0 [1; 1; 0xCAFE; 9] 100 Continue;
      ex_interp OP_CALL 0 [1; 1; 0xAA; 9] 100 Continue; ex_interp OP_SLOAD 0 [] 100 Continue ].
Example C40_example :
  match run al_handle (al_new [(0x99, [3; 1]); (0xC0, [5])] 0xAA 0xC0 [1]) al_ex_events with
  | Ok s => (length (al_access_list s),
             map (fun x => bool_decide (x ∈ al_access_list s)) [(0x99, [1; 3]); (0xC0, [2; 4; 5]); (0xBEEF, []); (0xCAFE, [])])
  | _ => (0%nat, [])
  end = (4%nat, [true; true; true; true]).
Proof. vm_compute. reflexivity. Qed.

(** ** C41 *)
Definition C41_statement : Prop :=
  forall request from to precompiles es s a rks k,
  run al_handle (al_new request from to precompiles) es = Ok s -> In (a, rks) request -> In k rks ->
  exists ks, In (a, ks) (al_access_list s) /\ In k ks.
(** A request may name an address twice; only its last entry survives. *)
Theorem C41_refuted : ~ C41_statement.
Proof.
  intros H. destruct (H [(5, [1]); (5, [2])] 0 0 [] [] (al_new [(5, [1]); (5, [2])] 0 0 []) 5 [1] 1) as (ks & Hin & Hk).
  - reflexivity.
  - by left.
  - by left.
  - vm_compute in Hin. destruct Hin as [[= <-]|[]]. destruct Hk as [Hk|[]]. discriminate Hk.
Qed.
Print Assumptions C41_refuted.
(** The last entry for every address is kept, also when addresses repeat; with C40 an earlier one is
    lost unless the last one, or an access, has the key too. *)
Theorem C41_request_kept_partial :
  forall request from to precompiles es s a rks k,
  run al_handle (al_new request from to precompiles) es = Ok s -> last_entry request a rks -> In k rks ->
  exists ks, In (a, ks) (al_access_list s) /\ In k ks.
Proof.
  intros request from to pre es s a rks k Hrun Hin Hk.
  destruct (C40_access_list_exact request from to pre es) as (s' & Hrun' & _ & _ & Ha & Hkk).
  rewrite Hrun in Hrun'. injection Hrun' as <-.
  assert (Hin' : In a (map fst (al_access_list s))).
  { apply Ha. left. apply last_entry_in. by exists rks. }
  apply in_map_iff in Hin' as ([a' ks] & Heq & Hin'). cbn in Heq. subst a'. exists ks. split; [done|].
  eapply Hkk; [done|]. left. eauto.
Qed.
Print Assumptions C41_request_kept_partial.
(** A request that names no address twice is kept whole. *)
Theorem C41_unique_request_kept_partial :
  forall request from to precompiles es s a rks k,
  NoDup (map fst request) ->
  run al_handle (al_new request from to precompiles) es = Ok s -> In (a, rks) request -> In k rks ->
  exists ks, In (a, ks) (al_access_list s) /\ In k ks.
Proof.
  intros request from to pre es s a rks k Hnd Hrun Hin Hk.
  eapply C41_request_kept_partial; [exact Hrun| |exact Hk].
  apply in_split in Hin as (r1 & r2 & ->). exists r1, r2. split; [done|].
  rewrite map_app in Hnd. apply NoDup_app in Hnd as (_ & _ & Hnd). cbn in Hnd.
  apply NoDup_cons in Hnd as [Hnd _]. by rewrite elem_of_list_In in Hnd.
Qed.
Print Assumptions C41_unique_request_kept_partial.
Example C41_example :
  last_entry [(5, [1]); (6, [2]); (5, [3])] 5 [3] /\ In 3 [3] /\
  NoDup (map fst [(5, [1]); (6, [2])]) /\ In (5, [1]) [(5, [1]); (6, [2])] /\ In 1 [1].
Proof.
  split; [by exists [(5, [1]); (6, [2])], []; split; [|intros []]|]. split; [by left|].
  split; [repeat constructor; set_solver|]. split; by left.
Qed.

(** ** C42 *)

(** The full property: whatever is executed, recording goes on and the totals are these. *)
Definition C42_statement : Prop :=
  forall w f, exists s, run og_handle og_new (tx_events w f) = Ok s /\
  forall op, default 0 (og_gas s !! op) = gas_of_steps op (tx_events w f).

(** A call that is given all but 1/64 of the largest gas limit, inside another such call: the gas a [CALL] hands on
    counts as its cost, so the total of [CALL] passes 2^64. *)
Definition og_big (rem : N) (stack : list N) (r : InstructionResult) : Interp :=
  mkInterp OP_CALL 0 0xC0 stack [] [] (mkGas (2 ^ 64 - 1) rem 0%Z) r.
Definition og_big_call (rem : N) (body : list item) : frame :=
  Frame (SCall ex_j0 (mkCallInputs [] rem 0xC0 0xC0 0xAA (Transfer 0) CSCall false)) body (ex_end Stop None).
Definition og_big_op (rem : N) : item :=
  IOp (mkInstr (og_big rem [0; 0; 0; 0; 0; 0; 0] Continue) ex_j0 [] (og_big (rem / 64) [] CallOrCreate) ex_j0).
Definition og_big_tx : frame :=
  og_big_call (2 ^ 64 - 1) [og_big_op (2 ^ 64 - 1); ISub (og_big_call (2 ^ 63) [og_big_op (2 ^ 63); ISub (og_big_call (2 ^ 62) [])])].
Theorem C42_refuted : ~ C42_statement.
Proof.
  intros H. destruct (H ex_world og_big_tx) as (s & Hrun & _).
  assert (run og_handle og_new (tx_events ex_world og_big_tx) = Panic POverflow) as E by (vm_compute; reflexivity).
  rewrite E in Hrun. discriminate.
Qed.
Print Assumptions C42_refuted.

(** Recording stops with an overflow exactly when the total of an opcode reaches 2^64. *)
Theorem C42_overflow_exact :
  forall es, match run og_handle og_new es with
             | Ok s => forall op, gas_of_steps op es < 2 ^ 64
             | Panic p => p = POverflow /\ exists op, 2 ^ 64 <= gas_of_steps op es
             | OutOfFuel => False
             end.
Proof.
  intros es. assert (Hg : forall op, default 0 (og_gas (fold_left og_pure es og_new) !! op) = gas_of_steps op es).
  { intros op. rewrite og_gas_spec. cbn [og_new og_gas og_last pending_gas]. rewrite lookup_empty. cbn. lia. }
  pose proof (og_run es og_new) as H. destruct (run og_handle og_new es) as [s|p|] eqn:E; [|..].
  - intros op. rewrite <-Hg, <-H. eapply og_bounded; [|exact E]. intros o. cbn [og_new og_gas]. rewrite lookup_empty. cbn. lia.
  - destruct H as (-> & op & Hop). split; [done|]. exists op. by rewrite <-Hg.
  - done.
Qed.
Print Assumptions C42_overflow_exact.

Theorem C42_counts_and_gas_partial :
  forall es, (forall op, gas_of_steps op es < 2 ^ 64) ->
  exists s, run og_handle og_new es = Ok s /\
  (forall op, default 0 (og_counts s !! op) = if op_known op then count_steps op es else 0) /\
  (forall op, default 0 (og_gas s !! op) = gas_of_steps op es) /\
  NoDup (map fst (og_iter s)) /\
  (forall op n g, In (op, (n, g)) (og_iter s) <->
     op_known op = true /\ n = count_steps op es /\ n <> 0 /\ g = gas_of_steps op es).
Proof.
  intros es Hsmall. exists (fold_left og_pure es og_new). split.
  { pose proof (og_run es og_new) as H. pose proof (C42_overflow_exact es) as H'. destruct (run og_handle og_new es) as [s|p|]; [by subst| |done].
    destruct H' as (_ & op & Hop). specialize (Hsmall op). lia. }
  set (s := fold_left og_pure es og_new).
  assert (Hc : forall op, default 0 (og_counts s !! op) = if op_known op then count_steps op es else 0).
  { intros op. unfold s. rewrite og_counts_spec. cbn [og_new og_counts]. rewrite lookup_empty. cbn. lia. }
  assert (Hg : forall op, default 0 (og_gas s !! op) = gas_of_steps op es).
  { intros op. unfold s. rewrite og_gas_spec. cbn [og_new og_gas og_last pending_gas]. rewrite lookup_empty. cbn. lia. }
  assert (Hnz : forall op, og_counts s !! op <> Some 0).
  { unfold s. assert (H0 : forall op, og_counts og_new !! op <> Some 0) by (intros op; cbn [og_new og_counts]; by rewrite lookup_empty).
    revert H0. generalize og_new. clear. induction es as [|e es IH]; intros s0 H0; [done|]. cbn [fold_left].
    apply IH. intros op. destruct e; cbn [og_pure]; try apply H0.
    - unfold og_step. destruct (op_known (in_op i)); [|apply H0]. cbn [og_counts]. unfold add_entry.
      destruct (decide (in_op i = op)) as [->|Hne]; [rewrite lookup_insert; intros [= H]; lia|].
      rewrite lookup_insert_ne by done. apply H0.
    - unfold og_pure_end. destruct (og_last s0) as [[]|]; apply H0. }
  split_and!; [done|done|..].
  - unfold og_iter. rewrite map_map. cbn [fst]. apply (NoDup_fst_map_to_list (og_counts s)).
  - intros op n g. unfold og_iter. rewrite in_map_iff. specialize (Hc op). specialize (Hg op). specialize (Hnz op). split.
    + intros ([op' n'] & [= <- <- <-] & Hin). apply elem_of_list_In, elem_of_map_to_list in Hin.
      cbn [fst snd] in *. rewrite Hin in Hc, Hnz. cbn in Hc. unfold id in Hc.
      destruct (op_known op'); [|congruence]. split_and!; try done. congruence.
    + intros (Hk & -> & Hn & ->). exists (op, count_steps op es). cbn [fst snd]. rewrite Hg. split; [done|].
      apply elem_of_list_In, elem_of_map_to_list. rewrite Hk in Hc. destruct (og_counts s !! op) as [n|]; cbn in Hc.
      * unfold id in Hc. by subst.
      * congruence.
Qed.
Print Assumptions C42_counts_and_gas_partial.
(** For a transaction: every instruction of every frame is counted, and charged with the gas it consumed. *)
Theorem C42_transaction_totals :
  forall w f s op, run og_handle og_new (tx_events w f) = Ok s -> op_known op = true ->
  let mine := List.filter (fun o => in_op (op_pre o) =? op) (all_instrs f) in
  default 0 (og_counts s !! op) = N.of_nat (length mine) /\
  default 0 (og_gas s !! op) =
    fold_right (fun o acc => Z.to_N (Z.max 0 (Z.of_N (g_remaining (in_gas (op_pre o))) -
                                              Z.of_N (g_remaining (in_gas (op_post o))))) + acc) 0 mine.
Proof.
  intros w f s op Hrun Hk mine. pose proof (C42_overflow_exact (tx_events w f)) as Hsmall. rewrite Hrun in Hsmall.
  destruct (C42_counts_and_gas_partial (tx_events w f) Hsmall) as (s' & Hrun' & Hc & Hg & _).
  rewrite Hrun in Hrun'. injection Hrun' as <-. rewrite Hc, Hg, Hk. unfold tx_events.
  destruct (frame_contributes w op f Hk 0%nat []) as [H1 H2]. rewrite app_nil_r in H1, H2. rewrite H1, H2.
  unfold sum_costs, instr_cost, is_instr_of. unfold mine. cbn [gas_of_steps]. change (count_steps op []) with 0.
  rewrite !N.add_0_r. done.
Qed.
Print Assumptions C42_transaction_totals.
(** With a gas limit [limit] and few enough instructions, no total gets that far. *)
Theorem C42_ordinary_limits :
  forall w f limit, Forall (fun o => g_remaining (in_gas (op_pre o)) <= limit) (all_instrs f) ->
  N.of_nat (length (all_instrs f)) * limit < 2 ^ 64 ->
  exists s, run og_handle og_new (tx_events w f) = Ok s.
Proof.
  intros w f limit Hall Hlen. destruct (C42_counts_and_gas_partial (tx_events w f)) as (s & Hs & _); [|by exists s].
  intros op. destruct (op_known op) eqn:Hk.
  - unfold tx_events. destruct (frame_contributes w op f Hk 0%nat []) as [H1 _]. rewrite app_nil_r in H1. rewrite H1. cbn [gas_of_steps].
    rewrite N.add_0_r. eapply N.le_lt_trans; [|exact Hlen]. clear -Hall.
    induction Hall as [|o l Ho Hall IH]; [done|]. cbn [List.filter length].
    assert (instr_cost o <= limit) by (unfold instr_cost; lia).
    destruct (is_instr_of op o); cbn [sum_costs fold_right]; fold (sum_costs (List.filter (is_instr_of op) l)); lia.
  - assert (forall es, gas_of_steps op es = 0) as ->; [|lia]. clear -Hk.
    induction es as [|[] es IH]; cbn [gas_of_steps]; try done. rewrite Hk, andb_false_r. lia.
Qed.
Print Assumptions C42_ordinary_limits.
Example C42_limits_example :
  Forall (fun o => g_remaining (in_gas (op_pre o)) <= 30000000) (all_instrs ex_tx) /\
  N.of_nat (length (all_instrs ex_tx)) * 30000000 < 2 ^ 64 /\ length (all_instrs ex_tx) = 13%nat.
Proof.
  split; [|split; vm_compute; reflexivity].
  assert (forallb (fun o => g_remaining (in_gas (op_pre o)) <=? 30000000) (all_instrs ex_tx) = true) as H by (vm_compute; reflexivity).
  apply List.Forall_forall. intros o Ho. apply N.leb_le. by apply (proj1 (forallb_forall _ _) H).
Qed.
Example C42_example : exists s, run og_handle og_new (tx_events ex_world ex_tx) = Ok s /\
  og_counts s !! OP_STOP = Some 2 /\ og_gas s !! OP_STOP = Some 6 /\ op_known OP_STOP = true.
Proof. eexists. split; [vm_compute; reflexivity|]. vm_compute. done. Qed.

(** ** C43 *)
Theorem C43_fourbyte_counts :
  forall es, exists s, run fb_handle fb_new es = Ok s /\
  (** the entry of a selector and size *)
  (forall sel size, (length sel = 4)%nat ->
     fb_frame s !! fb_key sel size =
     let n := N.of_nat (length (List.filter (is_call_of sel size) es)) in if n =? 0 then None else Some n) /\
  (** there are no other entries *)
  (forall k n, fb_frame s !! k = Some n -> exists sel size, (length sel = 4)%nat /\ k = fb_key sel size).
Proof.
  intros es. exists (fold_left fb_pure es fb_new). split; [apply fb_run|]. set (s := fold_left fb_pure es fb_new).
  assert (Hc : forall sel size, (length sel = 4)%nat -> default 0 (fb_inner s !! (sel, size)) =
             N.of_nat (length (List.filter (is_call_of sel size) es))).
  { intros sel size Hl. unfold s. rewrite fb_counts by done. cbn [fb_new fb_inner]. rewrite lookup_empty. cbn. lia. }
  assert (Hk : forall k, fb_inner s !! k <> None -> (length (fst k) = 4)%nat /\ default 0 (fb_inner s !! k) <> 0).
  { apply fb_keys. intros k. cbn [fb_new fb_inner]. by rewrite lookup_empty. }
  set (key := fun kv : list byte * nat * N => fb_key (fst (fst kv)) (snd (fst kv))).
  assert (Hin : forall kv, kv ∈ map_to_list (fb_inner s) -> (length (fst (fst kv)) = 4)%nat).
  { intros [k n] Hin. apply elem_of_map_to_list in Hin. apply (Hk k). by rewrite Hin. }
  assert (Hnd : NoDup (map key (map_to_list (fb_inner s)))).
  { pose proof (NoDup_fst_map_to_list (fb_inner s)) as Hf. revert Hf Hin. generalize (map_to_list (fb_inner s)).
    clear. induction l as [|kv l IH]; intros Hf Hin; [constructor|]. cbn [map fmap list_fmap] in *.
    inversion_clear Hf as [|? ? Hni Hf']. constructor; [|apply IH; [done|]; intros; apply Hin; by right].
    intros Hc. apply elem_of_list_In, in_map_iff in Hc as (kv' & Heq & Hin'). apply elem_of_list_In in Hin'.
    apply Hni. apply elem_of_list_fmap. exists kv'. split; [|done].
    destruct kv as [[s1 n1] c1], kv' as [[s2 n2] c2]. unfold key in Heq. cbn [fst snd] in *.
    apply fb_key_inj in Heq as [<- <-]; [done|].
    transitivity 4%nat; [apply (Hin (s2, n2, c2)); by right|symmetry; apply (Hin (s1, n1, c1)); by left]. }
  assert (Hf : forall k, fb_frame s !! k = match List.find (fun x => bool_decide (key x = k)) (map_to_list (fb_inner s)) with
                                 Some x => Some (snd x) | None => None end).
  { intros k. unfold fb_frame. pose proof (fold_insert_lookup key snd _ Hnd ∅ k) as H. rewrite lookup_empty in H.
    rewrite <-H. done. }
  split.
  - intros sel size Hl. cbn zeta. rewrite Hf. specialize (Hc sel size Hl). rewrite <-Hc.
    destruct (List.find _ _) as [[[s1 n1] c1]|] eqn:E.
    + apply find_some in E as [Hi Hb]. apply elem_of_list_In in Hi. apply bool_decide_eq_true in Hb.
      unfold key in Hb. cbn [fst snd] in *. apply fb_key_inj in Hb as [-> ->]; [|by rewrite Hl; apply (Hin _ Hi)].
      apply elem_of_map_to_list in Hi. destruct (Hk (sel, size)) as [_ Hne]; [by rewrite Hi|]. rewrite Hi in *.
      cbn [default] in *. unfold id in *. destruct (N.eqb_spec c1 0); done.
    + destruct (fb_inner s !! (sel, size)) as [c|] eqn:El; [|done]. exfalso.
      apply elem_of_map_to_list, elem_of_list_In in El.
      pose proof (find_none _ _ E _ El) as Hb. apply bool_decide_eq_false in Hb. by apply Hb.
  - intros k n Hl. rewrite Hf in Hl. destruct (List.find _ _) as [[[s1 n1] c1]|] eqn:E; [|done].
    apply find_some in E as [Hi Hb]. apply elem_of_list_In in Hi. apply bool_decide_eq_true in Hb.
    exists s1, n1. split; [apply (Hin _ Hi)|done].
Qed.
Print Assumptions C43_fourbyte_counts.
(** The text determines selector and size. *)
Theorem C43_keys_never_collide :
  forall s1 n1 s2 n2, (length s1 = 4)%nat -> (length s2 = 4)%nat -> fb_key s1 n1 = fb_key s2 n2 -> s1 = s2 /\ n1 = n2.
Proof. intros. apply fb_key_inj; [congruence|done]. Qed.
Print Assumptions C43_keys_never_collide.
(** ... and is "0x", the selector's eight hex digits, "-", and the size in decimal without leading zeros. *)
Theorem C43_key_text :
  forall sel size, exists hex dec, fb_key sel size = [x30; x78] ++ hex ++ [x2d] ++ dec /\
    hex_decode hex = Some sel /\ dec_parse dec = Some (N.of_nat size) /\
    (hd_error dec = Some x30 -> size = 0%nat /\ dec = [x30]).
Proof.
  intros sel size. exists (hex_encode sel), (dec_text (N.of_nat size)). split_and!; [done| | |].
  - apply hex_encode_decode.
  - apply dec_text_spec.
  - intros H. apply dec_text_no_leading_zero in H. split; [lia|]. by rewrite H.
Qed.
Print Assumptions C43_key_text.
Example C43_example : exists s, run fb_handle fb_new (tx_events ex_world ex_tx) = Ok s /\
  fb_frame s !! txt "0xaabbccdd-0" = Some 1 /\ fb_frame s !! txt "0x01020304-1" = Some 1 /\
  fb_frame s !! txt "0x01020304-0" = None.
Proof. eexists. split; [vm_compute; reflexivity|]. vm_compute. done. Qed.

(** ** C44 *)
Theorem C44_opcount :
  forall es, exists s, run oc_handle oc_new es = Ok s /\
    oc_count s = length (List.filter (fun e => match e with EStep _ _ => true | _ => false end) es).
Proof.
  intros es. set (p := fun s e => match e with EStep _ _ => mkOC (S (oc_count s)) | _ => s end).
  exists (fold_left p es oc_new). split; [apply run_pure; by intros ? []|].
  enough (H : forall s, oc_count (fold_left p es s) =
            (oc_count s + length (List.filter (fun e => match e with EStep _ _ => true | _ => false end) es))%nat)
    by apply H.
  induction es as [|e es IH]; intros s; cbn [fold_left List.filter]; [cbn; lia|]. rewrite IH. destruct e; cbn; lia.
Qed.
Print Assumptions C44_opcount.
Example C44_example : exists s, run oc_handle oc_new (tx_events ex_world ex_tx) = Ok s /\ oc_count s = 13%nat.
Proof. eexists. split; [vm_compute; reflexivity|]. vm_compute. done. Qed.

(** ** C45 *)
Theorem C45_transfers_of_hooks :
  forall internal_only es, exists s, run tf_handle (tf_new internal_only) es = Ok s /\
    moved s = flat_map (hook_movements internal_only) es.
Proof. intros io es. eexists. split; [apply tf_run|]. by rewrite (tf_events io). Qed.
Print Assumptions C45_transfers_of_hooks.
Theorem C45_transfers_of_transaction :
  forall internal_only w f, exists s, run tf_handle (tf_new internal_only) (tx_events w f) = Ok s /\
    moved s = movements (negb internal_only) f.
Proof.
  intros io w f. eexists. split; [apply tf_run|].
  destruct (tf_frame io w f 0%nat (tf_new io) eq_refl) as [_ H]. rewrite andb_true_r in H. exact H.
Qed.
Print Assumptions C45_transfers_of_transaction.
Example C45_example : exists s, run tf_handle (tf_new false) (tx_events ex_world ex_tx) = Ok s /\
  moved s = [(ByCall, 0xAA, 0xC0, 7); (BySelfdestruct, 0xE0, 0xBB, 5); (ByCreate, 0xC0, 0xE0, 5); (ByCall, 0xC0, 1, 3)].
Proof. eexists. split; [vm_compute; reflexivity|]. vm_compute. done. Qed.

(** ** C46 *)
Definition C46_statement : Prop :=
  forall w f s, run tf_handle (tf_new false) (tx_events w f) = Ok s -> moved s = effective_movements true f.
(** Transfers are recorded when the hook fires and never dropped when the frame reverts. *)
Theorem C46_refuted : ~ C46_statement.
Proof.
  intros H. destruct (C45_transfers_of_transaction false ex_world ex_tx) as (s & Hrun & Hm).
  specialize (H _ _ _ Hrun). rewrite Hm in H. vm_compute in H. discriminate H.
Qed.
Print Assumptions C46_refuted.
Theorem C46_transfers_took_effect_partial :
  forall w f s, every_frame (fun g => frame_ok_result (f_end g) = true) f ->
  run tf_handle (tf_new false) (tx_events w f) = Ok s -> moved s = effective_movements true f.
Proof.
  intros w f s Hok Hrun. destruct (C45_transfers_of_transaction false w f) as (s' & Hrun' & Hm).
  rewrite Hrun in Hrun'. injection Hrun' as <-. rewrite Hm. symmetry. by apply effective_all.
Qed.
Print Assumptions C46_transfers_took_effect_partial.
(** Nothing that took effect is missing, whatever reverted. *)
Theorem C46_effective_are_reported :
  forall w f s, run tf_handle (tf_new false) (tx_events w f) = Ok s ->
  effective_movements true f `sublist_of` moved s.
Proof.
  intros w f s Hrun. destruct (C45_transfers_of_transaction false w f) as (s' & Hrun' & Hm).
  rewrite Hrun in Hrun'. injection Hrun' as <-. rewrite Hm. apply effective_sublist.
Qed.
Print Assumptions C46_effective_are_reported.
Example C46_example : every_frame (fun g => frame_ok_result (f_end g) = true) ex_create /\
  effective_movements true ex_create = [(BySelfdestruct, 0xE0, 0xBB, 5); (ByCreate, 0xC0, 0xE0, 5)].
Proof. split; [|done]. constructor; [done|]. constructor. Qed.
