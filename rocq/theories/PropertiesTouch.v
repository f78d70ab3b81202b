(** * PropertiesTouch: C119, the access list and the recorded steps *)

From Verif Require Import SpecTouch SimpleProofs PartiesProofs PropertiesRecord PropertiesSimple PropertiesTx Examples.
Local Open Scope N_scope.

(** The instructions of the frames are those of the execution. *)
Lemma instrs_of_frames f o : In o (all_instrs f) <-> exists g, In g (frames_of f) /\ In o (instrs (f_body g)).
Proof.
  induction f as [s body e IH] using frame_ind'. cbn [all_instrs frames_of].
  assert (Hf : (fix go (l : list item) : list frame := match l with [] => [] | ISub g :: r => frames_of g ++ go r | _ :: r => go r end) body
               = flat_map frames_of (subs body)).
  { clear. induction body as [|[x|h|g] body IH]; cbn [subs flat_map app]; [done|apply IH..|]. by rewrite IH. }
  rewrite Hf. clear Hf. rewrite in_flat_map. split.
  - intros ([x|h|g] & Hin & Ho); [|done|].
    + destruct Ho as [->|[]]. exists (Frame s body e). split; [by left|]. cbn [f_body]. apply in_flat_map. exists (IOp o). split; [done|by left].
    + assert (Hg : In g (subs body)) by (apply in_flat_map; exists (ISub g); split; [done|by left]).
      rewrite List.Forall_forall in IH. apply (IH g Hg) in Ho as (h & Hh & Ho).
      exists h. split; [|done]. right. apply in_flat_map. by exists g.
  - intros (g & [<-|Hg] & Ho).
    + cbn [f_body] in Ho. apply in_flat_map in Ho as ([x|h|g] & Hin & Ho); [|done|done]. exists (IOp x). by split.
    + apply in_flat_map in Hg as (h & Hh & Hg). rewrite List.Forall_forall in IH.
      apply in_flat_map in Hh as Hh'. destruct Hh' as ([x|y|h'] & Hin & Hh'); [done|done|]. destruct Hh' as [->|[]].
      exists (ISub h). split; [done|]. apply (IH h Hh). by exists g.
Qed.

(** The [step] hooks are those of the instructions. *)
Lemma steps_of_frame w f i : forall d, (exists c, In (EStep i c) (frame_events w d f)) <-> exists o, In o (all_instrs f) /\ op_pre o = i.
Proof.
  induction f as [s body e IH] using frame_ind'. intros d. cbn [frame_events all_instrs]. split.
  - intros (c & [H|H]); [by destruct s|]. apply in_app_or in H as [H|[H|[]]]; [|by destruct s].
    apply in_flat_map in H as ([o|h|g] & Hin & H).
    + exists o. split; [apply in_flat_map; exists (IOp o); split; [done|by left]|].
      unfold instr_events in H. destruct H as [H|H]; [by injection H|].
      apply in_app_or in H as [H|[H|[]]]; [|done]. apply in_map_iff in H as (h & H & _). by destruct h.
    + destruct H as [H|[]]. by destruct h.
    + rewrite List.Forall_forall in IH. assert (Hg : In g (subs body)) by (apply in_flat_map; exists (ISub g); split; [done|by left]).
      destruct (proj1 (IH g Hg (S d)) (ex_intro _ c H)) as (o & Ho & Hi). exists o. split; [|done]. apply in_flat_map. by exists (ISub g).
  - intros (o & Ho & Hi). apply in_flat_map in Ho as ([x|h|g] & Hin & Ho); [|done|].
    + destruct Ho as [->|[]]. eexists. right. apply in_or_app. left. apply in_flat_map. exists (IOp o). split; [done|].
      left. by rewrite Hi.
    + rewrite List.Forall_forall in IH. assert (Hg : In g (subs body)) by (apply in_flat_map; exists (ISub g); split; [done|by left]).
      destruct (proj2 (IH g Hg (S d)) (ex_intro _ o (conj Ho Hi))) as (c & Hc). exists c. right. apply in_or_app. left.
      apply in_flat_map. by exists (ISub g).
Qed.

(** With all steps recorded with their stacks, the recorded steps are the instructions. *)
Lemma recorded_instrs cfg w f s (P : u8 -> address -> option (list U256) -> Prop) :
  env_ok cfg w f -> ti_run (ti_new cfg) (tx_events w f) = Ok s ->
  record_steps cfg = true -> record_opcodes_filter cfg = None -> record_stack_snapshots cfg = SnapFull ->
  (exists st, in_trace s st /\ P (st_op st) (st_contract st) (st_stack st)) <->
  exists i c, In (EStep i c) (tx_events w f) /\ P (in_op i) (in_contract i) (Some (in_stack i)).
Proof.
  intros Henv Hrun Hst Hflt Hsnap.
  assert (Hall : forall l, List.filter (fun o => selected cfg (in_op (op_pre o))) l = l).
  { intros l. induction l as [|o l IH]; [done|]. cbn [List.filter]. unfold selected at 1. rewrite Hst, Hflt. cbn [andb]. by rewrite IH. }
  assert (Hen : forall g, In g (frames_of f) <-> exists i par d, entered None 0 0 f !! i = Some (par, d, g)).
  { intros g. rewrite <-(frames_of_entries f None 0 0 None), <-(entries_entered f None 0 0 None). rewrite in_map_iff. split.
    - intros (x & <- & Hx). apply elem_of_list_In, elem_of_list_lookup in Hx as (i & Hx). exists i. do 2 eexists. rewrite list_lookup_fmap, Hx. reflexivity.
    - intros (i & par & d & Hx). rewrite list_lookup_fmap in Hx. destruct (entries None 0 0 None f !! i) as [x|] eqn:E; [|done].
      cbn in Hx. injection Hx as _ _ <-. exists x. split; [done|]. apply elem_of_list_In. by eapply elem_of_list_lookup_2. }
  assert (Hev : forall i, (exists c, In (EStep i c) (tx_events w f)) <-> exists o, In o (all_instrs f) /\ op_pre o = i) by (intros i; apply steps_of_frame).
  split.
  - intros (st & (n & Hn & Hin) & HP). apply elem_of_list_In, elem_of_list_lookup in Hn as (k & Hn).
    destruct (lookup_lt_is_Some_2 (entered None 0 0 f) k) as ([[par d] g] & Hg).
    { rewrite entered_length, <-(tx_length cfg w f s Henv Hrun). by eapply lookup_lt_Some. }
    pose proof (C06_steps_recorded_once cfg w f s k par d g n Henv Hrun Hg Hn) as H6. rewrite Hall in H6.
    apply elem_of_list_In, elem_of_list_lookup in Hin as (j & Hj).
    destruct (Forall2_lookup_r _ _ _ _ _ H6 Hj) as (o & Ho & Hd).
    destruct (proj2 (Hev (op_pre o))) as (c & Hc).
    { exists o. split; [|done]. apply instrs_of_frames. exists g. split; [apply Hen; eauto|]. apply elem_of_list_In. by eapply elem_of_list_lookup_2. }
    exists (op_pre o), c. split; [done|]. destruct Hd. rewrite sd_op, sd_contract, sd_stack, Hsnap in HP. exact HP.
  - intros (i & c & Hc & HP). destruct (proj1 (Hev i) (ex_intro _ c Hc)) as (o & Ho & <-).
    apply instrs_of_frames in Ho as (g & Hg & Ho). apply Hen in Hg as (k & par & d & Hg).
    destruct (tx_lookup cfg w f s Henv Hrun k _ Hg) as (n & Hn).
    pose proof (C06_steps_recorded_once cfg w f s k par d g n Henv Hrun Hg Hn) as H6. rewrite Hall in H6.
    apply elem_of_list_In, elem_of_list_lookup in Ho as (j & Hj).
    destruct (Forall2_lookup_l _ _ _ _ _ H6 Hj) as (st & Hs & Hd).
    exists st. split; [exists n; split; apply elem_of_list_In; by eapply elem_of_list_lookup_2|].
    destruct Hd. by rewrite sd_op, sd_contract, sd_stack, Hsnap.
Qed.

(** ** C119 *)

(** What the access list holds beyond the request can be read off the recorded steps. *)
Theorem C119_access_list_of_trace :
  forall cfg w f s request from to precompiles al,
  env_ok cfg w f -> ti_run (ti_new cfg) (tx_events w f) = Ok s ->
  record_steps cfg = true -> record_opcodes_filter cfg = None -> record_stack_snapshots cfg = SnapFull ->
  run al_handle (al_new request from to precompiles) (tx_events w f) = Ok al ->
  (forall a, In a (map fst (al_access_list al)) <->
     In a (map fst request) \/
     (exists st k, in_trace s st /\ step_accesses_slot st a k) \/
     ((exists st, in_trace s st /\ step_names_account st a) /\ a <> from /\ a <> to /\ ~ In a precompiles)) /\
  (forall a ks k, In (a, ks) (al_access_list al) ->
     (In k ks <-> (exists rks, last_entry request a rks /\ In k rks) \/ exists st, in_trace s st /\ step_accesses_slot st a k)).
Proof.
  intros cfg w f s request from to pre al Henv Hrun Hst Hflt Hsnap Hal.
  destruct (C40_access_list_exact request from to pre (tx_events w f)) as (al' & Hal' & _ & _ & H1 & H2).
  rewrite Hal in Hal'. injection Hal' as <-.
  assert (Hslot : forall a k, (exists st, in_trace s st /\ step_accesses_slot st a k) <-> exists e, In e (tx_events w f) /\ accesses_slot e a k).
  { intros a k. pose proof (recorded_instrs cfg w f s (fun op c st => (op = 0x54 \/ op = 0x55) /\ c = a /\ exists rest, st = Some (rest ++ [k])) Henv Hrun Hst Hflt Hsnap) as H.
    unfold step_accesses_slot. rewrite H. clear. unfold accesses_slot. split.
    - intros (i & c & Hin & Hop & Hc & rest & Hs). exists (EStep i c). split; [done|]. exists i, c, rest. injection Hs as Hs. done.
    - intros (e & Hin & i & c & rest & -> & Hop & Hc & Hs). exists i, c. rewrite Hs. eauto. }
  assert (Hname : forall a, (exists st, in_trace s st /\ step_names_account st a) <-> exists e, In e (tx_events w f) /\ names_account e a).
  { intros a. pose proof (recorded_instrs cfg w f s (fun op c st => exists x, a = x mod 2 ^ 160 /\
      (In op [0x31; 0x3b; 0x3c; 0x3f; 0xff] /\ (exists rest, st = Some (rest ++ [x])) \/
       In op [0xf1; 0xf2; 0xf4; 0xfa] /\ exists rest top, st = Some (rest ++ [x; top]))) Henv Hrun Hst Hflt Hsnap) as H.
    unfold step_names_account. rewrite H. clear. unfold names_account. split.
    - intros (i & c & Hin & x & Ha & [[Hop (rest & Hs)]|[Hop (rest & top & Hs)]]); injection Hs as Hs;
        exists (EStep i c); (split; [done|]); exists i, c, rest, x; (split; [done|]); (split; [done|]); [left|right]; eauto.
    - intros (e & Hin & i & c & rest & x & -> & Ha & [[Hop Hs]|[Hop (top & Hs)]]); exists i, c; (split; [done|]);
        exists x; (split; [done|]); [left|right]; rewrite Hs; eauto. }
  split.
  - intros a. rewrite H1, Hname. enough ((exists e k, In e (tx_events w f) /\ accesses_slot e a k) <-> exists st k, in_trace s st /\ step_accesses_slot st a k) as -> by done.
    split.
    + intros (e & k & H). destruct (proj2 (Hslot a k) (ex_intro _ e H)) as (st & Hst'). eauto.
    + intros (st & k & H). destruct (proj1 (Hslot a k) (ex_intro _ st H)) as (e & He). eauto.
  - intros a ks k Hin. by rewrite (H2 a ks k Hin), Hslot.
Qed.
Print Assumptions C119_access_list_of_trace.

Example C119_example :
  env_ok cfg_default_geth ex_world ex_tx /\ record_steps cfg_default_geth = true /\
  record_opcodes_filter cfg_default_geth = None /\ record_stack_snapshots cfg_default_geth = SnapFull /\
  (exists s, ti_run (ti_new cfg_default_geth) (tx_events ex_world ex_tx) = Ok s) /\
  match run al_handle (al_new [(0x99, [3])] 0xAA 0xC0 [1]) (tx_events ex_world ex_tx) with
  | Ok al => (length (al_access_list al),
              map (fun x => bool_decide (x ∈ al_access_list al)) [(0x99, [3]); (0xC0, [1]); (0xBB, []); (0, [])])
  | _ => (0%nat, [])
  end = (4%nat, [true; true; true; true]).
Proof.
  split; [apply ex_env|]. do 3 (split; [reflexivity|]). split; [eexists; vm_compute; reflexivity|]. vm_compute. reflexivity.
Qed.
