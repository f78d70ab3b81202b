(** * PartiesProofs: facts behind C93 and C94 *)

From Verif Require Export SpecParties.
From Verif Require Import TxTraceProofs AgreeProofs.

(** ** Called accounts *)

Lemma callee_spec g : every_frame (fun g =>
    Forall (fun l => lg_address l = executing_account (f_start g)) (logs_of (hooks (f_body g))) /\
    Forall (fun x => fst (fst x) = executing_account (f_start g)) (selfdestructs_of (hooks (f_body g))) /\
    (forall a, is_call (f_start g) = false -> fe_address (f_end g) = Some a -> a = executing_account (f_start g))) g ->
  spec_address g = match selfdestructs_of (hooks (f_body g)) with [] => code_address (f_start g) | _ => executing_account (f_start g) end.
Proof.
  intros H. apply every_frame_head in H as (_ & Hsd & Hcr). unfold spec_address.
  assert (Hown : match last (selfdestructs_of (hooks (f_body g))) with Some (a, _, _) => a | None => code_address (f_start g) end =
    match selfdestructs_of (hooks (f_body g)) with [] => code_address (f_start g) | _ => executing_account (f_start g) end).
  { destruct (last _) as [[[a b] v]|] eqn:El.
    - apply last_Some in El as [l El]. rewrite El in Hsd |- *. apply Forall_app in Hsd as [_ Hsd]. inversion_clear Hsd as [|? ? Ha _].
      cbn [fst] in Ha. rewrite Ha. by destruct l.
    - apply last_None in El. by rewrite El. }
  destruct (f_start g) as [j i|j i] eqn:Es; [exact Hown|].
  destruct (fe_address (f_end g)) as [a|] eqn:Ea; [|exact Hown]. rewrite (Hcr a eq_refl eq_refl). cbn. by destruct (selfdestructs_of _).
Qed.

(** What the callee named by a report of frame [g] is. *)
Definition callee_of (g : frame) (a : address) : Prop :=
  (~ destroyed_by_library g -> a = code_address (f_start g)) /\ (destroyed_by_library g -> a = executing_account (f_start g)).

Lemma callee_ok g : evm_addresses g -> callee_of g (spec_address g).
Proof.
  intros H. rewrite (callee_spec g H). unfold callee_of, destroyed_by_library.
  destruct (selfdestructs_of _) as [|x l].
  - split; [done|]. by intros [_ ?].
  - split; [|done]. intros Hn. destruct (decide (executing_account (f_start g) = code_address (f_start g))) as [|Hne]; [done|].
    exfalso. by apply Hn.
Qed.

Lemma traces_callee cfg w g : forall root v address_, evm_addresses g ->
  Forall2 (fun g t => forall a, named_callee t = Some a -> callee_of g a)
    (listed_frames cfg w v g) (List.filter is_call_entry (spec_traces cfg w root v address_ g)) /\
  selfdestruct_actions (spec_traces cfg w root v address_ g) = flat_map destruction_action (listed_frames cfg w v g).
Proof.
  unfold selfdestruct_actions. set (p := fun t : TransactionTrace => _).
  induction g as [s body e IH] using frame_ind'. intros root v address_ Ha. cbn [spec_traces listed_frames flat_map].
  rewrite !List.filter_app, map_app. set (n := length _).
  pose proof (callee_ok _ Ha) as Hc. pose proof (callee_spec _ Ha) as Hcs.
  assert (He : Forall2 (fun g t => forall a, named_callee t = Some a -> callee_of g a) [Frame s body e]
    (List.filter is_call_entry (frame_entries w root v address_ n (Frame s body e))) /\
    map tt_action (List.filter p (frame_entries w root v address_ n (Frame s body e))) = destruction_action (Frame s body e)).
  { unfold frame_entries, destruction_action. 
    assert (Hent : forall k, is_call_entry (spec_entry w root v address_ k (Frame s body e)) = true /\ p (spec_entry w root v address_ k (Frame s body e)) = false /\
      forall a, named_callee (spec_entry w root v address_ k (Frame s body e)) = Some a -> callee_of (Frame s body e) a).
    { intros k. unfold is_call_entry, p, named_callee, spec_entry, spec_action, spec_output. cbn [tt_action tt_result f_start].
      destruct (is_call s).
      - split_and!; [done..|]. by intros a [= <-].
      - split_and!; [done..|]. intros a. destruct (status _); try done; by intros [= <-]. }
    destruct (refund_of _) as [r|] eqn:Er; cbn [List.filter].
    - destruct (default _ r) as [target amount] eqn:Ed. cbn [List.filter].
      destruct (Hent (S n)) as (-> & -> & H). cbn. split; [constructor; [exact H|constructor]|].
      unfold refund_of in Er. cbn [f_body f_end f_start] in Er, Hcs. rewrite Hcs.
      destruct (last _) as [[[a b] c]|] eqn:El.
      + injection Er as <-. injection Ed as -> ->. apply last_Some in El as [l ->]. by destruct l.
      + apply last_None in El. rewrite El. destruct (status e); try discriminate. injection Er as <-. by injection Ed as <- <-.
    - destruct (Hent n) as (-> & -> & H). split; [constructor; [exact H|constructor]|done]. }
  destruct He as [He1 He2]. rewrite He2. clear He2 Hc Hcs.
  change (Frame s body e :: ?l) with ([Frame s body e] ++ l).
  apply every_frame_inv in Ha as [_ Ha]. clearbody n.
  set (trs := fix go (k : nat) (l : list item) : list TransactionTrace := match l with [] => [] | ISub h :: r =>
     if hidden_call cfg w v (f_start h) then go k r else spec_traces cfg w false (call_value v (f_start h)) (address_ ++ [k]) h ++ go (S k) r | _ :: r => go k r end).
  set (frs := fix go (l : list item) : list frame := match l with [] => [] | ISub g :: r =>
     (if hidden_call cfg w v (f_start g) then [] else listed_frames cfg w (call_value v (f_start g)) g) ++ go r | _ :: r => go r end).
  assert (Hb : forall k, Forall2 (fun g t => forall a, named_callee t = Some a -> callee_of g a) (frs body) (List.filter is_call_entry (trs k body)) /\
     map tt_action (List.filter p (trs k body)) = flat_map destruction_action (frs body)).
  { clear He1. induction body as [|[o|h|g] body IHb]; intros k; [split; [constructor|done]|..].
    - exact (IHb IH Ha k).
    - exact (IHb IH Ha k).
    - cbn [subs flat_map app] in IH, Ha. apply Forall_cons_1 in IH as [Hg IH]. apply Forall_cons_1 in Ha as [Hag Ha].
      unfold trs, frs. fold trs. fold frs. destruct (hidden_call cfg w v (f_start g)) eqn:Eh.
      + exact (IHb IH Ha k).
      + destruct (IHb IH Ha (S k)) as [H1 H2]. destruct (Hg false (call_value v (f_start g)) (address_ ++ [k]) Hag) as [G1 G2].
        rewrite !List.filter_app, map_app, flat_map_app. split; [by apply Forall2_app|]. by rewrite G2, H2. }
  destruct (Hb 0) as [H1 H2]. split; [by apply Forall2_app|]. by rewrite H2.
Qed.

Lemma infos_callee rr cfg w lg gas g : forall root ok v, evm_addresses g ->
  Forall2 (fun g i => exists a, fi_to i = Some a /\ callee_of g a) (frames_of g) (call_infos (spec_calls rr cfg w lg gas root ok v g)).
Proof.
  induction g as [s body e IH] using frame_ind'. intros root ok v Ha. cbn [frames_of spec_calls call_infos].
  set (i := spec_info _ _ _ _ _ _ _ _). assert (Hn : fi_typ i <> "SELFDESTRUCT") by apply kind_name_not_selfdestruct.
  rewrite bool_decide_eq_false_2 by done. cbn [app]. constructor.
  - unfold i, spec_info. cbn [fi_to]. eexists. split; [done|]. by apply callee_ok.
  - clearbody i. clear Hn i. generalize (ok && spec_success (status e)) as ok'. clear ok. intros ok.
    apply every_frame_inv in Ha as [_ Ha].
    induction body as [|[o|h|g] body IHb]; [constructor|apply IHb..|].
    + exact IH.
    + exact Ha.
    + exact IH.
    + exact Ha.
    + cbn [subs flat_map app] in IH, Ha. apply Forall_cons_1 in IH as [Hg IH]. apply Forall_cons_1 in Ha as [Hag Ha].
      apply Forall2_app; [by apply Hg|by apply IHb].
Qed.

(** ** Destroyed contracts *)

Section destroyed.
Context (rr : bytes -> option string) (cfg : TracingInspectorConfig) (w : world) (ns : list CallTraceNode) (Ht : arena_tree ns) (logs : bool) (gas : u64).
Notation P_of := (fun i x e => x = info_of rr ns logs gas i /\ e = extra_of ns (ns !! 0) i).

Fixpoint sd_list (l : list CallFrame) : list FrameInfo :=
  match l with [] => [] | x :: l => selfdestruct_infos x ++ sd_list l end.
Lemma sd_eq i calls : selfdestruct_infos (mkCF i calls) = (if bool_decide (fi_typ i = "SELFDESTRUCT") then [i] else []) ++ sd_list calls.
Proof. done. Qed.
Lemma sd_list_app a b : sd_list (a ++ b) = sd_list a ++ sd_list b.
Proof. induction a as [|x a IH]; [done|]. cbn [app sd_list]. by rewrite IH, app_assoc. Qed.
Lemma sd_list_synthetic l : Forall (fun x => fi_typ x = "SELFDESTRUCT") l -> sd_list (map synthetic l) = l.
Proof. induction 1 as [|x l H _ IH]; [done|]. cbn [map sd_list synthetic selfdestruct_infos]. by rewrite bool_decide_eq_true_2, IH. Qed.

Definition next_sd (i : nat) : list FrameInfo := sd_infos (ns !! S i).
Definition own_sd (pos : nat) : list FrameInfo := if pos =? 0 then sd_infos (ns !! 0) else [].

Definition frame_sds (g : frame) : Prop := forall par pos d inh c,
  closed ns pos (pos + frame_size g) -> placed cfg w ns pos (entries par pos d inh g) -> call_tree ns P_of pos c ->
  selfdestruct_infos c ≡ₚ own_sd pos ++ flat_map next_sd (seq pos (frame_size g)).

Lemma info_typ i n : ns !! i = Some n -> fi_typ (info_of rr ns logs gas i) <> "SELFDESTRUCT".
Proof. intros H. unfold info_of. rewrite H. destruct (i =? 0); cbn; by destruct (tr_kind _). Qed.

Lemma frame_sds_all g : frame_sds g.
Proof.
  induction g as [s body e IH] using frame_ind'. intros par pos d inh c Hcl Hpl Hc.
  pose proof (called_by_frame cfg w ns Ht _ _ _ _ _ _ _ Hcl Hpl) as Hcb. rewrite entries_eq in Hpl. apply placed_cons in Hpl as [Hn Hpl].
  inversion Hc as [? info calls extra [-> ->] Hcalls Hx]; subst. rewrite sd_eq, bool_decide_eq_false_2 by (by eapply info_typ).
  cbn [app]. rewrite sd_list_app, sd_list_synthetic by done. rewrite frame_size_eq in Hcl |- *. cbn [seq flat_map].
  unfold extra_of. fold (own_sd pos) (next_sd pos). rewrite Hcb in Hcalls.
  assert (Hb : forall body next v calls, Forall frame_sds (subs body) -> pos < next -> closed ns next (next + subs_size body) ->
     placed cfg w ns next (sub_entries pos d v next body) -> Forall2 (call_tree ns P_of) (sub_positions next body) calls ->
     sd_list calls ≡ₚ flat_map next_sd (seq next (subs_size body))).
  { clear. induction body as [|[o|h|g] r IH]; intros next v calls Hf Hpos Hcl Hpl Hall.
    - cbn in Hall. by inversion Hall.
    - by apply (IH next v).
    - by apply (IH next v).
    - cbn [subs flat_map app] in Hf. fold (subs r) in *. apply Forall_cons_1 in Hf as [Hfg Hfr].
      pose proof (closed_sub cfg w ns _ _ _ _ _ _ _ Hpos Hpl eq_refl Hcl) as Hcg.
      pose proof Hpl as Hpl'. cbn [sub_entries] in Hpl'. apply placed_app in Hpl' as [Hp1 Hp2]. rewrite entries_length in Hp2.
      cbn [sub_positions] in Hall. inversion Hall as [|? c ? cs Hc Hcs]; subst.
      change (subs_size (ISub g :: r)) with (frame_size g + subs_size r) in Hcl |- *. cbn [sd_list]. rewrite seq_app, flat_map_app.
      apply Permutation_app.
      + rewrite (Hfg _ _ _ _ _ Hcg Hp1 Hc). unfold own_sd. by replace (next =? 0) with false by (symmetry; apply Nat.eqb_neq; lia).
      + apply (IH _ v); try done; [lia|]. eapply closed_from; [|shelve]. rewrite <-Nat.add_assoc. exact Hcl. Unshelve. lia. }
  assert (Hcl' : closed ns (S pos) (S pos + subs_size body)).
  { eapply closed_from; [|shelve]. replace (S pos + subs_size body) with (pos + S (subs_size body)) by lia. exact Hcl. Unshelve. lia. }
  rewrite (Hb body (S pos) (value_of s inh) calls IH (Nat.lt_succ_diag_r pos) Hcl' Hpl Hcalls).
  rewrite (Permutation_app_comm (flat_map _ _)), <-app_assoc. done.
Qed.
End destroyed.

Lemma frames_of_entries f : forall par pos d inh, map en_frame (entries par pos d inh f) = frames_of f.
Proof.
  induction f as [s body e IH] using frame_ind'. intros par pos d inh. rewrite entries_eq. cbn [map en_frame frames_of]. f_equal.
  generalize (S pos) as next. generalize (value_of s inh) as v. intros v.
  induction body as [|[o|h|g] body IHb]; intros next; [done|by apply IHb..|].
  cbn [subs flat_map app] in IH. apply Forall_cons_1 in IH as [Hg IH]. cbn [sub_entries]. rewrite map_app, Hg. f_equal. by apply IHb.
Qed.

Lemma flat_map_seq {A B} (h : option A -> list B) (l : list A) : h None = [] ->
  h (l !! 0) ++ flat_map (fun i => h (l !! S i)) (seq 0 (length l)) = flat_map (fun x => h (Some x)) l.
Proof.
  intros Hh. assert (H : forall l, flat_map (fun i => h (l !! i)) (seq 0 (length l)) = flat_map (fun x => h (Some x)) l).
  { clear l. induction l as [|x l IH] using rev_ind; [done|]. rewrite app_length, seq_app, !flat_map_app. cbn [seq length flat_map].
    rewrite app_nil_r, lookup_app_r, Nat.add_0_l, Nat.sub_diag by lia. cbn. rewrite app_nil_r. f_equal. rewrite <-IH. 
    rewrite !flat_map_concat_map. f_equal. apply map_ext_in. intros i Hi%in_seq. by rewrite lookup_app_l by lia. }
  rewrite <-H. destruct l as [|x l]; [cbn; by rewrite Hh|]. cbn [length].
  assert (Hr : flat_map (fun i => h ((x :: l) !! i)) (seq 0 (S (length l))) = h (Some x) ++ flat_map (fun i => h (l !! i)) (seq 0 (length l))).
  { cbn [seq flat_map]. f_equal. by rewrite <-seq_shift, !flat_map_concat_map, map_map. }
  rewrite Hr, seq_S, flat_map_app. cbn [flat_map Nat.add]. change ((x :: l) !! S ?i) with (l !! i).
  replace (l !! length l) with (@None A); [|symmetry; apply lookup_ge_None_2; lia]. by rewrite Hh, !app_nil_r.
Qed.

Theorem tx_destroyed rr cfg w f s opts gas : env_ok cfg w f ->
  ti_run (ti_new cfg) (tx_events w f) = Ok s -> unwrap_or_default_bool (only_top_call opts) = false ->
  exists r, geth_call_traces rr (ti_traces s) opts gas = Ok r /\
    selfdestruct_infos r ≡ₚ flat_map (destruction (fun g => spec_caller (f_start g))) (frames_of f).
Proof.
  intros Henv Hrun Htop. pose proof (run_tree_inv _ _ _ Hrun) as Hinv. pose proof (inv_tree _ Hinv) as Ht.
  destruct (geth_call_traces_ok rr (ti_traces s) Ht opts gas Htop) as (r & Hr & Hc). exists r. split; [done|].
  pose proof (tx_traces _ _ _ _ Henv Hrun) as Hns.
  assert (Hpl : placed cfg w (ti_traces s) 0 (entries None 0 0 None f)).
  { intros k x Hk. rewrite Hns. unfold layout. by rewrite list_lookup_fmap, Nat.add_0_l, Hk. }
  rewrite (frame_sds_all rr cfg w (ti_traces s) Ht (unwrap_or_default_bool (with_log opts)) gas f None 0 0 None r); try done.
  2:{ intros j n p Hj _ _ _. apply lookup_lt_Some in Hj. rewrite (tx_length cfg w f s Henv Hrun) in Hj. lia. }
  unfold own_sd, next_sd. rewrite <-(tx_length cfg w f s Henv Hrun). cbn [Nat.eqb].
  rewrite (flat_map_seq sd_infos (ti_traces s) eq_refl), Hns. unfold layout. rewrite <-(frames_of_entries f None 0 0 None).
  clear. induction (entries None 0 0 None f) as [|x l IH]; [done|]. cbn [map flat_map fmap list_fmap]. apply Permutation_app; [|exact IH].
  cbn [sd_infos]. unfold geth_selfdestruct_call_trace. rewrite (is_selfdestruct_spec cfg w x). unfold destruction.
  destruct (node_of_marks cfg w x) as [_ Hm]. destruct (node_of_static cfg w x) as (_ & _ & _ & _ & Hcaller & _).
  destruct (refund_of (en_frame x)) as [r|] eqn:Er; [|done]. cbn [cf_info].
  rewrite (f_equal fst Hm : tr_selfdestruct_refund_target _ = _), (f_equal snd Hm : tr_selfdestruct_transferred_value _ = _), Hcaller.
  unfold refund_of in Er. destruct (last _) as [[[a b] v]|].
  - injection Er as <-. cbn [fst snd option_map]. by destruct (f_start (en_frame x)) as [j i|j i]; [destruct (ci_scheme i)|].
  - destruct (status _); try discriminate. injection Er as <-. cbn [fst snd option_map].
    by destruct (f_start (en_frame x)) as [j i|j i]; [destruct (ci_scheme i)|].
Qed.
