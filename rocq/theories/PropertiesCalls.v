(** * PropertiesCalls: C111 and C112, selectors and transfers agree with the call tree *)

From Verif Require Import SpecCalls SimpleProofs AgreeProofs TxTraceProofs PropertiesTx PropertiesSimple Examples.
Local Open Scope N_scope.

(** ** The call tree, frame by frame *)

Lemma call_infos_info rr cfg w lg gas g : forall root ok v, (is_delegatecall (f_start g) = false -> v = spec_value (f_start g)) ->
  Forall2 (fun g i => exists root v b, i = spec_info rr cfg w root gas v b g /\
      (is_delegatecall (f_start g) = false -> v = spec_value (f_start g)))
    (frames_of g) (call_infos (spec_calls rr cfg w lg gas root ok v g)).
Proof.
  induction g as [s body e IH] using frame_ind'. intros root ok v Hv. cbn [frames_of spec_calls call_infos].
  set (i := spec_info _ _ _ _ _ _ _ _). assert (Hn : fi_typ i <> "SELFDESTRUCT") by apply kind_name_not_selfdestruct.
  rewrite bool_decide_eq_false_2 by done. cbn [app]. constructor; [by do 3 eexists|].
  clearbody i. clear Hn i Hv. generalize (ok && spec_success (status e)) as ok'. clear ok. intros ok.
  induction body as [|[o|h|g] body IHb]; [constructor|apply IHb; exact IH..|].
  cbn [subs flat_map app] in IH. apply Forall_cons_1 in IH as [Hg IH]. apply Forall2_app; [|by apply IHb].
  apply Hg. intros Hd. unfold call_value. by rewrite Hd.
Qed.

(** ** C111 *)

(** The frame is a message call with this selector and size. *)
Definition selected_frame (sel : list byte) (size : nat) (g : frame) : bool :=
  match f_start g with
  | SCall _ i => bool_decide (take 4 (ci_input i) = sel) && (length (ci_input i) =? 4 + size)%nat
  | SCreate _ _ => false
  end.
Lemma frames_selected sel size w f : forall d,
  length (List.filter (is_call_of sel size) (frame_events w d f)) = length (List.filter (selected_frame sel size) (frames_of f)).
Proof.
  induction f as [s body e IH] using frame_ind'. intros d. cbn [frame_events frames_of List.filter].
  assert (Hs : is_call_of sel size (start_event w d s) = selected_frame sel size (Frame s body e)) by (by destruct s).
  rewrite Hs. set (q := selected_frame _ _ _). clearbody q. clear Hs.
  assert (Hend : is_call_of sel size (end_event w d s e) = false) by (by destruct s).
  rewrite List.filter_app. cbn [List.filter]. rewrite Hend, app_nil_r.
  match goal with |- context [List.filter (is_call_of sel size) ?l] =>
    enough (length (List.filter (is_call_of sel size) l) = length (List.filter (selected_frame sel size) (flat_map frames_of (subs body)))) as E end.
  { assert (Hf : (fix go (l : list item) : list frame := match l with [] => [] | ISub g :: r => frames_of g ++ go r | _ :: r => go r end) body
                 = flat_map frames_of (subs body)).
    { clear. induction body as [|[o|h|g] body IH]; cbn [subs flat_map app]; [done|apply IH..|]. by rewrite IH. }
    rewrite Hf. destruct q; cbn [length]; by rewrite E. }
  induction body as [|[o|h|g] body IHb]; cbn [flat_map subs app] in *; [done| | |].
  - rewrite List.filter_app, app_length, IHb by done.
    assert (List.filter (is_call_of sel size) (instr_events w (S d) o) = []) as ->; [|done].
    unfold instr_events. cbn [List.filter is_call_of]. rewrite List.filter_app. cbn. rewrite app_nil_r.
    induction (op_hooks o) as [|h l IHl]; [done|]. by destruct h.
  - destruct h; by apply IHb.
  - apply Forall_cons_1 in IH as [Hg IH]. rewrite !List.filter_app, !app_length, IHb by done. by rewrite Hg.
Qed.

Lemma selects_same rr cfg w root gas v b g sel size : selects sel size (spec_info rr cfg w root gas v b g) = selected_frame sel size g.
Proof.
  unfold selects, selected_frame, spec_info. cbn [fi_typ fi_input]. destruct (f_start g) as [j i|j i]; cbn [spec_kind spec_input].
  - rewrite bool_decide_true; [done|]. destruct (ci_scheme i); cbn; tauto.
  - rewrite bool_decide_false; [done|]. destruct (cr_scheme i); cbn; intuition discriminate.
Qed.

(** The four-byte frame counts the frames of the call tree, for any options. *)
Theorem C111_selectors :
  forall rr cfg w f s opts gas, env_ok cfg w f -> evm_addresses f ->
  ti_run (ti_new cfg) (tx_events w f) = Ok s -> only_top_call opts <> Some true ->
  exists r fb, geth_call_traces rr (ti_traces s) opts gas = Ok r /\ run fb_handle fb_new (tx_events w f) = Ok fb /\
    (forall sel size, (length sel = 4)%nat ->
       fb_frame fb !! fb_key sel size =
         let n := N.of_nat (length (List.filter (selects sel size) (call_infos (without_selfdestructs r)))) in
         if n =? 0 then None else Some n) /\
    (forall k n, fb_frame fb !! k = Some n -> exists sel size, (length sel = 4)%nat /\ k = fb_key sel size).
Proof.
  intros rr cfg w f s opts gas Henv Ha Hrun Htop.
  destruct (C75_call_tree rr cfg w f s opts gas Henv Ha Hrun Htop) as (r & Hr & H1 & _).
  destruct (C43_fourbyte_counts (tx_events w f)) as (fb & Hfb & Hc & Hk). exists r, fb. split; [done|]. split; [done|]. split; [|done].
  intros sel size Hl. rewrite (Hc sel size Hl), H1. unfold tx_events. rewrite frames_selected. cbn zeta.
  assert (length (List.filter (selected_frame sel size) (frames_of f)) =
    length (List.filter (selects sel size)
      (call_infos (spec_calls rr cfg w (bool_decide (with_log opts = Some true)) gas true true (spec_value (f_start f)) f)))) as ->; [|done].
  pose proof (call_infos_info rr cfg w (bool_decide (with_log opts = Some true)) gas f true true (spec_value (f_start f)) (fun _ => eq_refl)) as H.
  induction H as [|g i gs is_ (root & v & b & -> & _) _ IH]; [done|]. cbn [List.filter]. rewrite selects_same.
  destruct (selected_frame sel size g); cbn [length]; by rewrite IH.
Qed.
Print Assumptions C111_selectors.
Example C111_example :
  env_ok ex_cfg ex_world ex_tx /\ evm_addresses ex_tx /\
  exists s r, ti_run (ti_new ex_cfg) (tx_events ex_world ex_tx) = Ok s /\
    geth_call_traces (fun _ => None) (ti_traces s) (mkCallConfig None None) 99%N = Ok r /\
    map (fun i => (fi_typ i, length (fi_input i))) (call_infos (without_selfdestructs r)) =
      [("CALL", 4); ("DELEGATECALL", 5); ("STATICCALL", 1); ("CREATE", 1); ("CALL", 4); ("CALL", 1)]%nat.
Proof.
  split; [by apply env_okb_ok|]. split.
  - repeat (constructor; cbn; try done). by intros a _ [= <-].
  - do 2 eexists. split; [vm_compute; reflexivity|]. split; vm_compute; reflexivity.
Qed.

(** ** C112 *)

Lemma movements_calls f : forall top, evm_schemes f ->
  List.filter by_call (movements top f) =
    flat_map (fun g => call_movement (f_start g)) (if top then frames_of f else tail (frames_of f)).
Proof.
  induction f as [s body e IH] using frame_ind'. intros top Hev. inversion_clear Hev as [? ? ? Hs Hsubs].
  cbn [movements frames_of]. rewrite !List.filter_app.
  assert (Hcr : List.filter by_call (if top then create_movement s e else []) = []).
  { destruct top; [|done]. destruct s as [j i|j i]; cbn; [done|]. destruct (fe_address e); [|done]. by destruct (cr_scheme i). }
  assert (Hca : List.filter by_call (if top then call_movement s else []) = if top then call_movement s else []).
  { destruct top; [|done]. destruct s as [j i|j i]; cbn; [|done]. destruct (ci_value i) as [v|v]; [|done]. by destruct (0 <? v). }
  rewrite Hcr, Hca, app_nil_r. clear Hcr Hca.
  match goal with |- _ ++ List.filter by_call ?l = _ =>
    enough (List.filter by_call l = flat_map (fun g => call_movement (f_start g)) (flat_map frames_of (subs body))) as E end.
  { assert (Hf : (fix go (l : list item) : list frame := match l with [] => [] | ISub g :: r => frames_of g ++ go r | _ :: r => go r end) body
                 = flat_map frames_of (subs body)).
    { clear. induction body as [|[o|h|g] body IH]; cbn [subs flat_map app]; [done|apply IH..|]. by rewrite IH. }
    rewrite Hf, E. by destruct top. }
  assert (Hh : forall h, List.filter by_call (hook_movement h) = []) by (by intros []).
  clear Hs. revert IH Hsubs. induction body as [|[o|h|g] body IHb]; cbn [flat_map subs app]; intros IH Hsubs; [done| | |].
  - rewrite List.filter_app, IHb by done. assert (List.filter by_call (flat_map hook_movement (op_hooks o)) = []) as ->; [|done].
    induction (op_hooks o) as [|h l IHl]; [done|]. cbn [flat_map]. by rewrite List.filter_app, Hh, IHl.
  - by rewrite List.filter_app, Hh, IHb.
  - apply Forall_cons_1 in IH as [Hg IH]. apply Forall_cons_1 in Hsubs as [Hg' Hsubs].
    rewrite List.filter_app, (Hg true Hg'), IHb by done. by rewrite flat_map_app.
Qed.

Lemma every_frames_of (P : frame -> Prop) f : every_frame P f -> Forall P (frames_of f).
Proof.
  induction f as [s body e IH] using frame_ind'. intros H. inversion_clear H as [? ? ? Hs Hsubs]. cbn [frames_of]. constructor; [done|]. clear Hs.
  induction body as [|[o|h|g] body IHb]; [constructor|by apply IHb..|]. cbn [subs flat_map app] in *.
  apply Forall_cons_1 in IH as [Hg IH]. apply Forall_cons_1 in Hsubs as [Hg' Hsubs].
  apply Forall_app. split; [by apply Hg|by apply IHb].
Qed.

(** The transfers made by calls are those of the call tree, in its order. *)
Theorem C112_transfers :
  forall internal_only rr cfg w f s opts gas, env_ok cfg w f -> evm_addresses f -> evm_schemes f ->
  ti_run (ti_new cfg) (tx_events w f) = Ok s -> only_top_call opts <> Some true ->
  exists r tf, geth_call_traces rr (ti_traces s) opts gas = Ok r /\ run tf_handle (tf_new internal_only) (tx_events w f) = Ok tf /\
    List.filter by_call (moved tf) =
      flat_map sends (let l := call_infos (without_selfdestructs r) in if internal_only then tail l else l).
Proof.
  intros io rr cfg w f s opts gas Henv Ha Hc Hrun Htop.
  destruct (C75_call_tree rr cfg w f s opts gas Henv Ha Hrun Htop) as (r & Hr & H1 & _).
  destruct (C45_transfers_of_transaction io w f) as (tf & Htf & Hm). exists r, tf. split; [done|]. split; [done|].
  rewrite Hm, (movements_calls f (negb io) Hc), H1. cbn zeta.
  pose proof (call_infos_info rr cfg w (bool_decide (with_log opts = Some true)) gas f true true (spec_value (f_start f)) (fun _ => eq_refl)) as H.
  pose proof (every_frames_of _ _ Ha) as Ha'. pose proof (every_frames_of _ _ Hc) as Hc'. cbn beta in Ha', Hc'.
  assert (H' : Forall2 (fun g i => call_movement (f_start g) = sends i) (frames_of f)
    (call_infos (spec_calls rr cfg w (bool_decide (with_log opts = Some true)) gas true true (spec_value (f_start f)) f))).
  { revert Ha' Hc'. induction H as [|g i gs is_ (root & v & b & -> & Hv) _ IH]; intros Ha' Hc'; [constructor|].
    apply Forall_cons_1 in Ha' as [Hga Ha']. apply Forall_cons_1 in Hc' as [Hgc Hc']. constructor; [|by apply IH].
    unfold sends, spec_info. cbn [fi_value fi_to fi_typ fi_from]. unfold spec_address.
    destruct Hga as (_ & Hsd & _). destruct g as [st body e]. cbn [f_start f_body f_end] in *.
    destruct st as [j i|j i].
    - cbn [call_movement spec_kind spec_caller is_delegatecall spec_value] in *. revert Hgc Hv. destruct (ci_scheme i) eqn:Es; intros Hgc Hv.
      + destruct Hgc as (v' & Ev). rewrite Ev in *. rewrite (Hv eq_refl). cbn [spec_call_name].
        destruct (0 <? v'); [|done]. rewrite bool_decide_true by done. do 3 f_equal.
        destruct (last (selfdestructs_of (hooks body))) as [[[x y] z]|] eqn:El; [|cbn [code_address]; by rewrite Es].
        assert (Hin : In (x, y, z) (selfdestructs_of (hooks body))).
        { apply last_Some in El as (l' & ->). apply in_or_app. right. by left. }
        rewrite List.Forall_forall in Hsd. specialize (Hsd _ Hin). cbn in Hsd. by rewrite Hsd.
      + destruct Hgc as (Eb & v' & Ev). rewrite Ev in *. rewrite (Hv eq_refl). cbn [spec_call_name].
        destruct (0 <? v'); [|done]. rewrite bool_decide_false by done. rewrite bool_decide_true by done. by rewrite Eb.
      + destruct Hgc as (v' & Ev). rewrite Ev. cbn [spec_call_name]. destruct (0 <? v); [|done].
        rewrite !bool_decide_false by done. done.
      + rewrite Hgc. done.
    - cbn [call_movement spec_kind]. destruct (cr_scheme i); cbn [spec_call_name]; by destruct (0 <? v). }
  clear -H'. assert (Hfm : forall gs is_, Forall2 (fun g i => call_movement (f_start g) = sends i) gs is_ ->
    flat_map (fun g => call_movement (f_start g)) gs = flat_map sends is_).
  { induction 1 as [|g i gs is_ E _ IH]; [done|]. cbn [flat_map]. by rewrite E, IH. }
  destruct io; cbn [negb]; [|by apply Hfm]. apply Hfm. destruct H'; [constructor|done].
Qed.
Print Assumptions C112_transfers.
Example C112_example :
  env_ok ex_cfg ex_world ex_tx /\ evm_addresses ex_tx /\ evm_schemes ex_tx /\
  exists s r, ti_run (ti_new ex_cfg) (tx_events ex_world ex_tx) = Ok s /\
    geth_call_traces (fun _ => None) (ti_traces s) (mkCallConfig None None) 99%N = Ok r /\
    flat_map sends (call_infos (without_selfdestructs r)) = [(ByCall, 0xAA, 0xC0, 7); (ByCall, 0xC0, 1, 3)].
Proof.
  split; [by apply env_okb_ok|]. split; [|split].
  - repeat (constructor; cbn; try done). by intros a _ [= <-].
  - repeat (constructor; cbn; eauto).
  - do 2 eexists. split; [vm_compute; reflexivity|]. split; vm_compute; reflexivity.
Qed.
