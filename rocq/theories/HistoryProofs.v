(** * HistoryProofs: recording only ever adds, for any hook sequence *)

From Verif Require Import OptionProofs.
From Verif Require Export ExecProofs SpecHistory.

Lemma same_step_refl a : same_step a a.
Proof. by split. Qed.
Lemma same_step_trans a b c : same_step a b -> same_step b c -> same_step a c.
Proof. intros [] []. split; congruence. Qed.

Ltac grown := lazymatch goal with
  | |- exists _, _ = _ ++ _ => first [by exists []; rewrite app_nil_r | by eexists]
  | _ => idtac
  end.

Lemma later_refl n : later_node n n.
Proof. split; try done; grown. intros k x H. exists x. split; [done|apply same_step_refl]. Qed.

Lemma later_trans a b c : later_node a b -> later_node b c -> later_node a c.
Proof.
  intros H1 H2. split; try (destruct H1, H2; congruence).
  - destruct (ln_children _ _ H1) as [l1 E1], (ln_children _ _ H2) as [l2 E2]. exists (l1 ++ l2). by rewrite E2, E1, app_assoc.
  - destruct (ln_logs _ _ H1) as [l1 E1], (ln_logs _ _ H2) as [l2 E2]. exists (l1 ++ l2). by rewrite E2, E1, app_assoc.
  - destruct (ln_ordering _ _ H1) as [l1 E1], (ln_ordering _ _ H2) as [l2 E2]. exists (l1 ++ l2). by rewrite E2, E1, app_assoc.
  - intros k x Hx. destruct (ln_steps _ _ H1 _ _ Hx) as (y & Hy & Hs). destruct (ln_steps _ _ H2 _ _ Hy) as (z & Hz & Ht).
    exists z. split; [done|]. by eapply same_step_trans.
Qed.

Lemma later_arena_refl ns : later_arena ns ns.
Proof. intros i a H. exists a. split; [done|apply later_refl]. Qed.
Lemma later_arena_trans a b c : later_arena a b -> later_arena b c -> later_arena a c.
Proof.
  intros H1 H2 i x Hx. destruct (H1 _ _ Hx) as (y & Hy & L1). destruct (H2 _ _ Hy) as (z & Hz & L2).
  exists z. split; [done|]. by eapply later_trans.
Qed.

Lemma later_insert ns i n n' : ns !! i = Some n -> later_node n n' -> later_arena ns (<[i := n']> ns).
Proof.
  intros Hn Hl j a Ha. destruct (decide (i = j)) as [<-|Hne].
  - exists n'. rewrite Hn in Ha. injection Ha as <-.
    split; [|done]. apply list_lookup_insert. by eapply lookup_lt_Some.
  - exists a. rewrite list_lookup_insert_ne by done. split; [done|apply later_refl].
Qed.

Lemma later_update ns i f ns' :
  (forall n, later_node n (f n)) -> update ns i f = Ok ns' -> later_arena ns ns'.
Proof. intros Hf Hu. apply update_Ok in Hu as (n & Hn & ->). by eapply later_insert. Qed.

Lemma later_app ns l : later_arena ns (ns ++ l).
Proof.
  intros i a Ha. exists a. split; [|apply later_refl]. by rewrite lookup_app_l by (by eapply lookup_lt_Some).
Qed.

Lemma steps_refl (l : list CallTraceStep) :
  forall k x, l !! k = Some x -> exists y, l !! k = Some y /\ same_step x y.
Proof. intros k x H. exists x. split; [done|apply same_step_refl]. Qed.

Lemma later_push_step st n : later_node n (push_step st n).
Proof.
  split; try done; grown. cbn. intros k x H. exists x. split; [|apply same_step_refl].
  by rewrite lookup_app_l by (by eapply lookup_lt_Some).
Qed.
Lemma later_push_log l n : later_node n (push_log l n).
Proof. split; try done; grown. apply steps_refl. Qed.
Lemma later_attach id n : later_node n (attach_child id n).
Proof. split; try done; grown. apply steps_refl. Qed.
Lemma later_mark a b v n : later_node n (mark_selfdestruct a b v n).
Proof. split; try done; grown. apply steps_refl. Qed.
Lemma later_fill b sp r cr n : later_node n (nd_set_trace n (fill_trace b sp r cr (nd_trace n))).
Proof. split; try done; grown. apply steps_refl. Qed.

Lemma fill_step_same cfg i c st st' : fill_step cfg i c st = Ok st' -> same_step st st'.
Proof.
  unfold fill_step. intros H. do 2 inv_bind H. injection H as <-. by split.
Qed.

Lemma later_set_step k st st' n :
  tr_steps (nd_trace n) !! k = Some st -> same_step st st' -> later_node n (set_step k st' n).
Proof.
  intros Hk Hs. split; try done; grown. cbn. intros j x Hx.
  destruct (decide (k = j)) as [<-|Hne].
  - exists st'. rewrite Hk in Hx. injection Hx as <-. split; [|done].
    apply list_lookup_insert. by eapply lookup_lt_Some.
  - exists x. rewrite list_lookup_insert_ne by done. split; [done|apply same_step_refl].
Qed.

Lemma start_trace_later s c a inp v k from g mp s' :
  start_trace_on_call s c a inp v k from g mp = Ok s' -> cx_depth c <> 0 ->
  later_arena (ti_traces s) (ti_traces s').
Proof.
  unfold start_trace_on_call. intros H Hc.
  destruct (match ti_trace_stack s with [] => _ | _ => _ end) as [gl sp].
  inv_bind H. injection H as <-. cbn [ti_traces].
  apply push_trace_Ok in E. destruct E as [n Hd Hn|p pn Hk Hp Hd|p pn Hk Hp Hd]; [done| |apply later_app].
  eapply later_arena_trans; [apply later_app|]. eapply later_insert; [|apply later_attach].
  by rewrite lookup_app_l by (by eapply lookup_lt_Some).
Qed.

Lemma ti_handle_later s e s' r :
  ti_handle s e = Ok (s', r) -> is_root_start e = false -> later_arena (ti_traces s) (ti_traces s').
Proof.
  destruct e as [i c|i c|l c|c i|c i o|c i|c i o|a b v]; cbn [ti_handle is_root_start]; intros H Hd;
    inv_bind H; injection H as <- _.
  - destruct (record_steps _); [|by injection E as <-; apply later_arena_refl]. unfold start_step in E.
    do 2 inv_bind E. destruct (negb _).
    + injection E as <-. apply later_arena_refl.
    + inv_bind E. injection E as <-. cbn. eapply later_update; [|done]. intros. apply later_push_step.
  - destruct (record_steps _); [|by injection E as <-; apply later_arena_refl].
    unfold fill_step_on_step_end in E.
    destruct (ti_step_stack s) as [|[rc ti si] rest]; [done|]. destruct (negb _).
    + injection E as <-. apply later_arena_refl.
    + do 4 inv_bind E. injection E as <-. cbn. apply update_Ok in E3 as (n & Hn & ->).
      apply index_Ok in E0, E1. rewrite Hn in E0. injection E0 as <-.
      eapply later_insert; [done|]. eapply later_set_step; [done|]. by eapply fill_step_same.
  - destruct (record_logs _); [|by injection E as <-; apply later_arena_refl]. unfold on_last_trace in E.
    do 2 inv_bind E. injection E as <-. cbn. eapply later_update; [|done]. intros. apply later_push_log.
  - unfold ti_call in E. destruct (call_from_to i). inv_bind E. eapply start_trace_later; [done|].
    by apply Nat.eqb_neq.
  - unfold fill_trace_on_call_end in E. destruct (ti_trace_stack s) as [|ti rest]; [done|].
    inv_bind E. injection E as <-. cbn. eapply later_update; [|done]. intros. apply later_fill.
  - eapply start_trace_later; [done|]. by apply Nat.eqb_neq.
  - unfold fill_trace_on_call_end in E. destruct (ti_trace_stack s) as [|ti rest]; [done|].
    inv_bind E. injection E as <-. cbn. eapply later_update; [|done]. intros. apply later_fill.
  - unfold on_last_trace in E. do 2 inv_bind E. injection E as <-. cbn.
    eapply later_update; [|done]. intros. apply later_mark.
Qed.

Lemma ti_run_later es : forall s s',
  ti_run s es = Ok s' -> Forall (fun e => is_root_start e = false) es ->
  later_arena (ti_traces s) (ti_traces s').
Proof.
  induction es as [|e es IH]; intros s s' Hr Hf.
  - unfold ti_run, run in Hr. cbn in Hr. injection Hr as <-. apply later_arena_refl.
  - unfold ti_run in Hr. rewrite run_cons in Hr. inv_bind Hr. destruct a as [s1 r]. cbn [fst] in Hr.
    inversion Hf; subst. eapply later_arena_trans; [by eapply ti_handle_later|]. by eapply IH.
Qed.

(** ** Records of ended calls are final *)

Lemma part_events_app w d l1 l2 : part_events w d (l1 ++ l2) = part_events w d l1 ++ part_events w d l2.
Proof. apply flat_map_app. Qed.

Lemma happens_events w d f d' g b a :
  happens w d f d' g b a -> frame_events w d f = b ++ frame_events w d' g ++ a.
Proof.
  induction 1 as [d f|d f s l1 h l2 e d' g b a -> _ IH]; [by rewrite app_nil_r|].
  rewrite frame_events_eq. change (body_events w d) with (part_events w d).
  rewrite part_events_app. cbn [part_events flat_map]. fold (part_events w d l2). rewrite IH.
  cbn [app]. f_equal. rewrite <-!app_assoc. done.
Qed.

Lemma subs_app l1 l2 : subs (l1 ++ l2) = subs l1 ++ subs l2.
Proof. apply flat_map_app. Qed.
Lemma instrs_app l1 l2 : instrs (l1 ++ l2) = instrs l1 ++ instrs l2.
Proof. apply flat_map_app. Qed.

Section final.
Context (cfg : TracingInspectorConfig) (w : world).

(** An open call: its node is on top of the stack, and reachable from the root. *)
Record open_at (s : TracingInspector) (b d : nat) : Prop := {
  oa_cfg : ti_config s = cfg;
  oa_stack : exists rest, ti_trace_stack s = b :: rest;
  oa_node : exists n, ti_traces s !! b = Some n /\ tr_depth (nd_trace n) = d;
  oa_spine : spine (ti_traces s) 0 b }.

Lemma node_after_depth_aux l : forall d v n next,
  tr_depth (nd_trace (node_after cfg w d v n next l)) = tr_depth (nd_trace n).
Proof.
  induction l as [|[o|h|g] l IH]; intros d v n next; cbn [node_after]; [done|..]; rewrite IH.
  - apply apply_instr_depth.
  - apply apply_hook_depth.
  - by destruct (excluded _ _ _ _).
Qed.

(** Running part of the body of an open call only changes its own node, and appends. *)
Lemma part_runs s b d l :
  open_at s b d -> Forall (leaves_ok cfg w) (subs l) -> Forall (frame_ok cfg) (subs l) ->
  Forall (snapshot_safe cfg) (instrs l) ->
  exists s', ti_run s (part_events w d l) = Ok s' /\ open_at s' b d /\
    (forall i n, i <> b -> ti_traces s !! i = Some n -> ti_traces s' !! i = Some n) /\
    length (ti_traces s) <= length (ti_traces s').
Proof.
  intros [Hc [rest Hst] (n & Hn & Hd) Hsp] Hlv Hfo Hio.
  assert (Hb : b < length (ti_traces s)) by (by eapply lookup_lt_Some).
  destruct (run_body cfg w l s b rest n d) as (lr & Hr); try done.
  { apply Forall_forall. intros g _. apply all_frames_run. }
  change (body_events w d) with (part_events w d) in Hr.
  match type of Hr with _ = Ok ?x => exists x end.
  split; [exact Hr|]. split; [split|split]; cbn [ti_config ti_trace_stack ti_traces].
  - done.
  - by eexists.
  - eexists. split; [apply lookup_app_l_Some; by apply list_lookup_insert|].
    rewrite node_after_depth_aux. done.
  - eapply spine_agree; [exact Hsp| |exact Hn|apply lookup_app_l_Some; by apply list_lookup_insert|].
    + intros i Hi. rewrite lookup_app_l by (rewrite insert_length; lia).
      by rewrite list_lookup_insert_ne by lia.
    + apply node_after_depth_aux.
  - intros i m Hi Hm. rewrite lookup_app_l by (rewrite insert_length; by eapply lookup_lt_Some).
    by rewrite list_lookup_insert_ne by done.
  - rewrite app_length, insert_length. lia.
Qed.

Lemma frame_keeps s p d f :
  open_at s p d -> leaves_ok cfg w f -> frame_ok cfg f ->
  exists s', ti_run s (frame_events w (S d) f) = Ok s' /\ open_at s' p d /\
    length (ti_traces s') = length (ti_traces s) + frame_size f.
Proof.
  intros [Hc [rest Hst] (n & Hn & Hd) Hsp] Hlv Hfo.
  assert (Hb : p < length (ti_traces s)) by (by eapply lookup_lt_Some).
  destruct (all_frames_run cfg w f s p rest n d) as (lr & Hr); try done.
  match type of Hr with _ = Ok ?x => exists x end.
  assert (Ht : forall (c : bool) k, tr_depth (nd_trace (if c then n else attach_child k n)) = tr_depth (nd_trace n))
    by (by intros [] k).
  split; [exact Hr|]. split; [split|]; cbn [ti_config ti_trace_stack ti_traces].
  - done.
  - by eexists.
  - eexists. split; [apply lookup_app_l_Some; by apply list_lookup_insert|]. by rewrite Ht.
  - eapply spine_agree; [exact Hsp| |exact Hn|apply lookup_app_l_Some; by apply list_lookup_insert|apply Ht].
    intros i Hi. rewrite lookup_app_l by (rewrite insert_length; lia).
    by rewrite list_lookup_insert_ne by lia.
  - by rewrite app_length, insert_length, map_length, entries_length.
Qed.

Lemma frame_opens s p d s0 body e :
  open_at s p d -> leaves_ok cfg w (Frame s0 body e) -> subs body <> [] ->
  exists s1, ti_run s [start_event w (S d) s0] = Ok s1 /\
    open_at s1 (length (ti_traces s)) (S d) /\ length (ti_traces s1) = S (length (ti_traces s)).
Proof.
  intros [Hc [rest Hst] (pn & Hpn & Hd) Hsp] Hlv Hsub.
  assert (Hp : p < length (ti_traces s)) by (by eapply lookup_lt_Some).
  set (v := tr_value (nd_trace pn)). set (id := length (ti_traces s)).
  assert (Hex : excluded cfg w s0 (Some v) = false).
  { destruct (excluded cfg w s0 (Some v)) eqn:Hex; [|done]. exfalso. apply Hsub.
    apply excluded_spec in Hex as (H1 & H2 & H3).
    specialize (Hlv H1). apply every_frame_inv in Hlv as [Hlv _]. by apply Hlv. }
  unfold ti_run. rewrite (start_event_run cfg w s (S d) s0 (Some v) pn Hc) by eauto.
  rewrite Hex. unfold push_trace.
  rewrite (push_trace_spine _ _ (start_trace cfg w (S d) s0 (Some v)) p pn 0 _ Hsp Hpn) by (cbn; lia).
  cbn [rbind fst snd]. fold id.
  set (n0 := mkNode (Some p) [] id (start_trace cfg w (S d) s0 (Some v)) [] []).
  eexists. split; [reflexivity|].
  assert (Hn0 : (<[p:=attach_child id pn]> (ti_traces s) ++ [n0]) !! id = Some n0).
  { rewrite lookup_app_r by (rewrite insert_length; unfold id; lia).
    rewrite insert_length. unfold id. by rewrite Nat.sub_diag. }
  assert (Hpn1 : (<[p:=attach_child id pn]> (ti_traces s) ++ [n0]) !! p = Some (attach_child id pn)).
  { apply lookup_app_l_Some. by apply list_lookup_insert. }
  split; [split|]; cbn [ti_config ti_trace_stack ti_traces].
  - done.
  - by eexists.
  - exists n0. split; [exact Hn0|done].
  - eapply (spine_snoc _ 0 p (attach_child id pn) id n0); [|exact Hpn1| |done|exact Hn0|cbn; congruence].
    + eapply spine_agree; [exact Hsp| |exact Hpn|exact Hpn1|done].
      intros i Hi. rewrite lookup_app_l by (rewrite insert_length; lia).
      by rewrite list_lookup_insert_ne by lia.
    + cbn. by rewrite last_snoc.
  - rewrite app_length, insert_length. cbn. unfold id. lia.
Qed.

Definition final_in (s : TracingInspector) (b a : list event) (d' : nat) (g : frame) : Prop :=
  exists s1 s2 s3,
    ti_run s b = Ok s1 /\ ti_run s1 (frame_events w d' g) = Ok s2 /\ ti_run s2 a = Ok s3 /\
    length (ti_traces s) <= length (ti_traces s1) /\
    length (ti_traces s2) = length (ti_traces s1) + frame_size g /\
    (forall i n, length (ti_traces s1) <= i -> ti_traces s2 !! i = Some n -> ti_traces s3 !! i = Some n).

(** The part of an open call after its sub-call [h], and its end, leave what is inside [h] alone. *)
Lemma final_step s sA id d s0 l1 h l2 e d' g b a :
  ti_run s [start_event w d s0] = Ok sA -> open_at sA id d -> length (ti_traces sA) = S id ->
  length (ti_traces s) <= S id ->
  leaves_ok cfg w (Frame s0 (l1 ++ ISub h :: l2) e) -> frame_ok cfg (Frame s0 (l1 ++ ISub h :: l2) e) ->
  happens w (S d) h d' g b a ->
  (forall s p, open_at s p d -> final_in s b a d' g) ->
  final_in s (start_event w d s0 :: part_events w d l1 ++ b)
    (a ++ part_events w d l2 ++ [end_event w d s0 e]) d' g.
Proof.
  intros HA HoA HlA Hls Hlv Hfo Hh IH.
  apply leaves_inv in Hlv. apply every_frame_inv in Hfo as [Hio Hfo]. cbn [f_body] in Hio.
  rewrite instrs_app in Hio. apply Forall_app in Hio as [Hio1 Hio2]. cbn [instrs flat_map app] in Hio2.
  rewrite subs_app in Hlv, Hfo. cbn [subs flat_map app] in Hlv, Hfo.
  apply Forall_app in Hlv as [Hlv1 Hlv2]. apply Forall_app in Hfo as [Hfo1 Hfo2].
  inversion_clear Hlv2 as [|? ? Hlvh Hlv2']. inversion_clear Hfo2 as [|? ? Hfoh Hfo2'].
  destruct (part_runs sA id d l1 HoA Hlv1 Hfo1 Hio1) as (sB & HB & HoB & _ & HlB).
  destruct (IH sB id HoB) as (s1 & s2 & s3 & H1 & H2 & H3 & Hl1 & Hl2 & Hfin).
  destruct (frame_keeps sB id d h HoB Hlvh Hfoh) as (s3' & H3' & Ho3 & _).
  assert (s3' = s3) as ->.
  { rewrite (happens_events _ _ _ _ _ _ _ Hh) in H3'. unfold ti_run in *. rewrite run_app, H1 in H3'.
    cbn [rbind] in H3'. rewrite run_app, H2 in H3'. cbn [rbind] in H3'. congruence. }
  destruct (part_runs s3 id d l2 Ho3 Hlv2' Hfo2' Hio2) as (s4 & H4 & Ho4 & Hsame & Hl4).
  destruct Ho4 as [Hc4 [rest Hst4] (n4 & Hn4 & Hd4) _].
  pose proof (end_event_run cfg w s4 d s0 e id rest n4 Hc4 Hst4 Hn4) as H5.
  match type of H5 with _ = Ok ?x => set (s5 := x) in * end.
  exists s1, s2, s5. split; [|split; [done|split; [|split; [lia|split; [done|]]]]].
  - unfold ti_run in *. change (start_event w d s0 :: part_events w d l1 ++ b) with
      ([start_event w d s0] ++ part_events w d l1 ++ b).
    rewrite run_app, HA. cbn [rbind]. rewrite run_app, HB. done.
  - unfold ti_run in *. rewrite run_app, H3. cbn [rbind]. rewrite run_app, H4. done.
  - intros i n Hi Hn. unfold s5. cbn [ti_traces]. rewrite list_lookup_insert_ne by lia.
    apply Hsame; [lia|]. by apply Hfin.
Qed.

Lemma happens_final f : forall dd d' g b a, happens w dd f d' g b a ->
  leaves_ok cfg w f -> frame_ok cfg f ->
  forall d s p, dd = S d -> open_at s p d -> final_in s b a d' g.
Proof.
  intros dd d' g b a H. induction H as [d f|dd f s0 l1 h l2 e d' g b a -> Hh IH]; intros Hlv Hfo d0 s p -> Ho.
  - destruct (frame_keeps s p d0 f Ho Hlv Hfo) as (s2 & H2 & _ & Hl).
    exists s, s2, s2. split; [done|]. split; [done|]. split; [done|]. split; [done|]. split; [done|]. done.
  - destruct (frame_opens s p d0 s0 (l1 ++ ISub h :: l2) e Ho Hlv) as (sA & HA & HoA & HlA).
    { rewrite subs_app. cbn. by destruct (subs l1). }
    eapply (final_step s sA _ (S d0)); [done|exact HoA|done|lia|done|done|exact Hh|].
    intros s' p' Ho'. eapply IH; [| |reflexivity|exact Ho'].
    + apply leaves_inv in Hlv. rewrite subs_app in Hlv. cbn [subs flat_map app] in Hlv.
      apply Forall_app in Hlv as [_ Hlv]. by inversion_clear Hlv.
    + apply every_frame_inv in Hfo as [_ Hfo]. rewrite subs_app in Hfo. cbn [subs flat_map app] in Hfo.
      apply Forall_app in Hfo as [_ Hfo]. by inversion_clear Hfo.
Qed.

Lemma tx_final f d' g b a :
  env_ok cfg w f -> happens w 0 f d' g b a -> 0 < d' -> final_in (ti_new cfg) b a d' g.
Proof.
  intros [Hlv Hfo] H Hd'. inversion H as [|s0 l1 h l2 e ? ? b0 a0 Hf Hh]; subst; [lia|].
  set (n0 := nd_set_trace node_default (start_trace cfg w 0 s0 None)).
  eassert (HA : ti_run (ti_new cfg) [start_event w 0 s0] = Ok _).
  { unfold ti_run. rewrite (start_event_run cfg w (ti_new cfg) 0 s0 None node_default) by done.
    change (push_trace (ti_traces (ti_new cfg)) 0
            (if excluded cfg w s0 None then PushOnly else PushAndAttachToParent) (start_trace cfg w 0 s0 None))
      with (Ok ([n0], 0)). cbn [rbind fst snd]. reflexivity. }
  eapply (final_step (ti_new cfg) _ 0 0); [exact HA| |done|cbn; lia|done|done|exact Hh|].
  - split; cbn [ti_config ti_trace_stack ti_traces].
    + done.
    + by eexists.
    + by exists n0.
    + by eapply (spine_refl _ 0 n0).
  - intros s' p' Ho'. eapply happens_final; [exact Hh| | |reflexivity|exact Ho'].
    + apply leaves_inv in Hlv. rewrite subs_app in Hlv. cbn [subs flat_map app] in Hlv.
      apply Forall_app in Hlv as [_ Hlv]. by inversion_clear Hlv.
    + apply every_frame_inv in Hfo as [_ Hfo]. rewrite subs_app in Hfo. cbn [subs flat_map app] in Hfo.
      apply Forall_app in Hfo as [_ Hfo]. by inversion_clear Hfo.
Qed.
End final.

(** ** One node for every call started *)

Lemma start_trace_count s c a inp v k from g mp s' :
  start_trace_on_call s c a inp v k from g mp = Ok s' -> cx_depth c <> 0 ->
  length (ti_traces s') = S (length (ti_traces s)).
Proof.
  unfold start_trace_on_call. intros H Hc.
  destruct (match ti_trace_stack s with [] => _ | _ => _ end) as [gl sp].
  inv_bind H. injection H as <-. cbn [ti_traces].
  apply push_trace_Ok in E. destruct E as [n Hd Hn|p pn Hk Hp Hd|p pn Hk Hp Hd]; [done|..];
    rewrite ?insert_length, app_length; cbn; lia.
Qed.

Lemma update_length {A} (l l' : list A) i f : update l i f = Ok l' -> length l' = length l.
Proof. intros H. apply update_Ok in H as (a & _ & ->). apply insert_length. Qed.

Lemma ti_handle_count s e s' r :
  ti_handle s e = Ok (s', r) -> is_root_start e = false ->
  length (ti_traces s') = length (ti_traces s) + if is_start e then 1 else 0.
Proof.
  destruct e as [i c|i c|l c|c i|c i o|c i|c i o|a b v]; cbn [ti_handle is_root_start is_start]; intros H Hd;
    inv_bind H; injection H as <- _; rewrite ?Nat.add_0_r.
  - destruct (record_steps _); [|by injection E as <-]. unfold start_step in E.
    do 2 inv_bind E. destruct (negb _).
    + by injection E as <-.
    + inv_bind E. injection E as <-. cbn. by eapply update_length.
  - destruct (record_steps _); [|by injection E as <-].
    unfold fill_step_on_step_end in E.
    destruct (ti_step_stack s) as [|[rc ti si] rest]; [done|]. destruct (negb _).
    + by injection E as <-.
    + do 4 inv_bind E. injection E as <-. cbn. by eapply update_length.
  - destruct (record_logs _); [|by injection E as <-]. unfold on_last_trace in E.
    do 2 inv_bind E. injection E as <-. cbn. by eapply update_length.
  - unfold ti_call in E. destruct (call_from_to i). inv_bind E.
    rewrite (start_trace_count _ _ _ _ _ _ _ _ _ _ E); [lia|]. by apply Nat.eqb_neq.
  - unfold fill_trace_on_call_end in E. destruct (ti_trace_stack s) as [|ti rest]; [done|].
    inv_bind E. injection E as <-. cbn. by eapply update_length.
  - unfold ti_create in E. rewrite (start_trace_count _ _ _ _ _ _ _ _ _ _ E); [lia|]. by apply Nat.eqb_neq.
  - unfold fill_trace_on_call_end in E. destruct (ti_trace_stack s) as [|ti rest]; [done|].
    inv_bind E. injection E as <-. cbn. by eapply update_length.
  - unfold on_last_trace in E. do 2 inv_bind E. injection E as <-. cbn. by eapply update_length.
Qed.

Lemma ti_run_count es : forall s s',
  ti_run s es = Ok s' -> Forall (fun e => is_root_start e = false) es ->
  length (ti_traces s') = length (ti_traces s) + length (List.filter is_start es).
Proof.
  induction es as [|e es IH]; intros s s' Hr Hf.
  - unfold ti_run, run in Hr. cbn in Hr. injection Hr as <-. cbn. lia.
  - unfold ti_run in Hr. rewrite run_cons in Hr. inv_bind Hr. destruct a as [s1 r]. cbn [fst] in Hr.
    inversion Hf; subst. rewrite (IH _ _ Hr) by done. rewrite (ti_handle_count _ _ _ _ E) by done.
    cbn [List.filter]. destruct (is_start e); cbn [length]; lia.
Qed.

(** ** Only the first hook of a transaction starts a top-level call *)

Lemma frame_no_root w f : forall d, Forall (fun e => is_root_start e = false) (frame_events w (S d) f).
Proof.
  induction f as [s body e IH] using frame_ind'. intros d. rewrite frame_events_eq.
  apply Forall_app. split; [|apply Forall_app; split].
  - repeat constructor. by destruct s.
  - change (body_events w (S d)) with (part_events w (S d)). revert IH.
    induction body as [|it l IHl]; intros IH; [constructor|]. cbn [part_events flat_map].
    fold (part_events w (S d) l). apply Forall_app. destruct it as [o|h|g].
    + split; [|by apply IHl]. unfold instr_events. constructor; [done|].
      apply Forall_app. split; [|by repeat constructor]. apply Forall_fmap. apply Forall_true. by intros [].
    + split; [|by apply IHl]. repeat constructor. by destruct h.
    + cbn [subs flat_map app] in IH. inversion_clear IH. split; [done|]. by apply IHl.
  - repeat constructor. by destruct s.
Qed.

Lemma part_no_root w l d : Forall (fun e => is_root_start e = false) (part_events w d l).
Proof.
  induction l as [|it l IHl]; [constructor|]. cbn [part_events flat_map].
  fold (part_events w d l). apply Forall_app. split; [|done]. destruct it as [o|h|g].
  - unfold instr_events. constructor; [done|].
    apply Forall_app. split; [|by repeat constructor]. apply Forall_fmap. apply Forall_true. by intros [].
  - repeat constructor. by destruct h.
  - apply frame_no_root.
Qed.

Lemma tx_no_root w f : Forall (fun e => is_root_start e = false) (tail (tx_events w f)).
Proof.
  destruct f as [s body e]. unfold tx_events. rewrite frame_events_eq. cbn [app tail].
  apply Forall_app. split; [apply part_no_root|]. repeat constructor. by destruct s.
Qed.

Lemma run_prefix {S} (h : inspector S) es1 es2 s s2 :
  run h s (es1 ++ es2) = Ok s2 -> exists s1, run h s es1 = Ok s1 /\ run h s1 es2 = Ok s2.
Proof. rewrite run_app. destruct (run h s es1) as [s1| |]; cbn [rbind]; [|done..]. by eexists. Qed.

Lemma tx_interrupted cfg w f es1 es2 :
  env_ok cfg w f -> tx_events w f = es1 ++ es2 -> es1 <> [] ->
  exists s1 s2, ti_run (ti_new cfg) es1 = Ok s1 /\ ti_run (ti_new cfg) (tx_events w f) = Ok s2 /\
    later_arena (ti_traces s1) (ti_traces s2) /\
    length (ti_traces s1) = length (List.filter is_start es1).
Proof.
  intros He Heq Hne. destruct (tx_layout cfg w f He) as (lr & Hr).
  match type of Hr with _ = Ok ?x => set (s2 := x) in * end.
  pose proof (tx_no_root w f) as Hnr. rewrite Heq in Hr. unfold ti_run in Hr.
  destruct (run_prefix _ _ _ _ _ Hr) as (s1 & H1 & H2).
  exists s1, s2. rewrite Heq. split; [done|]. split; [done|].
  destruct es1 as [|e0 es1]; [done|]. rewrite Heq in Hnr. cbn [app tail] in Hnr.
  apply Forall_app in Hnr as [Hnr1 Hnr2]. split; [by eapply ti_run_later|].
  rewrite run_cons in H1. destruct (ti_handle _ e0) as [[s0 r]| |] eqn:E0; cbn [rbind fst] in H1; [|done..].
  rewrite (ti_run_count _ _ _ H1 Hnr1). cbn [List.filter].
  destruct f as [s body e]. unfold tx_events in Heq. rewrite frame_events_eq in Heq. cbn [app] in Heq.
  injection Heq as <- _.
  assert (Hst : is_start (start_event w 0 s) = true) by (by destruct s). rewrite Hst. cbn [length].
  assert (Hr0 : run ti_handle (ti_new cfg) [start_event w 0 s] = Ok s0)
    by (rewrite run_cons, E0; done).
  rewrite (start_event_run cfg w (ti_new cfg) 0 s None node_default) in Hr0 by done.
  set (n0 := nd_set_trace node_default (start_trace cfg w 0 s None)) in *.
  change (push_trace (ti_traces (ti_new cfg)) 0
            (if excluded cfg w s None then PushOnly else PushAndAttachToParent) (start_trace cfg w 0 s None))
      with (Ok ([n0], 0)) in Hr0. cbn [rbind fst snd] in Hr0. injection Hr0 as <-. done.
Qed.

(** ** Calls that have not ended have no result *)

Definition waiting (ns : list CallTraceNode) (opened : list nat) : Prop :=
  NoDup opened /\ forall i, i ∈ opened -> exists n, ns !! i = Some n /\ without_result (nd_trace n).

Lemma waiting_update ns i f ns' opened :
  (forall n, without_result (nd_trace n) -> without_result (nd_trace (f n))) ->
  update ns i f = Ok ns' -> waiting ns opened -> waiting ns' opened.
Proof.
  intros Hf Hu [Hnd Hw]. apply update_Ok in Hu as (n & Hn & ->). split; [done|].
  intros j Hj. destruct (Hw j Hj) as (m & Hm & Hr). destruct (decide (i = j)) as [<-|Hne].
  - rewrite Hn in Hm. injection Hm as <-. exists (f n). split; [|by apply Hf].
    apply list_lookup_insert. by eapply lookup_lt_Some.
  - exists m. by rewrite list_lookup_insert_ne.
Qed.

Lemma waiting_start s c a inp v k from g mp s' opened :
  start_trace_on_call s c a inp v k from g mp = Ok s' -> cx_depth c <> 0 ->
  ti_trace_stack s = opened -> waiting (ti_traces s) opened ->
  ti_trace_stack s' = length (ti_traces s) :: opened /\
  waiting (ti_traces s') (length (ti_traces s) :: opened).
Proof.
  unfold start_trace_on_call. intros H Hc Hst [Hnd Hw].
  destruct (match ti_trace_stack s with [] => _ | _ => _ end) as [gl sp].
  inv_bind H. injection H as <-. cbn [ti_traces ti_trace_stack]. rewrite Hst.
  set (t := new_trace_of _ _ _ _ _ _ _ _) in E.
  assert (Ht : without_result t) by done. assert (Htd : tr_depth t = cx_depth c) by done.
  assert (Hlt : forall i, i ∈ opened -> i < length (ti_traces s)).
  { intros i Hi. destruct (Hw i Hi) as (n & Hn & _). by eapply lookup_lt_Some. }
  assert (Hnd' : NoDup (length (ti_traces s) :: opened)).
  { constructor; [|done]. intros Hin. apply Hlt in Hin. lia. }
  clearbody t. apply push_trace_Ok in E. destruct E as [n Hd Hn|p pn Hk Hp Hd|p pn Hk Hp Hd]; [congruence|..].
  - split; [done|]. split; [done|]. intros i Hi.
    assert (Hb : exists n, (ti_traces s ++ [mkNode (Some p) [] (length (ti_traces s)) t [] []]) !! i = Some n /\
      without_result (nd_trace n)).
    { apply elem_of_cons in Hi as [->|Hi].
      - rewrite list_lookup_middle by done. by eexists.
      - destruct (Hw i Hi) as (n & Hn & Hr). exists n. by rewrite lookup_app_l by auto. }
    destruct Hb as (n & Hn & Hr). destruct (decide (p = i)) as [<-|Hne].
    + rewrite lookup_app_l, Hp in Hn by (by eapply lookup_lt_Some). injection Hn as <-.
      exists (attach_child (length (ti_traces s)) pn). split; [|done].
      apply list_lookup_insert. rewrite app_length. apply lookup_lt_Some in Hp. lia.
    + exists n. by rewrite list_lookup_insert_ne.
  - split; [done|]. split; [done|]. intros i Hi. apply elem_of_cons in Hi as [->|Hi].
    + rewrite list_lookup_middle by done. by eexists.
    + destruct (Hw i Hi) as (n & Hn & Hr). exists n. by rewrite lookup_app_l by auto.
Qed.

Lemma waiting_end s c r cr s' opened :
  fill_trace_on_call_end s c r cr = Ok s' -> ti_trace_stack s = opened -> waiting (ti_traces s) opened ->
  ti_trace_stack s' = tail opened /\ waiting (ti_traces s') (tail opened).
Proof.
  unfold fill_trace_on_call_end. intros H Hst [Hnd Hw]. rewrite Hst in H.
  destruct opened as [|ti rest]; [done|]. inv_bind H. injection H as <-. cbn [ti_trace_stack ti_traces tail].
  split; [done|]. apply update_Ok in E as (n & Hn & ->). apply NoDup_cons in Hnd as [Hni Hnd].
  split; [done|]. intros i Hi. destruct (Hw i) as (m & Hm & Hr); [by constructor|].
  exists m. rewrite list_lookup_insert_ne; [done|]. by intros ->.
Qed.

Lemma ti_handle_waiting s e s' r opened :
  ti_handle s e = Ok (s', r) -> is_root_start e = false ->
  ti_trace_stack s = opened -> waiting (ti_traces s) opened ->
  let opened' := if is_start e then length (ti_traces s) :: opened else if is_end e then tail opened else opened in
  ti_trace_stack s' = opened' /\ waiting (ti_traces s') opened'.
Proof.
  destruct e as [i c|i c|l c|c i|c i o|c i|c i o|a b v];
    cbn [ti_handle is_root_start is_start is_end]; intros H Hd Hst Hw; inv_bind H; injection H as <- _.
  - destruct (record_steps _); [|by injection E as <-]. unfold start_step in E.
    do 2 inv_bind E. destruct (negb _).
    + by injection E as <-.
    + inv_bind E. injection E as <-. split; [done|]. cbn. eapply waiting_update; [|done..]. intros n [????]. by split.
  - destruct (record_steps _); [|by injection E as <-]. unfold fill_step_on_step_end in E.
    destruct (ti_step_stack s) as [|[rc ti si] rest]; [done|]. destruct (negb _).
    + by injection E as <-.
    + do 4 inv_bind E. injection E as <-. split; [done|]. cbn. eapply waiting_update; [|done..]. intros n [????]. by split.
  - destruct (record_logs _); [|by injection E as <-]. unfold on_last_trace in E.
    do 2 inv_bind E. injection E as <-. split; [done|]. cbn. eapply waiting_update; [|done..]. intros n [????]. by split.
  - unfold ti_call in E. destruct (call_from_to i). inv_bind E. eapply waiting_start; [done| |done..].
    by apply Nat.eqb_neq.
  - by eapply waiting_end.
  - eapply waiting_start; [done| |done..]. by apply Nat.eqb_neq.
  - by eapply waiting_end.
  - unfold on_last_trace in E. do 2 inv_bind E. injection E as <-. split; [done|]. cbn.
    eapply waiting_update; [|done..]. intros n [????]. by split.
Qed.

Lemma ti_run_waiting es : forall s s' opened,
  ti_run s es = Ok s' -> Forall (fun e => is_root_start e = false) es ->
  ti_trace_stack s = opened -> waiting (ti_traces s) opened ->
  ti_trace_stack s' = unended opened (length (ti_traces s)) es /\
  waiting (ti_traces s') (unended opened (length (ti_traces s)) es).
Proof.
  induction es as [|e es IH]; intros s s' opened Hr Hf Hst Hw.
  - unfold ti_run, run in Hr. cbn in Hr. by injection Hr as <-.
  - unfold ti_run in Hr. rewrite run_cons in Hr. inv_bind Hr. destruct a as [s1 r]. cbn [fst] in Hr.
    inversion Hf as [|? ? He Hes]; subst. pose proof (ti_handle_count _ _ _ _ E He) as Hc.
    pose proof (ti_handle_waiting _ _ _ _ _ E He eq_refl Hw) as [Hst' Hw'].
    specialize (IH _ _ _ Hr Hes Hst' Hw'). rewrite Hc in IH. cbn [unended].
    destruct (is_start e); [by rewrite Nat.add_1_r in IH|]. rewrite Nat.add_0_r in IH. by destruct (is_end e).
Qed.

Lemma tx_opened cfg w f es1 es2 s :
  tx_events w f = es1 ++ es2 -> ti_run (ti_new cfg) es1 = Ok s ->
  ti_trace_stack s = unended [] 0 es1 /\ (es1 <> [] -> waiting (ti_traces s) (unended [] 0 es1)).
Proof.
  intros Heq H1. pose proof (tx_no_root w f) as Hnr.
  destruct es1 as [|e0 es1]; [injection H1 as <-; split; [done|by intros []]|]. rewrite Heq in Hnr. cbn [app tail] in Hnr.
  apply Forall_app in Hnr as [Hnr1 _].
  unfold ti_run in H1. rewrite run_cons in H1.
  destruct (ti_handle _ e0) as [[s0 r]| |] eqn:E0; cbn [rbind fst] in H1; [|done..].
  destruct f as [sk body e]. unfold tx_events in Heq. rewrite frame_events_eq in Heq. cbn [app] in Heq.
  injection Heq as <- _.
  assert (Hst : is_start (start_event w 0 sk) = true) by (by destruct sk).
  assert (Hr0 : run ti_handle (ti_new cfg) [start_event w 0 sk] = Ok s0) by (rewrite run_cons, E0; done).
  rewrite (start_event_run cfg w (ti_new cfg) 0 sk None node_default) in Hr0 by done.
  set (n0 := nd_set_trace node_default (start_trace cfg w 0 sk None)) in *.
  change (push_trace (ti_traces (ti_new cfg)) 0
            (if excluded cfg w sk None then PushOnly else PushAndAttachToParent) (start_trace cfg w 0 sk None))
      with (Ok ([n0], 0)) in Hr0. cbn [rbind fst snd] in Hr0. injection Hr0 as <-.
  cbn [unended]. rewrite Hst.
  destruct (ti_run_waiting _ _ _ [0] H1 Hnr1) as [Ha Hb]; [done| |by split]. cbn [ti_traces]. split.
  - apply NoDup_singleton.
  - intros j Hj. apply elem_of_list_singleton in Hj as ->. exists n0. split; [done|]. by split.
Qed.

Lemma tx_unended cfg w f es1 es2 s i :
  env_ok cfg w f -> tx_events w f = es1 ++ es2 -> ti_run (ti_new cfg) es1 = Ok s -> i ∈ unended [] 0 es1 ->
  exists n, ti_traces s !! i = Some n /\ without_result (nd_trace n).
Proof.
  intros _ Heq H1 Hi. destruct (tx_opened _ _ _ _ _ _ Heq H1) as [_ H]. apply H; [|done].
  intros ->. by apply elem_of_nil in Hi.
Qed.

(** ** The instruction in progress *)

Lemma ti_run_hooks hs : forall s s' i is_ n, Forall (fun e => is_hook_event e = true) hs -> ti_run s hs = Ok s' ->
  ti_trace_stack s = i :: is_ -> ti_traces s !! i = Some n ->
  exists n', ti_traces s' !! i = Some n' /\ tr_steps (nd_trace n') = tr_steps (nd_trace n).
Proof.
  induction hs as [|e hs IH]; intros s s' i is_ n Hf Hr Hst Hn.
  - unfold ti_run, run in Hr. cbn in Hr. injection Hr as <-. by exists n.
  - unfold ti_run in Hr. rewrite run_cons in Hr. inv_bind Hr. destruct a as [s1 r]. cbn [fst] in Hr.
    apply Forall_cons_1 in Hf as [He Hf].
    assert (exists n1, ti_trace_stack s1 = i :: is_ /\ ti_traces s1 !! i = Some n1 /\ tr_steps (nd_trace n1) = tr_steps (nd_trace n))
      as (n1 & Hs1 & Hn1 & E1).
    { assert (Hlast : forall f s2, (forall m, tr_steps (nd_trace (f m)) = tr_steps (nd_trace m)) -> on_last_trace s f = Ok s2 ->
        exists n1, ti_trace_stack s2 = i :: is_ /\ ti_traces s2 !! i = Some n1 /\ tr_steps (nd_trace n1) = tr_steps (nd_trace n)).
      { unfold on_last_trace. intros f s2 Hsame E2. inv_bind E2. unfold ti_last_trace_idx in E0. rewrite Hst in E0. cbn in E0. injection E0 as <-.
        inv_bind E2. injection E2 as <-. apply update_Ok in E0 as (m & Hm & ->). rewrite Hn in Hm. injection Hm as <-.
        exists (f n). cbn [ti_traces ti_trace_stack]. split; [done|]. split; [|apply Hsame]. apply list_lookup_insert. by eapply lookup_lt_Some. }
      destruct e; try done; cbn [ti_handle] in E; inv_bind E; injection E as <- _.
      - destruct (record_logs _); [|injection E0 as <-; by exists n]. by apply Hlast in E0.
      - by apply Hlast in E0. }
    destruct (IH _ _ _ _ _ Hf Hr Hs1 Hn1) as (n' & Hn' & E'). exists n'. split; [done|]. by rewrite E', E1.
Qed.

Lemma ti_run_config es : forall s s', ti_run s es = Ok s' -> ti_config s' = ti_config s.
Proof.
  induction es as [|e es IH]; intros s s' Hr.
  - unfold ti_run, run in Hr. cbn in Hr. by injection Hr as <-.
  - unfold ti_run in Hr. rewrite run_cons in Hr. inv_bind Hr. destruct a as [s1 r]. cbn [fst] in Hr.
    rewrite (IH _ _ Hr). by eapply ti_handle_config.
Qed.

Lemma tx_unended_instruction cfg w f es i c hs es2 s :
  tx_events w f = (es ++ EStep i c :: hs) ++ es2 -> Forall (fun e => is_hook_event e = true) hs ->
  ti_run (ti_new cfg) (es ++ EStep i c :: hs) = Ok s ->
  record_steps cfg = true -> should_record_opcode cfg (in_op i) = true ->
  exists t n prev, head (unended [] 0 es) = Some t /\ ti_traces s !! t = Some n /\
    last (tr_steps (nd_trace n)) = Some (new_step cfg prev i c).
Proof.
  intros Heq Hhs Hr Hrec Hop. unfold ti_run in Hr. rewrite run_app in Hr. inv_bind Hr. rename a into s0.
  rewrite <- app_assoc in Heq. destruct (tx_opened cfg _ _ _ _ _ Heq E) as [Hst _].
  assert (Hcfg : ti_config s0 = cfg) by (by apply ti_run_config in E).
  rewrite run_cons in Hr. inv_bind Hr. destruct a as [s1 r]. cbn [fst] in Hr. cbn [ti_handle] in E0.
  rewrite Hcfg, Hrec in E0. inv_bind E0. injection E0 as <- _. unfold start_step in E1.
  inv_bind E1. inv_bind E1. rewrite Hcfg, Hop in E1. cbn [negb] in E1. inv_bind E1. injection E1 as <-.
  unfold ti_last_trace_idx in E0. destruct (ti_trace_stack s0) as [|t ts] eqn:Es; [done|]. cbn in E0. injection E0 as <-.
  apply update_Ok in E3 as (m & Hm & ->). apply index_Ok in E2. rewrite Hm in E2. injection E2 as <-.
  eapply ti_run_hooks in Hr; [|done| |]; cbn [ti_traces ti_trace_stack].
  3: { apply list_lookup_insert. by eapply lookup_lt_Some. }
  2: reflexivity.
  destruct Hr as (n' & Hn' & E'). exists t, n'. eexists. split; [by rewrite <- Hst|]. split; [done|]. rewrite E'.
  cbn [push_step nd_trace tr_set_steps tr_steps]. by rewrite last_snoc.
Qed.
