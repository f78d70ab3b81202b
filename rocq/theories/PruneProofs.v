(** * PruneProofs: parity traces with calls left out, and the pruned call tree *)

From Verif Require Import TxTraceProofs AgreeProofs.
From Verif Require Export SpecPrune.

Section prune.
Context (rr : bytes -> option string) (cfg cfg2 : TracingInspectorConfig) (w : world) (lg : bool) (gas : u64).

(** The tree the parity traces of [cfg] are about. *)
Definition seen (c : CallFrame) : CallFrame :=
  if exclude_precompile_calls cfg then without_precompiles (w_precompiles w) c else c.

Definition evm_frame (g : frame) : Prop :=
  (Forall (fun x => fst (fst x) = executing_account (f_start g)) (selfdestructs_of (hooks (f_body g)))) /\
  (selfdestructs_of (hooks (f_body g)) <> [] ->
     w_precompiles w (executing_account (f_start g)) = false /\
     (is_call (f_start g) = true -> w_precompiles w (code_address (f_start g)) = false)) /\
  (spec_kind (f_start g) = KStaticCall -> spec_value (f_start g) = 0%N).

Lemma hidden_frame g v logs : evm_frame g ->
  hidden_call cfg w v (f_start g) = exclude_precompile_calls cfg &&
    precompile_frame (w_precompiles w) (spec_info rr cfg2 w false gas (call_value v (f_start g)) logs g).
Proof.
  intros (H1 & H2 & H3). unfold hidden_call, precompile_frame, spec_info. cbn [fi_typ fi_to fi_value].
  destruct (exclude_precompile_calls cfg); [|done]. cbn [andb].
  assert (Ha : is_call (f_start g) = true -> w_precompiles w (spec_address g) = w_precompiles w (code_address (f_start g))).
  { intros Hc. unfold spec_address. destruct (f_start g) as [j i|j i] eqn:Es; [|done].
    destruct (last (selfdestructs_of (hooks (f_body g)))) as [[[a b] c]|] eqn:El; [|done].
    assert (Hne : selfdestructs_of (hooks (f_body g)) <> []) by (intros E; rewrite E in El; done).
    destruct (H2 Hne) as [H4 H5]. rewrite (H5 Hc). rewrite <-H4. f_equal.
    apply last_Some_elem_of in El. rewrite Forall_forall in H1. apply (H1 _ El). }
  unfold call_value. destruct (f_start g) as [j i|j i] eqn:Es; cbn [is_call] in *.
  - rewrite Ha by done. unfold is_delegatecall, spec_kind in *. cbn [andb].
    destruct (ci_scheme i) eqn:Esc; rewrite bool_decide_eq_true_2 by (vm_compute; set_solver); cbn [andb]; try done.
    rewrite H3 by done. done.
  - cbn [andb]. unfold spec_kind. destruct (cr_scheme i); rewrite bool_decide_eq_false_2; try done; vm_compute; set_solver.
Qed.

Fixpoint seen_calls (ok : bool) (v : U256) (l : list item) : list CallFrame :=
  match l with
  | [] => []
  | ISub h :: r =>
      if hidden_call cfg w v (f_start h) then seen_calls ok v r
      else seen (spec_calls rr cfg2 w lg gas false ok (call_value v (f_start h)) h) :: seen_calls ok v r
  | _ :: r => seen_calls ok v r
  end.

Lemma seen_spec root ok v s body e : Forall evm_frame (subs body) ->
  seen (spec_calls rr cfg2 w lg gas root ok v (Frame s body e)) =
  mkCF (spec_info rr cfg2 w root gas v (lg && (root || ok && spec_success (status e))) (Frame s body e))
    (seen_calls (ok && spec_success (status e)) v body).
Proof.
  intros Hb. cbn [spec_calls]. set (i := spec_info _ _ _ _ _ _ _ _). clearbody i. set (ok' := ok && _). clearbody ok'.
  assert (Hc : forall h, spec_calls rr cfg2 w lg gas false ok' (call_value v (f_start h)) h =
    mkCF (spec_info rr cfg2 w false gas (call_value v (f_start h)) (lg && (ok' && spec_success (status (f_end h)))) h)
      (cf_calls (spec_calls rr cfg2 w lg gas false ok' (call_value v (f_start h)) h))) by (by intros [? ? ?]).
  unfold seen. destruct (exclude_precompile_calls cfg) eqn:Hex.
  - cbn [without_precompiles]. f_equal.
    induction body as [|[o|h|h] body IH]; cbn [seen_calls]; [done|by apply IH..|].
    cbn [subs flat_map app] in Hb. apply Forall_cons_1 in Hb as [Hh Hb].
    rewrite (hidden_frame h v (lg && (ok' && spec_success (status (f_end h)))) Hh). rewrite Hex. cbn [andb].
    assert (cf_info (spec_calls rr cfg2 w lg gas false ok' (call_value v (f_start h)) h) =
      spec_info rr cfg2 w false gas (call_value v (f_start h)) (lg && (ok' && spec_success (status (f_end h)))) h) as <- by (by rewrite Hc).
    destruct (precompile_frame _ _); [by apply IH|]. unfold seen. rewrite Hex. f_equal. by apply IH.
  - f_equal. induction body as [|[o|h|h] body IH]; cbn [seen_calls]; [done|by apply IH..|].
    cbn [subs flat_map app] in Hb. apply Forall_cons_1 in Hb as [Hh Hb].
    rewrite not_hidden by done. unfold seen at 1. rewrite Hex. f_equal. by apply IH.
Qed.

Lemma traces_seen g : every_frame evm_frame g -> forall root ok v address_, (root = true -> address_ = []) ->
  (forall t, In t (spec_traces cfg w root v address_ g) -> is_call_entry t = true ->
     exists p c, tt_address t = address_ ++ p /\ frame_at (seen (spec_calls rr cfg2 w lg gas root ok v g)) p = Some c /\
       same_call t (cf_info c)) /\
  (forall p c, frame_at (seen (spec_calls rr cfg2 w lg gas root ok v g)) p = Some c ->
     exists t, In t (spec_traces cfg w root v address_ g) /\ is_call_entry t = true /\ tt_address t = address_ ++ p).
Proof.
  induction g as [s body e IH] using frame_ind'. intros Hev root ok v address_ Hroot.
  inversion_clear Hev as [? ? ? _ Hev']. 
  assert (Hsub : Forall evm_frame (subs body)).
  { eapply Forall_impl; [exact Hev'|]. intros h Hh. by inversion_clear Hh. }
  rewrite seen_spec by done. clear Hsub. cbn [spec_traces].
  set (n := length _). set (ok' := ok && _). set (i := spec_info _ _ _ _ _ _ _ _).
  set (traces := fix go (k : nat) (l : list item) : list TransactionTrace :=
    match l with
    | [] => []
    | ISub h :: r =>
        if hidden_call cfg w v (f_start h) then go k r
        else spec_traces cfg w false (call_value v (f_start h)) (address_ ++ [k]) h ++ go (S k) r
    | _ :: r => go k r
    end).
  assert (Hb : forall k,
    (forall t, In t (traces k body) -> is_call_entry t = true ->
       exists m x p c, tt_address t = address_ ++ (k + m) :: p /\ seen_calls ok' v body !! m = Some x /\ frame_at x p = Some c /\ same_call t (cf_info c)) /\
    (forall m x p c, seen_calls ok' v body !! m = Some x -> frame_at x p = Some c ->
       exists t, In t (traces k body) /\ is_call_entry t = true /\ tt_address t = address_ ++ (k + m) :: p)).
  { clear n i. induction body as [|it body IHb]; intros k; [split; [done|intros m x p c H; done]|].
    destruct it as [o|h|g].
    - exact (IHb IH Hev' k).
    - exact (IHb IH Hev' k).
    - cbn [subs flat_map app] in IH, Hev'. apply Forall_cons_1 in IH as [Hg IH]. apply Forall_cons_1 in Hev' as [Hevg Hev'].
      specialize (IHb IH Hev').
      specialize (Hg Hevg false ok' (call_value v (f_start g)) (address_ ++ [k]) ltac:(done)) as [G1 G2].
      set (x0 := seen (spec_calls rr cfg2 w lg gas false ok' (call_value v (f_start g)) g)) in *.
      assert (Ht : traces k (ISub g :: body) = if hidden_call cfg w v (f_start g) then traces k body
        else spec_traces cfg w false (call_value v (f_start g)) (address_ ++ [k]) g ++ traces (S k) body) by done.
      assert (Hc : seen_calls ok' v (ISub g :: body) = if hidden_call cfg w v (f_start g) then seen_calls ok' v body
        else x0 :: seen_calls ok' v body) by done.
      rewrite Ht, Hc. destruct (hidden_call cfg w v (f_start g)); [exact (IHb k)|]. specialize (IHb (S k)) as [H1 H2]. split.
      + intros t Hin Hce. apply in_app_or in Hin as [Hin|Hin].
        * destruct (G1 t Hin Hce) as (p & c & Ha & Hf & Hs). exists 0, x0, p, c.
          split_and!; try done. rewrite Ha, Nat.add_0_r, <-app_assoc. done.
        * destruct (H1 t Hin Hce) as (m & x & p & c & Ha & Hx & Hf & Hs). exists (S m), x, p, c. split_and!; try done.
          rewrite Ha. do 2 f_equal. lia.
      + intros [|m] x p c Hx Hf; cbn in Hx.
        * injection Hx as <-. destruct (G2 p c Hf) as (t & Hin & Hce & Ha). exists t. split; [apply in_or_app; by left|]. split; [done|].
          rewrite Ha, Nat.add_0_r, <-app_assoc. done.
        * destruct (H2 m x p c Hx Hf) as (t & Hin & Hce & Ha). exists t. split; [apply in_or_app; by right|]. split; [done|].
          rewrite Ha. do 2 f_equal. lia. }
  specialize (Hb 0) as [H1 H2].
  assert (He : exists n', spec_entry w root v address_ n' (Frame s body e) ∈ frame_entries w root v address_ n (Frame s body e) /\
    forall t, t ∈ frame_entries w root v address_ n (Frame s body e) -> is_call_entry t = true -> t = spec_entry w root v address_ n' (Frame s body e)).
  { unfold frame_entries. destruct (refund_of _) as [r|]; [destruct (default _ r) as [target amount]|].
    - exists (S n). split; [left|]. intros t. rewrite elem_of_cons, elem_of_list_singleton. by intros [->| ->].
    - exists n. split; [left|]. intros t. by rewrite elem_of_list_singleton. }
  destruct He as (n' & Hin & Hent). split.
  - intros t Ht Hce. apply in_app_or in Ht as [Ht|Ht].
    + apply elem_of_list_In in Ht. rewrite (Hent t Ht Hce). exists [], (mkCF i (seen_calls ok' v body)). rewrite app_nil_r. split; [done|]. split; [done|].
      apply entry_same; done.
    + destruct (H1 t Ht Hce) as (m & x & p & c & Ha & Hx & Hf & Hs). exists (m :: p), c. split; [done|]. split; [|done].
      cbn [frame_at cf_calls]. by rewrite Hx.
  - intros [|m p] c Hf; cbn [frame_at cf_calls] in Hf.
    + exists (spec_entry w root v address_ n' (Frame s body e)). split; [apply in_or_app; left; by apply elem_of_list_In|].
      split; [|by rewrite app_nil_r]. unfold is_call_entry, spec_entry, spec_action. cbn [tt_action]. by destruct (is_call _).
    + destruct (seen_calls ok' v body !! m) as [x|] eqn:Hx; [|done]. destruct (H2 m x p c Hx Hf) as (t & Ht & Hce & Ha). exists t.
      split; [apply in_or_app; by right|]. split; [done|]. done.
Qed.
End prune.
