(** * AgreeProofs: facts behind C89 and C90 *)

From Verif Require Import TxTraceProofs.
From Verif Require Export SpecAgree.

(** ** Revert reasons *)

Lemma reason_spec decode out text :
  maybe_revert_reason decode out = Some text <-> text <> "" /\ decodes_to decode out text.
Proof.
  unfold maybe_revert_reason, decodes_to. destruct (decode out) as [[s|s|s]|].
  - destruct s as [|a s]; (split; [|intros [Hn [H|[H|H]]]; congruence]); [done|]. intros [= <-]. split; [done|]. by left.
  - destruct s as [|a s]; (split; [|intros [Hn [H|[H|H]]]; congruence]); [done|]. intros [= <-]. split; [done|]. by right; left.
  - destruct s as [|a s]; (split; [|intros [Hn [H|[H|H]]]; congruence]); [done|]. intros [= <-]. split; [done|]. by right; right.
  - split; [done|]. by intros [_ [H|[H|H]]].
Qed.

Lemma kind_name_not_selfdestruct k : spec_call_name k <> "SELFDESTRUCT".
Proof. by destruct k. Qed.

Lemma call_infos_reasons decode cfg w lg gas g : forall root ok v,
  Forall2 (reason_of decode) (frames_of g) (call_infos (spec_calls (maybe_revert_reason decode) cfg w lg gas root ok v g)).
Proof.
  induction g as [s body e IH] using frame_ind'. intros root ok v. cbn [frames_of spec_calls call_infos].
  set (i := spec_info _ _ _ _ _ _ _ _). assert (Hn : fi_typ i <> "SELFDESTRUCT") by apply kind_name_not_selfdestruct.
  rewrite bool_decide_eq_false_2 by done. cbn [app]. constructor.
  - unfold reason_of. intros text. unfold i, spec_info. cbn [fi_revert_reason f_end].
    destruct (spec_success (status e)); [|rewrite reason_spec; tauto]. split; [done|by intros (? & _)].
  - clearbody i. clear Hn i. generalize (ok && spec_success (status e)) as ok'. clear ok. intros ok.
    induction body as [|[o|h|g] body IHb]; [constructor|apply IHb..|].
    + exact IH.
    + exact IH.
    + cbn [subs flat_map app] in IH. apply Forall_cons_1 in IH as [Hg IH]. apply Forall2_app; [apply Hg|by apply IHb].
Qed.

(** ** The two kinds of call traces *)

Section agree.
Context (rr : bytes -> option string) (cfg : TracingInspectorConfig) (w : world) (lg : bool) (gas : u64).
Context (Hall : exclude_precompile_calls cfg = false).

Lemma entry_same root ok v address_ n g : (root = true -> address_ = []) ->
  same_call (spec_entry w root v address_ n g) (spec_info rr cfg w root gas v ok g).
Proof.
  intros Hroot. destruct g as [s body e]. unfold spec_entry, spec_info, spec_action, spec_output. cbn [f_start f_end].
  assert (Hout : same_output (match ir_output (fe_result e) with [] => None | _ => Some (ir_output (fe_result e)) end) (ir_output (fe_result e))).
  { destruct (ir_output (fe_result e)); [by left|by right]. }
  assert (Hg : address_ <> [] -> (if root then gas else gas_spent e) = frame_gas_used w root e).
  { destruct root; [|done]. by rewrite Hroot. }
  constructor; cbn [tt_action tt_error tt_result tt_address fi_typ fi_from fi_to fi_gas fi_input fi_value fi_error fi_output fi_gas_used].
  - destruct s as [j i|j i]; cbn [is_call spec_kind].
    + by destruct (ci_scheme i).
    + destruct (cr_scheme i); split_and!; try done; (by left) || by right.
  - done.
  - destruct (is_call s); destruct (status e); cbn [spec_success]; try (by eexists); (split; [exact Hout|]); (exact Hg || by split).
Qed.

Lemma not_hidden v s : hidden_call cfg w v s = false.
Proof. unfold hidden_call. by rewrite Hall. Qed.

Lemma traces_calls g : forall root ok v address_, (root = true -> address_ = []) ->
  (forall t, In t (spec_traces cfg w root v address_ g) -> is_call_entry t = true ->
     exists p c, tt_address t = address_ ++ p /\ frame_at (spec_calls rr cfg w lg gas root ok v g) p = Some c /\
       same_call t (cf_info c)) /\
  (forall p c, frame_at (spec_calls rr cfg w lg gas root ok v g) p = Some c ->
     exists t, In t (spec_traces cfg w root v address_ g) /\ is_call_entry t = true /\ tt_address t = address_ ++ p).
Proof.
  induction g as [s body e IH] using frame_ind'. intros root ok v address_ Hroot. cbn [spec_traces spec_calls].
  set (n := length _). set (ok' := ok && _). set (i := spec_info _ _ _ _ _ _ _ _).
  set (traces := fix go (k : nat) (l : list item) : list TransactionTrace :=
    match l with
    | [] => []
    | ISub h :: r =>
        if hidden_call cfg w v (f_start h) then go k r
        else spec_traces cfg w false (call_value v (f_start h)) (address_ ++ [k]) h ++ go (S k) r
    | _ :: r => go k r
    end).
  set (calls := fix go (l : list item) : list CallFrame :=
    match l with
    | [] => []
    | ISub h :: r => spec_calls rr cfg w lg gas false ok' (call_value v (f_start h)) h :: go r
    | _ :: r => go r
    end).
  assert (Hb : forall k,
    (forall t, In t (traces k body) -> is_call_entry t = true ->
       exists m x p c, tt_address t = address_ ++ (k + m) :: p /\ calls body !! m = Some x /\ frame_at x p = Some c /\ same_call t (cf_info c)) /\
    (forall m x p c, calls body !! m = Some x -> frame_at x p = Some c ->
       exists t, In t (traces k body) /\ is_call_entry t = true /\ tt_address t = address_ ++ (k + m) :: p)).
  { clear n i. induction body as [|it body IHb]; intros k; [split; [done|intros m x p c H; done]|].
    destruct it as [o|h|g].
    - exact (IHb IH k).
    - exact (IHb IH k).
    - cbn [subs flat_map app] in IH. apply Forall_cons_1 in IH as [Hg IH]. specialize (IHb IH (S k)) as [H1 H2].
      specialize (Hg false ok' (call_value v (f_start g)) (address_ ++ [k]) ltac:(done)) as [G1 G2].
      assert (Ht : traces k (ISub g :: body) = spec_traces cfg w false (call_value v (f_start g)) (address_ ++ [k]) g ++ traces (S k) body).
      { unfold traces at 1. cbn [app]. by rewrite not_hidden. }
      assert (Hc : calls (ISub g :: body) = spec_calls rr cfg w lg gas false ok' (call_value v (f_start g)) g :: calls body) by done.
      rewrite Ht, Hc. split.
      + intros t Hin Hce. apply in_app_or in Hin as [Hin|Hin].
        * destruct (G1 t Hin Hce) as (p & c & Ha & Hf & Hs). exists 0, (spec_calls rr cfg w lg gas false ok' (call_value v (f_start g)) g), p, c.
          split_and!; try done. rewrite Ha, Nat.add_0_r, <-app_assoc. done.
        * destruct (H1 t Hin Hce) as (m & x & p & c & Ha & Hx & Hf & Hs). exists (S m), x, p, c. split_and!; try done.
          rewrite Ha. do 2 f_equal. lia.
      + intros [|m] x p c Hx Hf; cbn in Hx.
        * injection Hx as <-. destruct (G2 p c Hf) as (t & Hin & Hce & Ha). exists t. split; [apply in_or_app; by left|]. split; [done|].
          rewrite Ha, Nat.add_0_r, <-app_assoc. done.
        * destruct (H2 m x p c Hx Hf) as (t & Hin & Hce & Ha). exists t. split; [apply in_or_app; by right|]. split; [done|].
          rewrite Ha. do 2 f_equal. lia. }
  specialize (Hb 0) as [H1 H2].
  assert (He : exists n', spec_entry w root v address_ n' (Frame s body e) ∈ frame_entries w root v address_ n (Frame s body e) /\
    forall t, t ∈ frame_entries w root v address_ n (Frame s body e) -> is_call_entry t = true -> t = spec_entry w root v address_ n' (Frame s body e)).
  { unfold frame_entries. destruct (refund_of _) as [r|]; [destruct (default _ r) as [target amount]|].
    - exists (S n). split; [left|]. intros t. rewrite elem_of_cons, elem_of_list_singleton. by intros [->| ->].
    - exists n. split; [left|]. intros t. by rewrite elem_of_list_singleton. }
  destruct He as (n' & Hin & Hent). split.
  - intros t Ht Hce. apply in_app_or in Ht as [Ht|Ht].
    + apply elem_of_list_In in Ht. rewrite (Hent t Ht Hce). exists [], (mkCF i (calls body)). rewrite app_nil_r. split; [done|]. split; [done|].
      apply entry_same; done.
    + destruct (H1 t Ht Hce) as (m & x & p & c & Ha & Hx & Hf & Hs). exists (m :: p), c. split; [done|]. split; [|done].
      cbn [frame_at cf_calls]. by rewrite Hx.
  - intros [|m p] c Hf; cbn [frame_at cf_calls] in Hf.
    + exists (spec_entry w root v address_ n' (Frame s body e)). split; [apply in_or_app; left; by apply elem_of_list_In|].
      split; [|by rewrite app_nil_r]. unfold is_call_entry, spec_entry, spec_action. cbn [tt_action]. by destruct (is_call _).
    + destruct (calls body !! m) as [x|] eqn:Hx; [|done]. destruct (H2 m x p c Hx Hf) as (t & Ht & Hce & Ha). exists t.
      split; [apply in_or_app; by right|]. split; [done|]. done.
Qed.
End agree.
