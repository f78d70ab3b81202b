(** * PropertiesDeepText: C151, the written trace of a call is the same at every depth *)

From Verif Require Import TxTextProofs AloneProofs PropertiesTxText PropertiesAlone Examples.
Local Open Scope nat_scope.

Lemma inner_app {A} (a b c p t q d : list A) : a ++ b ++ c ++ (p ++ t ++ q) ++ d = (a ++ b ++ c ++ p) ++ t ++ q ++ d.
Proof. by rewrite <-!app_assoc. Qed.
Lemma inner_app2 {A} (a b c p p' t q' q d : list A) :
  a ++ b ++ c ++ (p ++ (p' ++ t ++ q') ++ q) ++ d = (a ++ b ++ c ++ p ++ p') ++ t ++ q' ++ q ++ d.
Proof. by rewrite <-!app_assoc. Qed.

Section Deep.
  Context (ck : address -> list byte) (colors cheat : bool) (cfg : TracingInspectorConfig) (w w' : world).
  Context (Hw : forall a, w_precompiles w' a = w_precompiles w a).
  Notation text := (call_text ck colors cheat cfg).

  Lemma text_world g : forall v k, text w' false v k g = text w false v k g.
  Proof.
    induction g as [s body e IH] using frame_ind'. intros v k. rewrite !call_text_eq. do 3 f_equal. f_equal.
    induction body as [|[o|h|g] r IHr]; cbn [body_text]; [done|by rewrite IHr..|].
    change (subs (ISub g :: r)) with (g :: subs r) in IH. inversion_clear IH as [|? ? Hg Hr].
    rewrite (AloneProofs.hidden_same cfg w w' Hw), Hg, IHr by done. done.
  Qed.
  Lemma body_world v k body : body_text ck colors cheat cfg w' v k body = body_text ck colors cheat cfg w v k body.
  Proof.
    induction body as [|[o|h|g] r IHr]; cbn [body_text]; [done|by rewrite IHr..|].
    by rewrite (AloneProofs.hidden_same cfg w w' Hw), text_world, IHr.
  Qed.
  Lemma text_root g v k : exists x y rest,
    text w false v k g = spec_branch k ++ txt "[" ++ dec_text x ++ txt "] " ++ rest /\
    text w' true v k g = spec_branch k ++ txt "[" ++ dec_text y ++ txt "] " ++ rest.
  Proof.
    destruct g as [s body e]. rewrite !call_text_eq, body_world. unfold first_line. rewrite <-!app_assoc. do 3 eexists. split; reflexivity.
  Qed.
  Lemma body_within v k body h : In h (subs body) -> hidden_call cfg w v (f_start h) = false -> exists pre post,
    body_text ck colors cheat cfg w v k body = pre ++ text w false (call_value v (f_start h)) k h ++ post.
  Proof.
    intros Hin Hh. induction body as [|[o|x|g] r IH]; cbn [body_text]; [done|..].
    - destruct (IH Hin) as (pre & post & ->). eexists (_ ++ pre), post. by rewrite <-app_assoc.
    - destruct (IH Hin) as (pre & post & ->). eexists (_ ++ pre), post. by rewrite <-app_assoc.
    - change (subs (ISub g :: r)) with (g :: subs r) in Hin. destruct Hin as [->|Hin].
      + rewrite Hh. exists []. eexists. reflexivity.
      + destruct (IH Hin) as (pre & post & ->). destruct (hidden_call cfg w v (f_start g)); [eauto|].
        eexists (_ ++ pre), post. by rewrite <-app_assoc.
  Qed.
  Lemma subs_deep body h : In h (subs body) -> nesting h <= subs_nesting body.
  Proof.
    induction body as [|[o|x|g] r IH]; cbn [subs_nesting]; [done|apply IH..|].
    change (subs (ISub g :: r)) with (g :: subs r). intros [->|H]; [lia|]. specialize (IH H). lia.
  Qed.
  Lemma text_within v f u g : made cfg w v f u g -> exists n, 0 < n /\ n + nesting g <= nesting f /\ forall root k, exists pre post,
    text w root v k f = pre ++ text w false u (k + N.of_nat n) g ++ post.
  Proof.
    induction 1 as [v s body e g Hin Hh|v s body e h u g Hin Hh _ IH].
    - exists 1. rewrite nesting_eq. pose proof (subs_deep _ _ Hin). split; [lia|]. split; [lia|]. intros root k.
      rewrite call_text_eq. destruct (body_within v (k + 1)%N body g Hin Hh) as (pre & post & ->).
      do 2 eexists. apply inner_app.
    - destruct IH as (n & Hn & Hd & IH). exists (S n). rewrite nesting_eq. pose proof (subs_deep _ _ Hin). split; [lia|]. split; [lia|]. intros root k.
      rewrite call_text_eq. destruct (body_within v (k + 1)%N body h Hin Hh) as (pre & post & ->).
      destruct (IH false (k + 1)%N) as (pre' & post' & ->). replace (k + 1 + N.of_nat n)%N with (k + N.of_nat (S n))%N by lia.
      do 2 eexists. apply inner_app2.
  Qed.
End Deep.

(** The call [g] made anywhere in the transaction [f], and [g] as a transaction of its own: the text written of the second
    from the indentation level of the call is found in the text of the first, apart from the gas in its first line. *)
Theorem C151_text :
  forall ck cfg w w' f g u s s' wr,
  env_ok cfg w f -> evm_refund f -> evm_refund g -> (forall a, w_precompiles w' a = w_precompiles w a) ->
  made cfg w (spec_value (f_start f)) f u g -> u = spec_value (f_start g) ->
  ti_run (ti_new cfg) (tx_events w f) = Ok s -> ti_run (ti_new cfg) (tx_events w' g) = Ok s' ->
  tw_budget wr = None -> (tw_level wr + N.of_nat (nesting f) <= 65535)%N ->
  exists n a b result pre x y rest post, 0 < n /\
    write_arena ck (ti_traces s) wr = Ok (a, result) /\
    write_arena ck (ti_traces s') (tw_set_level wr (tw_level wr + N.of_nat n)) = Ok (b, result) /\
    tw_out a = tw_out wr ++ pre ++ spec_branch (tw_level wr + N.of_nat n) ++ txt "[" ++ dec_text x ++ txt "] " ++ rest ++ post /\
    tw_out b = tw_out wr ++ spec_branch (tw_level wr + N.of_nat n) ++ txt "[" ++ dec_text y ++ txt "] " ++ rest.
Proof.
  intros ck cfg w w' f g u s s' wr He Hf Hg Hw Hm Hu Hr Hr' Hb Hk.
  assert (He' : env_ok cfg w' g).
  { destruct He as [H1 H2]. split; [|by eapply made_every]. intros Hx. specialize (H1 Hx).
    eapply made_every in H1; [|exact Hm]. unfold precompiles_are_leaves. eapply every_frame_impl; [|exact H1].
    intros h. cbn beta. by rewrite ?Hw. }
  destruct (text_within ck (tw_use_colors wr) (tw_color_cheatcodes wr) cfg w _ _ _ _ Hm) as (n & Hn & Hd & Ht).
  destruct (Ht true (tw_level wr)) as (pre & post & E).
  destruct (text_root ck (tw_use_colors wr) (tw_color_cheatcodes wr) cfg w w' Hw g u (tw_level wr + N.of_nat n)%N) as (x & y & rest & E1 & E2).
  destruct (C118_written ck cfg w f s wr He Hf Hr Hk) as (a & ra & Ha & Oa & Ra & _).
  destruct (C118_written ck cfg w' g s' (tw_set_level wr (tw_level wr + N.of_nat n)) He' Hg Hr') as (b & rb & Hb' & Ob & Rb & _).
  { cbn [tw_level tw_set_level]. lia. }
  cbn [tw_out tw_budget tw_flush tw_use_colors tw_color_cheatcodes tw_level tw_set_level] in Ob, Rb. rewrite Hb in *. subst u.
  assert (ra = rb) as <-.
  { destruct ra as [[]|], rb as [[]|]; try done.
    - symmetry. apply Rb. split; [by apply Ra|done].
    - apply Ra. split; [by apply Rb|done]. }
  exists n, a, b, ra, pre, x, y, rest, post. split; [done|]. split; [done|]. split; [done|].
  unfold tx_text in *. rewrite Oa, Ob, E, E1, E2. by rewrite <-!app_assoc.
Qed.
Print Assumptions C151_text.

(** The reverted call of the examples, written alone from level 1, with another gas limit. *)
Example C151_example :
  made ex_cfg ex_world (spec_value (f_start ex_tx)) ex_tx (spec_value (f_start ex_reverted)) ex_reverted /\
  env_ok ex_cfg ex_world ex_tx /\ evm_refund ex_tx /\ evm_refund ex_reverted /\ nesting ex_tx = 3 /\
  (exists s, ti_run (ti_new ex_cfg) (tx_events ex_world ex_tx) = Ok s) /\
  (exists s, ti_run (ti_new ex_cfg) (tx_events c149_world ex_reverted) = Ok s) /\
  String.string_of_list_byte (tx_text plain_checksum false false ex_cfg c149_world 1 ex_reverted) =
"    ├─ [35200] 0x00000000000000000000000000000000000000f0::0a0b0c0d()
    │   ├─ [40000] 0x0000000000000000000000000000000000000001::fallback{value: 3}(00)
    │   │   └─ ← [Return] 0x2a
    │   └─ ← [Revert] 0x2a
"%string.
Proof.
  split; [apply c149_made|]. split; [by apply env_okb_ok|]. split; [done|]. split; [done|]. split; [done|].
  split; [eexists; vm_compute; reflexivity|]. split; [eexists; vm_compute; reflexivity|]. vm_compute. reflexivity.
Qed.
