(** * PropertiesCallbacks: C152, the callbacks of a call are the same at every depth *)

From Verif Require Import PropertiesJs SpecCallbacks JsProofs Examples.
Local Open Scope nat_scope.

Section Callbacks.
  Context (en ex st fa : bool) (w : world).
  Notation inner := (t_inner en ex st fa w).

  Lemma hooks_moved k s hs : map (seen_moved k) (flat_map (t_hook en ex s) hs) = flat_map (t_hook en ex s) hs.
  Proof. induction hs as [|[j l|a b v] hs IH]; [done|exact IH|]. cbn [flat_map t_hook]. rewrite !map_app, IH. by destruct en, ex. Qed.
  Lemma instr_moved k s d o : map (seen_moved k) (t_instr en ex st fa w s d o) = t_instr en ex st fa w s (k + d) o.
  Proof.
    unfold t_instr. rewrite !map_app, hooks_moved. f_equal; [by destruct st|]. f_equal. by destruct (st && _ && fa).
  Qed.
  Lemma inner_moved f : forall k d, map (seen_moved k) (inner d f) = inner (k + d) f.
  Proof.
    induction f as [s body e IH] using frame_ind'. intros k d. cbn [t_inner].
    induction body as [|[o|h|g] r IHr]; [done|..]; cbn [flat_map]; rewrite map_app.
    - rewrite IHr, instr_moved, Nat.add_succ_r by done. done.
    - rewrite IHr by done. f_equal. pose proof (hooks_moved k s [h]) as E. cbn [flat_map] in E. by rewrite !app_nil_r in E.
    - change (subs (ISub g :: r)) with (g :: subs r) in IH. inversion_clear IH as [|? ? Hg Hr].
      rewrite IHr by done. f_equal. rewrite !map_app, Hg, Nat.add_succ_r. f_equal; [by destruct en|]. f_equal. by destruct (en && ex).
  Qed.
  Definition around (k : nat) (d : nat) (g : frame) : list seen :=
    (if en then [SEnter (spec_frame (f_start g))] else []) ++ inner (k + d) g ++ (if en && ex then [SExit (spec_result (f_end g))] else []).
  Lemma inner_sub h : forall d g, In g (subs (f_body h)) -> exists pre post, inner d h = pre ++ around 1 d g ++ post.
  Proof.
    destruct h as [s body e]. intros d g Hin. cbn [f_body] in Hin. cbn [t_inner]. induction body as [|[o|x|h] r IH]; [done|..]; cbn [flat_map].
    - destruct (IH Hin) as (pre & post & ->). exists (t_instr en ex st fa w s (S d) o ++ pre), post. by rewrite <-app_assoc.
    - destruct (IH Hin) as (pre & post & ->). exists (t_hook en ex s x ++ pre), post. by rewrite <-app_assoc.
    - change (subs (ISub h :: r)) with (h :: subs r) in Hin. destruct Hin as [->|Hin].
      + exists []. eexists. reflexivity.
      + destruct (IH Hin) as (pre & post & ->). eexists (_ ++ pre), post. rewrite <-(app_assoc _ pre). reflexivity.
  Qed.
  Lemma inner_within f : forall d h g, In h (frames_of f) -> In g (subs (f_body h)) -> exists k pre post, 0 < k /\ inner d f = pre ++ around k d g ++ post.
  Proof.
    induction f as [s body e IH] using frame_ind'. intros d h g Hin Hg. cbn [frames_of] in Hin. destruct Hin as [<-|Hin].
    { destruct (inner_sub (Frame s body e) d g Hg) as (pre & post & E). exists 1, pre, post. split; [lia|done]. }
    cbn [t_inner]. induction body as [|[o|x|y] r IHr]; [done|..]; cbn [flat_map].
    - destruct (IHr IH Hin) as (k & pre & post & Hk & ->). exists k, (t_instr en ex st fa w s (S d) o ++ pre), post. split; [done|]. by rewrite <-app_assoc.
    - destruct (IHr IH Hin) as (k & pre & post & Hk & ->). exists k, (t_hook en ex s x ++ pre), post. split; [done|]. by rewrite <-app_assoc.
    - change (subs (ISub y :: r)) with (y :: subs r) in IH. inversion_clear IH as [|? ? Hy Hr]. apply in_app_iff in Hin as [Hin|Hin].
      + destruct (Hy (S d) h g Hin Hg) as (k & pre & post & Hk & ->). unfold around. rewrite Nat.add_succ_r.
        match goal with |- exists _ _ _, _ /\ (?a ++ (_ ++ _ ++ post) ++ ?b) ++ ?c = _ => exists (S k), (a ++ pre), (post ++ b ++ c) end.
        split; [lia|]. by rewrite <-!app_assoc.
      + destruct (IHr Hr Hin) as (k & pre & post & Hk & ->).
        match goal with |- exists _ _ _, _ /\ ?a ++ pre ++ _ = _ => exists k, (a ++ pre), post end. split; [done|]. by rewrite <-(app_assoc _ pre).
  Qed.
End Callbacks.

(** The call [g] made by the frame [h] anywhere in the transaction [f], and [g] as a transaction of its own, traced by
    scripts with the same callbacks: what the second is shown, the first is shown in one piece, moved to the depth of the
    call, between the [enter] and the [exit] of the call (if the script has them). *)
Theorem C152_callbacks :
  forall js js' en ex st fa w f h g s s',
  In h (frames_of f) -> In g (subs (f_body h)) ->
  run (js_handle js) (js_new_state en ex st fa) (tx_events w f) = Ok s ->
  run (js_handle js') (js_new_state en ex st fa) (tx_events w g) = Ok s' ->
  exists k pre post, 0 < k /\
    shown s = pre ++ (if en then [SEnter (spec_frame (f_start g))] else []) ++ map (seen_moved k) (shown s') ++
              (if en && ex then [SExit (spec_result (f_end g))] else []) ++ post.
Proof.
  intros js js' en ex st fa w f h g s s' Hh Hg Hr Hr'. apply any_run in Hr, Hr'. rewrite Hr, Hr'.
  destruct (inner_within en ex st fa w f 0 h g Hh Hg) as (k & pre & post & Hk & ->). exists k, pre, post. split; [done|].
  rewrite inner_moved. unfold around. by rewrite <-!app_assoc.
Qed.
Print Assumptions C152_callbacks.

(** The reverted call of the examples, which calls a precompile. *)
Example C152_example : exists s s',
  In ex_tx (frames_of ex_tx) /\ In ex_reverted (subs (f_body ex_tx)) /\
  run (js_handle (fun _ _ => None)) (js_new_state true true true true) (tx_events ex_world ex_tx) = Ok s /\
  run (js_handle (fun _ _ => None)) (js_new_state true true true true) (tx_events ex_world ex_reverted) = Ok s' /\
  length (shown s) > length (shown s') /\ length (shown s') > 2.
Proof.
  destruct (quiet_run (fun _ _ => None) true true true true ex_world ex_tx) as (s & H1 & H2); [intros ? ?; reflexivity|].
  destruct (quiet_run (fun _ _ => None) true true true true ex_world ex_reverted) as (s' & H3 & H4); [intros ? ?; reflexivity|].
  exists s, s'. split; [left; reflexivity|]. split; [cbn; clear; tauto|]. split; [exact H1|]. split; [exact H3|]. rewrite H2, H4. clear.
  split; vm_compute; lia.
Qed.
