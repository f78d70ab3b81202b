(** * JsPanicProofs: where a tracer that throws takes the host down *)

From Verif Require Import JsProofs.
From Verif Require Export SpecJs.
Local Open Scope N_scope.

Ltac bound H :=
  match type of H with
  | rbind ?m _ = Ok _ => let x := fresh "x" in let E := fresh "Hx" in destruct m as [x|?|] eqn:E; cbn [rbind] in H; [|discriminate H..]
  end.

(** ** Open frames along the events *)

Definition delta (e : event) : Z :=
  match e with ECall _ _ | ECreate _ _ => 1 | ECallEnd _ _ _ | ECreateEnd _ _ _ => -1 | _ => 0 end%Z.
Fixpoint level (es : list event) : Z := match es with [] => 0%Z | e :: es => (delta e + level es)%Z end.

Lemma level_app es1 es2 : level (es1 ++ es2) = (level es1 + level es2)%Z.
Proof. induction es1 as [|e es1 IH]; cbn; [done|]. rewrite IH. lia. Qed.

Definition balanced (es : list event) : Prop :=
  level es = 0%Z /\ forall es1 es2, es = es1 ++ es2 -> (0 <= level es1)%Z.

Lemma balanced_nil : balanced [].
Proof. split; [done|]. intros [|] [|] H; done. Qed.
Lemma balanced_one e : delta e = 0%Z -> balanced [e].
Proof.
  intros H. split; [cbn; lia|]. intros [|a [|b es1]] es2 He; cbn; [lia| |discriminate He].
  injection He as <- _. lia.
Qed.
Lemma balanced_app es1 es2 : balanced es1 -> balanced es2 -> balanced (es1 ++ es2).
Proof.
  intros [H1 P1] [H2 P2]. split; [rewrite level_app; lia|]. intros a b Hab.
  destruct (app_eq_app _ _ _ _ Hab) as (l & [[-> Hb]|[-> Hb]]).
  - by eapply P1.
  - rewrite level_app, H1. specialize (P2 l b Hb). lia.
Qed.

Lemma balanced_hooks w d hs : balanced (map (hook_event w d) hs).
Proof.
  induction hs as [|h hs IH]; [apply balanced_nil|]. apply (balanced_app [_]); [|exact IH].
  apply balanced_one. by destruct h.
Qed.

Lemma frame_levels w f : forall d,
  level (frame_events w d f) = 0%Z /\
  forall es1 es2, frame_events w d f = es1 ++ es2 -> es1 <> [] -> es2 <> [] -> (1 <= level es1)%Z.
Proof.
  induction f as [s body e IH] using frame_ind'. intros d.
  assert (Hb : balanced (flat_map (fun it => match it with
             | IOp o => instr_events w (S d) o
             | IHook h => [hook_event w (S d) h]
             | ISub g => frame_events w (S d) g end) body)).
  { induction body as [|it body IHb]; [apply balanced_nil|]. cbn [flat_map]. apply balanced_app.
    - destruct it as [o|h|g].
      + unfold instr_events. apply (balanced_app [_]); [by apply balanced_one|].
        apply balanced_app; [apply balanced_hooks|by apply balanced_one].
      + apply (balanced_hooks w (S d) [h]).
      + cbn [subs flat_map] in IH. change ([g] ++ ?l) with (g :: l) in IH. apply Forall_cons_1 in IH as [Hg _].
        destruct (Hg (S d)) as [H1 H2]. split; [done|]. intros es1 es2 He.
        destruct es1 as [|x es1]; [done|]. destruct es2 as [|y es2].
        * rewrite app_nil_r in He. rewrite <- He. lia.
        * assert (1 <= level (x :: es1))%Z by (by eapply H2). lia.
    - apply IHb. destruct it; cbn [subs flat_map] in IH; try exact IH.
      change ([f] ++ ?l) with (f :: l) in IH. by apply Forall_cons_1 in IH as [_ IH]. }
  cbn [frame_events]. set (bs := flat_map _ body) in *. destruct Hb as [Hb1 Hb2].
  assert (Hs : delta (start_event w d s) = 1%Z) by (by destruct s).
  assert (He : delta (end_event w d s e) = (-1)%Z) by (by destruct s).
  split.
  - cbn [level]. rewrite level_app. cbn. lia.
  - intros es1 es2 Heq H1 H2. destruct es1 as [|x es1]; [done|]. cbn [app] in Heq. injection Heq as <- Heq.
    destruct es2 as [|y es2] using rev_ind; [done|]. clear IHes2. rewrite app_assoc in Heq. apply app_inj_tail in Heq as [Heq _].
    cbn [level]. specialize (Hb2 _ _ Heq). lia.
Qed.

(** ** The stack of the inspector is the open frames *)

Lemma end_length js s r : js_stack s <> [] -> length (js_stack (fst (js_end js s r))) = (length (js_stack s) - 1)%nat.
Proof.
  intros H. unfold js_end. destruct (exists_last H) as (l & x & Hx).
  destruct (can_call_exit s); [unfold try_exit, invoke; destruct (js_exit s); [destruct (js _ _)|]|];
    cbn [fst]; unfold pop_call, set_stack; cbn [js_stack]; rewrite Hx, removelast_last, app_length; cbn; lia.
Qed.

Lemma handle_length js s e s' r : js_handle js s e = Ok (s', r) -> (0 <= Z.of_nat (length (js_stack s)) + delta e)%Z ->
  Z.of_nat (length (js_stack s')) = (Z.of_nat (length (js_stack s)) + delta e)%Z.
Proof.
  intros H Hd. destruct e as [i c|i c|? ?|c i|c i o|c i|c i o|? ? ?]; cbn [delta] in *; unfold js_handle in H.
  - unfold js_on_step in H. destruct (negb (js_step s)); [injection H as <- _; lia|].
    bound H. unfold step_objects, gc_new, try_step, invoke in H. cbn in H.
    destruct (js_step s); [destruct (js _ _)|]; injection H as <- _; cbn; lia.
  - unfold js_on_step_end in H. destruct (negb (js_step s)); [injection H as <- _; lia|].
    destruct (return_revert _); [|injection H as <- _; lia].
    bound H. unfold step_objects, gc_new, try_fault, invoke in H. cbn in H.
    destruct (js_fault s); injection H as <- _; cbn; lia.
  - injection H as <- _. lia.
  - unfold js_on_call in H.
    assert (Hr : length (js_stack (register_precompiles s (cx_precompiles c))) = length (js_stack s))
      by (unfold register_precompiles; by destruct (negb _)).
    destruct (match ci_scheme i with CSDelegateCall | CSCallCode => _ | _ => _ end) as [from to].
    destruct (can_call_enter _); [|injection H as <- _; cbn; rewrite app_length, Hr; cbn; lia].
    bound H. unfold try_enter, invoke in H. destruct (js_enter _); [destruct (js _ _); [discriminate H|]|];
      injection H as <- _; cbn; rewrite app_length, Hr; cbn; lia.
  - unfold js_on_call_end in H. pose proof (end_length js s (co_result o)) as He.
    destruct (js_end js s (co_result o)) as [s1 r1]. injection H as <- _. cbn [fst] in He.
    rewrite He; [lia|]. intros Hn. rewrite Hn in Hd. cbn in Hd. lia.
  - unfold js_on_create in H.
    assert (Hr : length (js_stack (register_precompiles s (cx_precompiles c))) = length (js_stack s))
      by (unfold register_precompiles; by destruct (negb _)).
    destruct (can_call_enter _); [|injection H as <- _; cbn; rewrite app_length, Hr; cbn; lia].
    bound H. unfold try_enter, invoke in H. destruct (js_enter _); [destruct (js _ _)|];
      injection H as <- _; cbn; rewrite app_length, Hr; cbn; lia.
  - unfold js_on_create_end in H. pose proof (end_length js s (cro_result o)) as He.
    destruct (js_end js s (cro_result o)) as [s1 r1]. injection H as <- _. cbn [fst] in He.
    rewrite He; [lia|]. intros Hn. rewrite Hn in Hd. cbn in Hd. lia.
  - unfold js_on_selfdestruct in H. bound H.
    assert (Hl : length (js_stack x) = length (js_stack s)).
    { destruct (js_enter s) eqn:Ee; [|by injection Hx as <-]. bound Hx. injection Hx as <-.
      unfold try_enter, invoke. rewrite Ee. done. }
    unfold try_exit, invoke in H. destruct (js_exit x) eqn:Ex; injection H as <- _; cbn; rewrite Hl; lia.
Qed.

Lemma run_length js es : forall s s', run (js_handle js) s es = Ok s' ->
  (forall es1 es2, es = es1 ++ es2 -> (0 <= Z.of_nat (length (js_stack s)) + level es1)%Z) ->
  Z.of_nat (length (js_stack s')) = (Z.of_nat (length (js_stack s)) + level es)%Z.
Proof.
  induction es as [|e es IH]; intros s s' H Hp; [injection H as <-; cbn; lia|].
  rewrite run_cons in H. bound H. destruct x as [s1 r]. cbn [fst] in H.
  pose proof (Hp [e] es eq_refl) as He. cbn in He. rewrite Z.add_0_r in He.
  pose proof (handle_length _ _ _ _ _ Hx He) as Hl.
  rewrite (IH s1 s' H), Hl; [cbn; lia|].
  intros es1 es2 ->. specialize (Hp (e :: es1) es2 eq_refl). cbn in Hp. lia.
Qed.

(** Between the first and the last event of a transaction there is an open frame. *)
Lemma tx_open js en ex st fa w f es1 e es2 s1 :
  tx_events w f = es1 ++ e :: es2 -> es1 <> [] -> run (js_handle js) (js_new_state en ex st fa) es1 = Ok s1 -> js_stack s1 <> [].
Proof.
  intros Heq H1 Hr Hn. destruct (frame_levels w f 0) as [_ Hp]. fold (tx_events w f) in Hp.
  apply run_length in Hr.
  - rewrite Hn in Hr. cbn in Hr. specialize (Hp es1 (e :: es2) Heq H1 ltac:(done)). lia.
  - intros a b ->. cbn. destruct a as [|x a]; [cbn; lia|]. rewrite <- app_assoc in Heq.
    specialize (Hp _ _ Heq ltac:(done)). assert (b ++ e :: es2 <> []) by (by destruct b). specialize (Hp ltac:(done)). lia.
Qed.

(** ** Panics *)

Lemma run_panic {S} (h : inspector S) es : forall s p, run h s es = Panic p ->
  exists es1 e es2 s1, es = es1 ++ e :: es2 /\ run h s es1 = Ok s1 /\ h s1 e = Panic p.
Proof.
  induction es as [|e es IH]; intros s p H; [discriminate H|]. rewrite run_cons in H.
  destruct (h s e) as [[s1 r]|q|] eqn:E; cbn [rbind fst] in H; [|injection H as ->|discriminate H].
  - destruct (IH s1 p H) as (es1 & e' & es2 & s2 & -> & H1 & H2). exists (e :: es1), e', es2, s2.
    split_and!; [done| |done]. rewrite run_cons, E. exact H1.
  - by exists [], e, es, s.
Qed.

Lemma call_todo js s c j i : js_precompiles_registered s = false -> js_stack s <> [] -> js_enter s = true ->
  (js_on_call js s c i = Panic PTodo <-> js (js_log s) (enter_of s (SCall j i)) <> None).
Proof.
  intros Hp Hs He. unfold js_on_call. rewrite register_false by done.
  assert (Hc : forall x, can_call_enter (push_call s x) = true).
  { intros x. unfold can_call_enter, push_call, set_stack, is_root_call_active. cbn. rewrite He, app_length.
    destruct (js_stack s); [done|]. cbn. destruct (length l); done. }
  destruct (match ci_scheme i with CSDelegateCall | CSCallCode => _ | _ => _ end) as [from to] eqn:Eft.
  rewrite Hc. unfold active_call. unfold push_call at 1, set_stack at 1. cbn [js_stack]. rewrite last_snoc. cbn [expect rbind].
  unfold try_enter, push_call, set_stack, invoke. cbn [js_enter js_log js_cells js_precompiles cs_contract cs_kind]. rewrite He.
  assert (Hf : mkJsFrame (mkContract from to (default 0 (ci_transfer_value i)) (ci_input i)) (kind_of_scheme (ci_scheme i)) (ci_gas_limit i)
    = spec_frame (SCall j i)).
  { unfold spec_frame, spec_contract, spec_kind, spec_gas, ci_transfer_value. destruct (ci_scheme i), (ci_value i); injection Eft as <- <-; reflexivity. }
  rewrite Hf. unfold enter_of. destruct (js (js_log s) _); split; intros H; try done.
Qed.

Lemma handle_todo js s e : js_handle js s e = Panic PTodo ->
  exists c i, e = ECall c i /\ js_stack s <> [] /\ js_enter s = true.
Proof.
  destruct e as [i c|i c|? ?|c i|c i o|c i|c i o|? ? ?]; unfold js_handle; intros H.
  - unfold js_on_step in H. destruct (negb (js_step s)); [discriminate H|].
    destruct (active_call s) as [x|q|] eqn:E; cbn [rbind] in H.
    + unfold step_objects, gc_new, try_step, invoke in H. cbn in H. destruct (js_step s); [destruct (js _ _)|]; discriminate H.
    + injection H as ->. unfold active_call in E. by destruct (last _).
    + discriminate H.
  - unfold js_on_step_end in H. destruct (negb (js_step s)); [discriminate H|]. destruct (return_revert _); [|discriminate H].
    destruct (active_call s) as [x|q|] eqn:E; cbn [rbind] in H.
    + unfold step_objects, gc_new, try_fault, invoke in H. cbn in H. destruct (js_fault s); discriminate H.
    + injection H as ->. unfold active_call in E. by destruct (last _).
    + discriminate H.
  - discriminate H.
  - exists c, i. split; [done|]. unfold js_on_call in H.
    destruct (match ci_scheme i with CSDelegateCall | CSCallCode => _ | _ => _ end) as [from to].
    destruct (can_call_enter _) eqn:E; [|discriminate H]. unfold can_call_enter in E. apply andb_prop in E as [E1 E2].
    unfold register_precompiles in E1, E2. split.
    + intros Hn. unfold is_root_call_active in E2. destruct (negb (js_precompiles_registered s)); cbn in E2; rewrite Hn in E2; done.
    + by destruct (negb (js_precompiles_registered s)).
  - unfold js_on_call_end in H. destruct (js_end _ _ _); discriminate H.
  - unfold js_on_create in H. destruct (can_call_enter _); [|discriminate H].
    unfold active_call, push_call, set_stack in H. cbn [js_stack] in H. rewrite last_snoc in H. cbn [expect rbind] in H.
    destruct (try_enter _ _ _) as [s1 [|]]; discriminate H.
  - unfold js_on_create_end in H. destruct (js_end _ _ _); discriminate H.
  - unfold js_on_selfdestruct in H. destruct (js_enter s).
    + destruct (active_call s) as [x|q|] eqn:E; cbn [rbind] in H.
      * destruct (js_exit _); discriminate H.
      * injection H as ->. unfold active_call in E. by destruct (last _).
      * discriminate H.
    + cbn [rbind] in H. destruct (js_exit _); discriminate H.
Qed.

(** The flags never change and the precompiles are never registered. *)
Lemma handle_flags js s e s' r : js_handle js s e = Ok (s', r) ->
  js_enter s' = js_enter s /\ (js_precompiles_registered s = false -> js_precompiles_registered s' = false).
Proof.
  intros H. destruct e as [i c|i c|? ?|c i|c i o|c i|c i o|? ? ?]; unfold js_handle in H.
  - unfold js_on_step in H. destruct (negb (js_step s)); [by injection H as <- _|].
    bound H. unfold step_objects, gc_new, try_step, invoke in H. cbn in H.
    destruct (js_step s); [destruct (js _ _)|]; by injection H as <- _.
  - unfold js_on_step_end in H. destruct (negb (js_step s)); [by injection H as <- _|].
    destruct (return_revert _); [|by injection H as <- _].
    bound H. unfold step_objects, gc_new, try_fault, invoke in H. cbn in H. destruct (js_fault s); by injection H as <- _.
  - by injection H as <- _.
  - unfold js_on_call in H. assert (Hr : js_enter (register_precompiles s (cx_precompiles c)) = js_enter s /\
      (js_precompiles_registered s = false -> js_precompiles_registered (register_precompiles s (cx_precompiles c)) = false)).
    { unfold register_precompiles. destruct (js_precompiles_registered s) eqn:E; cbn; [done|]. by rewrite E. }
    destruct (match ci_scheme i with CSDelegateCall | CSCallCode => _ | _ => _ end) as [from to].
    destruct (can_call_enter _); [|injection H as <- _; exact Hr].
    bound H. unfold try_enter, invoke in H. destruct (js_enter (push_call _ _)) eqn:Een; cbn in Een; [destruct (js _ _); [discriminate H|]|];
      injection H as <- _; cbn; rewrite ?Een in *; exact Hr.
  - unfold js_on_call_end, js_end in H. destruct (can_call_exit s); [unfold try_exit, invoke in H; destruct (js_exit s); [destruct (js _ _)|]|];
      by injection H as <- _.
  - unfold js_on_create in H. assert (Hr : js_enter (register_precompiles s (cx_precompiles c)) = js_enter s /\
      (js_precompiles_registered s = false -> js_precompiles_registered (register_precompiles s (cx_precompiles c)) = false)).
    { unfold register_precompiles. destruct (js_precompiles_registered s) eqn:E; cbn; [done|]. by rewrite E. }
    destruct (can_call_enter _); [|injection H as <- _; exact Hr].
    bound H. unfold try_enter, invoke in H. destruct (js_enter (push_call _ _)) eqn:Een; cbn in Een; [destruct (js _ _)|]; injection H as <- _; cbn; rewrite ?Een in *; exact Hr.
  - unfold js_on_create_end, js_end in H. destruct (can_call_exit s); [unfold try_exit, invoke in H; destruct (js_exit s); [destruct (js _ _)|]|];
      by injection H as <- _.
  - unfold js_on_selfdestruct in H. bound H.
    assert (Hl : js_enter x = js_enter s /\ js_precompiles_registered x = js_precompiles_registered s).
    { destruct (js_enter s) eqn:Ee; [|by injection Hx as <-]. bound Hx. injection Hx as <-.
      unfold try_enter, invoke. rewrite Ee. done. }
    destruct Hl as [Hl1 Hl2]. unfold try_exit, invoke in H. destruct (js_exit x) eqn:Ex; injection H as <- _; cbn; rewrite Hl1, Hl2; done.
Qed.

Lemma run_flags js es : forall s s', run (js_handle js) s es = Ok s' ->
  js_enter s' = js_enter s /\ (js_precompiles_registered s = false -> js_precompiles_registered s' = false).
Proof.
  induction es as [|e es IH]; intros s s' H; [by injection H as <-|].
  rewrite run_cons in H. bound H. destruct x as [s1 r]. apply handle_flags in Hx as [H1 H2]. cbn [fst] in H.
  apply IH in H as [H3 H4]. split; [congruence|]. auto.
Qed.

Lemma tx_panics js en ex st fa w f :
  (exists p, run (js_handle js) (js_new_state en ex st fa) (tx_events w f) = Panic p) <->
  en = true /\ exists es1 c j i es2 s1, tx_events w f = es1 ++ ECall c i :: es2 /\ es1 <> [] /\
    run (js_handle js) (js_new_state en ex st fa) es1 = Ok s1 /\ js (js_log s1) (enter_of s1 (SCall j i)) <> None.
Proof.
  split.
  - intros [p Hp]. destruct (on_tx js en ex st fa w f (js_new_state en ex st fa)) as [(s' & H & _)|[H _]]; [apply inv_new|congruence|].
    rewrite H in Hp. injection Hp as <-. destruct (run_panic _ _ _ _ H) as (es1 & e & es2 & s1 & Heq & Hr & He).
    destruct (handle_todo _ _ _ He) as (c & i & -> & Hs & Hen). pose proof (run_flags _ _ _ _ Hr) as [Hf1 Hf2].
    specialize (Hf2 eq_refl). split; [by rewrite <- Hen, Hf1|]. exists es1, c, (mkJ [] (fun _ _ => None)), i, es2, s1. split_and!; [done| |done|].
    + intros ->. injection Hr as <-. done.
    + by eapply (call_todo js s1 c).
  - intros (-> & es1 & c & j & i & es2 & s1 & Heq & Hn & Hr & Hjs). exists PTodo.
    pose proof (tx_open _ _ _ _ _ _ _ _ _ _ _ Heq Hn Hr) as Hs. pose proof (run_flags _ _ _ _ Hr) as [Hf1 Hf2].
    specialize (Hf2 eq_refl). apply (call_todo js s1 c j i) in Hjs; [|done..]. rewrite Heq, run_app, Hr. cbn [rbind].
    rewrite run_cons. cbn [js_handle]. unfold js_handle at 1. by rewrite Hjs.
Qed.
