(** * PropertiesKept: what an inspector has reported stays reported *)

From Verif Require Import SimpleProofs PropertiesSimple Js Examples.
Local Open Scope N_scope.

(** A relation every hook call keeps between the states before and after holds between the states before and after any
    sequence of hook calls. *)
Lemma run_grows {S} (h : inspector S) (R : S -> S -> Prop) :
  (forall s, R s s) -> (forall a b c, R a b -> R b c -> R a c) -> (forall s e s' r, h s e = Ok (s', r) -> R s s') ->
  forall es s s', run h s es = Ok s' -> R s s'.
Proof.
  intros Hr Ht Hh es. induction es as [|e es IH]; intros s s' H; [by injection H as <-|].
  unfold run in *. cbn [rfold] in H. destruct (h s e) as [[s1 r]|p|] eqn:E; cbn [rmap rbind fst] in H; [|discriminate..].
  eapply Ht; [eapply Hh, E|by apply IH].
Qed.

(** ** C134 *)

(** The transfers found so far are the first ones of all that will be found. *)
Theorem C134_transfers :
  forall es s s', run tf_handle s es = Ok s' -> exists later, tf_transfers s' = tf_transfers s ++ later.
Proof.
  apply (run_grows tf_handle (fun s s' => exists later, tf_transfers s' = tf_transfers s ++ later)).
  - intros s. exists []. by rewrite app_nil_r.
  - intros a b c [l H] [l' H']. exists (l ++ l'). by rewrite H', H, app_assoc.
  - intros s [] s' r H; cbn in H; injection H as <- _; try (exists []; by rewrite app_nil_r).
    + unfold tf_call. repeat case_match; try (exists []; by rewrite app_nil_r). eexists. reflexivity.
    + unfold tf_create_end. repeat case_match; try (exists []; by rewrite app_nil_r); eexists; reflexivity.
    + eexists. reflexivity.
Qed.
Print Assumptions C134_transfers.

(** An account in the access list stays there, with every one of its slots. *)
Theorem C134_access_list :
  forall es s s' a ks, run al_handle s es = Ok s' -> In (a, ks) (al_access_list s) ->
  exists ks', In (a, ks') (al_access_list s') /\ incl ks ks'.
Proof.
  intros es s s' a ks H Hin. rewrite al_run in H. injection H as <-. apply al_output in Hin as (ss & Hs & ->).
  destruct (al_fold es s) as (_ & Hk & He). specialize (Hk a). specialize (He a).
  destruct (al_keys (fold_left al_pure es s) a) as [ss'|] eqn:E.
  - exists (btree_elements ss'). split; [apply al_output; eauto|]. intros k Hin.
    destruct (btree_elements_spec ss) as (Hm & _). destruct (btree_elements_spec ss') as (Hm' & _).
    apply Hm'. apply Hm in Hin. rewrite Hs in He. cbn [default] in He. apply He. by left.
  - exfalso. apply (proj2 Hk); [left; by rewrite Hs|done].
Qed.
Print Assumptions C134_access_list.

(** The count of a selector and size never goes down, and no entry disappears. *)
Theorem C134_selectors :
  forall es1 es2 s1 s2 k n, run fb_handle fb_new es1 = Ok s1 -> run fb_handle s1 es2 = Ok s2 ->
  fb_frame s1 !! k = Some n -> exists n', fb_frame s2 !! k = Some n' /\ n <= n'.
Proof.
  intros es1 es2 s1 s2 k n H1 H2 Hk.
  destruct (C43_fourbyte_counts es1) as (s1' & Hr1 & Hc1 & Ho1). rewrite H1 in Hr1. injection Hr1 as <-.
  destruct (C43_fourbyte_counts (es1 ++ es2)) as (s2' & Hr2 & Hc2 & _). unfold run in *. rewrite rfold_app, H1 in Hr2. cbn [rbind] in Hr2.
  rewrite H2 in Hr2. injection Hr2 as <-. destruct (Ho1 _ _ Hk) as (sel & size & Hl & ->). rewrite (Hc1 _ _ Hl) in Hk.
  rewrite (Hc2 _ _ Hl). rewrite List.filter_app, app_length. cbv zeta in *. destruct (N.eqb_spec (N.of_nat (length (List.filter (is_call_of sel size) es1))) 0) as [|Hne]; [discriminate|].
  injection Hk as <-. destruct (N.eqb_spec (N.of_nat (length (List.filter (is_call_of sel size) es1) + length (List.filter (is_call_of sel size) es2))) 0) as [|_]; [lia|].
  eexists. split; [reflexivity|lia].
Qed.
Print Assumptions C134_selectors.

(** The number of instructions and the gas of an opcode never go down. *)
Theorem C134_opcode_gas :
  forall es s s' op n g, run og_handle s es = Ok s' -> In (op, (n, g)) (og_iter s) ->
  exists n' g', In (op, (n', g')) (og_iter s') /\ n <= n' /\ g <= g'.
Proof.
  intros es s s' op n g H Hin.
  assert (HR : (forall n, og_counts s !! op = Some n -> exists n', og_counts s' !! op = Some n' /\ n <= n') /\
               default 0 (og_gas s !! op) <= default 0 (og_gas s' !! op)).
  { clear Hin n g. revert es s s' H. apply (run_grows og_handle (fun s s' =>
      (forall n, og_counts s !! op = Some n -> exists n', og_counts s' !! op = Some n' /\ n <= n') /\
      default 0 (og_gas s !! op) <= default 0 (og_gas s' !! op))).
    - intros s. split; [|lia]. intros n Hn. exists n. split; [done|lia].
    - intros a b c [H1 H2] [H3 H4]. split; [|lia]. intros n Hn. destruct (H1 _ Hn) as (m & Hm & ?). destruct (H3 _ Hm) as (m' & Hm' & ?).
      exists m'. split; [done|lia].
    - intros s e s' r H. assert (Hid : s' = s -> (forall n, og_counts s !! op = Some n -> exists n', og_counts s' !! op = Some n' /\ n <= n') /\
        default 0 (og_gas s !! op) <= default 0 (og_gas s' !! op)).
      { intros ->. split; [|lia]. intros n Hn. exists n. split; [done|lia]. }
      destruct e as [i c|i c|l c|c i|c i o|c i|c i o|a b v]; cbn in H; try (injection H as <- _; by apply Hid).
      + injection H as <- _. revert Hid. unfold og_step. destruct (op_known (in_op i)); [|intros Hid; by apply Hid]. intros _. cbn [og_counts og_gas]. split; [|lia].
        intros n Hn. unfold add_entry. destruct (decide (in_op i = op)) as [->|Hne].
        * rewrite lookup_insert, Hn. eexists. split; [reflexivity|]. cbn. lia.
        * rewrite lookup_insert_ne by done. exists n. split; [done|lia].
      + unfold og_step_end in H. destruct (og_last s) as [[o g]|]; cbn in H; [|injection H as <- _; by apply Hid].
        case_match; cbn in H; [|discriminate]. injection H as <- _. cbn [og_counts og_gas]. split; [intros n Hn; exists n; split; [done|lia]|].
        rewrite add_entry_lookup. lia. }
  destruct HR as [Hc Hg]. unfold og_iter in *. apply in_map_iff in Hin as ([o m] & [= <- <- <-] & Hin). apply elem_of_list_In, elem_of_map_to_list in Hin.
  destruct (Hc _ Hin) as (n' & Hn' & Hle). do 2 eexists. split; [|split; [exact Hle|exact Hg]].
  apply in_map_iff. exists (o, n'). split; [reflexivity|]. by apply elem_of_list_In, elem_of_map_to_list.
Qed.
Print Assumptions C134_opcode_gas.

(** The instruction counter never goes down. *)
Theorem C134_opcount :
  forall es s s', run oc_handle s es = Ok s' -> (oc_count s <= oc_count s')%nat.
Proof.
  apply (run_grows oc_handle (fun s s' => (oc_count s <= oc_count s')%nat)); [done|lia|].
  intros s [] s' r H; cbn in H; injection H as <- _; cbn; lia.
Qed.
Print Assumptions C134_opcount.

(** A script cannot be un-called: the invocations made so far, with what they showed, are the first ones of all that will
    be made. *)
Theorem C134_script_calls :
  forall script es s s', run (js_handle script) s es = Ok s' -> exists later, js_log s' = js_log s ++ later.
Proof.
  intros js. apply (run_grows (js_handle js) (fun s s' => exists later, js_log s' = js_log s ++ later)).
  - intros s. exists []. by rewrite app_nil_r.
  - intros a b c [l H] [l' H']. exists (l ++ l'). by rewrite H', H, app_assoc.
  - intros s e s' r H.
    assert (Hi : forall s c, exists later, js_log (fst (invoke js s c)) = js_log s ++ later) by (intros; eexists; reflexivity).
    assert (Hn : forall s, exists later, js_log s = js_log s ++ later) by (intros; exists []; by rewrite app_nil_r).
    assert (Hp : forall s p, js_log (register_precompiles s p) = js_log s) by (intros s0 p; unfold register_precompiles; by destruct (negb _)).
    assert (He : forall s r, js_log (fst (js_end js s r)) = js_log s \/ exists c, js_log (fst (js_end js s r)) = js_log (fst (invoke js s c))).
    { intros s0 r0. unfold js_end. destruct (can_call_exit s0); [|by left]. unfold try_exit. destruct (js_exit s0); [|by left]. right. eexists.
      destruct (invoke js s0 _) as [s1 err] eqn:E. instantiate (1 := JExit (mkJsFrameResult (g_spent (ir_gas r0)) (ir_output r0) None)). rewrite E. by destruct err. }
    destruct e as [i c|i c|l c|c i|c i o|c i|c i o|a b v]; cbn [js_handle] in H.
    + unfold js_on_step in H. destruct (js_step s) eqn:Es; cbn [negb] in H; [|by injection H as <- _]. inv_bind H.
      unfold step_objects, try_step in H. cbn in H. rewrite Es in H. unfold invoke in H; cbn in H. match type of H with context [js ?x ?y] => destruct (js x y) end; injection H as <- _; cbn; eauto.
    + unfold js_on_step_end in H. destruct (js_step s) eqn:Es; cbn [negb] in H; [|by injection H as <- _]. destruct (return_revert _); [|by injection H as <- _]. inv_bind H.
      unfold step_objects, try_fault in H. cbn in H. destruct (js_fault s); unfold invoke in H; cbn in H; injection H as <- _; cbn; eauto.
    + by injection H as <- _.
    + unfold js_on_call in H. destruct (match ci_scheme i with CSDelegateCall | CSCallCode => _ | _ => _ end) as [from to]. destruct (can_call_enter _); [|injection H as <- _; cbn; rewrite Hp; apply Hn].
      inv_bind H. unfold try_enter in H. destruct (js_enter _); [|injection H as <- _; cbn; rewrite Hp; apply Hn]. unfold invoke in H; cbn in H.
      match type of H with context [js ?x ?y] => destruct (js x y) end; [discriminate|]. injection H as <- _. cbn. rewrite Hp. eauto.
    + unfold js_on_call_end in H. pose proof (He s (co_result o)) as He'. destruct (js_end js s (co_result o)) as [s1 r1]. injection H as <- _. cbn [fst] in He'.
      destruct He' as [->|[c' ->]]; [apply Hn|apply Hi].
    + unfold js_on_create in H. destruct (can_call_enter _); [|injection H as <- _; cbn; rewrite Hp; apply Hn].
      inv_bind H. unfold try_enter in H. destruct (js_enter _); [|injection H as <- _; cbn; rewrite Hp; apply Hn]. unfold invoke in H; cbn in H.
      match type of H with context [js ?x ?y] => destruct (js x y) end; injection H as <- _; cbn; rewrite Hp; eauto.
    + unfold js_on_create_end in H. pose proof (He s (cro_result o)) as He'. destruct (js_end js s (cro_result o)) as [s1 r1]. injection H as <- _. cbn [fst] in He'.
      destruct He' as [->|[c' ->]]; [apply Hn|apply Hi].
    + unfold js_on_selfdestruct in H. inv_bind H.
      assert (H1 : exists later, js_log a0 = js_log s ++ later).
      { destruct (js_enter s) eqn:Ee; [|by injection E as <-]. inv_bind E. injection E as <-. unfold try_enter. rewrite Ee. apply Hi. }
      destruct H1 as [l H1]. destruct (js_exit a0) eqn:Ex; injection H as <- _; [|eauto]. unfold try_exit. rewrite Ex. cbn. rewrite H1. exists (l ++ [mkInv (JExit (mkJsFrameResult 0 [] None)) (js_cells a0) (js_precompiles a0)]). by rewrite <- app_assoc.
Qed.
Print Assumptions C134_script_calls.

(** The example transaction asked about after seventeen hook calls and at its end. *)
Example C134_example : exists a1 a2 t1 t2,
  run al_handle (al_new [] 0xAA 0xC0 []) (take 17 (tx_events ex_world ex_tx)) = Ok a1 /\
  run al_handle a1 (drop 17 (tx_events ex_world ex_tx)) = Ok a2 /\
  run tf_handle (tf_new false) (take 17 (tx_events ex_world ex_tx)) = Ok t1 /\
  run tf_handle t1 (drop 17 (tx_events ex_world ex_tx)) = Ok t2 /\
  (length (al_access_list a1), length (al_access_list a2), length (tf_transfers t1), length (tf_transfers t2)) = (2, 3, 1, 4)%nat.
Proof. do 4 eexists. split_and!; vm_compute; reflexivity. Qed.
