(** * PropertiesJsResult: asking a JavaScript tracer for its result (C131) *)

From Verif Require Import PropertiesJs PropertiesJsObjects JsObjectProofs JsResult Examples.
From Verif Require JsJson SpecJsJson PropertiesJsJson.
Local Open Scope N_scope.

(** ** C131 *)

(** Two fresh cells, dropped afterwards. *)
Lemma result_state js s r after env tc :
  exists iv, let n := length (js_cells s) in
    iv = mkInv (JResult (js_result_ctx r env tc) (mkDbRef n (S n))) ((js_cells s ++ [Some (GState after)]) ++ [Some (GDb after)]) (js_precompiles s) /\
    js_result js s r after env tc =
      (mkJs (js_enter s) (js_exit s) (js_step s) (js_fault s) (js_stack s) (js_precompiles_registered s) (js_precompiles s)
         (gc_drop (gc_drop ((js_cells s ++ [Some (GState after)]) ++ [Some (GDb after)]) n) (S n)) (js_log s ++ [iv]),
       js (js_log s) iv).
Proof.
  eexists. split; [reflexivity|]. unfold js_result, gc_new, invoke, set_cells. cbn [js_log js_cells js_precompiles].
  replace (length (js_cells s ++ [Some (GState after)])) with (S (length (js_cells s))) by (rewrite app_length; cbn; lia). reflexivity.
Qed.

Lemma guarded_result js s r after env tc : guarded_ok s -> guarded_ok (fst (js_result js s r after env tc)).
Proof.
  intros (H1 & H2 & H3 & H4). destruct (result_state js s r after env tc) as (iv & Hiv & ->). cbn [fst].
  set (n := length (js_cells s)) in *.
  assert (Hl : forall i, live ((js_cells s ++ [Some (GState after)]) ++ [Some (GDb after)]) i <-> i = n \/ i = S n).
  { intros i. rewrite !live_app, app_length. cbn [length]. fold n. specialize (H1 i).
    split; [intros [[?|[-> _]]|[-> _]]; [done|by left|right; lia]|intros [->| ->]; [left; right; done|right; split; [lia|done]]]. }
  split; [|split; [|split]]; cbn [js_cells js_log].
  - intros i. rewrite !live_drop, Hl. tauto.
  - apply Forall_app. split; [done|]. constructor; [|constructor]. rewrite Hiv. cbn [iv_cells iv_call handles dr_state dr_db In].
    intros i. rewrite Hl. intuition congruence.
  - rewrite flat_map_app. apply Forall_app.
    assert (Hlen : length (gc_drop (gc_drop ((js_cells s ++ [Some (GState after)]) ++ [Some (GDb after)]) n) (S n)) = (n + 2)%nat).
    { unfold gc_drop. rewrite !insert_length, !app_length. cbn [length]. fold n. lia. }
    rewrite Hlen. split; [eapply Forall_impl; [exact H3|]; cbn; fold n; intros; lia|].
    rewrite Hiv. cbn. repeat constructor; lia.
  - rewrite flat_map_app. apply NoDup_app. split; [done|]. rewrite Hiv. cbn. split.
    + intros x Hx Hy. rewrite Forall_forall in H3. apply H3 in Hx. fold n in Hx. rewrite !elem_of_cons, elem_of_nil in Hy. lia.
    + repeat (apply NoDup_cons; split; [rewrite ?elem_of_cons, elem_of_nil; lia|]). constructor.
Qed.

Lemma guarded_session js l s s' : guarded_ok s -> session js s l = Ok s' -> guarded_ok s'.
Proof.
  intros Hg. apply (rfold_inv _ guarded_ok (fun _ => True)); [|done|by apply Forall_forall].
  intros s1 a s2 H1 _ H2. destruct a as [e|r after env tc]; cbn [act_step] in H2.
  - destruct (js_handle js s1 e) as [[s3 r]| |] eqn:E; [|done..]. injection H2 as <-. eapply guarded_step; [exact H1|exact E].
  - assert (Hs : fst (js_result js s1 r after env tc) = s2) by congruence. rewrite <- Hs. by apply guarded_result.
Qed.

(** Whatever was traced and asked for before, asking for the result calls the script's [result] function exactly once.
    It gets the transaction's context and a database object that reads the state the transaction left and then the
    database.  Nothing else about the tracer changes. *)
Theorem C131_called :
  forall js en ex st fa l s op_text sv dv r after env tc,
    session js (js_new_state en ex st fa) l = Ok s ->
    exists iv dbo,
      let s' := fst (js_result js s r after env tc) in
      js_log s' = js_log s ++ [iv] /\
      call_objects op_text sv dv (iv_call iv) = [context_object (js_result_ctx r env tc); dbo] /\
      db_answers (sv after) (dv after) dbo (iv_cells iv) /\
      iv_precompiles iv = js_precompiles s /\
      (js_enter s', js_exit s', js_step s', js_fault s', js_stack s', js_precompiles_registered s', js_precompiles s') =
      (js_enter s, js_exit s, js_step s, js_fault s, js_stack s, js_precompiles_registered s, js_precompiles s).
Proof.
  intros js en ex st fa l s op_text sv dv r after env tc _. destruct (result_state js s r after env tc) as (iv & Hiv & ->).
  exists iv, (db_object sv dv (mkDbRef (length (js_cells s)) (S (length (js_cells s))))). cbn [fst js_log].
  split_and!; [done|by rewrite Hiv| |by rewrite Hiv|done].
  rewrite Hiv. cbn [iv_cells]. apply db_ok_in; cbn [dr_state dr_db].
  - rewrite lookup_app_l by (rewrite app_length; cbn; lia). rewrite list_lookup_middle by done. done.
  - rewrite lookup_app_r by (rewrite app_length; cbn; lia). rewrite app_length. cbn [length].
    replace (S (length (js_cells s)) - (length (js_cells s) + 1))%nat with 0%nat by lia. done.
Qed.
Print Assumptions C131_called.

(** Once a function of the script has returned, [result] included, no object it was given gives data any more; while it
    runs, the objects it is given are the only ones that do. *)
Theorem C131_guards :
  forall js en ex st fa l s,
    session js (js_new_state en ex st fa) l = Ok s ->
    (forall i, ~ live (js_cells s) i) /\
    (forall p iv, js_log s !! p = Some iv -> forall i, live (iv_cells iv) i <-> In i (handles (iv_call iv))) /\
    (forall p q earlier later i, (p < q)%nat -> js_log s !! p = Some earlier -> js_log s !! q = Some later ->
       In i (handles (iv_call earlier)) -> ~ live (iv_cells later) i).
Proof.
  intros js en ex st fa l s Hr. apply guarded_session in Hr; [|apply guarded_new]. destruct Hr as (H1 & H2 & _ & H3).
  rewrite Forall_lookup in H2. split_and!; [done|done|].
  intros p q a b i Hpq Ha Hb Hi Hl. apply (H2 q b Hb) in Hl. by eapply handles_distinct.
Qed.
Print Assumptions C131_guards.

(** A script that keeps a database object it was given, by [result] or by an earlier hook: every read throws, whatever the
    arguments and whatever happened since. *)
Theorem C131_kept :
  forall js en ex st fa l s op_text sv dv p iv o name args,
    session js (js_new_state en ex st fa) l = Ok s ->
    js_log s !! p = Some iv -> call_objects op_text sv dv (iv_call iv) !! 1%nat = Some o ->
    name ∈ ["exists"; "getBalance"; "getNonce"; "getCode"; "getState"]%string ->
    raises o [name] (js_cells s) args.
Proof.
  intros js en ex st fa l s op_text sv dv p iv o name args Hr Hp Ho Hn.
  destruct (C131_guards _ _ _ _ _ _ _ Hr) as (Hd & _ & _).
  assert (exists d, o = db_object sv dv d) as [d ->].
  { destruct (iv_call iv) as [f|r|lg d|lg d|x d]; cbn in Ho; try discriminate Ho; injection Ho as <-; by exists d. }
  assert (Hst : state_in sv (js_cells s) (dr_state d) = None).
  { unfold state_in. destruct (js_cells s !! dr_state d) as [[g|]|] eqn:E; [|done..]. exfalso. apply (Hd (dr_state d)). by exists g. }
  assert (Hdb : db_in dv (js_cells s) (dr_db d) = None).
  { unfold db_in. destruct (js_cells s !! dr_db d) as [[g|]|] eqn:E; [|done..]. exfalso. apply (Hd (dr_db d)). by exists g. }
  destruct C59_dead_reads as (_ & _ & _ & _ & H1 & H2).
  rewrite !elem_of_cons, elem_of_nil in Hn.
  destruct Hn as [->|[->|[->|[->|[->|[]]]]]]; unfold raises; cbn; rewrite Hst, Hdb;
    rewrite ?(proj1 (H1 _)), ?(proj1 (proj2 (H1 _))), ?(proj1 (proj2 (proj2 (H1 _)))), ?(proj2 (proj2 (proj2 (H1 _)))), ?H2; reflexivity.
Qed.
Print Assumptions C131_kept.

(** What the caller of [json_result] receives: an error if the function threw, and otherwise what C125 says of the value
    it returned. *)
Theorem C131_received :
  forall js value escaped en ex st fa l s r after env tc,
    session js (js_new_state en ex st fa) l = Ok s ->
    exists iv,
      let '(s', received) := json_result js value escaped s r after env tc in
      js_log s' = js_log s ++ [iv] /\
      s' = fst (js_result js s r after env tc) /\
      (js (js_log s) iv <> None -> received = Ok None) /\
      (js (js_log s) iv = None -> received = JsJson.json_result escaped (Some (value (js_log s) iv))).
Proof.
  intros js value escaped en ex st fa l s r after env tc _. destruct (result_state js s r after env tc) as (iv & Hiv & E).
  exists iv. unfold json_result, result. rewrite E. cbn [js_log fst]. rewrite last_snoc.
  split_and!; [done|done| |]; destruct (js (js_log s) iv); done.
Qed.
Print Assumptions C131_received.

(** The example transaction and then two results: the first throws, the second gives [1]. *)
Definition ex_script : program := fun log iv =>
  match iv_call iv with JResult _ _ => if (length log =? 26)%nat then Some [] else None | _ => None end.
Definition ex_ask : act := AResult (ESuccess 5 (OutCall [])) (ctx_of ex_world 0 ex_j1) (mkJsEnv 1 None [] 9 3 0 7 7) (mkTxContext None None None).
Example C131_example :
  exists s, session ex_script (js_new_state true true true true) (map AHook (tx_events ex_world ex_tx) ++ [ex_ask]) = Ok s /\
    length (js_log s) = 27%nat /\
    exists s', session ex_script s [ex_ask] = Ok s' /\ length (js_log s') = 28%nat /\
    snd (json_result ex_script (fun _ _ => JsJson.JNum (map Byte.to_N (txt "1"))) (fun _ => []) s (ESuccess 5 (OutCall [])) (ctx_of ex_world 0 ex_j1) (mkJsEnv 1 None [] 9 3 0 7 7)
          (mkTxContext None None None)) = Ok (Some (JsJson.SNum (map Byte.to_N (txt "1")))).
Proof. eexists. split; [vm_compute; reflexivity|]. split; [reflexivity|]. eexists. split; [vm_compute; reflexivity|]. split; vm_compute; reflexivity. Qed.
