(** * PropertiesJsObjects: the answers a JavaScript tracer gets from the objects it is given (C77-C79) *)

From Verif Require Import PropertiesJs JsObjectProofs Examples.
Local Open Scope N_scope.

(** The objects a callback is called with. *)
Notation objects op_text sv dv iv := (call_objects op_text sv dv (iv_call iv)).

(** ** C77: numbers *)

(** [log.getGas()] is the remaining gas. *)
Definition C77_statement : Prop :=
  forall op_text sv dv js en ex fa w f s',
    run (js_handle js) (js_new_state en ex true fa) (tx_events w f) = Ok s' ->
    Forall2 (fun iv x => exists log, objects op_text sv dv iv !! 0%nat = Some log /\
               forall args, answers log ["getGas"]%string (iv_cells iv) args (exactly (g_remaining (in_gas (op_pre (snd x))))))
      (List.filter (of_kind is_jstep) (js_log s')) (executed 0 f).

Lemma seen_view x y (v : view) : x = y ->
  match x with SStep v | SFault v => v | _ => v end = match y with SStep v | SFault v => v | _ => v end.
Proof. by intros ->. Qed.
Lemma steps_pair js en ex fa w f s' (P : invocation -> fstart * nat * instr -> Prop) :
  run (js_handle js) (js_new_state en ex true fa) (tx_events w f) = Ok s' ->
  (forall iv l db s d o, iv_call iv = JStep l db -> view_of (iv_cells iv) l db = step_view w s d o -> P iv (s, d, o)) ->
  Forall2 P (List.filter (of_kind is_jstep) (js_log s')) (executed 0 f).
Proof.
  intros Hr HP. apply C68_steps in Hr. unfold shown in Hr.
  rewrite (filter_seen is_jstep) in Hr by (intros iv; unfold seen_of, of_kind; by destruct (iv_call iv)).
  eapply Forall2_of_map; [exact Hr|]. intros iv [[s d] o] Hv. unfold seen_of in Hv.
  destruct (iv_call iv) as [fr|r|l db|l db|x db] eqn:Ec; try discriminate Hv. eapply HP; [exact Ec|].
  exact (seen_view _ _ (step_view w s d o) Hv).
Qed.

(** A frame with more gas than a double can count. *)
Definition ex_rich : frame :=
  Frame (SCall ex_j0 (mkCallInputs [] 90000 0xC0 0xC0 0xAA (Transfer 7) CSCall false)%N)
    [ IOp (ex_op OP_STOP 0 [] [] (2 ^ 53 + 1)%N ex_j0 [] Stop) ] (ex_end Stop None).

Theorem C77_refuted : ~ C77_statement.
Proof.
  intros H. destruct (quiet_run (fun _ _ => None) false false true false ex_world ex_rich) as (s' & H1 & _); [done|].
  pose proof (H (fun _ => []) (fun _ => mkSV (fun _ => None) (fun _ _ => None))
                (fun _ => mkDV (fun _ => None) (fun _ => None) (fun _ _ => None)) _ _ _ _ _ _ _ H1) as H2.
  pose proof (steps_pair _ _ _ _ _ _ _ (fun iv x => exists l db, iv_call iv = JStep l db /\
    sg_gas_remaining l = g_remaining (in_gas (op_pre (snd x)))) H1) as H3. clear H H1.
  assert (H4 : forall iv l db s d o, iv_call iv = JStep l db -> view_of (iv_cells iv) l db = step_view ex_world s d o ->
    exists l' db', iv_call iv = JStep l' db' /\ sg_gas_remaining l' = g_remaining (in_gas (op_pre (snd (s, d, o))))).
  { intros iv l db s d o Hc Hv. exists l, db. split; [done|]. exact (f_equal vw_gas Hv). }
  specialize (H3 H4). clear H4. destruct (executed 0 ex_rich) as [|x xs] eqn:Ex; [discriminate Ex|].
  assert (Hx : g_remaining (in_gas (op_pre (snd x))) = 2 ^ 53 + 1).
  { apply (f_equal (fun l => match l with x :: _ => g_remaining (in_gas (op_pre (snd x))) | [] => 0 end)) in Ex. by rewrite <- Ex. }
  clear Ex. destruct (Forall2_lookup_r _ _ _ 0 x H2 eq_refl) as (iv & Hiv & H5).
  pose proof (Forall2_lookup_lr _ _ _ 0 iv x H3 Hiv eq_refl) as H6. clear H2 H3 Hiv. cbv beta in H5, H6.
  destruct H6 as (l & db & Hc & Hg). rewrite Hc in H5. destruct H5 as (log & Hlog & Ha). apply (inj Some) in Hlog as <-.
  destruct (Ha []) as (v & Hv & He). unfold exactly in He. rewrite Hx in *. subst v.
  assert (Hv' : Some (Ok (JReturn (js_u64 (2 ^ 53 + 1)))) = Some (Ok (JReturn (ONum (JFinite (inject_Z (Z.of_N (2 ^ 53 + 1)))))))).
  { rewrite <- Hv, <- Hg. reflexivity. }
  vm_compute in Hv'. discriminate Hv'.
Qed.
Print Assumptions C77_refuted.

(** Every number is the double nearest to the value, hence exact up to 2^53 and whenever a double can hold the value. *)
Theorem C77_numbers_partial :
  (forall op_text sv dv js en ex fa w f s',
     run (js_handle js) (js_new_state en ex true fa) (tx_events w f) = Ok s' ->
     Forall2 (fun iv x => exists log, objects op_text sv dv iv !! 0%nat = Some log /\
                forall args, answers log ["getGas"]%string (iv_cells iv) args (fun v =>
                  about (g_remaining (in_gas (op_pre (snd x)))) v /\
                  (g_remaining (in_gas (op_pre (snd x))) <= 2 ^ 53 -> exactly (g_remaining (in_gas (op_pre (snd x)))) v)))
       (List.filter (of_kind is_jstep) (js_log s')) (executed 0 f)) /\
  (forall v, about v (js_u64 v)) /\
  (forall v o, about v o -> v <= 2 ^ 53 \/ double v -> exactly v o).
Proof.
  assert (Hex : forall v o, about v o -> v <= 2 ^ 53 \/ double v -> exactly v o).
  { intros v o (m & Hm & Hn) Hv. apply nearest_exact in Hn as ->; [done|]. destruct Hv; [by apply double_small|done]. }
  split_and!; [|exact js_u64_about|exact Hex].
  intros op_text sv dv js en ex fa w f s' Hr. eapply steps_pair; [exact Hr|].
  intros iv l db s d o Hc Hv. rewrite Hc. eexists. split; [reflexivity|]. intros args. eexists. split; [reflexivity|].
  pose proof (f_equal vw_gas Hv) as Hg. cbn [view_of step_view instr_view vw_gas] in Hg. rewrite Hg.
  split; [apply js_u64_about|]. intros Hle. apply Hex; [apply js_u64_about|by left].
Qed.
Print Assumptions C77_numbers_partial.

Example C77_example : f64_of (2 ^ 53 + 3) = 2 ^ 53 + 4 /\ f64_of (2 ^ 64 - 1) = 2 ^ 64 /\ f64_of 12345678901 = 12345678901.
Proof. vm_compute. done. Qed.

(** ** C78: what step, fault, enter and exit can read *)

(** Every step callback gets a log object and a database object that answer for the instruction about to run. *)
Theorem C78_step_objects :
  forall op_text sv dv js en ex fa w f s',
    run (js_handle js) (js_new_state en ex true fa) (tx_events w f) = Ok s' ->
    Forall2 (fun iv x => match x with (s, d, o) =>
               let c := ctx_of w d (op_pre_j o) in
               exists log db, objects op_text sv dv iv = [log; db] /\
               (holdable (op_pre o) -> step_answers op_text log (iv_cells iv) s c None (op_pre o)) /\
               db_answers (sv c) (dv c) db (iv_cells iv) end)
      (List.filter (of_kind is_jstep) (js_log s')) (executed 0 f).
Proof.
  intros op_text sv dv js en ex fa w f s' Hr. eapply steps_pair; [exact Hr|].
  intros iv l db s d o Hc Hv. rewrite Hc. eexists _, _. split_and!; [reflexivity| |].
  - intros Hh. eapply step_ok; [exact Hh|exact Hv].
  - eapply db_ok. exact Hv.
Qed.
Print Assumptions C78_step_objects.

(** A fault callback gets the same objects for the failed instruction, after it ran, with its error. *)
Theorem C78_fault_objects :
  forall op_text sv dv js en ex w f s',
    run (js_handle js) (js_new_state en ex true true) (tx_events w f) = Ok s' ->
    Forall2 (fun iv x => match x with (s, d, o) =>
               let c := ctx_of w d (op_post_j o) in
               exists log db, objects op_text sv dv iv = [log; db] /\
               (holdable (op_post o) ->
                step_answers op_text log (iv_cells iv) s c (Some (ir_debug (in_result (op_post o)))) (op_post o)) /\
               db_answers (sv c) (dv c) db (iv_cells iv) end)
      (List.filter (of_kind is_jfault) (js_log s')) (List.filter (fun x => reverts (in_result (op_post (snd x)))) (executed 0 f)).
Proof.
  intros op_text sv dv js en ex w f s' Hr. apply C69_faults_partial in Hr. cbn [andb] in Hr. unfold shown in Hr.
  rewrite (filter_seen is_jfault) in Hr by (intros iv; unfold seen_of, of_kind; by destruct (iv_call iv)).
  eapply Forall2_of_map; [exact Hr|]. intros iv [[s d] o] Hv. unfold seen_of in Hv.
  destruct (iv_call iv) as [fr|r|l db|l db|x db] eqn:Ec; try discriminate Hv.
  apply (seen_view _ _ (step_view w s d o)) in Hv.
  eexists _, _. split_and!; [reflexivity| |].
  - intros Hh. eapply step_ok; [exact Hh|exact Hv].
  - eapply db_ok. exact Hv.
Qed.
Print Assumptions C78_fault_objects.

(** An enter callback gets an object that answers for the frame being entered. *)
Theorem C78_enter_objects :
  forall op_text sv dv js ex st fa w f s',
    run (js_handle js) (js_new_state true ex st fa) (tx_events w f) = Ok s' ->
    Forall2 (fun iv s => exists fr, objects op_text sv dv iv = [fr] /\ frame_answers fr (iv_cells iv) s)
      (List.filter (of_kind is_jenter) (js_log s')) (entered_frames f).
Proof.
  intros op_text sv dv js ex st fa w f s' Hr. apply C56_scopes_partial in Hr as [Hr _]. specialize (Hr (or_introl eq_refl)).
  apply (f_equal (List.filter is_enter)) in Hr.
  rewrite (filter_filter_sub is_enter is_scope) in Hr by (by intros []).
  rewrite (filter_filter_sub is_enter (defined true ex)) in Hr by (by intros []).
  rewrite entered_scopes in Hr. unfold shown in Hr.
  rewrite (filter_seen is_jenter) in Hr by (intros iv; unfold seen_of, of_kind; by destruct (iv_call iv)).
  eapply Forall2_of_map; [exact Hr|]. intros iv s Hv. unfold seen_of in Hv.
  destruct (iv_call iv) as [fr|r|l db|l db|x db] eqn:Ec; try discriminate Hv. injection Hv as ->.
  eexists. split; [reflexivity|]. apply js_frame_ok.
Qed.
Print Assumptions C78_enter_objects.

(** An exit callback gets an object that answers for the closed scope (the error is missing: C71). *)
Theorem C78_exit_objects :
  forall op_text sv dv js st fa w f s',
    run (js_handle js) (js_new_state true true st fa) (tx_events w f) = Ok s' ->
    Forall2 (fun iv e => exists r, objects op_text sv dv iv = [r] /\
               result_answers r (iv_cells iv)
                 (match e with Some e => g_limit (ir_gas (fe_result e)) - g_remaining (ir_gas (fe_result e)) | None => 0 end)
                 (match e with Some e => ir_output (fe_result e) | None => [] end))
      (List.filter (of_kind is_jexit) (js_log s')) (scope_ends f).
Proof.
  intros op_text sv dv js st fa w f s' Hr.
  pose proof (exits_inner f) as Hi. apply (exits_shown _ _ _ _ _ _ _ _ eq_refl) in Hr. rewrite <- Hr in Hi. clear Hr.
  unfold shown in Hi.
  rewrite (filter_seen is_jexit) in Hi by (intros iv; unfold seen_of, of_kind; by destruct (iv_call iv)).
  apply Forall2_fmap_l in Hi. eapply Forall2_impl; [exact Hi|]. intros iv e Hv. unfold compose in Hv. cbv beta in Hv. unfold seen_of in Hv.
  destruct (iv_call iv) as [fr|r|l db|l db|x db] eqn:Ec; try discriminate Hv. cbv beta iota in Hv.
  apply (f_equal (fun x => match x with SExit r => r | _ => empty_result end)) in Hv. cbv beta iota in Hv. subst r.
  eexists. split; [reflexivity|]. destruct e as [e|]; by apply (js_result_ok (spec_result e)) || by apply (js_result_ok empty_result).
Qed.
Print Assumptions C78_exit_objects.

(** The objects have exactly these properties. *)
Theorem C78_properties :
  forall op_text sv dv c,
    map keys (call_objects op_text sv dv c) =
    match c with
    | JEnter _ => [["getFrom"; "getTo"; "getValue"; "getInput"; "getGas"; "getType"]]
    | JExit _ => [["getGasUsed"; "getOutput"; "getError"]]
    | JStep _ _ | JFault _ _ =>
        [["op"; "memory"; "stack"; "contract"; "getPC"; "getError"; "getGas"; "getCost"; "getDepth"; "getRefund"];
         ["getBalance"; "getNonce"; "getCode"; "getState"; "exists"]]
    | JResult x _ =>
        [(["type"; "from"; "to"; "input"; "gas"; "gasUsed"; "gasPrice"; "intrinsicGas"; "value"; "block"; "output"; "time"]
           ++ (if tc_block_hash (jx_tx x) then ["blockHash"] else []) ++ (if tc_tx_index (jx_tx x) then ["txIndex"] else [])
           ++ (if tc_tx_hash (jx_tx x) then ["txHash"] else []))%list;
         ["getBalance"; "getNonce"; "getCode"; "getState"; "exists"]]
    end%string.
Proof.
  intros op_text sv dv [f|r|l d|l d|x d]; try reflexivity.
  destruct x as [ty fr to inp g gu gp ig v b o t [[bh|] [ti|] [th|]]]; reflexivity.
Qed.
Print Assumptions C78_properties.

Example C78_example :
  exists s', run (js_handle (fun _ _ => None)) (js_new_state true true true true) (tx_events ex_world ex_tx) = Ok s' /\
    length (List.filter (of_kind is_jstep) (js_log s')) = 13%nat /\ length (List.filter (of_kind is_jfault) (js_log s')) = 1%nat /\
    length (List.filter (of_kind is_jenter) (js_log s')) = 6%nat /\ length (List.filter (of_kind is_jexit) (js_log s')) = 6%nat.
Proof. eexists. split; [vm_compute; reflexivity|]. vm_compute. done. Qed.
Example C78_example_values : position (JFinite 1) 1 /\ first_number [mkArg (Some (JFinite 1)) VOther] (JFinite 1) /\
  first_buffer [mkArg None (VArray [Some (JFinite 1)])] [x01] /\ first_number [] JNaN /\ no_number [mkArg None VOther] 0 /\ no_buffer [] 1 /\ Forall holdable (map (fun x => op_pre (snd x)) (executed 0 ex_tx)).
Proof.
  split_and!; [by constructor|done|eexists; by split|done|by eexists|done|].
  apply (Forall_impl (fun i => (N.of_nat (length (in_stack i)) <=? USIZE_MAX) && (N.of_nat (length (in_memory i)) <=? USIZE_MAX) = true)).
  - apply List.Forall_forall, List.forallb_forall. vm_compute. reflexivity.
  - intros i Hi. apply andb_prop in Hi as [H1 H2]. split; by apply N.leb_le.
Qed.

(** ** C79: the context object of result *)

(** [ctx.time] is documented as a number (bindings.rs:677). *)
Definition C79_statement : Prop :=
  forall r env tc, je_timestamp env < 2 ^ 53 ->
    exists v, js_prop (context_object (js_result_ctx r env tc)) "time" = Some v /\ exactly (je_timestamp env) v.
(** It is a string: [ctx.time + 1] concatenates (mod.rs:268, bindings.rs:717). *)
Theorem C79_refuted : ~ C79_statement.
Proof.
  intros H. destruct (H (EHalt 0) (mkJsEnv 0 None [] 0 0 0 0 0) (mkTxContext None None None)) as (v & Hv & He); [done|].
  vm_compute in Hv. injection Hv as <-. discriminate He.
Qed.
Print Assumptions C79_refuted.

(** A property of the context object. *)
Definition prop_is (o : jsobject) (name : string) (P : jsout -> Prop) : Prop := exists v, js_prop o name = Some v /\ P v.

Theorem C79_context_partial :
  forall r env tc, let o := context_object (js_result_ctx r env tc) in
    prop_is o "type" (text (txt (match je_to env with Some _ => "CALL" | None => "CREATE" end))) /\
    prop_is o "from" (word 20 (je_caller env mod 2 ^ 160)) /\
    prop_is o "to" (match (match je_to env, r with Some t, _ => Some t | None, ESuccess _ (OutCreate _ a) => a | _, _ => None end) with
                    | Some t => word 20 (t mod 2 ^ 160) | None => fun v => v = ONull end) /\
    prop_is o "input" (raw (je_data env)) /\
    prop_is o "output" (raw (match r with ESuccess _ (OutCall o) | ESuccess _ (OutCreate o _) | ERevert _ o => o | EHalt _ => [] end)) /\
    prop_is o "gas" (about (je_gas_limit env)) /\
    prop_is o "gasUsed" (about (match r with ESuccess g _ | ERevert g _ | EHalt g => g end)) /\
    (je_gas_price env < 2 ^ 64 -> prop_is o "gasPrice" (about (je_gas_price env))) /\
    prop_is o "value" (big (je_value env)) /\
    (je_number env < 2 ^ 64 -> prop_is o "block" (about (je_number env))) /\
    prop_is o "time" (fun v => exists t, text t v /\ numeral 0 t = Some (je_timestamp env)) /\
    (forall h, tc_block_hash tc = Some h -> h < 2 ^ 256 -> prop_is o "blockHash" (word 32 h)) /\
    (forall i, tc_tx_index tc = Some i -> prop_is o "txIndex" (about i)) /\
    (forall h, tc_tx_hash tc = Some h -> h < 2 ^ 256 -> prop_is o "txHash" (word 32 h)) /\
    (tc_block_hash tc = None -> js_prop o "blockHash" = None) /\ (tc_tx_index tc = None -> js_prop o "txIndex" = None) /\
    (tc_tx_hash tc = None -> js_prop o "txHash" = None) /\
    prop_is o "intrinsicGas" (exactly 0).
Proof.
  intros r env tc o.
  destruct (C72_result_context_partial r env tc) as (H1 & H2 & H3 & H4 & H5 & H6 & H7 & H8 & H9 & _ & H10 & H11).
  assert (Ht : jx_time (js_result_ctx r env tc) = dec_text (je_timestamp env)).
  { unfold js_result_ctx. by destruct r as [g [x|x a]|g x|g], (je_to env). }
  assert (Hi : jx_intrinsic_gas (js_result_ctx r env tc) = 0).
  { unfold js_result_ctx. by destruct r as [g [x|x a]|g x|g], (je_to env). }
  subst o. set (x := js_result_ctx r env tc) in *. clearbody x.
  assert (Hp : forall n v, js_prop (context_object x) n = Some v -> forall P : jsout -> Prop, P v -> prop_is (context_object x) n P).
  { intros n v Hv P HP. by exists v. }
  destruct x as [ty fr to inp gas used price intr val blk out tm [bh ti th]]. cbn in H1, H2, H3, H4, H5, H6, H7, H8, H9, H10, H11, Ht, Hi.
  rewrite <- H11. clear H11 tc. subst ty fr inp gas val out used tm intr. cbn [tc_block_hash tc_tx_index tc_tx_hash].
  unfold context_object in *. cbn [jx_tx tc_block_hash tc_tx_index tc_tx_hash] in *.
  split_and!.
  1: eapply Hp; [by destruct bh, ti, th|]. 1: done.
  1: eapply Hp; [by destruct bh, ti, th|]. 1: apply address_bytes_word.
  1:{ eapply Hp; [by destruct bh, ti, th|]. cbn [jx_to]. rewrite H2. destruct (je_to env) as [t|]; [apply address_bytes_word|].
      destruct r as [g [y|y [a|]]|g y|g]; try done. apply address_bytes_word. }
  1: eapply Hp; [by destruct bh, ti, th|]. 1: done.
  1: eapply Hp; [by destruct bh, ti, th|]. 1: done.
  1: eapply Hp; [by destruct bh, ti, th|]. 1: apply js_u64_about.
  1: eapply Hp; [by destruct bh, ti, th|]. 1: apply js_u64_about.
  1: intros Hle; rewrite <- (H9 Hle); eapply Hp; [by destruct bh, ti, th|]. 1: apply js_u64_about.
  1: eapply Hp; [by destruct bh, ti, th|]. 1: apply to_bigint_big.
  1: intros Hle; rewrite <- (H10 Hle); eapply Hp; [by destruct bh, ti, th|]. 1: apply js_u64_about.
  1:{ eapply Hp; [by destruct bh, ti, th|]. eexists. split; [done|]. rewrite numeral_parse. apply dec_text_spec. }
  - intros h -> Hh. eapply Hp; [by destruct ti, th|]. by apply hash_bytes_word.
  - intros i ->. eapply Hp; [by destruct bh, th|]. apply js_u64_about.
  - intros h -> Hh. eapply Hp; [by destruct bh, ti|]. by apply hash_bytes_word.
  - intros ->. by destruct ti, th.
  - intros ->. by destruct bh, th.
  - intros ->. by destruct bh, ti.
  - eapply Hp; [by destruct bh, ti, th|]. done.
Qed.
Print Assumptions C79_context_partial.

Example C79_example :
  keys (context_object (js_result_ctx (ESuccess 5 (OutCreate [] (Some 0xE0))) (mkJsEnv 1 None [] 9 3 0 7 7) (mkTxContext (Some 1) None (Some 2)))) =
  ["type"; "from"; "to"; "input"; "gas"; "gasUsed"; "gasPrice"; "intrinsicGas"; "value"; "block"; "output"; "time"; "blockHash"; "txHash"]%string.
Proof. reflexivity. Qed.
