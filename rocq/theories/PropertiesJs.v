(** * PropertiesJs: the JavaScript tracer (C53-C59, C66-C73, C88) *)

From Verif Require Import JsProofs JsPanicProofs Examples.
Local Open Scope N_scope.

(** ** C53: buffers become addresses and words by right alignment *)

Theorem C53_right_aligned :
  forall v buf, from_buf_value v = JReturn buf ->
    (exists a, to_address v = Ok (JReturn a) /\ length a = 20%nat /\ be_value a = be_value buf mod 2 ^ 160 /\
       a = replicate (20 - length buf) x00 ++ drop (length buf - 20) buf) /\
    (exists h, to_word v = Ok (JReturn h) /\ length h = 32%nat /\ be_value h = be_value buf mod 2 ^ 256 /\
       h = replicate (32 - length buf) x00 ++ drop (length buf - 32) buf).
Proof.
  intros v buf Hb. unfold to_address, to_word, with_buf, bytes_to_address, bytes_to_hash. rewrite Hb. split.
  - destruct (bytes_to_array_spec 20 buf) as (a & H1 & H2 & H3). exists a. rewrite H1. split; [done|]. split; [done|].
    split; [done|]. rewrite bytes_to_array_eq in H1. by injection H1.
  - destruct (bytes_to_array_spec 32 buf) as (a & H1 & H2 & H3). exists a. rewrite H1. split; [done|]. split; [done|].
    split; [done|]. rewrite bytes_to_array_eq in H1. by injection H1.
Qed.
Print Assumptions C53_right_aligned.

(** Every way of giving bytes is understood, and anything else throws instead of panicking. *)
Theorem C53_buffers :
  (forall buf, from_buf_value (VTypedArray (map (fun b => Some (num_byte b)) buf)) = JReturn buf) /\
  (forall buf, from_buf_value (VArrayBuffer (Some buf)) = JReturn buf) /\
  (forall buf, from_buf_value (VArray (map (fun b => Some (num_byte b)) buf)) = JReturn buf) /\
  (forall v, (exists buf, from_buf_value v = JReturn buf) \/ (to_address v = Ok JThrow /\ to_word v = Ok JThrow)).
Proof.
  split_and!.
  - intros buf. cbn [from_buf_value]. apply array_bytes_num.
  - done.
  - intros buf. cbn [from_buf_value]. apply array_bytes_num.
  - intros v. unfold to_address, to_word, with_buf. destruct (from_buf_value v); [left; by eexists|by right].
Qed.
Print Assumptions C53_buffers.

(** Exactly the bytes the value stands for are read; a value standing for none throws. *)
Theorem C53_values :
  forall v, (forall buf, from_buf_value v = JReturn buf <-> bytes_of_val v buf) /\
    ((forall buf, ~ bytes_of_val v buf) -> from_buf_value v = JThrow /\ to_address v = Ok JThrow /\ to_word v = Ok JThrow /\
       to_hex v = Ok JThrow).
Proof.
  intros v. split; [intros buf; apply from_buf_value_spec|]. intros H. unfold to_address, to_word, to_hex, with_buf.
  destruct (from_buf_value v) as [buf|] eqn:E; [|done]. destruct (H buf). by apply from_buf_value_spec.
Qed.
Print Assumptions C53_values.

Example C53_values_example :
  bytes_of_val (VArray [Some (JFinite (1 # 2)); Some (JFinite (inject_Z 300)); Some JNaN]) [x00; xff; x00] /\
  from_buf_value (VArray [Some (JFinite 1); None]) = JThrow /\
  bytes_of_val (VString (Some [x30; x78; x41; x62])) [xab].
Proof. split_and!; [apply from_buf_value_spec| |apply from_buf_value_spec]; vm_compute; reflexivity. Qed.

Example C53_example : to_address (VArray [Some (JFinite 1); Some (JFinite 255)]) = Ok (JReturn (replicate 18 x00 ++ [x01; xff])).
Proof. vm_compute. reflexivity. Qed.
Example C53_long : to_address (VArrayBuffer (Some (xaa :: replicate 19 x00 ++ [x07]))) = Ok (JReturn (replicate 19 x00 ++ [x07])).
Proof. vm_compute. reflexivity. Qed.

(** ** C54: memory.slice *)

Definition C54_statement : Prop :=
  forall mem start end_, N.of_nat (length mem) <= USIZE_MAX ->
    (forall i j, in_range start end_ (N.of_nat (length mem)) i j ->
       mem_slice (Some mem) (Some start) (Some end_) = Ok (JReturn (range mem i j))) /\
    ((~ exists i j, in_range start end_ (N.of_nat (length mem)) i j) ->
       mem_slice (Some mem) (Some start) (Some end_) = Ok JThrow).

(** The end is compared the wrong way round (bindings.rs:277): [slice(0, 16)] of 32 bytes throws ... *)
Theorem C54_refuted : ~ C54_statement.
Proof.
  intros H. destruct (H (replicate 32 x00) (JFinite 0) (JFinite (inject_Z 16))) as [H1 _]; [done|].
  specialize (H1 0 16). assert (Hr : in_range (JFinite 0) (JFinite (inject_Z 16)) (N.of_nat (length (replicate 32 x00))) 0 16).
  { exists 0%Q, (inject_Z 16). split_and!; try reflexivity; try (apply Qle_bool_iff; reflexivity);
      constructor; (apply Qle_bool_iff; reflexivity) || (apply Qlt_int; done). }
  apply H1 in Hr. vm_compute in Hr. discriminate Hr.
Qed.
Print Assumptions C54_refuted.

(** ... and [slice(0, 64)] of 32 bytes panics. *)
Theorem C54_panics_refuted : ~ forall mem start end_, exists r, mem_slice (Some mem) (Some start) (Some end_) = Ok r.
Proof. intros H. destruct (H (replicate 32 x00) (JFinite 0) (JFinite (inject_Z 64))) as [r Hr]. vm_compute in Hr. discriminate Hr. Qed.
Print Assumptions C54_panics_refuted.

(** What holds: a range that extends to the very end of the memory is read correctly; a negative start or an end before
    the start throws; any end before the end of the memory throws; and an end beyond the end of the memory, with none
    of these, always panics. *)
Theorem C54_slice_partial :
  forall mem start end_, N.of_nat (length mem) <= USIZE_MAX ->
    (forall i, in_range start end_ (N.of_nat (length mem)) i (N.of_nat (length mem)) ->
       mem_slice (Some mem) (Some start) (Some end_) = Ok (JReturn (range mem i (N.of_nat (length mem))))) /\
    (number_lt start (JFinite 0) \/ number_lt end_ start -> mem_slice (Some mem) (Some start) (Some end_) = Ok JThrow) /\
    (forall j, position end_ j -> j < N.of_nat (length mem) -> mem_slice (Some mem) (Some start) (Some end_) = Ok JThrow) /\
    (~ number_lt start (JFinite 0) -> ~ number_lt end_ start -> N.of_nat (length mem) < USIZE_MAX ->
     end_ = JPosInf \/ (exists j, position end_ j /\ N.of_nat (length mem) < j) ->
     exists p, mem_slice (Some mem) (Some start) (Some end_) = Panic p) /\
    (mem_slice (Some mem) None (Some end_) = Ok JThrow /\ mem_slice (Some mem) (Some start) None = Ok JThrow).
Proof.
  intros mem start end_ Hu. split_and!.
  - intros i. by apply slice_to_end.
  - intros H. unfold mem_slice. assert (He : jlt end_ start || jlt start jzero = true).
    { rewrite <- !jlt_number in H. fold jzero in H. destruct H as [->| ->]; [apply orb_true_r|done]. }
    by rewrite He.
  - intros j. by apply slice_short.
  - rewrite <- !jlt_number_false. fold jzero. intros H1 H2 H3 H4. assert (He : N.of_nat (length mem) < as_usize end_).
    { destruct H4 as [->|(j & Hj & Hl)]; [done|]. destruct (N.le_gt_cases j USIZE_MAX) as [Hle|Hgt].
      - by rewrite (position_usize _ _ Hj).
      - by rewrite (position_usize_big _ _ Hj). }
    unfold mem_slice. rewrite H1, H2. cbn [orb mem_len mem_read].
    destruct (N.ltb_spec (as_usize end_) (N.of_nat (length mem))); [lia|].
    destruct (N.ltb_spec (as_usize end_) (as_usize start)); [by eexists|].
    unfold sm_slice. destruct (N.leb_spec (as_usize start + (as_usize end_ - as_usize start)) (N.of_nat (length mem))); [lia|].
    by eexists.
  - done.
  - done.
Qed.
Print Assumptions C54_slice_partial.

Example C54_example : mem_slice (Some [x01; x02; x03]) (Some (JFinite 1)) (Some (JFinite (inject_Z 3))) = Ok (JReturn [x02; x03]).
Proof. vm_compute. reflexivity. Qed.

(** ** C55: memory.getUint and stack.peek *)

Definition C55_statement : Prop :=
  forall mem st n, N.of_nat (length mem) <= USIZE_MAX -> N.of_nat (length st) <= USIZE_MAX ->
    (forall i, position n i -> i + 32 <= N.of_nat (length mem) ->
       mem_get_uint (Some mem) (Some n) = Ok (JReturn (range mem i (i + 32)))) /\
    ((~ exists i, position n i /\ i + 32 <= N.of_nat (length mem)) -> mem_get_uint (Some mem) (Some n) = Ok JThrow) /\
    (forall i, position n i -> i < N.of_nat (length st) ->
       exists v, st !! (length st - 1 - N.to_nat i)%nat = Some v /\
         stack_peek (N.of_nat (length st)) (Some st) (Some n) = JReturn v) /\
    ((~ exists i, position n i /\ i < N.of_nat (length st)) ->
       stack_peek (N.of_nat (length st)) (Some st) (Some n) = JThrow).

(** [getUint(Infinity)]: the offset saturates and adding 32 overflows (bindings.rs:302). *)
Theorem C55_refuted : ~ C55_statement.
Proof.
  intros H. destruct (H [] [] JPosInf) as (_ & H1 & _); [done..|].
  assert (Hn : ~ exists i, position JPosInf i /\ i + 32 <= N.of_nat (length (@nil byte))) by (intros (i & Hi & _); by inversion Hi).
  apply H1 in Hn. vm_compute in Hn. discriminate Hn.
Qed.
Print Assumptions C55_refuted.

(** Everything holds except for offsets within 32 of 2^64 (or larger, or infinite), which always panic; [peek] is right
    for all numbers. *)
Theorem C55_reads_partial :
  forall mem st n, N.of_nat (length mem) <= USIZE_MAX -> N.of_nat (length st) <= USIZE_MAX ->
    (forall i, position n i -> i + 32 <= N.of_nat (length mem) ->
       mem_get_uint (Some mem) (Some n) = Ok (JReturn (range mem i (i + 32)))) /\
    (n <> JPosInf -> (forall i, position n i -> i + 32 <= USIZE_MAX) ->
     (~ exists i, position n i /\ i + 32 <= N.of_nat (length mem)) -> mem_get_uint (Some mem) (Some n) = Ok JThrow) /\
    (n = JPosInf \/ (exists i, position n i /\ USIZE_MAX < i + 32) ->
     exists p, mem_get_uint (Some mem) (Some n) = Panic p) /\
    (forall i, position n i -> i < N.of_nat (length st) ->
       exists v, st !! (length st - 1 - N.to_nat i)%nat = Some v /\
         stack_peek (N.of_nat (length st)) (Some st) (Some n) = JReturn v) /\
    ((~ exists i, position n i /\ i < N.of_nat (length st)) ->
       stack_peek (N.of_nat (length st)) (Some st) (Some n) = JThrow).
Proof.
  intros mem st n Hm Hs. split_and!.
  - intros i. by apply get_uint_in.
  - intros Hi Hp. apply get_uint_out; [done|]. destruct (jlt n jzero) eqn:Hj.
    + destruct n as [| | |q]; [done..|]. apply jlt_zero in Hj. unfold as_usize, jcast.
      pose proof (Z.quot_opp_l (Qnum q) (Zpos (Qden q)) ltac:(done)) as Ho.
      pose proof (Z.quot_pos (- Qnum q) (Zpos (Qden q)) ltac:(lia) ltac:(lia)). unfold USIZE_MAX. lia.
    + destruct (position_exists n Hj Hi) as [i Hpi]. pose proof (Hp i Hpi). rewrite (position_usize _ _ Hpi); lia.
  - intros H. assert (Hb : USIZE_MAX < as_usize n + 32).
    { destruct H as [->|(i & Hi & Hl)]; [done|]. destruct (N.le_gt_cases i USIZE_MAX) as [Hle|Hgt].
      - by rewrite (position_usize _ _ Hi).
      - by rewrite (position_usize_big _ _ Hi). }
    unfold mem_get_uint. destruct (N.ltb_spec USIZE_MAX (as_usize n + 32)); [by eexists|lia].
  - intros i. by apply peek_in.
  - by apply peek_out.
Qed.
Print Assumptions C55_reads_partial.

(** Also when the stack is no longer as long as when the script was given the object: outside of the stack [peek] throws. *)
Theorem C55_peek_any_length :
  forall len st n, N.of_nat (length st) <= USIZE_MAX -> (~ exists i, position n i /\ i < N.of_nat (length st)) ->
  stack_peek len (Some st) (Some n) = JThrow.
Proof.
  intros len st n Hs Hn. unfold stack_peek. destruct (jlt n jzero) eqn:Hj; [by rewrite orb_true_r|]. rewrite orb_false_r.
  destruct (len <=? as_usize n); [done|]. unfold stack_ref_peek, stack_peek_rs.
  destruct (N.leb_spec (N.of_nat (length st)) (as_usize n)) as [|Hl]; [done|]. exfalso. apply Hn.
  assert (Hi : n <> JPosInf) by (intros ->; change (as_usize JPosInf) with USIZE_MAX in Hl; lia).
  destruct (position_exists n Hj Hi) as [i Hp]. exists i. split; [done|]. destruct (N.le_gt_cases i USIZE_MAX) as [Hle|Hgt].
  - by rewrite (position_usize _ _ Hp) in Hl.
  - rewrite (position_usize_big _ _ Hp) in Hl by done. lia.
Qed.
Print Assumptions C55_peek_any_length.

Example C55_example :
  mem_get_uint (Some (replicate 31 x00 ++ [x2a; x2b])) (Some (JFinite (3 # 2))) = Ok (JReturn (replicate 30 x00 ++ [x2a; x2b])) /\
  stack_peek 3 (Some [7; 8; 9]) (Some (JFinite 0)) = JReturn 9 /\
  stack_peek 3 (Some [7; 8; 9]) (Some (JFinite (- 1 # 2))) = JThrow /\
  stack_peek 3 (Some [7]) (Some (JFinite 1)) = JThrow.
Proof. vm_compute. done. Qed.

(** ** C56: enter and exit *)

(** A program that never throws. *)
Definition quiet (js : program) : Prop := forall h iv, js h iv = None.

Lemma quiet_run js en ex st fa w f : quiet js ->
  exists s', run (js_handle js) (js_new_state en ex st fa) (tx_events w f) = Ok s' /\ shown s' = t_inner en ex st fa w 0 f.
Proof.
  intros Hq. destruct (on_tx js en ex st fa w f (js_new_state en ex st fa)) as [(s' & H1 & _ & H2)|[_ H]].
  - apply inv_new.
  - exists s'. by split.
  - destruct H as (h & iv & fr & _ & _ & Hjs). by rewrite Hq in Hjs.
Qed.
Lemma any_run js en ex st fa w f s' :
  run (js_handle js) (js_new_state en ex st fa) (tx_events w f) = Ok s' -> shown s' = t_inner en ex st fa w 0 f.
Proof.
  intros Hr. destruct (on_tx js en ex st fa w f (js_new_state en ex st fa)) as [(s'' & H1 & _ & H2)|[H _]].
  - apply inv_new.
  - rewrite Hr in H1. injection H1 as <-. exact H2.
  - congruence.
Qed.

Definition C56_statement : Prop :=
  forall js en ex st fa w f s',
    run (js_handle js) (js_new_state en ex st fa) (tx_events w f) = Ok s' ->
    List.filter is_scope (shown s') = List.filter (defined en ex) (inner_scopes f).

(** Whether to call exit is decided by whether enter is defined (mod.rs:342-346). *)
Theorem C56_refuted : ~ C56_statement.
Proof.
  intros H. destruct (quiet_run (fun _ _ => None) false true false false ex_world ex_tx) as (s' & H1 & H2); [done|].
  apply H in H1. rewrite H2, scopes_exit_only in H1. apply (f_equal (@length seen)) in H1. vm_compute in H1. discriminate H1.
Qed.
Print Assumptions C56_refuted.

(** A tracer that defines enter, or does not define exit, is called exactly for the scopes of the execution; a tracer
    that only defines exit is called for selfdestructs only. *)
Theorem C56_scopes_partial :
  forall js en ex st fa w f s',
    run (js_handle js) (js_new_state en ex st fa) (tx_events w f) = Ok s' ->
    (en = true \/ ex = false -> List.filter is_scope (shown s') = List.filter (defined en ex) (inner_scopes f)) /\
    (en = false -> ex = true ->
       List.filter is_scope (shown s') =
       flat_map (fun e => match e with None => [SExit empty_result] | Some _ => [] end) (scope_ends f)).
Proof.
  intros js en ex st fa w f s' Hr. apply any_run in Hr. rewrite Hr. split.
  - intros H. by apply scopes_t_inner.
  - intros -> ->. rewrite scopes_exit_only. clear. induction f as [s body e IH] using frame_ind'.
    cbn [selfdestruct_exits scope_ends].
    assert (Hh : forall hs, flat_map (fun h => match h with HSelfdestruct _ _ _ => [SExit empty_result] | HLog _ _ => [] end) hs =
      flat_map (fun e : option fend => match e with None => [SExit empty_result] | Some _ => [] end) (flat_map hook_ends hs)).
    { induction hs as [|[j l|a b v] hs IHh]; [done|exact IHh|]. cbn [flat_map hook_ends app]. by rewrite IHh. }
    induction body as [|it body IHb]; [done|]. cbn [flat_map]. rewrite flat_map_app. f_equal.
    2:{ apply IHb. destruct it; cbn [subs flat_map] in IH; try exact IH.
        change ([f] ++ ?l) with (f :: l) in IH. by apply Forall_cons_1 in IH as [_ IH]. }
    destruct it as [o|h|g].
    + apply Hh.
    + specialize (Hh [h]). cbn [flat_map] in Hh. by rewrite !app_nil_r in Hh.
    + change (subs (ISub g :: body)) with (g :: subs body) in IH. apply Forall_cons_1 in IH as [IH _].
      rewrite flat_map_app, IH. cbn [flat_map]. by rewrite app_nil_r.
Qed.
Print Assumptions C56_scopes_partial.

(** The scopes of any execution are well nested. *)
Theorem C56_nested : forall f, nested (inner_scopes f).
Proof. exact nested_scopes. Qed.
Print Assumptions C56_nested.

Example C56_example :
  exists s', run (js_handle (fun _ _ => None)) (js_new_state true true false false) (tx_events ex_world ex_tx) = Ok s' /\
             length (List.filter is_scope (shown s')) = 12%nat.
Proof.
  destruct (quiet_run (fun _ _ => None) true true false false ex_world ex_tx) as (s' & H1 & H2); [done|].
  exists s'. split; [exact H1|]. rewrite H2. vm_compute. reflexivity.
Qed.

(** ** C57: isPrecompiled *)

Definition C57_statement : Prop :=
  forall js en ex st fa w f s',
    run (js_handle js) (js_new_state en ex st fa) (tx_events w f) = Ok s' ->
    exists p, js_precompiles s' = Some p /\ forall a, p a = w_precompiles w a.

(** The flag is tested the wrong way round (mod.rs:370) and never becomes true. *)
Theorem C57_refuted : ~ C57_statement.
Proof.
  intros H. destruct (quiet_run (fun _ _ => None) true true true true ex_world ex_tx) as (s' & H1 & _); [done|].
  pose proof (H _ _ _ _ _ _ _ _ H1) as (p & Hp & _). apply registered_run in H1; [|done..]. congruence.
Qed.
Print Assumptions C57_refuted.

(** The function itself is right, but it is never registered, whatever happens. *)
Theorem C57_partial :
  (forall p v buf, from_buf_value v = JReturn buf -> is_precompiled p v = Ok (JReturn (p (be_value buf mod 2 ^ 160)))) /\
  (forall js en ex st fa es s', run (js_handle js) (js_new_state en ex st fa) es = Ok s' -> js_precompiles s' = None).
Proof.
  split.
  - intros p v buf Hb. unfold is_precompiled, with_buf, bytes_to_address. rewrite Hb.
    destruct (bytes_to_array_spec 20 buf) as (a & H1 & _ & H2). rewrite H1. cbn [rbind]. by rewrite H2.
  - intros js en ex st fa es s' Hr. by eapply registered_run in Hr.
Qed.
Print Assumptions C57_partial.

Example C57_example : is_precompiled (w_precompiles ex_world) (VArray [Some (JFinite 1)]) = Ok (JReturn true).
Proof. vm_compute. reflexivity. Qed.

(** ** C58: construction *)

Definition C58_statement : Prop :=
  forall code config s, js_new code config = inr s ->
    exists o, code = EvalObject o /\ to_result o = FObject true /\ to_fault o = FObject true /\
              (to_setup o = FNone \/ to_setup o = FObject true).

(** The check for [fault] looks at [result] (mod.rs:138). *)
Theorem C58_refuted : ~ C58_statement.
Proof.
  intros H. destruct (H (EvalObject (mkTO (FObject true) (FObject false) FNone FNone FNone FNone false)) true _ eq_refl)
    as (o & [= <-] & _ & Hf & _). discriminate Hf.
Qed.
Print Assumptions C58_refuted.

(** Exactly when a tracer is accepted, and which of its callbacks are used. *)
Theorem C58_accepted_partial :
  forall code config s, js_new code config = inr s <->
    exists o fault, code = EvalObject o /\ config = true /\ to_result o = FObject true /\ to_fault o = FObject fault /\
      to_enter o <> FThrows /\ to_exit o <> FThrows /\ to_step o <> FThrows /\
      (to_setup o = FNone \/ (to_setup o = FObject true /\ to_setup_throws o = false)) /\
      s = js_new_state (is_function (to_enter o)) (is_function (to_exit o))
            (is_function (to_step o)) fault.
Proof.
  intros code config s. split.
  - destruct code as [| |o]; [done..|]. destruct o as [re fl en ex st se th]. unfold js_new. cbn [to_result to_fault to_enter to_exit to_step to_setup to_setup_throws].
    destruct re as [|[]|]; [done| |done..]; cbn [get_object negb]. destruct fl as [|fc|]; [done| |done]. cbn [get_object].
    intros H. assert (Hen : en <> FThrows) by (intros ->; done). assert (Hex : ex <> FThrows) by (intros ->; by destruct en).
    assert (Hst : st <> FThrows) by (intros ->; by destruct en, ex).
    destruct config; [|by destruct en, ex, st].
    exists (mkTO (FObject true) (FObject fc) en ex st se th), fc.
    cbn [to_result to_fault to_enter to_exit to_step to_setup to_setup_throws]. split_and!; [done..| |].
    + destruct se as [|[]|]; [by left|right|..]; destruct en as [|[]|], ex as [|[]|], st as [|[]|]; try done; by destruct th.
    + destruct se as [|[]|], th, en as [|[]|], ex as [|[]|], st as [|[]|]; try done; cbn in H; by injection H as <-.
  - intros (o & fc & -> & -> & H1 & H2 & H3 & H4 & H5 & H6 & ->). destruct o as [re fl en ex st se th].
    cbn [to_result to_fault to_enter to_exit to_step to_setup to_setup_throws] in *. subst re fl. unfold js_new.
    cbn [to_result to_fault to_enter to_exit to_step to_setup to_setup_throws].
    destruct H6 as [->|[-> ->]]; destruct en as [|[]|], ex as [|[]|], st as [|[]|]; done.
Qed.
Print Assumptions C58_accepted_partial.

(** Why a tracer is rejected: each kind of error, exactly when it is reported. *)
Definition gives_result (o : TracerObject) : Prop := to_result o = FObject true.
Definition gives_fault (o : TracerObject) : Prop := to_fault o <> FNone /\ to_fault o <> FThrows.
Definition hooks_readable (o : TracerObject) : Prop := to_enter o <> FThrows /\ to_exit o <> FThrows /\ to_step o <> FThrows.
Theorem C58_rejected :
  (forall code config, js_new code config = inl EvalCode <-> code = EvalError) /\
  (forall code config, js_new code config = inl ExpectedJsObject <-> code = EvalPrimitive) /\
  (forall o config, js_new (EvalObject o) config = inl ResultFunctionMissing <-> to_result o = FNone \/ to_result o = FObject false) /\
  (forall o config, js_new (EvalObject o) config = inl FaultFunctionMissing <-> gives_result o /\ to_fault o = FNone) /\
  (forall o config, js_new (EvalObject o) config = inl InvalidJsonConfig <->
     gives_result o /\ gives_fault o /\ hooks_readable o /\ config = false) /\
  (forall o config, js_new (EvalObject o) config = inl SetupFunctionNotCallable <->
     gives_result o /\ gives_fault o /\ hooks_readable o /\ config = true /\ to_setup o = FObject false) /\
  (forall o config, js_new (EvalObject o) config = inl SetupCallFailed <->
     gives_result o /\ gives_fault o /\ hooks_readable o /\ config = true /\ to_setup o = FObject true /\ to_setup_throws o = true) /\
  (forall o config, js_new (EvalObject o) config = inl JsError <->
     to_result o = FThrows \/ gives_result o /\ (to_fault o = FThrows \/ gives_fault o /\
       (~ hooks_readable o \/ config = true /\ to_setup o = FThrows))).
Proof.
  unfold gives_result, gives_fault, hooks_readable.
  split_and!; [intros [| |o] config; [split; [|discriminate] || split; done..|]
              |intros [| |o] config; [split; [|discriminate] || split; done..|]| | | | | |];
    try (intros o config); unfold js_new, get_object; repeat case_match;
    repeat match goal with H : negb ?b = _ |- _ => destruct b; cbn [negb] in H; try discriminate H end;
    (split; [intros E; try discriminate E|]; intuition congruence).
Qed.
Print Assumptions C58_rejected.

Example C58_example :
  js_new (EvalObject (mkTO (FObject true) (FObject true) (FObject true) FNone (FObject true) (FObject true) false)) true
  = inr (js_new_state true false true true).
Proof. reflexivity. Qed.

(** ** C59: nothing can be reached after a hook returned *)

Theorem C59_guards :
  forall js en ex st fa es s',
    run (js_handle js) (js_new_state en ex st fa) es = Ok s' ->
    (forall i, ~ live (js_cells s') i) /\
    (forall p iv, js_log s' !! p = Some iv -> forall i, live (iv_cells iv) i <-> In i (handles (iv_call iv))) /\
    (forall p q earlier later i, (p < q)%nat -> js_log s' !! p = Some earlier -> js_log s' !! q = Some later ->
       In i (handles (iv_call earlier)) -> ~ live (iv_cells later) i).
Proof.
  intros js en ex st fa es s' Hr. apply guarded_run in Hr; [|apply guarded_new]. destruct Hr as (H1 & H2 & _ & H3).
  rewrite Forall_lookup in H2. split_and!; [done|done|].
  intros p q a b i Hpq Ha Hb Hi Hl. apply (H2 q b Hb) in Hl. by eapply handles_distinct.
Qed.
Print Assumptions C59_guards.

(** An object whose cell is empty gives no data: reads throw (or give the empty slice). *)
Theorem C59_dead_reads :
  (forall (h : cells guarded) i (f : guarded -> bytes), ~ live h i -> with_inner h i f = None) /\
  (forall len n, stack_peek len None n = JThrow) /\
  (forall n d, mem_get_uint None n <> Ok (JReturn d)) /\
  (forall s e d, mem_slice None s e = Ok (JReturn d) -> d = []) /\
  (forall v, db_exists None None v = Ok JThrow /\ db_get_balance None None v = Ok JThrow /\
             db_get_nonce None None v = Ok JThrow /\ db_get_code None None v = Ok JThrow) /\
  (forall v k, db_get_state None None v k = Ok JThrow).
Proof.
  assert (Hb : forall v, read_basic None None v = Ok JThrow).
  { intros v. unfold read_basic, with_buf. destruct (from_buf_value v) as [b|]; [|done].
    unfold bytes_to_address. by rewrite bytes_to_array_eq. }
  split_and!.
  - intros h i f Hl. unfold with_inner. destruct (h !! i) as [[v|]|] eqn:E; [|done..]. exfalso. apply Hl. by exists v.
  - intros len [n|]; [|done]. unfold stack_peek. by destruct ((len <=? as_usize n) || jlt n jzero).
  - intros [n|] d; [|done]. unfold mem_get_uint. destruct (USIZE_MAX <? as_usize n + 32); [done|]. cbn [mem_len].
    destruct (N.ltb_spec 0 (as_usize n + 32)); [done|lia].
  - intros [s|] [e|] d; try done. unfold mem_slice. destruct (_ || _ || _); [done|]. destruct (as_usize e <? as_usize s); [done|].
    cbn. by intros [= <-].
  - intros v. unfold db_exists, db_get_balance, db_get_nonce, db_get_code, rmap_js. rewrite Hb. done.
  - intros v k. unfold db_get_state, with_buf. destruct (from_buf_value v) as [b|]; [|done].
    unfold bytes_to_address, bytes_to_hash. rewrite bytes_to_array_eq. cbn [rbind].
    destruct (from_buf_value k) as [b'|]; [|done]. by rewrite bytes_to_array_eq.
Qed.
Print Assumptions C59_dead_reads.

Example C59_example :
  exists s', run (js_handle (fun _ _ => None)) (js_new_state true true true true) (tx_events ex_world ex_tx) = Ok s' /\
             length (js_cells s') = 56%nat.
Proof. eexists. split; vm_compute; reflexivity. Qed.

(** ** C66: hex *)

Theorem C66_hex_round_trip :
  forall v buf, from_buf_value v = JReturn buf ->
    exists text, to_hex v = Ok (JReturn text) /\ length text = (2 * length buf)%nat /\
      from_buf_value (VString (Some text)) = JReturn buf /\
      from_buf_value (VString (Some (x30 :: x78 :: text))) = JReturn buf /\
      from_buf_value (VStringObject (Some text)) = JReturn buf.
Proof.
  intros v buf Hb. exists (hex_encode buf). unfold to_hex, with_buf. rewrite Hb. split; [done|]. split.
  { clear. induction buf as [|b l IH]; [done|].
    change (hex_encode (b :: l)) with (hex_digit (Byte.to_N b / 16) :: hex_digit (Byte.to_N b mod 16) :: hex_encode l).
    cbn [length]. lia. }
  cbn [from_buf_value]. unfold hex_decode_js_string. rewrite hex_decode_encode, hex_decode_prefixed. done.
Qed.
Print Assumptions C66_hex_round_trip.

Example C66_example : to_hex (VTypedArray [Some (JFinite (inject_Z 171)); Some (JFinite 1)]) = Ok (JReturn [x61; x62; x30; x31]).
Proof. vm_compute. reflexivity. Qed.

(** ** C88: addresses of created contracts *)

(** For any way of deriving addresses ([create], [create2]) and any set of precompiles: the three functions ask about
    exactly the sender, nonce, salt and code their arguments stand for, throw if one of them stands for nothing, and
    never panic. *)
Theorem C88_contract_addresses :
  forall (create : address -> u64 -> list byte) (create2 : address -> U256 -> list byte -> list byte) (precompiles : address -> bool),
    (forall from nonce buf i, bytes_of_val from buf -> position nonce i -> i <= USIZE_MAX ->
       to_contract create from (Some nonce) = Ok (JReturn (create (be_value buf mod 2 ^ 160) i))) /\
    (forall from salt initcode buf h code, bytes_of_val from buf -> hex_text salt h -> bytes_of_val initcode code ->
       to_contract2 create2 from (Some (Some salt)) initcode =
         Ok (JReturn (create2 (be_value buf mod 2 ^ 160) (be_value h mod 2 ^ 256) code))) /\
    (forall v buf, bytes_of_val v buf -> is_precompiled precompiles v = Ok (JReturn (precompiles (be_value buf mod 2 ^ 160)))) /\
    (forall from nonce, nonce = None \/ (forall buf, ~ bytes_of_val from buf) -> to_contract create from nonce = Ok JThrow) /\
    (forall from nonce, exists r, to_contract create from nonce = Ok r) /\
    (forall from salt initcode,
       (forall s h, salt = Some (Some s) -> ~ hex_text s h) \/ (forall buf, ~ bytes_of_val from buf) \/
       (forall buf, ~ bytes_of_val initcode buf) -> to_contract2 create2 from salt initcode = Ok JThrow) /\
    (forall v, (forall buf, ~ bytes_of_val v buf) -> is_precompiled precompiles v = Ok JThrow).
Proof.
  intros create create2 precompiles.
  assert (Hthrow : forall v, (forall buf, ~ bytes_of_val v buf) -> from_buf_value v = JThrow).
  { intros v H. destruct (from_buf_value v) eqn:E; [|done]. apply from_buf_value_spec in E. by destruct (H _ E). }
  assert (Ha : forall buf, exists a, bytes_to_address buf = Ok a /\ be_value a = be_value buf mod 2 ^ 160).
  { intros buf. destruct (bytes_to_array_spec 20 buf) as (a & H1 & H2 & H3). by exists a. }
  assert (Hh : forall buf, exists a, bytes_to_hash buf = Ok a /\ be_value a = be_value buf mod 2 ^ 256).
  { intros buf. destruct (bytes_to_array_spec 32 buf) as (a & H1 & H2 & H3). by exists a. }
  unfold to_contract, to_contract2, is_precompiled, with_buf. split_and!.
  - intros from nonce buf i Hf Hn Hi. apply from_buf_value_spec in Hf. rewrite Hf. destruct (Ha buf) as (a & -> & <-).
    cbn [rbind]. by rewrite (position_usize _ _ Hn Hi).
  - intros from salt initcode buf h code Hf Hs Hc. apply from_buf_value_spec in Hf, Hc. apply hex_decode_spec in Hs.
    unfold hex_decode_js_string. rewrite Hs, Hf, Hc. destruct (Hh h) as (x & -> & <-). cbn [rbind].
    destruct (Ha buf) as (a & -> & <-). done.
  - intros v buf Hv. apply from_buf_value_spec in Hv. rewrite Hv. by destruct (Ha buf) as (a & -> & <-).
  - intros from nonce [->|H]; [done|]. rewrite (Hthrow _ H). by destruct nonce.
  - intros from [n|]; [|by eexists]. destruct (from_buf_value from); [|by eexists]. destruct (Ha a) as (x & -> & _). by eexists.
  - intros from salt initcode H. destruct salt as [[s|]|]; [|done|done]. unfold hex_decode_js_string.
    destruct (hex_decode s) as [d|] eqn:E; [|done]. apply hex_decode_spec in E. destruct (Hh d) as (x & -> & _). cbn [rbind].
    destruct H as [H|[H|H]].
    + by destruct (H s d eq_refl).
    + by rewrite (Hthrow _ H).
    + destruct (from_buf_value from) as [b|]; [|done]. destruct (Ha b) as (y & -> & _). cbn [rbind]. by rewrite (Hthrow _ H).
  - intros v H. by rewrite (Hthrow _ H).
Qed.
Print Assumptions C88_contract_addresses.

Example C88_example :
  to_contract (fun a n => be_bytes 32 (a * 1000 + n)) (VString (Some [x30; x78; x30; x35])) (Some (JFinite (15 # 2))) =
    Ok (JReturn (be_bytes 32 5007)) /\
  to_contract2 (fun a s c => be_bytes 32 (a * 1000 + s) ++ c) (VArray [Some (JFinite 5)]) (Some (Some [x30; x78; x30; x39]))
    (VArrayBuffer (Some [xfe])) = Ok (JReturn (be_bytes 32 5009 ++ [xfe])) /\
  to_contract2 (fun a s c => c) (VArray [Some (JFinite 5)]) (Some (Some [x30; x78; x39])) (VArrayBuffer (Some [xfe])) = Ok JThrow.
Proof. split_and!; vm_compute; reflexivity. Qed.

(** ** C67: the database object *)

Definition C67_statement : Prop :=
  forall st db v k buf kbuf, from_buf_value v = JReturn buf -> from_buf_value k = JReturn kbuf ->
    let a := be_value buf mod 2 ^ 160 in
    let slot := be_value kbuf mod 2 ^ 256 in
    (forall acc, current_account st db a = Some acc ->
       db_exists (Some st) (Some db) v = Ok (JReturn (bool_decide (is_Some acc))) /\
       db_get_balance (Some st) (Some db) v = Ok (JReturn (match acc with Some i => ai_balance i | None => 0 end)) /\
       db_get_nonce (Some st) (Some db) v = Ok (JReturn (match acc with Some i => ai_nonce i | None => 0 end)) /\
       (forall c, match acc with Some i => current_code db i | None => Some [] end = Some c ->
          db_get_code (Some st) (Some db) v = Ok (JReturn c))) /\
    (forall x, current_slot st db a slot = Some x -> db_get_state (Some st) (Some db) v k = Ok (JReturn (be_bytes 32 x))).

(** [getState] reads the database only (bindings.rs:820-826): a slot written earlier in the transaction shows its old value. *)
Theorem C67_refuted : ~ C67_statement.
Proof.
  intros H. specialize (H (mkSV (fun _ => None) (fun _ _ => Some 9)) (mkDV (fun _ => Some None) (fun _ => None) (fun _ _ => Some 0))
    (VArray [Some (JFinite 1)]) (VArray [Some (JFinite 1)]) [x01] [x01] eq_refl eq_refl).
  destruct H as [_ H]. specialize (H 9 eq_refl). vm_compute in H. discriminate H.
Qed.
Print Assumptions C67_refuted.

(** The code of a contract created earlier in the transaction cannot be read either. *)
Theorem C67_code_refuted : ~ forall st db v buf i c, from_buf_value v = JReturn buf ->
  current_account st db (be_value buf mod 2 ^ 160) = Some (Some i) -> current_code db i = Some c ->
  db_get_code (Some st) (Some db) v = Ok (JReturn c).
Proof.
  intros H. specialize (H (mkSV (fun _ => Some (mkInfo 0 1 77 (Some [x60]))) (fun _ _ => None)) (mkDV (fun _ => Some None) (fun _ => None) (fun _ _ => Some 0))
    (VArray [Some (JFinite 1)]) [x01] _ _ eq_refl eq_refl eq_refl). vm_compute in H. discriminate H.
Qed.
Print Assumptions C67_code_refuted.

Theorem C67_database_partial :
  forall st db v k buf kbuf, from_buf_value v = JReturn buf -> from_buf_value k = JReturn kbuf ->
    let a := be_value buf mod 2 ^ 160 in
    let slot := be_value kbuf mod 2 ^ 256 in
    (forall acc, current_account st db a = Some acc ->
       db_exists (Some st) (Some db) v = Ok (JReturn (bool_decide (is_Some acc))) /\
       db_get_balance (Some st) (Some db) v = Ok (JReturn (match acc with Some i => ai_balance i | None => 0 end)) /\
       db_get_nonce (Some st) (Some db) v = Ok (JReturn (match acc with Some i => ai_nonce i | None => 0 end)) /\
       (** the code is always the database's code of the account's code hash *)
       db_get_code (Some st) (Some db) v =
         Ok (match acc with
             | None => JReturn []
             | Some i => if ai_code_hash i =? KECCAK_EMPTY then JReturn []
                         else match dv_code db (ai_code_hash i) with Some c => JReturn c | None => JThrow end
             end)) /\
    (current_account st db a = None -> db_exists (Some st) (Some db) v = Ok JThrow /\
       db_get_balance (Some st) (Some db) v = Ok JThrow /\ db_get_nonce (Some st) (Some db) v = Ok JThrow /\
       db_get_code (Some st) (Some db) v = Ok JThrow) /\
    (** a slot is always the database's, whatever the transaction wrote *)
    db_get_state (Some st) (Some db) v k =
      Ok (match dv_storage db a slot with Some x => JReturn (be_bytes 32 x) | None => JThrow end) /\
    (forall x, dv_storage db a slot = Some x -> sv_slot st a slot = None \/ sv_slot st a slot = Some x ->
       current_slot st db a slot = Some x).
Proof.
  intros st db v k buf kbuf Hv Hk a slot.
  destruct (bytes_to_array_spec 20 buf) as (ad & Ha1 & _ & Ha2). change (256 ^ N.of_nat 20) with (2 ^ 160) in Ha2.
  destruct (bytes_to_array_spec 32 kbuf) as (sl & Hs1 & _ & Hs2). change (256 ^ N.of_nat 32) with (2 ^ 256) in Hs2.
  assert (Hread : read_basic (Some st) (Some db) v =
    Ok (match current_account st db a with Some acc => JReturn acc | None => JThrow end)).
  { unfold read_basic, with_buf, bytes_to_address, current_account. rewrite Hv, Ha1. cbn [rbind]. rewrite Ha2. fold a.
    destruct (sv_account st a); [done|]. by destruct (dv_basic db a). }
  split_and!.
  - intros acc Hacc. rewrite Hacc in Hread. unfold db_exists, db_get_balance, db_get_nonce, db_get_code, rmap_js.
    rewrite Hread. cbn [rbind jbind]. split_and!; [by destruct acc|done|done|].
    by destruct acc; rewrite ?N.eqb_refl.
  - intros Hacc. rewrite Hacc in Hread. unfold db_exists, db_get_balance, db_get_nonce, db_get_code, rmap_js. rewrite Hread. done.
  - unfold db_get_state, with_buf, bytes_to_address, bytes_to_hash. rewrite Hv, Ha1. cbn [rbind]. rewrite Hk, Hs1. cbn [rbind].
    rewrite Ha2, Hs2. fold a. fold slot. by destruct (dv_storage db a slot).
  - intros x Hx Hsv. unfold current_slot. by destruct Hsv as [-> | ->].
Qed.
Print Assumptions C67_database_partial.

(** The bytes of a slot are its big-endian value. *)
Theorem C67_word_bytes : forall v, v < 2 ^ 256 -> length (be_bytes 32 v) = 32%nat /\ be_value (be_bytes 32 v) = v.
Proof.
  assert (H : forall n v, length (be_bytes n v) = n /\ be_value (be_bytes n v) = v mod 256 ^ N.of_nat n).
  { induction n as [|n IH]; intros v; [cbn; by rewrite N.mod_1_r|]. cbn [be_bytes]. destruct (IH (v / 256)) as [H1 H2].
    rewrite app_length, H1. cbn [length]. split; [lia|]. rewrite be_value_app, H2. cbn [length].
    unfold be_value. cbn [fold_left]. rewrite (Nat2N.inj_succ n), N.pow_succ_r'.
    assert (Hb : Byte.to_N (default x00 (Byte.of_N (v mod 256))) = v mod 256).
    { pose proof (N.mod_lt v 256 ltac:(done)). destruct (Byte.of_N (v mod 256)) eqn:E.
      - by apply Byte.to_of_N in E.
      - apply Byte.of_N_None_iff in E. lia. }
    rewrite Hb. rewrite (N.mod_mul_r v 256 (256 ^ N.of_nat n)) by (done || by apply N.pow_nonzero).
    change (256 ^ N.of_nat 1) with 256. lia. }
  intros v Hv. destruct (H 32%nat v) as [H1 H2]. split; [done|]. rewrite H2. apply N.mod_small. exact Hv.
Qed.
Print Assumptions C67_word_bytes.

Example C67_example :
  db_get_balance (Some (mkSV (fun a => if a =? 1 then Some (mkInfo 50 1 77 None) else None) (fun _ _ => None)))
    (Some (mkDV (fun _ => Some None) (fun _ => None) (fun _ _ => Some 0))) (VArray [Some (JFinite 1)]) = Ok (JReturn 50).
Proof. vm_compute. reflexivity. Qed.

(** ** C68: step is called once per instruction *)

Theorem C68_steps :
  forall js en ex st fa w f s',
    run (js_handle js) (js_new_state en ex st fa) (tx_events w f) = Ok s' ->
    List.filter is_sstep (shown s') =
    if st then map (fun x => match x with (s, d, o) => SStep (step_view w s d o) end) (executed 0 f) else [].
Proof.
  intros js en ex st fa w f s' Hr. apply any_run in Hr. rewrite Hr, steps_t_inner by done.
  induction (executed 0 f) as [|[[s d] o] l IH]; [by destruct st|]. cbn [flat_map]. rewrite IH.
  destruct st; [|done]. cbn [map]. destruct (true && reverts _ && fa); done.
Qed.
Print Assumptions C68_steps.

Example C68_example :
  exists s', run (js_handle (fun _ _ => None)) (js_new_state false false true false) (tx_events ex_world ex_tx) = Ok s' /\
             length (List.filter is_sstep (shown s')) = 13%nat.
Proof. eexists. split; vm_compute; reflexivity. Qed.

(** ** C69: fault is called for failing instructions *)

Definition C69_statement : Prop :=
  forall js en ex st w f s',
    run (js_handle js) (js_new_state en ex st true) (tx_events w f) = Ok s' ->
    List.filter is_sfault (shown s') =
    map (fun x => match x with (s, d, o) => SFault (fault_view w s d o) end)
      (List.filter (fun x => failed (in_result (op_post (snd x)))) (executed 0 f)).

(** An instruction that runs out of gas. *)
Definition ex_oog : frame :=
  Frame (SCall ex_j0 (mkCallInputs [] 90000 0xC0 0xC0 0xAA (Transfer 7) CSCall false)%N)
    [ IOp (ex_op OP_SSTORE 0 [5; 5]%N [] 100%N ex_j0 [] OutOfGas) ] (ex_end OutOfGas None).

Lemma faults_shown js en ex st fa w f s' :
  run (js_handle js) (js_new_state en ex st fa) (tx_events w f) = Ok s' ->
  List.filter is_sfault (shown s') =
  if st && fa then
    map (fun x => match x with (s, d, o) => SFault (fault_view w s d o) end)
      (List.filter (fun x => reverts (in_result (op_post (snd x)))) (executed 0 f))
  else [].
Proof.
  intros Hr. apply any_run in Hr. rewrite Hr, steps_t_inner by done.
  induction (executed 0 f) as [|[[s d] o] l IH]; [by destruct st, fa|]. cbn [flat_map]. rewrite IH. cbn [List.filter snd].
  destruct st, fa; cbn [andb]; destruct (reverts (in_result (op_post o))); done.
Qed.

(** Exceptional halts are not reported (mod.rs:416 tests for reverts only) ... *)
Theorem C69_refuted : ~ C69_statement.
Proof.
  intros H. destruct (quiet_run (fun _ _ => None) true true true true ex_world ex_oog) as (s' & H1 & _); [done|].
  pose proof (faults_shown _ _ _ _ _ _ _ _ H1) as H2. apply H in H1. rewrite H1 in H2. vm_compute in H2. discriminate H2.
Qed.
Print Assumptions C69_refuted.

(** ... and without a step callback nothing is. *)
Theorem C69_faults_partial :
  forall js en ex st fa w f s',
    run (js_handle js) (js_new_state en ex st fa) (tx_events w f) = Ok s' ->
    List.filter is_sfault (shown s') =
    if st && fa then
      map (fun x => match x with (s, d, o) => SFault (fault_view w s d o) end)
        (List.filter (fun x => reverts (in_result (op_post (snd x)))) (executed 0 f))
    else [].
Proof. exact faults_shown. Qed.
Print Assumptions C69_faults_partial.

Example C69_example :
  exists s', run (js_handle (fun _ _ => None)) (js_new_state false false true true) (tx_events ex_world ex_tx) = Ok s' /\
             length (List.filter is_sfault (shown s')) = 1%nat.
Proof. eexists. split; vm_compute; reflexivity. Qed.

(** ** C70: a throwing tracer does not abort the host *)

Definition C70_statement : Prop :=
  forall js en ex st fa w f, exists s', run (js_handle js) (js_new_state en ex st fa) (tx_events w f) = Ok s'.

(** An enter callback that throws on a call hits a [todo!()] (mod.rs:475). *)
Theorem C70_refuted : ~ C70_statement.
Proof.
  intros H. destruct (H (fun _ _ => Some []) true false false false ex_world ex_tx) as [s' Hs]. vm_compute in Hs. discriminate Hs.
Qed.
Print Assumptions C70_refuted.

(** No panic unless the enter callback of a call (not a create) throws. *)
Theorem C70_survives_partial :
  forall js en ex st fa w f,
    (forall h iv fr, iv_call iv = JEnter fr -> is_any_create (jf_kind fr) = false -> js h iv = None) ->
    exists s', run (js_handle js) (js_new_state en ex st fa) (tx_events w f) = Ok s'.
Proof.
  intros js en ex st fa w f Hq. destruct (on_tx js en ex st fa w f (js_new_state en ex st fa)) as [(s' & H1 & _)|[_ H]].
  - apply inv_new.
  - by exists s'.
  - destruct H as (h & iv & fr & H1 & H2 & Hjs). by rewrite (Hq h iv fr) in Hjs.
Qed.
Print Assumptions C70_survives_partial.

(** Exactly: the run panics if and only if, at some call after the first event, the enter callback throws in the state
    the tracer has reached. *)
Theorem C70_panics_exactly :
  forall js en ex st fa w f,
    (exists p, run (js_handle js) (js_new_state en ex st fa) (tx_events w f) = Panic p) <->
    en = true /\ exists es1 c j i es2 s1, tx_events w f = es1 ++ ECall c i :: es2 /\ es1 <> [] /\
      run (js_handle js) (js_new_state en ex st fa) es1 = Ok s1 /\ js (js_log s1) (enter_of s1 (SCall j i)) <> None.
Proof. exact tx_panics. Qed.
Print Assumptions C70_panics_exactly.

(** In every history, a hook leaves the EVM alone unless a callback threw; then the frame reverts with the error. *)
Theorem C70_reaction :
  forall js s e s' r, js_handle js s e = Ok (s', r) ->
    untouched e r \/ exists h iv err, js h iv = Some err /\ aborted err e r.
Proof. exact handle_reaction. Qed.
Print Assumptions C70_reaction.

Example C70_panic_example :
  exists p es1 c j i es2 s1, run (js_handle (fun h _ => if (5 <=? length h)%nat then Some [] else None)) (js_new_state true false true false) (tx_events ex_world ex_tx) = Panic p /\
    tx_events ex_world ex_tx = es1 ++ ECall c i :: es2 /\ es1 <> [] /\
    run (js_handle (fun h _ => if (5 <=? length h)%nat then Some [] else None)) (js_new_state true false true false) es1 = Ok s1 /\
    (if (5 <=? length (js_log s1))%nat then Some [] else None) <> @None bytes /\ j = ex_j0.
Proof.
  assert (H : exists p, run (js_handle (fun h _ => if (5 <=? length h)%nat then Some [] else None)) (js_new_state true false true false) (tx_events ex_world ex_tx) = Panic p).
  { eexists. vm_compute. reflexivity. }
  destruct (proj1 (C70_panics_exactly _ _ _ _ _ _ _) H) as (_ & es1 & c & j & i & es2 & s1 & H1 & H2 & H3 & H4).
  destruct H as [p Hp]. exists p, es1, c, ex_j0, i, es2, s1.
  split; [exact Hp|]. split; [exact H1|]. split; [exact H2|]. split; [exact H3|]. split; [exact H4|reflexivity].
Qed.
Example C70_example :
  exists s' s'' c o, run (js_handle (fun _ iv => match iv_call iv with JExit _ => Some [x21] | _ => None end)) (js_new_state true true true true)
      (take 9 (tx_events ex_world ex_tx)) = Ok s' /\
    js_handle (fun _ iv => match iv_call iv with JExit _ => Some [x21] | _ => None end) s' c = Ok (s'', RCallEnd o) /\
    error_revert [x21] (co_result o).
Proof.
  eexists _, _, (ECallEnd (mkCtx CANCUN 0 (fun _ => false) 1 [] (fun _ _ => None)) (mkCallInputs [] 0 0 0 0 (Transfer 0) CSCall false) (mkCallOutcome (mkIR Return [] (ex_gas 5)))), _.
  split; [vm_compute; reflexivity|]. split; [vm_compute; reflexivity|]. done.
Qed.

(** ** C71: what exit is told *)

Definition C71_statement : Prop :=
  forall js st fa w f s',
    run (js_handle js) (js_new_state true true st fa) (tx_events w f) = Ok s' ->
    Forall2 (fun x e => result_amounts x e /\ result_error x e) (List.filter is_exit (shown s')) (scope_ends f).

Lemma exits_shown js en ex st fa w f s' : en = true ->
  run (js_handle js) (js_new_state en ex st fa) (tx_events w f) = Ok s' ->
  List.filter is_exit (shown s') = if ex then List.filter is_exit (inner_scopes f) else [].
Proof.
  intros -> Hr. apply any_run in Hr. rewrite Hr.
  rewrite <- (filter_filter_sub is_exit is_scope) by (by intros []).
  rewrite scopes_t_inner by (by left). destruct ex.
  - assert (He : List.filter (defined true true) (inner_scopes f) = List.filter is_scope (inner_scopes f)).
    { apply List.filter_ext. by intros []. }
    rewrite He. apply filter_filter_sub. by intros [].
  - induction (inner_scopes f) as [|x l IH]; [done|]. cbn [List.filter]. destruct x; cbn; exact IH.
Qed.

(** The error is never set (mod.rs:489-492 and 542-545). *)
Theorem C71_refuted : ~ C71_statement.
Proof.
  intros H. destruct (quiet_run (fun _ _ => None) true true false false ex_world ex_tx) as (s' & H1 & H2); [done|].
  apply H in H1. rewrite H2 in H1. clear H H2.
  assert (E : exists r e, List.filter is_exit (t_inner true true false false ex_world 0 ex_tx) !! 5%nat = Some (SExit r) /\ jr_error r = None /\
    scope_ends ex_tx !! 5%nat = Some (Some e) /\ ir_is_ok (ir_result (fe_result e)) = false).
  { vm_compute. eexists _, _. split_and!; reflexivity. }
  destruct E as (r & e & E1 & E2 & E3 & E4).
  pose proof (Forall2_lookup_lr _ _ _ _ _ _ H1 E1 E3) as Hx. destruct Hx as [_ (r' & Hr' & Hr)].
  injection Hr' as <-. destruct Hr as [Hr _]. specialize (Hr E2). congruence.
Qed.
Print Assumptions C71_refuted.

Theorem C71_exit_results_partial :
  forall js st fa w f s',
    run (js_handle js) (js_new_state true true st fa) (tx_events w f) = Ok s' ->
    Forall2 result_amounts (List.filter is_exit (shown s')) (scope_ends f).
Proof.
  intros js st fa w f s' Hr. rewrite (exits_shown _ _ _ _ _ _ _ _ eq_refl Hr). eapply Forall2_impl; [apply exits_inner|].
  intros x e ->. eexists. split; [done|]. by destruct e.
Qed.
Print Assumptions C71_exit_results_partial.

Example C71_example : length (scope_ends ex_tx) = 6%nat.
Proof. reflexivity. Qed.

(** ** C72: the context given to result *)

Definition C72_statement : Prop :=
  forall r env tc, 21000 <= jx_intrinsic_gas (js_result_ctx r env tc).
(** The intrinsic gas is always reported as zero (mod.rs:264). *)
Theorem C72_refuted : ~ C72_statement.
Proof.
  intros H. specialize (H (EHalt 0) (mkJsEnv 0 None [] 0 0 0 0 0) (mkTxContext None None None)). vm_compute in H. by apply H.
Qed.
Print Assumptions C72_refuted.

Theorem C72_result_context_partial :
  forall r env tc, let x := js_result_ctx r env tc in
    (jx_type x = match je_to env with Some _ => "CALL" | None => "CREATE" end)%string /\
    (jx_to x = match je_to env with
               | Some t => Some t
               | None => match r with ESuccess _ (OutCreate _ a) => a | _ => None end end) /\
    jx_output x = match r with ESuccess _ (OutCall o) | ESuccess _ (OutCreate o _) | ERevert _ o => o | EHalt _ => [] end /\
    jx_gas_used x = match r with ESuccess g _ | ERevert g _ | EHalt g => g end /\
    jx_from x = je_caller env /\ jx_input x = je_data env /\ jx_value x = je_value env /\ jx_gas x = je_gas_limit env /\
    (je_gas_price env < 2 ^ 64 -> jx_gas_price x = je_gas_price env) /\
    (2 ^ 64 <= je_gas_price env -> jx_gas_price x = 2 ^ 64 - 1) /\
    (je_number env < 2 ^ 64 -> jx_block x = je_number env) /\
    jx_tx x = tc.
Proof.
  intros r env tc x. unfold x, js_result_ctx.
  assert (Hlo : forall v, v < 2 ^ 64 -> u64_or_max v = v).
  { intros v Hv. unfold u64_or_max. destruct (N.ltb_spec v two64); [done|]. change two64 with (2 ^ 64) in *. lia. }
  assert (Hhi : forall v, 2 ^ 64 <= v -> u64_or_max v = 2 ^ 64 - 1).
  { intros v Hv. unfold u64_or_max. destruct (N.ltb_spec v two64); [|done]. change two64 with (2 ^ 64) in *. lia. }
  destruct r as [g [o|o a]|g o|g], (je_to env); cbn; split_and!; auto.
Qed.
Print Assumptions C72_result_context_partial.

Example C72_example : jx_to (js_result_ctx (ESuccess 5 (OutCreate [] (Some 0xE0))) (mkJsEnv 1 None [] 9 3 0 7 7) (mkTxContext None None None)) = Some 0xE0.
Proof. reflexivity. Qed.

(** ** C73: the cost of a step *)

Definition C73_statement : Prop :=
  forall js en ex fa w f s',
    run (js_handle js) (js_new_state en ex true fa) (tx_events w f) = Ok s' ->
    Forall2 (fun x y => exists v, x = SStep v /\
               vw_cost v = g_remaining (in_gas (op_pre (snd y))) - g_remaining (in_gas (op_post (snd y))))
      (List.filter is_sstep (shown s')) (executed 0 f).

(** [getCost] is the gas the frame has spent so far (mod.rs:401), not what the instruction costs. *)
Theorem C73_refuted : ~ C73_statement.
Proof.
  intros H. destruct (quiet_run (fun _ _ => None) false false true false ex_world ex_oog) as (s' & H1 & _); [done|].
  pose proof (C68_steps _ _ _ _ _ _ _ _ H1) as H2. apply H in H1. rewrite H2 in H1. clear H H2.
  vm_compute in H1. inversion_clear H1 as [|? ? ? ? Hx _]. destruct Hx as (v & [= <-] & Hv). vm_compute in Hv. discriminate Hv.
Qed.
Print Assumptions C73_refuted.

Theorem C73_cost_partial :
  forall js en ex fa w f s',
    run (js_handle js) (js_new_state en ex true fa) (tx_events w f) = Ok s' ->
    Forall2 (fun x y => exists v, x = SStep v /\
               vw_gas v = g_remaining (in_gas (op_pre (snd y))) /\
               vw_cost v = g_limit (in_gas (op_pre (snd y))) - g_remaining (in_gas (op_pre (snd y))))
      (List.filter is_sstep (shown s')) (executed 0 f).
Proof.
  intros js en ex fa w f s' Hr. rewrite (C68_steps _ _ _ _ _ _ _ _ Hr). clear.
  induction (executed 0 f) as [|[[s d] o] l IH]; [constructor|]. cbn [map]. constructor; [|exact IH]. eexists. done.
Qed.
Print Assumptions C73_cost_partial.
Example C73_example : length (executed 0 ex_tx) = 13%nat.
Proof. reflexivity. Qed.

(** ** C87: one tracer for several transactions *)

(** What a fresh tracer with these callbacks is shown of a transaction, if it never throws. *)
Definition fresh_shows (en ex st fa : bool) (tx : world * frame) (xs : list seen) : Prop :=
  exists s, run (js_handle (fun _ _ => None)) (js_new_state en ex st fa) (tx_events (fst tx) (snd tx)) = Ok s /\ shown s = xs.

(** A tracer that is used again is shown each transaction exactly as a fresh one would be, whatever it threw before. *)
Theorem C87_reuse :
  forall js en ex st fa txs s',
    run (js_handle js) (js_new_state en ex st fa) (flat_map (fun tx => tx_events (fst tx) (snd tx)) txs) = Ok s' ->
    exists xss, Forall2 (fresh_shows en ex st fa) txs xss /\ shown s' = concat xss /\ js_stack s' = [].
Proof.
  intros js en ex st fa txs. assert (H : forall s s', inv en ex st fa s [] ->
    run (js_handle js) s (flat_map (fun tx => tx_events (fst tx) (snd tx)) txs) = Ok s' ->
    exists xss, Forall2 (fresh_shows en ex st fa) txs xss /\ shown s' = shown s ++ concat xss /\ js_stack s' = []).
  { induction txs as [|[w f] txs IH]; intros s s' Hi Hr.
    - injection Hr as <-. exists []. rewrite app_nil_r. split_and!; [constructor|done|]. by destruct Hi as (_ & _ & _ & _ & Hk & _).
    - cbn [flat_map fst snd] in Hr. rewrite run_app in Hr.
      destruct (on_tx js en ex st fa w f s Hi) as [(s1 & H1 & H2 & H3)|[H1 _]]; rewrite H1 in Hr; cbn [rbind] in Hr; [|discriminate Hr].
      destruct (IH s1 s' H2 Hr) as (xss & HF & Hs & Hk). exists (t_inner en ex st fa w 0 f :: xss). split_and!; [|by rewrite Hs, H3, <- app_assoc|done].
      constructor; [|done]. destruct (quiet_run (fun _ _ => None) en ex st fa w f ltac:(done)) as (s2 & H4 & H5). by exists s2. }
  intros s' Hr. destruct (H _ _ (inv_new en ex st fa) Hr) as (xss & H1 & H2 & H3). by exists xss.
Qed.
Print Assumptions C87_reuse.

(** A tracer that never throws can be used for any number of transactions. *)
Theorem C87_reusable :
  forall js en ex st fa txs, (forall h iv, js h iv = None) ->
    exists s', run (js_handle js) (js_new_state en ex st fa) (flat_map (fun tx => tx_events (fst tx) (snd tx)) txs) = Ok s'.
Proof.
  intros js en ex st fa txs Hq. assert (H : forall s, inv en ex st fa s [] ->
    exists s', run (js_handle js) s (flat_map (fun tx => tx_events (fst tx) (snd tx)) txs) = Ok s').
  { induction txs as [|[w f] txs IH]; intros s Hi; [by exists s|]. cbn [flat_map fst snd]. rewrite run_app.
    destruct (on_tx js en ex st fa w f s Hi) as [(s1 & H1 & H2 & _)|[_ H]].
    - rewrite H1. cbn [rbind]. by apply IH.
    - destruct H as (h & iv & fr & _ & _ & Hjs). by rewrite Hq in Hjs. }
  apply H, inv_new.
Qed.
Print Assumptions C87_reusable.

Example C87_example :
  exists s', run (js_handle (fun _ iv => match iv_call iv with JStep _ _ => Some [] | _ => None end)) (js_new_state true true true true)
      (flat_map (fun tx => tx_events (fst tx) (snd tx)) [(ex_world, ex_tx); (ex_world, ex_create); (ex_world, ex_tx)]) = Ok s' /\
    (length (shown s') > 50)%nat.
Proof. eexists. split; [vm_compute; reflexivity|]. vm_compute. lia. Qed.
