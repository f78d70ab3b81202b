(** * StoredProofs: reports of a recording that was read back *)

From Verif Require Export ArenaProofs Stored SpecStored.

Lemma rb_index ns i : index (read_back ns) i = rmap read_node (index ns i).
Proof. unfold index, read_back. rewrite list_lookup_fmap. by destruct (ns !! i). Qed.
Lemma rb_lookup ns i : read_back ns !! i = read_node <$> ns !! i.
Proof. unfold read_back. apply list_lookup_fmap. Qed.
Lemma rb_length ns : length (read_back ns) = length ns.
Proof. apply map_length. Qed.

Lemma read_calllike s : st_is_calllike (read_step s) = st_is_calllike s.
Proof.
  unfold st_is_calllike. cbn [read_step st_op]. unfold opcode_deserialize, opcode_serialize. destruct (op_known (st_op s)) eqn:E; [done|].
  symmetry. apply not_true_is_false. intros H. unfold op_is_calllike in H. apply existsb_exists in H as (x & Hx & Hop).
  apply N.eqb_eq in Hop. rewrite Hop in E. cbn in Hx. repeat destruct Hx as [<-|Hx]; try done; vm_compute in E; done.
Qed.
Lemma read_stop s : st_is_stop (read_step s) = st_is_stop s.
Proof.
  unfold st_is_stop. cbn [read_step st_op]. unfold opcode_deserialize, opcode_serialize. destruct (op_known (st_op s)) eqn:E; [done|].
  destruct (N.eqb_spec (st_op s) OP_STOP) as [H|H]; [|done]. rewrite H in E. vm_compute in E. done.
Qed.

(** ** Parity traces *)
Lemma rb_address_loop ns fuel : forall n g, trace_address_loop fuel (read_back ns) (read_node n) g = trace_address_loop fuel ns n g.
Proof.
  induction fuel as [|fuel IH]; intros n g; [done|]. cbn [trace_address_loop]. cbn [read_node nd_set_trace nd_parent nd_idx].
  destruct (nd_parent n) as [p|]; [|done]. rewrite rb_index. destruct (index ns p) as [m| |]; [|done..]. cbn [rmap rbind].
  cbn [read_node nd_set_trace nd_children]. destruct (expect _); [|done..]. cbn [rbind]. apply (IH m).
Qed.
Lemma rb_address ns i : trace_address (read_back ns) i = trace_address ns i.
Proof.
  unfold trace_address. destruct (i =? 0); [done|]. rewrite rb_index, rb_length. destruct (index ns i) as [m| |]; [|done..].
  cbn [rmap rbind]. rewrite rb_address_loop. done.
Qed.
Lemma rmapM_ext {A B} (f g : A -> res B) l : (forall x, f x = g x) -> rmapM f l = rmapM g l.
Proof. intros H. induction l as [|x l IH]; [done|]. cbn. by rewrite H, IH. Qed.
Lemma rb_traces ns : into_transaction_traces (read_back ns) = into_transaction_traces ns.
Proof.
  unfold into_transaction_traces, trace_addresses. rewrite rb_length, (rmapM_ext _ _ _ (rb_address ns)).
  destruct (rmapM _ _) as [addrs| |]; [|done..]. cbn [rbind]. f_equal. revert addrs.
  induction ns as [|n ns IH]; intros addrs; [done|]. destruct addrs as [|a addrs]; [done|].
  cbn [read_back map zip_with List.filter fst]. change (nd_is_precompile (read_node n)) with (nd_is_precompile n).
  destruct (nd_is_precompile n); cbn [negb flat_map]; [apply IH|]. f_equal. apply IH.
Qed.

(** ** Call tracer *)
Section Calls.
  Context (rr : bytes -> option string).
  Lemma rb_parent_failed ns fuel : forall p, parent_failed fuel (read_back ns) p = parent_failed fuel ns p.
  Proof.
    induction fuel as [|fuel IH]; intros [i|]; [done..| |done]. cbn [parent_failed]. rewrite rb_index. destruct (index ns i) as [m| |]; [|done..].
    cbn [rmap rbind]. change (tr_is_error (nd_trace (read_node m))) with (tr_is_error (nd_trace m)).
    destruct (tr_is_error (nd_trace m)); [done|]. apply (IH (nd_parent m)).
  Qed.
  Lemma rb_failed ns n : call_or_parent_failed (read_back ns) (read_node n) = call_or_parent_failed ns n.
  Proof. unfold call_or_parent_failed. rewrite rb_length, rb_parent_failed. done. Qed.
  Lemma rb_frames ns b l : forall acc k,
    rfold (frames_step rr (read_back ns) b) acc (zip (seq k (length l)) (map read_node l)) =
    rfold (frames_step rr ns b) acc (zip (seq k (length l)) l).
  Proof.
    induction l as [|n l IH]; intros acc k; [done|]. cbn [length seq map zip_with rfold].
    assert (E : frames_step rr (read_back ns) b acc (k, read_node n) = frames_step rr ns b acc (k, n)).
    { unfold frames_step. change (geth_selfdestruct_call_trace (read_node n)) with (geth_selfdestruct_call_trace n).
      rewrite rb_failed. done. }
    rewrite E. destruct (frames_step rr ns b acc (k, n)); [|done..]. cbn [rbind]. apply IH.
  Qed.
  Lemma rb_roll_up ns fuel : forall l, roll_up fuel (read_back ns) l = roll_up fuel ns l.
  Proof.
    induction fuel as [|fuel IH]; intros l; [done|]. cbn [roll_up]. destruct (last l) as [[i c]|]; [|done]. rewrite rb_index.
    destruct (index ns i) as [m| |]; [|done..]. cbn [rmap rbind]. cbn [read_node nd_set_trace nd_parent].
    destruct (nd_parent m); [|done]. destruct (update _ _ _); [|done..]. cbn [rbind]. apply IH.
  Qed.
  Lemma rb_call_traces ns opts gas : geth_call_traces rr (read_back ns) opts gas = geth_call_traces rr ns opts gas.
  Proof.
    destruct ns as [|n ns]; [done|]. unfold geth_call_traces. cbn [read_back map]. fold (read_back ns).
    change (geth_selfdestruct_call_trace (read_node n)) with (geth_selfdestruct_call_trace n).
    change (geth_empty_call_frame rr (read_node n)) with (geth_empty_call_frame rr n). cbn zeta.
    destruct (unwrap_or_default_bool (only_top_call opts)); [done|].
    change (read_node n :: read_back ns) with (read_back (n :: ns)). rewrite rb_length.
    unfold read_back at 2. rewrite rb_frames.
    destruct (rfold _ _ _); [|done..]. cbn [rbind]. rewrite rb_length. apply rb_roll_up.
  Qed.
End Calls.

(** ** Struct logs *)
Definition read_item (x : StackItem) : StackItem := mkItem (read_node (it_node x)) (read_step (it_step x)) (it_child x).
Lemma rb_items n l : forall k, step_items (read_node n) k (map read_step l) = map read_item (step_items n k l).
Proof.
  induction l as [|s l IH]; intros k; [done|]. cbn [map step_items]. rewrite read_calllike.
  cbn [read_node nd_set_trace nd_children]. destruct (st_is_calllike s).
  - destruct (nd_children n !! k); cbn [map]; f_equal; apply IH.
  - cbn [map]. f_equal. apply IH.
Qed.
Lemma rb_step_stack n : call_step_stack (read_node n) = map read_item (call_step_stack n).
Proof. apply rb_items. Qed.
Lemma rb_line s opts st rd : struct_log (read_step s) opts st rd = read_line (struct_log s opts st rd).
Proof. done. Qed.
Lemma rb_fill ns opts fuel : forall stack st logs,
  fill_geth_trace fuel (read_back ns) opts (map read_item stack) st (map read_line logs) =
  rmap (map read_line) (fill_geth_trace fuel ns opts stack st logs).
Proof.
  induction fuel as [|fuel IH]; intros [|[n s c] stack] st logs; [done..|]. cbn [map read_item it_node it_step it_child fill_geth_trace].
  cbn [read_step st_contract st_storage_change]. cbn [read_node nd_set_trace nd_trace read_trace tr_set_steps tr_output].
  match goal with |- (let '(_, _) := ?x in _) = _ => destruct x as [st' ls] end.
  rewrite rb_line. change [read_line ?x] with (map read_line [x]). rewrite <- map_app.
  destruct c as [c|]; cbn [rbind]; [|apply IH]. rewrite rb_index. destruct (index ns c) as [m| |]; [|done..]. cbn [rmap rbind].
  rewrite rb_step_stack, <- map_app. apply IH.
Qed.
Lemma rb_total ns : total_steps (read_back ns) = total_steps ns.
Proof. induction ns as [|n ns IH]; [done|]. cbn [read_back map total_steps]. rewrite <- IH. cbn. by rewrite map_length. Qed.
Lemma rb_geth ns gas out opts : geth_traces (read_back ns) gas out opts = rmap read_frame (geth_traces ns gas out opts).
Proof.
  destruct ns as [|n ns]; [done|]. unfold geth_traces. cbn [read_back map]. change (read_node n :: map read_node ns) with (read_back (n :: ns)).
  rewrite rb_total, rb_step_stack. change [] with (map read_line []) at 1. rewrite rb_fill.
  destruct (fill_geth_trace _ _ _ _ _ _); done.
Qed.

(** ** Vm trace *)
Definition read_sub (o : option VmTrace) : option VmTrace := match o with Some t => Some (read_vm t) | None => None end.
Lemma rb_instruction s o : make_instruction (read_step s) (read_sub o) = read_instruction (make_instruction s o).
Proof. done. Qed.
Lemma last_map_read {A} (f : A -> A) l : last (map f l) = f <$> last l.
Proof. apply (fmap_last f l). Qed.
Lemma rb_last_stop ns : is_last_step_stop_op (read_back ns) = is_last_step_stop_op ns.
Proof.
  unfold is_last_step_stop_op, read_back. rewrite last_map_read. destruct (last ns) as [n|]; [|done]. cbn.
  rewrite last_map_read. destruct (last (tr_steps (nd_trace n))) as [s|]; [|done]. apply read_stop.
Qed.
Definition read_end (x : frame_end) : frame_end :=
  match x with
  | FDone is q => FDone (map read_instruction is) (map read_sub q)
  | FBreak is => FBreak (map read_instruction is)
  end.
Lemma rb_frame_loop b l : forall is q,
  frame_loop b (map read_step l) (map read_instruction is) (map read_sub q) = read_end (frame_loop b l is q).
Proof.
  induction l as [|s l IH]; intros is q; [done|]. cbn [map frame_loop]. rewrite read_calllike, read_stop.
  replace (match map read_instruction is with [] => true | _ => false end) with (match is with [] => true | _ => false end) by by destruct is.
  destruct (st_is_calllike s).
  - destruct q as [|x q]; cbn [map pop_front flatten].
    + destruct (_ && _ && _); [done|]. change (@None VmTrace) with (read_sub None) at 1. rewrite rb_instruction.
      change [read_instruction ?x] with (map read_instruction [x]). rewrite <- map_app. apply (IH _ []).
    + destruct (_ && _ && _); [done|]. replace (flatten (Some (read_sub x))) with (read_sub (flatten (Some x))) by by destruct x.
      replace (match read_sub x with Some a => Some a | None => None end) with (read_sub (match x with Some a => Some a | None => None end)) by by destruct x.
      rewrite rb_instruction.
      change [read_instruction ?x] with (map read_instruction [x]). rewrite <- map_app. apply IH.
  - destruct (_ && _ && _); [done|]. change (@None VmTrace) with (read_sub None) at 1. rewrite rb_instruction.
    change [read_instruction ?x] with (map read_instruction [x]). rewrite <- map_app. apply IH.
Qed.
Lemma rb_vm_loop ns fuel : forall cs q n k,
  vm_loop fuel (read_back ns) cs (map read_sub q) (read_node n) k = rmap (map read_instruction) (vm_loop fuel ns cs q n k).
Proof.
  induction fuel as [|fuel IH]; intros cs q n k; [done|]. cbn [vm_loop]. cbn [read_node nd_set_trace nd_children nd_parent nd_trace read_trace tr_set_steps tr_steps].
  destruct (nd_children n !! k) as [c|].
  - rewrite rb_lookup. destruct (ns !! c) as [m|]; [|done]. cbn [fmap option_fmap option_map expect rbind]. apply IH.
  - rewrite rb_last_stop. change [] with (map read_instruction []) at 1. rewrite rb_frame_loop.
    destruct (frame_loop _ _ _ _) as [is q'|is]; cbn [read_end]; [|done]. destruct (nd_parent n) as [p|]; [|done].
    destruct cs as [|ci cs]; [done|]. rewrite rb_lookup. destruct (ns !! p) as [m|]; [|done]. cbn [fmap option_fmap option_map expect rbind].
    change [Some (mkVm [] (map read_instruction is))] with (map read_sub [Some (mkVm [] is)]). rewrite <- map_app. apply IH.
Qed.
Lemma rb_vm ns : vm_trace (read_back ns) = rmap read_vm (vm_trace ns).
Proof.
  destruct ns as [|n ns]; [done|]. unfold vm_trace, make_vm_trace. cbn [read_back map].
  change (read_node n :: map read_node ns) with (read_back (n :: ns)). rewrite rb_length.
  change [] with (map read_sub []) at 2. rewrite rb_vm_loop. by destruct (vm_loop _ _ _ _ _ _).
Qed.

(** ** Writer *)
Lemma io_bind_ext {A B} (m m' : io A) (k k' : A -> io B) w :
  (forall w, m w = m' w) -> (forall a w, k a w = k' a w) -> io_bind m k w = io_bind m' k' w.
Proof. intros H1 H2. unfold io_bind. rewrite H1. destruct (m' w) as [[w' [a|]]| |]; try done; apply H2. Qed.
Section Writer.
  Context (ck : address -> list byte) (ns : list CallTraceNode).
  Lemma io_bind_index {A B} (r r' : res A) (g : A -> A) (k k' : A -> io B) w :
    r' = rmap g r -> (forall a w, k' (g a) w = k a w) -> io_bind (io_lift r') k' w = io_bind (io_lift r) k w.
  Proof. intros -> H. unfold io_bind, io_lift. destruct r; [apply H|done..]. Qed.
  Lemma map_index {A} (g : A -> A) l i : index (map g l) i = rmap g (index l i).
  Proof. unfold index. rewrite list_lookup_fmap. by destruct (l !! i). Qed.
  Lemma rb_write fuel :
    (forall i j w, write_item ck fuel (read_back ns) i j w = write_item ck fuel ns i j w) /\
    (forall i j f w, write_items_until ck fuel (read_back ns) i j f w = write_items_until ck fuel ns i j f w) /\
    (forall i w, write_node ck fuel (read_back ns) i w = write_node ck fuel ns i w) /\
    (forall i j k w, write_step ck fuel (read_back ns) i j k w = write_step ck fuel ns i j k w).
  Proof.
    induction fuel as [|fuel (IH1 & IH2 & IH3 & IH4)]; [done|]. split_and!.
    - intros i j w. cbn [write_item]. eapply io_bind_index; [apply rb_index|]. intros n w1. cbn beta.
      apply io_bind_ext; [done|]. intros [l|l|l] w2; [done| |apply IH4].
      apply io_bind_ext; [done|]. intros c w3. apply io_bind_ext; [apply IH3|done].
    - intros i j f w. cbn [write_items_until]. apply io_bind_ext; [done|]. intros [|] w1; [done|].
      apply io_bind_ext; [apply IH1|]. intros a w2. apply IH2.
    - intros i w. cbn [write_node]. eapply io_bind_index; [apply rb_index|]. intros n w1. cbn beta.
      do 4 (apply io_bind_ext; [done|]; intros _ ?). apply io_bind_ext; [apply IH2|done].
    - intros i j k w. cbn [write_step]. eapply io_bind_index; [apply rb_index|]. intros n w1. cbn beta.
      eapply io_bind_index; [apply map_index|]. intros s w2. cbn beta. cbn [read_step st_decoded st_gas_used].
      destruct (st_decoded s) as [[call e|line]|]; [|done..].
      eapply io_bind_index; [apply map_index|]. intros s' w3. cbn beta zeta. cbn [read_step st_gas_used].
      do 3 (apply io_bind_ext; [done|]; intros _ ?). apply io_bind_ext; [apply IH2|done].
  Qed.
  Lemma rb_write_arena w : write_arena ck (read_back ns) w = write_arena ck ns w.
  Proof.
    unfold write_arena. replace (writer_fuel (read_back ns)) with (writer_fuel ns).
    - apply io_bind_ext; [apply rb_write|done].
    - clear. induction ns as [|n l IH]; [done|]. unfold writer_fuel, read_back in *. cbn [map fold_right]. rewrite IH. done.
  Qed.
End Writer.

(** ** Where recorded opcodes come from *)
Section Ops.
  Context (P : u8 -> Prop).
  Definition ops_ok (n : CallTraceNode) : Prop := Forall (fun st => P (st_op st)) (tr_steps (nd_trace n)).
  Lemma ops_update ns i f ns' : (forall n, ns !! i = Some n -> ops_ok n -> ops_ok (f n)) -> Forall ops_ok ns -> update ns i f = Ok ns' -> Forall ops_ok ns'.
  Proof.
    intros H Hns Hu. unfold update in Hu. destruct (ns !! i) as [n|] eqn:E; [|done]. injection Hu as <-.
    apply Forall_insert; [done|]. apply H; [done|]. by eapply Forall_lookup_1.
  Qed.
  Lemma ops_push fuel kind t ns : tr_steps t = [] -> Forall ops_ok ns -> forall entry r, push_trace_loop fuel ns entry kind t = Ok r -> Forall ops_ok (fst r).
  Proof.
    intros Ht Hns. induction fuel as [|fuel IH]; intros entry r H; [done|]. cbn [push_trace_loop] in H. destruct (tr_depth t) as [|d].
    - inv_bind H. injection H as <-. cbn [fst]. eapply ops_update; [|exact Hns|eassumption]. intros n _ _. unfold ops_ok. cbn. rewrite Ht; constructor.
    - inv_bind H. destruct (_ =? d).
      + assert (Hns' : Forall ops_ok (ns ++ [mkNode (Some entry) [] (length ns) t [] []])).
        { apply Forall_app. split; [done|]. constructor; [|constructor]. unfold ops_ok. cbn. rewrite Ht; constructor. }
        destruct (is_attach_to_parent kind); inv_bind H; injection H as <-; cbn [fst]; [|injection E0 as <-; exact Hns'].

        eapply ops_update; [|exact Hns'|eassumption]. intros n _ Hn. exact Hn.
      + inv_bind H. eapply IH, H.
  Qed.
  Lemma ops_start s c a inp v k from g mp s' :
    Forall ops_ok (ti_traces s) -> start_trace_on_call s c a inp v k from g mp = Ok s' -> Forall ops_ok (ti_traces s').
  Proof.
    intros Hs H. unfold start_trace_on_call in H. destruct (match ti_trace_stack s with [] => _ | _ => _ end) as [gl sp].
    inv_bind H. injection H as <-. cbn [ti_traces]. eapply ops_push; [|exact Hs|unfold push_trace in *; eassumption]. done.
  Qed.
  Lemma ops_end s c r cr s' : Forall ops_ok (ti_traces s) -> fill_trace_on_call_end s c r cr = Ok s' -> Forall ops_ok (ti_traces s').
  Proof.
    intros Hs H. unfold fill_trace_on_call_end in H. destruct (ti_trace_stack s); [done|]. inv_bind H. injection H as <-. cbn [ti_traces].
    eapply ops_update; [|exact Hs|eassumption]. intros m _ Hn. exact Hn.
  Qed.
  Lemma ops_last s f s' : (forall n, ops_ok n -> ops_ok (f n)) -> Forall ops_ok (ti_traces s) -> on_last_trace s f = Ok s' -> Forall ops_ok (ti_traces s').
  Proof.
    intros Hf Hs H. unfold on_last_trace in H. inv_bind H. inv_bind H. injection H as <-. cbn [ti_traces].
    eapply ops_update; [|exact Hs|eassumption]. intros n _ Hn. by apply Hf.
  Qed.
  Lemma ops_handle s e s' r : (forall i c, e = EStep i c -> P (in_op i)) ->
    Forall ops_ok (ti_traces s) -> ti_handle s e = Ok (s', r) -> Forall ops_ok (ti_traces s').
  Proof.
    intros He Hs H. destruct e as [i c|i c|l c|c i|c i o|c i|c i o|a b v]; cbn [ti_handle] in H.
    - destruct (record_steps (ti_config s)); [|by injection H as <-]. inv_bind H. injection H as <- <-.
      match goal with E : start_step _ _ _ = Ok _ |- _ => rename E into E1 end.
      unfold start_step in E1. inv_bind E1. inv_bind E1. destruct (should_record_opcode _ _); cbn [negb] in E1; [|by injection E1 as <-].
      inv_bind E1. injection E1 as <-. cbn [ti_traces]. eapply ops_update; [|exact Hs|eassumption].
      intros n _ Hn. unfold ops_ok, push_step. cbn. apply Forall_app. split; [exact Hn|]. constructor; [|constructor]. cbn. by eapply He.
    - destruct (record_steps (ti_config s)); [|by injection H as <-]. inv_bind H. injection H as <- <-.
      match goal with E : fill_step_on_step_end _ _ _ = Ok _ |- _ => rename E into E1 end.
      unfold fill_step_on_step_end in E1. destruct (ti_step_stack s) as [|[record j k] rest]; [done|].
      destruct record; cbn [negb] in E1; [|by injection E1 as <-]. inv_bind E1. inv_bind E1. inv_bind E1. inv_bind E1. injection E1 as <-.
      cbn [ti_traces]. eapply ops_update; [|exact Hs|eassumption]. intros n Hj Hn. unfold ops_ok, set_step. cbn. apply Forall_insert; [exact Hn|].
      repeat match goal with E : index _ _ = Ok _ |- _ => unfold index in E end. rewrite Hj in *.
      repeat match goal with E : Ok _ = Ok _ |- _ => injection E as <- end.
      match goal with E : fill_step _ _ _ ?st = Ok _ |- _ => rename E into E2; assert (Hst : P (st_op st)) end.
      { match goal with E : match ?l !! k with _ => _ end = Ok _ |- _ => destruct (l !! k) as [x|] eqn:Ek; [|done]; injection E as <- end.
        eapply (Forall_lookup_1 _ _ _ _ Hn Ek). }
      unfold fill_step in E2. inv_bind E2. inv_bind E2. injection E2 as <-. exact Hst.
    - destruct (record_logs (ti_config s)); [|by injection H as <-]. inv_bind H. injection H as <- <-. eapply ops_last; [|exact Hs|eassumption]. done.
    - inv_bind H. injection H as <- <-. match goal with E : ti_call _ _ _ = Ok _ |- _ => rename E into E1 end.
      unfold ti_call in E1. destruct (call_from_to i) as [from to]. inv_bind E1. eapply ops_start; [exact Hs|exact E1].
    - inv_bind H. injection H as <- <-. eapply ops_end; [exact Hs|eassumption].
    - inv_bind H. injection H as <- <-. match goal with E : ti_create _ _ _ = Ok _ |- _ => rename E into E1 end. eapply ops_start; [exact Hs|exact E1].
    - inv_bind H. injection H as <- <-. eapply ops_end; [exact Hs|eassumption].
    - inv_bind H. injection H as <- <-. eapply ops_last; [|exact Hs|eassumption]. done.
  Qed.
  Lemma ops_run es : forall s s', (forall i c, In (EStep i c) es -> P (in_op i)) ->
    Forall ops_ok (ti_traces s) -> ti_run s es = Ok s' -> Forall ops_ok (ti_traces s').
  Proof.
    induction es as [|e es IH]; intros s s' He Hs H; unfold ti_run, run in H; cbn [rfold] in H; [by injection H as <-|].
    destruct (ti_handle s e) as [[s1 r]| |] eqn:E; cbn [rmap rbind fst] in H; [|done..]. eapply IH; [| |exact H].
    - intros i c Hi. eapply He. right. exact Hi.
    - eapply ops_handle; [|exact Hs|exact E]. intros i c ->. eapply He. by left.
  Qed.
End Ops.
Lemma rb_known ns : Forall (ops_ok (fun op => op_known op = true)) ns -> read_back ns = ns.
Proof.
  intros H. induction H as [|n ns Hn Hns IH]; [done|]. cbn [read_back map]. fold (read_back ns). f_equal; [|exact IH].
  unfold read_node, read_trace. replace (map read_step (tr_steps (nd_trace n))) with (tr_steps (nd_trace n)).
  - destruct n as [? ? ? [] ? ?]. done.
  - unfold ops_ok in Hn. induction Hn as [|st l Hst Hl IH']; [done|]. cbn [map]. f_equal; [|done].
    unfold read_step, opcode_deserialize, opcode_serialize. rewrite Hst. by destruct st.
Qed.
Lemma read_step_twice st : read_step (read_step st) = read_step st.
Proof.
  unfold read_step. cbn. f_equal. unfold opcode_deserialize, opcode_serialize. destruct (op_known (st_op st)) eqn:E; [by rewrite E|done].
Qed.
Lemma rb_twice ns : read_back (read_back ns) = read_back ns.
Proof.
  unfold read_back. rewrite map_map. apply map_ext. intros n. unfold read_node, read_trace, nd_set_trace, tr_set_steps. cbn. do 2 f_equal.
  rewrite map_map. apply map_ext. apply read_step_twice.
Qed.
