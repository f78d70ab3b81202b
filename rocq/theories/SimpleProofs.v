(** * SimpleProofs: counting and collecting inspectors *)

From Verif Require Export SpecSimple SpecOpcodes ConfigProofs OpcodeGas AccessList Transfer FourByte OpCount.
From stdpp Require Import sorting.
Local Open Scope N_scope.

(** ** Inspectors that cannot fail *)
Lemma run_pure {S} (h : inspector S) (p : S -> event -> S) :
  (forall s e, h s e = Ok (p s e, default_response e)) -> forall es s, run h s es = Ok (fold_left p es s).
Proof.
  intros H es. induction es as [|e es IH]; intros s; [done|].
  unfold run in *. cbn [rfold fold_left]. rewrite H. cbn [rmap rbind fst]. apply IH.
Qed.

(** ** Decimal text *)

Definition dec_value (c : byte) : option N :=
  let n := Byte.to_N c in if (48 <=? n) && (n <=? 57) then Some (n - 48) else None.
Definition dec_step (acc : option N) (c : byte) : option N :=
  match acc, dec_value c with Some a, Some d => Some (10 * a + d) | _, _ => None end.
Definition dec_parse (l : list byte) : option N := fold_left dec_step l (Some 0).

Lemma dec_digit_value n : n < 10 -> dec_value (dec_digit n) = Some n.
Proof.
  intros H. assert (Hc : n ∈ [0;1;2;3;4;5;6;7;8;9]).
  { assert (n = 0 \/ n = 1 \/ n = 2 \/ n = 3 \/ n = 4 \/ n = 5 \/ n = 6 \/ n = 7 \/ n = 8 \/ n = 9) by lia.
    set_solver. }
  repeat (apply elem_of_cons in Hc as [->|Hc]; [reflexivity|]). by apply elem_of_nil in Hc.
Qed.

Fixpoint dec_num (l : list byte) : N :=
  match l with [] => 0 | c :: r => default 0 (dec_value c) * 10 ^ N.of_nat (length r) + dec_num r end.

Lemma dec_parse_from l : Forall (fun c => dec_value c <> None) l -> forall a,
  fold_left dec_step l (Some a) = Some (a * 10 ^ N.of_nat (length l) + dec_num l).
Proof.
  induction 1 as [|c l Hc Hl IH]; intros a; cbn [fold_left dec_num length].
  - cbn. f_equal. lia.
  - unfold dec_step at 2. destruct (dec_value c) as [d|]; [|done]. rewrite IH. f_equal. change (default 0 (Some d)) with d.
    rewrite Nat2N.inj_succ, N.pow_succ_r'. ring.
Qed.

Lemma dec_digits_spec fuel : forall n acc, Forall (fun c => dec_value c <> None) acc -> n < 2 ^ N.of_nat fuel ->
  Forall (fun c => dec_value c <> None) (dec_digits fuel n acc) /\
  dec_num (dec_digits fuel n acc) = n * 10 ^ N.of_nat (length acc) + dec_num acc.
Proof.
  induction fuel as [|fuel IH]; intros n acc Hacc Hn; cbn [dec_digits].
  - cbn in Hn. assert (n = 0) as -> by lia. done.
  - assert (Hd : n mod 10 < 10) by (by apply N.mod_lt).
    assert (Hdm : n = 10 * (n / 10) + n mod 10) by (by apply N.div_mod).
    assert (Hacc' : Forall (fun c => dec_value c <> None) (dec_digit (n mod 10) :: acc)).
    { constructor; [|done]. by rewrite dec_digit_value. }
    assert (Hnum : dec_num (dec_digit (n mod 10) :: acc) = (n mod 10) * 10 ^ N.of_nat (length acc) + dec_num acc).
    { cbn [dec_num]. by rewrite dec_digit_value. }
    destruct (N.eqb_spec (n / 10) 0) as [Hz|Hnz].
    + split; [done|]. rewrite Hnum. rewrite Hz in Hdm. replace (n mod 10) with n by lia. done.
    + destruct (IH (n / 10) (dec_digit (n mod 10) :: acc)) as [H1 H2]; [done| |].
      { rewrite Nat2N.inj_succ, N.pow_succ_r' in Hn. apply N.div_lt_upper_bound; [done|]. lia. }
      split; [done|]. rewrite H2, Hnum. cbn [length]. rewrite Nat2N.inj_succ, N.pow_succ_r'.
      set (p := 10 ^ N.of_nat (length acc)). rewrite Hdm at 3. ring.
Qed.

Lemma dec_text_spec n : Forall (fun c => dec_value c <> None) (dec_text n) /\ dec_parse (dec_text n) = Some n.
Proof.
  unfold dec_text. destruct (dec_digits_spec (S (N.to_nat (N.log2 n))) n []) as [H1 H2]; [done| |].
  { rewrite Nat2N.inj_succ, N2Nat.id. destruct (N.eq_dec n 0) as [->|Hz]; [done|].
    apply N.log2_spec. lia. }
  split; [done|]. unfold dec_parse. rewrite dec_parse_from by done. rewrite H2. cbn. f_equal. lia.
Qed.

Lemma dec_text_inj n m : dec_text n = dec_text m -> n = m.
Proof.
  intros H. destruct (dec_text_spec n) as [_ H1]. destruct (dec_text_spec m) as [_ H2]. rewrite H in H1. congruence.
Qed.

Lemma dec_digits_nonzero fuel : forall n acc, n < 2 ^ N.of_nat fuel -> n <> 0 ->
  hd_error (dec_digits fuel n acc) <> Some x30.
Proof.
  induction fuel as [|fuel IH]; intros n acc Hn Hz; cbn [dec_digits]; [cbn in Hn; lia|].
  assert (Hdm : n = 10 * (n / 10) + n mod 10) by (by apply N.div_mod).
  destruct (N.eqb_spec (n / 10) 0) as [Hq|Hq].
  - cbn. intros [= H]. assert (Hv : dec_value (dec_digit (n mod 10)) = Some (n mod 10)) by (apply dec_digit_value; by apply N.mod_lt).
    rewrite H in Hv. change (dec_value x30) with (Some 0) in Hv. injection Hv as Hv. lia.
  - apply IH; [|done]. rewrite Nat2N.inj_succ, N.pow_succ_r' in Hn. apply N.div_lt_upper_bound; lia.
Qed.
Lemma dec_text_no_leading_zero n : hd_error (dec_text n) = Some x30 -> n = 0.
Proof.
  intros H. destruct (N.eq_dec n 0) as [|Hz]; [done|]. exfalso. revert H. apply dec_digits_nonzero; [|done].
  rewrite Nat2N.inj_succ, N2Nat.id. apply N.log2_spec. lia.
Qed.

(** ** Opcode gas *)

(** The totals without a limit. *)
Definition og_pure_end (s : OpcodeGasInspector) (i : Interp) : OpcodeGasInspector :=
  match og_last s with
  | Some (op, gas_remaining) => mkOG (og_counts s) (add_entry op (gas_remaining - g_remaining (in_gas i)) (og_gas s)) None
  | None => s
  end.
Definition og_pure (s : OpcodeGasInspector) (e : event) : OpcodeGasInspector :=
  match e with EStep i _ => og_step s i | EStepEnd i _ => og_pure_end s i | _ => s end.

Lemma add_entry_lookup k n m j : default 0 (add_entry k n m !! j) = default 0 (m !! j) + (if k =? j then n else 0).
Proof.
  unfold add_entry. destruct (N.eqb_spec k j) as [->|Hne].
  - by rewrite lookup_insert.
  - rewrite lookup_insert_ne by done. lia.
Qed.

Lemma og_counts_spec es : forall s op, 
  default 0 (og_counts (fold_left og_pure es s) !! op) =
  default 0 (og_counts s !! op) + (if op_known op then count_steps op es else 0).
Proof.
  induction es as [|e es IH]; intros s op; cbn [fold_left].
  - unfold count_steps. cbn. destruct (op_known op); lia.
  - rewrite IH. assert (Hn : forall e, is_step_of op e = false -> count_steps op (e :: es) = count_steps op es).
    { intros e' He. unfold count_steps. cbn. by rewrite He. }
    destruct e as [i c|i c|l c|c i|c i o|c i|c i o|a b v]; cbn [og_pure]; try (rewrite Hn by done; done).
    + unfold og_step. destruct (op_known (in_op i)) eqn:Hk; cbn [og_counts].
      * rewrite add_entry_lookup. unfold count_steps. cbn [List.filter is_step_of].
        destruct (N.eqb_spec (in_op i) op) as [He|Hne].
        -- rewrite He in Hk. rewrite Hk. cbn [length]. rewrite Nat2N.inj_succ. lia.
        -- lia.
      * destruct (N.eqb_spec (in_op i) op) as [<-|Hne]; [by rewrite Hk|].
        rewrite Hn; [done|]. cbn. by apply N.eqb_neq.
    + rewrite Hn by done. unfold og_pure_end. destruct (og_last s) as [[]|]; done.
Qed.

Definition pending_gas (op : u8) (last : option (u8 * u64)) (es : list event) : N :=
  match last with
  | Some (o, g) => if o =? op then match own_step_end es with
                                   | Some i' => Z.to_N (Z.max 0 (Z.of_N g - Z.of_N (g_remaining (in_gas i'))))
                                   | None => 0
                                   end else 0
  | None => 0
  end.

Lemma og_gas_spec es : forall s op,
  default 0 (og_gas (fold_left og_pure es s) !! op) =
  default 0 (og_gas s !! op) + pending_gas op (og_last s) es + gas_of_steps op es.
Proof.
  induction es as [|e es IH]; intros s op; cbn [fold_left gas_of_steps].
  - unfold pending_gas. destruct (og_last s) as [[o g]|]; cbn; [destruct (o =? op)|]; lia.
  - rewrite IH. destruct e as [i c|i c|l c|c i|c i o|c i|c i o|a b v]; cbn [og_pure]; try done.
    + unfold og_step. destruct (op_known (in_op i)) eqn:Hk.
      * cbn [og_gas og_last pending_gas own_step_end].
        assert (H0 : pending_gas op (og_last s) (EStep i c :: es) = 0).
        { unfold pending_gas. cbn [own_step_end]. rewrite Hk. destruct (og_last s) as [[o g]|]; [|done].
          by destruct (o =? op). }
        rewrite H0. destruct (N.eqb_spec (in_op i) op) as [<-|Hne]; cbn [andb]; [rewrite Hk|]; lia.
      * assert (H0 : pending_gas op (og_last s) (EStep i c :: es) = pending_gas op (og_last s) es).
        { unfold pending_gas. cbn [own_step_end]. by rewrite Hk. }
        rewrite H0. destruct (N.eqb_spec (in_op i) op) as [<-|Hne]; cbn [andb]; [rewrite Hk|]; lia.
    + unfold og_pure_end. destruct (og_last s) as [[o g]|] eqn:El.
      * cbn [og_gas og_last pending_gas own_step_end]. rewrite add_entry_lookup.
        destruct (o =? op); lia.
      * rewrite El. cbn [pending_gas]. lia.
Qed.

(** Recording goes on as long as no total reaches 2^64. *)
Lemma og_run_step s e :
  match rmap fst (og_handle s e) with
  | Ok s' => s' = og_pure s e
  | Panic p => p = POverflow /\ exists op, 2 ^ 64 <= default 0 (og_gas (og_pure s e) !! op)
  | OutOfFuel => False
  end.
Proof.
  destruct e as [i c|i c|l c|c i|c i o|c i|c i o|a b v]; cbn; try done.
  unfold og_step_end, og_pure_end. destruct (og_last s) as [[op g]|]; [|done].
  destruct (N.ltb_spec (default 0 (og_gas s !! op) + (g - g_remaining (in_gas i))) (2 ^ 64)) as [Hlt|Hge]; cbn; [done|].
  split; [done|]. exists op. rewrite add_entry_lookup, N.eqb_refl. exact Hge.
Qed.
Lemma og_gas_mono es s op : default 0 (og_gas s !! op) <= default 0 (og_gas (fold_left og_pure es s) !! op).
Proof. rewrite og_gas_spec. lia. Qed.
Lemma og_run es : forall s,
  match run og_handle s es with
  | Ok s' => s' = fold_left og_pure es s
  | Panic p => p = POverflow /\ exists op, 2 ^ 64 <= default 0 (og_gas (fold_left og_pure es s) !! op)
  | OutOfFuel => False
  end.
Proof.
  induction es as [|e es IH]; intros s; [done|]. unfold run in *. cbn [rfold fold_left].
  pose proof (og_run_step s e) as He. destruct (rmap fst (og_handle s e)) as [s1|p|]; cbn [rbind].
  - subst s1. apply IH.
  - destruct He as (-> & op & Hop). split; [done|]. exists op. etransitivity; [exact Hop|]. apply og_gas_mono.
  - done.
Qed.
Lemma og_bounded es : forall s s', (forall op, default 0 (og_gas s !! op) < 2 ^ 64) -> run og_handle s es = Ok s' ->
  forall op, default 0 (og_gas s' !! op) < 2 ^ 64.
Proof.
  induction es as [|e es IH]; intros s s' Hb Hrun; [by injection Hrun as <-|]. unfold run in *. cbn [rfold] in Hrun.
  destruct (rmap fst (og_handle s e)) as [s1|p|] eqn:E; cbn [rbind] in Hrun; [|done|done].
  eapply IH; [|exact Hrun]. intros op.
  destruct e as [i c|i c|l c|c i|c i o|c i|c i o|x y v]; cbn in E; try (injection E as <-; apply Hb).
  - injection E as <-. unfold og_step. destruct (op_known (in_op i)); apply Hb.
  - unfold og_step_end in E. destruct (og_last s) as [[op' g]|]; [|injection E as <-; apply Hb].
    destruct (N.ltb_spec (default 0 (og_gas s !! op') + (g - g_remaining (in_gas i))) (2 ^ 64)); [|done].
    cbn in E. injection E as <-. cbn [og_gas]. rewrite add_entry_lookup. destruct (N.eqb_spec op' op) as [->|]; [done|].
    rewrite N.add_0_r. apply Hb.
Qed.

(** *** On executions *)

Lemma count_steps_app op l1 l2 : count_steps op (l1 ++ l2) = count_steps op l1 + count_steps op l2.
Proof. unfold count_steps. rewrite List.filter_app, app_length. lia. Qed.

Definition is_instr_of (op : u8) (o : instr) : bool := in_op (op_pre o) =? op.

Definition instr_cost (o : instr) : N :=
  Z.to_N (Z.max 0 (Z.of_N (g_remaining (in_gas (op_pre o))) - Z.of_N (g_remaining (in_gas (op_post o))))).
Definition sum_costs (l : list instr) : N := fold_right (fun o acc => instr_cost o + acc) 0 l.

Lemma sum_costs_app l1 l2 : sum_costs (l1 ++ l2) = sum_costs l1 + sum_costs l2.
Proof. induction l1 as [|o l1 IH]; [done|]. cbn [app sum_costs fold_right]. fold (sum_costs (l1 ++ l2)). fold (sum_costs l1). rewrite IH. lia. Qed.

(** A history made of whole instructions and other hooks. *)
Definition no_step (e : event) : bool := match e with EStep _ _ | EStepEnd _ _ => false | _ => true end.
Lemma own_step_end_hooks l r : forallb no_step l = true -> own_step_end (l ++ r) = own_step_end r.
Proof. induction l as [|e l IH]; [done|]. cbn. rewrite andb_true_iff. intros [He Hl]. destruct e; try done; by apply IH. Qed.
Lemma gas_of_steps_hooks op l r : forallb no_step l = true -> gas_of_steps op (l ++ r) = gas_of_steps op r.
Proof. induction l as [|e l IH]; [done|]. cbn. rewrite andb_true_iff. intros [He Hl]. destruct e; try done; by apply IH. Qed.

Lemma hook_events_no_step w d hs : forallb no_step (map (hook_event w d) hs) = true.
Proof. induction hs as [|[] hs IH]; done. Qed.

Definition item_events (w : world) (d : nat) (it : item) : list event :=
  match it with IOp o => instr_events w d o | IHook h => [hook_event w d h] | ISub g => frame_events w d g end.
Definition item_instrs (it : item) : list instr :=
  match it with IOp o => [o] | IHook _ => [] | ISub g => all_instrs g end.
Lemma frame_events_eq w d s body e :
  frame_events w d (Frame s body e) = start_event w d s :: flat_map (item_events w (S d)) body ++ [end_event w d s e].
Proof. done. Qed.

(** The histories [es] contribute exactly the instructions [l]. *)
Definition contributes (op : u8) (es : list event) (l : list instr) : Prop :=
  forall r, gas_of_steps op (es ++ r) = sum_costs (List.filter (is_instr_of op) l) + gas_of_steps op r /\
            count_steps op (es ++ r) = N.of_nat (length (List.filter (is_instr_of op) l)) + count_steps op r.

Lemma contributes_app op es1 es2 l1 l2 :
  contributes op es1 l1 -> contributes op es2 l2 -> contributes op (es1 ++ es2) (l1 ++ l2).
Proof.
  intros H1 H2 r. rewrite <-app_assoc. destruct (H1 (es2 ++ r)) as [-> ->]. destruct (H2 r) as [-> ->].
  rewrite List.filter_app, sum_costs_app, app_length. split; lia.
Qed.
Lemma contributes_none op es : forallb no_step es = true -> contributes op es [].
Proof.
  induction es as [|e es IH]; [done|]. cbn [forallb]. rewrite andb_true_iff. intros [He Hl] r.
  destruct (IH Hl r) as [H1 H2]. destruct e; done.
Qed.
Lemma contributes_instr op w d o : op_known op = true -> contributes op (instr_events w d o) [o].
Proof.
  intros Hk r. unfold instr_events. cbn [app gas_of_steps]. rewrite <-app_assoc.
  rewrite own_step_end_hooks, gas_of_steps_hooks by apply hook_events_no_step. cbn [app own_step_end gas_of_steps].
  rewrite Hk, andb_true_r. cbn [List.filter]. split.
  - unfold is_instr_of, sum_costs, instr_cost. destruct (in_op (op_pre o) =? op); cbn [fold_right]; lia.
  - change (EStep ?a ?b :: ?l) with ([EStep a b] ++ l). rewrite count_steps_app.
    destruct (contributes_none op _ (hook_events_no_step w d (op_hooks o))
               (EStepEnd (op_post o) (ctx_of w d (op_post_j o)) :: r)) as [_ ->].
    change (count_steps op (EStepEnd ?a ?b :: r)) with (count_steps op r). unfold count_steps at 1, is_instr_of.
    cbn [List.filter is_step_of]. destruct (in_op (op_pre o) =? op); cbn [length List.filter]; lia.
Qed.

Lemma frame_contributes w op f : op_known op = true -> forall d, contributes op (frame_events w d f) (all_instrs f).
Proof.
  intros Hk. induction f as [s body e IH] using frame_ind'. intros d. rewrite frame_events_eq.
  change (start_event w d s :: ?l) with ([start_event w d s] ++ l).
  change (all_instrs (Frame s body e)) with ([] ++ flat_map item_instrs body).
  apply contributes_app; [apply contributes_none; by destruct s|].
  rewrite <-(app_nil_r (flat_map item_instrs body)).
  apply contributes_app; [|apply contributes_none; by destruct s].
  induction body as [|[o|h|g] b IHb]; cbn [flat_map].
  - by apply contributes_none.
  - apply contributes_app; [by apply contributes_instr|by apply IHb].
  - apply contributes_app; [apply contributes_none; by destruct h|by apply IHb].
  - cbn [subs flat_map app] in IH. inversion_clear IH as [|? ? Hg Hb].
    apply contributes_app; [by apply Hg|by apply IHb].
Qed.

(** ** Access list *)

Definition al_pure (s : AccessListInspector) (e : event) : AccessListInspector :=
  match e with EStep i _ => al_step s i | _ => s end.
Lemma al_run es s : run al_handle s es = Ok (fold_left al_pure es s).
Proof. apply run_pure. by intros ? []. Qed.

Lemma al_step_excluded s e : al_excluded (al_pure s e) = al_excluded s.
Proof.
  destruct e; cbn; try done. unfold al_step, al_touch_operand.
  repeat case_match; done.
Qed.

Lemma peek_0 st k : stack_peek st 0 = Some k <-> exists rest, st = rest ++ [k].
Proof.
  unfold stack_peek. split.
  - destruct st as [|x l _] using rev_ind; [done|]. rewrite reverse_snoc. intros [= ->]. by exists l.
  - intros (rest & ->). by rewrite reverse_snoc.
Qed.
Lemma peek_1 st k : stack_peek st 1 = Some k <-> exists rest top, st = rest ++ [k; top].
Proof.
  unfold stack_peek. split.
  - destruct st as [|x l _] using rev_ind; [done|]. rewrite reverse_snoc. cbn.
    destruct l as [|y l _] using rev_ind; [done|]. rewrite reverse_snoc. intros [= ->].
    exists l, x. by rewrite <-app_assoc.
  - intros (rest & top & ->). change [k; top] with ([k] ++ [top]). by rewrite app_assoc, !reverse_snoc.
Qed.

(** Keys known for an address; [None] if the address is unknown. *)
Definition al_keys (s : AccessListInspector) (a : address) : option (gset U256) := al_list s !! a.

Lemma existsb_In op l : existsb (N.eqb op) l = true <-> In op l.
Proof.
  rewrite existsb_exists. split; [|intros Hi; exists op; split; [done|apply N.eqb_refl]].
  intros (x & Hx & Heq). apply N.eqb_eq in Heq. by subst.
Qed.

Lemma accesses_slot_step i c a k : accesses_slot (EStep i c) a k <->
  In (in_op i) [OP_SLOAD; OP_SSTORE] /\ in_contract i = a /\ stack_peek (in_stack i) 0 = Some k.
Proof.
  rewrite peek_0. split.
  - intros (i' & c' & rest & [= <- <-] & Hop & Ha & Hs). split_and!; [|done|by exists rest].
    cbn. destruct Hop as [-> | ->]; auto.
  - intros (Hop & Ha & rest & Hs). exists i, c, rest. split_and!; try done. cbn in Hop. unfold OP_SLOAD, OP_SSTORE in Hop.
    naive_solver.
Qed.

Lemma names_account_step i c a : names_account (EStep i c) a <->
  (In (in_op i) [OP_EXTCODECOPY; OP_EXTCODEHASH; OP_EXTCODESIZE; OP_BALANCE; OP_SELFDESTRUCT] /\
     exists w, stack_peek (in_stack i) 0 = Some w /\ a = address_from_word w) \/
  (In (in_op i) [OP_DELEGATECALL; OP_CALL; OP_STATICCALL; OP_CALLCODE] /\
     exists w, stack_peek (in_stack i) 1 = Some w /\ a = address_from_word w).
Proof.
  unfold names_account, address_from_word. setoid_rewrite peek_0. setoid_rewrite peek_1.
  unfold OP_EXTCODECOPY, OP_EXTCODEHASH, OP_EXTCODESIZE, OP_BALANCE, OP_SELFDESTRUCT, OP_DELEGATECALL, OP_CALL,
    OP_STATICCALL, OP_CALLCODE.
  split.
  - intros (i' & c' & rest & w & [= <- <-] & Ha & [[Hop Hs]|(Hop & top & Hs)]); [left|right].
    + split; [cbn in *; tauto|]. eauto.
    + split; [cbn in *; tauto|]. eauto.
  - intros [(Hop & w & (rest & Hs) & Ha)|(Hop & w & (rest & top & Hs) & Ha)].
    + exists i, c, rest, w. split_and!; try done. left. split; [cbn in *; tauto|done].
    + exists i, c, rest, w. split_and!; try done. right. split; [cbn in *; tauto|eauto].
Qed.

Lemma al_touch_operand_keys s o a : al_keys (al_touch_operand s o) a =
  match al_keys s a with
  | Some ks => Some ks
  | None => match o with
            | Some w => if decide (a = address_from_word w) then
                          if decide (a ∈ al_excluded s) then None else Some ∅ else None
            | None => None
            end
  end.
Proof.
  unfold al_touch_operand, al_keys. destruct o as [w|]; [|by destruct (al_list s !! a)].
  destruct (decide (address_from_word w ∈ al_excluded s)) as [Hex|Hex].
  - destruct (al_list s !! a) eqn:E; [done|]. destruct (decide (a = address_from_word w)) as [->|]; [|done].
    by rewrite decide_True.
  - cbn [al_list]. unfold al_touch. destruct (decide (a = address_from_word w)) as [->|Hne].
    + rewrite lookup_insert. destruct (al_list s !! address_from_word w); [done|]. by rewrite decide_False.
    + rewrite lookup_insert_ne by done. by destruct (al_list s !! a).
Qed.

(** One step. *)
Lemma al_pure_known s e a :
  al_keys (al_pure s e) a <> None <->
  al_keys s a <> None \/ (exists k, accesses_slot e a k) \/ (names_account e a /\ a ∉ al_excluded s).
Proof.
  destruct e as [i c| | | | | | | ]; cbn [al_pure];
    try (split; [by left|intros [?|[(k & i' & c' & rest & He & _)|[(i' & c' & rest & w & He & _) _]]]; done]).
  setoid_rewrite accesses_slot_step. rewrite names_account_step. unfold al_step.
  destruct (existsb (N.eqb (in_op i)) [OP_SLOAD; OP_SSTORE]) eqn:E1.
  { pose proof (proj1 (existsb_In _ _) E1) as H1.
    assert (Hno : ~ In (in_op i) [OP_EXTCODECOPY; OP_EXTCODEHASH; OP_EXTCODESIZE; OP_BALANCE; OP_SELFDESTRUCT] /\
                  ~ In (in_op i) [OP_DELEGATECALL; OP_CALL; OP_STATICCALL; OP_CALLCODE]).
    { destruct H1 as [H1|[H1|[]]]; rewrite <-H1; split; intros Hc; repeat (destruct Hc as [Hc|Hc]; [discriminate Hc|]); done. }
    destruct (stack_peek (in_stack i) 0) as [k|] eqn:Ep.
    - unfold al_keys. cbn [al_list]. destruct (decide (in_contract i = a)) as [<-|Hne].
      + rewrite lookup_insert. split; [|done]. intros _. right. left. exists k. done.
      + rewrite lookup_insert_ne by done. split; [by left|]. intros [?|[(k' & _ & ? & _)|[[[? _]|[? _]] _]]]; tauto.
    - split; [by left|]. intros [?|[(k' & _ & _ & ?)|[[[? _]|[? _]] _]]]; [done|congruence|tauto|tauto]. }
  destruct (existsb (N.eqb (in_op i)) [OP_EXTCODECOPY; OP_EXTCODEHASH; OP_EXTCODESIZE; OP_BALANCE; OP_SELFDESTRUCT]) eqn:E2.
  { pose proof (proj1 (existsb_In _ _) E2) as H2.
    assert (Hno : ~ In (in_op i) [OP_DELEGATECALL; OP_CALL; OP_STATICCALL; OP_CALLCODE]).
    { intros Hc. repeat (destruct H2 as [H2|H2];
        [rewrite <-H2 in Hc; repeat (destruct Hc as [Hc|Hc]; [discriminate Hc|]); done|]). done. }
    assert (Hno1 : ~ In (in_op i) [OP_SLOAD; OP_SSTORE]) by (intros Hc; apply existsb_In in Hc; congruence).
    rewrite al_touch_operand_keys. destruct (al_keys s a); [naive_solver|].
    destruct (stack_peek (in_stack i) 0) as [w|]; [|naive_solver].
    destruct (decide (a = address_from_word w)); [|naive_solver].
    destruct (decide (a ∈ al_excluded s)); naive_solver. }
  destruct (existsb (N.eqb (in_op i)) [OP_DELEGATECALL; OP_CALL; OP_STATICCALL; OP_CALLCODE]) eqn:E3.
  { pose proof (proj1 (existsb_In _ _) E3) as H3.
    assert (Hno1 : ~ In (in_op i) [OP_SLOAD; OP_SSTORE]) by (intros Hc; apply existsb_In in Hc; congruence).
    assert (Hno2 : ~ In (in_op i) [OP_EXTCODECOPY; OP_EXTCODEHASH; OP_EXTCODESIZE; OP_BALANCE; OP_SELFDESTRUCT])
      by (intros Hc; apply existsb_In in Hc; congruence).
    rewrite al_touch_operand_keys. destruct (al_keys s a); [naive_solver|].
    destruct (stack_peek (in_stack i) 1) as [w|]; [|naive_solver].
    destruct (decide (a = address_from_word w)); [|naive_solver].
    destruct (decide (a ∈ al_excluded s)); naive_solver. }
  assert (Hno1 : ~ In (in_op i) [OP_SLOAD; OP_SSTORE]) by (intros Hc; apply existsb_In in Hc; congruence).
  assert (Hno2 : ~ In (in_op i) [OP_EXTCODECOPY; OP_EXTCODEHASH; OP_EXTCODESIZE; OP_BALANCE; OP_SELFDESTRUCT])
    by (intros Hc; apply existsb_In in Hc; congruence).
  assert (Hno3 : ~ In (in_op i) [OP_DELEGATECALL; OP_CALL; OP_STATICCALL; OP_CALLCODE])
    by (intros Hc; apply existsb_In in Hc; congruence).
  naive_solver.
Qed.

Lemma al_pure_key s e a k :
  k ∈ default ∅ (al_keys (al_pure s e) a) <-> k ∈ default ∅ (al_keys s a) \/ accesses_slot e a k.
Proof.
  destruct e as [i c| | | | | | | ]; cbn [al_pure];
    try (split; [by left|intros [?|(i' & c' & rest & He & _)]; done]).
  rewrite accesses_slot_step. unfold al_step.
  destruct (existsb (N.eqb (in_op i)) [OP_SLOAD; OP_SSTORE]) eqn:E1.
  { pose proof (proj1 (existsb_In _ _) E1) as H1. destruct (stack_peek (in_stack i) 0) as [k'|] eqn:Ep.
    - unfold al_keys. cbn [al_list]. destruct (decide (in_contract i = a)) as [<-|Hne].
      + rewrite lookup_insert. cbn [default]. set_solver.
      + rewrite lookup_insert_ne by done. set_solver.
    - split; [by left|]. intros [?|(_ & _ & ?)]; [done|congruence]. }
  assert (Hno1 : ~ In (in_op i) [OP_SLOAD; OP_SSTORE]) by (intros Hc; apply existsb_In in Hc; congruence).
  assert (Ht : forall o, k ∈ default ∅ (al_keys (al_touch_operand s o) a) <-> k ∈ default ∅ (al_keys s a)).
  { intros o. rewrite al_touch_operand_keys. destruct (al_keys s a); [done|].
    destruct o as [w|]; [|done]. destruct (decide _); [|done]. by destruct (decide _). }
  repeat (case_match; [setoid_rewrite Ht; tauto|]). tauto.
Qed.

Lemma al_fold es : forall s,
  al_excluded (fold_left al_pure es s) = al_excluded s /\
  (forall a, al_keys (fold_left al_pure es s) a <> None <->
     al_keys s a <> None \/ (exists e k, In e es /\ accesses_slot e a k) \/
     (a ∉ al_excluded s /\ exists e, In e es /\ names_account e a)) /\
  (forall a k, k ∈ default ∅ (al_keys (fold_left al_pure es s) a) <->
     k ∈ default ∅ (al_keys s a) \/ exists e, In e es /\ accesses_slot e a k).
Proof.
  induction es as [|e es IH]; intros s; cbn [fold_left].
  - split_and!; [done|..].
    + intros a. split; [by left|]. intros [?|[(?&?&[]&_)|(_&?&[]&_)]]. done.
    + intros a k. split; [by left|]. intros [?|(?&[]&_)]. done.
  - destruct (IH (al_pure s e)) as (H1 & H2 & H3). rewrite al_step_excluded in *. split_and!; [done|..].
    + intros a. rewrite H2, al_pure_known. cbn [In]. split.
      * intros [[?|[(k & ?)|[? ?]]]|[(e' & k & ? & ?)|(? & e' & ? & ?)]].
        -- by left.
        -- right; left. exists e, k. tauto.
        -- right; right. split; [done|]. exists e. tauto.
        -- right; left. exists e', k. tauto.
        -- right; right. split; [done|]. exists e'. tauto.
      * intros [?|[(e' & k & [<-|?] & ?)|(? & e' & [<-|?] & ?)]].
        -- left. by left.
        -- left. right; left. by exists k.
        -- right. left. by exists e', k.
        -- left. right; right. done.
        -- right. right. split; [done|]. by exists e'.
    + intros a k. rewrite H3, al_pure_key. cbn [In]. split.
      * intros [[?|?]|(e' & ? & ?)]; [by left|right; exists e; tauto|right; exists e'; tauto].
      * intros [?|(e' & [<-|?] & ?)]; [by left; left|by left; right|right; by exists e'].
Qed.

Lemma last_entry_cons a0 ks0 r a ks :
  last_entry ((a0, ks0) :: r) a ks <->
  last_entry r a ks \/ (a0 = a /\ ks0 = ks /\ ~ In a (map fst r)).
Proof.
  split.
  - intros (r1 & r2 & He & Hn). destruct r1 as [|x r1]; cbn in He; injection He as He1 He2.
    + right. by subst.
    + left. by exists r1, r2.
  - intros [(r1 & r2 & -> & Hn)|(-> & -> & Hn)].
    + by exists ((a0, ks0) :: r1), r2.
    + by exists [], r.
Qed.

Lemma last_entry_in r a : In a (map fst r) <-> exists ks, last_entry r a ks.
Proof.
  induction r as [|[a0 ks0] r IH].
  - split; [done|]. intros (ks & r1 & r2 & He & _). by destruct r1.
  - cbn [map fst In]. setoid_rewrite last_entry_cons. rewrite IH. split.
    + intros [->|[ks H]]; [|by exists ks; left].
      destruct (in_dec N.eq_dec a (map fst r)) as [Hin|Hin].
      * apply IH in Hin as [ks Hk]. exists ks. by left.
      * exists ks0. by right.
    + intros (ks & [H|(-> & _ & _)]); [right; by exists ks|by left].
Qed.

Lemma request_fold request : forall (m : gmap address (gset U256)) a ss,
  fold_left (fun m it => <[fst it := list_to_set (snd it)]> m) request m !! a = Some ss <->
  (exists ks, last_entry request a ks /\ ss = list_to_set ks) \/ (~ In a (map fst request) /\ m !! a = Some ss).
Proof.
  induction request as [|[a0 ks0] r IH]; intros m a ss; cbn [fold_left map fst snd].
  - split; [naive_solver|]. intros [(ks & (r1 & r2 & He & _) & _)|[_ H]]; [by destruct r1|done].
  - rewrite IH. setoid_rewrite last_entry_cons. cbn [In]. destruct (decide (a0 = a)) as [->|Hne].
    + rewrite lookup_insert. split.
      * intros [(ks & H & ->)|[Hn H]]; [left; exists ks; naive_solver|].
        injection H as <-. left. exists ks0. split; [|done]. by right.
      * intros [(ks & [H|(_ & -> & Hn)] & ->)|[Hn H]]; [left; by exists ks|by right|]. naive_solver.
    + rewrite lookup_insert_ne by done. split.
      * intros [(ks & H & ->)|[Hn H]]; [left; exists ks; naive_solver|]. right. naive_solver.
      * intros [(ks & [H|(? & _)] & ->)|[Hn H]]; [left; by exists ks|done|]. right. naive_solver.
Qed.

Lemma btree_elements_spec s :
  (forall k, In k (btree_elements s) <-> k ∈ s) /\ StronglySorted N.lt (btree_elements s).
Proof.
  unfold btree_elements. pose proof (merge_sort_Permutation N.le (elements s)) as Hp. split.
  - intros k. rewrite <-elem_of_list_In. rewrite Hp. apply elem_of_elements.
  - assert (Hs : Sorted N.le (merge_sort N.le (elements s))) by (apply Sorted_merge_sort; intros ? ?; lia).
    apply Sorted_StronglySorted in Hs; [|intros ? ? ?; lia].
    assert (Hn : NoDup (merge_sort N.le (elements s))) by (rewrite Hp; apply NoDup_elements).
    revert Hs Hn. generalize (merge_sort N.le (elements s)). clear. induction l as [|x l IH]; intros Hs Hn; [constructor|].
    inversion_clear Hs as [|? ? Hs' Hall]. inversion_clear Hn as [|? ? Hni Hn']. constructor; [by apply IH|].
    apply Forall_forall. intros y Hy. rewrite Forall_forall in Hall. specialize (Hall y Hy).
    assert (x <> y) by (intros ->; done). lia.
Qed.

Lemma al_output s a ks : In (a, ks) (al_access_list s) <-> exists ss, al_keys s a = Some ss /\ ks = btree_elements ss.
Proof.
  unfold al_access_list, al_keys. rewrite in_map_iff. split.
  - intros ([a' ss] & [= <- <-] & Hin). exists ss. split; [|done]. apply elem_of_list_In in Hin.
    by apply elem_of_map_to_list in Hin.
  - intros (ss & Hs & ->). exists (a, ss). split; [done|]. apply elem_of_list_In. by apply elem_of_map_to_list.
Qed.

Lemma al_output_nodup s : NoDup (map fst (al_access_list s)).
Proof.
  unfold al_access_list. rewrite map_map. cbn [fst].
  apply (NoDup_fst_map_to_list (al_list s)).
Qed.

(** ** Transfers *)

Definition tf_pure (s : TransferInspector) (e : event) : TransferInspector :=
  match e with
  | ECall c i => tf_call s c i
  | ECreateEnd c i o => tf_create_end s c i o
  | ESelfdestruct a b v => tf_push s (mkTransfer TKSelfDestruct a b v)
  | _ => s
  end.
Lemma tf_run es s : run tf_handle s es = Ok (fold_left tf_pure es s).
Proof. apply run_pure. by intros ? []. Qed.

Definition as_movement (t : TransferOperation) : movement :=
  (match tf_kind t with TKCall => ByCall | TKCreate => ByCreate | TKCreate2 => ByCreate2 | TKSelfDestruct => BySelfdestruct end,
   tf_from t, tf_to t, tf_value t).
Definition moved (s : TransferInspector) : list movement := map as_movement (tf_transfers s).

Lemma tf_push_moved s t : moved (tf_push s t) = moved s ++ [as_movement t].
Proof. unfold moved. cbn. by rewrite map_app. Qed.

Lemma tf_events io es : forall s, tf_internal_only s = io ->
  moved (fold_left tf_pure es s) = moved s ++ flat_map (hook_movements io) es.
Proof.
  induction es as [|e es IH]; intros s Hs; cbn [fold_left flat_map]; [by rewrite app_nil_r|].
  assert (He : tf_internal_only (tf_pure s e) = io /\ moved (tf_pure s e) = moved s ++ hook_movements io e).
  { destruct e as [ | | |c i| | |c i o|a b v]; cbn [tf_pure hook_movements]; try (by rewrite app_nil_r).
    - unfold tf_call, transfers_value, ci_transfer_value, ci_call_value. rewrite Hs.
      destruct (ci_value i) as [v|v] eqn:Ev; destruct (io && _); rewrite ?andb_false_r, ?andb_true_r; cbn [negb];
        try (by rewrite app_nil_r).
      destruct (0 <? v); [|by rewrite app_nil_r]. split; [done|]. by rewrite tf_push_moved.
    - unfold tf_create_end. rewrite Hs. destruct (io && _), (cro_address o); cbn [negb]; try (by rewrite app_nil_r).
      split; [done|]. rewrite tf_push_moved. unfold as_movement. cbn. by destruct (cr_scheme i).
    - split; [done|]. by rewrite tf_push_moved. }
  destruct He as [H1 H2]. rewrite IH by done. by rewrite H2, app_assoc.
Qed.

Definition item_movements (it : item) : list movement :=
  match it with IOp o => flat_map hook_movement (op_hooks o) | IHook h => hook_movement h | ISub g => movements true g end.

(** From a state with this [internal_only], the history appends exactly these movements. *)
Definition appends (io : bool) (es : list event) (ms : list movement) : Prop :=
  forall s, tf_internal_only s = io ->
    tf_internal_only (fold_left tf_pure es s) = io /\ moved (fold_left tf_pure es s) = moved s ++ ms.
Lemma appends_nil io : appends io [] [].
Proof. intros s Hs. cbn. by rewrite app_nil_r. Qed.
Lemma appends_app io es1 es2 m1 m2 : appends io es1 m1 -> appends io es2 m2 -> appends io (es1 ++ es2) (m1 ++ m2).
Proof.
  intros H1 H2 s Hs. rewrite fold_left_app. destruct (H1 s Hs) as [Ha Hb]. destruct (H2 _ Ha) as [Hc Hd].
  split; [done|]. by rewrite Hd, Hb, app_assoc.
Qed.
Lemma appends_hook io w d h : appends io [hook_event w d h] (hook_movement h).
Proof.
  intros s Hs. destruct h; cbn [hook_event fold_left tf_pure hook_movement]; [by rewrite app_nil_r|].
  split; [done|]. by rewrite tf_push_moved.
Qed.
Lemma appends_hooks io w d hs : appends io (map (hook_event w d) hs) (flat_map hook_movement hs).
Proof.
  induction hs as [|h hs IH]; [apply appends_nil|]. cbn [map flat_map].
  change (hook_event w d h :: ?l) with ([hook_event w d h] ++ l). apply appends_app; [apply appends_hook|done].
Qed.
Lemma appends_start io w d st :
  appends io [start_event w d st] (if negb (io && (d =? 0)%nat) then call_movement st else []).
Proof.
  intros s Hs. destruct st as [j i|j i]; cbn [start_event fold_left tf_pure call_movement].
  - unfold tf_call, transfers_value, ci_transfer_value, ci_call_value. cbn [ctx_of cx_depth]. rewrite Hs.
    destruct (io && (d =? 0)%nat); cbn [negb]; [by rewrite app_nil_r|].
    destruct (ci_value i) as [v|v] eqn:Ev; [|by rewrite app_nil_r].
    destruct (0 <? v); [|by rewrite app_nil_r]. split; [done|]. rewrite tf_push_moved.
    unfold as_movement. cbn. done.
  - split; [done|]. by destruct (negb _); rewrite app_nil_r.
Qed.
Lemma appends_end io w d st e :
  appends io [end_event w d st e] (if negb (io && (d =? 0)%nat) then create_movement st e else []).
Proof.
  intros s Hs. destruct st as [j i|j i]; cbn [end_event fold_left tf_pure create_movement].
  - split; [done|]. by destruct (negb _); rewrite app_nil_r.
  - unfold tf_create_end. cbn [ctx_of cx_depth cro_address]. rewrite Hs.
    destruct (io && (d =? 0)%nat); cbn [negb]; [by rewrite app_nil_r|].
    destruct (fe_address e) as [a|]; [|by rewrite app_nil_r]. split; [done|]. rewrite tf_push_moved.
    unfold as_movement. cbn. by destruct (cr_scheme i).
Qed.

Lemma tf_frame io w f : forall d, appends io (frame_events w d f) (movements (negb (io && (d =? 0)%nat)) f).
Proof.
  induction f as [st body e IH] using frame_ind'. intros d. rewrite frame_events_eq.
  change (start_event w d st :: ?l) with ([start_event w d st] ++ l).
  change (movements ?t (Frame st body e)) with
    ((if t then call_movement st else []) ++ flat_map item_movements body ++ (if t then create_movement st e else [])).
  apply appends_app; [apply appends_start|]. apply appends_app; [|apply appends_end].
  induction body as [|[o|h|g] b IHb]; cbn [flat_map].
  - apply appends_nil.
  - apply appends_app; [|by apply IHb]. cbn [item_events item_movements]. unfold instr_events.
    intros s Hs. cbn [fold_left tf_pure]. rewrite fold_left_app. cbn [fold_left tf_pure]. by apply appends_hooks.
  - apply appends_app; [apply appends_hook|by apply IHb].
  - cbn [subs flat_map app] in IH. inversion_clear IH as [|? ? Hg Hb].
    apply appends_app; [|by apply IHb]. specialize (Hg (S d)). by rewrite andb_false_r in Hg.
Qed.

Lemma effective_all f : every_frame (fun g => frame_ok_result (f_end g) = true) f -> forall top,
  effective_movements top f = movements top f.
Proof.
  induction f as [st body e IH] using frame_ind'. intros Hev top. inversion_clear Hev as [? ? ? Hok Hsub].
  cbn [effective_movements movements f_end] in *. rewrite Hok. f_equal. f_equal.
  induction body as [|[o|h|g] b IHb]; cbn [flat_map subs app] in *; [done|f_equal; by apply IHb..|].
  inversion_clear IH. inversion_clear Hsub. f_equal; [auto|]. by apply IHb.
Qed.

Lemma effective_sublist f : forall top, effective_movements top f `sublist_of` movements top f.
Proof.
  induction f as [st body e IH] using frame_ind'. intros top. cbn [effective_movements movements].
  destruct (frame_ok_result e); [|apply sublist_nil_l]. apply sublist_app; [done|]. apply sublist_app; [|done].
  induction body as [|[o|h|g] b IHb]; cbn [flat_map subs app] in *; [done|apply sublist_app; [done|by apply IHb]..|].
  inversion_clear IH. apply sublist_app; [auto|by apply IHb].
Qed.

(** ** Four-byte *)

Definition fb_pure (s : FourByteInspector) (e : event) : FourByteInspector :=
  match e with ECall _ i => fb_call s i | _ => s end.
Lemma fb_run es s : run fb_handle s es = Ok (fold_left fb_pure es s).
Proof. apply run_pure. by intros ? []. Qed.

(** A call with this selector and this many further bytes. *)
Definition is_call_of (sel : list byte) (size : nat) (e : event) : bool :=
  match e with
  | ECall _ i => bool_decide (take 4 (ci_input i) = sel) && (length (ci_input i) =? 4 + size)%nat
  | _ => false
  end.

Lemma fb_counts es : forall s sel size,
  (length sel = 4)%nat ->
  default 0 (fb_inner (fold_left fb_pure es s) !! (sel, size)) =
  default 0 (fb_inner s !! (sel, size)) + N.of_nat (length (List.filter (is_call_of sel size) es)).
Proof.
  induction es as [|e es IH]; intros s sel size Hsel; cbn [fold_left]; [cbn; lia|].
  rewrite IH by done. destruct e as [ | | |c i| | | | ]; cbn [fb_pure List.filter is_call_of]; try done.
  unfold fb_call. destruct (Nat.leb_spec 4 (length (ci_input i))) as [Hle|Hlt].
  - cbn [fb_inner]. destruct (bool_decide_reflect (take 4 (ci_input i) = sel)) as [He|Hne]; cbn [andb].
    + destruct (Nat.eqb_spec (length (ci_input i)) (4 + size)) as [Hs|Hs].
      * assert (length (drop 4 (ci_input i)) = size) as -> by (rewrite drop_length; lia).
        rewrite He, lookup_insert. cbn [default length]. unfold id. lia.
      * rewrite lookup_insert_ne; [done|]. intros [= _ Hl]. rewrite drop_length in Hl. lia.
    + rewrite lookup_insert_ne; [done|]. congruence.
  - destruct (Nat.eqb_spec (length (ci_input i)) (4 + size)) as [Hs|Hs]; [lia|]. by rewrite andb_false_r.
Qed.

Lemma fb_keys es : forall s,
  (forall k, fb_inner s !! k <> None -> (length (fst k) = 4)%nat /\ default 0 (fb_inner s !! k) <> 0) ->
  forall k, fb_inner (fold_left fb_pure es s) !! k <> None ->
    (length (fst k) = 4)%nat /\ default 0 (fb_inner (fold_left fb_pure es s) !! k) <> 0.
Proof.
  induction es as [|e es IH]; intros s Hs; cbn [fold_left]; [done|]. apply IH.
  destruct e as [ | | |c i| | | | ]; cbn [fb_pure]; try done. unfold fb_call.
  destruct (Nat.leb_spec 4 (length (ci_input i))) as [Hle|Hlt]; [|done]. cbn [fb_inner]. intros k.
  destruct (decide ((take 4 (ci_input i), length (drop 4 (ci_input i))) = k)) as [<-|Hne].
  - rewrite lookup_insert. intros _. cbn [fst default]. unfold id. rewrite take_length. split; lia.
  - rewrite lookup_insert_ne by done. apply Hs.
Qed.

Lemma hex_encode_inj l1 l2 : hex_encode l1 = hex_encode l2 -> l1 = l2.
Proof. intros H. pose proof (hex_encode_decode l1) as H1. rewrite H, hex_encode_decode in H1. congruence. Qed.

Lemma fb_key_inj s1 n1 s2 n2 : length s1 = length s2 -> fb_key s1 n1 = fb_key s2 n2 -> s1 = s2 /\ n1 = n2.
Proof.
  intros Hl H. unfold fb_key in H. apply app_inv_head in H.
  apply app_inj_1 in H as [H1 H2]; [|by rewrite !hex_encode_length, Hl].
  apply app_inv_head in H2. apply dec_text_inj in H2. apply hex_encode_inj in H1. split; [done|lia].
Qed.

Lemma fold_insert_lookup {A} (key : A -> list byte) (val : A -> N) l : NoDup (map key l) ->
  forall (m : gmap (list byte) N) k, fold_left (fun m x => <[key x := val x]> m) l m !! k =
    match List.find (fun x => bool_decide (key x = k)) l with Some x => Some (val x) | None => m !! k end.
Proof.
  induction l as [|x l IH]; intros Hnd m k; [done|]. inversion_clear Hnd as [|? ? Hni Hnd'].
  cbn [fold_left List.find]. rewrite IH by done. destruct (bool_decide_reflect (key x = k)) as [<-|Hne].
  - assert (List.find (fun x0 => bool_decide (key x0 = key x)) l = None) as ->; [|by rewrite lookup_insert].
    destruct (List.find _ l) as [y|] eqn:E; [|done]. apply find_some in E as [Hin Hk].
    apply bool_decide_eq_true in Hk. exfalso. apply Hni. rewrite <-Hk. apply elem_of_list_In. by apply in_map.
  - destruct (List.find _ l); [done|]. by rewrite lookup_insert_ne.
Qed.
