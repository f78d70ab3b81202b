(** * GasFlowProofs: gas adds up in a recording *)

From Verif Require Export SpecGasFlow TxFacts.

(** ** The frames entered by a frame, by position *)
Definition par_is (p : nat) (x : option nat * nat * frame) : bool := match fst (fst x) with Some q => q =? p | None => false end.

Lemma sub_outside pos d p l : Forall (fun g => forall par pos d p, p < pos \/ pos + frame_size g <= p ->
    List.filter (par_is p) (entered par pos d g) = if par_is p (par, d, g) then [(par, d, g)] else []) (subs l) ->
  pos <> p -> forall next, p < next \/ next + subs_size l <= p -> List.filter (par_is p) (sub_entered pos d next l) = [].
Proof.
  intros IH Hp. induction l as [|[o|h|g] r IHr]; intros next Hn; cbn [sub_entered]; [done|by apply IHr..|].
  cbn [subs flat_map app] in IH. apply Forall_cons_1 in IH as [IHg IHl]. cbn [subs_size] in Hn.
  rewrite List.filter_app, IHg by lia. unfold par_is at 1. cbn [fst]. destruct (Nat.eqb_spec pos p); [done|]. cbn [app]. apply IHr; [done|lia].
Qed.
Lemma entered_outside f : forall par pos d p, p < pos \/ pos + frame_size f <= p ->
  List.filter (par_is p) (entered par pos d f) = if par_is p (par, d, f) then [(par, d, f)] else [].
Proof.
  induction f as [s body e IH] using frame_ind'. intros par pos d p Hp. rewrite frame_size_eq in Hp. rewrite entered_eq. cbn [List.filter].
  rewrite sub_outside; [done|done|lia|lia].
Qed.
Lemma sub_outside' pos d p l next : pos <> p -> p < next \/ next + subs_size l <= p -> List.filter (par_is p) (sub_entered pos d next l) = [].
Proof. intros H. apply sub_outside; [|done]. apply Forall_forall. intros g _. apply entered_outside. Qed.
Lemma sub_direct pos d l : forall next, pos < next -> map snd (List.filter (par_is pos) (sub_entered pos d next l)) = subs l.
Proof.
  induction l as [|[o|h|g] r IHr]; intros next Hn; cbn [sub_entered]; [done|by apply IHr..|].
  rewrite List.filter_app, entered_outside by lia. unfold par_is at 1. cbn [fst]. rewrite Nat.eqb_refl. cbn [app map snd subs flat_map]. f_equal. apply IHr. lia.
Qed.
Lemma entered_calls f : forall par pos d i par' d' g, (forall q, par = Some q -> q < pos) -> entered par pos d f !! i = Some (par', d', g) ->
  map snd (List.filter (par_is (pos + i)) (entered par pos d f)) = subs (f_body g).
Proof.
  induction f as [s body e IH] using frame_ind'. intros par pos d i par' d' g Hpar Hi. rewrite entered_eq in *. cbn [List.filter].
  assert (E : par_is (pos + i) (par, d, Frame s body e) = false).
  { unfold par_is. cbn. destruct par as [q|]; [|done]. specialize (Hpar q eq_refl). apply Nat.eqb_neq. lia. }
  rewrite E. destruct i as [|i]; [|change (sub_entered pos d (S pos) body !! i = Some (par', d', g)) in Hi].
  { injection Hi as <- <- <-. rewrite Nat.add_0_r. cbn [f_body]. apply sub_direct. lia. }
  replace (pos + S i) with (S pos + i) by lia. clear E. assert (Hlt : pos < S pos) by lia. revert i Hi Hlt. generalize (S pos) as next.
  revert IH. induction body as [|[o|h|x] r IHr]; intros IH next i Hi Hlt; cbn [sub_entered] in *; [done|by apply IHr..|].
  cbn [subs flat_map app] in IH. apply Forall_cons_1 in IH as [IHg IHl]. rewrite List.filter_app, map_app.
  destruct (decide (i < frame_size x)) as [Hx|Hx].
  - rewrite lookup_app_l in Hi by (rewrite entered_length; lia). rewrite (IHg (Some pos) next (S d) i par' d' g); [|intros q Hq; injection Hq as Hq; lia|exact Hi].
    rewrite sub_outside' by lia. cbn. apply app_nil_r.
  - rewrite lookup_app_r in Hi by (rewrite entered_length; lia). rewrite entered_length in Hi. rewrite entered_outside by lia.
    unfold par_is at 1. cbn [fst]. destruct (Nat.eqb_spec pos (next + i)); [lia|]. cbn [map app].
    replace (next + i) with (next + frame_size x + (i - frame_size x)) by lia. apply IHr; [done|exact Hi|lia].
Qed.

(** ** Sums *)
Lemma sum_cons x l : sum (x :: l) = (x + sum l)%N.
Proof. done. Qed.

Definition op_cost (o : instr) : N := (g_remaining (in_gas (op_pre o)) - g_remaining (in_gas (op_post o)))%N.
Lemma flow_total r body r' : flow r body r' ->
  (r' + sum (map op_cost (instrs body)) = r + sum (map gas_back (subs body)))%N.
Proof.
  induction 1 as [r|r o l r' Hpre Hpost H IH|r h l r' H IH|r g l r' H IH]; cbn [instrs subs flat_map app map]; rewrite ?sum_cons.
  - done.
  - unfold op_cost at 1. rewrite Hpre. fold (instrs l) (subs l). lia.
  - done.
  - fold (instrs l) (subs l). lia.
Qed.

Lemma flow_head r body r' o : flow r body r' -> calls_made body -> head (instrs body) = Some o -> g_remaining (in_gas (op_pre o)) = r.
Proof.
  induction 1 as [r|r o' l r' Hpre Hpost H IH|r h l r' H IH|r g l r' H IH]; cbn [instrs flat_map app head]; intros Hc Ho; [done| |by apply IH|done].
  by injection Ho as <-.
Qed.
Definition calls_before (k : nat) (os : list instr) : nat := length (List.filter instr_is_call (take k os)).
Lemma flow_next m : forall body, length body <= m -> forall r r' k o o', flow r body r' -> calls_made body ->
  instrs body !! k = Some o -> instrs body !! S k = Some o' ->
  (g_remaining (in_gas (op_pre o')) + op_cost o = g_remaining (in_gas (op_pre o)) +
     (if instr_is_call o then default 0 (gas_back <$> subs body !! calls_before k (instrs body)) else 0))%N.
Proof.
  induction m as [|m IH]; intros body Hm r r' k o o' Hf Hc Ho Ho'.
  { destruct body; [done|cbn in Hm; lia]. }
  destruct body as [|[o1|h|g] l]; [done| | |done].
  - inversion Hf as [|? ? ? ? Hpre Hpost Hf'| |]; subst. cbn [length] in Hm.
    destruct l as [|it l].
    { cbn in Ho'. done. }
    destruct it as [o2|h|g].
    + cbn [calls_made] in Hc. destruct Hc as [Hc1 Hc2].
      assert (Hn : instr_is_call o1 = false) by (apply not_true_is_false; intros Hb; by destruct (Hc1 Hb)).
      destruct k as [|k].
      * cbn in Ho, Ho'. injection Ho as <-. injection Ho' as <-. rewrite Hn. inversion Hf' as [|? ? ? ? Hp _ _| |]; subst. rewrite Hp. unfold op_cost. lia.
      * cbn [instrs flat_map app lookup list_lookup] in Ho, Ho'. pose proof (IH (IOp o2 :: l) ltac:(cbn in *; lia) _ _ k o o' Hf' Hc2 Ho Ho') as E.
        rewrite E. unfold calls_before. cbn [instrs flat_map app subs take List.filter]. rewrite Hn. done.
    + cbn [calls_made] in Hc. destruct Hc as [Hc1 Hc2]. destruct (instr_is_call o1) eqn:Hn.
      { destruct (Hc1 eq_refl) as [Hi _]. cbn [instrs flat_map app] in Ho', Hi. fold (instrs l) in *. rewrite Hi in Ho'. by destruct k. }
      destruct k as [|k].
      * cbn [instrs flat_map app lookup list_lookup] in Ho, Ho'. injection Ho as <-. rewrite Hn.
        assert (Hh : head (instrs (IHook h :: l)) = Some o') by (cbn [instrs flat_map app]; fold (instrs l) in *; destruct (instrs l); cbn in *; [done|congruence]).
        rewrite (flow_head _ _ _ _ Hf' Hc2 Hh). unfold op_cost. lia.
      * pose proof (IH (IHook h :: l) ltac:(cbn in *; lia) _ _ k o o' Hf' Hc2 Ho Ho') as E. rewrite E. unfold calls_before.
        cbn [instrs flat_map app subs take List.filter]. rewrite Hn. done.
    + cbn [calls_made] in Hc. destruct Hc as [Hn Hc2]. inversion Hf' as [| | |? ? ? ? Hf2]; subst. destruct k as [|k].
      * cbn [instrs flat_map app lookup list_lookup] in Ho, Ho'. injection Ho as <-. rewrite Hn.
        assert (Hh : head (instrs l) = Some o') by (fold (instrs l) in *; destruct (instrs l); cbn in *; [done|congruence]).
        rewrite (flow_head _ _ _ _ Hf2 Hc2 Hh). unfold op_cost, calls_before. cbn. lia.
      * cbn [instrs flat_map app lookup list_lookup] in Ho, Ho'. fold (instrs l) in Ho, Ho'.
        pose proof (IH l ltac:(cbn in *; lia) _ _ k o o' Hf2 Hc2 Ho Ho') as E. rewrite E. unfold calls_before.
        cbn [instrs flat_map app subs take List.filter]. rewrite Hn. done.
  - inversion Hf as [| |? ? ? ? Hf1|]; subst. cbn [calls_made] in Hc. exact (IH l ltac:(cbn in *; lia) _ _ k o o' Hf1 Hc Ho Ho').
Qed.

(** ** On the recording *)
Section Tx.
  Context (cfg : TracingInspectorConfig) (w : world) (f : frame) (s : TracingInspector).
  Hypothesis Henv : env_ok cfg w f.
  Hypothesis Hrun : ti_run (ti_new cfg) (tx_events w f) = Ok s.
  Hypothesis Hgas : gas_flows f.

  Lemma entered_at i n : ti_traces s !! i = Some n -> exists par d g, entered None 0 0 f !! i = Some (par, d, g).
  Proof.
    intros Hn. apply lookup_lt_Some in Hn. rewrite (tx_length _ _ _ _ Henv Hrun), <- (entered_length None 0 0) in Hn.
    apply lookup_lt_is_Some_2 in Hn as [[[par d] g] Hx]. eauto.
  Qed.
  Lemma entered_root i d g : entered None 0 0 f !! i = Some (None, d, g) -> i = 0.
  Proof.
    intros He. destruct (tx_lookup _ _ _ _ Henv Hrun _ _ He) as (n & Hn).
    destruct (tx_node _ _ _ _ Henv Hrun _ _ _ _ _ He Hn) as (inh & _ & _ & H). destruct (decide (i = 0)) as [|Hi]; [done|].
    by destruct (H Hi) as (p & pn & ? & _).
  Qed.
  Lemma gave_back i p d g n : entered None 0 0 f !! i = Some (Some p, d, g) -> ti_traces s !! i = Some n -> node_gave_back n = gas_back g.
  Proof.
    intros He Hn. assert (Hi : i <> 0).
    { intros ->. destruct f. rewrite entered_eq in He. done. }
    destruct (tx_end _ _ _ _ Henv Hrun _ _ _ _ _ He Hn) as (Hst & _ & _ & Hu & _). specialize (Hu Hi).
    destruct (tx_start _ _ _ _ Henv Hrun _ _ _ _ _ He Hn) as (_ & _ & _ & Hl & _). unfold node_gave_back, gas_back.
    rewrite Hst, Hu, Hl. destruct (gives_back _); [|done]. destruct (every_entered _ _ Hgas _ _ _ _ _ _ _ He) as (Hlim & Hrem & _).
    unfold spec_gas_limit. apply Nat.eqb_neq in Hi. rewrite Hi. unfold gas_given, end_gas in *. rewrite <- Hlim. lia.
  Qed.
  Lemma calls_back i par d g n : entered None 0 0 f !! i = Some (par, d, g) -> ti_traces s !! i = Some n ->
    map node_gave_back (calls_of (ti_traces s) i) = map gas_back (subs (f_body g)).
  Proof.
    intros He Hn. rewrite <- (entered_calls f None 0 0 i par d g ltac:(done) He). cbn [Nat.add]. unfold calls_of.
    assert (H : Forall2 (fun n x => nd_parent n = fst (fst x) /\ (fst (fst x) <> None -> node_gave_back n = gas_back (snd x))) (ti_traces s) (entered None 0 0 f)).
    { apply Forall2_same_length_lookup. split; [by rewrite (tx_length _ _ _ _ Henv Hrun), entered_length|].
      intros j m [[par' d'] h] Hm Hx. destruct (tx_shape _ _ _ _ Henv Hrun _ _ _ _ _ Hx Hm) as (Hp & _). split; [done|]. cbn. intros Hne.
      destruct par' as [q|]; [|done]. by eapply gave_back. }
    clear He Hn. induction H as [|m x ns l [Hp Hb] H IH]; [done|]. cbn [List.filter]. unfold par_is at 1. rewrite Hp.
    destruct (fst (fst x)) as [q|] eqn:Eq; [|apply IH]. destruct (q =? i); [|apply IH]. cbn [map]. f_equal; [|apply IH]. by apply Hb.
  Qed.

  Hypothesis Hrec : record_steps cfg = true.
  Hypothesis Hflt : record_opcodes_filter cfg = None.
  Lemma all_steps i par d g n : entered None 0 0 f !! i = Some (par, d, g) -> ti_traces s !! i = Some n ->
    Forall2 (step_describes cfg w (S d)) (instrs (f_body g)) (tr_steps (nd_trace n)).
  Proof.
    intros He Hn. pose proof (tx_steps _ _ _ _ Henv Hrun _ _ _ _ _ He Hn) as H.
    replace (List.filter _ _) with (instrs (f_body g)) in H; [done|]. symmetry. unfold selected. rewrite Hrec, Hflt.
    clear H. induction (instrs (f_body g)) as [|o l IH]; [done|]. cbn [List.filter andb] in *. f_equal. exact IH.
  Qed.
  Lemma describe_costs d os l : Forall2 (step_describes cfg w d) os l -> map st_gas_cost l = map op_cost os.
  Proof.
    induction 1 as [|o st os l H _ IH]; [done|]. cbn [map]. f_equal; [|done]. pose proof (sd_cost _ _ _ _ _ H) as E. unfold op_cost. lia.
  Qed.
  Lemma gas_total i par d g n : entered None 0 0 f !! i = Some (par, d, g) -> ti_traces s !! i = Some n -> tr_steps (nd_trace n) <> [] ->
    (g_limit (end_gas g) - g_remaining (end_gas g) + sum (map node_gave_back (calls_of (ti_traces s) i)) =
     sum (map st_gas_cost (tr_steps (nd_trace n))) + node_deposit n)%N.
  Proof.
    intros He Hn Hne. pose proof (all_steps _ _ _ _ _ He Hn) as Hst. destruct (every_entered _ _ Hgas _ _ _ _ _ _ _ He) as (Hlim & Hrem & Hfl).
    assert (Hins : instrs (f_body g) <> []).
    { intros E. rewrite E in Hst. inversion Hst. congruence. }
    pose proof (flow_total _ _ _ (Hfl Hins)) as Ht. rewrite (calls_back _ _ _ _ _ He Hn), (describe_costs _ _ _ Hst).
    assert (Hd : node_deposit n = code_deposit g).
    { destruct (tx_end _ _ _ _ Henv Hrun _ _ _ _ _ He Hn) as (_ & Hs & Ho & _). destruct (tx_start _ _ _ _ Henv Hrun _ _ _ _ _ He Hn) as (Hk & _).
      unfold node_deposit, code_deposit. rewrite Hk, Hs, Ho. destruct (f_start g) as [j c|j c]; cbn; [by destruct (ci_scheme c)|].
      unfold spec_success, ir_is_ok. by destruct (cr_scheme c), (ir_result _). }
    rewrite Hd. lia.
  Qed.
  Lemma calllike_op d o st : step_describes cfg w d o st -> st_is_calllike st = instr_is_call o.
  Proof.
    intros H. unfold st_is_calllike, op_is_calllike, instr_is_call. rewrite (sd_op _ _ _ _ _ H). cbn [existsb].
    unfold OP_CALL, OP_DELEGATECALL, OP_STATICCALL, OP_CREATE, OP_CALLCODE, OP_CREATE2.
    repeat match goal with |- context [N.eqb ?a ?b] => let E := fresh in destruct (N.eqb a b) eqn:E end; try done.
  Qed.
  Lemma gas_next i par d g n k st st' : entered None 0 0 f !! i = Some (par, d, g) -> ti_traces s !! i = Some n -> calls_made (f_body g) ->
    tr_steps (nd_trace n) !! k = Some st -> tr_steps (nd_trace n) !! S k = Some st' ->
    (st_gas_remaining st' + st_gas_cost st = st_gas_remaining st +
       (if st_is_calllike st
        then default 0 (node_gave_back <$> calls_of (ti_traces s) i !! length (List.filter st_is_calllike (take k (tr_steps (nd_trace n))))) else 0))%N.
  Proof.
    intros He Hn Hc Hk Hk'. pose proof (all_steps _ _ _ _ _ He Hn) as Hst.
    destruct (Forall2_lookup_r _ _ _ _ _ Hst Hk) as (o & Ho & Hd). destruct (Forall2_lookup_r _ _ _ _ _ Hst Hk') as (o' & Ho' & Hd').
    destruct (every_entered _ _ Hgas _ _ _ _ _ _ _ He) as (_ & _ & Hfl).
    assert (Hins : instrs (f_body g) <> []) by (intros E; by rewrite E in Ho).
    pose proof (flow_next _ _ (Nat.le_refl _) _ _ _ _ _ (Hfl Hins) Hc Ho Ho') as E.
    rewrite (sd_gas _ _ _ _ _ Hd), (sd_gas _ _ _ _ _ Hd'), (calllike_op _ _ _ Hd).
    assert (Hcost : st_gas_cost st = op_cost o) by (pose proof (sd_cost _ _ _ _ _ Hd); unfold op_cost; lia). rewrite Hcost, E.
    destruct (instr_is_call o); [|done]. do 2 f_equal.
    assert (Hcount : length (List.filter st_is_calllike (take k (tr_steps (nd_trace n)))) = calls_before k (instrs (f_body g))).
    { unfold calls_before. clear - Hst. revert k. induction Hst as [|x y l l' H _ IH]; intros [|k]; [done..|]. cbn [take List.filter].
      rewrite (calllike_op _ _ _ H). destruct (instr_is_call x); cbn [length]; by rewrite IH. }
    rewrite Hcount, <- !list_lookup_fmap. f_equal. symmetry. exact (calls_back _ _ _ _ _ He Hn).
  Qed.
End Tx.
