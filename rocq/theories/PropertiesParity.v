(** * PropertiesParity: C17-C24, C26, C61, the parity builders *)

From Verif Require Import VmProofs StateDiff Examples.

Lemma selfdestruct_status n : nd_is_selfdestruct n = true <-> selfdestructed n.
Proof.
  unfold nd_is_selfdestruct, tr_is_selfdestruct, selfdestructed. split.
  - destruct (tr_selfdestruct_refund_target (nd_trace n)); [eauto|]. destruct (tr_status (nd_trace n)); try done. by left.
  - intros [->|(t & ->)]; [done|]. by destruct (tr_status (nd_trace n)).
Qed.

(** ** C17 *)
Theorem C17_trace_address_locates :
  forall cfg es s i n, ti_run (ti_new cfg) es = Ok s ->
  ti_traces s !! i = Some n -> nd_is_precompile n = false ->
  exists a, trace_address (ti_traces s) i = Ok a /\ follow (ti_traces s) 0 a = Some i /\ length a = tr_depth (nd_trace n).
Proof.
  intros cfg es s i n Hr Hn Hp. pose proof (run_tree_inv _ _ _ Hr) as Hinv.
  destruct (shown_follow _ Hinv _ _ Hn Hp) as [a Ha]. exists a. split_and!; [by apply trace_address_follow|done|].
  destruct (follow_info _ (inv_tree _ Hinv) _ _ Ha) as (n' & Hn' & Hd & _). rewrite Hn in Hn'. by injection Hn' as <-.
Qed.
Print Assumptions C17_trace_address_locates.

(** The trace list is built without panicking, and its call entries are, in recording order, those of the nodes
    that are not excluded precompiles, each with the address that locates its node. *)
Theorem C17_trace_list_locates :
  forall cfg es s, ti_run (ti_new cfg) es = Ok s ->
  exists l, into_transaction_traces (ti_traces s) = Ok l /\
  Forall2 (fun n e => ti_traces s !! nd_idx n = Some n /\ follow (ti_traces s) 0 (tt_address e) = Some (nd_idx n) /\
                      length (tt_address e) = tr_depth (nd_trace n))
    (List.filter (fun n => negb (nd_is_precompile n)) (ti_traces s)) (List.filter is_call_entry l).
Proof.
  intros cfg es s Hr. pose proof (run_tree_inv _ _ _ Hr) as Hinv. eexists. split; [by apply into_transaction_traces_ok|].
  assert (Hin : forall n, In n (shown (ti_traces s)) -> ti_traces s !! nd_idx n = Some n /\ nd_is_precompile n = false).
  { intros n Hn. apply (shown_In _ Hinv) in Hn as (i & Hi & <- & Hp). done. }
  unfold parity_list. fold (iter_traceable_nodes (ti_traces s)). fold (shown (ti_traces s)).
  induction (shown (ti_traces s)) as [|n l IH]; cbn [flat_map List.filter]; [constructor|].
  rewrite List.filter_app. destruct (Hin n (or_introl eq_refl)) as [Hn Hp].
  assert (E : List.filter is_call_entry (node_items (ti_traces s) n) =
              [if nd_is_selfdestruct n then tt_inc_subtraces (parity_transaction_trace n (addr (ti_traces s) (nd_idx n)))
               else parity_transaction_trace n (addr (ti_traces s) (nd_idx n))]).
  { assert (Hcall : forall a, is_call_entry (parity_transaction_trace n a) = true).
    { intros a. unfold parity_transaction_trace, is_call_entry, parity_action. cbn. by destruct (tr_kind (nd_trace n)). }
    assert (Hcall' : forall a, is_call_entry (tt_inc_subtraces (parity_transaction_trace n a)) = true) by exact Hcall.
    unfold node_items, trace_iter_items, parity_selfdestruct_trace, parity_selfdestruct_action.
    destruct (nd_is_selfdestruct n); cbn [opt_list List.filter]; by rewrite ?Hcall', ?Hcall. }
  rewrite E. constructor; [|apply IH; intros; apply Hin; by right].
  pose proof (addr_follow _ Hinv _ _ Hn Hp) as Hf. 
  assert (Ha : tt_address (if nd_is_selfdestruct n then tt_inc_subtraces (parity_transaction_trace n (addr (ti_traces s) (nd_idx n)))
               else parity_transaction_trace n (addr (ti_traces s) (nd_idx n))) = addr (ti_traces s) (nd_idx n)) by (by destruct (nd_is_selfdestruct n)).
  rewrite Ha. split_and!; [done|done|].
  destruct (follow_info _ (inv_tree _ Hinv) _ _ Hf) as (n' & Hn' & Hd & _). rewrite Hn in Hn'. by injection Hn' as <-.
Qed.
Print Assumptions C17_trace_list_locates.
Example C17_example : exists s l, ex_state ex_cfg = Ok s /\ into_transaction_traces (ti_traces s) = Ok l /\
  map tt_address l = [[]; [0]; [1]; [1; 0]; [2]; [2; 0]] /\ map (@nd_is_precompile) (ti_traces s) = [false; false; true; false; false; false].
Proof. do 2 eexists. split_and!; vm_compute; reflexivity. Qed.

(** ** C15: the parity traces list exactly the calls that are not left out *)
Theorem C15_not_listed :
  forall cfg w f s i par d g n,
  env_ok cfg w f -> ti_run (ti_new cfg) (tx_events w f) = Ok s ->
  entered None 0 0 f !! i = Some (par, d, g) -> ti_traces s !! i = Some n ->
  exists l, into_transaction_traces (ti_traces s) = Ok l /\
  let hidden := exclude_precompile_calls cfg = true /\ is_call (f_start g) = true /\
                w_precompiles w (code_address (f_start g)) = true /\ i <> 0 /\ tr_value (nd_trace n) = 0%N in
  length (List.filter (fun e => is_call_entry e && bool_decide (follow (ti_traces s) 0 (tt_address e) = Some i)) l) =
  if decide hidden then 0 else 1.
Proof.
  intros cfg w f s i par d g n Henv Hrun He Hn.
  destruct (C17_trace_list_locates cfg _ s Hrun) as (l & Hl & HF). exists l. split; [done|]. intros hidden.
  pose proof (tx_precompile cfg w f s Henv Hrun i par d g n He Hn) as Hp. fold hidden in Hp.
  pose proof (tx_tree cfg w f s Hrun) as Ht.
  assert (Hidx : forall k m, ti_traces s !! k = Some m -> nd_idx m = k) by (intros k m Hk; by apply (at_idx _ Ht)).
  (* the call entries are those of the shown nodes *)
  assert (E : forall ns es, Forall2 (fun n e => ti_traces s !! nd_idx n = Some n /\ follow (ti_traces s) 0 (tt_address e) = Some (nd_idx n) /\
      length (tt_address e) = tr_depth (nd_trace n)) ns es ->
      length (List.filter (fun e => bool_decide (follow (ti_traces s) 0 (tt_address e) = Some i)) es) =
      length (List.filter (fun m => nd_idx m =? i) ns)).
  { induction 1 as [|m e ns es (_ & Hf & _) _ IH]; [done|]. cbn [List.filter]. rewrite Hf.
    destruct (Nat.eqb_spec (nd_idx m) i) as [->|Hne].
    - rewrite bool_decide_eq_true_2 by done. cbn. by f_equal.
    - rewrite bool_decide_eq_false_2 by congruence. done. }
  assert (F : forall (P Q : TransactionTrace -> bool) m, List.filter (fun e => P e && Q e) m = List.filter Q (List.filter P m)).
  { intros P Q. induction m as [|x m IH]; [done|]. cbn. destruct (P x); cbn; [destruct (Q x); by rewrite IH|done]. }
  rewrite F, (E _ _ HF).
  (* node i is once in the arena *)
  assert (Hone : forall (P : CallTraceNode -> bool) k ns, (forall j m, ns !! j = Some m -> nd_idx m = k + j) -> forall j m, ns !! j = Some m ->
      length (List.filter (fun m => nd_idx m =? k + j) (List.filter P ns)) = if P m then 1 else 0).
  { intros P k ns. revert k. induction ns as [|x ns IH]; intros k Hk j m Hj; [done|].
    assert (Hx : nd_idx x = k) by (rewrite (Hk 0 x eq_refl); lia).
    assert (Hns : forall j m, ns !! j = Some m -> nd_idx m = S k + j) by (intros j' m' Hj'; rewrite (Hk (S j') m' Hj'); lia).
    destruct j as [|j].
    - injection Hj as ->. cbn [List.filter].
      assert (Hnone : List.filter (fun m => nd_idx m =? k + 0) (List.filter P ns) = []).
      { clear -Hns. destruct (List.filter _ _) as [|y ys] eqn:Ey; [done|]. assert (Hy : In y (y :: ys)) by (by left).
        rewrite <-Ey in Hy. apply filter_In in Hy as [Hy Hk]. apply filter_In in Hy as [Hy _]. apply Nat.eqb_eq in Hk.
        apply elem_of_list_In, elem_of_list_lookup in Hy as [j Hj]. rewrite (Hns j y Hj) in Hk. lia. }
      destruct (P m); cbn [List.filter]; [rewrite Hx, Nat.add_0_r, Nat.eqb_refl; rewrite Nat.add_0_r in Hnone|]; by rewrite Hnone.
    - cbn [List.filter]. specialize (IH (S k) Hns j m Hj). replace (S k + j) with (k + S j) in IH by lia.
      destruct (P x); [|done]. cbn [List.filter]. rewrite Hx. destruct (Nat.eqb_spec k (k + S j)); [lia|done]. }
  pose proof (Hone (fun m => negb (nd_is_precompile m)) 0 (ti_traces s) (fun j m Hj => Hidx j m Hj) i n Hn) as Hi. cbn [Nat.add] in Hi.
  rewrite Hi. destruct (decide hidden) as [Hh|Hh]; destruct (nd_is_precompile n); try done.
  - apply Hp in Hh. done.
  - exfalso. by apply Hh, Hp.
Qed.
Print Assumptions C15_not_listed.

(** ** C18 *)
Theorem C18_addresses_unique :
  forall cfg es s l, ti_run (ti_new cfg) es = Ok s -> into_transaction_traces (ti_traces s) = Ok l ->
  NoDup (map tt_address l).
Proof.
  intros cfg es s l Hr Hl. pose proof (run_tree_inv _ _ _ Hr) as Hinv. rewrite (into_transaction_traces_ok _ Hinv) in Hl.
  injection Hl as <-. by apply parity_addresses_nodup.
Qed.
Print Assumptions C18_addresses_unique.

(** ** C19 *)
Theorem C19_subtraces :
  forall cfg es s l e, ti_run (ti_new cfg) es = Ok s -> into_transaction_traces (ti_traces s) = Ok l -> In e l ->
  tt_subtraces e = length (List.filter (fun e' => extends_by_one (tt_address e) (tt_address e')) l).
Proof.
  intros cfg es s l e Hr Hl He. pose proof (run_tree_inv _ _ _ Hr) as Hinv. rewrite (into_transaction_traces_ok _ Hinv) in Hl.
  injection Hl as <-. symmetry. by apply parity_subtraces.
Qed.
Print Assumptions C19_subtraces.
Example C18_C19_example : exists s l, ex_state ex_cfg = Ok s /\ into_transaction_traces (ti_traces s) = Ok l /\
  map tt_subtraces l = [3; 0; 1; 0; 1; 0].
Proof. do 2 eexists. split_and!; vm_compute; reflexivity. Qed.

(** ** C20 *)
Theorem C20_apis_agree :
  forall cfg es s l types info r,
  ti_run (ti_new cfg) es = Ok s -> into_transaction_traces (ti_traces s) = Ok l -> ty_trace types = true ->
  (exists vm diff, into_trace_type_traces (ti_traces s) types = Ok (Some l, vm, diff)) /\
  (exists ll, into_localized_transaction_traces (ti_traces s) info = Ok ll /\ map lt_trace ll = l /\
     Forall (fun x => lt_position x = ti_index info /\ lt_hash x = ti_hash info /\
                      lt_block_number x = ti_block_number info /\ lt_block_hash x = ti_block_hash info) ll) /\
  (exists tr, into_trace_results (ti_traces s) r types = Ok tr /\ same_but_root_gas (er_gas_used r) l (rs_trace tr)).
Proof.
  intros cfg es s l types info r Hr Hl Hty. pose proof (run_tree_inv _ _ _ Hr) as Hinv.
  pose proof (into_transaction_traces_ok _ Hinv) as Hl'. rewrite Hl in Hl'. injection Hl' as ->.
  assert (Ht : exists vm diff, into_trace_type_traces (ti_traces s) types = Ok (Some (parity_list (ti_traces s)), vm, diff)).
  { unfold into_trace_type_traces. unfold ty_is_empty. rewrite Hty. cbn [orb negb].
    destruct (at_root _ (inv_tree _ Hinv)) as (r0 & Hr0 & _). destruct (length (ti_traces s)) eqn:El.
    { apply nil_length_inv in El. by rewrite El in Hr0. }
    cbn [Nat.eqb]. destruct (vm_trace_ok _ (inv_tree _ Hinv)) as (vm & Hvm & _).
    rewrite (type_traces_ok _ Hinv). destruct (ty_vm_trace types); rewrite ?Hvm; do 2 eexists; done. }
  split; [done|]. split.
  - unfold into_localized_transaction_traces. rewrite Hl. eexists. split; [done|]. rewrite map_map. split; [by rewrite map_id|].
    apply Forall_forall. intros x Hx. apply elem_of_list_In, in_map_iff in Hx as (t & <- & _). done.
  - destruct Ht as (vm & diff & Ht). unfold into_trace_results. rewrite Ht. eexists. split; [done|]. cbn [rs_trace].
    change (default [] (Some (parity_list (ti_traces s)))) with (parity_list (ti_traces s)).
    destruct (parity_list (ti_traces s)) as [|e l]; [done|]. cbn. split; [|done]. constructor; cbn; try done.
    destruct (tt_result e) as [[]|]; done.
Qed.
Print Assumptions C20_apis_agree.
Example C20_example : exists s tr, ex_state ex_cfg = Ok s /\
  into_trace_results (ti_traces s) (mkExecResult 777 None)%N (mkTypes true true true) = Ok tr /\
  length (rs_trace tr) = 6 /\ is_Some (rs_vm_trace tr) /\ is_Some (rs_state_diff tr).
Proof. do 2 eexists. split_and!; vm_compute; eauto. Qed.

(** ** C21 *)

(** Full statement (false of the code): the trace list is in lexicographic order of addresses. *)
Definition C21_statement : Prop :=
  forall cfg w f s l, env_ok cfg w f -> ti_run (ti_new cfg) (tx_events w f) = Ok s ->
  into_transaction_traces (ti_traces s) = Ok l -> StronglySorted lex_lt (map tt_address l).

(** A contract that makes a call and then selfdestructs: its selfdestruct entry precedes the entry of the call. *)
Definition c21_tx : frame :=
  Frame (SCall ex_j0 (mkCallInputs [] 90000 0xC0 0xC0 0xAA (Transfer 0) CSCall false)%N)
    [ IOp (ex_op OP_CALL 0 [0; 0; 0; 0; 0; 0; 0]%N [] 8000%N ex_j0 [] CallOrCreate);
      ISub ex_delegate;
      IOp (ex_op OP_SELFDESTRUCT 1 [0xBB]%N [] 500%N ex_j0 [HSelfdestruct 0xC0 0xBB 5]%N SelfDestruct) ]
    (ex_end SelfDestruct None).
Theorem C21_refuted : ~ C21_statement.
Proof.
  intros H. destruct (ti_run (ti_new cfg_default_parity) (tx_events ex_world c21_tx)) as [s| |] eqn:E; [|vm_compute in E; discriminate..].
  destruct (into_transaction_traces (ti_traces s)) as [l| |] eqn:El; [|vm_compute in E; injection E as <-; vm_compute in El; discriminate..].
  specialize (H cfg_default_parity ex_world c21_tx s l (env_okb_ok _ ex_world c21_tx eq_refl) E El). vm_compute in E. injection E as <-.
  vm_compute in El. injection El as <-. cbn [map tt_address] in H.
  inversion_clear H as [|? ? H1 _]. inversion_clear H1 as [|? ? _ H2]. inversion_clear H2 as [|? ? H3 _].
  inversion H3; lia.
Qed.
Print Assumptions C21_refuted.

(** What holds for every hook history: the call entries are in lexicographic order, each selfdestruct entry directly
    follows the entry of its frame, and the whole list is in order when no selfdestructed frame made calls. *)
Theorem C21_depth_first_partial :
  forall cfg es s l, ti_run (ti_new cfg) es = Ok s -> into_transaction_traces (ti_traces s) = Ok l ->
  StronglySorted lex_lt (map tt_address (List.filter is_call_entry l)) /\
  (forall k e, l !! k = Some e -> is_call_entry e = false ->
     exists k' e' c, k = S k' /\ l !! k' = Some e' /\ is_call_entry e' = true /\ tt_address e = tt_address e' ++ [c]) /\
  ((forall n, In n (ti_traces s) -> selfdestructed n -> nd_children n = []) ->
   StronglySorted lex_lt (map tt_address l)).
Proof.
  intros cfg es s l Hr Hl. pose proof (run_tree_inv _ _ _ Hr) as Hinv. rewrite (into_transaction_traces_ok _ Hinv) in Hl.
  injection Hl as <-. set (ns := ti_traces s) in *.
  assert (Hcall : forall n a, is_call_entry (parity_transaction_trace n a) = true).
  { intros n a. unfold parity_transaction_trace, is_call_entry, parity_action. cbn. by destruct (tr_kind (nd_trace n)). }
  assert (Hitems : forall n, exists x, is_call_entry x = true /\ tt_address x = addr ns (nd_idx n) /\
      (node_items ns n = [x] \/ selfdestructed n /\
       exists y, node_items ns n = [x; y] /\ is_call_entry y = false /\ tt_address y = addr ns (nd_idx n) ++ [length (nd_children n)])).
  { intros n. unfold node_items, trace_iter_items, parity_selfdestruct_trace, parity_selfdestruct_action.
    destruct (nd_is_selfdestruct n) eqn:E.
    - exists (tt_inc_subtraces (parity_transaction_trace n (addr ns (nd_idx n)))). split; [apply (Hcall n)|]. split; [done|]. right. split; [by apply selfdestruct_status|]. eexists. split_and!; [done|done|done].
    - eexists. split; [apply Hcall|]. split; [done|]. by left. }
  split_and!.
  - assert (E : map tt_address (List.filter is_call_entry (parity_list ns)) = map (fun n => addr ns (nd_idx n)) (shown ns)).
    { unfold parity_list. induction (shown ns) as [|n l IH]; [done|]. cbn [flat_map map]. rewrite List.filter_app, map_app, IH.
      destruct (Hitems n) as (x & Hx & Hax & [->|(_ & y & -> & Hy & _)]); cbn [List.filter]; rewrite Hx; [|rewrite Hy]; cbn; by rewrite Hax. }
    rewrite E. by apply shown_sorted.
  - unfold parity_list. induction (shown ns) as [|n l IH]; intros k e Hk He; [done|]. cbn [flat_map] in *.
    destruct (Hitems n) as (x & Hx & Hax & [E|(_ & y & E & Hy & Hay)]); rewrite E in *.
    + destruct k as [|k]; [cbn in Hk; congruence|]. destruct (IH k e Hk He) as (k' & e' & c & -> & H2 & H3 & H4).
      exists (S k'), e', c. done.
    + destruct k as [|[|k]]; [cbn in Hk; congruence| |].
      * cbn in Hk. injection Hk as <-. exists 0, x, (length (nd_children n)). split_and!; [done|done|done|congruence].
      * destruct (IH k e Hk He) as (k' & e' & c & -> & H2 & H3 & H4). exists (S (S k')), e', c. done.
  - intros Hleaf. pose proof (shown_sorted _ Hinv) as Hs. rewrite parity_addresses.
    pose proof (shown_In _ Hinv) as Hsh. fold ns in Hs, Hsh.
    assert (Hgo : forall l, (forall n, In n l -> exists i, ns !! i = Some n /\ nd_idx n = i /\ nd_is_precompile n = false) ->
              StronglySorted lex_lt (map (fun n => addr ns (nd_idx n)) l) ->
              StronglySorted lex_lt (flat_map (item_addresses ns) l)).
    { induction l as [|n l IH]; intros Hin Hs'; [constructor|]. cbn [map flat_map] in *. inversion_clear Hs' as [|? ? Hs1 Hs2].
      specialize (IH (fun m Hm => Hin m (or_intror Hm)) Hs1).
      assert (Hlt : forall m, In m l -> lex_lt (addr ns (nd_idx n)) (addr ns (nd_idx m))).
      { intros m Hm. rewrite Forall_forall in Hs2. apply Hs2, elem_of_list_In. by apply (in_map (fun n => addr ns (nd_idx n))). }
      assert (Hext : forall a b c, lex_lt a b -> lex_lt a (b ++ c)).
      { clear. intros a b c H. induction H; cbn; by constructor. }
      assert (Hbig : forall b, (forall m, In m l -> lex_lt b (addr ns (nd_idx m))) -> Forall (lex_lt b) (flat_map (item_addresses ns) l)).
      { intros b Hb. apply Forall_forall. intros x Hx. apply elem_of_list_In, in_flat_map in Hx as (m & Hm & Hx).
        rewrite item_addresses_eq in Hx. destruct Hx as [<-|Hx]; [by apply Hb|].
        destruct (nd_is_selfdestruct m); [|done]. destruct Hx as [<-|[]]. by apply Hext, Hb. }
      rewrite item_addresses_eq. destruct (nd_is_selfdestruct n) eqn:Esd.
      - destruct (Hin n (or_introl eq_refl)) as (i & Hi & <- & Hp).
        assert (Hnil : nd_children n = []).
        { apply Hleaf; [|by apply selfdestruct_status]. apply elem_of_list_In. by eapply elem_of_list_lookup_2. }
        rewrite Hnil. cbn [app length].
        constructor; [constructor; [done|]|].
        + apply Hbig. intros m Hm. pose proof (Hlt m Hm) as H1. destruct (Hin m (or_intror Hm)) as (j & Hj & <- & Hpj).
          assert (Hnp : forall c r, addr ns (nd_idx m) <> addr ns (nd_idx n) ++ c :: r).
          { intros c r Heq. pose proof (addr_follow _ Hinv _ _ Hj Hpj) as Hf. fold ns in Hf. rewrite Heq in Hf.
            rewrite follow_app in Hf. pose proof (addr_follow _ Hinv _ _ Hi Hp) as Hf2. fold ns in Hf2. rewrite Hf2 in Hf.
            cbn in Hf. fold ns in Hi. rewrite Hi, Hnil in Hf. done. }
          clear -H1 Hnp. revert Hnp. induction H1 as [x r|x y r t Hxy|x r t H1 IH]; intros Hnp; cbn.
          * exfalso. by apply (Hnp x r).
          * by constructor.
          * apply lex_tail, IH. intros c' r' Heq. apply (Hnp c' r'). cbn. by rewrite Heq.
        + constructor; [|by apply Hbig].
          clear. generalize (addr ns (nd_idx n)). intros a. induction a; cbn; by constructor.
      - constructor; [done|]. by apply Hbig. }
    apply Hgo; [|done]. intros n Hn. by apply Hsh.
Qed.
Print Assumptions C21_depth_first_partial.
Example C21_example : exists s, ex_state ex_cfg = Ok s /\
  (forall n, In n (ti_traces s) -> selfdestructed n -> nd_children n = []) /\
  exists n, In n (ti_traces s) /\ selfdestructed n.
Proof.
  eexists. split; [vm_compute; reflexivity|]. split.
  - intros n Hn. cbn in Hn. repeat (destruct Hn as [<-|Hn]; [intros [?|(? & ?)]; done|]). done.
  - eexists. split; [right; right; right; left; reflexivity|by left].
Qed.

(** ** C22 *)
Theorem C22_entry_contents :
  forall cfg es s l, ti_run (ti_new cfg) es = Ok s -> into_transaction_traces (ti_traces s) = Ok l ->
  (forall e, In e l -> exists i n, ti_traces s !! i = Some n /\ nd_is_precompile n = false /\
     (call_entry n e /\ follow (ti_traces s) 0 (tt_address e) = Some i \/
      selfdestruct_entry n e /\ exists a, follow (ti_traces s) 0 a = Some i /\ tt_address e = a ++ [length (nd_children n)])) /\
  (forall i n, ti_traces s !! i = Some n -> nd_is_precompile n = false ->
     (exists e, In e l /\ call_entry n e /\ follow (ti_traces s) 0 (tt_address e) = Some i) /\
     (selfdestructed n -> exists e, In e l /\ selfdestruct_entry n e)).
Proof.
  intros cfg es s l Hr Hl. pose proof (run_tree_inv _ _ _ Hr) as Hinv. rewrite (into_transaction_traces_ok _ Hinv) in Hl.
  injection Hl as <-. set (ns := ti_traces s) in *.
  assert (Hc : forall n a, call_entry n (parity_transaction_trace n a) /\ call_entry n (tt_inc_subtraces (parity_transaction_trace n a))).
  { intros n a. unfold parity_transaction_trace, tt_inc_subtraces. cbn.
    unfold parity_action, parity_trace_output, tr_as_error_msg, tr_is_error, tr_is_revert.
    split; (constructor; cbn;
    [ by destruct (tr_kind (nd_trace n)) | by destruct (tr_kind (nd_trace n))
    | by destruct (tr_status (nd_trace n)) | by destruct (tr_status (nd_trace n))
    | intros H1 H2; rewrite bool_decide_eq_false_2 by done; by destruct (tr_status (nd_trace n))
    | intros H1 H2; assert (negb (ir_is_ok (tr_status (nd_trace n))) && negb (bool_decide (tr_status (nd_trace n) = Revert)) = false) as ->
        by (destruct H1 as [H1|H1]; [by destruct (tr_status (nd_trace n))|by rewrite H1]); by destruct (tr_kind (nd_trace n))
    | intros H1 H2; assert (negb (ir_is_ok (tr_status (nd_trace n))) && negb (bool_decide (tr_status (nd_trace n) = Revert)) = false) as ->
        by (destruct H1 as [H1|H1]; [by destruct (tr_status (nd_trace n))|by rewrite H1]); by destruct (tr_kind (nd_trace n)) ]). }
  assert (Hs : forall n a t, parity_selfdestruct_trace n a = Some t -> selfdestruct_entry n t /\ tt_address t = a).
  { intros n a t. unfold parity_selfdestruct_trace, parity_selfdestruct_action. destruct (nd_is_selfdestruct n) eqn:E; [|done].
    intros [= <-]. split; [|done]. constructor; cbn; try done; [by apply selfdestruct_status|].
    do 2 eexists. split_and!; [done| |]; intros ? ->; done. }
  split.
  - intros e He. unfold parity_list in He. apply in_flat_map in He as (n & Hn & He).
    apply (shown_In _ Hinv) in Hn as (i & Hi & Hidx & Hp). exists i, n. split_and!; [done|done|].
    pose proof (addr_follow _ Hinv _ _ Hi Hp) as Ha. unfold node_items, trace_iter_items in He. rewrite Hidx in He.
    destruct (nd_is_selfdestruct n) eqn:E.
    + destruct He as [<-|He]; [left; split; [apply Hc|done]|]. right.
      destruct (parity_selfdestruct_trace n _) as [t|] eqn:Et; [|done]. destruct He as [<-|[]]. apply Hs in Et as [Et1 Et2].
      split; [done|]. eexists. split; [done|]. done.
    + destruct He as [<-|[]]. left. split; [apply Hc|done].
  - intros i n Hi Hp. pose proof (at_idx _ (inv_tree _ Hinv) _ _ Hi) as Hidx. pose proof (addr_follow _ Hinv _ _ Hi Hp) as Ha.
    assert (Hn : In n (shown ns)) by (apply (shown_In _ Hinv); eauto).
    assert (Hsub : forall x, In x (node_items ns n) -> In x (parity_list ns)).
    { intros x Hx. unfold parity_list. apply in_flat_map. eauto. }
    split.
    + destruct (nd_is_selfdestruct n) eqn:E; eexists; (split; [apply Hsub; unfold node_items, trace_iter_items; rewrite E; by left|]);
        (split; [apply Hc|]); cbn; by rewrite Hidx.
    + intros Hst. assert (E : nd_is_selfdestruct n = true) by (by apply selfdestruct_status).
      destruct (parity_selfdestruct_trace n (addr ns i ++ [length (nd_children n)])) as [t|] eqn:Et.
      * exists t. split; [|by eapply Hs]. apply Hsub. unfold node_items, trace_iter_items. rewrite E, Hidx. right.
        cbn [tt_address tt_subtraces parity_transaction_trace]. rewrite Et. by left.
      * exfalso. unfold parity_selfdestruct_trace, parity_selfdestruct_action in Et. by rewrite E in Et.
Qed.
Print Assumptions C22_entry_contents.
Example C22_example : exists s l, ex_state ex_cfg = Ok s /\ into_transaction_traces (ti_traces s) = Ok l /\
  map tt_error l = [None; None; None; None; Some "Reverted"%string; None] /\
  map is_call_entry l = [true; true; true; false; true; true].
Proof. do 2 eexists. split_and!; vm_compute; reflexivity. Qed.

(** ** C26 *)
Theorem C26_results_root_gas :
  forall cfg es s types r l vm diff, ti_run (ti_new cfg) es = Ok s ->
  into_trace_type_traces (ti_traces s) types = Ok (l, vm, diff) ->
  exists tr, into_trace_results (ti_traces s) r types = Ok tr /\
    same_but_root_gas (er_gas_used r) (default [] l) (rs_trace tr) /\ rs_vm_trace tr = vm /\ rs_state_diff tr = diff /\
    rs_output tr = match er_output r with Some o => o | None => [] end.
Proof.
  intros cfg es s types r l vm diff Hr Hl. unfold into_trace_results. rewrite Hl. cbn [rbind]. eexists. split; [done|]. cbn.
  split_and!; [|done..]. destruct (default [] l) as [|e l']; [done|]. cbn. split; [|done]. constructor; cbn; try done.
  destruct (tt_result e) as [[]|]; done.
Qed.
Print Assumptions C26_results_root_gas.

Theorem C26_set_transaction_gas_used :
  forall cfg es s gas l, ti_run (ti_new cfg) es = Ok s -> into_transaction_traces (ti_traces s) = Ok l ->
  (** all nodes but the root are untouched, and the root only changes its gas used *)
  (exists r, ti_traces s !! 0 = Some r /\
     set_transaction_gas_used (ti_traces s) gas = <[0 := nd_set_trace r (tr_set_gas_used (nd_trace r) gas)]> (ti_traces s) /\
     ti_traces (ti_set_transaction_gas_used s gas) = set_transaction_gas_used (ti_traces s) gas) /\
  (** and so only the first entry of the trace list changes, and only in its gas used *)
  (forall r, ti_traces s !! 0 = Some r -> nd_is_precompile r = false ->
   exists l', into_transaction_traces (set_transaction_gas_used (ti_traces s) gas) = Ok l' /\ same_but_root_gas gas l l').
Proof.
  intros cfg es s gas l Hr Hl. pose proof (run_tree_inv _ _ _ Hr) as Hinv.
  destruct (at_root _ (inv_tree _ Hinv)) as (r & Hroot & Hpr & _). unfold ti_set_transaction_gas_used.
  destruct (ti_traces s) as [|r' ns] eqn:Ens; [done|]. cbn in Hroot. injection Hroot as ->. split.
  { exists r. split_and!; done. }
  intros r0 [= <-] Hp. set (r1 := nd_set_trace r (tr_set_gas_used (nd_trace r) gas)). cbn [set_transaction_gas_used]. fold r1.
  assert (Hinv' : tree_inv (r1 :: ns)) by (by apply (tree_inv_shape (r :: ns))).
  rewrite (into_transaction_traces_ok _ Hinv) in Hl. injection Hl as <-.
  rewrite (into_transaction_traces_ok _ Hinv'). eexists. split; [done|].
  assert (Haddr : forall i, addr (r1 :: ns) i = addr (r :: ns) i).
  { intros i. destruct (decide (i < length (r :: ns))) as [Hi|Hi].
    - pose proof (trace_address_ok _ Hinv i Hi) as H1. pose proof (trace_address_ok _ Hinv' i Hi) as H2.
      destruct (lookup_lt_is_Some_2 (r :: ns) i Hi) as [n Hn].
      destruct (nd_is_precompile n) eqn:Hpn.
      + destruct i as [|i]; [cbn in Hn; congruence|]. unfold addr, trace_address. cbn [Nat.eqb]. unfold index. cbn in Hn |- *.
        by rewrite Hn; cbn; rewrite Hpn.
      + assert (H3 : exists n', (r1 :: ns) !! i = Some n' /\ nd_is_precompile n' = false).
        { destruct i as [|i]; [exists r1; split; [done|exact Hp]|exists n; done]. }
        destruct H3 as (n' & Hn' & Hpn'). pose proof (addr_follow _ Hinv _ _ Hn Hpn) as F1.
        pose proof (addr_follow _ Hinv' _ _ Hn' Hpn') as F2. rewrite (follow_shape (r1 :: ns) (r :: ns) eq_refl) in F2.
        by eapply (follow_inj _ (inv_tree _ Hinv)).
    - unfold addr, trace_address. destruct i; [cbn in Hi; lia|]. cbn [Nat.eqb]. unfold index.
      rewrite !lookup_ge_None_2; [done|cbn in *; lia..]. }
  unfold parity_list, shown, iter_traceable_nodes. cbn [List.filter]. change (nd_is_precompile r1) with (nd_is_precompile r). rewrite Hp. cbn [negb flat_map].
  assert (Hrest : forall l, flat_map (node_items (r1 :: ns)) l = flat_map (node_items (r :: ns)) l).
  { induction l as [|n l IH]; [done|]. cbn. f_equal; [|done]. unfold node_items. by rewrite Haddr. }
  rewrite Hrest. unfold node_items, trace_iter_items. rewrite Haddr. change (nd_is_selfdestruct r1) with (nd_is_selfdestruct r).
  change (nd_idx r1) with (nd_idx r).
  assert (Hsg : forall a k, same_but_gas gas
     (mkTT (parity_action r) (tr_as_error_msg (nd_trace r) StyleParity) (tt_result (parity_transaction_trace r a)) a k)
     (mkTT (parity_action r1) (tr_as_error_msg (nd_trace r1) StyleParity) (tt_result (parity_transaction_trace r1 a)) a k)).
  { intros a k. constructor; try done. cbn.
    change (tr_is_error (tr_set_gas_used (nd_trace r) gas)) with (tr_is_error (nd_trace r)).
    change (tr_is_revert (tr_set_gas_used (nd_trace r) gas)) with (tr_is_revert (nd_trace r)).
    destruct (tr_is_error (nd_trace r) && negb (tr_is_revert (nd_trace r))); [done|].
    unfold parity_trace_output. cbn. destruct (tr_kind (nd_trace r)); done. }
  destruct (nd_is_selfdestruct r); (split; [apply Hsg|done]).
Qed.
Print Assumptions C26_set_transaction_gas_used.
Example C26_example : exists s l l', ex_state ex_cfg = Ok s /\ into_transaction_traces (ti_traces s) = Ok l /\
  into_transaction_traces (set_transaction_gas_used (ti_traces s) 777%N) = Ok l' /\ l <> l' /\
  (fun n => nd_is_precompile n) <$> ti_traces s !! 0 = Some false.
Proof. do 3 eexists. split_and!; [vm_compute; reflexivity|vm_compute; reflexivity|vm_compute; reflexivity|discriminate|reflexivity]. Qed.

(** ** C61 *)
Theorem C61_walk :
  forall cfg es s, ti_run (ti_new cfg) es = Ok s ->
  exists l, walk_bf (ti_traces s) = Ok l /\
    (** level by level from the root, each level left to right *)
    map nd_idx l = concat (map (level (ti_traces s)) (seq 0 (length (ti_traces s)))) /\
    Forall (fun n => ti_traces s !! nd_idx n = Some n) l /\
    (** each exactly once *)
    NoDup (map nd_idx l) /\
    (** exactly the nodes reachable through children *)
    (forall i, In i (map nd_idx l) <-> exists a, follow (ti_traces s) 0 a = Some i).
Proof.
  intros cfg es s Hr. pose proof (inv_tree _ (run_tree_inv _ _ _ Hr)) as Ht. set (ns := ti_traces s) in *.
  eexists. split; [by apply walk_levels|].
  assert (Hval : forall q, Forall (fun i => i < length ns) q -> map nd_idx (nodes_at ns q) = q /\ Forall (fun n => ns !! nd_idx n = Some n) (nodes_at ns q)).
  { induction 1 as [|i q Hi Hq [IH1 IH2]]; [split; [done|constructor]|]. unfold nodes_at. cbn [omap list_omap].
    destruct (lookup_lt_is_Some_2 _ _ Hi) as [n Hn]. rewrite Hn. cbn [map]. pose proof (at_idx _ Ht _ _ Hn) as Hidx. split.
    - rewrite Hidx. f_equal. exact IH1.
    - constructor; [by rewrite Hidx|exact IH2]. }
  assert (Hall : Forall (fun i => i < length ns) (concat (map (level ns) (seq 0 (length ns))))).
  { apply Forall_forall. intros i Hi. apply elem_of_list_In, in_concat in Hi as (q & Hq & Hi).
    apply in_map_iff in Hq as (k & <- & _). apply level_follow in Hi as (a & _ & Hf).
    destruct (follow_info _ Ht _ _ Hf) as (n & Hn & _). by eapply lookup_lt_Some. }
  destruct (Hval _ Hall) as [H1 H2]. rewrite H1. split_and!; [done|done|by apply levels_nodup|].
  intros i. rewrite in_concat. split.
  - intros (q & Hq & Hi). apply in_map_iff in Hq as (k & <- & _). apply level_follow in Hi as (a & _ & Hf). eauto.
  - intros (a & Hf). exists (level ns (length a)). split; [|apply level_follow; eauto].
    apply in_map_iff. exists (length a). split; [done|]. apply in_seq.
    destruct (follow_info _ Ht _ _ Hf) as (n & Hn & _ & Hle & _). apply lookup_lt_Some in Hn. lia.
Qed.
Print Assumptions C61_walk.
Example C61_example : exists s l, ex_state ex_cfg = Ok s /\ walk_bf (ti_traces s) = Ok l /\ map nd_idx l = [0; 1; 3; 4; 5].
Proof. do 2 eexists. split_and!; vm_compute; reflexivity. Qed.

(** ** C23 *)

(** In a real execution every sub-frame is entered by a call-like instruction, the last one before it. *)
Fixpoint calls_made_body (prev : option instr) (body : list item) : Prop :=
  match body with
  | [] => True
  | IOp o :: r => calls_made_body (Some o) r
  | IHook _ :: r => calls_made_body prev r
  | ISub g :: r => match prev with
                   | Some o => op_is_calllike (in_op (op_pre o)) = true
                   | None => False
                   end /\ calls_made_body None r
  end.
Definition calls_made (f : frame) : Prop := every_frame (fun g => calls_made_body None (f_body g)) f.

(** Full statement (false of the code), for executions traced in the default parity vmTrace configuration or any
    other that records all steps. *)
Definition C23_statement : Prop :=
  forall cfg w f s, env_ok cfg w f -> calls_made f -> record_steps cfg = true -> record_opcodes_filter cfg = None ->
  ti_run (ti_new cfg) (tx_events w f) = Ok s ->
  exists t, vm_trace (ti_traces s) = Ok t /\ vm_spec (ti_traces s) 0 t.

(** The root calls A and then B, and B makes a call: the traces of the subcalls end up at the wrong instructions. *)
Definition c23_leaf (ops : list N) : frame :=
  Frame (SCall ex_j0 (mkCallInputs [] 50000 0xD0 0xC0 0xAA (Transfer 0) CSCall false)%N)
    (map (fun o => IOp (ex_op o 0 [] [1]%N 900%N ex_j0 [] Continue)) ops) (ex_end Return None).
Definition c23_call (g : frame) : list item :=
  [IOp (ex_op OP_CALL 0 [0; 0; 0; 0; 0; 0; 0]%N [] 8000%N ex_j0 [] CallOrCreate); ISub g].
Definition c23_node (items : list item) : frame :=
  Frame (SCall ex_j0 (mkCallInputs [] 50000 0xD1 0xC0 0xAA (Transfer 0) CSCall false)%N) items (ex_end Return None).
Definition c23_tx : frame :=
  c23_node (c23_call (c23_leaf [OP_PUSH1]) ++ c23_call (c23_node (c23_call (c23_leaf [OP_PUSH1; OP_PUSH1])))).

Lemma vm_spec_length ns i t n : vm_spec ns i t -> ns !! i = Some n -> length (vm_ops t) = length (tr_steps (nd_trace n)).
Proof.
  intros [i' n' subs Hn _] Hn'. rewrite Hn in Hn'. injection Hn' as <-. cbn. generalize subs.
  induction (tr_steps (nd_trace n')) as [|st l IH]; intros subs'; [done|]. cbn [attach].
  destruct (st_is_calllike st); [destruct subs'|]; cbn [length]; by rewrite IH.
Qed.

Lemma calls_made_dec f : everyb (fun g => (fix go prev l := match l with
    | [] => true
    | IOp o :: r => go (op_is_calllike (in_op (op_pre o))) r
    | IHook _ :: r => go prev r
    | ISub _ :: r => prev && go false r end) false (f_body g)) f = true -> calls_made f.
Proof.
  apply everyb_ok. intros g.
  enough (H : forall l prev (o : option instr), prev = match o with Some o => op_is_calllike (in_op (op_pre o)) | None => false end ->
     (fix go prev l := match l with
    | [] => true
    | IOp o :: r => go (op_is_calllike (in_op (op_pre o))) r
    | IHook _ :: r => go prev r
    | ISub _ :: r => prev && go false r end) prev l = true -> calls_made_body o l) by (by apply H).
  induction l as [|[o'|h|g'] l IH]; intros prev o Ho Hl; cbn in *; [done|by eapply IH|by eapply IH|].
  apply andb_true_iff in Hl as [Hp Hl]. split; [destruct o; congruence|by eapply (IH false None)].
Qed.

Theorem C23_refuted : ~ C23_statement.
Proof.
  intros H. destruct (ti_run (ti_new cfg_default_geth) (tx_events ex_world c23_tx)) as [s| |] eqn:E; [|vm_compute in E; discriminate..].
  specialize (H cfg_default_geth ex_world c23_tx s (env_okb_ok _ ex_world c23_tx eq_refl) (calls_made_dec c23_tx eq_refl) eq_refl eq_refl E).
  vm_compute in E. injection E as <-. destruct H as (t & Ht & Hs). vm_compute in Ht. injection Ht as <-.
  inversion Hs as [i n subs Hn Hf Hi Hops]. subst i. cbn in Hn. injection Hn as <-. cbn in Hf.
  inversion Hf as [|? t1 ? ts Hs1 Hf2]. subst. inversion Hf2 as [|? t2 ? ts' Hs2 Hf3]. subst. inversion Hf3. subst.
  pose proof (vm_spec_length _ _ _ _ Hs1 eq_refl) as L. cbn in Hops. injection Hops as Ht1 _. rewrite Ht1 in L. cbn in L. discriminate.
Qed.
Print Assumptions C23_refuted.

(** A frame whose code starts with STOP, when it is the last one: the whole vm trace is empty. *)
Definition c23_stop_tx : frame := c23_node (c23_call (c23_leaf [OP_STOP])).
Theorem C23_stop_refuted : ~ C23_statement.
Proof.
  intros H. destruct (ti_run (ti_new cfg_default_geth) (tx_events ex_world c23_stop_tx)) as [s| |] eqn:E; [|vm_compute in E; discriminate..].
  specialize (H cfg_default_geth ex_world c23_stop_tx s (env_okb_ok _ ex_world c23_stop_tx eq_refl) (calls_made_dec c23_stop_tx eq_refl) eq_refl eq_refl E).
  vm_compute in E. injection E as <-. destruct H as (t & Ht & Hs). vm_compute in Ht. injection Ht as <-.
  pose proof (vm_spec_length _ _ _ _ Hs eq_refl) as L. cbn in L. discriminate.
Qed.
Print Assumptions C23_stop_refuted.

(** What holds: the nesting is right when only the first subcall of a frame contains call instructions and the
    single-STOP shortcut does not trigger. Missing: every other call tree. *)
Theorem C23_vm_trace_partial :
  forall cfg es s, ti_run (ti_new cfg) es = Ok s ->
  (forall i n, ti_traces s !! i = Some n -> length (nd_children n) <= call_count n) ->
  (forall i n k c cn, ti_traces s !! i = Some n -> nd_children n !! k = Some c -> 0 < k -> ti_traces s !! c = Some cn ->
     call_count cn = 0) ->
  (is_last_step_stop_op (ti_traces s) = false \/
   forall i n st, ti_traces s !! i = Some n -> head (tr_steps (nd_trace n)) = Some st -> st_is_stop st = false) ->
  exists t, vm_trace (ti_traces s) = Ok t /\ vm_spec (ti_traces s) 0 t.
Proof.
  intros cfg es s Hr H1 H2 H3. apply vm_trace_shape; try done. by apply inv_tree, run_tree_inv in Hr || (apply inv_tree; by eapply run_tree_inv).
Qed.
Print Assumptions C23_vm_trace_partial.
Definition c23_ok_tx : frame :=
  c23_node (c23_call (c23_node (c23_call (c23_leaf [OP_PUSH1; OP_PUSH1]))) ++ c23_call (c23_leaf [OP_PUSH1])).
Example C23_example : exists s, ti_run (ti_new cfg_default_geth) (tx_events ex_world c23_ok_tx) = Ok s /\
  (forall i n, ti_traces s !! i = Some n -> length (nd_children n) <= call_count n) /\
  (forall i n k c cn, ti_traces s !! i = Some n -> nd_children n !! k = Some c -> 0 < k -> ti_traces s !! c = Some cn ->
     call_count cn = 0) /\
  is_last_step_stop_op (ti_traces s) = false /\ map nd_children (ti_traces s) = [[1; 3]; [2]; []; []].
Proof.
  eexists. split; [vm_compute; reflexivity|]. split; [|split].
  - intros i n. do 4 (destruct i as [|i]; [intros [= <-]; vm_compute; lia|]). done.
  - intros i n k c cn. do 4 (destruct i as [|i]; [intros [= <-]; do 2 (destruct k as [|k]; [intros [= <-] Hk; try lia; intros [= <-]; reflexivity| try done])|]); done.
  - split; reflexivity.
Qed.

(** ** C24 *)
Theorem C24_terminates :
  forall cfg es s, ti_run (ti_new cfg) es = Ok s ->
  exists t addrs, vm_trace (ti_traces s) = Ok t /\ rmap (map (fun n => tr_address (nd_trace n))) (walk_bf (ti_traces s)) = Ok addrs /\
    forall db, exists r, populate_vm_trace_bytecodes db t addrs = Ok r.
Proof.
  intros cfg es s Hr. pose proof (inv_tree _ (run_tree_inv _ _ _ Hr)) as Ht.
  destruct (vm_trace_ok _ Ht) as (t & Hvm & Hsize). exists t. rewrite (walk_levels _ Ht). cbn [rmap rbind]. eexists. split_and!; [done|done|].
  intros db. apply populate_ok. rewrite map_length. rewrite <-(level_waves _ (length (ti_traces s)) 0) in Hsize.
  etransitivity; [exact Hsize|].
  assert (Hall : Forall (fun i => i < length (ti_traces s)) (concat (map (level (ti_traces s)) (seq 0 (length (ti_traces s)))))).
  { apply Forall_forall. intros i Hi. apply elem_of_list_In, in_concat in Hi as (q & Hq & Hi).
    apply in_map_iff in Hq as (k & <- & _). apply level_follow in Hi as (a & _ & Hf).
    destruct (follow_info _ Ht _ _ Hf) as (n & Hn & _). by eapply lookup_lt_Some. }
  clear Hsize. induction Hall as [|i q Hi Hq IH]; [done|]. unfold nodes_at. cbn [omap list_omap length].
  destruct (lookup_lt_is_Some_2 _ _ Hi) as [n Hn]. rewrite Hn. cbn [length]. apply le_n_S. exact IH.
Qed.
Print Assumptions C24_terminates.

(** The same for the whole of [into_trace_results_with_state]. *)
Theorem C24_results_total :
  forall cfg es s r state types db, ti_run (ti_new cfg) es = Ok s ->
  exists x, into_trace_results_with_state (ti_traces s) r state types db = Ok x.
Proof.
  intros cfg es s r state types db Hr. destruct (C24_terminates _ _ _ Hr) as (t & addrs & Hvm & Haddrs & Hpop).
  pose proof (run_tree_inv _ _ _ Hr) as Hinv. unfold into_trace_results_with_state.
  assert (Htt : exists trs, into_trace_type_traces (ti_traces s) types =
     Ok (trs, if ty_vm_trace types then Some t else None, if ty_state_diff types then Some ∅ else None)).
  { unfold into_trace_type_traces. destruct (ty_is_empty types) eqn:Ee.
    - unfold ty_is_empty in Ee. apply negb_true_iff, orb_false_iff in Ee as [Ee E3]. apply orb_false_iff in Ee as [E1 E2].
      rewrite E2, E3. by eexists.
    - destruct (at_root _ (inv_tree _ Hinv)) as (r0 & Hr0 & _). destruct (length (ti_traces s)) eqn:El.
      { apply nil_length_inv in El. by rewrite El in Hr0. }
      cbn [Nat.eqb orb]. rewrite Hvm. destruct (ty_vm_trace types), (ty_trace types); cbn [rmap rbind];
        rewrite ?(type_traces_ok _ Hinv), ?(type_traces_off _ Hinv); eexists; done. }
  destruct Htt as (trs & Htt). unfold into_trace_results. rewrite Htt.
  destruct (ty_vm_trace types); rewrite ?Haddrs; cbn [rbind rs_state_diff rs_vm_trace].
  - destruct (ty_state_diff types); [destruct (populate_state_diff ∅ db state)|]; try (by eexists);
      destruct (Hpop db) as [o Ho]; rewrite Ho; eexists; done.
  - destruct (ty_state_diff types); [destruct (populate_state_diff ∅ db state)|]; by eexists.
Qed.
Print Assumptions C24_results_total.
Example C24_example : exists s t, ex_state ex_cfg = Ok s /\ vm_trace (ti_traces s) = Ok t /\ vm_size t = 5.
Proof. do 2 eexists. split_and!; vm_compute; reflexivity. Qed.
