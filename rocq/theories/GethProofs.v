(** * GethProofs: call frames built by rolling up, struct logs built by the step stack *)

From Verif Require Export SpecGeth VmProofs TxFacts.

(** ** Rolling up *)

Lemma filter_seq_split (p : nat -> bool) N k : k < N ->
  List.filter p (seq k (N - k)) = (if p k then [k] else []) ++ List.filter p (seq (S k) (N - S k)).
Proof.
  intros H. replace (N - k) with (S (N - S k)) by lia. cbn [seq List.filter]. by destruct (p k).
Qed.

Lemma filter_seq_drop (p : nat -> bool) N k : k <= N -> (forall j, j < k -> p j = false) ->
  List.filter p (seq 0 N) = List.filter p (seq k (N - k)).
Proof.
  intros Hk Hp. replace N with (k + (N - k)) at 1 by lia. rewrite seq_app, List.filter_app.
  replace (List.filter p (seq 0 k)) with (@nil nat); [done|]. symmetry. clear Hk. induction k as [|k IH]; [done|].
  rewrite seq_S, List.filter_app, IH by (intros; apply Hp; lia). cbn. rewrite Hp by lia. done.
Qed.

Section rollup.
  Context (ns : list CallTraceNode) (Ht : arena_tree ns).
  Context (info : nat -> FrameInfo) (extra : nat -> list FrameInfo).
  Hypothesis Hextra : forall i, Forall (fun x => fi_typ x = "SELFDESTRUCT") (extra i).

  Definition calls_p (i j : nat) : bool :=
    match ns !! j with Some n => bool_decide (nd_parent n = Some i) | None => false end.

  Lemma calls_p_lt i j : calls_p i j = true -> i < j /\ j < length ns.
  Proof.
    unfold calls_p. destruct (ns !! j) as [n|] eqn:Hj; [|done]. intros H. apply bool_decide_eq_true in H.
    assert (j <> 0). { intros ->. destruct (at_root _ Ht) as (r & Hr & Hp & _). congruence. }
    destruct (at_parent _ Ht j n Hj) as (p & pn & Hp & Hlt & _); [done|]. assert (p = i) by congruence. subst p.
    split; [done|]. by eapply lookup_lt_Some.
  Qed.

  Lemma called_by_from i : i < length ns -> called_by ns i = List.filter (calls_p i) (seq (S i) (length ns - S i)).
  Proof.
    intros Hi. unfold called_by. apply (filter_seq_drop (calls_p i)); [lia|]. intros j Hj.
    destruct (calls_p i j) eqn:E; [|done]. apply calls_p_lt in E. lia.
  Qed.

  (** The frame of node [i], with the trees [t] of the calls from index [k] on already in place. *)
  Definition partial (t : nat -> CallFrame) (k i : nat) : nat * CallFrame :=
    (i, mkCF (info i) (map t (List.filter (calls_p i) (seq k (length ns - k))) ++ map synthetic (extra i))).

  Definition P_ex (i : nat) (x : FrameInfo) (e : list FrameInfo) : Prop := x = info i /\ e = extra i.

  Lemma roll_up_ok : forall k fuel t, S k <= length ns -> S k <= fuel ->
    (forall j, S k <= j -> j < length ns -> call_tree ns P_ex j (t j)) ->
    exists r, roll_up fuel ns (map (partial t (S k)) (seq 0 (S k))) = Ok r /\ call_tree ns P_ex 0 r.
  Proof.
    induction k as [|k IH]; intros fuel t Hk Hf Htree; destruct fuel as [|fuel]; try lia.
    - (* the root *)
      cbn [seq map]. cbn [roll_up last length]. unfold partial at 1. cbn [Nat.sub take].
      destruct (at_root _ Ht) as (r & Hr & Hp & _). unfold index. rewrite Hr. cbn [rbind]. rewrite Hp.
      eexists. split; [reflexivity|]. constructor; [done| |done].
      rewrite called_by_from by lia. apply Forall2_fmap_r, Forall2_same_length_lookup_2; [done|].
      intros m x y Hx Hy. rewrite Hx in Hy. injection Hy as <-. apply elem_of_list_lookup_2, elem_of_list_In, filter_In in Hx as [Hin Hc].
      apply calls_p_lt in Hc. apply Htree; lia.
    - cbn [roll_up]. rewrite seq_S, map_app. cbn [map Nat.add]. rewrite last_snoc.
      set (call := snd (partial t (S (S k)) (S k))). change (partial t (S (S k)) (S k)) with (S k, call). cbn beta iota.
      rewrite app_length, map_length, seq_length. cbn [length]. replace (S k + 1 - 1) with (S k) by lia.
      rewrite take_app_alt by (by rewrite map_length, seq_length).
      destruct (lookup_lt_is_Some_2 ns (S k) ltac:(lia)) as [n Hn]. unfold index. rewrite Hn. cbn [rbind].
      destruct (at_parent _ Ht (S k) n Hn ltac:(lia)) as (p & pn & Hp & Hlt & _ & _). rewrite Hp.
      assert (Hcall : call_tree ns P_ex (S k) call).
      { subst call. cbn [partial snd]. constructor; [done| |done]. rewrite called_by_from by lia.
        apply Forall2_fmap_r, Forall2_same_length_lookup_2; [done|].
        intros m x y Hx Hy. rewrite Hx in Hy. injection Hy as <-. apply elem_of_list_lookup_2, elem_of_list_In, filter_In in Hx as [Hin Hc].
        apply calls_p_lt in Hc. apply Htree; lia. }
      unfold update. rewrite list_lookup_fmap, lookup_seq_lt by lia. cbn [fmap option_fmap option_map Nat.add rbind].
      set (t' := fun j => if decide (j = S k) then call else t j).
      assert (Heq : <[p := (fst (partial t (S (S k)) p), cf_insert0 call (snd (partial t (S (S k)) p)))]>
                      (map (partial t (S (S k))) (seq 0 (S k))) = map (partial t' (S k)) (seq 0 (S k))).
      { apply list_eq. intros i. destruct (decide (i < S k)) as [Hi|Hi].
        2:{ rewrite !lookup_ge_None_2; [done| |]; rewrite ?insert_length, map_length, seq_length; lia. }
        assert (Hmap : forall i, i < S k -> i <> p ->
                  map t (List.filter (calls_p i) (seq (S (S k)) (length ns - S (S k)))) =
                  map t' (List.filter (calls_p i) (seq (S k) (length ns - S k)))).
        { intros i' Hi' Hne. rewrite (filter_seq_split _ _ (S k)) by lia.
          replace (calls_p i' (S k)) with false; cbn [app].
          - apply map_ext_in. intros j Hj. apply filter_In in Hj as [Hj _]. apply in_seq in Hj. unfold t'.
            rewrite decide_False by lia. done.
          - symmetry. unfold calls_p. rewrite Hn. apply bool_decide_eq_false. congruence. }
        assert (Hmapp : call :: map t (List.filter (calls_p p) (seq (S (S k)) (length ns - S (S k)))) =
                  map t' (List.filter (calls_p p) (seq (S k) (length ns - S k)))).
        { rewrite (filter_seq_split _ _ (S k)) by lia.
          replace (calls_p p (S k)) with true; cbn [app map].
          - f_equal; [unfold t'; by rewrite decide_True|].
            apply map_ext_in. intros j Hj. apply filter_In in Hj as [Hj _]. apply in_seq in Hj. unfold t'.
            rewrite decide_False by lia. done.
          - symmetry. unfold calls_p. rewrite Hn. apply bool_decide_eq_true. congruence. }
        destruct (decide (i = p)) as [->|Hne].
        - rewrite list_lookup_insert by (by rewrite map_length, seq_length).
          rewrite list_lookup_fmap, lookup_seq_lt by done. cbn [fmap option_fmap option_map Nat.add].
          unfold partial. cbn [fst snd cf_insert0 cf_info cf_calls]. rewrite <-Hmapp. done.
        - rewrite list_lookup_insert_ne by done. rewrite !list_lookup_fmap, lookup_seq_lt by done.
          cbn [fmap option_fmap option_map Nat.add]. unfold partial. by rewrite Hmap. }
      rewrite Heq. apply IH; [lia|lia|].
      intros j Hj1 Hj2. unfold t'. destruct (decide (j = S k)) as [->|]; [done|]. apply Htree; lia.
  Qed.
End rollup.

Lemma call_tree_impl ns (P Q : nat -> FrameInfo -> list FrameInfo -> Prop) :
  (forall i x e, P i x e -> i < length ns -> Q i x e) ->
  forall n i c, length ns <= i + n -> i < length ns -> arena_tree ns -> call_tree ns P i c -> call_tree ns Q i c.
Proof.
  intros H n. induction n as [|n IH]; intros i c Hn Hi Ht Hc; [lia|].
  inversion_clear Hc as [? info calls extra Hp Hcalls Hx]. constructor; [by apply H| |done].
  rewrite called_by_from in Hcalls |- * by done.
  assert (Hall : Forall (fun j => i < j /\ j < length ns) (List.filter (calls_p ns i) (seq (S i) (length ns - S i)))).
  { apply Forall_forall. intros j Hj. apply elem_of_list_In, filter_In in Hj as [_ Hj]. by apply calls_p_lt in Hj. }
  induction Hcalls as [|j c0 js cs Hj _ IHc]; [constructor|]. inversion_clear Hall as [|? ? Hj' Hall'].
  constructor; [|by apply IHc]. apply (IH j c0); try done; lia.
Qed.

(** ** Collecting the frames *)

Lemma geth_call_traces_cons rr ns opts gas root rest :
  ns = root :: rest -> unwrap_or_default_bool (only_top_call opts) = false ->
  geth_call_traces rr ns opts gas =
  let logs := unwrap_or_default_bool (with_log opts) in
  let fr := geth_empty_call_frame rr root logs in
  let fr := mkCF (fi_set_gas_used (cf_info fr) gas) (cf_calls fr) in
  let fr := match geth_selfdestruct_call_trace root with Some sd => cf_push sd fr | None => fr end in
  let! call_frames := rfold (frames_step rr ns logs) [(0, fr)] (zip (seq 1 (length rest)) rest) in
  roll_up (length ns) ns call_frames.
Proof. intros -> Htop. unfold geth_call_traces. by rewrite Htop. Qed.

Section collect.
  Context (rr : bytes -> option string) (ns : list CallTraceNode) (Ht : arena_tree ns).

  Lemma parent_failed_ok fuel : forall i n, ns !! i = Some n -> i <= fuel ->
    exists b, parent_failed fuel ns (nd_parent n) = Ok b /\
      (b = false <-> forall j m, encloses ns j i -> j <> i -> ns !! j = Some m -> tr_is_error (nd_trace m) = false).
  Proof.
    induction fuel as [|fuel IH]; intros i n Hn Hi.
    - assert (i = 0) as -> by lia. destruct (at_root _ Ht) as (r & Hr & Hp & _).
      assert (n = r) as -> by congruence. rewrite Hp. exists false. split; [done|]. split; [|done]. intros _ j m He Hne.
      inversion He as [|? ? n' p Hn' Hp']; [done|]. congruence.
    - destruct (decide (i = 0)) as [->|Hi0].
      { destruct (at_root _ Ht) as (r & Hr & Hp & _).
        assert (n = r) as -> by congruence. rewrite Hp. exists false. split; [done|]. split; [|done]. intros _ j m He Hne.
        inversion He as [|? ? n' p Hn' Hp']; [done|]. congruence. }
      destruct (at_parent _ Ht i n Hn Hi0) as (p & pn & Hp & Hlt & Hpn & _). rewrite Hp. cbn [parent_failed].
      unfold index. rewrite Hpn. cbn [rbind]. destruct (tr_is_error (nd_trace pn)) eqn:He.
      + exists true. split; [done|]. split; [done|]. intros Hall. rewrite (Hall p pn) in He; [done| |lia|done].
        eapply encloses_parent; [done|done|constructor].
      + destruct (IH p pn Hpn ltac:(lia)) as (b & Hb & Hiff). exists b. split; [done|]. rewrite Hiff. split.
        * intros Hall j m Hj Hne Hm. inversion Hj as [|? ? n' p' Hn' Hp' Hj']; subst; [done|].
          assert (p' = p) as -> by congruence. destruct (decide (j = p)) as [->|Hjp]; [congruence|]. by eapply Hall.
        * intros Hall j m Hj Hne Hm. eapply Hall; [|  |done].
          -- by eapply encloses_parent.
          -- assert (forall j i, encloses ns j i -> j <= i) as Hle.
             { clear -Ht. induction 1 as [|j i n p Hn Hp He IH]; [lia|]. 
               assert (i <> 0). { intros ->. destruct (at_root _ Ht) as (r & Hr & Hpr & _). congruence. }
               destruct (at_parent _ Ht i n Hn) as (p' & pn & Hp' & Hlt & _); [done|]. assert (p' = p) by congruence. lia. }
             apply Hle in Hj. lia.
  Qed.

  Lemma encloses_le j i : encloses ns j i -> j <= i.
  Proof.
    induction 1 as [|j i n p Hn Hp He IH]; [lia|].
    assert (i <> 0). { intros ->. destruct (at_root _ Ht) as (r & Hr & Hpr & _). congruence. }
    destruct (at_parent _ Ht i n Hn) as (p' & pn & Hp' & Hlt & _); [done|]. assert (p' = p) by congruence. lia.
  Qed.

  Lemma spec_success_error t : spec_success (tr_status t) = negb (tr_is_error t).
  Proof. unfold tr_is_error. by destruct (tr_status t). Qed.

  Lemma call_or_parent_failed_ok i n : ns !! i = Some n ->
    exists b, call_or_parent_failed ns n = Ok b /\ (b = false <-> chain_succeeded ns i).
  Proof.
    intros Hn. unfold call_or_parent_failed, chain_succeeded. destruct (tr_is_error (nd_trace n)) eqn:He.
    - exists true. split; [done|]. split; [done|]. intros H. specialize (H i n (encloses_self ns i) Hn).
      rewrite spec_success_error, He in H. done.
    - destruct (parent_failed_ok (length ns) i n Hn) as (b & Hb & Hiff).
      { apply lookup_lt_Some in Hn. lia. }
      exists b. split; [done|]. rewrite Hiff. split.
      + intros Hall j m Hj Hm. rewrite spec_success_error. destruct (decide (j = i)) as [->|Hne].
        * replace m with n by congruence. by rewrite He.
        * by erewrite Hall.
      + intros Hall j m Hj _ Hm. specialize (Hall j m Hj Hm). rewrite spec_success_error in Hall.
        by destruct (tr_is_error (nd_trace m)).
  Qed.

  (** Synthetic frames of the nodes whose selfdestruct is reported in the frame of node [i]. *)
  Definition sd_infos (o : option CallTraceNode) : list FrameInfo :=
    match o with
    | Some n => match geth_selfdestruct_call_trace n with Some c => [cf_info c] | None => [] end
    | None => []
    end.
  Lemma sd_info_frame n c : geth_selfdestruct_call_trace n = Some c -> c = synthetic (cf_info c) /\ fi_typ (cf_info c) = "SELFDESTRUCT".
  Proof. unfold geth_selfdestruct_call_trace. destruct (nd_is_selfdestruct n); [|done]. by intros [= <-]. Qed.
  Lemma sd_infos_typ o : Forall (fun x => fi_typ x = "SELFDESTRUCT") (sd_infos o).
  Proof.
    destruct o as [n|]; cbn; [|constructor]. destruct (geth_selfdestruct_call_trace n) as [c|] eqn:E; [|constructor].
    constructor; [|constructor]. by apply sd_info_frame in E as [_ ?].
  Qed.

  Definition extra_of (root : option CallTraceNode) (i : nat) : list FrameInfo :=
    (if i =? 0 then sd_infos root else []) ++ sd_infos (ns !! S i).

  Definition failedb (n : CallTraceNode) : bool := match call_or_parent_failed ns n with Ok b => b | _ => false end.
  Definition info_of (include_logs : bool) (gas : u64) (i : nat) : FrameInfo :=
    match ns !! i with
    | Some n =>
        if i =? 0 then fi_set_gas_used (cf_info (geth_empty_call_frame rr n include_logs)) gas
        else cf_info (geth_empty_call_frame rr n (include_logs && negb (failedb n)))
    | None => fi_default
    end.

  (** Frames collected so far: the last one has not got the selfdestruct of the next node yet. *)
  Definition collected (logs : bool) (gas : u64) (k : nat) : list (nat * CallFrame) :=
    map (fun i => (i, mkCF (info_of logs gas i)
                     (map synthetic ((if i =? 0 then sd_infos (ns !! 0) else []) ++ (if S i <? k then sd_infos (ns !! S i) else [])))))
      (seq 0 k).

  Lemma geth_empty_calls n b : cf_calls (geth_empty_call_frame rr n b) = [].
  Proof. done. Qed.

  Lemma collect_step logs gas k n : 0 < k -> ns !! k = Some n ->
    frames_step rr ns logs (collected logs gas k) (k, n) = Ok (collected logs gas (S k)).
  Proof.
    intros Hk Hn. unfold frames_step.
    assert (Hpush : match geth_selfdestruct_call_trace n with
                    | Some sd => push_to_last (collected logs gas k) sd
                    | None => Ok (collected logs gas k)
                    end = Ok (map (fun i => (i, mkCF (info_of logs gas i)
                     (map synthetic ((if i =? 0 then sd_infos (ns !! 0) else []) ++ (if S i <? S k then sd_infos (ns !! S i) else [])))))
                     (seq 0 k))).
    { assert (Hold : forall i, i < k -> i <> k - 1 -> (S i <? k) = (S i <? S k)).
      { intros i Hi Hne. destruct (Nat.ltb_spec (S i) k), (Nat.ltb_spec (S i) (S k)); lia || done. }
      assert (Hlast : ns !! S (k - 1) = Some n) by (by replace (S (k - 1)) with k by lia).
      destruct (geth_selfdestruct_call_trace n) as [sd|] eqn:Esd.
      - unfold push_to_last. assert (Hlen : length (collected logs gas k) = k).
        { unfold collected. by rewrite map_length, seq_length. }
        destruct (collected logs gas k) as [|x0 l0] eqn:Ec; [cbn in Hlen; lia|]. rewrite <-Ec in Hlen |- *. clear Ec x0 l0.
        f_equal. apply list_eq. intros i. rewrite Hlen. destruct (decide (i = k - 1)) as [->|Hne].
        + rewrite list_lookup_alter. unfold collected. rewrite !list_lookup_fmap, lookup_seq_lt by lia.
          cbn [fmap option_fmap option_map Nat.add fst snd]. do 2 f_equal. unfold cf_push. cbn [cf_info cf_calls]. f_equal.
          rewrite Hlast. replace (S (k - 1) <? k) with false by (symmetry; apply Nat.ltb_ge; lia).
          replace (S (k - 1) <? S k) with true by (symmetry; apply Nat.ltb_lt; lia).
          unfold sd_infos at 3. rewrite Esd. rewrite app_nil_r, map_app. cbn [map]. f_equal.
          apply sd_info_frame in Esd as [<- _]. done.
        + rewrite list_lookup_alter_ne by done. unfold collected. rewrite !list_lookup_fmap.
          destruct (seq 0 k !! i) as [j|] eqn:Ej; [|done]. apply lookup_seq in Ej as [-> Hlt].
          cbn [fmap option_fmap option_map Nat.add]. by rewrite Hold by lia.
      - f_equal. unfold collected. apply map_ext_in. intros i Hi. apply in_seq in Hi. do 4 f_equal.
        destruct (decide (i = k - 1)) as [->|Hne]; [|by rewrite Hold by lia].
        rewrite Hlast. unfold sd_infos. rewrite Esd. by destruct (_ <? _), (_ <? _). }
    rewrite Hpush. cbn [rbind].
    assert (Hf : (if logs then call_or_parent_failed ns n else Ok false) = Ok (if logs then failedb n else false)).
    { destruct logs; [|done]. unfold failedb. destruct (call_or_parent_failed_ok k n Hn) as (b & -> & _). done. }
    rewrite Hf. cbn [rbind]. f_equal. unfold collected. rewrite seq_S, map_app. f_equal.
    cbn [map Nat.add]. do 2 f_equal. unfold info_of. rewrite Hn. replace (k =? 0) with false by (symmetry; apply Nat.eqb_neq; lia).
    replace (S k <? S k) with false by (symmetry; apply Nat.ltb_irrefl). cbn [app map].
    unfold geth_empty_call_frame. cbn [cf_info]. by destruct logs.
  Qed.

  Lemma collect_all logs gas m : forall k, 0 < k -> k + m = length ns ->
    rfold (frames_step rr ns logs) (collected logs gas k) (zip (seq k m) (drop k ns)) = Ok (collected logs gas (length ns)).
  Proof.
    induction m as [|m IH]; intros k Hk Hm.
    - cbn. by replace k with (length ns) by lia.
    - destruct (lookup_lt_is_Some_2 ns k ltac:(lia)) as [n Hn]. rewrite (drop_S _ _ _ Hn). cbn [seq zip zip_with rfold].
      rewrite (collect_step logs gas k n Hk Hn). cbn [rbind]. apply IH; lia.
  Qed.

  (** The call tracer, on every tree. *)
  Theorem geth_call_traces_ok opts gas :
    unwrap_or_default_bool (only_top_call opts) = false ->
    exists r, geth_call_traces rr ns opts gas = Ok r /\
      call_tree ns (fun i x e => x = info_of (unwrap_or_default_bool (with_log opts)) gas i /\ e = extra_of (ns !! 0) i) 0 r.
  Proof.
    intros Htop. destruct (at_root _ Ht) as (root & H0 & _).
    assert (Ens : exists rest, ns = root :: rest).
    { destruct ns as [|r l]; [done|]. injection H0 as ->. by exists l. }
    destruct Ens as [rest Ens].
    rewrite (geth_call_traces_cons rr ns opts gas root rest Ens Htop).
    cbn zeta. set (logs := unwrap_or_default_bool (with_log opts)).
    assert (Hlen : 1 <= length ns) by (rewrite Ens; cbn; lia).
    assert (Hrest : drop 1 ns = rest) by (by rewrite Ens).
    match goal with |- context [rfold _ [(0, ?R)] _] => assert (Hroot : [(0, R)] = collected logs gas 1) end.
    { unfold collected. cbn [seq map Nat.eqb Nat.ltb Nat.leb app]. rewrite H0. do 2 f_equal. unfold info_of. rewrite H0. cbn [Nat.eqb].
      rewrite app_nil_r. cbn [sd_infos]. destruct (geth_selfdestruct_call_trace root) as [c|] eqn:Ec; [|done].
      unfold cf_push. cbn [cf_info cf_calls geth_empty_call_frame app map]. apply sd_info_frame in Ec as [<- _]. done. }
    rewrite Hroot. rewrite <-Hrest. replace (length (drop 1 ns)) with (length ns - 1) by (by rewrite drop_length).
    rewrite (collect_all logs gas (length ns - 1) 1) by lia. cbn [rbind].
    assert (Hcoll : collected logs gas (length ns) =
              map (partial ns (info_of logs gas) (extra_of (ns !! 0)) (fun _ => cf_default) (S (length ns - 1))) (seq 0 (S (length ns - 1)))).
    { replace (S (length ns - 1)) with (length ns) by lia. unfold collected, partial. apply map_ext_in. intros i Hi. apply in_seq in Hi.
      do 2 f_equal. replace (length ns - length ns) with 0 by lia. cbn [seq List.filter map app]. unfold extra_of. do 2 f_equal.
      destruct (Nat.ltb_spec (S i) (length ns)); [done|]. by rewrite lookup_ge_None_2 by lia. }
    rewrite Hcoll. apply (roll_up_ok ns Ht (info_of logs gas) (extra_of (ns !! 0))); try lia.
    intros i. unfold extra_of. apply Forall_app. split; [|apply sd_infos_typ]. destruct (i =? 0); [apply sd_infos_typ|constructor].
  Qed.
End collect.

(** ** Struct logs *)

Definition call_op (op : N) : bool := existsb (N.eqb op) [0xf0; 0xf1; 0xf2; 0xf4; 0xf5; 0xfa]%N.
Lemma calllike_call_op op : op_is_calllike op = call_op op.
Proof.
  unfold op_is_calllike, call_op. cbn [existsb]. 
  change OP_CALL with 0xf1%N. change OP_DELEGATECALL with 0xf4%N. change OP_STATICCALL with 0xfa%N.
  change OP_CREATE with 0xf0%N. change OP_CALLCODE with 0xf2%N. change OP_CREATE2 with 0xf5%N.
  repeat match goal with |- context [(op =? ?x)%N] => destruct (op =? x)%N end; done.
Qed.

(** What one step does to the accumulated storage and the list of logs. *)
Definition do_log (opts : GethDefaultTracingOptions) (st : gmap address (gmap U256 U256) * list StructLog)
    (x : CallTraceNode * CallTraceStep) : gmap address (gmap U256 U256) * list StructLog :=
  let '(n, s) := x in
  let cs := default ∅ (fst st !! st_contract s) in
  let '(storage, ls) :=
    if is_storage_enabled opts then
      match st_storage_change s with
      | Some ch => (<[st_contract s := <[sc_key ch := sc_value ch]> cs]> (fst st), Some (<[sc_key ch := sc_value ch]> cs))
      | None => (<[st_contract s := cs]> (fst st), None)
      end
    else (fst st, None) in
  (storage, snd st ++ [struct_log s opts ls (if is_return_data_enabled opts then Some (tr_output (nd_trace n)) else None)]).

Definition log0 : gmap address (gmap U256 U256) * list StructLog := (∅, []).

Section fill.
  Context (ns : list CallTraceNode) (Ht : arena_tree ns) (opts : GethDefaultTracingOptions).

  Lemma fill_cons fuel n s c stack st :
    fill_geth_trace (S fuel) ns opts (mkItem n s c :: stack) (fst st) (snd st) =
    (let! stack := match c with
                   | Some c => let! child := index ns c in Ok (call_step_stack child ++ stack)
                   | None => Ok stack
                   end in
     fill_geth_trace fuel ns opts stack (fst (do_log opts st (n, s))) (snd (do_log opts st (n, s)))).
  Proof.
    cbn [fill_geth_trace do_log]. destruct (is_storage_enabled opts); [|done]. by destruct (st_storage_change s).
  Qed.

  Definition cc (steps : list CallTraceStep) : nat := length (List.filter (fun s => call_op (st_op s)) steps).

  Lemma fill_steps n steps : forall k subs fuel stack st,
    Forall2 (fun c l => exists cn, ns !! c = Some cn /\ forall fuel stack st, length l <= fuel ->
               fill_geth_trace fuel ns opts (call_step_stack cn ++ stack) (fst st) (snd st) =
               fill_geth_trace (fuel - length l) ns opts stack (fst (fold_left (do_log opts) l st)) (snd (fold_left (do_log opts) l st)))
      (take (cc steps) (drop k (nd_children n))) subs ->
    length (weave n steps subs) <= fuel ->
    fill_geth_trace fuel ns opts (step_items n k steps ++ stack) (fst st) (snd st) =
    fill_geth_trace (fuel - length (weave n steps subs)) ns opts stack
      (fst (fold_left (do_log opts) (weave n steps subs) st)) (snd (fold_left (do_log opts) (weave n steps subs) st)).
  Proof.
    induction steps as [|s steps IH]; intros k subs fuel stack st Hsubs Hf.
    - cbn. by rewrite Nat.sub_0_r.
    - cbn [step_items weave] in *. unfold st_is_calllike. rewrite calllike_call_op. fold (call_op (st_op s)) in *.
      unfold cc in Hsubs. cbn [List.filter] in Hsubs. destruct (call_op (st_op s)) eqn:Ec.
      + cbn [length] in Hsubs. destruct (nd_children n !! k) as [c|] eqn:Hk.
        * rewrite (drop_S _ _ _ Hk) in Hsubs. cbn [take] in Hsubs.
          inversion Hsubs as [|? l ? subs' (cn & Hcn & Hl) Hsubs']; subst. cbn [length] in Hf.
          rewrite app_length in Hf. destruct fuel as [|fuel]; [lia|]. cbn [app]. rewrite fill_cons. unfold index. rewrite Hcn.
          cbn [rbind]. rewrite Hl by lia. cbn [fold_left length]. rewrite fold_left_app, app_length.
          replace (k + 1) with (S k) by lia. rewrite IH with (subs := subs'); [|done|lia]. f_equal. lia.
        * rewrite (drop_ge (nd_children n)) in Hsubs by (by apply lookup_ge_None). rewrite take_nil in Hsubs.
          inversion Hsubs; subst. cbn [length] in Hf. destruct fuel as [|fuel]; [lia|]. cbn [app]. rewrite fill_cons.
          cbn [rbind fold_left length]. rewrite IH with (subs := []); [done| |lia].
          rewrite (drop_ge (nd_children n)) by (by apply lookup_ge_None). rewrite take_nil. constructor.
      + cbn [length] in Hf. destruct fuel as [|fuel]; [lia|]. cbn [app]. rewrite fill_cons. cbn [rbind fold_left length].
        rewrite IH with (subs := subs); [done|done|lia].
  Qed.

  Lemma child_lt i n c : ns !! i = Some n -> In c (nd_children n) -> i < c /\ c < length ns.
  Proof.
    intros Hn Hc. apply (at_children _ Ht _ _ Hn) in Hc as (cn & Hcn & Hp & _).
    assert (c <> 0). { intros ->. destruct (at_root _ Ht) as (r & Hr & Hpr & _). congruence. }
    destruct (at_parent _ Ht c cn Hcn) as (p & pn & Hp' & Hlt & _); [done|]. assert (p = i) by congruence.
    split; [lia|]. by eapply lookup_lt_Some.
  Qed.

  Lemma fill_ok m : forall i n l, length ns <= i + m -> ns !! i = Some n -> steps_in_order ns i l ->
    forall fuel stack st, length l <= fuel ->
    fill_geth_trace fuel ns opts (call_step_stack n ++ stack) (fst st) (snd st) =
    fill_geth_trace (fuel - length l) ns opts stack (fst (fold_left (do_log opts) l st)) (snd (fold_left (do_log opts) l st)).
  Proof.
    induction m as [|m IH]; intros i n l Hm Hn Hl fuel stack st Hf.
    { apply lookup_lt_Some in Hn. lia. }
    inversion Hl as [? n' subs Hn' Hsubs]; subst. assert (n' = n) as -> by congruence.
    unfold call_step_stack. apply fill_steps; [|done]. rewrite drop_0. 
    assert (Hall : Forall (fun c => In c (nd_children n)) (take (calls_in n) (nd_children n))).
    { apply Forall_take, Forall_forall. intros c Hc. by apply elem_of_list_In. }
    change (cc (tr_steps (nd_trace n))) with (calls_in n). clear Hf Hl.
    induction Hsubs as [|c l cs ls Hc _ IHs]; [constructor|]. inversion_clear Hall as [|? ? Hin Hall'].
    constructor; [|by apply IHs]. destruct (child_lt i n c Hn Hin) as [H1 H2].
    destruct (lookup_lt_is_Some_2 ns c H2) as [cn Hcn]. exists cn. split; [done|]. intros. eapply (IH c cn l); try done. lia.
  Qed.

  (** *** Every tree has its steps in order *)
  Lemma steps_exist m : forall i, length ns <= i + m -> i < length ns -> exists l, steps_in_order ns i l.
  Proof.
    induction m as [|m IH]; intros i Hm Hi; [lia|].
    destruct (lookup_lt_is_Some_2 ns i Hi) as [n Hn].
    assert (exists subs, Forall2 (steps_in_order ns) (take (calls_in n) (nd_children n)) subs) as [subs Hsubs].
    { assert (Hall : Forall (fun c => In c (nd_children n)) (take (calls_in n) (nd_children n))).
      { apply Forall_take, Forall_forall. intros c Hc. by apply elem_of_list_In. }
      induction Hall as [|c cs Hc _ [ls IHs]]; [by exists []|]. destruct (child_lt i n c Hn Hc) as [H1 H2].
      destruct (IH c) as [l Hl]; [lia|done|]. exists (l :: ls). by constructor. }
    eexists. by econstructor.
  Qed.

  (** *** Their number is bounded *)
  Definition steps_at (i : nat) : nat := match ns !! i with Some n => length (tr_steps (nd_trace n)) | None => 0 end.
  Fixpoint below (m : nat) (i : nat) : nat :=
    match m with O => 0 | S m => steps_at i + lsum (map (below m) (kids ns i)) end.

  Lemma weave_length n steps : forall subs, length subs <= cc steps ->
    length (weave n steps subs) = length steps + lsum (map length subs).
  Proof.
    induction steps as [|s steps IH]; intros subs Hl; cbn [weave].
    - unfold cc in Hl. cbn in Hl. by destruct subs; [|cbn in Hl; lia].
    - fold (call_op (st_op s)). unfold cc in Hl. cbn [List.filter] in Hl. destruct (call_op (st_op s)).
      + destruct subs as [|l subs]; cbn [length].
        * rewrite IH; [done|cbn; lia].
        * rewrite app_length, IH; [cbn [map lsum]; lia|]. cbn [length] in Hl. unfold cc. lia.
      + cbn [length]. rewrite IH by done. done.
  Qed.

  Lemma lsum_le (f g : nat -> nat) l : (forall x, In x l -> f x <= g x) -> lsum (map f l) <= lsum (map g l).
  Proof.
    induction l as [|x l IH]; intros H; cbn; [lia|]. specialize (H x (or_introl eq_refl)) as H1.
    assert (lsum (map f l) <= lsum (map g l)) by (apply IH; intros; apply H; by right). lia.
  Qed.

  Lemma in_order_length m : forall i l, length ns <= i + m -> steps_in_order ns i l -> length l <= below m i.
  Proof.
    induction m as [|m IH]; intros i l Hm Hl; inversion Hl as [? n subs Hn Hsubs]; subst.
    { apply lookup_lt_Some in Hn. lia. }
    cbn [below]. unfold steps_at, kids. rewrite Hn.
    pose proof (Forall2_length _ _ _ Hsubs) as Hlen. rewrite weave_length.
    2:{ rewrite <-Hlen, take_length. unfold calls_in, cc, call_op. lia. }
    assert (Hsum : lsum (map length subs) <= lsum (map (below m) (take (calls_in n) (nd_children n)))).
    { assert (Hall : Forall (fun c => In c (nd_children n)) (take (calls_in n) (nd_children n))).
      { apply Forall_take, Forall_forall. intros c Hc. by apply elem_of_list_In. }
      clear Hlen Hl. induction Hsubs as [|c l cs ls Hc _ IHs]; [done|]. inversion_clear Hall as [|? ? Hin Hall'].
      cbn [map lsum]. destruct (child_lt i n c Hn Hin) as [H1 H2]. specialize (IH c l ltac:(lia) Hc). specialize (IHs Hall'). lia. }
    assert (lsum (map (below m) (take (calls_in n) (nd_children n))) <= lsum (map (below m) (nd_children n))).
    { rewrite <-(take_drop (calls_in n) (nd_children n)) at 2. rewrite map_app, lsum_app. lia. }
    lia.
  Qed.

  Lemma lsum_flat_map (f : nat -> nat) (g : nat -> list nat) l :
    lsum (map f (flat_map g l)) = lsum (map (fun i => lsum (map f (g i))) l).
  Proof. induction l as [|x l IH]; [done|]. cbn. rewrite map_app, lsum_app. by rewrite IH. Qed.
  Lemma lsum_plus (f g : nat -> nat) l : lsum (map (fun i => f i + g i) l) = lsum (map f l) + lsum (map g l).
  Proof. induction l as [|x l IH]; [done|]. cbn. lia. Qed.

  Lemma below_levels m : forall k,
    lsum (map (below m) (level ns k)) = lsum (map steps_at (concat (map (level ns) (seq k m)))).
  Proof.
    induction m as [|m IH]; intros k; cbn [below].
    - cbn. induction (level ns k); [done|]. cbn. done.
    - rewrite lsum_plus. cbn [seq map concat]. rewrite map_app, lsum_app. f_equal.
      rewrite <-IH. cbn [level]. change (fun i => match ns !! i with Some n => nd_children n | None => [] end) with (kids ns).
      by rewrite lsum_flat_map.
  Qed.

  Lemma steps_at_seq l : lsum (map steps_at (seq 0 (length ns))) = total_steps ns -> NoDup l -> (forall i, i ∈ l -> i < length ns) ->
    lsum (map steps_at l) <= total_steps ns.
  Proof.
    intros Htot Hnd Hlt. rewrite <-Htot.
    assert (Hsub : l ⊆+ seq 0 (length ns)).
    { apply NoDup_submseteq; [done|]. intros i Hi. apply elem_of_seq. specialize (Hlt i Hi). lia. }
    clear -Hsub. induction Hsub; cbn [map lsum]; lia.
  Qed.

  Lemma total_steps_seq : lsum (map steps_at (seq 0 (length ns))) = total_steps ns.
  Proof.
    unfold steps_at. clear Ht. induction ns as [|n l IH]; [done|]. cbn [length seq map lsum total_steps]. cbn [lookup list_lookup].
    f_equal. rewrite <-IH, <-seq_shift, map_map. done.
  Qed.

  Lemma in_order_bound l : steps_in_order ns 0 l -> length l <= total_steps ns.
  Proof.
    intros Hl. pose proof (in_order_length (length ns) 0 l ltac:(lia) Hl) as H.
    pose proof (below_levels (length ns) 0) as Hb. cbn [level map lsum] in Hb.
    assert (Hs : lsum (map steps_at (concat (map (level ns) (seq 0 (length ns))))) <= total_steps ns).
    { apply steps_at_seq; [apply total_steps_seq|by apply levels_nodup|].
      intros i Hi. apply elem_of_list_In, in_concat in Hi as (l' & Hl' & Hi). apply in_map_iff in Hl' as (k' & <- & _).
      apply level_follow in Hi as (a & _ & Hf). destruct (follow_info _ Ht _ _ Hf) as (n & Hn & _). by apply lookup_lt_Some in Hn. }
    lia.
  Qed.

  Theorem geth_traces_ok gas out l : steps_in_order ns 0 l ->
    exists root, ns !! 0 = Some root /\
    geth_traces ns gas out opts =
      Ok (mkDefaultFrame (negb (tr_success (nd_trace root))) gas out (snd (fold_left (do_log opts) l log0))).
  Proof.
    intros Hl. destruct (at_root _ Ht) as (root & H0 & _). exists root. split; [done|].
    assert (Heq : geth_traces ns gas out opts =
      (let! struct_logs := fill_geth_trace (total_steps ns) ns opts (call_step_stack root ++ []) (fst log0) (snd log0) in
       Ok (mkDefaultFrame (negb (tr_success (nd_trace root))) gas out struct_logs))).
    { rewrite app_nil_r. destruct ns as [|r rest]; [done|]. injection H0 as ->. done. }
    rewrite Heq, (fill_ok (length ns) 0 root l); [|lia|done|done|by apply in_order_bound].
    by destruct (total_steps ns - length l).
  Qed.
End fill.

(** ** The logs one by one *)
Section logs.
  Context (opts : GethDefaultTracingOptions).

  Definition after (l : list (CallTraceNode * CallTraceStep)) := fold_left (do_log opts) l log0.
  Lemma after_snoc l x : after (l ++ [x]) = do_log opts (after l) x.
  Proof. unfold after. by rewrite fold_left_app. Qed.

  Lemma do_log_snd st n s : exists o, snd (do_log opts st (n, s)) = snd st ++ [struct_log s opts o (if is_return_data_enabled opts then Some (tr_output (nd_trace n)) else None)].
  Proof. unfold do_log. destruct (is_storage_enabled opts); [destruct (st_storage_change s)|]; by eexists. Qed.

  Lemma after_length l : length (snd (after l)) = length l.
  Proof.
    induction l as [|[n s] l IH] using rev_ind; [done|]. rewrite after_snoc. destruct (do_log_snd (after l) n s) as [o ->].
    rewrite !app_length, IH. done.
  Qed.

  Lemma latest_snoc l s a k : latest (l ++ [s]) a k =
    match st_storage_change s with
    | Some ch => if (st_contract s =? a)%N && (sc_key ch =? k)%N then Some (sc_value ch) else latest l a k
    | None => latest l a k
    end.
  Proof.
    unfold latest. rewrite omap_app. cbn. destruct (st_storage_change s) as [ch|].
    - destruct ((st_contract s =? a)%N && (sc_key ch =? k)%N); cbn; [by rewrite last_snoc|by rewrite app_nil_r].
    - by rewrite app_nil_r.
  Qed.

  Lemma after_storage l : is_storage_enabled opts = true -> forall a k,
    (default ∅ (fst (after l) !! a) : gmap U256 U256) !! k = latest (map snd l) a k.
  Proof.
    intros Hs. induction l as [|[n s] l IH] using rev_ind; intros a k.
    - unfold after. cbn. rewrite lookup_empty. cbn. by rewrite lookup_empty.
    - rewrite after_snoc, map_app. cbn [map snd]. rewrite latest_snoc. unfold do_log. rewrite Hs.
      destruct (st_storage_change s) as [ch|]; cbn [fst].
      + destruct (N.eqb_spec (st_contract s) a) as [<-|Hne]; cbn [andb].
        * rewrite lookup_insert. cbn [default]. unfold id. destruct (N.eqb_spec (sc_key ch) k) as [<-|Hk].
          -- by rewrite lookup_insert.
          -- rewrite lookup_insert_ne by done. apply IH.
        * rewrite lookup_insert_ne by done. apply IH.
      + destruct (decide (st_contract s = a)) as [<-|Hne].
        * rewrite lookup_insert. cbn [default]. unfold id. apply IH.
        * rewrite lookup_insert_ne by done. apply IH.
  Qed.

  Lemma after_lookup l j n s : l !! j = Some (n, s) ->
    exists ls, snd (after l) !! j = Some (struct_log s opts ls (if is_return_data_enabled opts then Some (tr_output (nd_trace n)) else None)) /\
      match ls with
      | Some m => is_storage_enabled opts = true /\ is_Some (st_storage_change s) /\
                  forall k, m !! k = latest (map snd (take (S j) l)) (st_contract s) k
      | None => is_storage_enabled opts = false \/ st_storage_change s = None
      end.
  Proof.
    induction l as [|[n' s'] l IH] using rev_ind; intros Hj; [done|].
    rewrite after_snoc. destruct (decide (j = length l)) as [->|Hne].
    - rewrite lookup_app_r in Hj by lia. rewrite Nat.sub_diag in Hj. injection Hj as -> ->.
      rewrite take_ge by (rewrite app_length; cbn; lia).
      assert (Hlook : forall o : StructLog, (snd (after l) ++ [o]) !! length l = Some o).
      { intros o. rewrite lookup_app_r by (by rewrite after_length). by rewrite after_length, Nat.sub_diag. }
      unfold do_log. destruct (is_storage_enabled opts) eqn:Hs.
      + destruct (st_storage_change s) as [ch|] eqn:Hch; cbn [snd]; rewrite Hlook.
        * eexists. split; [done|]. cbn beta iota. split_and!; [done|by eexists|]. intros k. rewrite map_app. cbn [map snd].
          rewrite latest_snoc, Hch, N.eqb_refl. cbn [andb]. destruct (N.eqb_spec (sc_key ch) k) as [<-|Hk].
          -- by rewrite lookup_insert.
          -- rewrite lookup_insert_ne by done. by apply after_storage.
        * eexists. split; [done|]. by right.
      + cbn [snd]. rewrite Hlook. eexists. split; [done|]. by left.
    - assert (Hlt : j < length l).
      { apply lookup_lt_Some in Hj. rewrite app_length in Hj. cbn in Hj. lia. }
      rewrite lookup_app_l in Hj by done. destruct (IH Hj) as (ls & H1 & H2). exists ls. split.
      + destruct (do_log_snd (after l) n' s') as [o ->]. rewrite lookup_app_l; [done|]. by rewrite after_length.
      + rewrite take_app_le by lia. done.
  Qed.
End logs.

(** ** The steps of an execution *)
Lemma every_frame_impl (P Q : frame -> Prop) f : (forall g, P g -> Q g) -> every_frame P f -> every_frame Q f.
Proof.
  intros HPQ. induction f as [s body e IH] using frame_ind'. intros H. apply every_frame_inv in H as [H1 H2].
  constructor; [by apply HPQ|]. cbn [f_body] in *. revert H2. induction IH; intros H2; [constructor|].
  inversion_clear H2. constructor; eauto.
Qed.
Lemma every_frame_and (P Q : frame -> Prop) f : every_frame P f -> every_frame Q f -> every_frame (fun g => P g /\ Q g) f.
Proof.
  induction f as [s body e IH] using frame_ind'. intros H H'. apply every_frame_inv in H as [H1 H2].
  apply every_frame_inv in H' as [H1' H2']. constructor; [done|]. cbn [f_body] in *. revert H2 H2'.
  induction IH; intros H2 H2'; [constructor|]. inversion_clear H2. inversion_clear H2'. constructor; eauto.
Qed.

Section execution.
  Context (cfg : TracingInspectorConfig) (w : world) (ns : list CallTraceNode).
  Context (Hst : record_steps cfg = true) (Hflt : record_opcodes_filter cfg = None) (Hex : exclude_precompile_calls cfg = false).

  (** [R]: any relation between the instructions of a frame and the steps recorded for them *)
  Context (R : nat -> instr -> CallTraceStep -> Prop).
  Definition frame_related (f : frame) : Prop :=
    forall d, Forall2 (R d) (instrs (f_body f)) (steps_from cfg w d None (instrs (f_body f))).

  (** Enough to check one step at a time. *)
  Lemma steps_from_all (P : instr -> CallTraceStep -> Prop) d os : forall prev, Forall (snapshot_safe cfg) os ->
    (forall prev o, snapshot_safe cfg o -> recorded cfg o = true -> P o (step_of cfg w d prev o)) ->
    Forall2 P os (steps_from cfg w d prev os).
  Proof.
    induction os as [|o os IH]; intros prev Hs HP; cbn [steps_from]; [constructor|]. inversion_clear Hs.
    assert (Hr : recorded cfg o = true) by (unfold recorded, should_record_opcode; by rewrite Hst, Hflt).
    rewrite Hr. constructor; [by apply HP|by apply IH].
  Qed.

  Definition matches (x : nat * frame * instr) (y : CallTraceNode * CallTraceStep) : Prop :=
    R (fst (fst x)) (snd x) (snd y) /\
    tr_output (nd_trace (fst y)) = ir_output (fe_result (f_end (snd (fst x)))).

  Fixpoint exec_body (d : nat) (f : frame) (l : list item) : list (nat * frame * instr) :=
    match l with
    | [] => []
    | IOp o :: r => (S d, f, o) :: exec_body d f r
    | IHook _ :: r => exec_body d f r
    | ISub g :: r => executed (S d) g ++ exec_body d f r
    end.
  Lemma executed_eq d s body e : executed d (Frame s body e) = exec_body d (Frame s body e) body.
  Proof.
    cbn [executed]. generalize (Frame s body e) as f. intros f. induction body as [|[o|h|g] r IH]; cbn; [done|..]; by rewrite IH.
  Qed.

  Lemma recorded_all o : recorded cfg o = true.
  Proof. unfold recorded, should_record_opcode. by rewrite Hst, Hflt. Qed.
  Lemma excluded_none s inh : excluded cfg w s inh = false.
  Proof. unfold excluded, mp_of. rewrite Hex. by destruct s. Qed.

  Lemma steps_from_cons d prev o os :
    steps_from cfg w d prev (o :: os) = step_of cfg w d prev o :: steps_from cfg w d (Some (step_of cfg w d prev o)) os.
  Proof. cbn [steps_from]. by rewrite recorded_all. Qed.

  Lemma step_of_op d prev o : snapshot_safe cfg o -> st_op (step_of cfg w d prev o) = in_op (op_pre o).
  Proof. intros H. apply (sd_op _ _ _ _ _ (step_of_describes cfg w d prev o H (recorded_all o))). Qed.

  Lemma cc_cons_call d prev o os : snapshot_safe cfg o -> instr_is_call o = true ->
    cc (steps_from cfg w d prev (o :: os)) = S (cc (steps_from cfg w d (Some (step_of cfg w d prev o)) os)).
  Proof.
    intros Hs Hc. rewrite steps_from_cons. unfold cc. cbn [List.filter]. rewrite step_of_op by done.
    change (call_op (in_op (op_pre o))) with (instr_is_call o). by rewrite Hc.
  Qed.

  Definition placed (pos : nat) (xs : list entry) : Prop :=
    forall k x, xs !! k = Some x -> ns !! (pos + k) = Some (node_of cfg w x).
  Lemma placed_app pos xs ys : placed pos (xs ++ ys) -> placed pos xs /\ placed (pos + length xs) ys.
  Proof.
    intros H. split; intros k x Hk.
    - apply H. by apply lookup_app_l_Some.
    - rewrite <-Nat.add_assoc. apply H. rewrite lookup_app_r by lia. by replace (length xs + k - length xs) with k by lia.
  Qed.
  Lemma placed_cons pos x xs : placed pos (x :: xs) -> ns !! pos = Some (node_of cfg w x) /\ placed (S pos) xs.
  Proof.
    intros H. split; [rewrite <-(Nat.add_0_r pos); by apply H|]. intros k y Hk.
    replace (S pos + k) with (pos + S k) by lia. by apply H.
  Qed.

  Definition frame_steps (f : frame) : Prop :=
    forall par pos d inh, every_frame (fun g => Forall (snapshot_safe cfg) (instrs (f_body g))) f ->
      every_frame frame_related f -> evm_calls f ->
      placed pos (entries par pos d inh f) ->
      exists l, steps_in_order ns pos l /\ Forall2 matches (executed d f) l.

  Lemma body_steps m : forall body prev pos d v next n f,
    length body <= m -> Forall frame_steps (subs body) -> Forall (snapshot_safe cfg) (instrs body) ->
    Forall2 (R (S d)) (instrs body) (steps_from cfg w (S d) prev (instrs body)) ->
    Forall (every_frame frame_related) (subs body) ->
    Forall (every_frame (fun g => Forall (snapshot_safe cfg) (instrs (f_body g)))) (subs body) ->
    Forall evm_calls (subs body) -> calls_made body -> placed next (sub_entries pos d v next body) ->
    tr_output (nd_trace n) = ir_output (fe_result (f_end f)) ->
    exists ls, Forall2 (steps_in_order ns) (child_positions cfg w v next body) ls /\
      length (child_positions cfg w v next body) <= cc (steps_from cfg w (S d) prev (instrs body)) /\
      Forall2 matches (exec_body d f body) (weave n (steps_from cfg w (S d) prev (instrs body)) ls).
  Proof.
    induction m as [|m IH]; intros body prev pos d v next n f Hm Hfs Hsafe Hrel Hrels Hev Hcalls Hmade Hpl Hout.
    { destruct body; [|cbn in Hm; lia]. exists []. split_and!; [constructor|done|constructor]. }
    destruct body as [|[o|h|g] r]; [|  | |done].
    - exists []. split_and!; [constructor|done|constructor].
    - inversion_clear Hsafe as [|? ? Ho Hsafe'].
      change (instrs (IOp o :: r)) with (o :: instrs r) in Hrel. rewrite steps_from_cons in Hrel.
      apply Forall2_cons in Hrel as [Hrel0 Hrel].
      assert (Hdesc : matches (S d, f, o) (n, step_of cfg w (S d) prev o)) by done.
      cbn [sub_entries] in Hpl.
      destruct (instr_is_call o) eqn:Hc.
      + destruct r as [|it r'].
        { exists []. cbn [child_positions instrs flat_map app exec_body]. change (instrs []) with (@nil instr).
          split_and!; [constructor|cbn; lia|]. rewrite steps_from_cons. cbn [weave steps_from].
          fold (call_op (st_op (step_of cfg w (S d) prev o))). destruct (call_op _); (constructor; [exact Hdesc|constructor]). }
        destruct it as [o'|h'|g].
        * destruct Hmade as [Hmade _]. by destruct (Hmade Hc).
        * cbn [calls_made] in Hmade. destruct Hmade as [Hm1 Hm2]. specialize (Hm1 Hc) as [Hi Hsu].
          assert (Hch : forall v next, child_positions cfg w v next r' = []).
          { intros. clear -Hsu. cbn in Hsu. revert next0. induction r' as [|[]]; intros; cbn in *; try done; by apply IHr'. }
          assert (Hb : exec_body d f r' = []).
          { clear -Hsu Hi. cbn in Hsu, Hi. induction r' as [|[]]; cbn in *; try done; by apply IHr'. }
          exists []. cbn [child_positions exec_body]. rewrite Hch, Hb.
          change (instrs (IOp o :: IHook h' :: r')) with (o :: instrs r'). change (instrs (IHook h' :: r')) with (instrs r') in Hi.
          rewrite Hi. split_and!; [constructor|cbn; lia|]. rewrite steps_from_cons. cbn [weave steps_from].
          fold (call_op (st_op (step_of cfg w (S d) prev o))). destruct (call_op _); (constructor; [exact Hdesc|constructor]).
        * cbn [calls_made] in Hmade. destruct Hmade as [_ Hmade].
          inversion_clear Hfs as [|? ? Hg Hfs']. inversion_clear Hrels as [|? ? Hrelg Hrels']. inversion_clear Hev as [|? ? Hevg Hev']. inversion_clear Hcalls as [|? ? Hcg Hcalls'].
          cbn [sub_entries] in Hpl. apply placed_app in Hpl as [Hp1 Hp2]. rewrite entries_length in Hp2.
          destruct (Hg _ _ _ _ Hevg Hrelg Hcg Hp1) as (lg & Hlg1 & Hlg2).
          destruct (IH r' (Some (step_of cfg w (S d) prev o)) pos d v (next + frame_size g) n f) as (ls & H1 & H2 & H3); try done.
          { cbn in Hm. lia. }
          exists (lg :: ls). cbn [child_positions exec_body]. rewrite excluded_none. cbn [app].
          change (instrs (IOp o :: ISub g :: r')) with (o :: instrs r').
          split_and!; [by constructor| |].
          -- rewrite cc_cons_call by done. cbn [length]. lia.
          -- rewrite steps_from_cons. cbn [weave]. fold (call_op (st_op (step_of cfg w (S d) prev o))). rewrite step_of_op by done.
             change (call_op (in_op (op_pre o))) with (instr_is_call o). rewrite Hc. constructor; [exact Hdesc|].
             by apply Forall2_app.
      + assert (Hmade' : calls_made r).
        { destruct r as [|[o'|h'|g] r']; [done|by destruct Hmade..|]. destruct Hmade. congruence. }
        destruct (IH r (Some (step_of cfg w (S d) prev o)) pos d v next n f) as (ls & H1 & H2 & H3); try done.
        { cbn in Hm. lia. }
        exists ls. cbn [child_positions exec_body]. change (instrs (IOp o :: r)) with (o :: instrs r). rewrite steps_from_cons.
        split_and!; [done| |].
        * etransitivity; [exact H2|]. unfold cc. cbn [List.filter]. destruct (call_op _); cbn [length]; lia.
        * cbn [weave]. fold (call_op (st_op (step_of cfg w (S d) prev o))). rewrite step_of_op by done.
          change (call_op (in_op (op_pre o))) with (instr_is_call o). rewrite Hc. constructor; [exact Hdesc|done].
    - destruct (IH r prev pos d v next n f) as (ls & H1 & H2 & H3); try done.
      { cbn in Hm. lia. }
      by exists ls.
  Qed.

  Lemma frame_steps_all f : frame_steps f.
  Proof.
    induction f as [s body e IH] using frame_ind'. intros par pos d inh Hsafe Hrel Hcalls Hpl.
    apply every_frame_inv in Hsafe as [Hs1 Hs2]. apply every_frame_inv in Hrel as [Hr1 Hr2]. apply every_frame_inv in Hcalls as [Hc1 Hc2].
    rewrite entries_eq in Hpl. apply placed_cons in Hpl as [Hn Hpl]. cbn [f_body] in *.
    set (x := mkEntry par pos d inh (Frame s body e)) in *.
    destruct (body_steps (length body) body None pos d (value_of s inh) (S pos) (node_of cfg w x) (Frame s body e))
      as (ls & H1 & H2 & H3); try done.
    assert (Hch : nd_children (node_of cfg w x) = child_positions cfg w (value_of s inh) (S pos) body).
    { unfold node_of, finish. cbn [nd_set_trace nd_children]. by rewrite node_after_children. }
    assert (Hsteps : tr_steps (nd_trace (node_of cfg w x)) = steps_from cfg w (S d) None (instrs body)).
    { unfold node_of, finish. cbn [nd_set_trace nd_trace fill_trace tr_steps x en_frame en_depth]. by rewrite node_after_steps. }
    eexists. split; [|rewrite executed_eq; exact H3]. rewrite <-Hsteps.
    econstructor; [done|]. rewrite take_ge; [by rewrite Hch|]. rewrite Hch.
    unfold calls_in. rewrite Hsteps. exact H2.
  Qed.
End execution.
