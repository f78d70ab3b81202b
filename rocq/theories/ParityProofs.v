(** * ParityProofs: trace addresses and the parity trace list *)

From Verif Require Export TreeProofs SpecTraces Walker.

Lemma position_lookup l : NoDup l -> forall k c, l !! k = Some c -> position (fun x => x =? c) l = Some k.
Proof.
  induction 1 as [|x l Hni Hnd IH]; intros k c Hk; [done|]. cbn [position]. destruct k as [|k]; cbn in Hk.
  - injection Hk as ->. by rewrite Nat.eqb_refl.
  - destruct (Nat.eqb_spec x c) as [->|]; [exfalso; apply Hni; by eapply elem_of_list_lookup_2|].
    by rewrite (IH _ _ Hk).
Qed.

Section addresses.
  Context (ns : list CallTraceNode) (Hinv : tree_inv ns).
  Let Ht : arena_tree ns := inv_tree _ Hinv.

  Lemma trace_address_loop_follow a : forall i n fuel g, follow ns 0 a = Some i -> ns !! i = Some n -> length a < fuel ->
    trace_address_loop fuel ns n g = Ok (g ++ rev a).
  Proof.
    induction a as [|k a IH] using rev_ind; intros i n fuel g Ha Hn Hf; (destruct fuel as [|fuel]; [lia|]); cbn [trace_address_loop].
    - injection Ha as <-. destruct (at_root _ Ht) as (r & Hr & Hp & _). rewrite Hn in Hr. injection Hr as <-.
      rewrite Hp. cbn. by rewrite app_nil_r.
    - apply follow_snoc in Ha as (p & pn & Hp & Hpn & Hc).
      destruct (child_lookup _ Ht _ _ _ _ Hpn Hc) as (n' & Hn' & Hpar & _). rewrite Hn in Hn'. injection Hn' as <-.
      rewrite Hpar. unfold index. rewrite Hpn. cbn [rbind]. rewrite (at_idx _ Ht _ _ Hn).
      rewrite (position_lookup _ (children_nodup _ Ht _ _ Hpn) _ _ Hc). cbn [expect rbind].
      rewrite app_length in Hf. cbn in Hf. rewrite (IH p pn) by (done || lia). rewrite rev_app_distr. cbn.
      by rewrite <-app_assoc.
  Qed.

  Lemma trace_address_follow a i : follow ns 0 a = Some i -> trace_address ns i = Ok a.
  Proof.
    intros Ha. destruct (follow_info _ Ht _ _ Ha) as (n & Hn & _ & Hle & Hor). unfold trace_address.
    destruct (Nat.eqb_spec i 0) as [->|Hne]; [by rewrite (follow_root _ Ht _ Ha)|].
    destruct Hor as [?|Hpre]; [done|]. unfold index. rewrite Hn. cbn [rbind]. rewrite Hpre.
    pose proof (lookup_lt_Some _ _ _ Hn). rewrite (trace_address_loop_follow a i n) by (done || lia). cbn [rbind app].
    by rewrite rev_involutive.
  Qed.

  Lemma shown_flag n : nd_is_precompile n = false -> flag n = false.
  Proof. unfold flag. by destruct (nd_parent n). Qed.

  Lemma shown_follow i n : ns !! i = Some n -> nd_is_precompile n = false -> exists a, follow ns 0 a = Some i.
  Proof. intros Hn Hp. eapply (follow_exists _ Ht (inv_shown _ Hinv)); [done|by apply shown_flag]. Qed.

  Definition addr (i : nat) : list nat := match trace_address ns i with Ok a => a | _ => [] end.

  Lemma trace_address_ok i : i < length ns -> trace_address ns i = Ok (addr i).
  Proof.
    intros Hi. unfold addr. destruct (lookup_lt_is_Some_2 ns i Hi) as [n Hn].
    destruct (nd_is_precompile n) eqn:Hpre.
    - unfold trace_address. destruct (i =? 0); [done|]. unfold index. rewrite Hn. cbn [rbind]. by rewrite Hpre.
    - destruct (shown_follow _ _ Hn Hpre) as [a Ha]. by rewrite (trace_address_follow _ _ Ha).
  Qed.

  Lemma addr_follow i n : ns !! i = Some n -> nd_is_precompile n = false -> follow ns 0 (addr i) = Some i.
  Proof.
    intros Hn Hpre. destruct (shown_follow _ _ Hn Hpre) as [a Ha]. unfold addr. by rewrite (trace_address_follow _ _ Ha).
  Qed.

  Definition shown : list CallTraceNode := iter_traceable_nodes ns.
  Lemma shown_In n : In n shown <-> exists i, ns !! i = Some n /\ nd_idx n = i /\ nd_is_precompile n = false.
  Proof.
    unfold shown, iter_traceable_nodes. rewrite filter_In, <-elem_of_list_In, elem_of_list_lookup. split.
    - intros [(i & Hi) Hp]. exists i. split_and!; [done|by apply (at_idx _ Ht)|]. by apply negb_true_iff.
    - intros (i & Hi & _ & Hp). split; [eauto|]. by rewrite Hp.
  Qed.
  Lemma shown_idx_sorted : StronglySorted lt (map nd_idx shown).
  Proof.
    unfold shown, iter_traceable_nodes.
    assert (H : forall l base, (forall k n, l !! k = Some n -> nd_idx n = base + k) ->
              StronglySorted lt (map nd_idx (List.filter (fun n => negb (nd_is_precompile n)) l)) /\
              forall n, In n l -> base <= nd_idx n).
    { induction l as [|x l IH]; intros base Hl; [split; [constructor|done]|].
      destruct (IH (S base)) as [H1 H2].
      { intros k n Hk. rewrite (Hl (S k) n Hk). lia. }
      assert (Hx : nd_idx x = base) by (rewrite (Hl 0 x eq_refl); lia). split.
      - cbn [List.filter]. destruct (negb _); [|done]. cbn [map]. constructor; [done|].
        apply Forall_forall. intros j Hj. apply elem_of_list_In, in_map_iff in Hj as (n & <- & Hn).
        apply filter_In in Hn as [Hn _]. specialize (H2 _ Hn). lia.
      - intros n [->|Hn]; [lia|]. specialize (H2 _ Hn). lia. }
    apply (H ns 0). intros k n Hk. by apply (at_idx _ Ht).
  Qed.

  (** The trace list, node by node. *)
  Definition node_items (n : CallTraceNode) : list TransactionTrace := trace_iter_items (n, addr (nd_idx n)).
  Definition parity_list : list TransactionTrace := flat_map node_items shown.

  Lemma trace_addresses_ok : trace_addresses ns = Ok (map addr (seq 0 (length ns))).
  Proof.
    unfold trace_addresses. assert (H : Forall (fun i => i < length ns) (seq 0 (length ns))).
    { apply Forall_forall. intros i Hi. apply elem_of_seq in Hi. lia. }
    induction H as [|i l Hi Hl IH]; [done|]. cbn [rmapM map]. rewrite trace_address_ok by done. cbn [rbind]. by rewrite IH.
  Qed.

  Lemma into_transaction_traces_ok : into_transaction_traces ns = Ok parity_list.
  Proof.
    unfold into_transaction_traces. rewrite trace_addresses_ok. cbn [rbind]. f_equal. unfold parity_list, shown, iter_traceable_nodes.
    assert (Hz : zip ns (map addr (seq 0 (length ns))) = map (fun n => (n, addr (nd_idx n))) ns).
    { assert (H : forall l base, (forall k n, l !! k = Some n -> nd_idx n = base + k) ->
         zip l (map addr (seq base (length l))) = map (fun n => (n, addr (nd_idx n))) l).
      { induction l as [|x l IH]; intros base Hl; [done|]. cbn. f_equal.
        - rewrite (Hl 0 x eq_refl). by rewrite Nat.add_0_r.
        - apply IH. intros k n Hk. rewrite (Hl (S k) n Hk). lia. }
      apply H. intros k n Hk. by apply (at_idx _ Ht). }
    rewrite Hz. clear. induction ns as [|n l IH]; [done|]. cbn [map List.filter fst].
    destruct (negb (nd_is_precompile n)); [|done]. cbn [flat_map]. by rewrite IH.
  Qed.

  Lemma type_traces_ok : type_traces ns true = Ok (Some parity_list).
  Proof.
    unfold type_traces, parity_list. fold shown.
    assert (H : forall l acc, (forall n, In n l -> nd_idx n < length ns) ->
              rfold (type_traces_step ns) acc l = Ok (acc ++ flat_map node_items l)).
    { induction l as [|n l IH]; intros acc Hl; cbn [rfold flat_map]; [by rewrite app_nil_r|].
      unfold type_traces_step at 1. rewrite trace_address_ok by (apply Hl; by left). cbn [rbind].
      match goal with |- rbind ?m _ = _ => assert (E : m = Ok (acc ++ node_items n)); [|rewrite E; cbn [rbind]] end.
      { unfold node_items, trace_iter_items. destruct (nd_is_selfdestruct n); [|done].
        rewrite last_snoc. cbn [expect rbind]. rewrite removelast_last. by rewrite <-app_assoc. }
      rewrite IH by (intros; apply Hl; by right). by rewrite <-app_assoc. }
    rewrite H; [done|]. intros n Hn. apply shown_In in Hn as (i & Hi & -> & _). by eapply lookup_lt_Some.
  Qed.

  Lemma type_traces_off : type_traces ns false = Ok None.
  Proof.
    unfold type_traces. fold shown.
    assert (H : forall l acc, (forall n, In n l -> nd_idx n < length ns) ->
              rfold (type_traces_skip ns) acc l = Ok acc).
    { induction l as [|n l IH]; intros acc Hl; cbn [rfold]; [done|].
      unfold type_traces_skip at 1. rewrite trace_address_ok by (apply Hl; by left). cbn [rbind].
      apply IH. intros; apply Hl; by right. }
    rewrite H; [done|]. intros n Hn. apply shown_In in Hn as (i & Hi & -> & _). by eapply lookup_lt_Some.
  Qed.

  (** *** Which addresses occur *)

  Definition item_addresses (n : CallTraceNode) : list (list nat) := map tt_address (node_items n).
  Lemma item_addresses_eq n : item_addresses n =
    addr (nd_idx n) :: if nd_is_selfdestruct n then [addr (nd_idx n) ++ [length (nd_children n)]] else [].
  Proof.
    unfold item_addresses, node_items, trace_iter_items. destruct (nd_is_selfdestruct n) eqn:E; [|done].
    unfold parity_selfdestruct_trace, parity_selfdestruct_action. by rewrite E.
  Qed.

  (** The node an address belongs to. *)
  Definition owns (b : list nat) (i : nat) : Prop :=
    follow ns 0 b = Some i \/ (follow ns 0 b = None /\ exists a k, b = a ++ [k] /\ follow ns 0 a = Some i).
  Lemma owns_fun b i j : owns b i -> owns b j -> i = j.
  Proof.
    intros [H1|(H1 & a & k & -> & Ha)] [H2|(H2 & a' & k' & Heq & Ha')]; try congruence.
    apply app_inj_tail in Heq as [-> _]. congruence.
  Qed.
  Lemma sd_address_none i n : ns !! i = Some n -> nd_is_precompile n = false ->
    follow ns 0 (addr i ++ [length (nd_children n)]) = None.
  Proof.
    intros Hn Hp. rewrite follow_app, (addr_follow _ _ Hn Hp). cbn. rewrite Hn.
    rewrite (proj2 (lookup_ge_None _ _)) by done. done.
  Qed.
  Lemma item_owner n b : In n shown -> In b (item_addresses n) -> owns b (nd_idx n).
  Proof.
    intros Hn. apply shown_In in Hn as (i & Hi & <- & Hp). rewrite item_addresses_eq. intros [<-|Hb].
    - left. by eapply addr_follow.
    - destruct (nd_is_selfdestruct n); [|done]. destruct Hb as [<-|[]]. right. split; [by apply sd_address_none|].
      do 2 eexists. split; [done|]. by eapply addr_follow.
  Qed.

  Lemma parity_addresses : map tt_address parity_list = flat_map item_addresses shown.
  Proof.
    unfold parity_list. induction shown as [|n l IH]; [done|]. cbn [flat_map]. by rewrite map_app, IH.
  Qed.

  Lemma parity_addresses_nodup : NoDup (map tt_address parity_list).
  Proof.
    rewrite parity_addresses. pose proof (StronglySorted_lt_NoDup _ shown_idx_sorted) as Hnd.
    pose proof item_owner as Ho. revert Hnd Ho. generalize shown. induction l as [|n l IH]; intros Hnd Ho; [constructor|].
    cbn [flat_map map] in *. apply NoDup_cons in Hnd as [Hni Hnd]. apply NoDup_app. split_and!.
    - rewrite item_addresses_eq. destruct (nd_is_selfdestruct n); [|apply NoDup_singleton].
      apply NoDup_cons. split; [|apply NoDup_singleton]. intros Hin. apply elem_of_list_singleton in Hin.
      apply (f_equal length) in Hin. rewrite app_length in Hin. cbn in Hin. lia.
    - intros b Hb Hb'. apply elem_of_list_In in Hb, Hb'. apply in_flat_map in Hb' as (m & Hm & Hb').
      apply Hni. apply elem_of_list_In. rewrite (owns_fun b (nd_idx n) (nd_idx m)).
      + by apply in_map.
      + apply Ho; [by left|done].
      + apply Ho; [by right|done].
    - apply IH; [done|]. intros m b Hm. apply Ho. by right.
  Qed.

  Lemma parity_address_iff b : In b (map tt_address parity_list) <->
    exists i n, ns !! i = Some n /\ nd_is_precompile n = false /\
      (follow ns 0 b = Some i \/
       nd_is_selfdestruct n = true /\ exists a, follow ns 0 a = Some i /\ b = a ++ [length (nd_children n)]).
  Proof.
    rewrite parity_addresses, in_flat_map. split.
    - intros (n & Hn & Hb). apply shown_In in Hn as (i & Hi & Hx & Hp). subst i. exists (nd_idx n), n. split_and!; [done|done|].
      rewrite item_addresses_eq in Hb. destruct Hb as [<-|Hb]; [left; by eapply addr_follow|].
      destruct (nd_is_selfdestruct n); [|done]. destruct Hb as [<-|[]]. right. split; [done|].
      eexists. split; [by eapply addr_follow|done].
    - intros (i & n & Hi & Hp & Hor). exists n. split; [apply shown_In; exists i; split_and!; [done|by apply (at_idx _ Ht)|done]|].
      rewrite item_addresses_eq, (at_idx _ Ht _ _ Hi). pose proof (addr_follow _ _ Hi Hp) as Ha.
      destruct Hor as [Hb|(Hsd & a & Ha' & ->)].
      + left. by eapply (follow_inj _ Ht).
      + rewrite Hsd. right. left. by rewrite (follow_inj _ Ht _ _ _ Ha Ha').
  Qed.

  (** *** Subtraces *)
  Lemma extends_iff a b : extends_by_one a b = true <-> exists k, b = a ++ [k].
  Proof.
    unfold extends_by_one. rewrite andb_true_iff, bool_decide_eq_true, Nat.eqb_eq. split.
    - intros [H1 H2]. destruct (drop (length a) b) as [|k [|? ?]] eqn:E.
      + apply (f_equal length) in E. rewrite drop_length in E. cbn in E. lia.
      + exists k. rewrite <-(take_drop (length a) b), H1, E. done.
      + apply (f_equal length) in E. rewrite drop_length in E. cbn in E. lia.
    - intros (k & ->). rewrite take_app, app_length. cbn. split; [done|lia].
  Qed.

  Lemma count_extensions (m : nat) (l : list (list nat)) a :
    NoDup l -> (forall k, In (a ++ [k]) l <-> k < m) -> length (List.filter (extends_by_one a) l) = m.
  Proof.
    intros Hnd Hl. transitivity (length (map (fun k => a ++ [k]) (seq 0 m))); [|by rewrite map_length, seq_length].
    apply Permutation_length. apply NoDup_Permutation.
    - induction Hnd as [|x l Hni Hnd IH]; cbn; [constructor|].
      assert (H : NoDup (List.filter (extends_by_one a) l)).
      { clear -Hnd. induction Hnd as [|y l Hni Hnd IH]; cbn; [constructor|]. destruct (extends_by_one a y); [|done].
        constructor; [|done]. intros Hin. apply Hni. apply elem_of_list_In, filter_In in Hin as [Hin _]. by apply elem_of_list_In. }
      destruct (extends_by_one a x); [|done]. constructor; [|done]. intros Hin. apply Hni.
      apply elem_of_list_In, filter_In in Hin as [Hin _]. by apply elem_of_list_In.
    - apply (NoDup_fmap_2_strong (fun k => a ++ [k])); [|apply NoDup_seq]. intros x y _ _ Heq. by apply app_inj_tail in Heq as [_ ->].
    - intros b. rewrite !elem_of_list_In, filter_In, extends_iff, in_map_iff. split.
      + intros [Hin (k & ->)]. exists k. split; [done|]. apply in_seq. apply Hl in Hin. lia.
      + intros (k & <- & Hk). apply in_seq in Hk. split; [apply Hl; lia|eauto].
  Qed.

  Lemma filter_map_length {A} (f : A -> list nat) p (l : list A) :
    length (List.filter (fun x => p (f x)) l) = length (List.filter p (map f l)).
  Proof. induction l as [|x l IH]; [done|]. cbn. destruct (p (f x)); cbn; by rewrite IH. Qed.

  Lemma parity_subtraces e : In e parity_list ->
    length (List.filter (fun e' => extends_by_one (tt_address e) (tt_address e')) parity_list) = tt_subtraces e.
  Proof.
    intros He. rewrite filter_map_length. apply count_extensions; [apply parity_addresses_nodup|].
    intros k. rewrite parity_address_iff. unfold parity_list in He. apply in_flat_map in He as (n & Hn & He).
    apply shown_In in Hn as (i & Hi & Hidx & Hp). pose proof (addr_follow _ _ Hi Hp) as Ha.
    unfold node_items, trace_iter_items in He. rewrite Hidx in He.
    assert (Hnode : forall sub, (sub = length (nd_children n) + if nd_is_selfdestruct n then 1 else 0) ->
      (exists i0 n0, ns !! i0 = Some n0 /\ nd_is_precompile n0 = false /\
        (follow ns 0 (addr i ++ [k]) = Some i0 \/ nd_is_selfdestruct n0 = true /\
          exists a, follow ns 0 a = Some i0 /\ addr i ++ [k] = a ++ [length (nd_children n0)])) <-> k < sub).
    { intros sub ->. split.
      - intros (j & m & Hj & Hpj & [Hf|(Hsd & a & Haj & Heq)]).
        + apply follow_snoc in Hf as (p & pn & Hf & Hpn & Hc). rewrite Ha in Hf. injection Hf as <-.
          rewrite Hi in Hpn. injection Hpn as <-. apply lookup_lt_Some in Hc. lia.
        + apply app_inj_tail in Heq as [<- ->]. rewrite Ha in Haj. injection Haj as <-. rewrite Hi in Hj. injection Hj as <-.
          rewrite Hsd. lia.
      - intros Hk. destruct (decide (k < length (nd_children n))) as [Hlt|Hge].
        + destruct (lookup_lt_is_Some_2 _ _ Hlt) as [c Hc].
          destruct (child_lookup _ Ht _ _ _ _ Hi Hc) as (m & Hm & _ & Hpm & _).
          exists c, m. split_and!; [done|done|]. left. apply follow_snoc. eauto.
        + destruct (nd_is_selfdestruct n) eqn:Hsd; [|lia]. exists i, n. split_and!; [done|done|]. right. split; [done|].
          exists (addr i). split; [done|]. do 2 f_equal. lia. }
    destruct (nd_is_selfdestruct n) eqn:Hsd.
    - unfold parity_selfdestruct_trace, parity_selfdestruct_action in He. rewrite Hsd in He. cbn in He.
      destruct He as [<-|[<-|[]]]; cbn [tt_inc_subtraces tt_address tt_subtraces parity_transaction_trace].
      + by apply Hnode.
      + split; [|lia]. intros (j & m & Hj & Hpj & [Hf|(_ & a & Haj & Heq)]).
        * apply follow_snoc in Hf as (p & pn & Hf & _). by rewrite (sd_address_none _ _ Hi Hp) in Hf.
        * apply app_inj_tail in Heq as [<- _]. by rewrite (sd_address_none _ _ Hi Hp) in Haj.
    - destruct He as [<-|[]]. cbn. apply Hnode. lia.
  Qed.

  (** *** Order *)
  Lemma shown_sorted : StronglySorted lex_lt (map (fun n => addr (nd_idx n)) shown).
  Proof.
    pose proof shown_idx_sorted as Hs. pose proof shown_In as Hin. revert Hs Hin. generalize shown.
    assert (H : forall l, StronglySorted lt (map nd_idx l) ->
      (forall n, In n l -> exists i, ns !! i = Some n /\ nd_idx n = i /\ nd_is_precompile n = false) ->
      StronglySorted lex_lt (map (fun n => addr (nd_idx n)) l)).
    { induction l as [|n l IH]; intros Hs Hl; cbn [map] in *; [constructor|].
      inversion_clear Hs as [|? ? Hs' Hall]. constructor; [apply IH; [done|intros; apply Hl; by right]|].
      apply Forall_forall. intros b Hb. apply elem_of_list_In, in_map_iff in Hb as (m & <- & Hm).
      destruct (Hl n (or_introl eq_refl)) as (i & Hi & <- & Hpi).
      destruct (Hl m (or_intror Hm)) as (j & Hj & <- & Hpj).
      rewrite Forall_forall in Hall. eapply (inv_ordered _ Hinv); [by eapply addr_follow|by eapply addr_follow|].
      apply Hall. apply elem_of_list_In. by apply in_map. }
    intros l Hs Hl. apply H; [done|]. intros n Hn. by apply Hl.
  Qed.
End addresses.

(** ** Breadth-first walk *)

Section walk.
  Context (ns : list CallTraceNode) (Ht : arena_tree ns).

  Definition kids (i : nat) : list nat := match ns !! i with Some n => nd_children n | None => [] end.
  Definition kids_of (q : list nat) : list nat := flat_map kids q.
  (** [m] further levels starting from [q]. *)
  Fixpoint waves (m : nat) (q : list nat) : list nat := match m with O => [] | S m => q ++ waves m (kids_of q) end.
  Definition nodes_at (q : list nat) : list CallTraceNode := omap (fun i => ns !! i) q.

  Lemma level_waves m : forall k, concat (map (level ns) (seq k m)) = waves m (level ns k).
  Proof. induction m as [|m IH]; intros k; [done|]. cbn [seq map concat waves]. f_equal. by rewrite IH. Qed.

  Definition valid (q : list nat) : Prop := Forall (fun i => i < length ns) q.
  Lemma kids_valid q : valid (kids_of q).
  Proof.
    apply Forall_forall. intros c Hc. apply elem_of_list_In, in_flat_map in Hc as (i & _ & Hc). unfold kids in Hc.
    destruct (ns !! i) as [n|] eqn:E; [|done]. destruct (child_info _ Ht _ _ _ E Hc) as (m & Hm & _). by eapply lookup_lt_Some.
  Qed.

  Lemma walk_front q1 : forall fuel q2, valid q1 ->
    walker_collect (length q1 + fuel) ns (q1 ++ q2) =
    rmap (app (nodes_at q1)) (walker_collect fuel ns (q2 ++ kids_of q1)).
  Proof.
    induction q1 as [|i q1 IH]; intros fuel q2 Hv.
    - cbn [length app Nat.add kids_of flat_map nodes_at omap list_omap]. rewrite app_nil_r. by destruct (walker_collect _ _ _).
    - inversion_clear Hv as [|? ? Hi Hv']. destruct (lookup_lt_is_Some_2 _ _ Hi) as [n Hn].
      cbn [length Nat.add app walker_collect walker_next]. unfold index. rewrite Hn. cbn [rbind].
      rewrite <-app_assoc, IH by done. cbn [kids_of flat_map]. fold (kids_of q1). unfold kids. rewrite Hn, <-app_assoc.
      unfold nodes_at. cbn [omap list_omap]. rewrite Hn. by destruct (walker_collect fuel ns _).
  Qed.

  Lemma walk_waves m : forall q, valid q -> waves m q ++ [] = waves m q -> 
    (forall x, In x (Nat.iter m kids_of q) -> False) ->
    forall fuel, length (waves m q) < fuel -> walker_collect fuel ns q = Ok (nodes_at (waves m q)).
  Proof.
    induction m as [|m IH]; intros q Hv _ Hend fuel Hf.
    - cbn in Hend. destruct q as [|x q]; [|exfalso; apply (Hend x); by left]. destruct fuel; [cbn in Hf; lia|done].
    - cbn [waves] in *. rewrite app_length in Hf. pose proof (walk_front q (fuel - length q) [] Hv) as H.
      rewrite app_nil_r in H. replace (length q + (fuel - length q)) with fuel in H by lia. rewrite H. cbn [app].
      rewrite IH.
      + cbn [rmap rbind]. unfold nodes_at. by rewrite omap_app.
      + apply kids_valid.
      + by rewrite app_nil_r.
      + intros x Hx. apply (Hend x). by rewrite Nat.iter_succ_r.
      + lia.
  Qed.

  Lemma level_iter k : level ns k = Nat.iter k kids_of [0].
  Proof. induction k as [|k IH]; [done|]. cbn [level Nat.iter]. fold (kids_of (level ns k)). by rewrite IH. Qed.

  (** An element of level [k] is reached by a path of length [k]. *)
  Lemma level_follow k : forall i, In i (level ns k) <-> exists a, length a = k /\ follow ns 0 a = Some i.
  Proof.
    induction k as [|k IH]; intros i; cbn [level].
    - split.
      + intros [<-|[]]. by exists [].
      + intros (a & Ha & Hf). destruct a; [|done]. injection Hf as <-. by left.
    - rewrite in_flat_map. split.
      + intros (p & Hp & Hi). destruct (ns !! p) as [pn|] eqn:E; [|done]. apply IH in Hp as (a & Ha & Hf).
        apply elem_of_list_In, elem_of_list_lookup in Hi as (x & Hx). exists (a ++ [x]). rewrite app_length. cbn.
        split; [lia|]. apply follow_snoc. eauto.
      + intros (a & Ha & Hf). destruct a as [|x a _] using rev_ind; [done|]. rewrite app_length in Ha. cbn in Ha.
        apply follow_snoc in Hf as (p & pn & Hp & Hpn & Hc). exists p. rewrite Hpn. split.
        * apply IH. exists a. split; [lia|done].
        * apply elem_of_list_In. by eapply elem_of_list_lookup_2.
  Qed.

  Lemma kids_nodup_disjoint l : NoDup l -> NoDup (kids_of l).
  Proof.
    induction 1 as [|i l Hni Hnd IH]; [constructor|]. cbn. apply NoDup_app. split_and!.
    - unfold kids. destruct (ns !! i) as [n|] eqn:E; [|constructor]. by eapply children_nodup.
    - intros c Hc Hc'. apply elem_of_list_In in Hc, Hc'. apply in_flat_map in Hc' as (j & Hj & Hc').
      unfold kids in Hc, Hc'. destruct (ns !! i) as [n|] eqn:Ei; [|done]. destruct (ns !! j) as [m|] eqn:Ej; [|done].
      destruct (child_info _ Ht _ _ _ Ei Hc) as (x & Hx & Hpx & _). destruct (child_info _ Ht _ _ _ Ej Hc') as (y & Hy & Hpy & _).
      assert (i = j) as -> by congruence. apply Hni. by apply elem_of_list_In.
    - done.
  Qed.
  Lemma level_nodup k : NoDup (level ns k).
  Proof. induction k as [|k IH]; [apply NoDup_singleton|]. cbn [level]. by apply kids_nodup_disjoint. Qed.

  Lemma levels_nodup m : forall k, NoDup (concat (map (level ns) (seq k m))).
  Proof.
    induction m as [|m IH]; intros k; [constructor|]. cbn [seq map concat]. apply NoDup_app. split_and!.
    - apply level_nodup.
    - intros i Hi Hc. apply elem_of_list_In in Hi, Hc. apply in_concat in Hc as (l & Hl & Hi').
      apply in_map_iff in Hl as (k' & <- & Hk'). apply in_seq in Hk'. apply level_follow in Hi as (a & Ha & Hf).
      apply level_follow in Hi' as (b & Hb & Hf'). rewrite (follow_inj _ Ht _ _ _ Hf Hf') in Ha. lia.
    - apply IH.
  Qed.

  Lemma levels_length m k : length (concat (map (level ns) (seq k m))) <= length ns.
  Proof.
    rewrite <-(seq_length (length ns) 0). apply submseteq_length. apply NoDup_submseteq; [apply levels_nodup|].
    intros i Hi. apply elem_of_list_In, in_concat in Hi as (l & Hl & Hi). apply in_map_iff in Hl as (k' & <- & _).
    apply level_follow in Hi as (a & _ & Hf). destruct (follow_info _ Ht _ _ Hf) as (n & Hn & _). apply elem_of_seq.
    apply lookup_lt_Some in Hn. lia.
  Qed.

  Lemma walk_levels : walk_bf ns = Ok (nodes_at (concat (map (level ns) (seq 0 (length ns))))).
  Proof.
    unfold walk_bf. rewrite level_waves. cbn [level]. apply walk_waves.
    - constructor; [|constructor]. destruct (at_root _ Ht) as (r & Hr & _). by eapply lookup_lt_Some.
    - apply app_nil_r.
    - intros x Hx. rewrite <-level_iter in Hx. apply level_follow in Hx as (a & Ha & Hf).
      destruct (follow_info _ Ht _ _ Hf) as (n & Hn & _ & Hle & _). apply lookup_lt_Some in Hn. lia.
    - pose proof (levels_length (length ns) 0) as H. rewrite level_waves in H. cbn [level] in H. lia.
  Qed.
End walk.
