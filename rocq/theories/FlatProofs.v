(** * FlatProofs: the blocks of the flat list of parity traces *)

From Verif Require Export ParityProofs SpecFlat.

(** ** The lexicographic order *)
Lemma lex_irrefl_prefix a r : ~ lex_lt (a ++ r) a.
Proof. induction a as [|x a IH]; cbn; intros H; inversion H; subst; [lia|by apply IH]. Qed.
Lemma lex_between a b d : lex_lt a b -> lex_lt b d -> a `prefix_of` d -> a `prefix_of` b.
Proof.
  intros H1 H2 (r & ->). revert b H1 H2. induction a as [|x a IH]; intros b H1 H2; [apply prefix_nil|].
  inversion H1 as [|? y ? m Hxy|? ? m H1']; subst.
  - cbn in H2. inversion H2; subst; lia.
  - cbn in H2. inversion H2; subst; [lia|]. apply prefix_cons. by apply IH.
Qed.

Lemma sorted_filter_lookup {A B} (R : B -> B -> Prop) (f : A -> B) p (l : list A) : StronglySorted R (map f (List.filter p l)) ->
  forall j k x y, j < k -> l !! j = Some x -> l !! k = Some y -> p x = true -> p y = true -> R (f x) (f y).
Proof.
  induction l as [|z l IH]; intros Hs j k x y Hjk Hx Hy Px Py; [done|]. cbn [List.filter] in Hs.
  destruct k as [|k]; [lia|]. destruct j as [|j].
  - cbn in Hx. injection Hx as ->. rewrite Px in Hs. cbn [map] in Hs. inversion Hs as [|? ? _ Hall]. subst. rewrite Forall_forall in Hall.
    apply Hall, elem_of_list_In, in_map, filter_In. split; [|done]. apply elem_of_list_In. by eapply elem_of_list_lookup_2.
  - apply (IH ltac:(destruct (p z); [by inversion Hs|done]) j k); [lia|done..].
Qed.

Lemma filter_take_lookup {A} p (l : list A) k x : l !! k = Some x -> p x = true ->
  List.filter p l !! length (List.filter p (take k l)) = Some x.
Proof.
  revert k. induction l as [|z l IH]; intros k Hk Px; [done|]. destruct k as [|k].
  - cbn in Hk. injection Hk as ->. cbn. by rewrite Px.
  - cbn [take List.filter]. destruct (p z); cbn; by apply IH.
Qed.

(** A set of numbers below a bound that contains with each number the smaller ones from [k] on. *)
Lemma block (P : nat -> Prop) k N : (forall m, P m \/ ~ P m) -> P k -> k < N -> (forall m, P m -> k <= m < N) ->
  (forall m m', k <= m <= m' -> P m' -> P m) -> exists c, 0 < c /\ forall m, P m <-> k <= m < k + c.
Proof.
  intros Hdec Hk HN Hr Hd.
  assert (H : forall c, c <= N - k -> (forall m, k <= m < k + c -> P m) \/ exists c', 0 < c' /\ forall m, P m <-> k <= m < k + c').
  { induction c as [|c IH]; intros Hc; [left; intros m Hm; lia|]. destruct (IH ltac:(lia)) as [Hall|?]; [|by right].
    destruct (Hdec (k + c)) as [Hp|Hn].
    - left. intros m Hm. destruct (decide (m = k + c)) as [->|]; [done|]. apply Hall. lia.
    - right. exists c. assert (c <> 0) by (intros ->; by rewrite Nat.add_0_r in Hn). split; [lia|]. intros m. split; [|by apply Hall].
      intros Hm. pose proof (Hr _ Hm). destruct (decide (m < k + c)); [lia|]. exfalso. apply Hn. apply (Hd _ m); [lia|done]. }
  destruct (H (N - k) ltac:(lia)) as [Hall|?]; [|done]. exists (N - k). split; [lia|]. intros m. split; [|apply Hall].
  intros Hm. pose proof (Hr _ Hm). lia.
Qed.

Section flat.
  Context (ns : list CallTraceNode) (Hinv : tree_inv ns).
  Let Ht : arena_tree ns := inv_tree _ Hinv.
  Context (l : list TransactionTrace) (Hl : l = parity_list ns).
  Context (Hsorted : StronglySorted lex_lt (map tt_address (List.filter is_call_entry l))).
  Context (Hsd : forall k e, l !! k = Some e -> is_call_entry e = false ->
     exists k' e' c, k = S k' /\ l !! k' = Some e' /\ is_call_entry e' = true /\ tt_address e = tt_address e' ++ [c]).
  Context (Hlocate : Forall2 (fun n e => ns !! nd_idx n = Some n /\ follow ns 0 (tt_address e) = Some (nd_idx n) /\
                      length (tt_address e) = tr_depth (nd_trace n))
    (List.filter (fun n => negb (nd_is_precompile n)) ns) (List.filter is_call_entry l)).

  Lemma flat_unique j k ej ek : l !! j = Some ej -> l !! k = Some ek -> tt_address ej = tt_address ek -> j = k.
  Proof.
    intros Hj Hk E. assert (Hnd : NoDup (map tt_address l)) by (rewrite Hl; by apply parity_addresses_nodup).
    rewrite NoDup_alt in Hnd. apply (Hnd j k (tt_address ej)); rewrite list_lookup_fmap; [by rewrite Hj|rewrite Hk, E; done].
  Qed.

  Lemma flat_call k e : l !! k = Some e -> is_call_entry e = true ->
    exists i n, ns !! i = Some n /\ nd_is_precompile n = false /\ follow ns 0 (tt_address e) = Some i /\ shows_call ns l k i.
  Proof.
    intros Hk Hc. pose proof (filter_take_lookup is_call_entry l k e Hk Hc) as Hf.
    destruct (Forall2_lookup_r _ _ _ _ _ Hlocate Hf) as (n & Hn & Hi & Hfol & _).
    assert (Hp : nd_is_precompile n = false).
    { apply elem_of_list_lookup_2, elem_of_list_In, filter_In in Hn as [_ Hn]. by apply negb_true_iff. }
    exists (nd_idx n), n. split_and!; [done..|]. exists e, n. split_and!; [done..|].
    pose proof (filter_take_lookup (fun m => negb (nd_is_precompile m)) ns (nd_idx n) n Hi) as Hf2. cbn beta in Hf2. rewrite Hp in Hf2. specialize (Hf2 eq_refl).
    assert (Hnd : NoDup (List.filter (fun m => negb (nd_is_precompile m)) ns)).
    { apply (NoDup_fmap_1 nd_idx). apply StronglySorted_lt_NoDup. exact (shown_idx_sorted ns Hinv). }
    rewrite NoDup_alt in Hnd. by apply (Hnd _ _ n).
  Qed.

  Lemma flat_shows k i : shows_call ns l k i -> exists e n, l !! k = Some e /\ is_call_entry e = true /\ ns !! i = Some n /\
    nd_is_precompile n = false /\ follow ns 0 (tt_address e) = Some i.
  Proof.
    intros (e & n & Hk & Hc & Hi & Hp & Hlen). pose proof (filter_take_lookup is_call_entry l k e Hk Hc) as Hf.
    pose proof (filter_take_lookup (fun m => negb (nd_is_precompile m)) ns i n Hi) as Hf2. cbn beta in Hf2. rewrite Hp in Hf2. specialize (Hf2 eq_refl).
    rewrite Hlen in Hf. destruct (Forall2_lookup_lr _ _ _ _ _ _ Hlocate Hf2 Hf) as (_ & Hfol & _). rewrite (at_idx _ Ht _ _ Hi) in Hfol.
    exists e, n. split_and!; done.
  Qed.

  Lemma flat_none k e : l !! k = Some e -> is_call_entry e = false -> follow ns 0 (tt_address e) = None.
  Proof.
    intros Hk Hc. destruct (follow ns 0 (tt_address e)) as [i|] eqn:E; [|done]. exfalso.
    (* the entry of that node would have the same address *)
    destruct (Hsd _ _ Hk Hc) as (k' & e' & c & -> & Hk' & Hc' & Ha).
    assert (Hi : exists n, ns !! i = Some n /\ nd_is_precompile n = false).
    { destruct (follow_info _ Ht _ _ E) as (n & Hn & Hd & _ & [->|Hp]); [|eauto].
      pose proof (follow_root _ Ht _ E) as Hnil. rewrite Ha in Hnil. by destruct (tt_address e'). }
    destruct Hi as (n & Hn & Hp).
    pose proof (filter_take_lookup (fun m => negb (nd_is_precompile m)) ns i n Hn) as Hf2. cbn beta in Hf2. rewrite Hp in Hf2. specialize (Hf2 eq_refl).
    destruct (Forall2_lookup_l _ _ _ _ _ Hlocate Hf2) as (e2 & He2 & _ & Hfol2 & _). rewrite (at_idx _ Ht _ _ Hn) in Hfol2.
    pose proof (follow_inj _ Ht _ _ _ E Hfol2) as Heq.
    apply elem_of_list_lookup_2, elem_of_list_In, filter_In in He2 as [He2 Hc2]. apply elem_of_list_In, elem_of_list_lookup in He2 as (k2 & Hk2).
    pose proof (flat_unique _ _ _ _ Hk Hk2 Heq) as <-. rewrite Hk in Hk2. injection Hk2 as ->. congruence.
  Qed.

  (** ** The entries below an entry *)
  Definition below (a : list nat) (k : nat) : Prop := exists e, l !! k = Some e /\ a `prefix_of` tt_address e.
  Lemma below_dec a k : below a k \/ ~ below a k.
  Proof.
    unfold below. destruct (l !! k) as [e|]; [|right; by intros (e & ? & _)]. destruct (decide (a `prefix_of` tt_address e)); [left; eauto|].
    right. by intros (? & [= <-] & ?).
  Qed.

  Lemma below_home j ej k e : l !! j = Some ej -> is_call_entry ej = true -> l !! k = Some e -> is_call_entry e = false ->
    exists k' e', k = S k' /\ l !! k' = Some e' /\ is_call_entry e' = true /\ (tt_address ej `prefix_of` tt_address e <-> tt_address ej `prefix_of` tt_address e').
  Proof.
    intros Hj Hcj Hk Hc. destruct (Hsd _ _ Hk Hc) as (k' & e' & c & -> & Hk' & Hc' & Ha). exists k', e'. split_and!; [done..|].
    split; [|intros Hp; rewrite Ha; by apply prefix_app_r]. intros Hp. pose proof Hp as Hp0. rewrite Ha in Hp. destruct Hp as (r & Hr).
    destruct r as [|x r _] using rev_ind.
    - rewrite app_nil_r in Hr. rewrite Hr in Ha. pose proof (flat_unique _ _ _ _ Hj Hk (eq_sym Ha)) as ->. congruence.
    - rewrite app_assoc in Hr. apply app_inj_tail in Hr as [Hr _]. exists r. done.
  Qed.

  Lemma call_block j ej : l !! j = Some ej -> is_call_entry ej = true ->
    exists c, 0 < c /\ forall k, below (tt_address ej) k <-> j <= k < j + c.
  Proof.
    intros Hj Hcj. assert (Hlt : forall k e k' e', k < k' -> l !! k = Some e -> l !! k' = Some e' -> is_call_entry e = true -> is_call_entry e' = true ->
      lex_lt (tt_address e) (tt_address e')).
    { intros k e k' e' Hkk He He' Hc Hc'. exact (sorted_filter_lookup lex_lt tt_address is_call_entry l Hsorted k k' e e' Hkk He He' Hc Hc'). }
    assert (Hfirst : forall k e, l !! k = Some e -> is_call_entry e = true -> tt_address ej `prefix_of` tt_address e -> j <= k).
    { intros k e Hk Hc (r & Hr). destruct (decide (j <= k)); [done|]. exfalso. pose proof (Hlt k e j ej ltac:(lia) Hk Hj Hc Hcj) as H. rewrite Hr in H.
      by eapply lex_irrefl_prefix. }
    assert (Hdown : forall k e k' e', j <= k -> k <= k' -> l !! k = Some e -> l !! k' = Some e' -> is_call_entry e = true -> is_call_entry e' = true ->
      tt_address ej `prefix_of` tt_address e' -> tt_address ej `prefix_of` tt_address e).
    { intros k e k' e' H1 H2 He He' Hc Hc' Hp. destruct (decide (k = j)) as [->|]; [rewrite Hj in He; by injection He as ->|].
      destruct (decide (k = k')) as [->|]; [rewrite He in He'; by injection He' as ->|].
      eapply lex_between; [apply (Hlt j ej k e)|apply (Hlt k e k' e')|]; try done; lia. }
    apply (block (below (tt_address ej)) j (length l)).
    - apply below_dec.
    - exists ej. done.
    - by eapply lookup_lt_Some.
    - intros k (e & He & Hp). split; [|by eapply lookup_lt_Some]. destruct (is_call_entry e) eqn:Hc; [by eapply Hfirst|].
      destruct (below_home _ _ _ _ Hj Hcj He Hc) as (k' & e' & -> & He' & Hc' & Hiff). apply Hiff in Hp. pose proof (Hfirst _ _ He' Hc' Hp). lia.
    - intros k k' [H1 H2] (e' & He' & Hp). destruct (lookup_lt_is_Some_2 l k) as (e & He); [apply lookup_lt_Some in He'; lia|]. exists e. split; [done|].
      destruct (decide (k = k')) as [->|Hkk]; [rewrite He in He'; by injection He' as ->|].
      (* the call entries they belong to *)
      assert (exists h' eh', k <= h' /\ l !! h' = Some eh' /\ is_call_entry eh' = true /\ tt_address ej `prefix_of` tt_address eh') as (h' & eh' & Hh' & Heh' & Hch' & Hph').
      { destruct (is_call_entry e') eqn:Hc'; [exists k', e'; split_and!; done|].
        destruct (below_home _ _ _ _ Hj Hcj He' Hc') as (h' & eh' & -> & ? & ? & Hiff). exists h', eh'. split_and!; [lia|done|done|by apply Hiff]. }
      destruct (is_call_entry e) eqn:Hc; [by eapply (Hdown k e h' eh')|].
      destruct (below_home _ _ _ _ Hj Hcj He Hc) as (h & eh & -> & Heh & Hch & Hiff). apply Hiff.
      assert (j <> S h) by (intros ->; congruence). apply (Hdown h eh h' eh'); try done; lia.
  Qed.

  Lemma destruct_block j ej : l !! j = Some ej -> is_call_entry ej = false -> forall k, below (tt_address ej) k <-> k = j.
  Proof.
    intros Hj Hcj k. split; [|intros ->; by exists ej]. intros (e & He & (r & Hr)). pose proof (flat_none _ _ Hj Hcj) as Hnone.
    destruct r as [|x r _] using rev_ind; [rewrite app_nil_r in Hr; symmetry; by eapply flat_unique|]. exfalso.
    assert (Hup : forall r, follow ns 0 (tt_address ej ++ r) = None) by (intros q; by rewrite follow_app, Hnone).
    destruct (is_call_entry e) eqn:Hc.
    - destruct (flat_call _ _ He Hc) as (i & n & _ & _ & Hf & _). rewrite Hr, Hup in Hf. done.
    - destruct (Hsd _ _ He Hc) as (k' & e' & c & _ & He' & Hc' & Ha). rewrite Hr, app_assoc in Ha. apply app_inj_tail in Ha as [Ha _].
      destruct (flat_call _ _ He' Hc') as (i & n & _ & _ & Hf & _). rewrite <- Ha, Hup in Hf. done.
  Qed.

  Theorem flat_block j : j < length l -> exists c, 0 < c /\ forall k, under l j k <-> j <= k < j + c.
  Proof.
    intros Hj. destruct (lookup_lt_is_Some_2 l j Hj) as (ej & Hej).
    assert (Hu : forall k, under l j k <-> below (tt_address ej) k).
    { intros k. unfold under, below. rewrite Hej. split.
      - intros (a & b & [= <-] & Hb & Hp). destruct (l !! k) as [e|]; [|done]. injection Hb as <-. eauto.
      - intros (e & -> & Hp). exists (tt_address ej), (tt_address e). done. }
    destruct (is_call_entry ej) eqn:Hc.
    - destruct (call_block _ _ Hej Hc) as (c & H1 & H2). exists c. split; [done|]. intros k. by rewrite Hu, H2.
    - exists 1. split; [lia|]. intros k. rewrite Hu, (destruct_block _ _ Hej Hc). lia.
  Qed.

  (** ** Nesting *)
  Lemma follow_in_call r : forall i j, follow ns i r = Some j -> in_call ns i j.
  Proof.
    induction r as [|x r IH] using rev_ind; intros i j H; [injection H as ->; constructor|].
    apply follow_snoc in H as (p & pn & Hp & Hpn & Hc). destruct (child_lookup _ Ht _ _ _ _ Hpn Hc) as (n & Hn & Hpar & _).
    eapply in_made; [done..|by apply IH].
  Qed.

  Lemma in_call_follow i j a b : in_call ns i j -> follow ns 0 a = Some i -> follow ns 0 b = Some j -> a `prefix_of` b.
  Proof.
    intros H. revert b. induction H as [|j n p Hn Hp H IH]; intros b Ha Hb; [by rewrite (follow_inj _ Ht _ _ _ Ha Hb)|].
    destruct b as [|x b _] using rev_ind.
    - injection Hb as <-. destruct (at_root _ Ht) as (r & Hr & Hpr & _). rewrite Hn in Hr. injection Hr as <-. congruence.
    - apply follow_snoc in Hb as (p' & pn & Hp' & Hpn & Hc). destruct (child_lookup _ Ht _ _ _ _ Hpn Hc) as (n' & Hn' & Hpar & _).
      rewrite Hn in Hn'. injection Hn' as <-. rewrite Hp in Hpar. injection Hpar as <-. apply prefix_app_r. by apply IH.
  Qed.

  Theorem flat_nesting kj ki i j : shows_call ns l ki i -> shows_call ns l kj j -> (under l ki kj <-> in_call ns i j).
  Proof.
    intros Hi Hj. apply flat_shows in Hi as (ei & n & Hki & _ & _ & _ & Hfi). apply flat_shows in Hj as (ej & m & Hkj & _ & _ & _ & Hfj).
    unfold under. rewrite Hki, Hkj. split.
    - intros (a & b & [= <-] & [= <-] & (r & Hr)). apply (follow_in_call r). rewrite Hr, follow_app, Hfi in Hfj. done.
    - intros H. do 2 eexists. split_and!; [done|done|]. by eapply in_call_follow.
  Qed.

  (** ** The entry above an entry *)
  Context (Hroot : forall r, ns !! 0 = Some r -> nd_is_precompile r = false).
  Theorem flat_enclosing k e : l !! k = Some e -> tt_address e <> [] ->
    exists j ej x, l !! j = Some ej /\ is_call_entry ej = true /\ tt_address e = tt_address ej ++ [x] /\ enclosing l j k /\
      forall i i' n, shows_call ns l k i -> shows_call ns l j i' -> ns !! i = Some n -> nd_parent n = Some i'.
  Proof.
    intros Hk Hne.
    assert (exists j ej x, l !! j = Some ej /\ is_call_entry ej = true /\ tt_address e = tt_address ej ++ [x]) as (j & ej & x & Hj & Hc & Ha).
    { destruct (is_call_entry e) eqn:Hc; [|destruct (Hsd _ _ Hk Hc) as (k' & e' & c & _ & ? & ? & ?); by exists k', e', c].
      destruct (flat_call _ _ Hk Hc) as (i & n & Hi & Hp & Hf & _). destruct (tt_address e) as [|x a _] using rev_ind; [done|].
      apply follow_snoc in Hf as (p & pn & Hfp & Hpn & Hch).
      assert (Hpp : nd_is_precompile pn = false).
      { destruct (follow_info _ Ht _ _ Hfp) as (n' & Hn' & _ & _ & Hor). rewrite Hpn in Hn'. injection Hn' as <-. destruct Hor as [->|]; [by apply Hroot|done]. }
      assert (Hin : In a (map tt_address l)) by (rewrite Hl; apply (parity_address_iff _ Hinv); exists p, pn; split_and!; [done|done|by left]).
      apply in_map_iff in Hin as (ej & Hea & Hin). apply elem_of_list_In, elem_of_list_lookup in Hin as (j & Hj). exists j, ej, x. split_and!; [done| |by rewrite Hea].
      destruct (is_call_entry ej) eqn:Hcj; [done|]. rewrite <- Hea, (flat_none _ _ Hj Hcj) in Hfp. done. }
    exists j, ej, x. split_and!; [done..| |].
    - destruct (call_block _ _ Hj Hc) as (c & _ & Hb).
      assert (Hjk : j <= k < j + c) by (apply Hb; exists e; split; [done|]; rewrite Ha; by apply prefix_app_r).
      assert (j <> k). { intros ->. rewrite Hk in Hj. injection Hj as ->. apply (f_equal length) in Ha. rewrite app_length in Ha. cbn in Ha. lia. }
      assert (Hlen : forall q eq, l !! q = Some eq -> length_at l q = length (tt_address eq)) by (intros q eq Hq; unfold length_at; by rewrite Hq).
      unfold enclosing. rewrite (Hlen _ _ Hj), (Hlen _ _ Hk). split; [lia|]. split; [by eapply lookup_lt_Some|].
      rewrite Ha, app_length. cbn [length]. split; [lia|]. intros m Hm. destruct (proj2 (Hb m) ltac:(lia)) as (em & Hem & (r & Hr)). rewrite (Hlen _ _ Hem).
      destruct r as [|y r]; [|rewrite Hr, app_length; cbn; lia]. rewrite app_nil_r in Hr. pose proof (flat_unique _ _ _ _ Hj Hem (eq_sym Hr)). lia.
    - intros i i' n Hi Hi' Hn. apply flat_shows in Hi as (e0 & n0 & Hk0 & _ & Hn0 & _ & Hf). rewrite Hk in Hk0. injection Hk0 as <-.
      apply flat_shows in Hi' as (e1 & n1 & Hk1 & _ & Hn1 & _ & Hf'). rewrite Hj in Hk1. injection Hk1 as <-. rewrite Ha in Hf.
      apply follow_snoc in Hf as (p & pn & Hp & Hpn & Hch). rewrite Hf' in Hp. injection Hp as <-.
      destruct (child_lookup _ Ht _ _ _ _ Hpn Hch) as (n' & Hn' & Hpar & _). rewrite Hn in Hn'. injection Hn' as <-. done.
  Qed.
End flat.
