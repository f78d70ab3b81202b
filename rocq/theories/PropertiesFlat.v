(** * PropertiesFlat: C140, reading the flat list of parity traces as a tree of calls *)

From Verif Require Import FlatProofs PropertiesParity PropertiesTx PropertiesHistory Examples.

Lemma flat_facts cfg es s l : ti_run (ti_new cfg) es = Ok s -> into_transaction_traces (ti_traces s) = Ok l ->
  tree_inv (ti_traces s) /\ l = parity_list (ti_traces s) /\
  StronglySorted lex_lt (map tt_address (List.filter is_call_entry l)) /\
  (forall k e, l !! k = Some e -> is_call_entry e = false ->
     exists k' e' c, k = S k' /\ l !! k' = Some e' /\ is_call_entry e' = true /\ tt_address e = tt_address e' ++ [c]) /\
  Forall2 (fun n e => ti_traces s !! nd_idx n = Some n /\ follow (ti_traces s) 0 (tt_address e) = Some (nd_idx n) /\
                      length (tt_address e) = tr_depth (nd_trace n))
    (List.filter (fun n => negb (nd_is_precompile n)) (ti_traces s)) (List.filter is_call_entry l).
Proof.
  intros Hr Hl. pose proof (run_tree_inv _ _ _ Hr) as Hinv. destruct (C21_depth_first_partial _ _ _ _ Hr Hl) as (H1 & H2 & _).
  destruct (C17_trace_list_locates _ _ _ Hr) as (l' & Hl' & H3). rewrite Hl in Hl'. injection Hl' as <-.
  split_and!; [done| |done..]. rewrite (into_transaction_traces_ok _ Hinv) in Hl. by injection Hl.
Qed.

(** Every call that is not left out has its entry, and every call entry its call. *)
Theorem C140_entries :
  forall cfg es s l, ti_run (ti_new cfg) es = Ok s -> into_transaction_traces (ti_traces s) = Ok l ->
  (forall i n, ti_traces s !! i = Some n -> nd_is_precompile n = false -> exists k, shows_call (ti_traces s) l k i) /\
  (forall k e, l !! k = Some e -> is_call_entry e = true -> exists i, shows_call (ti_traces s) l k i) /\
  (forall k i j, shows_call (ti_traces s) l k i -> shows_call (ti_traces s) l k j -> i = j) /\
  (forall k m i, shows_call (ti_traces s) l k i -> shows_call (ti_traces s) l m i -> k = m).
Proof.
  intros cfg es s l Hr Hl. destruct (flat_facts _ _ _ _ Hr Hl) as (Hinv & E & H1 & H2 & H3). split_and!.
  - intros i n Hi Hp. pose proof (filter_take_lookup (fun m => negb (nd_is_precompile m)) (ti_traces s) i n Hi) as Hf. cbn beta in Hf.
    rewrite Hp in Hf. specialize (Hf eq_refl). destruct (Forall2_lookup_l _ _ _ _ _ H3 Hf) as (e & He & _ & Hfol & _).
    rewrite (at_idx _ (inv_tree _ Hinv) _ _ Hi) in Hfol.
    apply elem_of_list_lookup_2, elem_of_list_In, filter_In in He as [He Hc]. apply elem_of_list_In, elem_of_list_lookup in He as (k & Hk).
    destruct (flat_call _ Hinv l H3 _ _ Hk Hc) as (j & m & _ & _ & Hfj & Hs). rewrite Hfol in Hfj. injection Hfj as <-. eauto.
  - intros k e Hk Hc. destruct (flat_call _ Hinv l H3 _ _ Hk Hc) as (i & n & _ & _ & _ & Hs). eauto.
  - intros k i j Hi Hj. destruct (flat_shows _ Hinv l H3 _ _ Hi) as (e & n & He & _ & _ & _ & Hf).
    destruct (flat_shows _ Hinv l H3 _ _ Hj) as (e' & n' & He' & _ & _ & _ & Hf'). rewrite He in He'. injection He' as <-. congruence.
  - intros k m i Hk Hm. destruct (flat_shows _ Hinv l H3 _ _ Hk) as (e & n & He & _ & _ & _ & Hf).
    destruct (flat_shows _ Hinv l H3 _ _ Hm) as (e' & n' & He' & _ & _ & _ & Hf').
    apply (flat_unique _ Hinv l E _ _ _ _ He He'). by eapply (follow_inj _ (inv_tree _ Hinv)).
Qed.
Print Assumptions C140_entries.

(** One call contains another if and only if the address of its entry is a prefix of the other's. *)
Theorem C140_nesting :
  forall cfg es s l ki kj i j, ti_run (ti_new cfg) es = Ok s -> into_transaction_traces (ti_traces s) = Ok l ->
  shows_call (ti_traces s) l ki i -> shows_call (ti_traces s) l kj j ->
  (under l ki kj <-> in_call (ti_traces s) i j).
Proof.
  intros cfg es s l ki kj i j Hr Hl. destruct (flat_facts _ _ _ _ Hr Hl) as (Hinv & E & H1 & H2 & H3). by apply flat_nesting.
Qed.
Print Assumptions C140_nesting.

(** The entries whose addresses begin with the address of an entry are this entry and a number of entries directly
    after it. *)
Theorem C140_block :
  forall cfg es s l j, ti_run (ti_new cfg) es = Ok s -> into_transaction_traces (ti_traces s) = Ok l -> j < length l ->
  exists c, 0 < c /\ forall k, under l j k <-> j <= k < j + c.
Proof.
  intros cfg es s l j Hr Hl. destruct (flat_facts _ _ _ _ Hr Hl) as (Hinv & E & H1 & H2 & H3). by apply (flat_block (ti_traces s)).
Qed.
Print Assumptions C140_block.

(** In a transaction, finished or not, the first entry has the empty address and every other entry lies directly below
    the last earlier entry with a shorter address: its address is that entry's with one more number. That entry is of a
    call, and, for the entry of a call, of the call recorded as its parent. *)
Theorem C140_enclosing :
  forall cfg w f es1 es2 s l k e, env_ok cfg w f -> tx_events w f = es1 ++ es2 -> es1 <> [] -> ti_run (ti_new cfg) es1 = Ok s ->
  into_transaction_traces (ti_traces s) = Ok l -> l !! k = Some e ->
  (k = 0 -> tt_address e = []) /\
  (k <> 0 -> exists j ej x, l !! j = Some ej /\ is_call_entry ej = true /\ tt_address e = tt_address ej ++ [x] /\ enclosing l j k /\
     forall i i' n, shows_call (ti_traces s) l k i -> shows_call (ti_traces s) l j i' -> ti_traces s !! i = Some n -> nd_parent n = Some i').
Proof.
  intros cfg w f es1 es2 s l k e Henv Heq Hne Hr Hl Hk. destruct (flat_facts _ _ _ _ Hr Hl) as (Hinv & E & H1 & H2 & H3).
  assert (Hroot : forall r, ti_traces s !! 0 = Some r -> nd_is_precompile r = false).
  { intros r Hr0. destruct (C85_interrupted cfg w f es1 es2 Henv Heq Hne) as (s1 & s2 & Hs1 & Hs2 & Hlater & _). rewrite Hr in Hs1. injection Hs1 as <-.
    destruct (Hlater _ _ Hr0) as (b & Hb & HL). assert (Hp : nd_is_precompile r = nd_is_precompile b).
    { unfold nd_is_precompile. by rewrite (SpecHistory.ln_precompile _ _ HL). }
    rewrite Hp. destruct (nd_is_precompile b) eqn:Eb; [|done]. exfalso. assert (He0 : exists par d g, entered None 0 0 f !! 0 = Some (par, d, g)) by (destruct f; cbn; eauto).
    destruct He0 as (par & d & g & He0). apply (tx_precompile cfg w f s2 Henv Hs2 _ _ _ _ _ He0 Hb) in Eb. naive_solver. }
  assert (Hfirst : exists e0, l !! 0 = Some e0 /\ tt_address e0 = []).
  { destruct (at_root _ (inv_tree _ Hinv)) as (r & Hr0 & _). pose proof (Hroot _ Hr0) as Hp.
    pose proof (filter_take_lookup (fun m => negb (nd_is_precompile m)) (ti_traces s) 0 r Hr0) as Hf. cbn beta in Hf. rewrite Hp in Hf. specialize (Hf eq_refl).
    cbn [take List.filter length] in Hf. destruct (Forall2_lookup_l _ _ _ _ _ H3 Hf) as (e0 & He0 & _ & Hfol & _).
    rewrite (at_idx _ (inv_tree _ Hinv) _ _ Hr0) in Hfol. pose proof (follow_root _ (inv_tree _ Hinv) _ Hfol) as Hnil.
    destruct l as [|x l']; [done|]. exists x. split; [done|]. cbn [List.filter] in He0. destruct (is_call_entry x) eqn:Hc; [by injection He0 as ->|].
    destruct (H2 0 x eq_refl Hc) as (? & ? & ? & ? & _). lia. }
  destruct Hfirst as (e0 & He0 & Hnil). split; [intros ->; rewrite Hk in He0; by injection He0 as ->|]. intros Hk0.
  apply (flat_enclosing _ Hinv l E H1 H2 H3 Hroot k e Hk). intros He. apply Hk0. eapply (flat_unique _ Hinv l E); [exact Hk|exact He0|congruence].
Qed.
Print Assumptions C140_enclosing.

(** A log, a delegate call, a hidden precompile call, a create that selfdestructs and a reverted call that paid a
    precompile: the fourth entry is the selfdestruct, the sixth lies below the fifth. *)
Example C140_example :
  env_ok ex_cfg ex_world ex_tx /\
  exists s l, ti_run (ti_new ex_cfg) (tx_events ex_world ex_tx) = Ok s /\ into_transaction_traces (ti_traces s) = Ok l /\
    map tt_address l = [[]; [0]; [1]; [1; 0]; [2]; [2; 0]] /\ map is_call_entry l = [true; true; true; false; true; true] /\
    shows_call (ti_traces s) l 4 4 /\ shows_call (ti_traces s) l 5 5 /\ in_call (ti_traces s) 4 5 /\ enclosing l 4 5 /\ enclosing l 0 4.
Proof.
  split; [apply C74_example|]. do 2 eexists. split; [vm_compute; reflexivity|]. split; [vm_compute; reflexivity|]. split; [vm_compute; reflexivity|].
  split; [vm_compute; reflexivity|].
  split; [do 2 eexists; split; [vm_compute; reflexivity|]; split; [vm_compute; reflexivity|]; split; [vm_compute; reflexivity|]; split; vm_compute; reflexivity|].
  split; [do 2 eexists; split; [vm_compute; reflexivity|]; split; [vm_compute; reflexivity|]; split; [vm_compute; reflexivity|]; split; vm_compute; reflexivity|].
  split; [eapply in_made; [vm_compute; reflexivity|vm_compute; reflexivity|apply in_self]|].
  split.
  - split; [lia|]. split; [vm_compute; lia|]. split; [vm_compute; lia|]. intros m Hm. lia.
  - split; [lia|]. split; [vm_compute; lia|]. split; [vm_compute; lia|]. intros m Hm. assert (m = 1 \/ m = 2 \/ m = 3) as [->|[->| ->]] by lia; vm_compute; lia.
Qed.
