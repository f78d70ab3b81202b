(** * VmCodeProofs: filling in the codes of a vm trace *)

From Verif Require Export SpecVmCode VmProofs.

Definition calls_in (steps : list CallTraceStep) : nat := length (List.filter st_is_calllike steps).

(** The path [p] through call instructions leads from node [i] to node [j]. *)
Inductive leads (ns : list CallTraceNode) : nat -> list nat -> nat -> Prop :=
  | leads_nil i : leads ns i [] i
  | leads_cons i n k st c p j : ns !! i = Some n -> tr_steps (nd_trace n) !! k = Some st -> st_is_calllike st = true ->
      nd_children n !! calls_in (take k (tr_steps (nd_trace n))) = Some c -> leads ns c p j -> leads ns i (k :: p) j.

Lemma leads_fun ns i p j : leads ns i p j -> forall j', leads ns i p j' -> j = j'.
Proof.
  induction 1 as [i|i n k st c p j Hn Hk Hc Hcs Hl IH]; intros j' H; inversion H as [|? n' ? st' c' ? ? Hn' Hk' Hc' Hcs' Hl']; subst; [done|].
  rewrite Hn in Hn'. injection Hn' as <-. rewrite Hcs in Hcs'. injection Hcs' as <-. by apply IH.
Qed.
Lemma leads_snoc ns i p j n k st c : leads ns i p j -> ns !! j = Some n -> tr_steps (nd_trace n) !! k = Some st ->
  st_is_calllike st = true -> nd_children n !! calls_in (take k (tr_steps (nd_trace n))) = Some c -> leads ns i (p ++ [k]) c.
Proof.
  intros Hl Hn Hk Hc Hcs. induction Hl; [by repeat (econstructor; try done)|]. cbn [app]. econstructor; eauto.
Qed.
Lemma leads_split ns p : forall i k q j, leads ns i (p ++ k :: q) j ->
  exists m n st c, leads ns i p m /\ ns !! m = Some n /\ tr_steps (nd_trace n) !! k = Some st /\ st_is_calllike st = true /\
    nd_children n !! calls_in (take k (tr_steps (nd_trace n))) = Some c /\ leads ns c q j.
Proof.
  induction p as [|x p IH]; intros i k q j H; cbn [app] in H; inversion H as [|? n ? st c ? ? Hn Hk Hc Hcs Hl]; subst.
  - exists i, n, st, c. split; [constructor|done].
  - apply IH in Hl as (m & n' & st' & c' & Hl & Hr). exists m, n', st', c'. split; [by econstructor|done].
Qed.

(** ** Everything but the codes *)
Definition erase (i : VmInstruction) : nat * u64 * option VmExecutedOperation * bool * u8 :=
  let '(mkVmI pc cost ex sub op) := i in (pc, cost, ex, match sub with Some _ => true | None => false end, op).
Definition shape (t : VmTrace) (p : list nat) := (fun x => map erase (vm_ops x)) <$> vm_at t p.
Definition code_at (t : VmTrace) (p : list nat) : option bytes := vm_code <$> vm_at t p.

Lemma erase_set_code p : forall t c, map erase (vm_ops (vm_set_code t p c)) = map erase (vm_ops t).
Proof.
  destruct p as [|k p]; intros [c0 ops] c; [done|]. cbn [vm_set_code vm_ops]. apply list_eq. intros x. rewrite !list_lookup_fmap.
  destruct (decide (k = x)) as [->|Hne]; [|by rewrite list_lookup_alter_ne]. rewrite list_lookup_alter.
  destruct (ops !! x) as [[pc cost ex [s|] op]|]; done.
Qed.
Lemma shape_set_code p : forall t c p', shape (vm_set_code t p c) p' = shape t p'.
Proof.
  unfold shape. induction p as [|k p IH]; intros [c0 ops] c p'.
  - cbn [vm_set_code vm_ops]. by destruct p'.
  - destruct p' as [|k' p'].
    + cbn [vm_at fmap option_fmap option_map]. f_equal. apply (erase_set_code (k :: p) (mkVm c0 ops) c).
    + cbn [vm_at vm_set_code vm_ops]. destruct (decide (k = k')) as [->|Hne]; [|by rewrite list_lookup_alter_ne].
      rewrite list_lookup_alter. destruct (ops !! k') as [[pc cost ex [s|] op]|]; cbn [fmap option_fmap option_map vi_sub]; [|done..]. apply IH.
Qed.
Lemma code_set_code p : forall t c p', is_Some (vm_at t p) ->
  code_at (vm_set_code t p c) p' = if decide (p = p') then Some c else code_at t p'.
Proof.
  unfold code_at. induction p as [|k p IH]; intros [c0 ops] c p' [y Hy].
  - destruct p' as [|k' p']; [done|]. by cbn [vm_set_code vm_ops vm_at].
  - destruct p' as [|k' p']; [by rewrite decide_False|]. cbn [vm_at vm_set_code vm_ops] in *.
    destruct (decide (k = k')) as [->|Hne].
    + rewrite list_lookup_alter. destruct (ops !! k') as [[pc cost ex [s|] op]|]; cbn [fmap option_fmap option_map vi_sub] in *; [|done..].
      rewrite IH by eauto. destruct (decide (p = p')) as [->|Hp]; [by rewrite decide_True|]. rewrite decide_False by congruence. done.
    + rewrite list_lookup_alter_ne by done. rewrite decide_False by congruence. done.
Qed.

(** ** Positions of the sub-traces *)
Fixpoint subs_at (pre : nat) (ops : list bool) : list nat :=
  match ops with [] => [] | b :: r => (if b then [pre] else []) ++ subs_at (S pre) r end.
Definition has_sub (i : VmInstruction) : bool := match vi_sub i with Some _ => true | None => false end.
Lemma sub_paths_at p x : sub_paths p x = map (fun k => p ++ [k]) (subs_at 0 (map has_sub (vm_ops x))).
Proof.
  unfold sub_paths. generalize (vm_ops x) as ops. intros ops.
  enough (H : forall r pre, (forall k, r !! k = ops !! (pre + k)) ->
    omap (fun k => match ops !! k with Some i => match vi_sub i with Some _ => Some (p ++ [k]) | None => None end | None => None end) (seq pre (length r))
    = map (fun k => p ++ [k]) (subs_at pre (map has_sub r))) by (by apply (H ops 0)).
  induction r as [|i r IH]; intros pre H; [done|]. pose proof (H 0) as H0. rewrite Nat.add_0_r in H0. cbn in H0.
  cbn [length seq omap list_omap map subs_at]. rewrite <-H0. unfold has_sub at 1.
  assert (IH' : forall k, r !! k = ops !! (S pre + k)) by (intros k; specialize (H (S k)); replace (S pre + k) with (pre + S k) by lia; exact H).
  apply IH in IH'. destruct (vi_sub i); cbn [app map]; by rewrite <-IH'.
Qed.

Lemma attach_subs_at steps : forall subs (cs : list nat) pre, length subs = length cs -> length subs <= calls_in steps ->
  Forall2 (fun k c => exists k' st, k = pre + k' /\ steps !! k' = Some st /\ st_is_calllike st = true /\
             cs !! calls_in (take k' steps) = Some c) (subs_at pre (map has_sub (attach steps subs))) cs.
Proof.
  unfold calls_in. induction steps as [|st steps IH]; intros subs cs pre Hlen Hc.
  - cbn in Hc. destruct subs; [|cbn in Hc; lia]. destruct cs; [constructor|done].
  - cbn [attach List.filter] in *. destruct (st_is_calllike st) eqn:Est.
    + destruct subs as [|t subs].
      * destruct cs; [|done]. cbn [map subs_at has_sub vi_sub make_instruction app].
        eapply Forall2_impl; [apply (IH [] [] (S pre)); [done|cbn; lia]|]. intros k c (k' & _ & _ & _ & _ & H). done.
      * destruct cs as [|c cs]; [done|]. cbn [map subs_at has_sub vi_sub make_instruction app]. cbn [length] in *. constructor.
        -- exists 0, st. split_and!; [lia|done..].
        -- eapply Forall2_impl; [apply (IH subs cs (S pre)); lia|]. intros k x (k' & st' & -> & H1 & H2 & H3). exists (S k'), st'.
           split_and!; [lia|done|done|]. cbn [take firstn List.filter]. rewrite Est. done.
    + cbn [map subs_at has_sub vi_sub make_instruction app].
      eapply Forall2_impl; [apply (IH subs cs (S pre)); lia|]. intros k x (k' & st' & -> & H1 & H2 & H3). exists (S k'), st'.
      split_and!; [lia|done|done|]. cbn [take firstn List.filter]. rewrite Est. done.
Qed.
Lemma attach_at steps : forall subs k st, length subs <= calls_in steps -> steps !! k = Some st -> st_is_calllike st = true ->
  exists i, attach steps subs !! k = Some i /\ vi_sub i = subs !! calls_in (take k steps).
Proof.
  unfold calls_in. induction steps as [|s steps IH]; intros subs k st Hc Hk Hst; [done|]. cbn [attach List.filter] in *.
  destruct k as [|k].
  - injection Hk as ->. rewrite Hst. destruct subs; eexists; split; done.
  - cbn in Hk. cbn [take firstn List.filter]. destruct (st_is_calllike s) eqn:Es.
    + destruct subs as [|t subs]; cbn [length] in *.
      * destruct (IH [] k st) as (i & H1 & H2); [cbn; lia|done|done|]. exists i. split; [exact H1|]. by rewrite H2.
      * destruct (IH subs k st) as (i & H1 & H2); [lia|done|done|]. exists i. done.
    + apply (IH subs k st); done.
Qed.
Lemma subs_at_In k : forall ops pre, In (pre + k) (subs_at pre ops) <-> ops !! k = Some true.
Proof.
  intros ops. revert k. induction ops as [|b ops IH]; intros k pre; [done|]. cbn [subs_at]. rewrite in_app_iff.
  assert (Hlow : forall ops pre x, In x (subs_at pre ops) -> pre <= x).
  { clear. induction ops as [|b ops IH]; intros pre x H; [done|]. cbn in H. apply in_app_iff in H as [H|H].
    - destruct b; [|done]. destruct H as [->|[]]. done.
    - apply IH in H. lia. }
  destruct k as [|k].
  - split; [|intros [= ->]; left; left; lia]. intros [H|H]; [by destruct b|]. apply Hlow in H. lia.
  - cbn. rewrite <-(IH k (S pre)). replace (pre + S k) with (S pre + k) by lia. split; [|by right].
    intros [H|H]; [|done]. destruct b; [|done]. destruct H as [H|[]]. lia.
Qed.

Section Codes.
  Context (ns : list CallTraceNode) (db : Db).
  Hypothesis Hcalls : forall i n, ns !! i = Some n -> length (nd_children n) <= call_count n.

  Lemma leads_spec i p j : leads ns i p j -> forall t, vm_spec ns i t -> exists x, vm_at t p = Some x /\ vm_spec ns j x.
  Proof.
    induction 1 as [i|i n k st c p j Hn Hk Hc Hcs Hl IH]; intros t Ht; [by exists t|].
    inversion Ht as [? n' subs Hn' Hf]; subst. rewrite Hn in Hn'. injection Hn' as <-.
    pose proof (Forall2_length _ _ _ Hf) as Hlen. pose proof (Hcalls _ _ Hn) as Hcc.
    destruct (attach_at (tr_steps (nd_trace n)) subs k st) as (i' & Hi & Hs); [unfold calls_in; unfold call_count in Hcc; lia|done|done|].
    destruct (Forall2_lookup_l _ _ _ _ _ Hf Hcs) as (s & Hs' & Hspec). cbn [vm_at vm_ops]. rewrite Hi, Hs, Hs'. by apply IH.
  Qed.

  Lemma has_sub_shape t t0 p x x0 : shape t p = shape t0 p -> vm_at t p = Some x -> vm_at t0 p = Some x0 ->
    map has_sub (vm_ops x) = map has_sub (vm_ops x0).
  Proof.
    unfold shape. intros H H1 H2. rewrite H1, H2 in H. cbn in H. apply (inj Some) in H.
    assert (E : forall l, map has_sub l = map (fun y => snd (fst y)) (map erase l)).
    { intros l. rewrite map_map. apply map_ext. by intros []. }
    by rewrite !E, H.
  Qed.

  Context (t0 : VmTrace) (Ht0 : vm_spec ns 0 t0).

  Lemma sub_paths_leads t p j n x : (forall p, shape t p = shape t0 p) -> leads ns 0 p j -> ns !! j = Some n -> vm_at t p = Some x ->
    Forall2 (leads ns 0) (sub_paths p x) (nd_children n) /\
    (forall k q m, leads ns 0 (p ++ k :: q) m -> In (p ++ [k]) (sub_paths p x)).
  Proof.
    intros Hsh Hl Hn Hx. destruct (leads_spec 0 p j Hl t0 Ht0) as (x0 & Hx0 & Hspec).
    rewrite sub_paths_at, (has_sub_shape t t0 p x x0 (Hsh p) Hx Hx0). inversion Hspec as [? n' subs Hn' Hf]; subst.
    rewrite Hn in Hn'. injection Hn' as <-. cbn [vm_ops]. pose proof (Forall2_length _ _ _ Hf) as Hlen. pose proof (Hcalls _ _ Hn) as Hcc.
    unfold call_count in Hcc. split.
    - apply Forall2_fmap_l. eapply Forall2_impl; [apply (attach_subs_at (tr_steps (nd_trace n)) subs (nd_children n) 0)|]; [done|unfold calls_in; lia|].
      intros k c (k' & st & -> & Hk & Hst & Hc). by eapply leads_snoc.
    - intros k q m Hlm. apply leads_split in Hlm as (m' & n' & st & c & Hl' & Hn' & Hk & Hst & Hc & _).
      pose proof (leads_fun _ _ _ _ Hl _ Hl') as <-. rewrite Hn in Hn'. injection Hn' as <-.
      apply (in_map (fun k => p ++ [k])). apply (subs_at_In k _ 0). rewrite list_lookup_fmap.
      destruct (attach_at (tr_steps (nd_trace n)) subs k st) as (i & Hi & Hs); [unfold calls_in; lia|done|done|]. rewrite Hi. cbn. f_equal.
      unfold has_sub. rewrite Hs. destruct (Forall2_lookup_l _ _ _ _ _ Hf Hc) as (y & -> & _). done.
  Qed.

  Lemma populate_loop_codes fuel : forall t ps is fw l done r,
    (forall p, shape t p = shape t0 p) ->
    Forall2 (leads ns 0) ps is ->
    walker_collect fw ns is = Ok l ->
    (forall p j n c, leads ns 0 p j -> ns !! j = Some n -> code_at t p = Some c ->
       (In p done -> stored_code db (tr_address (nd_trace n)) c) /\ (~ In p done -> c = [])) ->
    (forall p j, leads ns 0 p j -> In p done \/ exists p1 p2, p = p1 ++ p2 /\ In p1 ps) ->
    populate_loop fuel db t ps (map (fun n => tr_address (nd_trace n)) l) = Ok (Some r) ->
    (forall p, shape r p = shape t0 p) /\
    (forall p j n c, leads ns 0 p j -> ns !! j = Some n -> code_at r p = Some c -> stored_code db (tr_address (nd_trace n)) c).
  Proof.
    induction fuel as [|fuel IH]; intros t ps is fw l done r Hsh Hq Hw Hd Hcov Hr.
    - destruct ps as [|p ps]; [|done]. injection Hr as <-. split; [done|]. intros p j n c Hl Hn Hc.
      destruct (Hcov p j Hl) as [Hin|(p1 & p2 & _ & [])]. by apply (Hd p j n c).
    - destruct ps as [|p ps].
      { injection Hr as <-. split; [done|]. intros p j n c Hl Hn Hc.
        destruct (Hcov p j Hl) as [Hin|(p1 & p2 & _ & [])]. by apply (Hd p j n c). }
      inversion Hq as [|? i ? is' Hi Hq']; subst. cbn [populate_loop] in Hr.
      destruct fw as [|fw]; [done|]. cbn [walker_collect walker_next] in Hw. unfold index in Hw.
      destruct (ns !! i) as [n|] eqn:Hn; [|done]. cbn [rbind] in Hw.
      destruct (walker_collect fw ns (is' ++ nd_children n)) as [l'| |] eqn:Hw'; try done. cbn [rbind] in Hw. injection Hw as <-.
      destruct (leads_spec 0 p i Hi t0 Ht0) as (x0 & Hx0 & Hspec).
      assert (Hx : is_Some (vm_at t p)).
      { pose proof (Hsh p) as H. unfold shape in H. rewrite Hx0 in H. destruct (vm_at t p); [eauto|done]. }
      destruct Hx as [x Hx]. rewrite Hx in Hr. cbn [expect rbind map] in Hr.
      destruct (sub_paths_leads t p i n x Hsh Hi Hn Hx) as [Hsub Hin].
      destruct (db_basic db (tr_address (nd_trace n))) as [o|] eqn:Eb; [|done].
      assert (Hcov' : forall p' j, leads ns 0 p' j -> In p' (p :: done) \/ exists p1 p2, p' = p1 ++ p2 /\ In p1 (ps ++ sub_paths p x)).
      { intros p' j Hp'. destruct (Hcov p' j Hp') as [H|(p1 & p2 & -> & [<-|H])]; [left; by right| |].
        - destruct p2 as [|k p2]; [left; left; by rewrite app_nil_r|]. right. exists (p ++ [k]), p2. split; [by rewrite <-app_assoc|].
          apply in_app_iff. right. by eapply Hin.
        - right. exists p1, p2. split; [done|]. apply in_app_iff. by left. }
      destruct (_ =? _)%N eqn:Eh.
      + eapply (IH t _ (is' ++ nd_children n) fw l' (p :: done)); try done; [by apply Forall2_app|].
        intros p' j n' c Hl Hn' Hc. destruct (Hd p' j n' c Hl Hn' Hc) as [H1 H2]. split.
        * intros [<-|Hp]; [|by apply H1]. destruct (in_dec (fun a b : list nat => decide (a = b)) p done) as [Hp|Hp]; [by apply H1|].
          pose proof (leads_fun _ _ _ _ Hi _ Hl) as <-. rewrite Hn in Hn'. injection Hn' as <-.
          exists o. split; [done|]. cbn zeta. rewrite Eh. by apply H2.
        * intros Hp. apply H2. intros Hp'. apply Hp. by right.
      + destruct (db_code_by_hash db _) as [code|] eqn:Ec; [|done].
        eapply (IH (vm_set_code t p code) _ (is' ++ nd_children n) fw l' (p :: done)); try done;
          [intros p'; by rewrite shape_set_code|by apply Forall2_app|].
        intros p' j n' c Hl Hn' Hc. rewrite code_set_code in Hc by eauto. destruct (decide (p = p')) as [<-|Hne].
        * injection Hc as <-. pose proof (leads_fun _ _ _ _ Hi _ Hl) as <-. rewrite Hn in Hn'. injection Hn' as <-. split.
          -- intros _. exists o. split; [done|]. cbn zeta. by rewrite Eh.
          -- intros Hp. destruct Hp. by left.
        * destruct (Hd p' j n' c Hl Hn' Hc) as [H1 H2]. split; [intros [H|H]; [done|by apply H1]|]. intros Hp. apply H2. intros Hp'. apply Hp. by right.
  Qed.
End Codes.

(** ** From paths back to trees *)
Lemma attach_lift steps : forall subs ops, map erase ops = map erase (attach steps subs) -> length subs <= calls_in steps ->
  exists subs', ops = attach steps subs' /\ length subs' = length subs /\
    forall j s s', subs !! j = Some s -> subs' !! j = Some s' -> exists k st i i0, steps !! k = Some st /\ st_is_calllike st = true /\
      calls_in (take k steps) = j /\ ops !! k = Some i /\ vi_sub i = Some s' /\ attach steps subs !! k = Some i0 /\ vi_sub i0 = Some s.
Proof.
  unfold calls_in. induction steps as [|st steps IH]; intros subs ops He Hc.
  - destruct ops; [|done]. cbn in Hc. destruct subs; [|cbn in Hc; lia]. exists []. split_and!; done.
  - cbn [attach List.filter] in *. destruct (st_is_calllike st) eqn:Est.
    + destruct subs as [|t subs].
      * destruct ops as [|[pc cost ex sub op] ops]; [done|]. cbn [map erase make_instruction] in He. injection He as -> -> -> Hs -> He.
        destruct sub; [done|]. destruct (IH [] ops He) as (subs' & -> & Hl & H); [cbn; lia|]. destruct subs'; [|done]. exists []. split_and!; done.
      * destruct ops as [|[pc cost ex sub op] ops]; [done|]. cbn [map erase make_instruction] in He. injection He as -> -> -> Hs -> He.
        destruct sub as [t'|]; [|done]. cbn [length] in Hc. destruct (IH subs ops He) as (subs' & -> & Hl & H); [lia|]. exists (t' :: subs').
        split; [done|]. split; [cbn; lia|]. intros [|j] s s' Hs1 Hs2; cbn in Hs1, Hs2.
        -- injection Hs1 as ->. injection Hs2 as ->. exists 0, st. do 2 eexists. split_and!; done.
        -- destruct (H j s s' Hs1 Hs2) as (k & st' & i & i0 & H1 & H2 & H3 & H4). exists (S k), st', i, i0. split_and!; [done|done| |apply H4..].
           cbn [take firstn List.filter]. rewrite Est. cbn [length]. by rewrite H3.
    + destruct ops as [|[pc cost ex sub op] ops]; [done|]. cbn [map erase make_instruction] in He. injection He as -> -> -> Hs -> He.
      destruct sub; [done|]. destruct (IH subs ops He) as (subs' & -> & Hl & H); [lia|]. exists subs'. split_and!; [done|done|].
      intros j s s' Hs1 Hs2. destruct (H j s s' Hs1 Hs2) as (k & st' & i & i0 & H1 & H2 & H3 & H4). exists (S k), st', i, i0.
      split_and!; [done|done| |apply H4..]. cbn [take firstn List.filter]. by rewrite Est.
Qed.

Lemma sub_smaller steps subs k i s : attach steps subs !! k = Some i -> vi_sub i = Some s -> vm_size s < vm_size (mkVm [] (attach steps subs)).
Proof.
  intros Hk Hs. rewrite vm_size_eq. unfold ops_size. apply elem_of_list_lookup_2, elem_of_list_In, (in_map sub_size) in Hk.
  unfold sub_size at 1 in Hk. rewrite Hs in Hk. revert Hk. generalize (map sub_size (attach steps subs)). intros l. induction l as [|y l IH]; [done|].
  intros [->|H]; cbn; [lia|]. apply IH in H. lia.
Qed.

Lemma coded_of_paths (P : CallTraceNode -> bytes -> Prop) ns :
  (forall i n, ns !! i = Some n -> length (nd_children n) <= call_count n) ->
  forall m x r i, vm_size x <= m -> vm_spec ns i x -> (forall p, shape r p = shape x p) ->
  (forall p j n c, leads ns i p j -> ns !! j = Some n -> code_at r p = Some c -> P n c) -> vm_coded P ns i r.
Proof.
  intros Hcalls. induction m as [|m IH]; intros x r i Hm Hx Hsh Hcode; [destruct x; rewrite vm_size_eq in Hm; lia|].
  inversion Hx as [? n subs Hn Hf]; subst. destruct r as [c ops]. pose proof (Hsh []) as H0. unfold shape in H0. cbn in H0. apply (inj Some) in H0.
  pose proof (Forall2_length _ _ _ Hf) as Hlen. pose proof (Hcalls _ _ Hn) as Hcc. unfold call_count in Hcc.
  destruct (attach_lift _ _ _ H0) as (subs' & -> & Hlen' & H); [unfold calls_in; lia|].
  constructor; [done|apply (Hcode [] i n c); [constructor|done|done]|].
  apply Forall2_same_length_lookup. split; [lia|]. intros j ch s' Hch Hs'.
  destruct (Forall2_lookup_l _ _ _ _ _ Hf Hch) as (s & Hs & Hspec).
  destruct (H j s s' Hs Hs') as (k & st & i1 & i0 & Hk & Hst & Hj & Ho & Hs1 & Ho0 & Hs0).
  assert (E1 : forall p, vm_at (mkVm c (attach (tr_steps (nd_trace n)) subs')) (k :: p) = vm_at s' p) by (intros p; cbn [vm_at vm_ops]; by rewrite Ho, Hs1).
  assert (E0 : forall p, vm_at (mkVm [] (attach (tr_steps (nd_trace n)) subs)) (k :: p) = vm_at s p) by (intros p; cbn [vm_at vm_ops]; by rewrite Ho0, Hs0).
  eapply (IH s); [pose proof (sub_smaller _ _ _ _ _ Ho0 Hs0); lia|exact Hspec| |].
  - intros p. specialize (Hsh (k :: p)). unfold shape in *. by rewrite E1, E0 in Hsh.
  - intros p j' n' c' Hl Hn' Hc'. eapply (Hcode (k :: p) j' n' c'); [|done|].
    + econstructor; try done. by rewrite Hj.
    + unfold code_at in *. by rewrite E1.
Qed.

Lemma vm_spec_codes ns i p j t c : vm_spec ns i t -> leads ns i p j ->
  (forall i n, ns !! i = Some n -> length (nd_children n) <= call_count n) -> code_at t p = Some c -> c = [].
Proof.
  intros Ht Hl Hcalls Hc. destruct (leads_spec ns Hcalls i p j Hl t Ht) as (x & Hx & Hs). unfold code_at in Hc. rewrite Hx in Hc.
  cbn in Hc. injection Hc as <-. by inversion Hs.
Qed.

Lemma populate_coded ns db t addrs r :
  (forall i n, ns !! i = Some n -> length (nd_children n) <= call_count n) -> vm_spec ns 0 t ->
  rmap (map (fun n => tr_address (nd_trace n))) (walk_bf ns) = Ok addrs ->
  populate_vm_trace_bytecodes db t addrs = Ok (Some r) ->
  vm_coded (fun n => stored_code db (tr_address (nd_trace n))) ns 0 r.
Proof.
  intros Hcalls Ht Hw Hr. unfold walk_bf in Hw. destruct (walker_collect _ ns [0]) as [l| |] eqn:Ew; try done.
  cbn in Hw. injection Hw as <-. unfold populate_vm_trace_bytecodes in Hr.
  destruct (populate_loop_codes ns db Hcalls t Ht (vm_size t) t [[]] [0] (S (length ns)) l [] r (fun _ => eq_refl)) as [Hsh Hcode]; try done.
  - repeat constructor.
  - intros p j n c Hl Hn Hc. split; [done|]. intros _. by eapply vm_spec_codes.
  - intros p j Hl. right. exists [], p. split; [done|]. by left.
  - by eapply coded_of_paths.
Qed.
