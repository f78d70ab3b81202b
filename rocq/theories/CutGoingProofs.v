(** * CutGoingProofs: the layout of the recording of a transaction, hook call by hook call *)

From Verif Require Export CutTextProofs TxTextProofs InterruptProofs.
Local Open Scope N_scope.

Section Going.
  Context (cfg : TracingInspectorConfig) (k : N).

  (** What concerns the layout. *)
  Definition kept (n : CallTraceNode) := (lay_depth n, tr_maybe_precompile (nd_trace n)).

  Record going (s : TracingInspector) (pcs : list bool) (opened : list (nat * nat)) (path : list nat) (t : nat) (cs : list chunk) : Prop := {
    go_cfg : ti_config s = cfg;
    go_stack : ti_trace_stack s = map fst opened;
    go_nodup : NoDup (map fst opened);
    go_len : length pcs = length opened;
    go_top : map fst opened = reverse (path ++ [t]) \/
      exists h, map fst opened = h :: reverse (path ++ [t]) /\ hd false pcs = true /\ left_out (ti_traces s) h = true;
    go_open : open_layout (ti_traces s) k (path ++ [t]) cs;
    go_root : exists rest, path ++ [t] = O :: rest;
    go_headers : NoDup (headers cs);
    go_shown : Forall (fun i => (i < length (ti_traces s))%nat /\ left_out (ti_traces s) i = false) (headers cs);
    go_depth : exists n, ti_traces s !! t = Some n /\ tr_depth (nd_trace n) = length path;
    go_logs : Forall (fun p => exists n, ti_traces s !! fst p = Some n /\ length (nd_logs n) = snd p) opened }.

  Lemma kept_lay_depth (ns ns' : list CallTraceNode) (i : nat) : kept <$> ns' !! i = kept <$> ns !! i -> lay_depth <$> ns' !! i = lay_depth <$> ns !! i.
  Proof. destruct (ns' !! i), (ns !! i); cbn; try done. unfold kept. congruence. Qed.
  Lemma kept_out (ns ns' : list CallTraceNode) (i : nat) : kept <$> ns' !! i = kept <$> ns !! i -> left_out ns' i = left_out ns i.
  Proof. unfold left_out, nd_is_precompile. destruct (ns' !! i), (ns !! i); cbn; try done. unfold kept. congruence. Qed.
  Lemma kept_logs (ns ns' : list CallTraceNode) (i : nat) n : kept <$> ns' !! i = kept <$> ns !! i -> ns !! i = Some n -> exists n', ns' !! i = Some n' /\ nd_logs n' = nd_logs n /\ tr_depth (nd_trace n') = tr_depth (nd_trace n).
  Proof. intros H Hn. rewrite Hn in H. destruct (ns' !! i) as [n'|]; [|done]. cbn in H. exists n'. unfold kept, lay_depth, lay in H. split; [done|]. split; congruence. Qed.

  (** Changes that do not concern the layout. *)
  Lemma going_quiet s s' pcs opened path t cs : going s pcs opened path t cs -> ti_config s' = ti_config s -> ti_trace_stack s' = ti_trace_stack s ->
    length (ti_traces s') = length (ti_traces s) -> (forall i, kept <$> ti_traces s' !! i = kept <$> ti_traces s !! i) -> going s' pcs opened path t cs.
  Proof.
    intros [H1 H2 H3 H4 H5 H6 H7 H8 H9 H10 H11] Hc Hs Hl Hk. split; [congruence|congruence|done|done| | |done|done| | |].
    - destruct H5 as [H5|(h & Ha & Hb & Ho)]; [by left|right]. exists h. split; [done|]. split; [done|]. by rewrite (kept_out (ti_traces s)).
    - eapply open_kept; [exact H6|]. apply Forall_forall. intros j _. by apply kept_lay_depth.
    - rewrite Hl. eapply Forall_impl; [exact H9|]. intros j [Ha Hb]. split; [done|]. by rewrite (kept_out (ti_traces s)).
    - destruct H10 as (n & Hn & Hd). destruct (kept_logs _ _ _ _ (Hk t) Hn) as (n' & Hn' & _ & Hd'). exists n'. split; [done|congruence].
    - eapply Forall_impl; [exact H11|]. intros p (n & Hn & Hp). destruct (kept_logs _ _ _ _ (Hk (fst p)) Hn) as (n' & Hn' & Hlg & _). exists n'. split; [done|congruence].
  Qed.

  Lemma update_quiet ns ns' i f : update ns i f = Ok ns' -> (forall n, ns !! i = Some n -> kept (f n) = kept n) ->
    length ns' = length ns /\ forall j, kept <$> ns' !! j = kept <$> ns !! j.
  Proof.
    intros Hu Hf. apply update_Ok in Hu as (n & Hn & ->). split; [apply insert_length|]. intros j. destruct (decide (i = j)) as [<-|Hne].
    - rewrite list_lookup_insert by (by eapply lookup_lt_Some). rewrite Hn. cbn. by rewrite Hf.
    - by rewrite list_lookup_insert_ne.
  Qed.

  (** Changes of the innermost open call. *)
  Lemma going_top s s' pcs i j opened path t cs n n' o add : going s pcs ((i, j) :: opened) path t cs ->
    ti_config s' = ti_config s -> ti_trace_stack s' = ti_trace_stack s -> ti_traces s !! i = Some n -> ti_traces s' = <[i := n']> (ti_traces s) ->
    ext n n' -> nd_ordering n' = nd_ordering n ++ o -> tr_depth (nd_trace n') = tr_depth (nd_trace n) -> tr_maybe_precompile (nd_trace n') = tr_maybe_precompile (nd_trace n) ->
    members_layout (ti_traces s') (k + N.of_nat (length ((i, j) :: opened))) i n' o add -> headers add = [] ->
    going s' pcs ((i, length (nd_logs n')) :: opened) path t (cs ++ if left_out (ti_traces s) i then [] else add).
  Proof.
    intros [H1 H2 H3 H4 H5 H6 H7 H8 H9 H10 H11] Hc Hst Hn Hns He Ho Hd Hp Hadd Hnew.
    assert (Hli : (i < length (ti_traces s))%nat) by (by eapply lookup_lt_Some).
    assert (Hi' : ti_traces s' !! i = Some n') by (rewrite Hns; by apply list_lookup_insert).
    assert (Hout : forall q, left_out (ti_traces s') q = left_out (ti_traces s) q).
    { intros q. unfold left_out. destruct (decide (q = i)) as [->|Hne].
      - rewrite Hi', Hn. unfold nd_is_precompile. by rewrite Hp.
      - rewrite Hns, list_lookup_insert_ne by done. done. }
    assert (Hlogs : Forall (fun p => exists n0, ti_traces s' !! fst p = Some n0 /\ length (nd_logs n0) = snd p) ((i, length (nd_logs n')) :: opened)).
    { constructor; [by exists n'|]. inversion_clear H11 as [|? ? _ Hr]. cbn [map fst] in H3. apply NoDup_cons in H3 as [Hni _].
      apply Forall_forall. intros p Hp'. pose proof (proj1 (Forall_forall _ _) Hr p Hp') as (m & Hm & Hml). exists m. split; [|done].
      rewrite Hns, list_lookup_insert_ne; [done|]. intros ->. apply Hni. by apply elem_of_list_fmap_1. }
    assert (Hdep : exists m, ti_traces s' !! t = Some m /\ tr_depth (nd_trace m) = length path).
    { destruct H10 as (m & Hm & Hmd). destruct (decide (i = t)) as [<-|Hne].
      - exists n'. split; [done|]. congruence.
      - exists m. by rewrite Hns, list_lookup_insert_ne. }
    assert (Hsh : forall l, Forall (fun q => (q < length (ti_traces s))%nat /\ left_out (ti_traces s) q = false) l -> Forall (fun q => (q < length (ti_traces s'))%nat /\ left_out (ti_traces s') q = false) l).
    { intros l Hl. rewrite Hns, insert_length, <- Hns. eapply Forall_impl; [exact Hl|]. intros q [Ha Hb]. by rewrite Hout. }
    destruct H5 as [Hvis|(h & Hm & Hpc & Hh)].
    - assert (Hit : i = t /\ length opened = length path).
      { cbn [map fst] in Hvis. rewrite reverse_app in Hvis. cbn in Hvis. injection Hvis as -> Hr. split; [done|]. apply (f_equal length) in Hr. by rewrite map_length, reverse_length in Hr. }
      destruct Hit as [-> Hlen].
      assert (Hot : left_out (ti_traces s) t = false).
      { eapply (proj1 (Forall_forall _ _) H9). eapply open_path; [exact H6|]. apply elem_of_app. right. by left. }
      rewrite Hot. split.
      + congruence.
      + by rewrite Hst, H2.
      + done.
      + done.
      + by left.
      + rewrite Hns. eapply open_adds; [done|done|done|done|done|done|]. rewrite Hns in Hadd. cbn [length] in Hadd. rewrite Hlen in Hadd.
        replace (k + N.of_nat (length path) + 1) with (k + N.of_nat (S (length path))) by lia. done.
      + done.
      + by rewrite headers_app, Hnew, app_nil_r.
      + rewrite headers_app, Hnew, app_nil_r. by apply Hsh.
      + done.
      + done.
    - cbn [map fst] in Hm. injection Hm as <- Hm. rewrite Hh, app_nil_r. split.
      + congruence.
      + by rewrite Hst, H2.
      + done.
      + done.
      + right. exists i. cbn [map fst]. rewrite Hm. by rewrite Hout.
      + eapply open_kept; [exact H6|]. apply Forall_forall. intros q Hq. pose proof (proj1 (Forall_forall _ _) H9 q Hq) as [_ Hq'].
        rewrite Hns, list_lookup_insert_ne; [done|]. intros ->. congruence.
      + done.
      + done.
      + by apply Hsh.
      + done.
      + done.
  Qed.

  (** A call starts. *)
  Lemma going_start s c a inp v kd from g mp s' pcs opened path t cs b : going s pcs opened path t cs ->
    start_trace_on_call s c a inp v kd from g mp = Ok s' -> hd false pcs = false -> cx_depth c = length pcs -> k + N.of_nat (length pcs) < 65535 ->
    (default false mp = true -> b = true) ->
    exists path' t', going s' (b :: pcs) ((length (ti_traces s), O) :: opened) path' t'
      (cs ++ if left_out (ti_traces s') (length (ti_traces s)) then [] else [(k + N.of_nat (length opened), Header (length (ti_traces s)))]).
  Proof.
    intros [H1 H2 H3 H4 H5 H6 H7 H8 H9 H10 H11] H Hpc Hd Hk Hb.
    destruct H5 as [Hvis|(h & _ & Hpc' & _)]; [|congruence]. unfold start_trace_on_call in H.
    destruct (match ti_trace_stack s with [] => _ | _ => _ end) as [gl sp]. inv_bind H. injection H as <-. cbn [ti_traces].
    set (tr := new_trace_of _ _ _ _ _ _ _ _) in E.
    destruct H10 as (n & Hn & Hdn). destruct H7 as (rest & Hroot).
    assert (Hsp : spine (ti_traces s) O t) by (by eapply open_spine).
    assert (Hlen : length opened = S (length path)).
    { apply (f_equal length) in Hvis. rewrite map_length, reverse_length, app_length in Hvis. cbn in Hvis. lia. }
    assert (Htl : (t < length (ti_traces s))%nat) by (by eapply lookup_lt_Some).
    unfold push_trace in E. rewrite (push_trace_spine _ _ tr t n O _ Hsp Hn) in E; [|cbn; congruence|lia]. injection E as <-. cbn [fst snd].
    set (id := length (ti_traces s)). set (new := mkNode _ _ _ _ _ _).
    assert (Hold : forall (ns1 : list CallTraceNode) q, length ns1 = id -> (q < id)%nat -> (ns1 ++ [new]) !! q = ns1 !! q).
    { intros ns1 q Hl Hq. rewrite lookup_app_l by lia. done. }
    assert (Hnew : forall ns1 : list CallTraceNode, length ns1 = id -> (ns1 ++ [new]) !! id = Some new).
    { intros ns1 <-. by rewrite list_lookup_middle. }
    assert (Hids : id ∉ map fst opened).
    { intros Hin. apply elem_of_list_fmap in Hin as (p & Hid & Hp). pose proof (proj1 (Forall_forall _ _) H11 p Hp) as (m & Hm & _). apply lookup_lt_Some in Hm. unfold id in Hid. lia. }
    destruct (default false mp) eqn:Emp.
    - assert (Hout : left_out (ti_traces s ++ [new]) id = true).
      { unfold left_out. rewrite Hnew by done. done. }
      rewrite Hout, app_nil_r. exists path, t. split; cbn [ti_config ti_trace_stack ti_traces].
      + done.
      + cbn [map fst]. by rewrite H2.
      + cbn [map fst]. by constructor.
      + cbn. by rewrite H4.
      + right. exists id. cbn [map fst hd]. rewrite Hvis. split; [done|]. split; [by apply Hb|done].
      + eapply open_kept; [exact H6|]. apply Forall_forall. intros q Hq. destruct (proj1 (Forall_forall _ _) H9 q Hq) as [Hq' _]. by rewrite Hold.
      + by exists rest.
      + done.
      + rewrite app_length. apply Forall_forall. intros q Hq. destruct (proj1 (Forall_forall _ _) H9 q Hq) as [Hq' Hq2]. split; [lia|]. unfold left_out. by rewrite Hold.
      + exists n. by rewrite Hold.
      + constructor; [exists new; cbn [fst snd]; by rewrite Hnew|]. apply Forall_forall. intros p Hp. pose proof (proj1 (Forall_forall _ _) H11 p Hp) as (m & Hm & Hml). exists m. split; [|done].
        rewrite Hold; [done|done|]. by eapply lookup_lt_Some.
    - set (ns1 := <[t := attach_child id n]> (ti_traces s)).
      assert (Hl1 : length ns1 = id) by apply insert_length.
      assert (Ht1 : ns1 !! t = Some (attach_child id n)) by (by apply list_lookup_insert).
      assert (Hout : left_out (ns1 ++ [new]) id = false).
      { unfold left_out. rewrite Hnew by done. done. }
      assert (Hsame : forall q, (q < id)%nat -> left_out (ns1 ++ [new]) q = left_out (ti_traces s) q).
      { intros q Hq. unfold left_out. rewrite Hold by done. destruct (decide (t = q)) as [<-|Hne]; [by rewrite Ht1, Hn|]. unfold ns1. by rewrite list_lookup_insert_ne. }
      rewrite Hout. exists (path ++ [t]), id. split; cbn [ti_config ti_trace_stack ti_traces].
      + done.
      + cbn [map fst]. by rewrite H2.
      + cbn [map fst]. by constructor.
      + cbn. by rewrite H4.
      + left. cbn [map fst]. rewrite Hvis. by rewrite (reverse_app (path ++ [t]) [id]).
      + rewrite Hlen. replace (k + N.of_nat (S (length path))) with (k + N.of_nat (length path) + 1) by lia. rewrite <- app_assoc. cbn [app].
        apply open_starts; [done|done| |done|lia|done|cbn; congruence]. eapply Forall_impl; [exact H9|]. by intros q [? _].
      + rewrite Hroot. by exists (rest ++ [id]).
      + rewrite headers_app. cbn. apply NoDup_app. split; [done|]. split; [|apply NoDup_singleton]. intros q Hq Hq'. apply elem_of_list_singleton in Hq' as ->.
        destruct (proj1 (Forall_forall _ _) H9 id Hq) as [Hq' _]. unfold id in Hq'. lia.
      + rewrite headers_app. apply Forall_app. rewrite app_length, Hl1. split.
        * apply Forall_forall. intros q Hq. destruct (proj1 (Forall_forall _ _) H9 q Hq) as [Hq' Hq2]. split; [fold id in Hq'; lia|]. by rewrite Hsame.
        * cbn. constructor; [|constructor]. split; [lia|done].
      + exists new. rewrite Hnew by done. split; [done|]. cbn. rewrite app_length. cbn. rewrite Hd, H4, Hlen. lia.
      + constructor; [exists new; cbn [fst snd]; by rewrite Hnew|]. apply Forall_forall. intros p Hp. pose proof (proj1 (Forall_forall _ _) H11 p Hp) as (m & Hm & Hml).
        assert (Hpl : (fst p < id)%nat) by (by eapply lookup_lt_Some). rewrite Hold by done. destruct (decide (t = fst p)) as [Heq|Hne].
        * rewrite <- Heq in Hm |- *. rewrite Ht1. exists (attach_child id n). split; [done|]. cbn. congruence.
        * exists m. unfold ns1. by rewrite list_lookup_insert_ne.
  Qed.

  (** A call other than the outermost ends, the record of which has already been changed. *)
  Lemma going_end s s' b pcs i j p opened path t cs : going s (b :: pcs) ((i, j) :: p :: opened) path t cs ->
    ti_config s' = ti_config s -> ti_traces s' = ti_traces s -> ti_trace_stack s' = map fst (p :: opened) ->
    exists path' t', going s' pcs (p :: opened) path' t' (cs ++ if left_out (ti_traces s) i then [] else [(k + N.of_nat (length ((i, j) :: p :: opened)), Footer i)]).
  Proof.
    intros [H1 H2 H3 H4 H5 H6 H7 H8 H9 H10 H11] Hc Hns Hst. cbn [map fst] in H3. apply NoDup_cons in H3 as [Hni H3]. inversion_clear H11 as [|? ? _ H11'].
    injection H4 as H4. destruct H5 as [Hvis|(h & Hm & _ & Hh)].
    - rewrite reverse_app in Hvis. cbn [map fst reverse rev_append app] in Hvis. injection Hvis as -> Hvis.
      assert (Hne : path <> []) by (by intros ->).
      assert (Hot : left_out (ti_traces s) t = false).
      { eapply (proj1 (Forall_forall _ _) H9). eapply open_path; [exact H6|]. apply elem_of_app. right. by left. }
      rewrite Hot. destruct (exists_last Hne) as (path' & t' & ->). exists path', t'.
      assert (Hlen : length (p :: opened) = length (path' ++ [t'])).
      { apply (f_equal length) in Hvis. rewrite reverse_length in Hvis. cbn [length] in Hvis |- *. by rewrite map_length in Hvis. }
      split.
      + congruence.
      + done.
      + done.
      + done.
      + by left.
      + rewrite Hns. cbn [length] in Hlen |- *. replace (k + N.of_nat (S (S (length opened)))) with (k + N.of_nat (length (path' ++ [t'])) + 1) by lia. by apply open_ends.
      + destruct H7 as (rest & H7). destruct path' as [|x path']; [cbn in H7 |- *; injection H7 as -> _; by eexists|]. cbn in H7 |- *. injection H7 as -> _. by eexists.
      + rewrite headers_app. cbn. by rewrite app_nil_r.
      + rewrite headers_app. cbn. rewrite app_nil_r. by rewrite Hns.
      + rewrite Hns. rewrite <- app_assoc in H6. cbn [app] in H6. destruct (open_depths _ _ _ _ _ _ H6) as (na & nb & Ha & Hb & Hd). exists na. split; [done|].
        destruct H10 as (m & Hm & Hmd). rewrite Hb in Hm. injection Hm as <-. rewrite app_length in Hmd. cbn in Hmd. lia.
      + by rewrite Hns.
    - cbn [map fst] in Hm. injection Hm as <- Hm. rewrite Hh, app_nil_r. exists path, t. split.
      + congruence.
      + done.
      + done.
      + done.
      + left. done.
      + by rewrite Hns.
      + done.
      + done.
      + by rewrite Hns.
      + by rewrite Hns.
      + by rewrite Hns.
  Qed.

  (** The hook calls of an execution as the inspector sees them: depths are those of the open calls, less than [B]; left-out
      calls make no calls; nothing follows the end of the outermost call. [pcs]: which of the open calls could be left
      out. *)
  Context (B : nat).
  Fixpoint sane (pcs : list bool) (es : list event) : Prop :=
    match es with
    | [] => True
    | e :: es =>
        pcs <> [] /\
        match e with
        | ECall c i => cx_depth c = length pcs /\ hd false pcs = false /\ (length pcs < B)%nat /\
            sane ((exclude_precompile_calls cfg && cx_precompiles c (snd (call_from_to i))) :: pcs) es
        | ECreate c _ => cx_depth c = length pcs /\ hd false pcs = false /\ (length pcs < B)%nat /\ sane (false :: pcs) es
        | ECallEnd _ _ _ | ECreateEnd _ _ _ => sane (tail pcs) es
        | _ => sane pcs es
        end
    end.
  Lemma sane_prefix es1 es2 : forall pcs, sane pcs (es1 ++ es2) -> sane pcs es1.
  Proof. induction es1 as [|e es1 IH]; intros pcs; [done|]. cbn [app sane]. intros [Hp H]. split; [done|]. destruct e; naive_solver. Qed.
  Lemma sane_no_root es : forall pcs, sane pcs es -> Forall (fun e => is_root_start e = false) es.
  Proof.
    induction es as [|e es IH]; intros pcs; [constructor|]. cbn [sane]. intros [Hp H].
    assert (Hl : length pcs <> O) by (by destruct pcs).
    destruct e; cbn [is_root_start]; try (constructor; [done|by eapply IH]).
    - destruct H as (Hd & _ & _ & H). constructor; [cbn [is_root_start]; rewrite Hd; by apply Nat.eqb_neq|by eapply IH].
    - destruct H as (Hd & _ & _ & H). constructor; [cbn [is_root_start]; rewrite Hd; by apply Nat.eqb_neq|by eapply IH].
  Qed.

  Lemma later_out ns ns' i : later_arena ns ns' -> (i < length ns)%nat -> left_out ns' i = left_out ns i.
  Proof.
    intros Hl Hi. destruct (lookup_lt_is_Some_2 _ _ Hi) as (n & Hn). destruct (Hl i n Hn) as (n' & Hn' & H). unfold left_out. rewrite Hn, Hn'.
    unfold nd_is_precompile. by rewrite (ln_precompile _ _ H).
  Qed.

  Lemma last_lines_closing out path : (forall i, i ∈ path -> out i = false) -> last_lines out k (reverse path) = closing_lines k path.
  Proof.
    revert k. induction path as [|i path IH] using rev_ind; intros k0 Ho; [done|]. rewrite reverse_app. cbn [reverse rev_append app last_lines].
    rewrite Ho by (apply elem_of_app; right; by left). rewrite IH by (intros; apply Ho, elem_of_app; by left). cbn [length]. rewrite reverse_length.
    clear IH Ho. revert k0. induction path as [|j path IH]; intros k0; [cbn; f_equal; f_equal; lia|]. cbn [app closing_lines length].
    rewrite <- IH. replace (k0 + 1 + N.of_nat (S (length path))) with (k0 + N.of_nat (S (S (length path)))) by lia. done.
  Qed.

  Hypothesis Hbound : k + N.of_nat B <= 65535.
  Definition layout_ok (es : list event) : Prop := forall s s' pcs opened path t cs, going s pcs opened path t cs -> sane pcs es -> ti_run s es = Ok s' ->
    let out := left_out (ti_traces s') in
    node_layout (ti_traces s') k O (cs ++ written_during (record_logs cfg) out k opened (length (ti_traces s)) es ++
      last_lines out k (unended (map fst opened) (length (ti_traces s)) es)).

  Lemma going_ended s s1 c r cr s' pcs i j opened path t cs es : layout_ok es -> going s pcs ((i, j) :: opened) path t cs -> sane (tail pcs) es ->
    fill_trace_on_call_end s c r cr = Ok s1 -> ti_run s1 es = Ok s' -> pcs <> [] -> ti_trace_stack s = i :: map fst opened ->
    length (ti_traces s1) = (length (ti_traces s) + 0)%nat -> (i < length (ti_traces s))%nat ->
    let out := left_out (ti_traces s') in
    (forall q, (q < length (ti_traces s))%nat -> out q = left_out (ti_traces s) q) ->
    node_layout (ti_traces s') k O (cs ++
      ((if out i then [] else [(k + N.of_nat (length ((i, j) :: opened)), Footer i)]) ++ written_during (record_logs cfg) out k opened (length (ti_traces s)) es) ++
      last_lines out k (unended (tail (map fst ((i, j) :: opened))) (length (ti_traces s)) es)).
  Proof.
    intros IH Hg Hs E Hr Hpcs Hst Hcount Hil out Hout. rewrite Nat.add_0_r in Hcount. unfold fill_trace_on_call_end in E. rewrite Hst in E. inv_bind E. injection E as <-.
    edestruct update_quiet as [Hq1 Hq2]; [exact E0|done|]. cbn [ti_traces] in Hcount.
    set (s0 := mkTI (ti_config s) a (i :: map fst opened) (ti_step_stack s) (Some (ir_output r)) (ti_spec_id s)).
    assert (Hg0 : going s0 pcs ((i, j) :: opened) path t cs) by (by eapply going_quiet).
    assert (Hout0 : left_out a i = out i). { rewrite Hout by done. by apply kept_out. }
    destruct pcs as [|b pcs]; [done|]. cbn [tail] in Hs. rewrite <- app_assoc, (app_assoc cs), <- Hcount. cbn [map fst tail].
    destruct opened as [|p opened].
    - assert (pcs = []) as ->. { pose proof (go_len _ _ _ _ _ _ Hg) as Hl. by destruct pcs. }
      destruct es as [|e es]; [|cbn in Hs; by destruct Hs]. unfold ti_run, run in Hr. cbn in Hr. injection Hr as <-. cbn [written_during unended map last_lines app]. rewrite app_nil_r.
      destruct (go_root _ _ _ _ _ _ Hg0) as (rest & Hroot). pose proof (open_closed _ _ _ _ (go_open _ _ _ _ _ _ Hg0) _ _ Hroot) as Hl.
      destruct (go_top _ _ _ _ _ _ Hg0) as [Hv|(h & Hm & _)].
      + rewrite reverse_app in Hv. cbn [map fst reverse rev_append app] in Hv. injection Hv as -> Hv. destruct path as [|x path]; [|apply (f_equal length) in Hv; rewrite reverse_length in Hv; discriminate].
        cbn [app closing_lines] in Hl. assert (Hot : out t = false).
        { rewrite <- Hout0. apply (proj1 (Forall_forall _ _) (go_shown _ _ _ _ _ _ Hg0) t). eapply open_path; [apply Hg0|by left]. }
        rewrite Hot. exact Hl.
      + exfalso. apply (f_equal length) in Hm. cbn in Hm. rewrite reverse_length, app_length in Hm. cbn in Hm. lia.
    - edestruct (going_end s0) as (path' & t' & Hg'); [exact Hg0|..].
      + instantiate (1 := mkTI (ti_config s) a (map fst (p :: opened)) (ti_step_stack s) (Some (ir_output r)) (ti_spec_id s)). done.
      + done.
      + done.
      + cbn [ti_traces s0] in Hg'. rewrite Hout0 in Hg'. change (fst p :: map fst opened) with (map fst (p :: opened)). exact (IH _ s' _ _ _ _ _ Hg' Hs Hr).
  Qed.

  Lemma going_layout es : forall s s' pcs opened path t cs, going s pcs opened path t cs -> sane pcs es -> ti_run s es = Ok s' ->
    let out := left_out (ti_traces s') in
    node_layout (ti_traces s') k O (cs ++ written_during (record_logs cfg) out k opened (length (ti_traces s)) es ++
      last_lines out k (unended (map fst opened) (length (ti_traces s)) es)).
  Proof.
    induction es as [|e es IH]; intros s s' pcs opened path t cs Hg Hs Hr out.
    { unfold ti_run, run in Hr. cbn in Hr. injection Hr as <-. cbn [written_during unended app].
      assert (Hll : last_lines out k (map fst opened) = closing_lines k (path ++ [t])).
      { assert (Hvis : forall i, i ∈ path ++ [t] -> out i = false).
        { intros i Hi. apply (proj1 (Forall_forall _ _) (go_shown _ _ _ _ _ _ Hg)). eapply open_path; [apply Hg|done]. }
        destruct (go_top _ _ _ _ _ _ Hg) as [->|(h & -> & _ & Hh)]; [by apply last_lines_closing|]. cbn [last_lines]. unfold out at 1. rewrite Hh. by apply last_lines_closing. }
      rewrite Hll. destruct (go_root _ _ _ _ _ _ Hg) as (rest & Hroot). eapply open_closed; [apply Hg|done]. }
    pose proof (sane_no_root _ _ Hs) as Hnr. inversion_clear Hnr as [|? ? Hroot Hnr'].
    unfold ti_run in Hr. rewrite run_cons in Hr. inv_bind Hr. destruct a as [s1 r]. cbn [fst] in Hr. fold (ti_run s1 es) in Hr.
    pose proof (ti_handle_later _ _ _ _ E Hroot) as Hlater. pose proof (ti_handle_count _ _ _ _ E Hroot) as Hcount.
    pose proof (ti_run_later _ _ _ Hr Hnr') as Hlater'.
    assert (Hout : forall i, (i < length (ti_traces s))%nat -> out i = left_out (ti_traces s) i).
    { intros i Hi. unfold out. apply later_out; [by eapply later_arena_trans|done]. }
    assert (Hout1 : forall i, (i < length (ti_traces s1))%nat -> out i = left_out (ti_traces s1) i).
    { intros i Hi. unfold out. by apply later_out. }
    cbn [sane] in Hs. destruct Hs as [Hpcs Hs].
    destruct opened as [|[i j] opened].
    { exfalso. pose proof (go_len _ _ _ _ _ _ Hg) as Hl. by destruct pcs. }
    assert (Hin : exists n, ti_traces s !! i = Some n /\ length (nd_logs n) = j).
    { pose proof (go_logs _ _ _ _ _ _ Hg) as Hlg. inversion_clear Hlg. done. }
    destruct Hin as (n & Hn & Hj). assert (Hil : (i < length (ti_traces s))%nat) by (by eapply lookup_lt_Some).
    assert (Hst : ti_trace_stack s = i :: map fst opened) by apply (go_stack _ _ _ _ _ _ Hg).
    assert (Hcfg : ti_config s = cfg) by apply (go_cfg _ _ _ _ _ _ Hg).
    destruct e as [it c|it c|l c|c ci|c ci o|c ci|c ci o|a b v]; cbn [ti_handle] in E; inv_bind E; injection E as <- _; cbn [is_start] in Hcount; cbn [written_during unended is_start is_end].
    - (* step *)
      rewrite Nat.add_0_r in Hcount.
      assert (Hq : exists path' t' cs', going a pcs ((i, j) :: opened) path' t' cs' /\ cs' = cs); [|destruct Hq as (path' & t' & cs' & Hg' & ->); rewrite <- Hcount; by eapply IH].
      destruct (record_steps _); [|injection E0 as <-; by exists path, t, cs]. unfold start_step in E0. do 2 inv_bind E0. unfold ti_last_trace_idx in E. rewrite Hst in E. injection E as <-.
      rewrite (index_lookup _ _ _ Hn) in E1. injection E1 as <-. destruct (negb _).
      + injection E0 as <-. exists path, t, cs. split; [|done]. by eapply going_quiet.
      + inv_bind E0. injection E0 as <-. apply update_Ok in E as (n' & Hn' & ->). rewrite Hn in Hn'. injection Hn' as <-.
        exists path, t, (cs ++ if left_out (ti_traces s) i then [] else []). split; [|by destruct (left_out _ _); rewrite app_nil_r].
        rewrite <- Hj. match goal with |- context [<[i := ?m]> _] => apply (going_top s _ pcs i j opened path t cs n m [OStep (length (tr_steps (nd_trace n)))] []) end.
        * exact Hg.
        * done.
        * done.
        * exact Hn.
        * done.
        * unfold ext. cbn. rewrite map_app. split; [done|]. split; [done|]. by apply prefix_app_r.
        * done.
        * done.
        * done.
        * eapply ml_plain; [cbn; by apply list_lookup_middle|done|constructor].
        * done.
    - (* step end *)
      rewrite Nat.add_0_r in Hcount. rewrite <- Hcount. match type of Hr with ti_run ?x _ = _ => eapply (IH x s'); [|exact Hs|exact Hr] end.
      destruct (record_steps _); [|by injection E0 as <-]. unfold fill_step_on_step_end in E0.
      destruct (ti_step_stack s) as [|[rc ti si] rest]; [done|]. destruct (negb _).
      + injection E0 as <-. by eapply going_quiet.
      + do 4 inv_bind E0. injection E0 as <-. edestruct update_quiet as [Hq1 Hq2]; [exact E3| |by eapply going_quiet].
        intros m Hm. unfold index in E. rewrite Hm in E. injection E as <-. unfold index in E1. destruct (tr_steps (nd_trace m) !! si) as [st|] eqn:Est; [|done]. injection E1 as <-.
        assert (Hde : st_decoded a2 = st_decoded st). { unfold fill_step in E2. do 2 inv_bind E2. by injection E2 as <-. }
        unfold kept, lay_depth, lay, set_step. cbn. do 3 f_equal. rewrite list_fmap_insert, Hde. apply list_insert_id. by rewrite list_lookup_fmap, Est.
    - (* log *)
      rewrite Nat.add_0_r in Hcount. rewrite Hcfg in E0. destruct (record_logs cfg); [|injection E0 as <-; by eapply IH]. unfold on_last_trace in E0. do 2 inv_bind E0.
      unfold ti_last_trace_idx in E. rewrite Hst in E. injection E as <-. injection E0 as <-. apply update_Ok in E1 as (n' & Hn' & Hns). rewrite Hn in Hn'. injection Hn' as <-. subst a1.
      rewrite <- app_assoc, (app_assoc cs). rewrite <- Hcount. change (map fst ((i, j) :: opened)) with (map fst ((i, S j) :: opened)). match type of Hr with ti_run ?x _ = _ => eapply (IH x s'); [|exact Hs|exact Hr] end. rewrite Hout by done.
      replace (S j) with (length (nd_logs (push_log l n))) by (cbn; rewrite app_length; cbn; lia).
      apply (going_top s _ pcs i j opened path t cs n (push_log l n) [OLog (length (nd_logs n))]).
      + exact Hg.
      + done.
      + done.
      + exact Hn.
      + done.
      + unfold ext. cbn. split; [by apply prefix_app_r|done].
      + done.
      + done.
      + done.
      + rewrite Hj. econstructor; [cbn; by apply list_lookup_middle|constructor].
      + done.
    - (* call *)
      destruct Hs as (Hd & Hpc & HB & Hs). unfold ti_call in E0. destruct (call_from_to ci) as [from to] eqn:Eft. inv_bind E0.
      edestruct (going_start s c) as (path' & t' & Hg'); [exact Hg|exact E0|exact Hpc|exact Hd|lia| |].
      { instantiate (1 := exclude_precompile_calls cfg && cx_precompiles c to). rewrite Hcfg. destruct (exclude_precompile_calls cfg); [|done]. cbn. unfold ti_is_precompile_call. by destruct (cx_precompiles c to). }
      rewrite <- app_assoc, (app_assoc cs). rewrite Nat.add_1_r in Hcount. rewrite <- Hcount.
      change (length (ti_traces s) :: map fst ((i, j) :: opened)) with (map fst ((length (ti_traces s), O) :: (i, j) :: opened)). match type of Hr with ti_run ?x _ = _ => eapply (IH x s'); [|exact Hs|exact Hr] end.
      rewrite Hout1 by lia. exact Hg'.
    - (* call end *) by eapply (going_ended s a c _ None).
    - (* create *)
      destruct Hs as (Hd & Hpc & HB & Hs). unfold ti_create in E0.
      edestruct (going_start s c) as (path' & t' & Hg'); [exact Hg|exact E0|exact Hpc|exact Hd|lia| |].
      { by instantiate (1 := false). }
      rewrite <- app_assoc, (app_assoc cs). rewrite Nat.add_1_r in Hcount. rewrite <- Hcount.
      change (length (ti_traces s) :: map fst ((i, j) :: opened)) with (map fst ((length (ti_traces s), O) :: (i, j) :: opened)). match type of Hr with ti_run ?x _ = _ => eapply (IH x s'); [|exact Hs|exact Hr] end.
      rewrite Hout1 by lia. exact Hg'.
    - (* create end *) by eapply (going_ended s a c).
    - (* selfdestruct *)
      rewrite Nat.add_0_r in Hcount. rewrite <- Hcount. match type of Hr with ti_run ?x _ = _ => eapply (IH x s'); [|exact Hs|exact Hr] end. unfold on_last_trace in E0. do 2 inv_bind E0. injection E0 as <-.
      edestruct update_quiet as [Hq1 Hq2]; [exact E1| |by eapply going_quiet]. done.
  Qed.
End Going.

(** ** The hook calls of a transaction *)
Section Tx.
  Context (cfg : TracingInspectorConfig) (w : world) (B : nat).

  Lemma call_to i j : snd (call_from_to i) = code_address (SCall j i).
  Proof. unfold call_from_to. cbn. by destruct (ci_scheme i). Qed.

  Definition frame_sane (f : frame) : Prop := forall d pcs es, (exclude_precompile_calls cfg = true -> precompiles_are_leaves w f) ->
    length pcs = S d -> hd false pcs = false -> (length pcs + nesting f <= B)%nat -> sane cfg B pcs es -> sane cfg B pcs (frame_events w (S d) f ++ es).

  Lemma hooks_sane d hs : forall pcs es, pcs <> [] -> sane cfg B pcs es -> sane cfg B pcs (map (hook_event w d) hs ++ es).
  Proof. induction hs as [|h hs IH]; intros pcs es Hp H; [done|]. cbn [map app]. destruct h; cbn [hook_event sane]; (split; [done|by apply IH]). Qed.

  Lemma part_sane l : Forall frame_sane (subs l) -> forall d b pcs es, (exclude_precompile_calls cfg = true -> Forall (precompiles_are_leaves w) (subs l)) ->
    length (b :: pcs) = S d -> (b = true -> subs l = []) -> (length (b :: pcs) + subs_nesting l <= B)%nat -> sane cfg B (b :: pcs) es -> sane cfg B (b :: pcs) (part_events w d l ++ es).
  Proof.
    induction l as [|it l IH]; intros Hf d b pcs es Hl Hd Hb HB Hs; [done|]. cbn [part_events flat_map]. fold (part_events w d l). rewrite <- app_assoc.
    destruct it as [o|h|g]; cbn [subs flat_map app subs_nesting] in *; fold (subs l) in *.
    - unfold instr_events. cbn [app sane]. split; [done|]. rewrite <- app_assoc. apply hooks_sane; [done|]. cbn [app sane]. split; [done|]. by apply IH.
    - apply (hooks_sane (S d) [h]); [done|]. by apply IH.
    - inversion_clear Hf as [|? ? Hg Hf']. assert (Hbf : b = false) by (destruct b; [by discriminate Hb|done]).
      apply Hg; [intros Hx; specialize (Hl Hx); by inversion_clear Hl|done|done|lia|].
      apply IH; [done|intros Hx; specialize (Hl Hx); by inversion_clear Hl|done|by rewrite Hbf|lia|done].
  Qed.

  Lemma leaves_subs s body e : precompiles_are_leaves w (Frame s body e) ->
    Forall (precompiles_are_leaves w) (subs body) /\ (is_call s = true -> w_precompiles w (code_address s) = true -> subs body = []).
  Proof. unfold precompiles_are_leaves. intros H. apply every_frame_inv in H as [H1 H2]. by split. Qed.

  Lemma frames_sane f : frame_sane f.
  Proof.
    induction f as [s body e IH] using frame_ind'. intros d pcs es Hl Hlen Hhd HB Hs. rewrite frame_events_eq. cbn [app]. rewrite <- app_assoc. rewrite nesting_eq in HB.
    change (body_events w (S d) body) with (part_events w (S d) body).
    assert (Hne : pcs <> []) by (by destruct pcs).
    assert (Hend : forall b, sane cfg B (b :: pcs) ([end_event w (S d) s e] ++ es)) by (intros b; by destruct s).
    destruct s as [j i|j i]; cbn [start_event sane]; (split; [done|]); (split; [done|]); (split; [done|]); (split; [lia|]).
    - apply part_sane; [done|intros Hx; by apply (leaves_subs _ _ _ (Hl Hx))|cbn; congruence| |cbn [length]; lia|apply Hend].
      destruct (exclude_precompile_calls cfg); [|done]. cbn [andb ctx_of cx_precompiles]. rewrite (call_to i j). intros Hp. by apply (leaves_subs _ _ _ (Hl eq_refl)).
    - apply part_sane; [done|intros Hx; by apply (leaves_subs _ _ _ (Hl Hx))|cbn; congruence|done|cbn [length]; lia|apply Hend].
  Qed.
End Tx.

Lemma tx_cut_layout cfg w f es1 es2 s k : env_ok cfg w f -> tx_events w f = es1 ++ es2 -> es1 <> [] -> ti_run (ti_new cfg) es1 = Ok s -> k + N.of_nat (nesting f) <= 65535 ->
  let out := left_out (ti_traces s) in
  node_layout (ti_traces s) k O (written_during (record_logs cfg) out k [] O es1 ++ last_lines out k (unended [] O es1)).
Proof.
  intros He Heq Hne Hr Hk out. destruct es1 as [|e0 es1]; [done|]. destruct f as [s0 body e].
  assert (Hsane : sane cfg (nesting (Frame s0 body e)) [false] (es1 ++ es2)).
  { unfold tx_events in Heq. rewrite frame_events_eq in Heq. cbn [app] in Heq. injection Heq as _ <-. change (body_events w 0 body) with (part_events w 0 body).
    apply part_sane; [apply Forall_forall; intros g _; by apply frames_sane|intros Hx; apply (leaves_subs w s0 body e); by apply He|done|done|rewrite nesting_eq; cbn; lia|by destruct s0]. }
  apply sane_prefix in Hsane. pose proof (sane_no_root _ _ _ _ Hsane) as Hnr.
  unfold tx_events in Heq. rewrite frame_events_eq in Heq. cbn [app] in Heq. injection Heq as <- _.
  unfold ti_run in Hr. rewrite run_cons in Hr. destruct (ti_handle _ _) as [[s1 r]| |] eqn:E0; cbn [rbind fst] in Hr; [|done..].
  assert (Hr0 : run ti_handle (ti_new cfg) [start_event w 0 s0] = Ok s1) by (rewrite run_cons, E0; done).
  rewrite (start_event_run cfg w (ti_new cfg) 0 s0 None node_default) in Hr0 by done.
  set (n0 := nd_set_trace node_default (start_trace cfg w 0 s0 None)) in *.
  change (push_trace (ti_traces (ti_new cfg)) 0 (if excluded cfg w s0 None then PushOnly else PushAndAttachToParent) (start_trace cfg w 0 s0 None))
      with (Ok ([n0], O)) in Hr0. cbn [rbind fst snd ti_new ti_trace_stack ti_step_stack ti_last_call_return_data] in Hr0. injection Hr0 as <-.
  set (s1 := mkTI _ _ _ _ _ _) in *.
  assert (Hn0 : left_out [n0] O = false).
  { unfold left_out, nd_is_precompile, n0. cbn. unfold mp_of. destruct s0; [|done]. destruct (exclude_precompile_calls cfg); [|done]. cbn. by destruct (w_precompiles _ _). }
  assert (Hkk : k < 65535) by (rewrite nesting_eq in Hk; lia).
  assert (Hg : going cfg k s1 [false] [(O, O)] [] O [(k, Header O)]).
  { split; cbn [ti_config ti_trace_stack ti_traces s1 map fst app].
    - done.
    - done.
    - apply NoDup_singleton.
    - done.
    - by left.
    - econstructor; [done|done|]. constructor.
    - by eexists.
    - apply NoDup_singleton.
    - cbn. constructor; [|constructor]. split; [lia|done].
    - by exists n0.
    - constructor; [|constructor]. by exists n0. }
  pose proof (going_layout cfg k _ Hk es1 s1 s _ _ _ _ _ Hg Hsane Hr) as H. cbn zeta in H. fold out in H.
  assert (Hout : out O = false).
  { rewrite <- Hn0. unfold out. apply (later_out [n0]); [|cbn; lia]. by apply (ti_run_later _ _ _ Hr). }
  assert (Hstart : is_start (start_event w 0 s0) = true) by (by destruct s0).
  cbn [unended]. rewrite Hstart. replace (written_during (record_logs cfg) out k [] O (start_event w 0 s0 :: es1)) with ([(k, Header O)] ++ written_during (record_logs cfg) out k [(O, O)] 1%nat es1); [exact H|].
  destruct s0; cbn [start_event written_during length]; by rewrite Hout, N.add_0_r.
Qed.

(** Writing a recording whose layout is known. *)
Lemma layout_written ck ns wr cs : arena_tree ns -> node_layout ns (tw_level wr) O cs ->
  let text := rendering ck (tw_use_colors wr) (tw_color_cheatcodes wr) ns cs in
  exists wr' result, write_arena ck ns wr = Ok (wr', result) /\
    tw_out wr' = tw_out wr ++ match tw_budget wr with None => text | Some b => take b text end /\
    (result = Some tt <-> tw_flush wr = true /\ forall b, tw_budget wr = Some b -> (length text <= b)%nat) /\
    (result = Some tt -> tw_level wr' = tw_level wr).
Proof.
  intros Ht Hl text.
  set (ps := map (fun c => (fst c, chunk_text ck (tw_use_colors wr) (tw_color_cheatcodes wr) ns c)) cs).
  assert (Hps : concat (map snd ps) = text).
  { unfold text, ps, rendering. rewrite map_map. done. }
  assert (Hdown : forall i n j c, ns !! i = Some n -> nd_children n !! j = Some c -> (i < c)%nat).
  { intros i n j c Hi Hc. by destruct (child_lookup _ Ht i n j c Hi Hc) as (_ & _ & _ & _ & ? & _). }
  pose proof (write_node_layout (tw_use_colors wr) (tw_color_cheatcodes wr) ck ns Hdown _ _ _ Hl (writer_fuel ns)) as He.
  assert (Hw : write_arena ck ns wr =
    Ok (if snd (emit ps wr) then (tw_set_level (fst (emit ps wr)) (tw_level wr), if tw_flush wr then Some tt else None)
        else (fst (emit ps wr), None))).
  { unfold write_arena, io_bind. rewrite He by done. fold ps. pose proof (emit_budget ps wr) as [_ Hfl].
    destruct (snd (emit ps wr)); [|done]. unfold flush. cbn [tw_flush tw_set_level]. by rewrite Hfl. }
  rewrite Hw. do 2 eexists. split; [by rewrite <-surjective_pairing|].
  pose proof (emit_budget ps wr) as [Hb _]. rewrite Hps in Hb. destruct (tw_budget wr) as [b|].
  - destruct Hb as [(H1 & -> & H3 & _)|(H1 & -> & ps1 & k & t & ps2 & H3 & _ & H4 & H5)]; cbn [fst snd].
    + split_and!; [cbn; by rewrite take_ge, H3| |done]. split; [intros; destruct (tw_flush wr); [|done]; split; [done|]; by intros ? [= <-]|]. by intros [-> _].
    + split_and!; [|split; [done|]|done].
      * rewrite H5. f_equal. rewrite <-Hps, H3, map_app, concat_app. cbn [map concat snd]. rewrite take_app_ge by lia. f_equal.
        rewrite take_app_le by lia. done.
      * intros [_ H]. specialize (H b eq_refl). lia.
  - destruct Hb as (-> & H2 & _). cbn [fst snd]. split_and!; [done| |done]. split; [intros; destruct (tw_flush wr); done|]. by intros [-> _].
Qed.

(** ** Parts written before the cut *)

(** The open calls with the numbers of their logs, and the number of the next call, after some hook calls. *)
Fixpoint written_state (logs : bool) (opened : list (nat * nat)) (next : nat) (es : list event) : list (nat * nat) * nat :=
  match es with
  | [] => (opened, next)
  | e :: es =>
      match e, opened with
      | (ECall _ _ | ECreate _ _), _ => written_state logs ((next, O) :: opened) (S next) es
      | (ECallEnd _ _ _ | ECreateEnd _ _ _), _ :: opened => written_state logs opened next es
      | ELog _ _, (i, j) :: opened => written_state logs ((i, if logs then S j else j) :: opened) next es
      | _, _ => written_state logs opened next es
      end
  end.
Lemma written_app logs out k es1 : forall opened next es2,
  written_during logs out k opened next (es1 ++ es2) = written_during logs out k opened next es1 ++
    written_during logs out k (written_state logs opened next es1).1 (written_state logs opened next es1).2 es2.
Proof.
  induction es1 as [|e es1 IH]; intros opened next es2; [done|]. destruct e, opened as [|[i0 j0] opened]; cbn [app written_during written_state]; rewrite ?IH, ?app_assoc; try done.
  by destruct logs.
Qed.
Lemma written_ext logs out out' k es : forall opened next, (forall i, (i < next + length (List.filter is_start es))%nat -> out i = out' i) -> Forall (fun p => (fst p < next)%nat) opened ->
  written_during logs out k opened next es = written_during logs out' k opened next es.
Proof.
  induction es as [|e es IH]; intros opened next Ho Hl; [done|].
  assert (Hcons : forall i, (i < next)%nat -> out i = out' i) by (intros; apply Ho; lia).
  assert (Hstart : forall o, (forall i, (i < next + S (length (List.filter is_start es)))%nat -> out i = out' i) -> Forall (fun p => (fst p < next)%nat) o ->
     written_during logs out k ((next, O) :: o) (S next) es = written_during logs out' k ((next, O) :: o) (S next) es).
  { intros o Ho' Hl'. apply IH; [intros; apply Ho'; lia|]. constructor; [cbn; lia|]. eapply Forall_impl; [exact Hl'|]. intros p Hp. cbn in Hp |- *. lia. }
  destruct e, opened as [|[i0 j0] opened]; cbn [written_during List.filter is_start] in Ho |- *; cbn [length] in Ho;
    try (rewrite Hstart by done; rewrite Ho by lia; done); try (apply IH; done); inversion_clear Hl as [|? ? Hi Hl']; cbn [fst] in Hi.
  - destruct logs; [|apply IH; [done|by constructor]]. rewrite (IH ((i0, S j0) :: opened)) by (done || by constructor). by rewrite Hcons.
  - rewrite (IH opened) by done. by rewrite Hcons.
  - rewrite (IH opened) by done. by rewrite Hcons.
Qed.

Lemma unended_from es : forall opened next i, i ∈ unended opened next es -> i ∈ opened \/ (next <= i)%nat.
Proof.
  induction es as [|e es IH]; intros opened next i; cbn [unended]; [by left|]. destruct (is_start e); [|destruct (is_end e)].
  - intros H. apply IH in H as [H|H]; [|right; lia]. apply elem_of_cons in H as [->|H]; [by right|by left].
  - intros H. apply IH in H as [H|H]; [|by right]. left. destruct opened; [done|by right].
  - apply IH.
Qed.
(** A call whose last line has been written has ended. *)
Lemma footers_ended logs out k es : forall opened next l i, NoDup (map fst opened) -> Forall (fun p => (fst p < next)%nat) opened ->
  (l, Footer i) ∈ written_during logs out k opened next es -> i ∉ unended (map fst opened) next es /\ (i < next + length (List.filter is_start es))%nat.
Proof.
  induction es as [|e es IH]; intros opened next l i Hnd Hl Hin; [by apply elem_of_nil in Hin|].
  assert (Hend : forall i0 j0 o, NoDup (map fst ((i0, j0) :: o)) -> Forall (fun p => (fst p < next)%nat) ((i0, j0) :: o) -> forall lev,
    (l, Footer i) ∈ (if out i0 then [] else [(lev, Footer i0)]) ++ written_during logs out k o next es -> i ∉ unended (map fst o) next es /\ (i < next + length (List.filter is_start es))%nat).
  { intros i0 j0 o Hnd' Hl' lev Hin'. cbn [map fst] in Hnd'. apply NoDup_cons in Hnd' as [Hni Hnd']. inversion_clear Hl' as [|? ? Hi0 Hl2]. cbn [fst] in Hi0.
    apply elem_of_app in Hin' as [Hin'|Hin']; [|by eapply IH]. destruct (out i0); [by apply elem_of_nil in Hin'|]. apply elem_of_list_singleton in Hin' as [= _ ->]. split; [|lia].
    intros Hu. apply unended_from in Hu as [Hu|Hu]; [done|lia]. }
  assert (Hstart : (l, Footer i) ∈ (if out next then [] else [(k + N.of_nat (length opened), Header next)]) ++ written_during logs out k ((next, O) :: opened) (S next) es ->
    i ∉ unended (next :: map fst opened) (S next) es /\ (i < next + S (length (List.filter is_start es)))%nat).
  { intros Hin'. apply elem_of_app in Hin' as [Hin'|Hin']; [destruct (out next); [by apply elem_of_nil in Hin'|by apply elem_of_list_singleton in Hin']|].
    apply (IH ((next, O) :: opened)) in Hin' as [H1 H2]; [split; [done|lia]|..].
    - cbn [map fst]. constructor; [|done]. intros Hn. apply elem_of_list_fmap in Hn as (p & -> & Hp). pose proof (proj1 (Forall_forall _ _) Hl p Hp) as Hlt. cbn in Hlt. lia.
    - constructor; [cbn; lia|]. eapply Forall_impl; [exact Hl|]. intros p Hp. cbn in Hp |- *. lia. }
  destruct e, opened as [|[q0 r0] opened]; cbn [written_during List.filter is_start is_end unended] in Hin |- *; try (by apply Hstart); try (by eapply IH).
  - destruct logs; [|by eapply (IH ((q0, r0) :: opened))]. apply elem_of_app in Hin as [Hin|Hin]; [destruct (out q0); [by apply elem_of_nil in Hin|by apply elem_of_list_singleton in Hin]|].
    eapply (IH ((q0, S r0) :: opened)); [done| |done]. inversion_clear Hl. by constructor.
  - by apply (IH [] next l i).
  - by eapply (Hend q0 r0).
  - by apply (IH [] next l i).
  - by eapply (Hend q0 r0).

Qed.
(** Calls with a first line have started. *)
Lemma headers_started logs out k es : forall opened next l i, (l, Header i) ∈ written_during logs out k opened next es -> (i < next + length (List.filter is_start es))%nat.
Proof.
  induction es as [|e es IH]; intros opened next l i Hin; [by apply elem_of_nil in Hin|].
  destruct e, opened as [|[q0 r0] opened]; cbn [written_during List.filter is_start length] in Hin |- *; try (by eapply IH);
    try (apply elem_of_app in Hin as [Hin|Hin]; [destruct (out _); [by apply elem_of_nil in Hin|apply elem_of_list_singleton in Hin as [= _ ->]; lia]|apply IH in Hin; lia]).
  - destruct logs; [|by eapply IH]. apply elem_of_app in Hin as [Hin|Hin]; [destruct (out _); [by apply elem_of_nil in Hin|by apply elem_of_list_singleton in Hin]|by eapply IH].
Qed.
(** Only first lines, logs and last lines are written. *)
Lemma written_parts logs out k es : forall opened next l p, (l, p) ∈ written_during logs out k opened next es ->
  match p with Header _ | Footer _ | OneLog _ _ => True | _ => False end.
Proof.
  induction es as [|e es IH]; intros opened next l i Hin; [by apply elem_of_nil in Hin|].
  destruct e, opened as [|[q0 r0] opened]; cbn [written_during] in Hin; try (by eapply IH);
    try (apply elem_of_app in Hin as [Hin|Hin]; [destruct (out _); [by apply elem_of_nil in Hin|by apply elem_of_list_singleton in Hin as [= _ ->]]|by eapply IH]).
  destruct logs; [|by eapply IH]. apply elem_of_app in Hin as [Hin|Hin]; [destruct (out _); [by apply elem_of_nil in Hin|by apply elem_of_list_singleton in Hin as [= _ ->]]|by eapply IH].
Qed.

(** Logs with lines are recorded. *)
Definition logs_there (ns : list CallTraceNode) (cs : list chunk) : Prop := forall l i j, (l, OneLog i j) ∈ cs -> exists n x, ns !! i = Some n /\ nd_logs n !! j = Some x.
Lemma layout_logs_there ns : (forall k i cs, node_layout ns k i cs -> logs_there ns cs).
Proof.
  apply (node_layout_mut ns (fun _ _ cs => logs_there ns cs) (fun _ i n _ cs => ns !! i = Some n -> logs_there ns cs)).
  - intros k i n body Hn Hk _ IH l i' j' Hin. apply elem_of_cons in Hin as [[=]|Hin]. apply elem_of_app in Hin as [Hin|Hin]; [by eapply IH|by apply elem_of_list_singleton in Hin].
  - intros k i n _ l i' j' Hin. by apply elem_of_nil in Hin.
  - intros k i n j l rest cs Hl _ IH Hn l' i' j' Hin. apply elem_of_cons in Hin as [[= _ -> ->]|Hin]; [by eauto|by eapply IH].
  - intros k i n j c rest cs1 cs2 Hc _ IH1 _ IH2 Hn l' i' j' Hin. apply elem_of_app in Hin as [Hin|Hin]; [by eapply IH1|by eapply IH2].
  - intros k i n s st rest cs _ _ _ IH. done.
  - intros k i n s st line rest cs _ _ _ IH Hn l' i' j' Hin. apply elem_of_cons in Hin as [[=]|Hin]. by eapply IH.
  - intros k i n s st call e en inner rest cs1 cs2 _ _ _ _ _ _ IH1 _ IH2 Hn l' i' j' Hin. apply elem_of_cons in Hin as [[=]|Hin]. apply elem_of_cons in Hin as [[=]|Hin].
    apply elem_of_app in Hin as [Hin|Hin]; [by eapply IH1|]. apply elem_of_cons in Hin as [[=]|Hin]. by eapply IH2.
Qed.

Lemma cut_prefix ck colors cheat cfg w f es1 es2 s1 s2 k : env_ok cfg w f -> tx_events w f = es1 ++ es2 -> es1 <> [] ->
  ti_run (ti_new cfg) es1 = Ok s1 -> ti_run (ti_new cfg) (tx_events w f) = Ok s2 -> k + N.of_nat (nesting f) <= 65535 ->
  let before := written_during (record_logs cfg) (left_out (ti_traces s1)) k [] O es1 in
  (exists after, written_during (record_logs cfg) (left_out (ti_traces s2)) k [] O (tx_events w f) = before ++ after) /\
  forall l p, (l, p) ∈ before -> (forall i, p = Header i -> i ∉ unended [] O es1) ->
    chunk_text ck colors cheat (ti_traces s1) (l, p) = chunk_text ck colors cheat (ti_traces s2) (l, p).
Proof.
  intros He Heq Hne H1 H2 Hk before.
  destruct (tx_interrupted cfg w f es1 es2 He Heq Hne) as (s1' & s2' & H1' & H2' & Hlater & Hlen).
  rewrite H1 in H1'. injection H1' as <-. rewrite H2 in H2'. injection H2' as <-. split.
  - rewrite Heq, written_app. eexists. f_equal. apply written_ext; [|done]. intros i Hi. apply later_out; [done|]. rewrite Hlen. cbn in Hi. lia.
  - intros l p Hin Hp. pose proof (written_parts _ _ _ _ _ _ _ _ Hin) as Hparts.
    assert (Hfin : forall i, (i < length (List.filter is_start es1))%nat -> i ∉ unended [] O es1 -> ti_traces s2 !! i = ti_traces s1 !! i).
    { intros i Hi Hnot. by eapply ended_final. }
    destruct p as [i|i|i j|i s|i s|i s|i s]; try done; unfold chunk_text; cbn [fst snd part_text].
    + rewrite Hfin; [done| |by apply Hp]. by apply (headers_started _ _ _ _ _ _ _ _ Hin).
    + destruct (footers_ended _ _ _ _ [] O l i NoDup_nil_2 (Forall_nil_2 _) Hin) as [Ha Hb]. by rewrite Hfin.
    + pose proof (tx_cut_layout cfg w f es1 es2 s1 k He Heq Hne H1 Hk) as Hl. cbn zeta in Hl.
      destruct (layout_logs_there _ _ _ _ Hl l i j) as (n & x & Hn & Hx); [apply elem_of_app; by left|].
      destruct (Hlater i n Hn) as (n' & Hn' & Hln). rewrite Hn, Hn', Hx. destruct (ln_logs _ _ Hln) as (more & ->). by rewrite (lookup_app_l_Some _ _ _ _ Hx).
Qed.

(** ** The last lines of calls that have not ended *)

Definition raw (ns : list CallTraceNode) : Prop := Forall (fun n => tr_decoded (nd_trace n) = decoded_none) ns.
Lemma raw_update ns i f ns' : update ns i f = Ok ns' -> (forall n, tr_decoded (nd_trace (f n)) = tr_decoded (nd_trace n)) -> raw ns -> raw ns'.
Proof.
  intros Hu Hf H. apply update_Ok in Hu as (n & Hn & ->). apply Forall_insert; [done|]. rewrite Hf. by eapply Forall_lookup_1 in H.
Qed.
Lemma raw_start s c a inp v kd from g mp s' : start_trace_on_call s c a inp v kd from g mp = Ok s' -> raw (ti_traces s) -> raw (ti_traces s').
Proof.
  unfold start_trace_on_call. intros H Hw. destruct (match ti_trace_stack s with [] => _ | _ => _ end) as [gl sp].
  inv_bind H. injection H as <-. cbn [ti_traces]. apply push_trace_Ok in E. destruct E as [n Hd Hn|p pn Hk Hp Hd|p pn Hk Hp Hd].
  - by apply Forall_insert.
  - apply Forall_insert; [|cbn; by eapply Forall_lookup_1 in Hw]. apply Forall_app. split; [done|]. by repeat constructor.
  - apply Forall_app. split; [done|]. by repeat constructor.
Qed.
Lemma raw_handle s e s' r : ti_handle s e = Ok (s', r) -> raw (ti_traces s) -> raw (ti_traces s').
Proof.
  destruct e as [i c|i c|l c|c i|c i o|c i|c i o|a b v]; cbn [ti_handle]; intros H Hw; inv_bind H; injection H as <- _.
  - destruct (record_steps _); [|by injection E as <-]. unfold start_step in E. do 2 inv_bind E. destruct (negb _); [by injection E as <-|].
    inv_bind E. injection E as <-. by eapply raw_update.
  - destruct (record_steps _); [|by injection E as <-]. unfold fill_step_on_step_end in E. destruct (ti_step_stack s) as [|[rc ti si] rest]; [done|]. destruct (negb _); [by injection E as <-|].
    do 4 inv_bind E. injection E as <-. by eapply raw_update.
  - destruct (record_logs _); [|by injection E as <-]. unfold on_last_trace in E. do 2 inv_bind E. injection E as <-. by eapply raw_update.
  - unfold ti_call in E. destruct (call_from_to i). inv_bind E. by eapply raw_start.
  - unfold fill_trace_on_call_end in E. destruct (ti_trace_stack s); [done|]. inv_bind E. injection E as <-. by eapply raw_update.
  - by eapply raw_start.
  - unfold fill_trace_on_call_end in E. destruct (ti_trace_stack s); [done|]. inv_bind E. injection E as <-. by eapply raw_update.
  - unfold on_last_trace in E. do 2 inv_bind E. injection E as <-. by eapply raw_update.
Qed.
Lemma raw_run es : forall s s', ti_run s es = Ok s' -> raw (ti_traces s) -> raw (ti_traces s').
Proof.
  induction es as [|e es IH]; intros s s' Hr Hw; [by injection Hr as <-|]. unfold ti_run in Hr. rewrite run_cons in Hr. inv_bind Hr. destruct a as [s1 r]. cbn [fst] in Hr.
  eapply IH; [exact Hr|]. by eapply raw_handle.
Qed.

Lemma cut_last_line ck colors cheat cfg w f es1 es2 s i l : env_ok cfg w f -> tx_events w f = es1 ++ es2 -> ti_run (ti_new cfg) es1 = Ok s -> i ∈ unended [] O es1 ->
  exists n, ti_traces s !! i = Some n /\
    chunk_text ck colors cheat (ti_traces s) (l, Footer i) = spec_indent l ++ txt "  └─ " ++
      spec_color colors (if cheat && (tr_address (nd_trace n) =? 0x7109709ECfa91a80626fF3989D68f67F5b1DD12D) then 34 else 31) (txt "← [Continue] ") ++
      match tr_kind (nd_trace n) with KCreate | KCreate2 => txt "0 bytes of code" | _ => [] end ++ [x0a].
Proof.
  intros He Heq Hr Hi. destruct (tx_unended cfg w f es1 es2 s i He Heq Hr Hi) as (n & Hn & [H1 H2 H3 H4]). exists n. split; [done|].
  assert (Hraw : tr_decoded (nd_trace n) = decoded_none).
  { assert (Hrr : raw (ti_traces s)) by (eapply raw_run; [exact Hr|by repeat constructor]). by eapply Forall_lookup_1 in Hrr. }
  unfold chunk_text. cbn [fst snd part_text]. rewrite Hn. unfold spec_footer, spec_trace_color. rewrite H1, H2, H3, Hraw. rewrite <-!app_assoc. do 3 f_equal.
Qed.
