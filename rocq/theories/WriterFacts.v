(** * WriterFacts: every recorded arena has a layout, and what a layout contains *)

From Verif Require Export WriterProofs.
Local Open Scope N_scope.

(** ** What was written *)

Lemma emit_budget ps w :
  match tw_budget w with
  | None => emit ps w = (fst (emit ps w), true) /\ tw_out (fst (emit ps w)) = tw_out w ++ concat (map snd ps) /\ tw_budget (fst (emit ps w)) = None
  | Some b =>
      (length (concat (map snd ps)) <= b)%nat /\ snd (emit ps w) = true /\
        tw_out (fst (emit ps w)) = tw_out w ++ concat (map snd ps) /\ tw_budget (fst (emit ps w)) = Some (b - length (concat (map snd ps)))%nat \/
      (b < length (concat (map snd ps)))%nat /\ snd (emit ps w) = false /\
        exists ps1 k t ps2, ps = ps1 ++ (k, t) :: ps2 /\ tw_level (fst (emit ps w)) = k /\
          (length (concat (map snd ps1)) <= b < length (concat (map snd ps1)) + length t)%nat /\
          tw_out (fst (emit ps w)) = tw_out w ++ concat (map snd ps1) ++ take (b - length (concat (map snd ps1))) t
  end /\ tw_flush (fst (emit ps w)) = tw_flush w.
Proof.
  revert w. induction ps as [|[k t] ps IH]; intros w.
  { cbn. destruct (tw_budget w) eqn:E; rewrite ?app_nil_r, ?Nat.sub_0_r; split; auto with lia. }
  cbn [emit map concat snd]. rewrite app_length.
  assert (Hp : put t (tw_set_level w k) = match write_all t (tw_set_level w k) with Ok (w, Some _) => (w, true) | Ok (w, None) => (w, false) | _ => (tw_set_level w k, false) end) by done.
  unfold write_all in Hp. cbn [tw_budget tw_set_level tw_out tw_flush tw_use_colors tw_color_cheatcodes tw_level] in Hp.
  destruct (tw_budget w) as [b|] eqn:Eb; cbn [tw_budget tw_set_level] in Hp.
  - destruct (Nat.leb_spec (length t) b) as [Hle|Hlt]; rewrite Hp; cbn [fst snd].
    + specialize (IH (mkTW (tw_out w ++ t) (Some (b - length t)%nat) (tw_flush w) (tw_use_colors w) (tw_color_cheatcodes w) k)).
      cbn [tw_budget tw_out tw_flush] in IH. destruct IH as [[(H1 & H2 & H3 & H4)|(H1 & H2 & ps1 & k' & t' & ps2 & H3 & H4 & H5 & H6)] Hfl]; split; try done.
      * left. split_and!; [lia|done|by rewrite H3, <-app_assoc|]. rewrite H4. f_equal. lia.
      * right. split_and!; [lia|done|]. exists ((k, t) :: ps1), k', t', ps2. rewrite H3 at 1. cbn [map concat snd]. rewrite app_length.
        split_and!; [done|done|lia|lia|]. rewrite H6. rewrite <-!app_assoc. do 4 f_equal. lia.
    + split; [|done]. right. split_and!; [lia|done|]. exists [], k, t, ps. cbn. split_and!; [done|done|lia|lia|]. by rewrite Nat.sub_0_r.
  - rewrite Hp. cbn [fst snd]. specialize (IH (mkTW (tw_out w ++ t) None (tw_flush w) (tw_use_colors w) (tw_color_cheatcodes w) k)).
    cbn [tw_budget tw_out tw_flush] in IH. destruct IH as ((H1 & H2 & H3) & H4). split_and!; [done| |done|done].
    by rewrite H2, <-app_assoc.
Qed.

(** ** Layouts exist *)
Section Exist.
  Context (ns : list CallTraceNode) (Ht : arena_tree ns) (D : nat) (base : N).
  Context (Hn : forall i n, ns !! i = Some n -> well_nested n D (nd_ordering n)).
  Context (Ho : Forall ordering_complete ns).
  Context (Hd : forall i n, ns !! i = Some n -> base + N.of_nat (S (tr_depth (nd_trace n))) * N.of_nat (S D) <= 65535).

  Lemma ord_valid {A} (f : TraceMemberOrder -> option nat) (l : list TraceMemberOrder) (xs : list A) m j :
    omap f l = seq 0 (length xs) -> In m l -> f m = Some j -> exists x, xs !! j = Some x.
  Proof.
    intros Hl Hm Hj. apply lookup_lt_is_Some.
    assert (Hin : j ∈ omap f l). { apply elem_of_list_omap. exists m. split; [by apply elem_of_list_In|done]. }
    rewrite Hl in Hin. apply elem_of_seq in Hin. lia.
  Qed.

  Lemma members_exist i n (K : N) d l k :
    ns !! i = Some n -> K <= 65535 ->
    (forall j c k, nd_children n !! j = Some c -> k <= K -> exists cs, node_layout ns k c cs) ->
    well_nested n d l -> (forall m, In m l -> In m (nd_ordering n)) -> k + N.of_nat d <= K ->
    exists cs, members_layout ns k i n l cs.
  Proof.
    intros Hi HK Hc Hw. assert (Hoc : ordering_complete n) by (rewrite Forall_lookup in Ho; by eapply Ho).
    destruct Hoc as [Hol Hoc Hos]. revert k.
    induction Hw as [d|d j rest _ IH|d j rest _ IH|d s rest Hno _ IH|d s st call e inner rest Hst Hdec Hni _ IH1 _ IH2]; intros k Hin Hk.
    - eexists. constructor.
    - destruct (IH k) as (cs & Hcs); [by intros; apply Hin; right|done|].
      destruct (ord_valid _ _ _ (OLog j) j Hol) as (l & Hl); [apply Hin; by left|done|].
      eexists. by econstructor.
    - destruct (IH k) as (cs & Hcs); [by intros; apply Hin; right|done|].
      destruct (ord_valid _ _ _ (OCall j) j Hoc) as (c & Hcc); [apply Hin; by left|done|].
      destruct (Hc j c k Hcc) as (cs1 & Hcs1); [lia|]. eexists. by econstructor.
    - destruct (IH k) as (cs & Hcs); [by intros; apply Hin; right|done|].
      destruct (ord_valid _ _ _ (OStep s) s Hos) as (st & Hst); [apply Hin; by left|done|].
      destruct (st_decoded st) as [[call e|line]|] eqn:Ed.
      + exfalso. by eapply Hno.
      + eexists. by eapply ml_line.
      + eexists. by eapply ml_plain.
    - destruct (IH1 (k + 1)) as (cs1 & Hcs1); [intros; apply Hin; right; apply in_or_app; by left|lia|].
      destruct (IH2 k) as (cs2 & Hcs2); [intros; apply Hin; right; apply in_or_app; right; by right|done|].
      destruct (ord_valid _ _ _ (OStep e) e Hos) as (en & Hen); [apply Hin; right; apply in_or_app; right; by left|done|].
      eexists. eapply ml_internal; try done. lia.
  Qed.

  Lemma node_exists m : forall i n k, (length ns <= i + m)%nat -> ns !! i = Some n ->
    k <= base + N.of_nat (tr_depth (nd_trace n)) * N.of_nat (S D) -> exists cs, node_layout ns k i cs.
  Proof.
    induction m as [|m IH]; intros i n k Hm Hi Hk; [apply lookup_lt_Some in Hi; lia|].
    pose proof (Hd i n Hi) as Hb.
    destruct (members_exist i n (k + 1 + N.of_nat D) D (nd_ordering n) (k + 1)) as (body & Hbody); try done.
    - lia.
    - intros j c k' Hc Hk'. destruct (child_lookup ns Ht i n j c Hi Hc) as (cn & Hcn & _ & _ & Hlt & Hdep).
      apply (IH c cn k'); [lia|done|]. rewrite Hdep. lia.
    - by eapply Hn.
    - eexists. econstructor; [done| |exact Hbody]. lia.
  Qed.

  Lemma root_exists : exists cs, node_layout ns base 0 cs.
  Proof.
    destruct (at_root _ Ht) as (r & Hr & _ & Hr2). apply (node_exists (length ns) 0 r base); [lia|done|]. lia.
  Qed.
End Exist.

(** ** The nodes and logs of a layout *)
Lemma ssorted_app_intro {A} (R : A -> A -> Prop) l1 l2 :
  StronglySorted R l1 -> StronglySorted R l2 -> (forall x y, In x l1 -> In y l2 -> R x y) -> StronglySorted R (l1 ++ l2).
Proof.
  intros H1 H2 Hx. induction H1 as [|x l1 H1 IH Hall]; [done|]. cbn. constructor.
  - apply IH. intros a b Ha Hb. apply Hx; [by right|done].
  - apply Forall_app. split; [done|]. apply List.Forall_forall. intros y Hy. apply Hx; [by left|done].
Qed.
Lemma ssorted_app_inv {A} (R : A -> A -> Prop) l1 l2 :
  StronglySorted R (l1 ++ l2) -> StronglySorted R l1 /\ StronglySorted R l2 /\ (forall x y, In x l1 -> In y l2 -> R x y).
Proof.
  induction l1 as [|a l1 IH]; cbn; intros H; [split_and!; [constructor|done|done]|].
  inversion_clear H as [|? ? H1 H2]. destruct (IH H1) as (Ha & Hb & Hc). apply Forall_app in H2 as [H2 H3].
  split_and!; [by constructor|done|]. rewrite List.Forall_forall in H3. intros x y [<-|Hx] Hy; auto.
Qed.
Lemma ssorted_cons_map (j : nat) ps : StronglySorted lex_lt ps -> StronglySorted lex_lt (map (cons j) ps).
Proof.
  induction 1 as [|a ps Hs IH Hall]; cbn; constructor; [done|].
  apply List.Forall_forall. intros b Hb. apply in_map_iff in Hb as (c & <- & Hc). apply lex_tail. rewrite List.Forall_forall in Hall. auto.
Qed.

Lemma headers_app cs cs' : headers (cs ++ cs') = headers cs ++ headers cs'.
Proof. apply omap_app. Qed.
Lemma shown_logs_app cs cs' : shown_logs (cs ++ cs') = shown_logs cs ++ shown_logs cs'.
Proof. apply omap_app. Qed.

Section Content.
  Context (ns : list CallTraceNode) (Ht : arena_tree ns) (Ho : Forall ordering_complete ns).

  Definition node_paths (_ : N) (i : nat) (cs : list chunk) : Prop :=
    exists ps, Forall2 (fun a j => follow ns i a = Some j) ps (headers cs) /\ StronglySorted lex_lt ps /\
      (forall a j, follow ns i a = Some j -> In a ps).
  Definition members_paths (_ : N) (i : nat) (n : CallTraceNode) (l : list TraceMemberOrder) (cs : list chunk) : Prop :=
    ns !! i = Some n -> exists ps, Forall2 (fun a j => follow ns i a = Some j) ps (headers cs) /\
      (forall a, In a ps -> exists q a', a = q :: a' /\ In q (omap ord_call l)) /\
      (StronglySorted lt (omap ord_call l) -> StronglySorted lex_lt ps) /\
      (forall q a j, In q (omap ord_call l) -> follow ns i (q :: a) = Some j -> In (q :: a) ps).

  Lemma layout_paths k i cs : node_layout ns k i cs -> node_paths k i cs.
  Proof.
    revert k i cs. apply (node_layout_mut ns node_paths members_paths).
    - intros k i n body Hn _ _ IH. destruct (IH Hn) as (ps & H1 & H2 & H3 & H4).
      exists ([] :: ps). change ((k, Header i) :: body ++ [(k + 1, Footer i)]) with ([(k, Header i)] ++ body ++ [(k + 1, Footer i)]).
      rewrite !headers_app. cbn [headers omap list_omap snd app]. rewrite app_nil_r.
      assert (Hoc : omap ord_call (nd_ordering n) = seq 0 (length (nd_children n))).
      { rewrite Forall_lookup in Ho. by destruct (Ho i n Hn). }
      rewrite Hoc in H3. split_and!.
      + constructor; [done|exact H1].
      + constructor; [apply H3; clear; generalize 0%nat at 1 as b; induction (length (nd_children n)) as [|m IHm]; intros b; cbn; constructor; [apply IHm|]; apply List.Forall_forall; intros x Hx; apply in_seq in Hx; lia|].
        apply List.Forall_forall. intros a Ha. destruct (H2 a Ha) as (q & a' & -> & _). constructor.
      + intros a j Ha. destruct a as [|q a]; [by left|]. right. apply (H4 q a j); [|done]. rewrite Hoc. apply in_seq.
        cbn [follow] in Ha. rewrite Hn in Ha. destruct (nd_children n !! q) eqn:Eq; [|done]. apply lookup_lt_Some in Eq. lia.
    - intros k i n Hn. exists []. cbn. split_and!; [constructor|done|by intros; constructor|done].
    - intros k i n j l rest cs _ _ IH Hn. destruct (IH Hn) as (ps & H). by exists ps.
    - intros k i n j c rest cs1 cs2 Hc _ (ps1 & A1 & A2 & A3) _ IH Hn. destruct (IH Hn) as (ps2 & H1 & H2 & H3 & H4).
      exists (map (cons j) ps1 ++ ps2). rewrite headers_app. cbn [omap list_omap ord_call]. split_and!.
      + apply Forall2_app; [|done]. clear -A1 Hn Hc. induction A1; cbn; constructor; [|done]. cbn. by rewrite Hn, Hc.
      + intros a Ha. apply in_app_or in Ha as [Ha|Ha].
        * apply in_map_iff in Ha as (b & <- & _). exists j, b. split; [done|by left].
        * destruct (H2 a Ha) as (q & a' & -> & Hq). exists q, a'. split; [done|by right].
      + intros Hs. inversion_clear Hs as [|? ? Hs1 Hs2]. apply ssorted_app_intro; [by apply ssorted_cons_map|by apply H3|].
        intros x y Hx Hy. apply in_map_iff in Hx as (b & <- & _). destruct (H2 y Hy) as (q & a' & -> & Hq).
        constructor. rewrite List.Forall_forall in Hs2. by apply Hs2.
      + intros q a x [<-|Hq] Hf; apply in_or_app.
        * left. apply in_map. cbn in Hf. rewrite Hn, Hc in Hf. by eapply A3.
        * right. by eapply H4.
    - intros k i n s st rest cs _ _ _ IH Hn. destruct (IH Hn) as (ps & H). by exists ps.
    - intros k i n s st line rest cs _ _ _ IH Hn. destruct (IH Hn) as (ps & H). by exists ps.
    - intros k i n s st call e en inner rest cs1 cs2 _ _ _ _ _ _ IH1 _ IH2 Hn.
      destruct (IH1 Hn) as (ps1 & A1 & A2 & A3 & A4). destruct (IH2 Hn) as (ps2 & B1 & B2 & B3 & B4).
      exists (ps1 ++ ps2).
      change ((k, InternalOpen i s) :: (k + 1, InternalHead i s) :: cs1 ++ (k + 1, InternalClose i s) :: cs2)
        with ([(k, InternalOpen i s); (k + 1, InternalHead i s)] ++ cs1 ++ [(k + 1, InternalClose i s)] ++ cs2).
      rewrite !headers_app. cbn [headers omap list_omap snd app ord_call]. rewrite omap_app. cbn [omap list_omap ord_call]. split_and!.
      + by apply Forall2_app.
      + intros a Ha. apply in_app_or in Ha as [Ha|Ha].
        * destruct (A2 a Ha) as (q & a' & -> & Hq). exists q, a'. split; [done|apply in_or_app; by left].
        * destruct (B2 a Ha) as (q & a' & -> & Hq). exists q, a'. split; [done|apply in_or_app; by right].
      + intros Hs. apply ssorted_app_inv in Hs as (Hs1 & Hs2 & Hs3). apply ssorted_app_intro; [by apply A3|by apply B3|].
        intros x y Hx Hy. destruct (A2 x Hx) as (q & a' & -> & Hq). destruct (B2 y Hy) as (q' & b' & -> & Hq').
        constructor. by apply Hs3.
      + intros q a x Hq Hf. apply in_or_app. apply in_app_or in Hq as [Hq|Hq]; [left; by eapply A4|right; by eapply B4].
  Qed.

  (** The headers are the nodes reachable from the root, in increasing order. *)
  Lemma layout_headers k cs : ordered ns -> node_layout ns k 0 cs ->
    StronglySorted lt (headers cs) /\ (forall j, In j (headers cs) <-> exists a, follow ns 0 a = Some j).
  Proof.
    intros Hord Hl. destruct (layout_paths _ _ _ Hl) as (ps & H1 & H2 & H3).
    assert (Hin : forall j, In j (headers cs) -> exists a, In a ps /\ follow ns 0 a = Some j).
    { clear -H1. induction H1 as [|a j ps hs Ha _ IH]; intros x; [done|]. intros [<-|Hx]; [exists a; split; [by left|done]|].
      destruct (IH x Hx) as (b & ? & ?). exists b. split; [by right|done]. }
    assert (Hin2 : forall a, In a ps -> exists j, In j (headers cs) /\ follow ns 0 a = Some j).
    { clear -H1. induction H1 as [|a j ps hs Ha _ IH]; intros x; [done|]. intros [<-|Hx]; [exists j; split; [by left|done]|].
      destruct (IH x Hx) as (b & ? & ?). exists b. split; [by right|done]. }
    split.
    - clear Hl Hin H3 Hin2. revert H2. induction H1 as [|a j ps hs Ha Hrest IH]; intros Hs; [constructor|].
      inversion_clear Hs as [|? ? Hs1 Hs2]. constructor; [by apply IH|].
      apply List.Forall_forall. intros x Hx.
      assert (Hb : exists b, In b ps /\ follow ns 0 b = Some x).
      { clear -Hrest Hx. induction Hrest as [|a j ps hs Ha _ IH]; [done|]. destruct Hx as [<-|Hx]; [exists a; split; [by left|done]|].
        destruct (IH Hx) as (b & ? & ?). exists b. split; [by right|done]. }
      destruct Hb as (b & Hb & Hfb). rewrite List.Forall_forall in Hs2. specialize (Hs2 b Hb).
      destruct (lt_eq_lt_dec j x) as [[?| ->]|Hgt]; [done| |].
      + rewrite (follow_inj ns Ht a b x Ha Hfb) in Hs2. exfalso. by eapply lex_lt_asym.
      + exfalso. eapply lex_lt_asym; [exact Hs2|]. by eapply (Hord b a x j).
    - intros j. split; [intros Hj; destruct (Hin j Hj) as (a & _ & ?); by exists a|].
      intros (a & Ha). destruct (Hin2 a (H3 a j Ha)) as (x & Hx & Hf). congruence.
  Qed.

  (** The logs shown for a node. *)
  Definition logs_at (y : nat) (cs : list chunk) : list nat := omap (fun p => if (fst p =? y)%nat then Some (snd p) else None) (shown_logs cs).
  Definition n_logs (y : nat) : nat := match ns !! y with Some n => length (nd_logs n) | None => 0%nat end.
  Local Instance in_decision (y : nat) l : Decision (In y l) := in_dec Nat.eq_dec y l.
  Definition expected (y : nat) (cs : list chunk) : list nat := if decide (In y (headers cs)) then seq 0 (n_logs y) else [].

  Definition node_logs_goal (_ : N) (i : nat) (cs : list chunk) : Prop :=
    List.NoDup (headers cs) -> forall y, logs_at y cs = expected y cs.
  Definition members_logs_goal (_ : N) (i : nat) (n : CallTraceNode) (l : list TraceMemberOrder) (cs : list chunk) : Prop :=
    List.NoDup (headers cs) -> ns !! i = Some n -> ~ In i (headers cs) ->
    forall y, logs_at y cs = if (i =? y)%nat then omap ord_log l else expected y cs.

  Lemma logs_at_app y cs cs' : logs_at y (cs ++ cs') = logs_at y cs ++ logs_at y cs'.
  Proof. unfold logs_at. by rewrite shown_logs_app, omap_app. Qed.
  Lemma nodup_app_inv (a b : list nat) : List.NoDup (a ++ b) -> List.NoDup a /\ List.NoDup b /\ (forall x, In x a -> In x b -> False).
  Proof. rewrite <-!NoDup_ListNoDup. intros H. apply NoDup_app in H as (H1 & H2 & H3). split_and!; [done|done|]. intros x Ha Hb. apply (H2 x); by apply elem_of_list_In. Qed.
  Lemma expected_app y cs cs' : (forall x, In x (headers cs) -> In x (headers cs') -> False) ->
    expected y (cs ++ cs') = expected y cs ++ expected y cs'.
  Proof.
    intros Hdis. unfold expected. rewrite headers_app.
    destruct (decide (In y (headers cs ++ headers cs'))) as [Hi|Hi], (decide (In y (headers cs))) as [H1|H1], (decide (In y (headers cs'))) as [H2|H2]; try done;
      try (by rewrite app_nil_r); try (by exfalso; eapply Hdis); exfalso; try (apply Hi, in_or_app; auto).
    apply in_app_or in Hi as [?|?]; auto.
  Qed.
  Lemma expected_nil y cs : headers cs = [] -> expected y cs = [].
  Proof. intros E. unfold expected. rewrite E. by destruct (decide _). Qed.

  Lemma layout_logs k i cs : node_layout ns k i cs -> node_logs_goal k i cs.
  Proof.
    revert k i cs. apply (node_layout_mut ns node_logs_goal members_logs_goal).
    - intros k i n body Hn _ _ IH Hnd y.
      change ((k, Header i) :: body ++ [(k + 1, Footer i)]) with ([(k, Header i)] ++ body ++ [(k + 1, Footer i)]) in *.
      rewrite !headers_app in Hnd. cbn [headers omap list_omap snd app] in Hnd. rewrite app_nil_r in Hnd.
      inversion_clear Hnd as [|? ? Hni Hnd'].
      rewrite !logs_at_app. change (logs_at y [(k, Header i)]) with (@nil nat). change (logs_at y [(k + 1, Footer i)]) with (@nil nat).
      rewrite app_nil_r. cbn [app]. rewrite (IH Hnd' Hn Hni y).
      assert (Hh : headers ((k, Header i) :: body ++ [(k + 1, Footer i)]) = i :: headers body).
      { change (i :: headers (body ++ [(k + 1, Footer i)]) = i :: headers body). by rewrite headers_app, app_nil_r. }
      unfold expected. rewrite Hh.
      destruct (Nat.eqb_spec i y) as [->|Hne].
      + rewrite decide_True by (by left). unfold n_logs. rewrite Hn. rewrite Forall_lookup in Ho. by destruct (Ho y n Hn).
      + destruct (decide (In y (headers body))) as [H|H].
        * rewrite decide_True by (by right). done.
        * rewrite decide_False; [done|]. intros [?|?]; auto.
    - intros k i n _ Hn _ y. cbn. by destruct (i =? y)%nat.
    - intros k i n j l rest cs _ _ IH Hnd Hn Hni y.
      change ((k, OneLog i j) :: cs) with ([(k, OneLog i j)] ++ cs) in *. rewrite headers_app in *. cbn [headers omap list_omap snd app] in Hnd, Hni.
      rewrite logs_at_app, (IH Hnd Hn Hni y). unfold logs_at. cbn [shown_logs omap list_omap snd fst ord_log].
      destruct (i =? y)%nat; [done|]. done.
    - intros k i n j c rest cs1 cs2 _ _ IH1 _ IH2 Hnd Hn Hni y. rewrite headers_app in Hnd, Hni.
      destruct (nodup_app_inv _ _ Hnd) as (N1 & N2 & Hdis). rewrite logs_at_app, (IH1 N1 y).
      rewrite (IH2 N2 Hn) by (intros ?; apply Hni, in_or_app; by right). cbn [omap list_omap ord_log].
      destruct (Nat.eqb_spec i y) as [->|Hne]; [|by rewrite expected_app].
      unfold expected. rewrite decide_False; [done|]. intros ?. apply Hni, in_or_app. by left.
    - intros k i n s st rest cs _ _ _ IH Hnd Hn Hni y. by rewrite (IH Hnd Hn Hni y).
    - intros k i n s st line rest cs _ _ _ IH Hnd Hn Hni y.
      change ((k, OneLine i s) :: cs) with ([(k, OneLine i s)] ++ cs) in *. rewrite headers_app in *. cbn [headers omap list_omap snd app] in Hnd, Hni.
      rewrite logs_at_app, (IH Hnd Hn Hni y). done.
    - intros k i n s st call e en inner rest cs1 cs2 _ _ _ _ _ _ IH1 _ IH2 Hnd Hn Hni y.
      change ((k, InternalOpen i s) :: (k + 1, InternalHead i s) :: cs1 ++ (k + 1, InternalClose i s) :: cs2)
        with ([(k, InternalOpen i s); (k + 1, InternalHead i s)] ++ cs1 ++ [(k + 1, InternalClose i s)] ++ cs2) in *.
      rewrite !headers_app in Hnd, Hni. cbn [headers omap list_omap snd app] in Hnd, Hni.
      destruct (nodup_app_inv _ _ Hnd) as (N1 & N2 & Hdis).
      rewrite !logs_at_app, (IH1 N1 Hn), (IH2 N2 Hn) by (intros ?; apply Hni, in_or_app; auto).
      change (logs_at y [(k, InternalOpen i s); (k + 1, InternalHead i s)]) with (@nil nat).
      change (logs_at y [(k + 1, InternalClose i s)]) with (@nil nat). cbn [app omap list_omap ord_log]. rewrite omap_app. cbn [omap list_omap ord_log].
      destruct (i =? y)%nat; [done|].
      rewrite <-expected_app by done.
      assert (Hh : headers ((k, InternalOpen i s) :: (k + 1, InternalHead i s) :: cs1 ++ (k + 1, InternalClose i s) :: cs2) = headers (cs1 ++ cs2)).
      { change (headers (cs1 ++ [(k + 1, InternalClose i s)] ++ cs2) = headers (cs1 ++ cs2)). by rewrite !headers_app. }
      unfold expected. by rewrite Hh.
  Qed.
End Content.
