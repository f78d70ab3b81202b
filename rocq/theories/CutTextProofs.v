(** * CutTextProofs: the layout of a recording follows the hook calls *)

From Verif Require Export SpecCutText HistoryProofs WriterProofs.
Local Open Scope N_scope.

Definition lay (n : CallTraceNode) := (nd_ordering n, nd_children n, nd_logs n, map st_decoded (tr_steps (nd_trace n))).
(** [n'] has the logs, children and steps of [n], and perhaps more. *)
Definition ext (n n' : CallTraceNode) : Prop :=
  nd_logs n `prefix_of` nd_logs n' /\ nd_children n `prefix_of` nd_children n' /\
  map st_decoded (tr_steps (nd_trace n)) `prefix_of` map st_decoded (tr_steps (nd_trace n')).

Lemma lay_ext n n' : lay n' = lay n -> ext n n'.
Proof. unfold lay, ext. intros [= _ -> -> ->]. done. Qed.

Lemma ext_step n n' s st : ext n n' -> tr_steps (nd_trace n) !! s = Some st -> exists st', tr_steps (nd_trace n') !! s = Some st' /\ st_decoded st' = st_decoded st.
Proof.
  intros (_ & _ & H) Hs. assert (Hm : map st_decoded (tr_steps (nd_trace n)) !! s = Some (st_decoded st)).
  { rewrite list_lookup_fmap. by rewrite Hs. }
  pose proof (prefix_lookup _ _ _ _ Hm H) as Hm'. rewrite list_lookup_fmap in Hm'. destruct (tr_steps (nd_trace n') !! s) as [st'|]; [|done].
  exists st'. split; [done|]. by injection Hm'.
Qed.

Lemma headers_app a b : headers (a ++ b) = headers a ++ headers b.
Proof. apply omap_app. Qed.
Lemma headers_cons c b : headers (c :: b) = headers [c] ++ headers b.
Proof. apply (headers_app [c]). Qed.

Section Frame.
  Context (ns ns' : list CallTraceNode).
  Definition same_lay (j : nat) : Prop := lay <$> ns' !! j = lay <$> ns !! j.
  Definition node_keeps (k : N) (i : nat) (cs : list chunk) : Prop := Forall same_lay (headers cs) -> node_layout ns' k i cs.
  Definition members_keep (k : N) (i : nat) (n : CallTraceNode) (l : list TraceMemberOrder) (cs : list chunk) : Prop :=
    forall n', ext n n' -> Forall same_lay (headers cs) -> members_layout ns' k i n' l cs.

  Lemma members_kept_all : (forall k i cs, node_layout ns k i cs -> node_keeps k i cs) /\
    (forall k i n l cs, members_layout ns k i n l cs -> members_keep k i n l cs).
  Proof.
    assert (Hnode : forall k i n body, ns !! i = Some n -> k < 65535 -> members_keep (k + 1) i n (nd_ordering n) body -> node_keeps k i ((k, Header i) :: body ++ [(k + 1, Footer i)])).
    { intros k i n body Hn Hk IH Hs. cbn in Hs. inversion_clear Hs as [|? ? Hi Hs']. fold (headers (body ++ [(k + 1, Footer i)])) in Hs'. rewrite headers_app, Forall_app in Hs'.
      unfold same_lay in Hi. rewrite Hn in Hi. destruct (ns' !! i) as [n'|] eqn:En'; [|done]. injection Hi as Hi.
      assert (Hlay : lay n' = lay n) by (unfold lay; congruence).
      eapply nl_node; [done|done|]. replace (nd_ordering n') with (nd_ordering n) by (unfold lay in Hlay; congruence). apply IH; [by apply lay_ext|apply Hs']. }
    assert (H1 : forall k i n, members_keep k i n [] []) by (intros k i n n' _ _; constructor).
    assert (H2 : forall k i n j l rest cs, nd_logs n !! j = Some l -> members_keep k i n rest cs -> members_keep k i n (OLog j :: rest) ((k, OneLog i j) :: cs)).
    { intros k i n j l rest cs Hl IH n' He Hs. econstructor; [eapply prefix_lookup; [exact Hl|apply He]|]. by apply IH. }
    assert (H3 : forall k i n j c rest cs1 cs2, nd_children n !! j = Some c -> node_keeps k c cs1 -> members_keep k i n rest cs2 -> members_keep k i n (OCall j :: rest) (cs1 ++ cs2)).
    { intros k i n j c rest cs1 cs2 Hc IH1 IH2 n' He Hs. rewrite headers_app, Forall_app in Hs. destruct Hs as [Hs1 Hs2].
      econstructor; [eapply prefix_lookup; [exact Hc|apply He]|by apply IH1|by apply IH2]. }
    assert (H4 : forall k i n s st rest cs, tr_steps (nd_trace n) !! s = Some st -> st_decoded st = None -> members_keep k i n rest cs -> members_keep k i n (OStep s :: rest) cs).
    { intros k i n s st rest cs Hst Hd IH n' He Hs. destruct (ext_step _ _ _ _ He Hst) as (st' & Hst' & Hd'). eapply ml_plain; [exact Hst'|congruence|by apply IH]. }
    assert (H5 : forall k i n s st line rest cs, tr_steps (nd_trace n) !! s = Some st -> st_decoded st = Some (Line line) -> members_keep k i n rest cs -> members_keep k i n (OStep s :: rest) ((k, OneLine i s) :: cs)).
    { intros k i n s st line rest cs Hst Hd IH n' He Hs. destruct (ext_step _ _ _ _ He Hst) as (st' & Hst' & Hd'). eapply ml_line; [exact Hst'|rewrite Hd'; exact Hd|by apply IH]. }
    assert (H6 : forall k i n s st call e en inner rest cs1 cs2, tr_steps (nd_trace n) !! s = Some st -> st_decoded st = Some (InternalCall call e) ->
       tr_steps (nd_trace n) !! e = Some en -> ~ In (OStep e) inner -> k < 65535 -> members_keep (k + 1) i n inner cs1 -> members_keep k i n rest cs2 ->
       members_keep k i n (OStep s :: inner ++ OStep e :: rest) ((k, InternalOpen i s) :: (k + 1, InternalHead i s) :: cs1 ++ (k + 1, InternalClose i s) :: cs2)).
    { intros k i n s st call e en inner rest cs1 cs2 Hst Hd Hen Hni Hk IH1 IH2 n' He Hs. destruct (ext_step _ _ _ _ He Hst) as (st' & Hst' & Hd').
      destruct (ext_step _ _ _ _ He Hen) as (en' & Hen' & _). cbn in Hs. fold (headers (cs1 ++ (k + 1, InternalClose i s) :: cs2)) in Hs. rewrite headers_app, Forall_app in Hs. destruct Hs as [Hs1 Hs2].
      eapply ml_internal; [exact Hst'|rewrite Hd'; exact Hd|exact Hen'|done|done|by apply IH1|by apply IH2]. }
    split.
    - apply (node_layout_mut ns node_keeps members_keep); eauto.
    - apply (members_layout_mut ns node_keeps members_keep); eauto.
  Qed.
  Lemma node_kept k i cs : node_layout ns k i cs -> Forall same_lay (headers cs) -> node_layout ns' k i cs.
  Proof. intros H. by apply (proj1 members_kept_all). Qed.
  Lemma members_kept k i n l cs n' : members_layout ns k i n l cs -> ext n n' -> Forall same_lay (headers cs) -> members_layout ns' k i n' l cs.
  Proof. intros H. by apply (proj2 members_kept_all _ _ _ _ _ H). Qed.
End Frame.

Lemma members_app ns k i n l1 cs1 : members_layout ns k i n l1 cs1 -> forall l2 cs2, members_layout ns k i n l2 cs2 -> members_layout ns k i n (l1 ++ l2) (cs1 ++ cs2).
Proof.
  induction 1 as [k i n|k i n j l rest cs Hl H IH|k i n j c rest cs1 cs2 Hc H1 H2 IH|k i n s st rest cs Hs Hd H IH|k i n s st line rest cs Hs Hd H IH|k i n s st call e en inner rest cs1 cs2 Hs Hd He Hn Hk H1 IH1 H2 IH2]; intros l2' cs2' H'.
  - done.
  - cbn [app]. econstructor; [done|by apply IH].
  - cbn [app]. rewrite <- app_assoc. econstructor; [done|done|by apply IH].
  - cbn [app]. eapply ml_plain; [done|done|by apply IH].
  - cbn [app]. eapply ml_line; [done|done|by apply IH].
  - replace ((OStep s :: inner ++ OStep e :: rest) ++ l2') with (OStep s :: inner ++ OStep e :: (rest ++ l2')) by (cbn; by rewrite <- app_assoc).
    replace (((k, InternalOpen i s) :: (k + 1, InternalHead i s) :: cs1 ++ (k + 1, InternalClose i s) :: cs2) ++ cs2')
      with ((k, InternalOpen i s) :: (k + 1, InternalHead i s) :: cs1 ++ (k + 1, InternalClose i s) :: (cs2 ++ cs2')) by (cbn; by rewrite <- app_assoc).
    eapply ml_internal; [done..|by apply IH2].
Qed.

(** ** The part of the layout that is written while calls are open *)

Definition lay_depth (n : CallTraceNode) := (lay n, tr_depth (nd_trace n)).
Inductive open_layout (ns : list CallTraceNode) : N -> list nat -> list chunk -> Prop :=
  | ol_last k i n body : ns !! i = Some n -> k < 65535 -> members_layout ns (k + 1) i n (nd_ordering n) body ->
      open_layout ns k [i] ((k, Header i) :: body)
  | ol_cons k i n c cn rest before j body cs : ns !! i = Some n -> k < 65535 -> nd_ordering n = before ++ [OCall j] ->
      nd_children n !! j = Some c -> last (nd_children n) = Some c -> (i < c)%nat -> ns !! c = Some cn ->
      tr_depth (nd_trace cn) = S (tr_depth (nd_trace n)) ->
      members_layout ns (k + 1) i n before body -> open_layout ns (k + 1) (c :: rest) cs ->
      open_layout ns k (i :: c :: rest) ((k, Header i) :: body ++ cs).

(** The last lines of the calls on the path, outermost first. *)
Fixpoint closing_lines (k : N) (path : list nat) : list chunk :=
  match path with [] => [] | i :: rest => closing_lines (k + 1) rest ++ [(k + 1, Footer i)] end.

Lemma open_closed ns k path cs : open_layout ns k path cs -> forall i rest, path = i :: rest -> node_layout ns k i (cs ++ closing_lines k path).
Proof.
  induction 1 as [k i n body Hn Hk Hm|k i n c cn rest before j body cs Hn Hk Ho Hc Hl Hlt Hcn Hd Hm Hop IH]; intros i0 rest0 [= <- <-].
  - cbn [closing_lines app]. by econstructor.
  - change (closing_lines k (i :: c :: rest)) with (closing_lines (k + 1) (c :: rest) ++ [(k + 1, Footer i)]). cbn [app].
    replace ((body ++ cs) ++ closing_lines (k + 1) (c :: rest) ++ [(k + 1, Footer i)]) with ((body ++ cs ++ closing_lines (k + 1) (c :: rest)) ++ [(k + 1, Footer i)]) by (by rewrite <- !app_assoc).
    econstructor; [done|done|]. rewrite Ho. eapply members_app; [done|]. rewrite <- (app_nil_r (cs ++ closing_lines _ _)).
    econstructor; [done|by eapply IH|constructor].
Qed.

Lemma open_path ns k path cs : open_layout ns k path cs -> forall i, i ∈ path -> i ∈ headers cs.
Proof.
  induction 1 as [k i n body Hn Hk Hm|k i n c cn rest before j body cs Hn Hk Ho Hc Hl Hlt Hcn Hd Hm Hop IH]; intros i0 Hi.
  - apply elem_of_list_singleton in Hi as ->. by left.
  - apply elem_of_cons in Hi as [->|Hi]; [by left|]. right. fold (headers (body ++ cs)). rewrite headers_app. apply elem_of_app. right. by apply IH.
Qed.

(** Changes that do not concern the layout. *)
Lemma open_kept ns ns' k path cs : open_layout ns k path cs -> Forall (fun j => lay_depth <$> ns' !! j = lay_depth <$> ns !! j) (headers cs) -> open_layout ns' k path cs.
Proof.
  assert (Hlay : forall l, Forall (fun j => lay_depth <$> ns' !! j = lay_depth <$> ns !! j) l -> Forall (same_lay ns ns') l).
  { intros l H. eapply Forall_impl; [exact H|]. intros j Hj. cbn beta in Hj. unfold same_lay. destruct (ns' !! j) as [a|], (ns !! j) as [b|]; try done. cbn in Hj |- *. unfold lay_depth in Hj. congruence. }
  induction 1 as [k i n body Hn Hk Hm|k i n c cn rest before j body cs Hn Hk Ho Hc Hl Hlt Hcn Hd Hm Hop IH]; intros Hs.
  - inversion_clear Hs as [|? ? Hi Hs']. fold (headers body) in Hs'. rewrite Hn in Hi. destruct (ns' !! i) as [n'|] eqn:En; [|done]. injection Hi as Hi Hdp.
    assert (Hln : lay n' = lay n) by (unfold lay; congruence). econstructor; [done|done|]. replace (nd_ordering n') with (nd_ordering n) by (unfold lay in Hln; congruence).
    eapply members_kept; [done|by apply lay_ext|by apply Hlay].
  - inversion_clear Hs as [|? ? Hi Hs']. fold (headers (body ++ cs)) in Hs'. rewrite headers_app, Forall_app in Hs'. destruct Hs' as [Hs1 Hs2].
    rewrite Hn in Hi. destruct (ns' !! i) as [n'|] eqn:En; [|done]. injection Hi as Hi1 Hi2 Hi3 Hi4 Hdp.
    assert (Hln : lay n' = lay n) by (unfold lay; congruence).
    assert (Hc' : c ∈ headers cs) by (eapply open_path; [done|by left]).
    pose proof (proj1 (Forall_forall _ _) Hs2 c Hc') as Hcl. cbn beta in Hcl. rewrite Hcn in Hcl. destruct (ns' !! c) as [cn'|] eqn:Ec; [|done]. injection Hcl as _ _ _ _ Hcd.
    eapply (ol_cons _ k i n' c cn'); [done|done|by rewrite Hi1|by rewrite Hi2|by rewrite Hi2|done|done|congruence| |by apply IH].
    eapply members_kept; [done|by apply lay_ext|by apply Hlay].
Qed.

(** New members of the innermost open call. *)
Lemma open_adds ns k path cs t n n' o add : open_layout ns k (path ++ [t]) cs -> NoDup (headers cs) -> ns !! t = Some n -> ext n n' ->
  nd_ordering n' = nd_ordering n ++ o -> tr_depth (nd_trace n') = tr_depth (nd_trace n) ->
  members_layout (<[t := n']> ns) (k + N.of_nat (length path) + 1) t n' o add -> open_layout (<[t := n']> ns) k (path ++ [t]) (cs ++ add).
Proof.
  intros Hop. remember (path ++ [t]) as p eqn:Ep. revert path Ep.
  induction Hop as [k i m body Hm Hk Hmem|k i m c cn rest before j body cs Hm Hk Ho Hc Hl Hlt Hcn Hd Hmem Hop IH]; intros path Ep Hnd Hn He Hord Hdp Hadd.
  - destruct path as [|x [|]]; [|discriminate..]. injection Ep as <-. rewrite Hm in Hn. injection Hn as <-. cbn [length] in Hadd.
    rewrite N.add_0_r in Hadd. cbn [app]. assert (Hlt : (i < length ns)%nat) by (by eapply lookup_lt_Some).
    econstructor; [by apply list_lookup_insert|done|]. rewrite Hord. eapply members_app; [|done]. eapply members_kept; [done|done|].
    cbn in Hnd. fold (headers body) in Hnd. apply NoDup_cons in Hnd as [Hni _]. apply Forall_forall. intros j Hj. unfold same_lay. rewrite list_lookup_insert_ne; [done|]. by intros ->.
  - destruct path as [|x path]; [discriminate|]. injection Ep as <- Ep. cbn [app].
    cbn in Hnd. fold (headers (body ++ cs)) in Hnd. apply NoDup_cons in Hnd as [Hni Hnd]. rewrite headers_app in Hni, Hnd. apply NoDup_app in Hnd as (Hnd1 & Hdis & Hnd2).
    assert (Ht : t ∈ headers cs). { eapply open_path; [done|]. rewrite Ep. apply elem_of_app. right. by left. }
    assert (Hti : t <> i) by (intros ->; apply Hni, elem_of_app; by right).
    replace ((body ++ cs) ++ add) with (body ++ (cs ++ add)) by (by rewrite <- app_assoc).
    assert (Hcn' : exists cn', <[t := n']> ns !! c = Some cn' /\ tr_depth (nd_trace cn') = tr_depth (nd_trace cn)).
    { destruct (decide (t = c)) as [->|Hne]; [|exists cn; by rewrite list_lookup_insert_ne]. exists n'. split; [apply list_lookup_insert; by eapply lookup_lt_Some|congruence]. }
    destruct Hcn' as (cn' & Hcn' & Hdn').
    eapply (ol_cons _ k i m c cn'); [by rewrite list_lookup_insert_ne|done..|congruence| |].
    + eapply members_kept; [done|by apply lay_ext|]. apply Forall_forall. intros j' Hj. unfold same_lay. rewrite list_lookup_insert_ne; [done|]. intros ->. by apply (Hdis j').
    + apply (IH path); [done|done|done|done|done|done|]. cbn [length] in Hadd. replace (k + 1 + N.of_nat (length path) + 1) with (k + N.of_nat (S (length path)) + 1) by lia. done.
Qed.

(** A new call of the innermost open call. *)
Lemma open_starts ns k path cs t n new : open_layout ns k (path ++ [t]) cs -> NoDup (headers cs) -> Forall (fun j => (j < length ns)%nat) (headers cs) -> ns !! t = Some n ->
  k + N.of_nat (length path) + 1 < 65535 -> nd_ordering new = [] -> tr_depth (nd_trace new) = S (tr_depth (nd_trace n)) ->
  let ns' := <[t := attach_child (length ns) n]> ns ++ [new] in
  open_layout ns' k (path ++ [t; length ns]) (cs ++ [(k + N.of_nat (length path) + 1, Header (length ns))]).
Proof.
  intros Hop Hnd Hb Hn Hk Hnew Hdnew ns'. remember (path ++ [t]) as p eqn:Ep. revert path Ep Hk Hnd Hb.
  assert (Hold : forall j, (j < length ns)%nat -> j <> t -> ns' !! j = ns !! j).
  { intros j Hj Hne. unfold ns'. rewrite lookup_app_l by (by rewrite insert_length). by rewrite list_lookup_insert_ne. }
  assert (Htl : (t < length ns)%nat) by (by eapply lookup_lt_Some).
  assert (Ht' : ns' !! t = Some (attach_child (length ns) n)).
  { unfold ns'. rewrite lookup_app_l by (by rewrite insert_length). by apply list_lookup_insert. }
  assert (Hnew' : ns' !! length ns = Some new).
  { unfold ns'. rewrite lookup_app_r by (by rewrite insert_length). rewrite insert_length, Nat.sub_diag. done. }
  induction Hop as [k i m body Hm Hk0 Hmem|k i m c cn rest before j body cs Hm Hk0 Ho Hc Hl Hlt Hcn Hd Hmem Hop IH]; intros path Ep Hk Hnd Hb.
  - destruct path as [|x [|]]; [|discriminate..]. injection Ep as <-. rewrite Hm in Hn. injection Hn as <-. cbn [length app] in *. rewrite N.add_0_r in *.
    cbn in Hnd, Hb. fold (headers body) in Hnd, Hb. apply NoDup_cons in Hnd as [Hni _]. inversion_clear Hb as [|? ? _ Hb'].
    eapply (ol_cons _ k i (attach_child (length ns) m) (length ns) new [] (nd_ordering m) (length (nd_children m))).
    + done.
    + done.
    + done.
    + cbn [attach_child nd_children]. by rewrite list_lookup_middle.
    + cbn [attach_child nd_children]. apply last_snoc.
    + done.
    + done.
    + done.
    + eapply members_kept; [done| |].
      * unfold ext. cbn [attach_child nd_children nd_logs nd_trace]. split_and!; [done|by apply prefix_app_r|done].
      * apply Forall_forall. intros j Hj. unfold same_lay. rewrite Hold; [done| |by intros ->]. by apply (proj1 (Forall_forall _ _) Hb').
    + econstructor; [done|done|]. rewrite Hnew. constructor.
  - destruct path as [|x path]; [discriminate|]. injection Ep as <- Ep. cbn [app].
    cbn in Hnd, Hb. fold (headers (body ++ cs)) in Hnd, Hb. apply NoDup_cons in Hnd as [Hni Hnd]. rewrite headers_app in Hni, Hnd. apply NoDup_app in Hnd as (Hnd1 & Hdis & Hnd2).
    inversion_clear Hb as [|? ? Hbi Hb']. rewrite headers_app, Forall_app in Hb'. destruct Hb' as [Hb1 Hb2].
    assert (Ht : t ∈ headers cs). { eapply open_path; [done|]. rewrite Ep. apply elem_of_app. right. by left. }
    assert (Hti : i <> t) by (intros ->; apply Hni, elem_of_app; by right).
    rewrite <- app_assoc.
    assert (Hcb : (c < length ns)%nat) by (by eapply lookup_lt_Some).
    assert (Hcn' : exists cn', ns' !! c = Some cn' /\ tr_depth (nd_trace cn') = tr_depth (nd_trace cn)).
    { destruct (decide (c = t)) as [->|Hne]; [|exists cn; by rewrite Hold]. exists (attach_child (length ns) n). split; [done|]. rewrite Hn in Hcn. by injection Hcn as <-. }
    destruct Hcn' as (cn' & Hcn' & Hdn').
    assert (Hrest : exists rest', path ++ [t; length ns] = c :: rest').
    { destruct path as [|y path]; [by injection Ep as -> _; eexists|]. injection Ep as -> _. by eexists. }
    destruct Hrest as (rest' & Hrest). cbn [length]. replace (k + N.of_nat (S (length path)) + 1) with (k + 1 + N.of_nat (length path) + 1) by lia.
    specialize (IH path Ep). cbn [length] in Hk. rewrite Hrest in IH |- *.
    eapply (ol_cons _ k i m c cn'); [by rewrite Hold|done..|congruence| |].
    + eapply members_kept; [done|by apply lay_ext|]. apply Forall_forall. intros j' Hj. unfold same_lay. rewrite Hold; [done| |intros ->; by apply (Hdis t)]. by apply (proj1 (Forall_forall _ _) Hb1).
    + apply IH; [lia|done|done].
Qed.

(** The innermost open call ends. *)
Lemma open_ends ns k path cs t : open_layout ns k (path ++ [t]) cs -> path <> [] -> open_layout ns k path (cs ++ [(k + N.of_nat (length path) + 1, Footer t)]).
Proof.
  intros Hop. remember (path ++ [t]) as p eqn:Ep. revert path Ep.
  induction Hop as [k i m body Hm Hk0 Hmem|k i m c cn rest before j body cs Hm Hk0 Ho Hc Hl Hlt Hcn Hd Hmem Hop IH]; intros path Ep Hne.
  - destruct path as [|x [|]]; [done|discriminate..].
  - destruct path as [|x path]; [done|]. injection Ep as <- Ep. cbn [app length].
    destruct path as [|y path].
    + cbn [app] in Ep. injection Ep as -> ->. econstructor; [done|done|]. rewrite Ho, <- app_assoc. eapply members_app; [done|].
      pose proof (open_closed _ _ _ _ Hop _ _ eq_refl) as Hcl. cbn [closing_lines app] in Hcl. cbn [length]. replace (k + N.of_nat 1 + 1) with (k + 1 + 1) by lia.
      rewrite <- (app_nil_r (cs ++ _)). econstructor; [done|done|constructor].
    + pose proof (IH (y :: path) Ep ltac:(done)) as IH'. cbn [app] in Ep. injection Ep as -> Ep. rewrite <- app_assoc.
      cbn [length] in *. replace (k + N.of_nat (S (S (length path))) + 1) with (k + 1 + N.of_nat (S (length path)) + 1) by lia.
      eapply (ol_cons _ k i m y cn); done.
Qed.

(** The open calls are reached by following last children. *)
Lemma open_spine ns k path cs t : open_layout ns k (path ++ [t]) cs -> forall i rest, path ++ [t] = i :: rest -> spine ns i t.
Proof.
  intros Hop. remember (path ++ [t]) as p eqn:Ep. revert path Ep.
  induction Hop as [k i m body Hm Hk0 Hmem|k i m c cn rest before j body cs Hm Hk0 Ho Hc Hl Hlt Hcn Hd Hmem Hop IH]; intros path Ep i0 rest0 [= <- <-].
  - destruct path as [|x [|]]; [|discriminate..]. injection Ep as <-. by econstructor.
  - destruct path as [|x path]; [discriminate|]. injection Ep as <- Ep. eapply spine_step; [done..|]. by eapply IH.
Qed.

Lemma open_depths ns k path cs a b : open_layout ns k (path ++ [a; b]) cs ->
  exists na nb, ns !! a = Some na /\ ns !! b = Some nb /\ tr_depth (nd_trace nb) = S (tr_depth (nd_trace na)).
Proof.
  intros Hop. remember (path ++ [a; b]) as p eqn:Ep. revert path Ep.
  induction Hop as [k i m body Hm Hk0 Hmem|k i m c cn rest before j body cs Hm Hk0 Ho Hc Hl Hlt Hcn Hd Hmem Hop IH]; intros path Ep.
  - destruct path as [|x [|y path]]; [discriminate..|]. discriminate.
  - destruct path as [|x path]; [cbn in Ep; injection Ep as -> -> _; by eauto|]. injection Ep as _ Ep. by eapply IH.
Qed.
