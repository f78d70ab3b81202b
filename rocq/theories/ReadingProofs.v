(** * ReadingProofs: reading struct logs as a tree of calls *)

From Verif Require Export SpecReading GasFlowProofs.

(** ** Bodies in which every call instruction enters its call *)
Inductive made : list item -> Prop :=
  | made_nil : made []
  | made_hook h r : made r -> made (IHook h :: r)
  | made_op o r : instr_is_call o = false -> made r -> made (IOp o :: r)
  | made_sub o g r : instr_is_call o = true -> made r -> made (IOp o :: ISub g :: r)
  | made_last o r : instr_is_call o = true -> instrs r = [] -> subs r = [] -> made (IOp o :: r).
Lemma calls_made_made m : forall l, length l <= m -> calls_made l -> made l.
Proof.
  induction m as [|m IH]; intros l Hm Hc; [destruct l; [constructor|cbn in Hm; lia]|].
  destruct l as [|[o|h|g] l]; [constructor| |constructor; apply IH; [cbn in Hm; lia|exact Hc]|destruct Hc].
  cbn [length] in Hm. destruct l as [|[o2|h|g] r].
  - destruct Hc as [_ _]. destruct (instr_is_call o) eqn:E; [by apply made_last|apply made_op; [done|constructor]].
  - change ((instr_is_call o = true -> instrs (IOp o2 :: r) = [] /\ subs (IOp o2 :: r) = []) /\ calls_made (IOp o2 :: r)) in Hc.
    destruct Hc as [H1 H2]. destruct (instr_is_call o) eqn:E; [destruct (H1 eq_refl); done|]. apply made_op; [done|]. apply IH; [cbn in *; lia|done].
  - change ((instr_is_call o = true -> instrs (IHook h :: r) = [] /\ subs (IHook h :: r) = []) /\ calls_made (IHook h :: r)) in Hc.
    destruct Hc as [H1 H2]. destruct (instr_is_call o) eqn:E; [destruct (H1 eq_refl); by apply made_last|]. apply made_op; [done|]. apply IH; [cbn in *; lia|done].
  - destruct Hc as [H1 H2]. apply made_sub; [done|]. apply IH; [cbn in *; lia|done].
Qed.

(** ** Lines: depth, position of the call, instruction *)
Notation line := (nat * nat * instr)%type.
Fixpoint flines (d pos : nat) (f : frame) : list line :=
  match f with
  | Frame s body e =>
      (fix go (next : nat) (l : list item) : list line :=
         match l with
         | [] => []
         | IOp o :: r => (S d, pos, o) :: go next r
         | IHook _ :: r => go next r
         | ISub g :: r => flines (S d) next g ++ go (next + frame_size g) r
         end) (S pos) body
  end.
Fixpoint blines (d pos next : nat) (l : list item) : list line :=
  match l with
  | [] => []
  | IOp o :: r => (S d, pos, o) :: blines d pos next r
  | IHook _ :: r => blines d pos next r
  | ISub g :: r => flines (S d) next g ++ blines d pos (next + frame_size g) r
  end.
Lemma flines_eq d pos s body e : flines d pos (Frame s body e) = blines d pos (S pos) body.
Proof. cbn [flines]. generalize (S pos). induction body as [|[o|h|g] r IH]; intros n; cbn; [done|f_equal; apply IH|apply IH|f_equal; apply IH]. Qed.

Lemma flines_ran f : forall d pos, map (fun x => snd (fst x)) (flines d pos f) = ran_in pos f.
Proof.
  induction f as [s body e IH] using frame_ind'. intros d pos. rewrite flines_eq. cbn [ran_in]. generalize (S pos) as next. revert IH.
  induction body as [|[o|h|g] r IHr]; intros IH next; cbn [blines map]; [done|f_equal; by apply IHr|by apply IHr|].
  cbn [subs flat_map app] in IH. apply Forall_cons_1 in IH as [Hg Hr]. rewrite map_app, Hg. f_equal. by apply IHr.
Qed.
Lemma flines_executed f : forall d pos, map (fun x => (fst (fst x), snd x)) (flines d pos f) = map (fun x => (fst (fst x), snd x)) (executed d f).
Proof.
  induction f as [s body e IH] using frame_ind'. intros d pos. rewrite flines_eq. cbn [executed]. generalize (Frame s body e) as f0. intros f0.
  generalize (S pos) as next. revert IH.
  induction body as [|[o|h|g] r IHr]; intros IH next; cbn [blines map]; [done|f_equal; by apply IHr|by apply IHr|].
  cbn [subs flat_map app] in IH. apply Forall_cons_1 in IH as [Hg Hr]. rewrite !map_app, Hg. f_equal. by apply IHr.
Qed.

(** Own lines are at the frame's depth, all other lines below it. *)
Definition own_or_below (d pos lo hi : nat) (x : line) : Prop :=
  (fst (fst x) = S d /\ snd (fst x) = pos) \/ (S (S d) <= fst (fst x) /\ lo <= snd (fst x) < hi).
Lemma blines_range d pos l : Forall (fun g => forall d pos, Forall (own_or_below d pos (S pos) (pos + frame_size g)) (flines d pos g)) (subs l) ->
  forall next, Forall (own_or_below d pos next (next + subs_size l)) (blines d pos next l).
Proof.
  induction l as [|[o|h|g] r IHr]; intros IH next; cbn [blines subs_size]; [constructor| |by apply IHr|].
  - constructor; [by left|by apply IHr].
  - cbn [subs flat_map app] in IH. apply Forall_cons_1 in IH as [Hg Hr]. apply Forall_app. split.
    + eapply Forall_impl; [apply Hg|]. intros x [[H1 H2]|[H1 H2]]; right; pose proof (frame_size_eq). destruct g. rewrite !frame_size_eq in *; lia. lia.
    + eapply Forall_impl; [apply (IHr Hr)|]. intros x [?|[H1 H2]]; [by left|right; lia].
Qed.
Lemma flines_range f : forall d pos, Forall (own_or_below d pos (S pos) (pos + frame_size f)) (flines d pos f).
Proof.
  induction f as [s body e IH] using frame_ind'. intros d pos. rewrite flines_eq, frame_size_eq.
  replace (pos + S (subs_size body)) with (S pos + subs_size body) by lia. by apply blines_range.
Qed.
Lemma blines_range' d pos l next : Forall (own_or_below d pos next (next + subs_size l)) (blines d pos next l).
Proof. apply blines_range. apply Forall_forall. intros g _. apply flines_range. Qed.

Lemma blines_none d pos next l : instrs l = [] -> subs l = [] -> blines d pos next l = [].
Proof. induction l as [|[o|h|g] r IH]; intros H1 H2; [done..|by apply IH|done]. Qed.
(** After a call has ended the caller goes on first. *)
Lemma blines_head d pos next l x : made l -> head (blines d pos next l) = Some x -> fst (fst x) = S d /\ snd (fst x) = pos.
Proof. intros H. revert next. induction H; intros next Hx; cbn [blines] in Hx; [done|by eapply IHmade|by injection Hx as <-..]. Qed.
Lemma blines_first d pos next l k x : made l -> blines d pos next l !! k = Some x ->
  exists y, blines d pos next l !! 0 = Some y /\ fst (fst y) = S d /\ snd (fst y) = pos.
Proof.
  intros H Hk. destruct (blines d pos next l) as [|y r] eqn:E; [done|]. exists y. split; [done|]. eapply (blines_head d pos next l); [done|]. by rewrite E.
Qed.

(** ** Reading, on lines *)
Definition dep (L : list line) (j : nat) : nat := default 0 ((fun x => fst (fst x)) <$> L !! j).
Definition reads_same (L : list line) : Prop := forall j k dj ij oj dk ik ok, j < k -> L !! j = Some (dj, ij, oj) -> L !! k = Some (dk, ik, ok) ->
  (ij = ik <-> dj = dk /\ forall m x, j < m < k -> L !! m = Some x -> dj <= fst (fst x)).

Lemma reads_same_app (A B : list line) : reads_same A -> reads_same B ->
  (forall j k dj ij oj dk ik ok, A !! j = Some (dj, ij, oj) -> B !! k = Some (dk, ik, ok) ->
     (ij = ik <-> dj = dk /\ (forall m x, j < m -> A !! m = Some x -> dj <= fst (fst x)) /\ (forall m x, m < k -> B !! m = Some x -> dj <= fst (fst x)))) ->
  reads_same (A ++ B).
Proof.
  intros HA HB HAB j k dj ij oj dk ik ok Hjk Hj Hk. apply lookup_app_Some in Hj as [Hj|[Hlj Hj]]; apply lookup_app_Some in Hk as [Hk|[Hlk Hk]].
  - rewrite (HA _ _ _ _ _ _ _ _ Hjk Hj Hk). apply and_iff_compat_l. apply lookup_lt_Some in Hk.
    split; intros H m x Hm Hx; eapply (H m); eauto; [rewrite lookup_app_l in Hx by lia; done|rewrite lookup_app_l by lia; done].
  - rewrite (HAB _ _ _ _ _ _ _ _ Hj Hk). apply and_iff_compat_l. split.
    + intros [H1 H2] m x Hm Hx. apply lookup_app_Some in Hx as [Hx|[Hl Hx]]; [apply (H1 m x); [lia|done]|apply (H2 (m - length A) x); [lia|done]].
    + intros H. apply lookup_lt_Some in Hk as Hk'. split; intros m x Hm Hx.
      * apply lookup_lt_Some in Hx as Hx'. apply (H m x); [lia|]. by rewrite lookup_app_l.
      * apply (H (length A + m) x); [apply lookup_lt_Some in Hj; lia|]. rewrite lookup_app_r by lia. by replace (length A + m - length A) with m by lia.
  - apply lookup_lt_Some in Hk. lia.
  - rewrite (HB (j - length A) (k - length A) _ _ _ _ _ _ ltac:(lia) Hj Hk). apply and_iff_compat_l. split; intros H m x Hm Hx.
    + apply lookup_app_Some in Hx as [Hx|[Hl Hx]]; [apply lookup_lt_Some in Hx; lia|]. apply (H (m - length A) x); [lia|done].
    + apply (H (length A + m) x); [lia|]. rewrite lookup_app_r by lia. by replace (length A + m - length A) with m by lia.
Qed.
Lemma reads_same_one x : reads_same [x].
Proof. intros [|j] [|k] ? ? ? ? ? ? H Hj Hk; cbn in *; try lia; by destruct k. Qed.

Lemma in_range (d pos lo hi : nat) L j x : Forall (own_or_below d pos lo hi) L -> L !! j = Some x -> own_or_below d pos lo hi x.
Proof. intros H Hj. by eapply Forall_lookup_1. Qed.

Lemma own_line_reads d pos next o L hi : pos < next -> Forall (own_or_below d pos next hi) L -> reads_same L -> reads_same ((S d, pos, o) :: L).
Proof.
  intros Hlt Hr HL. change (reads_same ([(S d, pos, o)] ++ L)). apply reads_same_app; [apply reads_same_one|done|].
  intros [|j] k dj ij oj dk ik ok Hj Hk; [|done]. injection Hj as <- <- <-. destruct (in_range _ _ _ _ _ _ _ Hr Hk) as [[H1 H2]|[H1 H2]]; cbn in *.
  - split; [|done]. intros _. split; [done|]. split; [intros [|m] x Hm Hx; [lia|done]|]. intros m x _ Hx.
    destruct (in_range _ _ _ _ _ _ _ Hr Hx) as [[? _]|[? _]]; lia.
  - split; [lia|]. intros [? _]. lia.
Qed.
Lemma blines_same d pos l : made l -> Forall (fun g => forall d pos, reads_same (flines d pos g)) (subs l) ->
  forall next, pos < next -> reads_same (blines d pos next l).
Proof.
  intros H. induction H as [|h r H IHr|o r Ho H IHr|o g r Ho H IHr|o r Ho Hi Hs]; intros IH next Hlt; cbn [blines].
  - intros j k ? ? ? ? ? ? _ Hj. done.
  - by apply IHr.
  - eapply own_line_reads; [exact Hlt|apply blines_range'|by apply IHr].
  - cbn [subs flat_map app] in IH. apply Forall_cons_1 in IH as [Hg Hr].
    eapply (own_line_reads d pos next _ _ (next + subs_size (ISub g :: r))); [exact Hlt|apply (blines_range' d pos (ISub g :: r) next)|].
    apply reads_same_app; [apply Hg|apply IHr; [done|lia]|].
    intros j k dj ij oj dk ik ok Hj Hk. pose proof (in_range _ _ _ _ _ _ _ (flines_range g (S d) next) Hj) as Rj.
    pose proof (in_range _ _ _ _ _ _ _ (blines_range' d pos r (next + frame_size g)) Hk) as Rk.
    assert (Hpos : 0 < frame_size g) by (destruct g; rewrite frame_size_eq; lia).
    destruct (blines_first _ _ _ _ _ _ H Hk) as (y & Hy & Dy & _).
    split; [intros ->; destruct Rj as [[? ?]|[? ?]], Rk as [[? ?]|[? ?]]; cbn in *; lia|].
    intros (Hd & _ & Hb). exfalso. destruct k as [|k].
    + rewrite Hy in Hk. injection Hk as ->. cbn in *. destruct Rj as [[? ?]|[? ?]]; cbn in *; lia.
    + specialize (Hb 0 y ltac:(lia) Hy). destruct Rj as [[? ?]|[? ?]]; cbn in *; lia.
  - rewrite blines_none by done. apply reads_same_one.
Qed.
Lemma flines_same f : evm_calls f -> forall d pos, reads_same (flines d pos f).
Proof.
  induction f as [s body e IH] using frame_ind'. intros Hc d pos. apply every_frame_inv in Hc as [Hc Hs]. rewrite flines_eq.
  apply blines_same; [by eapply calls_made_made| |lia]. clear Hc. induction IH as [|g l Hg _ IHl]; [constructor|].
  apply Forall_cons_1 in Hs as [H1 H2]. constructor; [by apply Hg|by apply IHl].
Qed.

(** ** Positions *)
Definition at_pos (par : option nat) (pos d : nat) (f : frame) (i : nat) (x : option nat * nat * frame) : Prop :=
  pos <= i /\ entered par pos d f !! (i - pos) = Some x.
Definition sub_at (pos d next : nat) (l : list item) (i : nat) (x : option nat * nat * frame) : Prop :=
  next <= i /\ sub_entered pos d next l !! (i - next) = Some x.
Lemma at_pos_sub par pos d s body e i x : sub_at pos d (S pos) body i x -> at_pos par pos d (Frame s body e) i x.
Proof. intros [H1 H2]. split; [lia|]. rewrite entered_eq. replace (i - pos) with (S (i - S pos)) by lia. exact H2. Qed.
Lemma at_pos_root par pos d f : at_pos par pos d f pos (par, d, f).
Proof. split; [lia|]. rewrite Nat.sub_diag. destruct f. by rewrite entered_eq. Qed.
Lemma sub_at_head pos d next g r i x : at_pos (Some pos) next (S d) g i x -> sub_at pos d next (ISub g :: r) i x.
Proof. intros [H1 H2]. split; [done|]. cbn [sub_entered]. by apply lookup_app_l_Some. Qed.
Lemma sub_at_tail pos d next g r i x : sub_at pos d (next + frame_size g) r i x -> sub_at pos d next (ISub g :: r) i x.
Proof.
  intros [H1 H2]. split; [lia|]. cbn [sub_entered]. rewrite lookup_app_r; rewrite entered_length; [|lia].
  by replace (i - next - frame_size g) with (i - (next + frame_size g)) by lia.
Qed.

(** ** The calling line *)
Definition caller_in (At : nat -> option nat * nat * frame -> Prop) (L : list line) (j dj i : nat) : Prop :=
  exists k dk p ok d' g', k < j /\ L !! k = Some (dk, p, ok) /\ instr_is_call ok = true /\ S dk = dj /\
    (forall m x, k < m < j -> L !! m = Some x -> dj <= fst (fst x)) /\ At i (Some p, d', g').
Lemma middle (A B C : list line) m : m < length B -> (A ++ B ++ C) !! (length A + m) = B !! m.
Proof. intros H. rewrite lookup_app_r by lia. replace (length A + m - length A) with m by lia. by rewrite lookup_app_l. Qed.
Lemma caller_lift (At At' : nat -> option nat * nat * frame -> Prop) A B C j dj i : j < length B -> (forall x, At i x -> At' i x) ->
  caller_in At B j dj i -> caller_in At' (A ++ B ++ C) (length A + j) dj i.
Proof.
  intros Hj HAt (k & dk & p & ok & d' & g' & H1 & H2 & H3 & H4 & H5 & H6). exists (length A + k), dk, p, ok, d', g'.
  split; [lia|]. split; [by rewrite middle by lia|]. split_and!; [done..| |by apply HAt]. intros m x Hm Hx.
  assert (E : m = length A + (m - length A)) by lia. rewrite E, middle in Hx by lia. apply (H5 (m - length A) x); [lia|done].
Qed.
Lemma blines_caller d pos l : made l ->
  Forall (fun g => forall par d pos j dj i oj, flines d pos g !! j = Some (dj, i, oj) -> i <> pos -> caller_in (at_pos par pos d g) (flines d pos g) j dj i) (subs l) ->
  forall next j dj i oj, pos < next -> blines d pos next l !! j = Some (dj, i, oj) -> i <> pos -> caller_in (sub_at pos d next l) (blines d pos next l) j dj i.
Proof.
  intros H. induction H as [|h r H IHr|o r Ho H IHr|o g r Ho H IHr|o r Ho Hi Hs]; intros IH next j dj i oj Hlt Hj Hne; cbn [blines] in *.
  - done.
  - by eapply IHr.
  - destruct j as [|j]; [injection Hj as <- <- <-; done|]. change (blines d pos next r !! j = Some (dj, i, oj)) in Hj.
    pose proof (caller_lift _ (sub_at pos d next (IOp o :: r)) [(S d, pos, o)] _ [] j dj i (lookup_lt_Some _ _ _ Hj) ltac:(done) (IHr IH _ _ _ _ _ Hlt Hj Hne)) as E.
    by rewrite app_nil_r in E.
  - cbn [subs flat_map app] in IH. apply Forall_cons_1 in IH as [Hg Hr].
    destruct j as [|j]; [injection Hj as <- <- <-; done|].
    change ((flines (S d) next g ++ blines d pos (next + frame_size g) r) !! j = Some (dj, i, oj)) in Hj. apply lookup_app_Some in Hj as [Hj|[Hl Hj]].
    + destruct (decide (i = next)) as [->|Hn].
      * pose proof (in_range _ _ _ _ _ _ _ (flines_range g (S d) next) Hj) as [[R1 R2]|[R1 R2]]; cbn in *; [|lia]. subst dj.
        exists 0, (S d), pos, o, (S d), g. split_and!; [lia|done|done|done| |apply sub_at_head, at_pos_root].
        intros [|m] x Hm Hx; [lia|]. change ((flines (S d) next g ++ blines d pos (next + frame_size g) r) !! m = Some x) in Hx.
        rewrite lookup_app_l in Hx by (apply lookup_lt_Some in Hj; lia).
        destruct (in_range _ _ _ _ _ _ _ (flines_range g (S d) next) Hx) as [[? _]|[? _]]; lia.
      * apply (caller_lift (at_pos (Some pos) next (S d) g) _ [(S d, pos, o)] (flines (S d) next g)); [by eapply lookup_lt_Some| |by eapply Hg].
        intros x. apply sub_at_head.
    + pose proof (caller_lift _ (sub_at pos d next (ISub g :: r)) ((S d, pos, o) :: flines (S d) next g) _ [] (j - length (flines (S d) next g)) dj i
        (lookup_lt_Some _ _ _ Hj) (sub_at_tail _ _ _ _ _ _) (IHr Hr (next + frame_size g) _ _ _ _ ltac:(lia) Hj Hne)) as E.
      rewrite app_nil_r in E. cbn [length] in E. replace (S (length (flines (S d) next g)) + (j - length (flines (S d) next g))) with (S j) in E by lia. exact E.
  - rewrite blines_none in Hj by done. destruct j; [injection Hj as <- <- <-; done|done].
Qed.
Lemma flines_caller f : evm_calls f -> forall par d pos j dj i oj, flines d pos f !! j = Some (dj, i, oj) -> i <> pos ->
  caller_in (at_pos par pos d f) (flines d pos f) j dj i.
Proof.
  induction f as [s body e IH] using frame_ind'. intros Hc par d pos j dj i oj Hj Hne. apply every_frame_inv in Hc as [Hc Hs]. rewrite flines_eq in *.
  assert (H : caller_in (sub_at pos d (S pos) body) (blines d pos (S pos) body) j dj i).
  { eapply blines_caller; [by eapply calls_made_made| |lia|done|done]. clear Hc Hj. induction IH as [|g l Hg _ IHl]; [constructor|].
    apply Forall_cons_1 in Hs as [H1 H2]. constructor; [by apply Hg|by apply IHl]. }
  destruct H as (k & dk & p & ok & d' & g' & H1 & H2 & H3 & H4 & H5 & H6). exists k, dk, p, ok, d', g'. split_and!; try done. by apply at_pos_sub.
Qed.

(** ** The lines of one call *)
Lemma filter_none d pos lo hi L i : Forall (own_or_below d pos lo hi) L -> i <> pos -> i < lo \/ hi <= i ->
  List.filter (fun x : line => snd (fst x) =? i) L = [].
Proof.
  intros H Hi Hr. induction H as [|x L H _ IH]; [done|]. cbn [List.filter]. rewrite IH.
  destruct (Nat.eqb_spec (snd (fst x)) i); [|done]. destruct H as [[? ?]|[? ?]]; lia.
Qed.
Lemma own_lines d pos l : forall next, pos < next -> map snd (List.filter (fun x : line => snd (fst x) =? pos) (blines d pos next l)) = instrs l.
Proof.
  induction l as [|[o|h|g] r IH]; intros next Hlt; cbn [blines instrs flat_map app]; [done| |by apply IH|].
  - cbn [List.filter fst snd]. rewrite Nat.eqb_refl. cbn [map snd]. f_equal. by apply IH.
  - rewrite List.filter_app, (filter_none _ _ _ _ _ _ (flines_range g (S d) next)) by lia. cbn [app]. apply IH. lia.
Qed.
Lemma call_lines f : forall par d pos i par' d' g, at_pos par pos d f i (par', d', g) ->
  map snd (List.filter (fun x : line => snd (fst x) =? i) (flines d pos f)) = instrs (f_body g).
Proof.
  induction f as [s body e IH] using frame_ind'. intros par d pos i par' d' g [Hp Hi]. rewrite flines_eq. rewrite entered_eq in Hi.
  destruct (decide (i = pos)) as [->|Hne].
  { rewrite Nat.sub_diag in Hi. injection Hi as <- <- <-. apply own_lines. lia. }
  replace (i - pos) with (S (i - S pos)) in Hi by lia. change (sub_entered pos d (S pos) body !! (i - S pos) = Some (par', d', g)) in Hi.
  assert (Hn : S pos <= i) by lia. assert (Hlt : pos < S pos) by lia. clear Hp. revert Hi Hn Hlt. generalize (S pos) as next. revert IH.
  induction body as [|[o|h|x] r IHr]; intros IH next Hi Hn Hlt; cbn [sub_entered blines] in *; [done| |by apply IHr|].
  - cbn [List.filter fst snd]. destruct (Nat.eqb_spec pos i); [lia|]. by apply IHr.
  - cbn [subs flat_map app] in IH. apply Forall_cons_1 in IH as [Hg Hr]. rewrite List.filter_app, map_app.
    apply lookup_app_Some in Hi as [Hi|[Hl Hi]]; rewrite ?entered_length in *.
    + rewrite (Hg (Some pos) (S d) next i par' d' g (conj Hn Hi)).
      apply lookup_lt_Some in Hi. rewrite entered_length in Hi. rewrite (filter_none _ _ _ _ _ _ (blines_range' d pos r (next + frame_size x))) by lia.
      cbn. apply app_nil_r.
    + rewrite (filter_none _ _ _ _ _ _ (flines_range x (S d) next)) by (destruct x; rewrite ?frame_size_eq in *; lia). cbn [map app].
      apply IHr; [done| |lia|lia]. by replace (i - (next + frame_size x)) with (i - next - frame_size x) by lia.
Qed.

(** ** Gas *)
Definition next_in (At : nat -> option nat * nat * frame -> Prop) (L : list line) (k dk p : nat) (ok : instr) (j : nat) (oj : instr) : Prop :=
  if instr_is_call ok
  then exists i' d' g', At i' (Some p, d', g') /\
    (g_remaining (in_gas (op_pre oj)) + op_cost ok = g_remaining (in_gas (op_pre ok)) + gas_back g')%N /\
    (forall m x, k < m < j -> L !! m = Some x -> fst (fst x) = S dk -> snd (fst x) = i') /\ (S k < j <-> instrs (f_body g') <> [])
  else j = S k /\ (g_remaining (in_gas (op_pre oj)) + op_cost ok = g_remaining (in_gas (op_pre ok)))%N.
Lemma next_lift (At At' : nat -> option nat * nat * frame -> Prop) A B C k dk p ok j oj : j < length B -> (forall i x, At i x -> At' i x) ->
  next_in At B k dk p ok j oj -> next_in At' (A ++ B ++ C) (length A + k) dk p ok (length A + j) oj.
Proof.
  intros Hj HAt. unfold next_in. destruct (instr_is_call ok); [|intros [-> ?]; split; [lia|done]].
  intros (i' & d' & g' & H1 & H2 & H3 & H4). exists i', d', g'. split_and!; [by apply HAt|done| |rewrite <- H4; lia].
  intros m x Hm Hx. assert (E : m = length A + (m - length A)) by lia. rewrite E, middle in Hx by lia. apply (H3 (m - length A) x); [lia|done].
Qed.
Definition consecutive (L : list line) (k dk p : nat) (ok : instr) (j dj : nat) (oj : instr) : Prop :=
  k < j /\ L !! k = Some (dk, p, ok) /\ L !! j = Some (dj, p, oj) /\ forall m x, k < m < j -> L !! m = Some x -> snd (fst x) <> p.
Lemma consecutive_middle A B C k dk p ok j dj oj : length A <= k -> j < length A + length B ->
  consecutive (A ++ B ++ C) k dk p ok j dj oj -> consecutive B (k - length A) dk p ok (j - length A) dj oj.
Proof.
  intros Hk Hj (H1 & H2 & H3 & H4). replace k with (length A + (k - length A)) in H2 by lia. replace j with (length A + (j - length A)) in H3 by lia.
  rewrite middle in H2, H3 by lia. split_and!; [lia|done..|]. intros m x Hm Hx. apply (H4 (length A + m) x); [lia|]. by rewrite middle by lia.
Qed.
Lemma flines_empty d pos f : evm_calls f -> flines d pos f = [] <-> instrs (f_body f) = [].
Proof.
  intros Hc. destruct f as [s body e]. apply every_frame_inv in Hc as [Hc _]. rewrite flines_eq. cbn [f_body] in *.
  apply (calls_made_made _ _ (Nat.le_refl _)) in Hc. generalize (S pos) as next. induction Hc; intros next; cbn; [done|by apply IHHc|done..].
Qed.
Lemma blines_flow_head d pos next l r r' dj oj : made l -> flow r l r' -> blines d pos next l !! 0 = Some (dj, pos, oj) -> g_remaining (in_gas (op_pre oj)) = r.
Proof.
  intros H. revert r. induction H; intros r0 Hf Hj; cbn [blines] in Hj; [done|inversion Hf; subst; by eapply IHmade|..];
    injection Hj as <- <-; inversion Hf; subst; done.
Qed.
Lemma blines_next d pos l : made l ->
  Forall (fun g => evm_calls g /\ forall par d pos k dk p ok j dj oj, consecutive (flines d pos g) k dk p ok j dj oj -> next_in (at_pos par pos d g) (flines d pos g) k dk p ok j oj) (subs l) ->
  forall next k dk p ok j dj oj r r', pos < next -> flow r l r' -> consecutive (blines d pos next l) k dk p ok j dj oj ->
  next_in (sub_at pos d next l) (blines d pos next l) k dk p ok j oj.
Proof.
  intros H. induction H as [|h q H IHr|o q Ho H IHr|o g q Ho H IHr|o q Ho Hi Hs]; intros IH next k dk p ok j dj oj r r' Hlt Hf Hcon; cbn [blines] in *.
  - destruct Hcon as (_ & H & _). done.
  - inversion Hf; subst. by eapply IHr.
  - inversion Hf as [|? ? ? ? Hpre Hpost Hf'| |]; subst. destruct k as [|k].
    + destruct Hcon as (H1 & H2 & H3 & H4). injection H2 as <- <- <-. destruct j as [|j]; [lia|].
      change (blines d pos next q !! j = Some (dj, pos, oj)) in H3. destruct (blines_first _ _ _ _ _ _ H H3) as (y & Hy & Dy & Py).
      destruct j as [|j]; [|exfalso; by apply (H4 1 y ltac:(lia) Hy)]. unfold next_in. rewrite Ho. split; [done|].
      rewrite (blines_flow_head _ _ _ _ _ _ _ _ H Hf' H3). unfold op_cost. lia.
    + rewrite <- (app_nil_r (blines d pos next q)) in Hcon |- *.
      change (consecutive ([(S d, pos, o)] ++ blines d pos next q ++ []) (S k) dk p ok j dj oj) in Hcon.
      assert (Hj : j < length [(S d, pos, o)] + length (blines d pos next q)).
      { destruct Hcon as (_ & _ & H3 & _). apply lookup_lt_Some in H3. rewrite app_nil_r in H3. exact H3. }
      pose proof (consecutive_middle [(S d, pos, o)] (blines d pos next q) [] (S k) _ _ _ j _ _ ltac:(cbn; lia) Hj Hcon) as Hc. cbn [length Nat.sub] in Hc. rewrite Nat.sub_0_r in Hc.
      destruct j as [|j]; [destruct Hcon; lia|]. cbn [Nat.sub] in Hc. rewrite Nat.sub_0_r in Hc.
      apply (next_lift (sub_at pos d next q) _ [(S d, pos, o)] (blines d pos next q) [] k dk p ok j oj); [cbn in Hj; lia|done|]. by eapply IHr.
  - cbn [subs flat_map app] in IH. apply Forall_cons_1 in IH as [[Hcg Hg] Hr].
    inversion Hf as [|? ? ? ? Hpre Hpost Hf'| |]; subst. inversion Hf' as [| | |? ? ? ? Hf2]; subst.
    set (own := (S d, pos, o)) in *. set (B := flines (S d) next g) in *. set (C := blines d pos (next + frame_size g) q) in *.
    assert (RB : forall m x, B !! m = Some x -> next <= snd (fst x) < next + frame_size g /\ S (S d) <= fst (fst x) /\ (fst (fst x) = S (S d) -> snd (fst x) = next)).
    { intros m x Hx. pose proof (in_range _ _ _ _ _ _ _ (flines_range g (S d) next) Hx) as R. destruct g as [? ? ?]. rewrite frame_size_eq in *.
      destruct R as [[? ?]|[? ?]]; cbn in *; lia. }
    assert (RC : forall m x, C !! m = Some x -> snd (fst x) = pos \/ next + frame_size g <= snd (fst x)).
    { intros m x Hx. pose proof (in_range _ _ _ _ _ _ _ (blines_range' d pos q (next + frame_size g)) Hx) as [[? ?]|[? ?]]; cbn in *; lia. }
    assert (Hcon' := Hcon). destruct Hcon' as (H1 & H2 & H3 & H4). destruct k as [|k].
    + injection H2 as <- <- <-. destruct j as [|j]; [lia|]. change ((B ++ C) !! j = Some (dj, pos, oj)) in H3.
      apply lookup_app_Some in H3 as [H3|[Hl H3]]; [destruct (RB _ _ H3); cbn in *; lia|].
      destruct (blines_first _ _ _ _ _ _ H H3) as (y & Hy & Dy & Py).
      assert (E : j = length B).
      { destruct (decide (j = length B)) as [|Hn]; [done|]. exfalso. refine (H4 (S (length B)) y ltac:(lia) _ Py).
        change ((B ++ C) !! length B = Some y). rewrite lookup_app_r, Nat.sub_diag by lia. exact Hy. }
      subst j. rewrite Nat.sub_diag in H3. unfold next_in. rewrite Ho. exists next, (S d), g.
      split_and!; [apply (sub_at_head pos d next g q), at_pos_root| | |].
      * rewrite (blines_flow_head _ _ _ _ _ _ _ _ H Hf2 H3). unfold op_cost. lia.
      * intros [|m] x Hm Hx; [lia|]. change ((B ++ C) !! m = Some x) in Hx. rewrite lookup_app_l in Hx by lia. by apply (RB _ _ Hx).
      * rewrite <- (flines_empty (S d) next g Hcg). fold B. destruct B; cbn; split; try lia; done.
    + change ((B ++ C) !! k = Some (dk, p, ok)) in H2. destruct j as [|j]; [lia|]. change ((B ++ C) !! j = Some (dj, p, oj)) in H3.
      apply lookup_app_Some in H2 as [H2|[Hl2 H2]].
      * apply lookup_app_Some in H3 as [H3|[Hl3 H3]].
        -- assert (Hj : S j < length [own] + length B) by (apply lookup_lt_Some in H3; cbn; lia).
           pose proof (consecutive_middle [own] B C (S k) _ _ _ (S j) _ _ ltac:(cbn; lia) Hj Hcon) as Hc. cbn [length Nat.sub] in Hc. rewrite !Nat.sub_0_r in Hc.
           apply (next_lift (at_pos (Some pos) next (S d) g) _ [own] B C k dk p ok j oj); [cbn in Hj; lia| |by eapply Hg].
           intros i x Hx. exact (sub_at_head pos d next g q i x Hx).
        -- exfalso. destruct (RB _ _ H2) as (? & _), (RC _ _ H3); cbn in *; lia.
      * assert (Hl3 : length B <= j) by lia. rewrite lookup_app_r in H3 by lia.
        assert (Hcon2 : consecutive ((own :: B) ++ C ++ []) (S k) dk p ok (S j) dj oj) by (rewrite app_nil_r; exact Hcon).
        assert (Hj : S j < length (own :: B) + length C) by (apply lookup_lt_Some in H3; cbn; lia).
        pose proof (consecutive_middle (own :: B) C [] (S k) _ _ _ (S j) _ _ ltac:(cbn; lia) Hj Hcon2) as Hc. cbn [length Nat.sub] in Hc.
        pose proof (next_lift (sub_at pos d (next + frame_size g) q) (sub_at pos d next (IOp o :: ISub g :: q)) (own :: B) C [] (k - length B) dk p ok (j - length B) oj) as E.
        rewrite app_nil_r in E. cbn [length] in E. replace (S (length B) + (k - length B)) with (S k) in E by lia. replace (S (length B) + (j - length B)) with (S j) in E by lia.
        apply E; [cbn in Hj; lia| |eapply IHr; [done|lia|exact Hf2|exact Hc]]. intros i x Hx. exact (sub_at_tail pos d next g q i x Hx).
  - rewrite blines_none in Hcon by done. destruct Hcon as (H1 & H2 & H3 & _). apply lookup_lt_Some in H3. cbn in H3. lia.
Qed.
Lemma flines_next f : evm_calls f -> gas_flows f -> forall par d pos k dk p ok j dj oj,
  consecutive (flines d pos f) k dk p ok j dj oj -> next_in (at_pos par pos d f) (flines d pos f) k dk p ok j oj.
Proof.
  induction f as [s body e IH] using frame_ind'. intros Hc Hg par d pos k dk p ok j dj oj Hcon.
  assert (Hne : instrs body <> []).
  { intros E. apply (flines_empty d pos (Frame s body e) Hc) in E. rewrite E in Hcon. by destruct Hcon as (_ & ? & _). }
  apply every_frame_inv in Hc as [Hc Hs]. apply every_frame_inv in Hg as [(_ & _ & Hf) Hgs]. specialize (Hf Hne). cbn [f_body] in *. rewrite flines_eq in *.
  assert (H : next_in (sub_at pos d (S pos) body) (blines d pos (S pos) body) k dk p ok j oj).
  { eapply blines_next; [by eapply calls_made_made| |lia|exact Hf|exact Hcon]. clear Hc Hcon Hf Hne. induction IH as [|g l Hg _ IHl]; [constructor|].
    apply Forall_cons_1 in Hs as [H1 H2]. apply Forall_cons_1 in Hgs as [H3 H4]. constructor; [split; [done|by apply Hg]|by apply IHl]. }
  unfold next_in in *. destruct (instr_is_call ok); [|done]. destruct H as (i' & d' & g' & H1 & H2). exists i', d', g'. split; [by apply at_pos_sub|done].
Qed.

(** The lines of a call are at its depth. *)
Lemma line_depth f : forall par0 d0 p0 j dj i oj par d g, at_pos par0 p0 d0 f i (par, d, g) -> flines d0 p0 f !! j = Some (dj, i, oj) -> dj = S d.
Proof.
  induction f as [s0 body e IH] using frame_ind'. intros par0 d0 p0 j dj i oj par d g [Hle Hat] Hj. rewrite entered_eq in Hat. rewrite flines_eq in Hj.
  destruct (decide (i = p0)) as [->|Hne].
  { rewrite Nat.sub_diag in Hat. injection Hat as <- <- <-.
    destruct (in_range _ _ _ _ _ _ _ (blines_range' d0 p0 body (S p0)) Hj) as [[? ?]|[? ?]]; cbn in *; lia. }
  replace (i - p0) with (S (i - S p0)) in Hat by lia. change (sub_entered p0 d0 (S p0) body !! (i - S p0) = Some (par, d, g)) in Hat.
  assert (Hn : S p0 <= i) by lia. assert (Hlt : p0 < S p0) by lia. clear Hle. revert j Hat Hj Hn Hlt. generalize (S p0) as next. revert IH.
  induction body as [|[o|h|x] r IHr]; intros IH next j Hat Hj Hn Hlt; cbn [sub_entered blines] in *; [done| |by eapply IHr|].
  - destruct j as [|j]; [injection Hj as <- <- <-; lia|]. by eapply (IHr IH next j).
  - cbn [subs flat_map app] in IH. apply Forall_cons_1 in IH as [Hg Hr].
    apply lookup_app_Some in Hat as [Hat|[Hl Hat]]; rewrite ?entered_length in *.
    + apply lookup_app_Some in Hj as [Hj|[Hl Hj]]; [by eapply (Hg (Some p0) (S d0) next)|].
      apply lookup_lt_Some in Hat. rewrite entered_length in Hat.
      destruct (in_range _ _ _ _ _ _ _ (blines_range' d0 p0 r (next + frame_size x)) Hj) as [[? ?]|[? ?]]; cbn in *; lia.
    + apply lookup_app_Some in Hj as [Hj|[Hl2 Hj]].
      * destruct (in_range _ _ _ _ _ _ _ (flines_range x (S d0) next) Hj) as [[? ?]|[? ?]]; destruct x; rewrite ?frame_size_eq in *; cbn in *; lia.
      * eapply (IHr Hr (next + frame_size x)); [|exact Hj|lia|lia]. by replace (i - (next + frame_size x)) with (i - next - frame_size x) by lia.
Qed.
