(** * CutLogProofs: the struct logs of a transaction that was cut off are the first ones of the whole transaction *)

From Verif Require Import GethProofs TxTraceProofs InterruptProofs.
From Verif Require Export SpecCutLogs.

(** ** Executions cut off *)

Inductive cut : frame -> frame -> Prop :=
  | cut_frame s b b' e : cut_items b b' -> cut (Frame s b e) (Frame s b' e)
with cut_items : list item -> list item -> Prop :=
  | cut_here b : cut_items b []
  | cut_later it b b' : cut_items b b' -> cut_items (it :: b) (it :: b')
  | cut_inside g g' b : cut g g' -> cut_items (ISub g :: b) [ISub g'].
Scheme cut_min := Minimality for cut Sort Prop
  with cut_items_min := Minimality for cut_items Sort Prop.
Combined Scheme cut_both from cut_min, cut_items_min.

Lemma cut_items_refl b : cut_items b b.
Proof. induction b; by constructor. Qed.
Lemma cut_refl f : cut f f.
Proof. destruct f. constructor. apply cut_items_refl. Qed.

(** Hook calls that neither start a call nor begin an instruction. *)
Definition closing (e : event) : bool :=
  match e with ECall _ _ | ECreate _ _ | EStep _ _ => false | _ => true end.

Lemma closing_hooks w d hs : Forall (fun e => closing e = true) (map (hook_event w d) hs).
Proof. apply Forall_fmap, Forall_true. by intros []. Qed.

Lemma cut_body w d body : Forall (fun f => forall d es1 es2, frame_events w d f = es1 ++ es2 -> es1 <> [] ->
    exists f' fin, cut f f' /\ frame_events w d f' = es1 ++ fin /\ Forall (fun e => closing e = true) fin) (subs body) ->
  forall es1 es2, body_events w d body = es1 ++ es2 ->
  exists body' fin, cut_items body body' /\ body_events w d body' = es1 ++ fin /\ Forall (fun e => closing e = true) fin.
Proof.
  induction body as [|it b IH]; intros Hs es1 es2 Heq.
  - cbn in Heq. symmetry in Heq. apply app_nil in Heq as [-> ->]. exists [], []. split_and!; constructor.
  - destruct es1 as [|x es1]; [exists [], []; split_and!; constructor|].
    unfold body_events in Heq. cbn [flat_map] in Heq. apply app_eq_app in Heq as (l & [[H1 H2]|[H1 H2]]).
    + assert (Hitem : exists it' fin, cut_items (it :: b) [it'] /\ body_events w d [it'] = (x :: es1) ++ fin /\ Forall (fun e => closing e = true) fin).
      { destruct it as [o|h|g].
        - exists (IOp o), l. split; [repeat constructor|]. unfold body_events. cbn [flat_map]. rewrite app_nil_r. split; [done|].
          unfold instr_events in H1. cbn [app] in H1. injection H1 as _ H1.
          assert (Hall : Forall (fun e => closing e = true) (es1 ++ l)).
          { rewrite <- H1. apply Forall_app. split; [apply closing_hooks|by repeat constructor]. }
          by apply Forall_app in Hall as [_ ?].
        - exists (IHook h), l. split; [repeat constructor|]. split; [by rewrite <- H1|].
          cbn [app] in H1. injection H1 as <- H1. symmetry in H1. apply app_nil in H1 as [_ ->]. constructor.
        - cbn [subs flat_map app] in Hs. apply Forall_cons_1 in Hs as [Hg _].
          destruct (Hg _ _ _ H1) as (g' & fin & Hc & He & Hf); [done|].
          exists (ISub g'), fin. split; [by constructor|]. unfold body_events. cbn [flat_map]. by rewrite app_nil_r. }
      destruct Hitem as (it' & fin & ? & ? & ?). by exists [it'], fin.
    + destruct (IH) with (es1 := l) (es2 := es2) as (b' & fin & Hc & He & Hf); [|done|].
      { destruct it; cbn [subs flat_map app] in Hs; try done. by apply Forall_cons_1 in Hs as [_ ?]. }
      exists (it :: b'), fin. split; [by constructor|]. split; [|done].
      unfold body_events. cbn [flat_map]. fold (body_events w d b'). rewrite He, H1. by rewrite app_assoc.
Qed.

Lemma cut_events w f : forall d es1 es2, frame_events w d f = es1 ++ es2 -> es1 <> [] ->
  exists f' fin, cut f f' /\ frame_events w d f' = es1 ++ fin /\ Forall (fun e => closing e = true) fin.
Proof.
  induction f as [s body e IH] using frame_ind'. intros d es1 es2 Heq Hne. rewrite frame_events_eq in Heq.
  destruct es1 as [|x es1]; [done|]. cbn [app] in Heq. injection Heq as <- Heq.
  apply app_eq_app in Heq as (l & [[H1 H2]|[H1 H2]]).
  - destruct (cut_body w d body IH _ _ H1) as (b' & fin & Hc & He & Hf).
    exists (Frame s b' e), (fin ++ [end_event w d s e]). split; [by constructor|]. rewrite frame_events_eq, He. cbn [app].
    split; [by rewrite <- app_assoc|]. apply Forall_app. split; [done|]. repeat constructor. by destruct s.
  - destruct l as [|y l].
    + exists (Frame s body e), [end_event w d s e]. split; [apply cut_refl|]. rewrite frame_events_eq. cbn [app].
      split; [by rewrite H1, app_nil_r|]. repeat constructor. by destruct s.
    + injection H2 as <- H2. symmetry in H2. apply app_nil in H2 as [-> ->].
      exists (Frame s body e), []. split; [apply cut_refl|]. rewrite frame_events_eq. cbn [app]. rewrite H1, app_nil_r. split; [done|constructor].
Qed.

(** *** What an execution that is cut off keeps *)

Lemma cut_every (P : list item -> Prop) : (forall b b', cut_items b b' -> P b -> P b') ->
  forall f f', cut f f' -> every_frame (fun g => P (f_body g)) f -> every_frame (fun g => P (f_body g)) f'.
Proof.
  intros HP.
  destruct (cut_both (fun f f' => every_frame (fun g => P (f_body g)) f -> every_frame (fun g => P (f_body g)) f')
    (fun b b' => Forall (every_frame (fun g => P (f_body g))) (subs b) -> Forall (every_frame (fun g => P (f_body g))) (subs b'))) as [H _]; [..|exact H].
  - intros s b b' e Hc IH H. apply every_frame_inv in H as [H1 H2]. cbn [f_body] in H1. constructor; [cbn; by eapply HP|by apply IH].
  - constructor.
  - intros it b b' Hc IH H. destruct it; cbn [subs flat_map app] in *; [by apply IH..|]. apply Forall_cons_1 in H as [H1 H2].
    constructor; [done|by apply IH].
  - intros g g' b Hc IH H. cbn [subs flat_map app] in *. apply Forall_cons_1 in H as [H1 H2]. constructor; [by apply IH|constructor].
Qed.

Lemma cut_instrs b b' : cut_items b b' -> instrs b' `prefix_of` instrs b.
Proof.
  induction 1 as [b|it b b' Hc IH|g g' b Hc].
  - apply prefix_nil.
  - destruct it; [by apply prefix_cons|done..].
  - apply prefix_nil.
Qed.
Lemma cut_subs_nil b b' : cut_items b b' -> subs b = [] -> subs b' = [].
Proof. induction 1 as [b|it b b' Hc IH|g g' b Hc]; [done| |done]. destruct it; [done..|]. done. Qed.

Lemma cut_calls m : forall b b', length b <= m -> cut_items b b' -> calls_made b -> calls_made b'.
Proof.
  induction m as [|m IH]; intros b b' Hm Hc Hb.
  { destruct b; [|cbn in Hm; lia]. by inversion Hc. }
  destruct Hc as [b|it b b' Hc|g g' b Hc]; [done| |done]. cbn in Hm.
  destruct it as [o|h|g]; [|cbn [calls_made] in *; apply (IH b); [lia|done|done]|cbn in Hb; done]. destruct b as [|[o'|h'|g] b].
  - inversion Hc; subst. exact Hb.
  - cbn [calls_made] in Hb. destruct Hb as [H1 H2].
    assert (Hb : calls_made b') by (apply (IH (IOp o' :: b)); [cbn in *; lia|done|done]).
    inversion Hc as [|? ? b2 Hc2|]; subst; [done|]. split; [|done]. intros Hx. by destruct (H1 Hx).
  - cbn [calls_made] in Hb. destruct Hb as [H1 H2].
    assert (Hb : calls_made b') by (apply (IH (IHook h' :: b)); [cbn in *; lia|done|done]).
    inversion Hc as [|? ? b2 Hc2|]; subst; [done|]. split; [|done]. intros Hx. destruct (H1 Hx) as [Hi Hs].
    pose proof (cut_instrs _ _ Hc) as Hp. rewrite Hi in Hp. apply prefix_nil_inv in Hp. split; [done|]. by eapply cut_subs_nil.
  - cbn [calls_made] in Hb. destruct Hb as [H1 H2]. inversion Hc as [|? ? b2 Hc2|? g2 ? Hc2]; subst; [done| |done].
    split; [done|]. apply (IH b); [cbn in *; lia|done|done].
Qed.

Lemma cut_env cfg w f f' : exclude_precompile_calls cfg = false -> cut f f' -> env_ok cfg w f -> evm_calls f -> env_ok cfg w f' /\ evm_calls f'.
Proof.
  intros Hex Hc [_ Hs] Hcalls. split; [split; [by rewrite Hex|]|].
  - apply (cut_every (fun b => Forall (snapshot_safe cfg) (instrs b))) with (f := f); [|done..].
    intros b b' Hb H. destruct (cut_instrs _ _ Hb) as [r Hr]. rewrite Hr in H. by apply Forall_app in H as [? _].
  - apply (cut_every calls_made) with (f := f); [|done..]. intros b b' Hb. by apply (cut_calls (length b)).
Qed.

(** ** Where the instructions of an execution are recorded: number of the call, number of the step *)

Fixpoint tags (pos : nat) (f : frame) : list (nat * nat) :=
  match f with
  | Frame _ body _ =>
      (fix go (k next : nat) (l : list item) : list (nat * nat) :=
         match l with
         | [] => []
         | IOp _ :: r => (pos, k) :: go (S k) next r
         | IHook _ :: r => go k next r
         | ISub g :: r => tags next g ++ go k (next + frame_size g) r
         end) 0 (S pos) body
  end.
Fixpoint tags_body (pos k next : nat) (l : list item) : list (nat * nat) :=
  match l with
  | [] => []
  | IOp _ :: r => (pos, k) :: tags_body pos (S k) next r
  | IHook _ :: r => tags_body pos k next r
  | ISub g :: r => tags next g ++ tags_body pos k (next + frame_size g) r
  end.
Lemma tags_eq pos s body e : tags pos (Frame s body e) = tags_body pos 0 (S pos) body.
Proof.
  cbn [tags]. generalize 0 as k, (S pos) as next. induction body as [|[o|h|g] r IH]; intros k next; cbn; [done|..]; by rewrite ?IH.
Qed.

Lemma cut_tags : (forall f f', cut f f' -> forall pos, tags pos f' `prefix_of` tags pos f) /\
  (forall b b', cut_items b b' -> forall pos k next, tags_body pos k next b' `prefix_of` tags_body pos k next b).
Proof.
  apply cut_both.
  - intros s b b' e _ IH pos. rewrite !tags_eq. apply IH.
  - intros. apply prefix_nil.
  - intros it b b' _ IH pos k next. destruct it; cbn [tags_body]; [apply prefix_cons, IH|apply IH|apply prefix_app, IH].
  - intros g g' b _ IH pos k next. cbn [tags_body]. rewrite app_nil_r. by apply prefix_app_r.
Qed.

Lemma begun_app es1 es2 : steps_begun (es1 ++ es2) = steps_begun es1 + steps_begun es2.
Proof. unfold steps_begun. by rewrite List.filter_app, app_length. Qed.
Lemma ended_app es1 es2 : steps_ended (es1 ++ es2) = steps_ended es1 + steps_ended es2.
Proof. unfold steps_ended. by rewrite List.filter_app, app_length. Qed.
Lemma begun_closing es : Forall (fun e => closing e = true) es -> steps_begun es = 0.
Proof. induction 1 as [|e es He _ IH]; [done|]. by destruct e. Qed.

Lemma begun_hooks w d hs : steps_begun (map (hook_event w d) hs) = 0.
Proof. apply begun_closing, closing_hooks. Qed.

Lemma tags_count w f : forall d pos, length (tags pos f) = steps_begun (frame_events w d f).
Proof.
  induction f as [s body e IH] using frame_ind'. intros d pos. rewrite tags_eq, frame_events_eq, !begun_app.
  replace (steps_begun [start_event w d s]) with 0 by (by destruct s). replace (steps_begun [end_event w d s e]) with 0 by (by destruct s).
  rewrite Nat.add_0_r. cbn [Nat.add]. generalize 0 as k, (S pos) as next.
  induction body as [|it b IHb]; intros k next; [done|]. unfold body_events. cbn [flat_map]. fold (body_events w d b). rewrite begun_app.
  destruct it as [o|h|g]; cbn [tags_body subs flat_map app length] in *.
  - rewrite IHb by done. unfold instr_events. change (?x :: ?l) with ([x] ++ l). rewrite !begun_app, begun_hooks. done.
  - rewrite IHb by done. by destruct h.
  - apply Forall_cons_1 in IH as [Hg IH]. by rewrite app_length, (Hg (S d)), IHb.
Qed.

(** ** The same order, read off the arena *)

Definition shape_of (n : CallTraceNode) : list nat * list u8 := (nd_children n, map st_op (tr_steps (nd_trace n))).

Fixpoint tweave (i k : nat) (ops : list u8) (subs : list (list (nat * nat))) : list (nat * nat) :=
  match ops with
  | [] => []
  | o :: ops =>
      if call_op o
      then match subs with
           | [] => (i, k) :: tweave i (S k) ops []
           | l :: subs => (i, k) :: l ++ tweave i (S k) ops subs
           end
      else (i, k) :: tweave i (S k) ops subs
  end.
Definition ncalls (ops : list u8) : nat := length (List.filter call_op ops).

Inductive tags_in_order (sh : list (list nat * list u8)) : nat -> list (nat * nat) -> Prop :=
  | tio_node i cs ops subs :
      sh !! i = Some (cs, ops) -> Forall2 (tags_in_order sh) (take (ncalls ops) cs) subs ->
      tags_in_order sh i (tweave i 0 ops subs).

Definition recorded_at (ns : list CallTraceNode) (t : nat * nat) (x : CallTraceNode * CallTraceStep) : Prop :=
  ns !! fst t = Some (fst x) /\ tr_steps (nd_trace (fst x)) !! snd t = Some (snd x).

Lemma ncalls_steps steps : ncalls (map st_op steps) = length (List.filter (fun s => call_op (st_op s)) steps).
Proof. unfold ncalls. induction steps as [|s steps IH]; [done|]. cbn [map List.filter]. destruct (call_op (st_op s)); cbn [length]; by rewrite IH. Qed.

Lemma tweave_weave ns i n steps : ns !! i = Some n -> forall k tsubs subs,
  (forall j x, steps !! j = Some x -> tr_steps (nd_trace n) !! (k + j) = Some x) ->
  Forall2 (Forall2 (recorded_at ns)) tsubs subs ->
  Forall2 (recorded_at ns) (tweave i k (map st_op steps) tsubs) (weave n steps subs).
Proof.
  intros Hn. induction steps as [|s steps IH]; intros k tsubs subs Hk Hs; [constructor|].
  assert (H0 : recorded_at ns (i, k) (n, s)).
  { split; [done|]. cbn. rewrite <- (Nat.add_0_r k). by apply Hk. }
  assert (Hk' : forall j x, steps !! j = Some x -> tr_steps (nd_trace n) !! (S k + j) = Some x).
  { intros j x Hj. replace (S k + j) with (k + S j) by lia. by apply Hk. }
  cbn [map tweave weave]. change (existsb _ _) with (call_op (st_op s)). destruct (call_op (st_op s)).
  - destruct Hs as [|tl l tsubs subs Hl Hs]; (constructor; [done|]).
    + by apply IH.
    + apply Forall2_app; [done|]. by apply IH.
  - constructor; [done|]. by apply IH.
Qed.

Lemma tags_steps ns : arena_tree ns -> forall m i T, length ns <= i + m -> tags_in_order (map shape_of ns) i T ->
  exists l, steps_in_order ns i l /\ Forall2 (recorded_at ns) T l.
Proof.
  intros Ht. induction m as [|m IH]; intros i T Hm HT; inversion HT as [? cs ops tsubs Hi Hsubs]; subst;
    rewrite list_lookup_fmap in Hi; destruct (ns !! i) as [n|] eqn:Hn; [|done| |done]; cbn in Hi; injection Hi as <- <-.
  { apply lookup_lt_Some in Hn. lia. }
  assert (exists subs, Forall2 (steps_in_order ns) (take (calls_in n) (nd_children n)) subs /\ Forall2 (Forall2 (recorded_at ns)) tsubs subs) as (subs & H1 & H2).
  { rewrite ncalls_steps in Hsubs. change (length _) with (calls_in n) in Hsubs.
    assert (Hall : Forall (fun c => In c (nd_children n)) (take (calls_in n) (nd_children n))).
    { apply Forall_take, Forall_forall. intros c Hc. by apply elem_of_list_In. }
    clear HT. induction Hsubs as [|c l cs ls Hc _ IHs]; [by exists []|]. apply Forall_cons_1 in Hall as [Hin Hall].
    destruct (IHs Hall) as (subs & H1 & H2). destruct (child_lt _ Ht _ _ _ Hn Hin) as [Hlt _].
    destruct (IH c l) as (x & Hx1 & Hx2); [lia|done|]. exists (x :: subs). split; by constructor. }
  eexists. split; [by econstructor|]. apply tweave_weave; [done| |done]. by intros.
Qed.

(** ** The arena of an execution *)

Section layout.
  Context (cfg : TracingInspectorConfig) (w : world) (ns : list CallTraceNode).
  Context (Hst : record_steps cfg = true) (Hflt : record_opcodes_filter cfg = None) (Hex : exclude_precompile_calls cfg = false).

  Lemma steps_ops d os : forall prev, Forall (snapshot_safe cfg) os ->
    map st_op (steps_from cfg w d prev os) = map (fun o => in_op (op_pre o)) os.
  Proof.
    induction os as [|o os IH]; intros prev Hs; [done|]. apply Forall_cons_1 in Hs as [Ho Hs].
    rewrite steps_from_cons by done. cbn [map]. rewrite step_of_op by done. f_equal. by apply IH.
  Qed.

  Definition frame_tags (f : frame) : Prop :=
    forall par pos d inh, every_frame (fun g => Forall (snapshot_safe cfg) (instrs (f_body g))) f -> evm_calls f ->
      placed cfg w ns pos (entries par pos d inh f) -> tags_in_order (map shape_of ns) pos (tags pos f).

  Notation ops body := (map (fun o => in_op (op_pre o)) (instrs body)).

  Lemma body_tags m : forall body i k pos d v next,
    length body <= m -> Forall frame_tags (subs body) ->
    Forall (every_frame (fun g => Forall (snapshot_safe cfg) (instrs (f_body g)))) (subs body) ->
    Forall evm_calls (subs body) -> calls_made body -> placed cfg w ns next (sub_entries pos d v next body) ->
    exists ls, Forall2 (tags_in_order (map shape_of ns)) (child_positions cfg w v next body) ls /\
      length (child_positions cfg w v next body) <= ncalls (ops body) /\
      tags_body i k next body = tweave i k (ops body) ls.
  Proof.
    induction m as [|m IH]; intros body i k pos d v next Hm Hfs Hev Hcalls Hmade Hpl.
    { destruct body; [|cbn in Hm; lia]. exists []. split_and!; [constructor|done|constructor]. }
    destruct body as [|[o|h|g] r]; [| | |done].
    - exists []. split_and!; [constructor|done|constructor].
    - cbn [sub_entries] in Hpl. change (instrs (IOp o :: r)) with (o :: instrs r). cbn [map tags_body].
      assert (Hstop : instr_is_call o = true -> instrs r = [] -> subs r = [] ->
        exists ls, Forall2 (tags_in_order (map shape_of ns)) (child_positions cfg w v next (IOp o :: r)) ls /\
          length (child_positions cfg w v next (IOp o :: r)) <= ncalls (in_op (op_pre o) :: ops r) /\
          (i, k) :: tags_body i (S k) next r = tweave i k (in_op (op_pre o) :: ops r) ls).
      { intros Hc Hi Hs. exists [].
        assert (Hch : child_positions cfg w v next r = []).
        { clear -Hs. revert next. induction r as [|[]]; intros; cbn in *; try done; by apply IHr. }
        assert (Hb : tags_body i (S k) next r = []).
        { clear -Hs Hi. revert next. induction r as [|[]]; intros; cbn in *; try done; by apply IHr. }
        cbn [child_positions]. rewrite Hch, Hb, Hi. split_and!; [constructor|cbn; lia|].
        cbn [map tweave]. by destruct (call_op _). }
      destruct (instr_is_call o) eqn:Hc.
      + destruct r as [|[o'|h'|g] r'].
        * by apply Hstop.
        * cbn [calls_made] in Hmade. destruct Hmade as [Hmade _]. by destruct (Hmade Hc).
        * cbn [calls_made] in Hmade. destruct Hmade as [Hmade _]. destruct (Hmade Hc). by apply Hstop.
        * clear Hstop. cbn [calls_made] in Hmade. destruct Hmade as [_ Hmade].
          change (subs (IOp o :: ISub g :: r')) with (g :: subs r') in *.
          apply Forall_cons_1 in Hfs as [Hg Hfs]. apply Forall_cons_1 in Hev as [Hevg Hev]. apply Forall_cons_1 in Hcalls as [Hcg Hcalls].
          cbn [sub_entries] in Hpl. apply placed_app in Hpl as [Hp1 Hp2]. rewrite entries_length in Hp2.
          pose proof (Hg _ _ _ _ Hevg Hcg Hp1) as Hlg.
          destruct (IH r' i (S k) pos d v (next + frame_size g)) as (ls & H1 & H2 & H3); try done.
          { cbn in Hm. lia. }
          exists (tags next g :: ls). cbn [child_positions tags_body]. rewrite excluded_none by done. cbn [app].
          change (instrs (ISub g :: r')) with (instrs r'). unfold ncalls. cbn [List.filter tweave].
          change (call_op (in_op (op_pre o))) with (instr_is_call o). rewrite Hc. cbn [length].
          split_and!; [by constructor|unfold ncalls in H2; lia|]. by rewrite H3.
      + assert (Hmade' : calls_made r).
        { destruct r as [|[o'|h'|g] r']; [done|by destruct Hmade..|]. destruct Hmade. congruence. }
        destruct (IH r i (S k) pos d v next) as (ls & H1 & H2 & H3); try done.
        { cbn in Hm. lia. }
        exists ls. cbn [child_positions]. unfold ncalls. cbn [List.filter tweave].
        change (call_op (in_op (op_pre o))) with (instr_is_call o). rewrite Hc. rewrite H3. done.
    - destruct (IH r i k pos d v next) as (ls & H1 & H2 & H3); try done.
      { cbn in Hm. lia. }
      by exists ls.
  Qed.

  Lemma frame_tags_all f : frame_tags f.
  Proof.
    induction f as [s body e IH] using frame_ind'. intros par pos d inh Hsafe Hcalls Hpl.
    apply every_frame_inv in Hsafe as [Hs1 Hs2]. apply every_frame_inv in Hcalls as [Hc1 Hc2].
    rewrite entries_eq in Hpl. apply placed_cons in Hpl as [Hn Hpl]. cbn [f_body] in *.
    set (x := mkEntry par pos d inh (Frame s body e)) in *.
    destruct (body_tags (length body) body pos 0 pos d (value_of s inh) (S pos)) as (ls & H1 & H2 & H3); try done.
    assert (Hch : nd_children (node_of cfg w x) = child_positions cfg w (value_of s inh) (S pos) body).
    { unfold node_of, finish. cbn [nd_set_trace nd_children]. by rewrite node_after_children. }
    assert (Hsteps : tr_steps (nd_trace (node_of cfg w x)) = steps_from cfg w (S d) None (instrs body)).
    { unfold node_of, finish. cbn [nd_set_trace nd_trace fill_trace tr_steps x en_frame en_depth]. by rewrite node_after_steps. }
    rewrite tags_eq, H3. econstructor.
    - rewrite list_lookup_fmap, Hn. cbn. unfold shape_of. rewrite Hch, Hsteps, steps_ops by done. reflexivity.
    - rewrite take_ge; done.
  Qed.
End layout.

(** ** Every step of the arena has its place in the order *)

Lemma tags_own pos body : forall k next m, m < length (instrs body) -> (pos, k + m) ∈ tags_body pos k next body.
Proof.
  induction body as [|[o|h|g] b IH]; intros k next m Hm; cbn [tags_body].
  - cbn in Hm. lia.
  - change (instrs (IOp o :: b)) with (o :: instrs b) in Hm. cbn [length] in Hm. destruct m as [|m].
    + rewrite Nat.add_0_r. constructor.
    + constructor. replace (k + S m) with (S k + m) by lia. apply IH. lia.
  - by apply IH.
  - apply elem_of_app. right. by apply IH.
Qed.

Lemma tags_cover f : forall par pos d inh j x m, entries par pos d inh f !! j = Some x -> m < length (instrs (f_body (en_frame x))) ->
  (pos + j, m) ∈ tags pos f.
Proof.
  induction f as [s body e IH] using frame_ind'. intros par pos d inh j x m Hj Hm. rewrite tags_eq. rewrite entries_eq in Hj. destruct j as [|j].
  - injection Hj as <-. cbn in Hm. rewrite Nat.add_0_r. change m with (0 + m). by apply tags_own.
  - cbn in Hj. replace (pos + S j) with (S pos + j) by lia. revert Hj. generalize (value_of s inh) as v, (S pos) as next, 0 as k. revert j.
    induction body as [|[o|h|g] b IHb]; intros j v next k Hj; cbn [sub_entries tags_body] in *.
    + done.
    + constructor. by eapply IHb.
    + by eapply IHb.
    + cbn [subs flat_map app] in IH. apply Forall_cons_1 in IH as [Hg IH]. apply elem_of_app.
      apply lookup_app_Some in Hj as [Hj|[Hle Hj]]; [left; by eapply Hg|]. right. rewrite entries_length in *.
      replace (next + j) with (next + frame_size g + (j - frame_size g)) by lia. by eapply IHb.
Qed.

(** No place is named twice. *)
Lemma tags_body_range pos b : Forall (fun f => forall pos t, t ∈ tags pos f -> pos <= fst t < pos + frame_size f) (subs b) ->
  forall k next t, t ∈ tags_body pos k next b -> (fst t = pos /\ k <= snd t) \/ next <= fst t < next + subs_size b.
Proof.
  induction b as [|[o|h|g] b IHb]; intros IH k next t Ht; cbn [tags_body subs_size] in *.
  - by apply elem_of_nil in Ht.
  - apply elem_of_cons in Ht as [->|Ht]; [by left|]. destruct (IHb IH _ _ _ Ht) as [[? ?]|?]; [left; split; [done|lia]|by right].
  - by apply IHb.
  - cbn [subs flat_map app] in IH. apply Forall_cons_1 in IH as [Hg IH]. apply elem_of_app in Ht as [Ht|Ht].
    + right. apply Hg in Ht. lia.
    + destruct (IHb IH _ _ _ Ht) as [?|?]; [by left|right; lia].
Qed.
Lemma tags_range f : forall pos t, t ∈ tags pos f -> pos <= fst t < pos + frame_size f.
Proof.
  induction f as [s body e IH] using frame_ind'. intros pos t Ht. rewrite tags_eq in Ht. rewrite frame_size_eq.
  destruct (tags_body_range _ _ IH _ _ _ Ht) as [[? ?]|?]; lia.
Qed.
Lemma tags_nodup f : forall pos, NoDup (tags pos f).
Proof.
  induction f as [s body e IH] using frame_ind'. intros pos. rewrite tags_eq. assert (Hn : pos < S pos) by lia.
  revert Hn. generalize 0 as k, (S pos) as next. induction body as [|[o|h|g] b IHb]; intros k next Hn; cbn [tags_body].
  - constructor.
  - constructor; [|by apply IHb]. intros Hin.
    apply tags_body_range in Hin as [[_ Hk]|Hk]; [cbn in Hk; lia|cbn in Hk; lia|]. apply Forall_forall. intros g _. apply tags_range.
  - by apply IHb.
  - cbn [subs flat_map app] in IH. apply Forall_cons_1 in IH as [Hg IH]. apply NoDup_app. split; [apply Hg|]. split; [|apply IHb; [done|lia]].
    intros t Ht Hin. apply tags_range in Ht.
    apply tags_body_range in Hin as [[Hk _]|Hk]; [lia|lia|]. apply Forall_forall. intros g' _. apply tags_range.
Qed.

(** ** Hook calls that leave the order alone *)

Lemma update_shape ns ns' i f : (forall n, ns !! i = Some n -> shape_of (f n) = shape_of n) -> update ns i f = Ok ns' -> map shape_of ns' = map shape_of ns.
Proof.
  intros Hf H. apply update_Ok in H as (n & Hn & ->). rewrite list_fmap_insert, Hf by done. apply list_insert_id.
  by rewrite list_lookup_fmap, Hn.
Qed.

Lemma handle_shape s e s' r : ti_handle s e = Ok (s', r) -> closing e = true -> map shape_of (ti_traces s') = map shape_of (ti_traces s).
Proof.
  destruct e as [i c|i c|l c|c i|c i o|c i|c i o|a b v]; cbn [ti_handle closing]; intros H Hd; try done;
    inv_bind H; injection H as <- _.
  - destruct (record_steps _); [|by injection E as <-]. unfold fill_step_on_step_end in E.
    destruct (ti_step_stack s) as [|[rc ti si] rest]; [done|]. destruct (negb _); [by injection E as <-|].
    do 4 inv_bind E. injection E as <-. cbn. apply index_Ok in E0, E1. eapply update_shape; [|done].
    intros n Hn. rewrite Hn in E0. injection E0 as ->. unfold shape_of, set_step. cbn. f_equal. rewrite list_fmap_insert.
    apply list_insert_id. rewrite list_lookup_fmap, E1. cbn. f_equal. unfold fill_step in E2. do 2 inv_bind E2. by injection E2 as <-.
  - destruct (record_logs _); [|by injection E as <-]. unfold on_last_trace in E. do 2 inv_bind E. injection E as <-. cbn.
    eapply update_shape; [|done]. done.
  - unfold fill_trace_on_call_end in E. destruct (ti_trace_stack s) as [|ti rest]; [done|].
    inv_bind E. injection E as <-. cbn. eapply update_shape; [|done]. intros n _. done.
  - unfold fill_trace_on_call_end in E. destruct (ti_trace_stack s) as [|ti rest]; [done|].
    inv_bind E. injection E as <-. cbn. eapply update_shape; [|done]. intros n _. done.
  - unfold on_last_trace in E. do 2 inv_bind E. injection E as <-. cbn. eapply update_shape; [|done]. done.
Qed.

Lemma run_shape es : forall s s', ti_run s es = Ok s' -> Forall (fun e => closing e = true) es ->
  map shape_of (ti_traces s') = map shape_of (ti_traces s).
Proof.
  induction es as [|e es IH]; intros s s' Hr Hf.
  - by injection Hr as <-.
  - unfold ti_run in Hr. rewrite run_cons in Hr. inv_bind Hr. destruct a as [s1 r]. cbn [fst] in Hr.
    apply Forall_cons_1 in Hf as [He Hf]. rewrite (IH _ _ Hr Hf). by eapply handle_shape.
Qed.

(** ** The order after any of the hook calls *)

Definition step_at (ns : list CallTraceNode) (t : nat * nat) : option CallTraceStep :=
  match ns !! fst t with Some n => tr_steps (nd_trace n) !! snd t | None => None end.

Lemma step_at_shape ns ns' t : map shape_of ns = map shape_of ns' -> is_Some (step_at ns t) -> is_Some (step_at ns' t).
Proof.
  intros H. unfold step_at. apply (f_equal (fun l => l !! fst t)) in H. rewrite !list_lookup_fmap in H.
  destruct (ns !! fst t) as [n|], (ns' !! fst t) as [n'|]; cbn in H; [|done|by intros []..].
  injection H as _ H. apply (f_equal (fun l => l !! snd t)) in H. rewrite !list_lookup_fmap in H.
  intros [x Hx]. rewrite Hx in H. destruct (tr_steps (nd_trace n') !! snd t); [by eexists|done].
Qed.

Lemma steps_from_length cfg w d os : record_steps cfg = true -> record_opcodes_filter cfg = None ->
  forall prev, length (steps_from cfg w d prev os) = length os.
Proof.
  intros Hst Hflt. induction os as [|o os IH]; intros prev; [done|]. rewrite steps_from_cons by done. cbn [length]. by rewrite IH.
Qed.

Lemma tx_cover cfg w f s t : record_steps cfg = true -> record_opcodes_filter cfg = None ->
  env_ok cfg w f -> ti_run (ti_new cfg) (tx_events w f) = Ok s -> is_Some (step_at (ti_traces s) t) -> t ∈ tags 0 f.
Proof.
  intros Hst Hflt Henv Hrun [x Hx]. unfold step_at in Hx. destruct t as [i m]. cbn [fst snd] in Hx.
  destruct (ti_traces s !! i) as [n|] eqn:Hn; [|done]. rewrite (tx_traces cfg w f s Henv Hrun) in Hn. unfold layout in Hn.
  rewrite list_lookup_fmap in Hn. destruct (entries None 0 0 None f !! i) as [y|] eqn:Hy; [|done]. injection Hn as <-.
  change (i, m) with (0 + i, m). eapply tags_cover; [exact Hy|].
  unfold node_of, finish in Hx. cbn [nd_set_trace nd_trace fill_trace tr_steps] in Hx. rewrite node_after_steps in Hx.
  change (tr_steps (nd_trace (start_node cfg w y))) with (@nil CallTraceStep) in Hx. apply lookup_lt_Some in Hx. cbn [app] in Hx. by rewrite steps_from_length in Hx.
Qed.

Lemma tx_tags cfg w f s : record_steps cfg = true -> record_opcodes_filter cfg = None -> exclude_precompile_calls cfg = false ->
  env_ok cfg w f -> evm_calls f -> ti_run (ti_new cfg) (tx_events w f) = Ok s -> tags_in_order (map shape_of (ti_traces s)) 0 (tags 0 f).
Proof.
  intros Hst Hflt Hex Henv Hcalls Hrun. apply (frame_tags_all cfg w (ti_traces s) Hst Hflt Hex f None 0 0 None); [apply Henv|done|].
  intros k x Hk. rewrite (tx_traces cfg w f s Henv Hrun). unfold layout. rewrite list_lookup_fmap. cbn [Nat.add]. by rewrite Hk.
Qed.

Lemma cut_order cfg w f es1 es2 s1 : record_steps cfg = true -> record_opcodes_filter cfg = None -> exclude_precompile_calls cfg = false ->
  env_ok cfg w f -> evm_calls f -> tx_events w f = es1 ++ es2 -> ti_run (ti_new cfg) es1 = Ok s1 ->
  exists T, tags_in_order (map shape_of (ti_traces s1)) 0 T /\ T `prefix_of` tags 0 f /\ length T = steps_begun es1 /\
    forall t, is_Some (step_at (ti_traces s1) t) -> t ∈ T.
Proof.
  intros Hst Hflt Hex Henv Hcalls Heq Hrun. destruct es1 as [|e0 es1].
  { injection Hrun as <-. exists []. split; [|split; [apply prefix_nil|split; [done|]]].
    - apply (tio_node _ 0 [] [] []); [done|]. constructor.
    - intros [[|i] m] [x Hx]; by destruct m. }
  destruct (cut_events w f 0 _ _ Heq) as (f' & fin & Hc & He & Hfin); [done|].
  destruct (cut_env cfg w f f' Hex Hc Henv Hcalls) as [Henv' Hcalls'].
  destruct (tx_layout cfg w f' Henv') as (lr & Hr). match type of Hr with _ = Ok ?x => set (s' := x) in * end. clearbody s'.
  pose proof (tx_tags cfg w f' s' Hst Hflt Hex Henv' Hcalls' Hr) as HT.
  assert (Hshape : map shape_of (ti_traces s') = map shape_of (ti_traces s1)).
  { unfold tx_events in Hr. rewrite He in Hr. unfold ti_run in Hr, Hrun. rewrite run_app, Hrun in Hr. cbn [rbind] in Hr. by eapply run_shape. }
  exists (tags 0 f'). split; [by rewrite <- Hshape|]. split; [by apply cut_tags|]. split.
  2:{ intros t Ht. apply (tx_cover cfg w f' s'); [done..|]. by eapply step_at_shape. }
  - rewrite (tags_count w f' 0), He, begun_app, (begun_closing fin) by done. lia.
Qed.

(** ** The record of an instruction that has ended is final *)

Definition grown (ns ns' : list CallTraceNode) : Prop := forall t x, step_at ns t = Some x -> step_at ns' t = Some x.

Lemma grown_update ns ns' i f : (forall n, ns !! i = Some n -> tr_steps (nd_trace n) `prefix_of` tr_steps (nd_trace (f n))) ->
  update ns i f = Ok ns' -> grown ns ns'.
Proof.
  intros Hf H. apply update_Ok in H as (n & Hn & ->). intros [a k] x. unfold step_at. cbn [fst snd].
  destruct (decide (i = a)) as [<-|Hne]; [|by rewrite list_lookup_insert_ne].
  rewrite Hn, list_lookup_insert by (by eapply lookup_lt_Some). intros Hk. eapply prefix_lookup; [done|]. by apply Hf.
Qed.
Lemma grown_app ns n : grown ns (ns ++ [n]).
Proof.
  intros [a k] x. unfold step_at. cbn [fst snd]. destruct (ns !! a) as [m|] eqn:Ha; [|done].
  rewrite lookup_app_l by (by eapply lookup_lt_Some). by rewrite Ha.
Qed.
Lemma grown_trans a b c : grown a b -> grown b c -> grown a c.
Proof. intros H1 H2 t x Hx. by apply H2, H1. Qed.

Lemma start_trace_grown s c a inp v kd from g mp s1 : start_trace_on_call s c a inp v kd from g mp = Ok s1 -> cx_depth c <> 0 ->
  grown (ti_traces s) (ti_traces s1).
Proof.
  intros H Hd. unfold start_trace_on_call in H. destruct (match ti_trace_stack s with [] => _ | _ => _ end). inv_bind H.
  injection H as <-. cbn [ti_traces]. apply push_trace_Ok in E.
  destruct E as [n0 H0 _|p pn Hk Hp Hdp|p pn Hk Hp Hdp]; [done| |apply grown_app].
  eapply grown_trans; [apply grown_app|]. eapply (grown_update _ _ p (attach_child (length (ti_traces s)))); [done|].
  unfold update, index. rewrite lookup_app_l by (by eapply lookup_lt_Some). by rewrite Hp.
Qed.

(** [ns0] was recorded when no instruction was in progress. *)
Definition settled (ns0 : list CallTraceNode) (s : TracingInspector) : Prop :=
  grown ns0 (ti_traces s) /\ Forall (fun x => step_at ns0 (ss_trace_idx x, ss_step_idx x) = None) (ti_step_stack s).

Lemma handle_settled ns0 s e s' r : ti_handle s e = Ok (s', r) -> is_root_start e = false -> settled ns0 s -> settled ns0 s'.
Proof.
  intros H Hr [Hg Hst].
  destruct e as [i c|i c|l c|c i|c i o|c i|c i o|a b v]; cbn [ti_handle is_root_start] in *; inv_bind H; injection H as <- _.
  - destruct (record_steps _); [|by injection E as <-]. unfold start_step in E. inv_bind E. inv_bind E. apply index_Ok in E1.
    assert (Hnew : step_at ns0 (a0, length (tr_steps (nd_trace a1))) = None).
    { destruct (step_at ns0 _) as [x|] eqn:Hx; [|done]. apply Hg in Hx. unfold step_at in Hx. cbn [fst snd] in Hx. rewrite E1 in Hx.
      apply lookup_lt_Some in Hx. lia. }
    destruct (negb _); [injection E as <-; split; [done|by constructor]|]. inv_bind E. injection E as <-. split; [|by constructor].
    cbn. eapply grown_trans; [done|]. eapply grown_update; [|done]. intros n _. cbn. by eexists.
  - destruct (record_steps _); [|by injection E as <-]. unfold fill_step_on_step_end in E.
    destruct (ti_step_stack s) as [|[rc ti si] rest]; [done|]. apply Forall_cons_1 in Hst as [Hx Hst]. cbn in Hx.
    destruct (negb _); [by injection E as <-|]. do 4 inv_bind E. injection E as <-. split; [|done]. cbn.
    apply update_Ok in E3 as (n & Hn & ->). intros [a k] x Hk. pose proof (Hg _ _ Hk) as Hk'. unfold step_at in Hk'. unfold step_at at 1. cbn [fst snd] in *.
    destruct (decide (ti = a)) as [<-|Hne]; [|by rewrite list_lookup_insert_ne].
    rewrite Hn in Hk'. rewrite list_lookup_insert by (by eapply lookup_lt_Some). cbn. rewrite list_lookup_insert_ne; [done|].
    intros ->. congruence.
  - destruct (record_logs _); [|by injection E as <-]. pose proof (on_last_same _ _ _ E) as [Hs _]. unfold on_last_trace in E. do 2 inv_bind E. injection E as <-.
    split; [|done]. cbn. eapply grown_trans; [done|]. by eapply grown_update; [|done].
  - unfold ti_call in E. destruct (call_from_to i). inv_bind E. split; [|by rewrite (start_trace_same _ _ _ _ _ _ _ _ _ _ E)].
    eapply grown_trans; [done|]. eapply start_trace_grown; [done|]. by apply Nat.eqb_neq.
  - split; [|by rewrite (fill_same _ _ _ _ _ E)]. unfold fill_trace_on_call_end in E. destruct (ti_trace_stack s) as [|ti rest]; [done|].
    inv_bind E. injection E as <-. cbn. eapply grown_trans; [done|]. by eapply grown_update; [|done].
  - unfold ti_create in E. split; [|by rewrite (start_trace_same _ _ _ _ _ _ _ _ _ _ E)].
    eapply grown_trans; [done|]. eapply start_trace_grown; [done|]. by apply Nat.eqb_neq.
  - split; [|by rewrite (fill_same _ _ _ _ _ E)]. unfold fill_trace_on_call_end in E. destruct (ti_trace_stack s) as [|ti rest]; [done|].
    inv_bind E. injection E as <-. cbn. eapply grown_trans; [done|]. by eapply grown_update; [|done].
  - pose proof (on_last_same _ _ _ E) as [Hs _]. unfold on_last_trace in E. do 2 inv_bind E. injection E as <-.
    split; [|done]. cbn. eapply grown_trans; [done|]. by eapply grown_update; [|done].
Qed.

Lemma run_settled ns0 es : forall s s', ti_run s es = Ok s' -> Forall (fun e => is_root_start e = false) es -> settled ns0 s -> settled ns0 s'.
Proof.
  induction es as [|e es IH]; intros s s' Hr Hf Hs.
  - by injection Hr as <-.
  - unfold ti_run in Hr. rewrite run_cons in Hr. inv_bind Hr. destruct a as [s1 r]. cbn [fst] in Hr.
    apply Forall_cons_1 in Hf as [He Hf]. eapply IH; [done..|]. by eapply handle_settled.
Qed.

(** *** An instruction that has begun and not ended *)

Definition blank (x : CallTraceStep) : Prop := st_gas_cost x = 0%N /\ st_storage_change x = None /\ st_status x = Continue.
Definition fresh (ns0 ns : list CallTraceNode) : Prop := forall t x, step_at ns t = Some x -> step_at ns0 t = None -> blank x.

Lemma fresh_update ns0 ns ns' i f : (forall n, tr_steps (nd_trace (f n)) = tr_steps (nd_trace n)) -> update ns i f = Ok ns' -> fresh ns0 ns -> fresh ns0 ns'.
Proof.
  intros Hf H Hfr [a k] x Hx. apply (Hfr (a, k)). revert Hx. apply update_Ok in H as (n & Hn & ->). unfold step_at. cbn [fst snd].
  destruct (decide (i = a)) as [<-|Hne]; [|by rewrite list_lookup_insert_ne].
  rewrite Hn, list_lookup_insert by (by eapply lookup_lt_Some). by rewrite Hf.
Qed.
Lemma fresh_app ns0 ns n : tr_steps (nd_trace n) = [] -> fresh ns0 ns -> fresh ns0 (ns ++ [n]).
Proof.
  intros Hn Hfr [a k] x Hx. apply (Hfr (a, k)). revert Hx. unfold step_at. cbn [fst snd].
  destruct (decide (a < length ns)) as [Ha|Ha]; [by rewrite lookup_app_l|]. rewrite lookup_app_r by lia.
  destruct (a - length ns) as [|j]; cbn; [by rewrite Hn|done].
Qed.
Lemma start_trace_fresh ns0 s c a inp v kd from g mp s1 : start_trace_on_call s c a inp v kd from g mp = Ok s1 ->
  fresh ns0 (ti_traces s) -> fresh ns0 (ti_traces s1).
Proof.
  intros H Hfr. unfold start_trace_on_call in H. destruct (match ti_trace_stack s with [] => _ | _ => _ end). inv_bind H.
  injection H as <-. cbn [ti_traces]. apply push_trace_Ok in E.
  destruct E as [n0 H0 Hn0|p pn Hk Hp Hdp|p pn Hk Hp Hdp]; [| |by apply fresh_app].
  { intros [b k] x Hx Hx0. unfold step_at in Hx. cbn [fst snd] in Hx. destruct (decide (b = 0)) as [->|Hne].
    - rewrite list_lookup_insert in Hx by (by eapply lookup_lt_Some). done.
    - rewrite list_lookup_insert_ne in Hx by done. by apply (Hfr (b, k)). }
  eapply (fresh_update _ _ _ p (attach_child (length (ti_traces s)))); [done| |].
  - unfold update, index. rewrite lookup_app_l by (by eapply lookup_lt_Some). by rewrite Hp.
  - by apply fresh_app.
Qed.

Lemma handle_fresh ns0 s e s' r : ti_handle s e = Ok (s', r) -> steps_ended [e] = 0 ->
  fresh ns0 (ti_traces s) -> fresh ns0 (ti_traces s').
Proof.
  intros H He Hg.
  destruct e as [i c|i c|l c|c i|c i o|c i|c i o|a b v]; cbn [ti_handle] in *; inv_bind H; injection H as <- _.
  - destruct (record_steps _); [|by injection E as <-]. unfold start_step in E. inv_bind E. inv_bind E.
    destruct (negb _); [by injection E as <-|]. inv_bind E. injection E as <-. cbn. apply update_Ok in E2 as (n & Hn & ->).
    intros [a k] x Hx Hx0. unfold step_at in Hx. cbn [fst snd] in Hx. destruct (decide (a0 = a)) as [<-|Hne].
    + rewrite list_lookup_insert in Hx by (by eapply lookup_lt_Some). cbn in Hx. apply lookup_app_Some in Hx as [Hx|[_ Hx]].
      * apply (Hg (a0, k)); [|done]. unfold step_at. cbn. by rewrite Hn.
      * apply list_lookup_singleton_Some in Hx as [_ <-]. done.
    + rewrite list_lookup_insert_ne in Hx by done. by apply (Hg (a, k)).
  - done.
  - destruct (record_logs _); [|by injection E as <-]. unfold on_last_trace in E. do 2 inv_bind E. injection E as <-. cbn. by eapply fresh_update; [|done|].
  - unfold ti_call in E. destruct (call_from_to i). inv_bind E. by eapply start_trace_fresh.
  - unfold fill_trace_on_call_end in E. destruct (ti_trace_stack s) as [|ti rest]; [done|].
    inv_bind E. injection E as <-. cbn. by eapply fresh_update; [|done|].
  - unfold ti_create in E. by eapply start_trace_fresh.
  - unfold fill_trace_on_call_end in E. destruct (ti_trace_stack s) as [|ti rest]; [done|].
    inv_bind E. injection E as <-. cbn. by eapply fresh_update; [|done|].
  - unfold on_last_trace in E. do 2 inv_bind E. injection E as <-. cbn. by eapply fresh_update; [|done|].
Qed.
Lemma run_fresh ns0 es : forall s s', ti_run s es = Ok s' -> steps_ended es = 0 ->
  fresh ns0 (ti_traces s) -> fresh ns0 (ti_traces s').
Proof.
  induction es as [|e es IH]; intros s s' Hr He Hs.
  - by injection Hr as <-.
  - unfold ti_run in Hr. rewrite run_cons in Hr. inv_bind Hr. destruct a as [s1 r]. cbn [fst] in Hr.
    change (e :: es) with ([e] ++ es) in He. rewrite ended_app in He.
    eapply IH; [done|lia|]. eapply handle_fresh; [done|lia|done].
Qed.

(** *** Instructions in progress *)

Lemma handle_in_progress s e s' r : ti_handle s e = Ok (s', r) -> record_steps (ti_config s) = true ->
  length (ti_step_stack s') + steps_ended [e] = length (ti_step_stack s) + steps_begun [e].
Proof.
  intros H Hr.
  destruct e as [i c|i c|l c|c i|c i o|c i|c i o|a b v]; cbn [ti_handle] in *; inv_bind H; injection H as <- _.
  - rewrite Hr in E. unfold start_step in E. inv_bind E. inv_bind E. destruct (negb _); [injection E as <-; cbn; lia|].
    inv_bind E. injection E as <-. cbn. lia.
  - rewrite Hr in E. unfold fill_step_on_step_end in E. destruct (ti_step_stack s) as [|[rc ti si] rest]; [done|].
    destruct (negb _); [injection E as <-; cbn; lia|]. do 4 inv_bind E. injection E as <-. cbn. lia.
  - destruct (record_logs _); [|injection E as <-; cbn; lia]. apply on_last_same in E as [-> _]. cbn. lia.
  - unfold ti_call in E. destruct (call_from_to i). inv_bind E. apply start_trace_same in E as ->. cbn. lia.
  - apply fill_same in E as ->. cbn. lia.
  - apply start_trace_same in E as ->. cbn. lia.
  - apply fill_same in E as ->. cbn. lia.
  - apply on_last_same in E as [-> _]. cbn. lia.
Qed.
Lemma run_in_progress es : forall s s', ti_run s es = Ok s' -> record_steps (ti_config s) = true ->
  length (ti_step_stack s') + steps_ended es = length (ti_step_stack s) + steps_begun es.
Proof.
  induction es as [|e es IH]; intros s s' Hr Hc.
  - injection Hr as <-. cbn. lia.
  - unfold ti_run in Hr. rewrite run_cons in Hr. inv_bind Hr. destruct a as [s1 r]. cbn [fst] in Hr.
    pose proof (handle_in_progress _ _ _ _ E Hc) as H1. rewrite <- (ti_handle_config _ _ _ _ E) in Hc.
    pose proof (IH _ _ Hr Hc) as H2. change (e :: es) with ([e] ++ es). rewrite begun_app, ended_app. lia.
Qed.

Lemma calm_split es : forall mid, calm mid es -> (mid = true /\ steps_ended es = 0) \/
  exists es0 pend, es = es0 ++ pend /\ steps_ended pend = 0 /\ steps_begun es0 + (if mid then 1 else 0) = steps_ended es0.
Proof.
  induction es as [|e es IH]; intros mid Hc.
  { destruct mid; [by left|]. right. by exists [], []. }
  assert (Hkeep : forall m, calm m es -> steps_begun [e] = 0 -> steps_ended [e] = 0 -> (m = true /\ steps_ended (e :: es) = 0) \/
    exists es0 pend, e :: es = es0 ++ pend /\ steps_ended pend = 0 /\ steps_begun es0 + (if m then 1 else 0) = steps_ended es0).
  { intros m Hm H1 H2. destruct (IH _ Hm) as [[-> H]|(es0 & pend & -> & H3 & H4)].
    - left. split; [done|]. change (e :: es) with ([e] ++ es). rewrite ended_app. lia.
    - right. exists (e :: es0), pend. split; [done|]. split; [done|]. change (e :: es0) with ([e] ++ es0). rewrite ended_app, begun_app. lia. }
  destruct e; cbn [calm] in Hc; try (destruct Hc as [-> Hc]); try (by apply Hkeep).
  - right. destruct (IH _ Hc) as [[_ H]|(es0 & pend & -> & H3 & H4)].
    + by exists [], (EStep i c :: es).
    + exists (EStep i c :: es0), pend. split; [done|]. split; [done|]. change (EStep i c :: es0) with ([EStep i c] ++ es0).
      rewrite ended_app, begun_app. cbn [steps_begun steps_ended List.filter length]. lia.
  - right. destruct (IH _ Hc) as [[? H]|(es0 & pend & -> & H3 & H4)]; [done|].
    exists (EStepEnd i c :: es0), pend. split; [done|]. split; [done|]. change (EStepEnd i c :: es0) with ([EStepEnd i c] ++ es0).
    rewrite ended_app, begun_app. cbn [steps_begun steps_ended List.filter length]. lia.
Qed.

(** ** From steps to lines *)

Section lines.
  Context (opts : GethDefaultTracingOptions).

  Lemma do_log_same st st' n n' x : fst st = fst st' -> map but_return_data (snd st) = map but_return_data (snd st') ->
    fst (do_log opts st (n, x)) = fst (do_log opts st' (n', x)) /\
    map but_return_data (snd (do_log opts st (n, x))) = map but_return_data (snd (do_log opts st' (n', x))).
  Proof.
    intros H1 H2. unfold do_log. rewrite H1. destruct (is_storage_enabled opts); [destruct (st_storage_change x)|]; cbn [fst snd]; rewrite !map_app, H2; done.
  Qed.
  Lemma after_same l : forall l', map snd l = map snd l' ->
    fst (after opts l) = fst (after opts l') /\ map but_return_data (snd (after opts l)) = map but_return_data (snd (after opts l')).
  Proof.
    induction l as [|[n x] l IH] using rev_ind; intros l' H.
    - by destruct l'.
    - destruct l' as [|[n' x'] l' _] using rev_ind; [by destruct l|]. rewrite !map_app in H. apply app_inj_tail in H as [H Hx].
      cbn in Hx. subst x'. rewrite !after_snoc. destruct (IH _ H) as [H1 H2]. exact (do_log_same _ _ n n' x H1 H2).
  Qed.
  Lemma after_take l k : snd (after opts (take k l)) = take k (snd (after opts l)).
  Proof.
    induction l as [|[n x] l IH] using rev_ind; [by destruct k|]. destruct (decide (k <= length l)).
    - rewrite after_snoc. destruct (do_log_snd opts (after opts l) n x) as [o ->]. rewrite !take_app_le; [done|by rewrite after_length|done].
    - rewrite !take_ge; [done|rewrite after_length|]; rewrite app_length; cbn; lia.
  Qed.

  Lemma after_ended l l' k : take k (map snd l) = take k (map snd l') ->
    map but_return_data (take k (snd (after opts l))) = map but_return_data (take k (snd (after opts l'))).
  Proof. intros H. rewrite <- !after_take. apply after_same. by rewrite <- !firstn_map. Qed.

  Lemma after_begun l l' : (forall j x, l !! j = Some x -> exists y, l' !! j = Some y /\ same_step (snd x) (snd y)) ->
    map began_with (snd (after opts l)) = take (length l) (map began_with (snd (after opts l'))).
  Proof.
    intros H. apply list_eq. intros j. rewrite list_lookup_fmap. destruct (l !! j) as [[n x]|] eqn:Hj.
    - destruct (H _ _ Hj) as ([n' y] & Hj' & Hs). cbn [snd] in Hs. rewrite lookup_take by (by eapply lookup_lt_Some). rewrite list_lookup_fmap.
      destruct (after_lookup opts _ _ _ _ Hj) as (ls & -> & _). destruct (after_lookup opts _ _ _ _ Hj') as (ls' & -> & _). cbn. f_equal.
      unfold began_with, struct_log. cbn.
      by rewrite (ssm_depth _ _ Hs), (ssm_gas _ _ Hs), (ssm_op _ _ Hs), (ssm_pc _ _ Hs), (ssm_refund _ _ Hs), (ssm_stack _ _ Hs), (ssm_memory _ _ Hs).
    - apply lookup_ge_None in Hj. rewrite !lookup_ge_None_2; [done|rewrite take_length; lia|by rewrite after_length].
  Qed.
End lines.

Lemma run_arena_tree cfg es s : ti_run (ti_new cfg) es = Ok s -> arena_tree (ti_traces s).
Proof. intros H. eapply run_tree; [|exact H]. apply arena_tree_default. Qed.

Lemma recorded_step ns t x : recorded_at ns t x -> step_at ns t = Some (snd x).
Proof. intros [H1 H2]. unfold step_at. by rewrite H1. Qed.

Theorem cut_lines cfg w f es1 es2 s1 s2 : record_steps cfg = true -> record_opcodes_filter cfg = None -> exclude_precompile_calls cfg = false ->
  env_ok cfg w f -> evm_calls f -> tx_events w f = es1 ++ es2 ->
  ti_run (ti_new cfg) es1 = Ok s1 -> ti_run (ti_new cfg) (tx_events w f) = Ok s2 ->
  exists l1 l2, steps_in_order (ti_traces s1) 0 l1 /\ steps_in_order (ti_traces s2) 0 l2 /\ length l1 = steps_begun es1 /\
    (forall j x, l1 !! j = Some x -> exists y, l2 !! j = Some y /\ same_step (snd x) (snd y)) /\
    take (steps_ended es1) (map snd l1) = take (steps_ended es1) (map snd l2) /\
    (forall j x, l1 !! j = Some x -> steps_ended es1 <= j -> blank (snd x)).
Proof.
  intros Hst Hflt Hex Henv Hcalls Heq H1 H2.
  destruct (cut_order cfg w f es1 es2 s1 Hst Hflt Hex Henv Hcalls Heq H1) as (T1 & HT1 & Hp1 & Hlen1 & Hcov1).
  pose proof (tx_tags cfg w f s2 Hst Hflt Hex Henv Hcalls H2) as HT2.
  destruct (tags_steps _ (run_arena_tree _ _ _ H1) (length (ti_traces s1)) 0 T1) as (l1 & Hl1 & Hr1); [lia|done|].
  destruct (tags_steps _ (run_arena_tree _ _ _ H2) (length (ti_traces s2)) 0 _ ltac:(lia) HT2) as (l2 & Hl2 & Hr2).
  exists l1, l2. split; [done|]. split; [done|]. split; [by rewrite <- (Forall2_length _ _ _ Hr1)|].
  assert (Hpair : forall j x, l1 !! j = Some x -> exists t y, T1 !! j = Some t /\ l2 !! j = Some y /\ recorded_at (ti_traces s1) t x /\ recorded_at (ti_traces s2) t y).
  { intros j x Hj. destruct (Forall2_lookup_r _ _ _ _ _ Hr1 Hj) as (t & Ht & Hx).
    pose proof (prefix_lookup _ _ _ _ Ht Hp1) as Ht2. destruct (Forall2_lookup_l _ _ _ _ _ Hr2 Ht2) as (y & Hy & Hy'). by exists t, y. }
  split.
  - intros j x Hj. destruct (Hpair j x Hj) as (t & y & Ht & Hy & Hx & Hy'). exists y. split; [done|].
    assert (Hne : es1 <> []).
    { intros ->. rewrite (Forall2_length _ _ _ Hr1) in Hlen1. apply lookup_lt_Some in Hj. cbn in Hlen1. lia. }
    destruct (tx_interrupted cfg w f es1 es2 Henv Heq Hne) as (s1' & s2' & H1' & H2' & Hlater & _).
    rewrite H1 in H1'. injection H1' as <-. rewrite H2 in H2'. injection H2' as <-.
    destruct Hx as [Hx1 Hx2]. destruct Hy' as [Hy1 Hy2]. destruct (Hlater _ _ Hx1) as (b & Hb & Hn).
    rewrite Hy1 in Hb. injection Hb as <-. destruct (ln_steps _ _ Hn _ _ Hx2) as (z & Hz & Hs). congruence.
  - assert (Hcalm : calm false (es1 ++ es2)).
    { rewrite <- Heq. unfold tx_events. rewrite <- (app_nil_r (frame_events w 0 f)). by apply calm_frame. }
    assert (Hcalm1 : calm false es1).
    { clear -Hcalm. revert Hcalm. generalize false as mid. induction es1 as [|e es IH]; intros mid H; [done|].
      destruct e; cbn in *; first [destruct H as [H1 H2]; split; [done|]; by apply IH|by apply IH]. }
    destruct (calm_split _ _ Hcalm1) as [[? _]|(es0 & pend & -> & Hpend & Hbal)]; [done|]. rewrite Nat.add_0_r in Hbal.
    rewrite ended_app, Hpend, Nat.add_0_r.
    assert (H0 : exists s0, ti_run (ti_new cfg) es0 = Ok s0 /\ ti_run s0 pend = Ok s1 /\ ti_run s0 (pend ++ es2) = Ok s2).
    { rewrite Heq in H2. unfold ti_run in *. rewrite <- app_assoc in H2. destruct (run_prefix _ _ _ _ _ H1) as (s0 & Ha & Hb).
      destruct (run_prefix _ _ _ _ _ H2) as (s0' & Ha' & Hb'). rewrite Ha in Ha'. injection Ha' as <-. eauto. }
    destruct H0 as (s0 & H0 & H01 & H02). rewrite <- app_assoc in Heq.
    destruct (cut_order cfg w f _ _ s0 Hst Hflt Hex Henv Hcalls Heq H0) as (T0 & HT0 & Hp0 & Hlen0 & Hcov0).
    destruct (tags_steps _ (run_arena_tree _ _ _ H0) (length (ti_traces s0)) 0 _ ltac:(lia) HT0) as (l0 & _ & Hr0).
    assert (Hle : length T0 <= length T1) by (rewrite Hlen1, Hlen0, begun_app; lia).
    assert (Hpt : T0 `prefix_of` T1).
    { destruct (prefix_weak_total _ _ _ Hp0 Hp1) as [?|Hp]; [done|]. destruct Hp as [r ->]. rewrite app_length in Hle.
      assert (r = []) as -> by (apply nil_length_inv; lia). by rewrite app_nil_r. }
    split.
    2:{ intros j x Hj Hk. destruct (Hpair j x Hj) as (t & y & Ht & _ & Hx & _). apply recorded_step in Hx.
      assert (Hfresh : fresh (ti_traces s0) (ti_traces s1)) by (eapply run_fresh; [done..|]; intros ? ? ? ?; congruence).
      apply (Hfresh t); [done|]. destruct (step_at (ti_traces s0) t) as [z|] eqn:Hz; [|done]. exfalso.
      assert (Hin : t ∈ T0) by (apply Hcov0; by eexists). apply elem_of_list_lookup in Hin as [j' Hj'].
      pose proof (prefix_lookup _ _ _ _ Hj' Hpt) as Hj1. apply lookup_lt_Some in Hj'.
      assert (Hnd : NoDup T1) by (destruct Hp1 as [r Hp1]; pose proof (tags_nodup f 0) as Hnd; rewrite Hp1 in Hnd; by apply NoDup_app in Hnd as [? _]).
      pose proof (NoDup_lookup _ _ _ _ Hnd Ht Hj1). lia. }
    destruct es0 as [|e0 es0]; [done|].
    pose proof (run_in_progress _ _ _ H0 Hst) as Hprog. cbn [ti_new ti_step_stack length] in Hprog.
    assert (Hempty : ti_step_stack s0 = []) by (apply nil_length_inv; lia).
    pose proof (tx_no_root w f) as Hnr. rewrite Heq in Hnr. cbn [app tail] in Hnr. apply Forall_app in Hnr as [_ Hnr].
    assert (Hs0 : settled (ti_traces s0) s0) by (split; [by intros ? ?|rewrite Hempty; constructor]).
    destruct (run_settled _ _ _ _ H02 Hnr Hs0) as [Hg2 _]. apply Forall_app in Hnr as [Hnr _].
    destruct (run_settled _ _ _ _ H01 Hnr Hs0) as [Hg1 _].
    assert (Hone : forall T l s, T `prefix_of` tags 0 f -> length T0 <= length T -> Forall2 (recorded_at (ti_traces s)) T l -> grown (ti_traces s0) (ti_traces s) ->
      take (steps_ended (e0 :: es0)) (map snd l) = map snd l0).
    { intros T l s HT Hlen Hr Hg. rewrite <- Hbal, <- Hlen0. apply list_eq. intros j. destruct (decide (j < length T0)) as [Hj|Hj].
      - destruct (lookup_lt_is_Some_2 T0 j Hj) as [t Ht]. destruct (Forall2_lookup_l _ _ _ _ _ Hr0 Ht) as (x & Hx & Hx').
        assert (Ht' : T !! j = Some t).
        { destruct (lookup_lt_is_Some_2 T j ltac:(lia)) as [t' Ht']. pose proof (prefix_lookup _ _ _ _ Ht Hp0) as Ha.
          pose proof (prefix_lookup _ _ _ _ Ht' HT) as Hb. congruence. }
        destruct (Forall2_lookup_l _ _ _ _ _ Hr Ht') as (y & Hy & Hy'). apply recorded_step in Hx', Hy'. apply Hg in Hx'.
        rewrite lookup_take by done. rewrite !list_lookup_fmap, Hx, Hy. cbn. congruence.
      - rewrite !lookup_ge_None_2; [done|rewrite map_length, <- (Forall2_length _ _ _ Hr0); lia|rewrite take_length; lia]. }
    rewrite (Hone T1 l1 s1), (Hone (tags 0 f) l2 s2); try done. by apply prefix_length.
Qed.
