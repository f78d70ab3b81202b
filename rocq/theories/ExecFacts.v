(** * ExecFacts: what the layout says about each frame *)

From Verif Require Export ExecProofs.

(** ** Positions, parents, depths *)

Definition triple_of (x : entry) : option nat * nat * frame := (en_par x, en_depth x, en_frame x).

Fixpoint sub_entered (pos d : nat) (next : nat) (l : list item) : list (option nat * nat * frame) :=
  match l with
  | [] => []
  | ISub g :: r => entered (Some pos) next (S d) g ++ sub_entered pos d (next + frame_size g) r
  | _ :: r => sub_entered pos d next r
  end.

Lemma entered_eq par pos d s body e :
  entered par pos d (Frame s body e) = (par, d, Frame s body e) :: sub_entered pos d (S pos) body.
Proof.
  cbn [entered]. f_equal. generalize (S pos). induction body as [|[o|h|g] r IH]; intros next; cbn; [done|..].
  - apply IH.
  - apply IH.
  - by rewrite IH.
Qed.

Lemma entries_entered f : forall par pos d inh,
  map triple_of (entries par pos d inh f) = entered par pos d f.
Proof.
  induction f as [s body e IH] using frame_ind'. intros par pos d inh.
  rewrite entries_eq, entered_eq. cbn [map]. f_equal.
  generalize (S pos) (value_of s inh). revert IH.
  induction body as [|[o|h|g] r IHr]; intros IH next v; cbn; [done|by apply IHr|by apply IHr|].
  cbn [subs flat_map app] in IH. inversion_clear IH as [|? ? Hg Hr].
  rewrite map_app, Hg. f_equal. by apply IHr.
Qed.

Lemma entered_length par pos d f : length (entered par pos d f) = frame_size f.
Proof. rewrite <-(entries_entered f par pos d None), map_length. apply entries_length. Qed.

Lemma entries_pos f : forall par pos d inh k x,
  entries par pos d inh f !! k = Some x -> en_pos x = pos + k.
Proof.
  induction f as [s body e IH] using frame_ind'. intros par pos d inh k x.
  rewrite entries_eq. destruct k as [|k]; cbn [lookup list_lookup].
  { intros [= <-]. cbn. lia. }
  enough (H : forall next, sub_entries pos d (value_of s inh) next body !! k = Some x ->
                en_pos x = next + k) by (intros Hk; apply H in Hk; lia).
  generalize (value_of s inh). intros v. revert IH k.
  induction body as [|[o|h|g] r IHr]; intros IH k next; cbn; [done|by apply IHr|by apply IHr|].
  cbn [subs flat_map app] in IH. inversion_clear IH as [|? ? Hg Hr].
  rewrite lookup_app_Some. intros [Hk|[Hlen Hk]].
  - by eapply Hg.
  - apply IHr in Hk; [|done]. rewrite entries_length in *. lia.
Qed.

(** An entry other than the first has its parent in the list, and inherits its value. *)
Definition linked (L : list entry) (base : nat) (x : entry) : Prop :=
  exists p y, en_par x = Some p /\ base <= p /\ L !! (p - base) = Some y /\
    en_inherited x = Some (value_of (f_start (en_frame y)) (en_inherited y)).

Lemma linked_app L1 L2 base x : linked L1 base x -> linked (L1 ++ L2) base x.
Proof. intros (p & y & H1 & H2 & H3 & H4). exists p, y. split_and!; try done. by apply lookup_app_l_Some. Qed.

Lemma linked_after L1 L2 base x :
  linked L2 (base + length L1) x -> linked (L1 ++ L2) base x.
Proof.
  intros (p & y & H1 & H2 & H3 & H4). exists p, y. split_and!; try done; [lia|].
  rewrite lookup_app_r by lia. by replace (p - base - length L1) with (p - (base + length L1)) by lia.
Qed.

Lemma entries_linked f : forall par pos d inh k x,
  entries par pos d inh f !! k = Some x ->
  (k = 0 /\ en_inherited x = inh /\ en_par x = par) \/ (k <> 0 /\ linked (entries par pos d inh f) pos x).
Proof.
  induction f as [s body e IH] using frame_ind'. intros par pos d inh k x.
  rewrite entries_eq. destruct k as [|k]; cbn [lookup list_lookup].
  { intros [= <-]. by left. }
  intros Hk. right. split; [done|].
  set (x0 := mkEntry par pos d inh (Frame s body e)).
  enough (H : forall (pre : list entry) next,
     next = pos + length (x0 :: pre) ->
     sub_entries pos d (value_of s inh) next body !! k = Some x ->
     linked ((x0 :: pre) ++ sub_entries pos d (value_of s inh) next body) pos x).
  { specialize (H [] (S pos)). cbn [app] in H. apply H; [cbn; lia|done]. }
  clear Hk. revert k.
  assert (Hx0 : value_of (f_start (en_frame x0)) (en_inherited x0) = value_of s inh) by done.
  assert (Hx0p : en_pos x0 = pos) by done. clearbody x0. revert IH.
  induction body as [|[o|h|g] r IHr]; intros IH k pre next Hnext; cbn [sub_entries]; [done|by apply IHr|by apply IHr|].
  cbn [subs flat_map app] in IH. inversion_clear IH as [|? ? Hg Hr].
  rewrite lookup_app_Some. intros [Hk|[Hlen Hk]].
  - destruct (Hg _ _ _ _ _ _ Hk) as [(-> & Hinh & Hpar)|[_ Hl]].
    + exists pos, x0. rewrite Hx0. split_and!; try done. by rewrite Nat.sub_diag.
    + apply linked_after. rewrite <-Hnext. by apply linked_app.
  - rewrite (app_assoc (x0 :: pre)).
    specialize (IHr Hr (k - length (entries (Some pos) next (S d) (Some (value_of s inh)) g))
                  (pre ++ entries (Some pos) next (S d) (Some (value_of s inh)) g) (next + frame_size g)).
    apply IHr; [|done]. cbn [length]. rewrite app_length, entries_length. cbn [length] in Hnext. lia.
Qed.

Lemma every_entered P f : every_frame P f ->
  forall par0 pos d0 i par d g, entered par0 pos d0 f !! i = Some (par, d, g) -> P g.
Proof.
  induction f as [s body e IH] using frame_ind'. intros H par0 pos d0 i par d g.
  apply every_frame_inv in H as [HP Hs]. rewrite entered_eq.
  destruct i as [|i]; cbn [lookup list_lookup]; [by intros [= <- <- <-]|].
  clear HP. generalize (S pos). revert i IH Hs.
  induction body as [|[o|h|g0] r IHr]; intros i IH Hs next; cbn [sub_entered]; [done|by eapply IHr|by eapply IHr|].
  cbn [subs flat_map app] in IH, Hs. inversion_clear IH as [|? ? Hg Hr]. inversion_clear Hs as [|? ? Hsg Hsr].
  rewrite lookup_app_Some. intros [Hk|[_ Hk]].
  - eapply Hg; [exact Hsg|exact Hk].
  - by eapply IHr.
Qed.

(** ** Projections of [node_after] *)

Section facts.
Context (cfg : TracingInspectorConfig) (w : world).

Notation apply_hook := (apply_hook cfg).
Notation apply_hooks := (apply_hooks cfg).
Notation apply_instr := (apply_instr cfg w).
Notation node_after := (node_after cfg w).

Lemma apply_hooks_pres {A} (pi : CallTraceNode -> A) :
  (forall n h, pi (apply_hook n h) = pi n) -> forall hs n, pi (apply_hooks n hs) = pi n.
Proof.
  intros H hs. induction hs as [|h hs IH]; intros n; [done|]. cbn.
  change (pi (apply_hooks (apply_hook n h) hs) = pi n). by rewrite IH, H.
Qed.

Lemma node_after_pres {A} (pi : CallTraceNode -> A) :
  (forall n h, pi (apply_hook n h) = pi n) -> (forall n st, pi (push_step st n) = pi n) ->
  (forall n i, pi (attach_child i n) = pi n) ->
  forall l d v n next, pi (node_after d v n next l) = pi n.
Proof.
  intros H1 H2 H3 l. induction l as [|[o|h|g] r IH]; intros d v n next; cbn [ExecProofs.node_after].
  - done.
  - rewrite IH. unfold ExecProofs.apply_instr. destruct (recorded cfg o); rewrite (apply_hooks_pres pi H1), ?H2; done.
  - by rewrite IH, H1.
  - rewrite IH. by destruct (excluded _ _ _ _).
Qed.

Lemma apply_hooks_app {A} (pi : CallTraceNode -> list A) (H : hook -> list A) :
  (forall n h, pi (apply_hook n h) = pi n ++ H h) ->
  forall hs n, pi (apply_hooks n hs) = pi n ++ flat_map H hs.
Proof.
  intros H1 hs. induction hs as [|h hs IH]; intros n; cbn; [by rewrite app_nil_r|].
  change (pi (apply_hooks (apply_hook n h) hs) = pi n ++ H h ++ flat_map H hs).
  by rewrite IH, H1, app_assoc.
Qed.

Lemma node_after_hooks {A} (pi : CallTraceNode -> list A) (H : hook -> list A) :
  (forall n h, pi (apply_hook n h) = pi n ++ H h) -> (forall n st, pi (push_step st n) = pi n) ->
  (forall n i, pi (attach_child i n) = pi n) ->
  forall l d v n next, pi (node_after d v n next l) = pi n ++ flat_map H (hooks l).
Proof.
  intros H1 H2 H3 l. induction l as [|[o|h|g] r IH]; intros d v n next; cbn [ExecProofs.node_after].
  - cbn. by rewrite app_nil_r.
  - rewrite IH. unfold ExecProofs.apply_instr. cbn [hooks flat_map]. rewrite flat_map_app, app_assoc. f_equal.
    destruct (recorded cfg o); rewrite (apply_hooks_app pi H H1), ?H2; done.
  - rewrite IH, H1. cbn [hooks flat_map]. rewrite flat_map_app, app_assoc. cbn. by rewrite app_nil_r.
  - rewrite IH. by destruct (excluded _ _ _ _); rewrite ?H3.
Qed.

(** Logs *)
Lemma node_after_logs l d v n next :
  nd_logs (node_after d v n next l) =
  nd_logs n ++ if record_logs cfg then map calllog_of (logs_of (hooks l)) else [].
Proof.
  rewrite (node_after_hooks nd_logs
             (fun h => match h with HLog _ lg => if record_logs cfg then [calllog_of lg] else [] | _ => [] end)).
  - f_equal. induction (hooks l) as [|[j lg|a b x] hs IH]; cbn.
    + by destruct (record_logs cfg).
    + rewrite IH. by destruct (record_logs cfg).
    + rewrite IH. by destruct (record_logs cfg).
  - intros m [j lg|a b x]; cbn; [destruct (record_logs cfg); cbn|]; by rewrite ?app_nil_r.
  - done.
  - done.
Qed.

(** Selfdestruct marks: the last one wins. *)
Definition marks (n : CallTraceNode) : address * option address * option U256 :=
  (tr_address (nd_trace n), tr_selfdestruct_refund_target (nd_trace n),
   tr_selfdestruct_transferred_value (nd_trace n)).
Definition mark_of (m : address * option address * option U256) (x : address * address * U256) :=
  match x with (a, b, v) => (a, Some b, Some v) end.

Lemma fold_marks_hooks hs : forall n,
  marks (apply_hooks n hs) = fold_left mark_of (selfdestructs_of hs) (marks n).
Proof.
  induction hs as [|h hs IH]; intros n; [done|]. cbn.
  change (marks (apply_hooks (apply_hook n h) hs) = fold_left mark_of (selfdestructs_of (h :: hs)) (marks n)).
  rewrite IH. destruct h as [j lg|a b x]; cbn; [|done]. by destruct (record_logs cfg).
Qed.

Lemma node_after_marks l : forall d v n next,
  marks (node_after d v n next l) = fold_left mark_of (selfdestructs_of (hooks l)) (marks n).
Proof.
  induction l as [|[o|h|g] r IH]; intros d v n next; cbn [ExecProofs.node_after]; [done|..].
  - rewrite IH. cbn [hooks flat_map]. unfold selfdestructs_of. rewrite flat_map_app, fold_left_app. f_equal.
    unfold ExecProofs.apply_instr. destruct (recorded cfg o); by rewrite fold_marks_hooks.
  - rewrite IH. cbn [hooks flat_map]. unfold selfdestructs_of. rewrite flat_map_app, fold_left_app. f_equal.
    apply (fold_marks_hooks [h]).
  - rewrite IH. by destruct (excluded _ _ _ _).
Qed.

Lemma fold_marks_last xs m :
  fold_left mark_of xs m = match last xs with Some x => mark_of m x | None => m end.
Proof.
  induction xs as [|x xs IH] using rev_ind; [done|].
  rewrite fold_left_app, last_snoc, IH. cbn. by destruct x as [[a b] v].
Qed.

(** Steps *)
Lemma recorded_selected o : recorded cfg o = selected cfg (in_op (op_pre o)).
Proof.
  unfold recorded, selected, should_record_opcode. f_equal. destruct (record_opcodes_filter cfg); [|done].
  unfold filter_is_enabled. destruct (_ <? 256)%N; [by rewrite andb_true_r|by rewrite andb_false_r].
Qed.

(** The recorded steps, each built on the previous recorded one. *)
Fixpoint steps_from (d : nat) (prev : option CallTraceStep) (os : list instr) : list CallTraceStep :=
  match os with
  | [] => []
  | o :: r =>
      if recorded cfg o then let st := step_of cfg w d prev o in st :: steps_from d (Some st) r
      else steps_from d prev r
  end.

Lemma node_after_steps l : forall d v n next,
  tr_steps (nd_trace (node_after d v n next l)) =
  tr_steps (nd_trace n) ++ steps_from d (last (tr_steps (nd_trace n))) (instrs l).
Proof.
  induction l as [|[o|h|g] r IH]; intros d v n next; cbn [ExecProofs.node_after].
  - cbn. by rewrite app_nil_r.
  - rewrite IH. cbn [instrs flat_map app steps_from]. unfold ExecProofs.apply_instr.
    destruct (recorded cfg o); rewrite apply_hooks_steps; [|done].
    cbn [push_step nd_trace tr_set_steps tr_steps]. rewrite last_snoc, <-app_assoc. done.
  - rewrite IH, apply_hook_steps. done.
  - rewrite IH. by destruct (excluded _ _ _ _).
Qed.

(** Children *)
Fixpoint child_positions (v : U256) (next : nat) (l : list item) : list nat :=
  match l with
  | [] => []
  | ISub g :: r =>
      (if excluded cfg w (f_start g) (Some v) then [] else [next]) ++ child_positions v (next + frame_size g) r
  | _ :: r => child_positions v next r
  end.

Lemma node_after_children l : forall d v n next,
  nd_children (node_after d v n next l) = nd_children n ++ child_positions v next l.
Proof.
  assert (H1 : forall n h, nd_children (apply_hook n h) = nd_children n).
  { intros n [j lg|a b x]; cbn; [by destruct (record_logs cfg)|done]. }
  induction l as [|[o|h|g] r IH]; intros d v n next; cbn [ExecProofs.node_after child_positions].
  - by rewrite app_nil_r.
  - rewrite IH. f_equal. unfold ExecProofs.apply_instr.
    destruct (recorded cfg o); by rewrite (apply_hooks_pres nd_children H1).
  - by rewrite IH, H1.
  - rewrite IH. destruct (excluded _ _ _ _); [done|]. cbn. by rewrite <-app_assoc.
Qed.

(** Ordering *)
Definition member_of (o : TraceMemberOrder) : member :=
  match o with OLog _ => MLog | OCall _ => MCall | OStep _ => MStep end.
Definition hook_members (hs : list hook) : list member :=
  flat_map (fun h => match h with HLog _ _ => if record_logs cfg then [MLog] else [] | _ => [] end) hs.
(** The members of a frame in the order they happened; a step precedes the logs it emits. *)
Definition item_members (v : U256) (it : item) : list member :=
  match it with
  | IOp o => (if recorded cfg o then [MStep] else []) ++ hook_members (op_hooks o)
  | IHook h => hook_members [h]
  | ISub g => if excluded cfg w (f_start g) (Some v) then [] else [MCall]
  end.

Lemma node_after_members l : forall d v n next,
  map member_of (nd_ordering (node_after d v n next l)) =
  map member_of (nd_ordering n) ++ flat_map (item_members v) l.
Proof.
  assert (H1 : forall n h, map member_of (nd_ordering (apply_hook n h)) =
                 map member_of (nd_ordering n) ++ hook_members [h]).
  { intros n [j lg|a b x]; cbn; [|by rewrite app_nil_r]. destruct (record_logs cfg); cbn; [|by rewrite app_nil_r].
    by rewrite map_app. }
  assert (H2 : forall hs n, map member_of (nd_ordering (apply_hooks n hs)) =
                 map member_of (nd_ordering n) ++ hook_members hs).
  { intros hs n. rewrite (apply_hooks_app (fun n => map member_of (nd_ordering n)) (fun h => hook_members [h])).
    - f_equal. unfold hook_members. cbn. induction hs as [|h hs IH]; [done|]. cbn. rewrite IH. by rewrite app_nil_r.
    - done. }
  induction l as [|[o|h|g] r IH]; intros d v n next; cbn [ExecProofs.node_after flat_map].
  - by rewrite app_nil_r.
  - rewrite IH, app_assoc. f_equal. unfold ExecProofs.apply_instr. cbn [item_members].
    destruct (recorded cfg o); rewrite H2; [|done]. cbn. rewrite map_app, <-app_assoc. done.
  - rewrite IH, H1, app_assoc. done.
  - rewrite IH. cbn [item_members]. destruct (excluded _ _ _ _); [done|]. cbn.
    rewrite map_app, <-app_assoc. done.
Qed.

End facts.
