(** * VmLogsProofs: the flattened vm trace *)

From Verif Require Export SpecVmLogs VmTxProofs GethProofs TxTraceProofs ShownProofs.

Fixpoint flat_ops (l : list VmInstruction) : list VmInstruction :=
  match l with
  | [] => []
  | i :: l => i :: match vi_sub i with Some s => flat s | None => [] end ++ flat_ops l
  end.
Lemma flat_eq c ops : flat (mkVm c ops) = flat_ops ops.
Proof. cbn [flat]. induction ops as [|[pc cost ex sub op] l IH]; [done|]. cbn [flat_ops vi_sub]. by rewrite <-IH. Qed.

Lemma enters_call o : enters (in_op (op_pre o)) = instr_is_call o.
Proof. done. Qed.

(** The instruction [i] of a vm trace is about the executed instruction [x]. *)
Definition about (cfg : TracingInspectorConfig) (x : nat * frame * instr) (i : VmInstruction) : Prop :=
  exists sub, vm_instr_of cfg (snd x) sub i.
Definition unfolds (cfg : TracingInspectorConfig) (l : list (nat * frame * instr)) (t : VmTrace) : Prop :=
  Forall2 (about cfg) l (flat t).

Lemma instr_sub cfg o sub i : vm_instr_of cfg o sub i -> vi_sub i = sub.
Proof. by intros (cost & push & mem & store & -> & _). Qed.

(** Carrying the right sub-traces. *)
Lemma carry_unfolds cfg f d : forall os lists q l q', length lists <= length (List.filter instr_is_call os) ->
  Forall2 (unfolds cfg) lists q -> carry cfg os q l q' ->
  q' = [] /\ Forall2 (about cfg) (interleave (map (fun o => (S d, f, o)) os) lists) (flat_ops l).
Proof.
  induction os as [|o os IH]; intros lists q l q' Hlen Hq Hc.
  { destruct lists; [|cbn in Hlen; lia]. inversion Hq; subst. inversion Hc; subst. split; [done|constructor]. }
  cbn [map interleave snd List.filter] in *.
  inversion Hc as [|? ? i l0 ? ? He Hi Hr|? ? i l0 ? ? He Hi Hr]; subst; rewrite enters_call in He; rewrite He in *;
    pose proof (instr_sub _ _ _ _ Hi) as Hsub; cbn [flat_ops]; rewrite Hsub.
  - destruct Hq as [|x t lists q Hx Hq]; cbn [head tail] in *.
    + destruct (IH [] [] l0 q' ltac:(cbn; lia) ltac:(constructor) Hr) as [-> Hf]. split; [done|]. constructor; [by eexists|exact Hf].
    + cbn [length] in Hlen. destruct (IH lists q l0 q' ltac:(lia) Hq Hr) as [-> Hf]. split; [done|].
      constructor; [by eexists|]. apply Forall2_app; [exact Hx|exact Hf].
  - destruct (IH lists q l0 q' Hlen Hq Hr) as [-> Hf]. split; [done|]. constructor; [by eexists|exact Hf].
Qed.

(** A frame that makes no calls leaves the queue as it is, but for its own trace at the end. *)
Lemma carry_none cfg os : forall q l q', List.filter instr_is_call os = [] -> carry cfg os q l q' -> q' = q /\ carry cfg os [] l [].
Proof.
  induction os as [|o os IH]; intros q l q' Hn Hc.
  { inversion Hc; subst. split; [done|constructor]. }
  cbn [List.filter] in Hn. destruct (instr_is_call o) eqn:Ho; [done|].
  inversion Hc as [|? ? i l0 ? ? He Hi Hr|? ? i l0 ? ? He Hi Hr]; subst; [rewrite enters_call in He; congruence|].
  destruct (IH q l0 q' Hn Hr) as [-> Hc']. split; [done|]. by constructor.
Qed.

Lemma dealt_app cfg gs1 : forall gs2 q q', dealt cfg (gs1 ++ gs2) q q' -> exists q1, dealt cfg gs1 q q1 /\ dealt cfg gs2 q1 q'.
Proof.
  induction gs1 as [|g gs1 IH]; intros gs2 q q' H. { exists q. split; [constructor|done]. }
  cbn [app] in H. inversion H as [|? ? ? l q1 ? Hc Hd]; subst. destruct (IH _ _ _ Hd) as (q2 & H1 & H2).
  exists q2. split; [by econstructor|done].
Qed.

Section nested.
  Context (cfg : TracingInspectorConfig) (w : world).

  Lemma finished_kept v body : finished_body cfg w v body = concat (map (fun x => finished cfg w (fst x) (snd x)) (kept cfg w v body)).
  Proof.
    induction body as [|[o|h|g] r IH]; [done|exact IH|exact IH|]. cbn [finished_body kept].
    destruct (hidden_call _ _ _ _); [exact IH|]. cbn [map concat fst snd]. by rewrite IH.
  Qed.
  Lemma shown_kept v d s body e : SpecShown.shown cfg w v d (Frame s body e) =
    interleave (map (fun o => (S d, Frame s body e, o)) (traced_instrs cfg (Frame s body e)))
      (map (fun x => SpecShown.shown cfg w (fst x) (S d) (snd x)) (kept cfg w v body)).
  Proof.
    cbn [SpecShown.shown]. f_equal. induction body as [|[o|h|g] r IH]; cbn; [done|done|done|].
    destruct (hidden_call _ _ _ _); [done|]. cbn. by rewrite IH.
  Qed.
  Lemma leaf_dealt d v g q q' : first_calls_only cfg w v g -> traced_calls cfg g = [] ->
    dealt cfg (finished cfg w v g) q q' -> exists t, q' = q ++ [t] /\ unfolds cfg (SpecShown.shown cfg w v d g) t.
  Proof.
    intros Hf Hn Hd. inversion Hf as [? ? Hlen _ _]; subst. destruct g as [s body e]. cbn [f_body] in Hlen. rewrite Hn in Hlen.
    destruct (kept cfg w v body) eqn:Hk; [|cbn in Hlen; lia]. rewrite finished_eq, finished_kept, Hk in Hd. cbn in Hd.
    inversion Hd as [|? ? ? l q1 ? Hc Hd']; subst. inversion Hd'; subst.
    destruct (carry_none _ _ _ _ _ Hn Hc) as [-> Hc']. exists (mkVm [] l). split; [done|].
    unfold unfolds. rewrite flat_eq, shown_kept, Hk. eapply carry_unfolds; [|constructor|exact Hc']. cbn. lia.
  Qed.
  Lemma leaves_dealt d hs : forall q q', (forall x, In x hs -> first_calls_only cfg w (fst x) (snd x)) ->
    (forall x, In x hs -> traced_calls cfg (snd x) = []) ->
    dealt cfg (concat (map (fun x => finished cfg w (fst x) (snd x)) hs)) q q' ->
    exists ts, q' = q ++ ts /\ Forall2 (unfolds cfg) (map (fun x => SpecShown.shown cfg w (fst x) d (snd x)) hs) ts.
  Proof.
    induction hs as [|x hs IH]; intros q q' Hf Hn Hd.
    { cbn in Hd. inversion Hd; subst. exists []. split; [by rewrite app_nil_r|constructor]. }
    cbn [map concat] in Hd. apply dealt_app in Hd as (q1 & H1 & H2).
    destruct (leaf_dealt d _ _ _ _ (Hf x (or_introl eq_refl)) (Hn x (or_introl eq_refl)) H1) as (t & -> & Ht).
    destruct (IH (q ++ [t]) q' (fun y Hy => Hf y (or_intror Hy)) (fun y Hy => Hn y (or_intror Hy)) H2) as (ts & -> & Hts). exists (t :: ts).
    split; [by rewrite <-app_assoc|]. cbn [map]. by constructor.
  Qed.
  Lemma kept_in v body x : In x (kept cfg w v body) -> In (snd x) (subs body).
  Proof.
    induction body as [|[o|h|g] r IH]; [done|exact IH|exact IH|]. cbn [kept]. change (subs (ISub g :: r)) with (g :: subs r).
    destruct (hidden_call _ _ _ _); [intros H; right; by apply IH|]. intros [<-|H]; [by left|right; by apply IH].
  Qed.
  Lemma nested_dealt f : forall v d q', first_calls_only cfg w v f -> dealt cfg (finished cfg w v f) [] q' ->
    exists t, q' = [t] /\ unfolds cfg (SpecShown.shown cfg w v d f) t.
  Proof.
    induction f as [s body e IH] using frame_ind'. intros v d q' Hf Hd.
    inversion Hf as [? ? Hlen Htail Hrec]; subst. cbn [f_body] in *.
    rewrite finished_eq, finished_kept in Hd. apply dealt_app in Hd as (q1 & Hd1 & Hd2).
    assert (Hq1 : Forall2 (unfolds cfg) (map (fun x => SpecShown.shown cfg w (fst x) (S d) (snd x)) (kept cfg w v body)) q1).
    { pose proof (kept_in v body) as Hin. clear Hlen. destruct (kept cfg w v body) as [|x xs].
      - cbn in Hd1. inversion Hd1; subst. constructor.
      - cbn [map concat tail] in *. apply dealt_app in Hd1 as (q0 & H0 & H1).
        rewrite Forall_forall in IH. specialize (IH (snd x)). rewrite elem_of_list_In in IH.
        destruct (IH (Hin x (or_introl eq_refl)) _ (S d) _ (Hrec x (or_introl eq_refl)) H0) as (t & -> & Ht).
        destruct (leaves_dealt (S d) xs [t] q1 (fun y Hy => Hrec y (or_intror Hy)) Htail H1) as (ts & -> & Hts). by constructor. }
    inversion Hd2 as [|? ? ? l q2 ? Hc Hd']; subst. inversion Hd'; subst.
    destruct (carry_unfolds cfg (Frame s body e) d _ _ q1 l q2 ltac:(rewrite map_length; exact Hlen) Hq1 Hc) as [-> Hu].
    exists (mkVm [] l). split; [done|]. unfold unfolds. rewrite flat_eq, shown_kept. exact Hu.
  Qed.
End nested.

(** The lines of the transaction's own code. *)
Lemma interleave_depth d : forall ops lists, Forall (Forall (fun x => S d < fst (fst x))) lists -> Forall (fun x => fst (fst x) = S d) ops ->
  List.filter (fun x => (fst (fst x) =? S d)%nat) (interleave ops lists) = ops.
Proof.
  induction ops as [|x ops IH]; intros lists Hl Ho; [done|]. apply Forall_cons_1 in Ho as [Hx Ho]. cbn [interleave].
  assert (Hx' : (fst (fst x) =? S d) = true) by (by apply Nat.eqb_eq).
  destruct (instr_is_call (snd x)); [destruct lists as [|l lists]|]; cbn [List.filter]; rewrite Hx'; f_equal; try by apply IH.
  apply Forall_cons_1 in Hl as [Hl Hls]. rewrite <-(IH lists Hls Ho) at 2. rewrite List.filter_app.
  assert (List.filter (fun x => fst (fst x) =? S d) l = []) as ->; [|done].
  clear -Hl. induction Hl as [|y l Hy _ IHl]; [done|]. cbn [List.filter]. destruct (Nat.eqb_spec (fst (fst y)) (S d)); [lia|done].
Qed.
Lemma interleave_all P : forall ops lists, Forall P ops -> Forall (Forall P) lists -> Forall P (interleave ops lists).
Proof.
  induction ops as [|x ops IH]; intros lists Ho Hl; [constructor|]. apply Forall_cons_1 in Ho as [Hx Ho]. cbn [interleave].
  destruct (instr_is_call (snd x)); [destruct lists as [|l lists]|]; constructor; try done; try by apply IH.
  apply Forall_cons_1 in Hl as [Hl Hls]. apply Forall_app. split; [done|by apply IH].
Qed.
Section depth.
  Context (cfg : TracingInspectorConfig) (w : world).
  Fixpoint shown_body (v : U256) (d : nat) (l : list item) : list (list (nat * frame * instr)) :=
    match l with
    | [] => []
    | ISub h :: r => if hidden_call cfg w v (f_start h) then shown_body v d r
                     else shown cfg w (call_value v (f_start h)) (S d) h :: shown_body v d r
    | _ :: r => shown_body v d r
    end.
  Lemma shown_eq v d s body e : shown cfg w v d (Frame s body e) =
    interleave (map (fun o => (S d, Frame s body e, o)) (traced_instrs cfg (Frame s body e))) (shown_body v d body).
  Proof. cbn [shown]. f_equal. induction body as [|[o|h|g] r IH]; cbn; [done|..]; by rewrite IH. Qed.
  Lemma own_depth d g os : Forall (fun x : nat * frame * instr => fst (fst x) = S d) (map (fun o => (S d, g, o)) os).
  Proof. induction os; by constructor. Qed.
  Lemma shown_depth g : forall v d, Forall (fun x => d < fst (fst x)) (shown cfg w v d g).
  Proof.
    induction g as [s body e IH] using frame_ind'. intros v d. rewrite shown_eq. apply interleave_all.
    - eapply Forall_impl; [apply own_depth|]. cbn beta. intros x ->. lia.
    - clear -IH. induction body as [|[o|h|g] r IHr]; cbn [shown_body]; [constructor|by apply IHr|by apply IHr|].
      cbn [subs flat_map app] in IH. apply Forall_cons_1 in IH as [Hg IH].
      destruct (hidden_call _ _ _ _); [by apply IHr|]. constructor; [|by apply IHr].
      eapply Forall_impl; [apply Hg|]. cbn beta. lia.
  Qed.
  Lemma shown_own v d g : List.filter (fun x => (fst (fst x) =? S d)%nat) (shown cfg w v d g) = map (fun o => (S d, g, o)) (traced_instrs cfg g).
  Proof.
    destruct g as [s body e]. rewrite shown_eq. apply interleave_depth; [|apply own_depth].
    induction body as [|[o|h|g] r IHr]; cbn [shown_body]; [constructor|by apply IHr|by apply IHr|].
    destruct (hidden_call _ _ _ _); [by apply IHr|]. constructor; [apply shown_depth|by apply IHr].
  Qed.
End depth.
