(** * ShownProofs: struct logs of recordings with an opcode filter or with calls left out *)

From Verif Require Import GethProofs TxTraceProofs.
From Verif Require Export SpecShown.

Section shown.
  Context (cfg : TracingInspectorConfig) (w : world) (ns : list CallTraceNode).

  Notation matched := (matches (step_describes cfg w)).

  Lemma matched_call x y : matched x y -> existsb (N.eqb (st_op (snd y))) [0xf0; 0xf1; 0xf2; 0xf4; 0xf5; 0xfa]%N = instr_is_call (snd x).
  Proof. intros [H _]. unfold instr_is_call. by rewrite (sd_op _ _ _ _ _ H). Qed.

  Lemma weave_interleave n ops steps : Forall2 (fun x st => matched x (n, st)) ops steps -> forall lists ls,
    Forall2 (Forall2 matched) lists ls -> Forall2 matched (interleave ops lists) (weave n steps ls).
  Proof.
    induction 1 as [|x st ops steps Hx Hops IH]; intros lists ls Hl; cbn [interleave weave]; [constructor|].
    pose proof (matched_call _ _ Hx) as Hc. cbn [snd] in Hc. rewrite Hc. destruct (instr_is_call (snd x)).
    - destruct Hl as [|l l' lists ls Hl Hls]; (constructor; [exact Hx|]).
      + apply IH. constructor.
      + apply Forall2_app; [exact Hl|]. by apply IH.
    - constructor; [exact Hx|]. by apply IH.
  Qed.

  Lemma weave_take n steps : forall ls, weave n steps (take (cc steps) ls) = weave n steps ls.
  Proof.
    induction steps as [|s steps IH]; intros ls; [done|]. unfold cc. cbn [weave List.filter]. change (existsb _ _) with (call_op (st_op s)) .
    destruct (call_op (st_op s)) eqn:E.
    - cbn [length take]. destruct ls as [|l ls]; [done|]. do 2 f_equal. apply IH.
    - f_equal. apply IH.
  Qed.

  Lemma shown_steps f : forall par pos d inh, every_frame (fun g => Forall (snapshot_safe cfg) (instrs (f_body g))) f ->
    placed cfg w ns pos (entries par pos d inh f) ->
    exists l, steps_in_order ns pos l /\ Forall2 matched (shown cfg w (value_of (f_start f) inh) d f) l.
  Proof.
    induction f as [s body e IH] using frame_ind'. intros par pos d inh Hsafe Hpl.
    apply every_frame_inv in Hsafe as [Hs1 Hs2]. rewrite entries_eq in Hpl. apply placed_cons in Hpl as [Hn Hpl]. cbn [f_body f_start] in *.
    set (x := mkEntry par pos d inh (Frame s body e)) in *. set (v := value_of s inh) in *.
    set (lists := (fix go (l : list item) : list (list (nat * frame * instr)) :=
            match l with
            | [] => []
            | ISub h :: r => if hidden_call cfg w v (f_start h) then go r
                             else shown cfg w (call_value v (f_start h)) (S d) h :: go r
            | _ :: r => go r
            end)).
    assert (Hb : forall b next, Forall (fun f => forall par pos d inh, every_frame (fun g => Forall (snapshot_safe cfg) (instrs (f_body g))) f ->
        placed cfg w ns pos (entries par pos d inh f) ->
        exists l, steps_in_order ns pos l /\ Forall2 matched (shown cfg w (value_of (f_start f) inh) d f) l) (subs b) ->
      Forall (every_frame (fun g => Forall (snapshot_safe cfg) (instrs (f_body g)))) (subs b) ->
      placed cfg w ns next (sub_entries pos d v next b) ->
      exists ls, Forall2 (steps_in_order ns) (child_positions cfg w v next b) ls /\ Forall2 (Forall2 matched) (lists b) ls).
    { clear -lists. induction b as [|[o|h|g] b IHb]; intros next IH Hs Hpl.
      - exists []. by split; constructor.
      - by apply IHb.
      - by apply IHb.
      - cbn [subs flat_map app] in IH, Hs. apply Forall_cons_1 in IH as [Hg IH]. apply Forall_cons_1 in Hs as [Hsg Hs].
        cbn [sub_entries] in Hpl. apply placed_app in Hpl as [Hp1 Hp2]. rewrite entries_length in Hp2.
        destruct (IHb (next + frame_size g) IH Hs Hp2) as (ls & H1 & H2).
        destruct (Hg _ _ _ _ Hsg Hp1) as (l & H3 & H4). rewrite value_of_call in H4.
        cbn [child_positions]. rewrite excluded_hidden.
        assert (Hl : lists (ISub g :: b) = if hidden_call cfg w v (f_start g) then lists b
                       else shown cfg w (call_value v (f_start g)) (S d) g :: lists b) by done.
        rewrite Hl. destruct (hidden_call cfg w v (f_start g)); [by exists ls|].
        exists (l :: ls). split; by constructor. }
    destruct (Hb body (S pos) IH Hs2 Hpl) as (ls & H1 & H2).
    assert (Hch : nd_children (node_of cfg w x) = child_positions cfg w v (S pos) body) by (by rewrite node_of_children).
    assert (Hsteps : tr_steps (nd_trace (node_of cfg w x)) = steps_from cfg w (S d) None (instrs body)).
    { unfold node_of, finish. cbn [nd_set_trace nd_trace fill_trace tr_steps x en_frame en_depth]. by rewrite node_after_steps. }
    eexists. split.
    - econstructor; [exact Hn|]. rewrite Hch. apply Forall2_take. exact H1.
    - change (calls_in _) with (cc (tr_steps (nd_trace (node_of cfg w x)))). rewrite weave_take. cbn [shown].
      apply weave_interleave; [|exact H2]. rewrite Hsteps. rewrite Forall2_fmap_l.
      eapply Forall2_impl; [apply steps_from_describe; exact Hs1|]. intros o st Ho. split; [exact Ho|]. cbn [fst snd].
      destruct (node_of_end cfg w x) as (_ & _ & -> & _). done.
  Qed.

  (** ** When only lines go missing *)
  Definition asked (x : nat * frame * instr) : bool := selected cfg (in_op (op_pre (snd x))).

  Lemma interleave_asked f d (sub : frame -> list (nat * frame * instr)) m : forall body,
    (forall o, instr_is_call o = true -> selected cfg (in_op (op_pre o)) = true) ->
    length body <= m -> calls_made body -> Forall (fun g => sub g = List.filter asked (executed (S d) g)) (subs body) ->
    interleave (map (fun o => (S d, f, o)) (List.filter (fun o => selected cfg (in_op (op_pre o))) (instrs body))) (map sub (subs body))
    = List.filter asked (exec_body d f body).
  Proof.
    intros body Hsel. revert body. induction m as [|m IH]; intros body Hm Hmade Hsub.
    { destruct body; [done|cbn in Hm; lia]. }
    destruct body as [|[o|h|g] r]; [done| | |done].
    - cbn in Hm.
      assert (Hskip : instr_is_call o = false -> calls_made r ->
        interleave (map (fun o => (S d, f, o)) (List.filter (fun o => selected cfg (in_op (op_pre o))) (instrs (IOp o :: r)))) (map sub (subs (IOp o :: r)))
        = List.filter asked (exec_body d f (IOp o :: r))).
      { intros Hc Hmade'. change (instrs (IOp o :: r)) with (o :: instrs r). change (subs (IOp o :: r)) with (subs r) in *.
        cbn [exec_body List.filter]. unfold asked at 1. cbn [snd].
        destruct (selected cfg (in_op (op_pre o))); [|apply IH; [lia|done..]].
        cbn [map interleave snd]. rewrite Hc. f_equal. apply IH; [lia|done..]. }
      destruct (instr_is_call o) eqn:Hc.
      2:{ apply Hskip; [done|]. destruct r as [|[o'|h'|g] r']; [done|by destruct Hmade..|]. destruct Hmade. congruence. }
      assert (Hstop : instrs r = [] -> subs r = [] ->
        interleave (map (fun o => (S d, f, o)) (List.filter (fun o => selected cfg (in_op (op_pre o))) (instrs (IOp o :: r)))) (map sub (subs (IOp o :: r)))
        = List.filter asked (exec_body d f (IOp o :: r))).
      { intros Hi Hs. change (instrs (IOp o :: r)) with (o :: instrs r). change (subs (IOp o :: r)) with (subs r). rewrite Hi, Hs.
        assert (Hb : exec_body d f r = []).
        { clear -Hi Hs. induction r as [|[o|h|g] r IH]; [done|done|by apply IH|done]. }
        cbn [exec_body List.filter]. rewrite Hb. unfold asked. cbn [snd]. rewrite (Hsel o Hc). cbn [map interleave snd List.filter]. by rewrite Hc. }
      destruct r as [|[o'|h'|g] r'].
      + by apply Hstop.
      + cbn [calls_made] in Hmade. destruct Hmade as [Hmade _]. by destruct (Hmade Hc).
      + cbn [calls_made] in Hmade. destruct Hmade as [Hmade _]. destruct (Hmade Hc). by apply Hstop.
      + cbn [calls_made] in Hmade. destruct Hmade as [_ Hmade].
        change (instrs (IOp o :: ISub g :: r')) with (o :: instrs r'). change (subs (IOp o :: ISub g :: r')) with (g :: subs r') in *.
        apply Forall_cons_1 in Hsub as [Hg Hsub].
        cbn [exec_body List.filter]. unfold asked at 1. cbn [snd]. rewrite (Hsel o Hc). cbn [map interleave snd]. rewrite Hc. f_equal.
        rewrite List.filter_app, Hg. f_equal. cbn in Hm. apply IH; [lia|done..].
    - cbn in Hm. apply (IH r); [lia|done|done].
  Qed.

  Lemma shown_asked (Hex : exclude_precompile_calls cfg = false)
      (Hsel : forall o, instr_is_call o = true -> selected cfg (in_op (op_pre o)) = true) f :
    evm_calls f -> forall v d, shown cfg w v d f = List.filter asked (executed d f).
  Proof.
    induction f as [s body e IH] using frame_ind'. intros Hcalls v d. apply every_frame_inv in Hcalls as [Hc1 Hc2]. cbn [f_body] in *.
    rewrite executed_eq. cbn [shown].
    rewrite <-(interleave_asked (Frame s body e) d (fun g => List.filter asked (executed (S d) g)) (length body) body Hsel); [|done|done|].
    - f_equal. clear Hc1. set (f0 := Frame s body e). clearbody f0. induction body as [|[o|h|g] r IHr]; [done|by apply IHr..|].
      cbn [subs flat_map app] in IH, Hc2. apply Forall_cons_1 in IH as [Hg IH]. apply Forall_cons_1 in Hc2 as [Hcg Hc2].
      assert (hidden_call cfg w v (f_start g) = false) as -> by (unfold hidden_call; by rewrite Hex). change (subs (ISub g :: r)) with (g :: subs r). cbn [map]. f_equal; [by apply Hg|by apply IHr].
    - apply Forall_forall. by intros.
  Qed.
End shown.
