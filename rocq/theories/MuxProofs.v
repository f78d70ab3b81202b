(** * MuxProofs: the mux inspector runs its tracers side by side *)

From Verif Require Export SpecMux ArenaProofs.

(** ** Induction over configurations and inspectors *)

Lemma config_ind (P : TracerConfig -> Prop) :
  (forall c p m, (forall l t j, m = Some l -> In (t, Some j) l -> P j) -> P (mkTC c p m)) -> forall j, P j.
Proof.
  intros H. fix IH 1. intros [c p m]. apply H. destruct m as [l|]; [|intros ? ? ? Hm; discriminate Hm].
  intros l' t j [= <-]. revert t j. induction l as [|[t0 [j0|]] l IHl].
  - intros t j [].
  - intros t j [[= _ <-]|Hin]; [apply IH|by eapply IHl].
  - intros t j [Heq|Hin]; [discriminate|by eapply IHl].
Qed.

Lemma inspector_ind (P : DelegatingInspector -> Prop) :
  (forall i, P (DFourByte i)) -> (forall c i, P (DCall c i)) -> (forall c i, P (DPrestate c i)) -> P DNoop ->
  (forall l, (forall t d, In (t, d) l -> P d) -> P (DMux l)) -> forall d, P d.
Proof.
  intros H1 H2 H3 H4 H5. fix IH 1. intros [i|c i|c i| |l]; [apply H1|apply H2|apply H3|apply H4|]. apply H5.
  induction l as [|[t0 d0] l IHl].
  - intros t d [].
  - intros t d [[= _ <-]|Hin]; [apply IH|by eapply IHl].
Qed.

(** ** Construction *)

Lemma collect_ok {A B E} (f : A -> E + B) l m : collect f l = inr m <-> Forall2 (fun x y => f x = inr y) l m.
Proof.
  revert m. induction l as [|x l IH]; intros m; cbn.
  - split; [intros [= <-]; constructor|]. intros H. by inversion H.
  - split.
    + destruct (f x) eqn:Ef; [done|]. destruct (collect f l) eqn:Ec; [done|]. intros [= <-]. constructor; [done|]. by apply IH.
    + intros H. inversion H as [|x' y l' m' Hx Hl]; subst. by rewrite Hx, (proj2 (IH m') Hl).
Qed.

Lemma collect_err {A B E} (f : A -> E + B) l e :
  collect f l = inl e <-> exists before x rest, l = before ++ x :: rest /\ (forall y, In y before -> exists b, f y = inr b) /\ f x = inl e.
Proof.
  induction l as [|x l IH]; cbn.
  - split; [done|]. intros (before & x & rest & Heq & _). by destruct before.
  - destruct (f x) eqn:Ef.
    + split.
      * intros [= <-]. exists [], x, l. split_and!; [done|by intros ? []|done].
      * intros ([|y before] & x' & rest & Heq & Hb & Hx).
        -- injection Heq as -> ->. congruence.
        -- injection Heq as -> ->. destruct (Hb y) as [b Hy]; [by left|]. congruence.
    + transitivity (collect f l = inl e); [by destruct (collect f l); split; intros [=]; subst|]. rewrite IH. split.
      * intros (before & x' & rest & -> & Hb & Hx). exists (x :: before), x', rest. split_and!; [done| |done].
        intros y [->|Hy]; [by eexists|by apply Hb].
      * intros ([|y before] & x' & rest & Heq & Hb & Hx).
        -- injection Heq as -> ->. congruence.
        -- injection Heq as -> ->. exists before, x', rest. split_and!; [done| |done]. intros z Hz. apply Hb. by right.
Qed.

Lemma entry_good_gen (some : TracerType -> TracerConfig -> MuxError + DelegatingInspector) t o :
  (forall j, o = Some j -> (exists d, some t j = inr d) <-> good t (Some j)) ->
  (exists y, entry_from_config some (t, o) = inr y) <-> good t o.
Proof.
  intros Hs. cbn. destruct o as [j|].
  - rewrite <-Hs by done. destruct (some t j); split; intros [? ?]; try done; by eexists.
  - destruct t; split; try (intros [? ?]; done); try (intros _; by eexists); try (intros _; constructor); intros H; inversion H.
Qed.

Lemma some_good j : forall t, (exists d, some_from_config t j = inr d) <-> good t (Some j).
Proof.
  induction j as [c p m IH] using config_ind. intros t. destruct t; cbn.
  - split; [intros [? ?]; done|]. intros H; inversion H.
  - destruct c as [c|]; split; try (intros [? ?]; done); [intros _; by econstructor|intros _; by eexists|intros H; inversion H; done].
  - destruct p as [p|]; split; try (intros [? ?]; done); [intros _; by econstructor|intros _; by eexists|intros H; inversion H; done].
  - split; [intros [? ?]; done|]. intros H; inversion H.
  - destruct m as [l|]; [|split; [intros [? ?]; done|intros H; inversion H; done]].
    assert (He : forall t o, In (t, o) l -> (exists y, entry_from_config some_from_config (t, o) = inr y) <-> good t o).
    { intros t o Hin. apply entry_good_gen. intros j ->. by eapply IH. }
    split.
    + intros [d Hd]. destruct (collect _ l) as [|ms] eqn:Ec; [done|]. econstructor; [done|]. intros t o Hin. apply He; [done|].
      apply collect_ok in Ec. apply elem_of_list_In in Hin. apply elem_of_list_lookup in Hin as [i Hi].
      destruct (Forall2_lookup_l _ _ _ _ _ Ec Hi) as (y & _ & Hy). by exists y.
    + intros H. inversion H as [| | | |j l' Hm Hg]; subst. injection Hm as <-.
      destruct (collect _ l) as [e|ms] eqn:Ec; [|by eexists].
      exfalso. apply collect_err in Ec as (before & [t o] & rest & -> & _ & Hx).
      assert (Hin : In (t, o) (before ++ (t, o) :: rest)) by (apply in_or_app; right; by left).
      destruct (proj2 (He t o Hin)) as [y Hy]; [by apply Hg|]. congruence.
Qed.

Lemma entry_good t o : (exists y, di_try_from_config (t, o) = inr y) <-> good t o.
Proof. apply entry_good_gen. intros j _. apply some_good. Qed.

Lemma offence_not_good t o e : offence t o e -> ~ good t o.
Proof.
  induction 1 as [t j Ht|t Ht|j Hj|j Hj|j Hj|j l before t o rest e Hj Hl Hb Ho IH]; intros Hg; inversion Hg; subst;
    try (by intuition); try congruence.
  rewrite Hj in *. simplify_eq. apply IH. match goal with H : forall t o, In _ _ -> _ |- _ => apply H end. apply in_or_app. right. by left.
Qed.

Lemma entry_err_gen (some : TracerType -> TracerConfig -> MuxError + DelegatingInspector) t o e :
  (forall j, o = Some j -> some t j = inl e <-> offence t (Some j) e) ->
  entry_from_config some (t, o) = inl e <-> offence t o e.
Proof.
  intros Hs. cbn. destruct o as [j|].
  - rewrite <-Hs by done. by destruct (some t j); split; intros [=]; subst.
  - destruct t; split; intros H; try done; try (injection H as <-; constructor; by auto); by inversion H; intuition.
Qed.

Lemma some_err j : forall t e, some_from_config t j = inl e <-> offence t (Some j) e.
Proof.
  induction j as [c p m IH] using config_ind. intros t e. destruct t; cbn.
  - split; [intros [= <-]; constructor; by auto|]. intros H; inversion H; by subst.
  - destruct c as [c|]; split; intros H; try done; try (injection H as <-; by constructor); inversion H; subst; try done; by intuition.
  - destruct p as [p|]; split; intros H; try done; try (injection H as <-; by constructor); inversion H; subst; try done; by intuition.
  - split; [intros [= <-]; constructor; by auto|]. intros H; inversion H; by subst.
  - destruct m as [l|].
    + transitivity (collect (entry_from_config some_from_config) l = inl e); [by destruct (collect _ l); split; intros [=]; subst|].
      rewrite collect_err. split.
      * intros (before & [t o] & rest & Hl & Hb & Hx).
        apply (nested _ l before t o rest e); [done|done| |].
        -- intros t' o' Hin. apply entry_good. by apply Hb.
        -- apply entry_err_gen in Hx; [done|]. intros j ->. eapply IH; [done|]. rewrite Hl. apply in_or_app. right. by left.
      * intros H. inversion H as [? ? Ht| | | | |j l' before t o rest e' Hm Hl Hb Ho]; subst; [by destruct Ht|done|].
        injection Hm as Hl'. exists before, (t, o), rest. split_and!; [done| |].
        -- intros [t' o'] Hin. apply entry_good. by apply Hb.
        -- apply entry_err_gen; [|done]. intros j ->. eapply IH; [done|]. rewrite Hl'. apply in_or_app. right. by left.
    + split; [intros [= <-]; by constructor|]. intros H; inversion H; subst; try done. by intuition.
Qed.

Lemma entry_err t o e : di_try_from_config (t, o) = inl e <-> offence t o e.
Proof. apply entry_err_gen. intros j _. apply some_err. Qed.

(** ** Hooks *)

Lemma fb_passive s e : exists s', fb_handle s e = Ok (s', default_response e).
Proof. destruct e; eexists; reflexivity. Qed.
Lemma ti_passive s e s' r : ti_handle s e = Ok (s', r) -> r = default_response e.
Proof. intros H. destruct e; cbn [ti_handle] in H; inv_bind H; by injection H as _ <-. Qed.

Lemma drop_default e : drop_answer (default_response e) = default_response e.
Proof. by destruct e. Qed.
Lemma answered_default e : answered (default_response e) = false.
Proof. by destruct e. Qed.
Lemma after_default e : after e (default_response e) = e.
Proof. by destruct e. Qed.

Lemma mux_fold_split {A} (h : A -> event -> res (A * response)) (l : list (TracerType * A)) e l' r :
  (forall t d d' r, In (t, d) l -> h d e = Ok (d', r) -> r = default_response e) ->
  mux_fold h l e = Ok (l', r) <->
  r = default_response e /\ Forall2 (fun x y => fst x = fst y /\ h (snd x) e = Ok (snd y, default_response e)) l l'.
Proof.
  revert l' r. induction l as [|[t d] l IH]; intros l' r Hp; cbn [mux_fold].
  - split; [intros [= <- <-]; by split|]. intros [-> H]. by inversion H.
  - destruct (h d e) as [[d1 r1]| |] eqn:Eh; cbn [rbind].
    + rewrite (Hp t d d1 r1) by (by left || done). rewrite answered_default, after_default. split.
      * destruct (mux_fold h l e) as [[l1 r2]| |] eqn:Em; cbn [rbind]; intros [= <- <-].
        destruct (proj1 (IH l1 r2 (fun t d d' r Hin => Hp t d d' r (or_intror Hin))) eq_refl) as [-> Hf]. split; [done|]. constructor; [|done]. cbn. split; [done|].
        by rewrite Eh, (Hp t d d1 r1) by (by left || done).
      * intros [-> H]. inversion H as [|x [t1 d1'] lx ly [Ht Hd] Hl]; subst. cbn in Ht, Hd. subst t1.
        rewrite (proj2 (IH ly (default_response e) (fun t d d' r Hin => Hp t d d' r (or_intror Hin)))) by done. cbn.
        by rewrite Eh in Hd; injection Hd as -> _.
    + split; [done|]. intros [_ H]. inversion H as [|x y lx ly [_ Hd] Hl]; subst. cbn in Hd. congruence.
    + split; [done|]. intros [_ H]. inversion H as [|x y lx ly [_ Hd] Hl]; subst. cbn in Hd. congruence.
Qed.

Lemma di_passive d : forall e d' r, di_handle d e = Ok (d', r) -> r = default_response e.
Proof.
  induction d as [i|c i|c i| |l IH] using inspector_ind; intros e d' r; cbn [di_handle].
  - destruct (fb_passive i e) as [s' ->]. cbn. intros [= _ <-]. apply drop_default.
  - destruct (ti_handle i e) as [[s' r']| |] eqn:E; cbn; try done. intros [= _ <-]. apply ti_passive in E as ->. apply drop_default.
  - destruct (ti_handle i e) as [[s' r']| |] eqn:E; cbn; try done. intros [= _ <-]. apply ti_passive in E as ->. apply drop_default.
  - by intros [= _ <-].
  - destruct (mux_fold di_handle l e) as [[l' r']| |] eqn:E; cbn; try done. intros [= _ <-].
    apply mux_fold_split in E as [-> _]; [apply drop_default|]. intros t d d'' r Hin. by apply (IH t d Hin).
Qed.

Lemma mux_fold_di l e l' r : mux_fold di_handle l e = Ok (l', r) <->
  r = default_response e /\ Forall2 (fun x y => fst x = fst y /\ di_handle (snd x) e = Ok (snd y, default_response e)) l l'.
Proof. apply mux_fold_split. intros t d d' r' _. apply di_passive. Qed.

(** ** Histories *)

Lemma run_nil {S} (h : inspector S) s : run h s [] = Ok s.
Proof. done. Qed.
Lemma run_cons {S} (h : inspector S) s e es s' :
  run h s (e :: es) = Ok s' <-> exists s1 r, h s e = Ok (s1, r) /\ run h s1 es = Ok s'.
Proof.
  unfold run. cbn [rfold]. destruct (h s e) as [[s1 r]| |]; cbn.
  - split; [intros H; by exists s1, r|]. by intros (s2 & r2 & [= <- <-] & H).
  - split; [done|]. by intros (? & ? & ? & ?).
  - split; [done|]. by intros (? & ? & ? & ?).
Qed.

Definition side_by_side (es : list event) (x y : TracerType * DelegatingInspector) : Prop :=
  fst x = fst y /\ run di_handle (snd x) es = Ok (snd y).

Lemma mux_run es : forall l l', run mux_handle l es = Ok l' <-> Forall2 (side_by_side es) l l'.
Proof.
  induction es as [|e es IH]; intros l l'.
  - split.
    + intros [= <-]. induction l; constructor; [by split|done].
    + intros H. rewrite run_nil. f_equal. induction H as [|[t d] [t' d'] l l' [Ht Hd] Hl IHl]; [done|]. cbn in Ht, Hd. subst t'.
      injection Hd as ->. by f_equal.
  - rewrite run_cons. unfold mux_handle at 1. split.
    + intros (l1 & r & Hf & Hr). apply mux_fold_di in Hf as [_ Hf]. apply IH in Hr. clear IH.
      revert l' Hr. induction Hf as [|x y l l1 [Ht Hd] Hl IHl]; intros l' Hr; inversion Hr as [|y' z ly lz [Ht' Hd'] Hl']; subst; constructor.
      * split; [congruence|]. apply run_cons. eauto.
      * by apply IHl.
    + intros H.
      assert (Hm : exists l1, Forall2 (fun x y => fst x = fst y /\ di_handle (snd x) e = Ok (snd y, default_response e)) l l1 /\
                              Forall2 (side_by_side es) l1 l').
      { clear IH. induction H as [|[t d] [t' d'] l l' [Ht Hd] Hl (l1 & H1 & H2)]; [by exists []|]. cbn in Ht, Hd. subst t'.
        apply run_cons in Hd as (d1 & r & Hd1 & Hd2). exists ((t, d1) :: l1). split; constructor; try done. split; [done|]. cbn.
        by rewrite Hd1, (di_passive _ _ _ _ Hd1). }
      destruct Hm as (l1 & H1 & H2). exists l1, (default_response e). split; [by apply mux_fold_di|by apply IH].
Qed.

Lemma run_fourbyte es : forall s d', run di_handle (DFourByte s) es = Ok d' <-> exists s', d' = DFourByte s' /\ run fb_handle s es = Ok s'.
Proof.
  induction es as [|e es IH]; intros s d'.
  - rewrite run_nil. split; [intros [= <-]; eauto|]. intros (s' & -> & H). rewrite run_nil in H. by injection H as ->.
  - rewrite run_cons. cbn [di_handle]. split.
    + intros (d1 & r & Hd & Hr). destruct (fb_handle s e) as [[s1 r1]| |] eqn:E; cbn in Hd; try done. injection Hd as <- <-.
      apply IH in Hr as (s' & -> & Hr). exists s'. split; [done|]. apply run_cons. eauto.
    + intros (s' & -> & H). apply run_cons in H as (s1 & r & H1 & H2). exists (DFourByte s1), (drop_answer r). rewrite H1. split; [done|].
      apply IH. eauto.
Qed.
Lemma run_call es c : forall s d', run di_handle (DCall c s) es = Ok d' <-> exists s', d' = DCall c s' /\ run ti_handle s es = Ok s'.
Proof.
  induction es as [|e es IH]; intros s d'.
  - rewrite run_nil. split; [intros [= <-]; eauto|]. intros (s' & -> & H). rewrite run_nil in H. by injection H as ->.
  - rewrite run_cons. cbn [di_handle]. split.
    + intros (d1 & r & Hd & Hr). destruct (ti_handle s e) as [[s1 r1]| |] eqn:E; cbn in Hd; try done. injection Hd as <- <-.
      apply IH in Hr as (s' & -> & Hr). exists s'. split; [done|]. apply run_cons. eauto.
    + intros (s' & -> & H). apply run_cons in H as (s1 & r & H1 & H2). exists (DCall c s1), (drop_answer r). rewrite H1. split; [done|].
      apply IH. eauto.
Qed.
Lemma run_prestate es c : forall s d',
  run di_handle (DPrestate c s) es = Ok d' <-> exists s', d' = DPrestate c s' /\ run ti_handle s es = Ok s'.
Proof.
  induction es as [|e es IH]; intros s d'.
  - rewrite run_nil. split; [intros [= <-]; eauto|]. intros (s' & -> & H). rewrite run_nil in H. by injection H as ->.
  - rewrite run_cons. cbn [di_handle]. split.
    + intros (d1 & r & Hd & Hr). destruct (ti_handle s e) as [[s1 r1]| |] eqn:E; cbn in Hd; try done. injection Hd as <- <-.
      apply IH in Hr as (s' & -> & Hr). exists s'. split; [done|]. apply run_cons. eauto.
    + intros (s' & -> & H). apply run_cons in H as (s1 & r & H1 & H2). exists (DPrestate c s1), (drop_answer r). rewrite H1. split; [done|].
      apply IH. eauto.
Qed.
Lemma run_noop es : forall d', run di_handle DNoop es = Ok d' <-> d' = DNoop.
Proof.
  induction es as [|e es IH]; intros d'.
  - rewrite run_nil. split; [by intros [= <-]|by intros ->].
  - rewrite run_cons. cbn [di_handle]. split.
    + intros (d1 & r & [= <- <-] & Hr). by apply IH.
    + intros ->. exists DNoop, (default_response e). split; [done|]. by apply IH.
Qed.
Lemma run_mux es : forall l d', run di_handle (DMux l) es = Ok d' <-> exists l', d' = DMux l' /\ run mux_handle l es = Ok l'.
Proof.
  induction es as [|e es IH]; intros l d'.
  - rewrite run_nil. split; [intros [= <-]; eauto|]. intros (s' & -> & H). rewrite run_nil in H. by injection H as ->.
  - rewrite run_cons. cbn [di_handle]. split.
    + intros (d1 & r & Hd & Hr). destruct (mux_fold di_handle l e) as [[s1 r1]| |] eqn:E; cbn in Hd; try done. injection Hd as <- <-.
      apply IH in Hr as (s' & -> & Hr). exists s'. split; [done|]. apply run_cons. eauto.
    + intros (s' & -> & H). apply run_cons in H as (s1 & r & H1 & H2). exists (DMux s1), (drop_answer r). unfold mux_handle in H1. rewrite H1. split; [done|].
      apply IH. eauto.
Qed.

(** ** The frame *)

Section Frame.
  Context (mrr : bytes -> option string) (es : list event) (gas : u64) (state : list (address * Account)) (db : Db).
  Notation into := (di_into_trace mrr gas state db).

  Lemma frame_insert_new {A} t (x : A) frame : ~ In t (map fst frame) -> frame_insert t x frame = frame ++ [(t, x)].
  Proof.
    intros Hn. unfold frame_insert. destruct (existsb _ frame) eqn:E; [|done]. apply existsb_exists in E as (y & Hy & Hb).
    apply bool_decide_eq_true in Hb. subst t. by apply (in_map fst) in Hy.
  Qed.

  Lemma frame_loop_spec l : forall frame out, NoDup (map fst frame ++ map fst l) ->
    frame_loop into l frame = Ok (Some out) <->
    exists rest, out = frame ++ rest /\ Forall2 (fun x y => fst x = fst y /\ into (snd x) = Ok (Some (snd y))) l rest.
  Proof.
    induction l as [|[t d] l IH]; intros frame out Hnd; cbn [frame_loop].
    - split; [intros [= <-]; exists []; by rewrite app_nil_r|]. intros (rest & -> & H). inversion H. by rewrite app_nil_r.
    - destruct (into d) as [[trace|]| |] eqn:Ei; cbn [rbind].
      + cbn [map fst] in Hnd. rewrite frame_insert_new.
        2:{ intros Hin. apply NoDup_app in Hnd as (_ & Hd & _). apply (Hd t); [by apply elem_of_list_In|by left]. }
        rewrite IH by (rewrite map_app, <-app_assoc; exact Hnd). split.
        * intros (rest & -> & Hf). exists ((t, trace) :: rest). rewrite <-app_assoc. split; [done|]. constructor; [by split|done].
        * intros (rest & -> & Hf). inversion Hf as [|x [t' y] lx ly [Ht Hy] Hl]; subst. cbn in Ht, Hy. subst t'.
          rewrite Ei in Hy. injection Hy as ->. exists ly. rewrite <-app_assoc. by split.
      + split; [done|]. intros (rest & _ & Hf). inversion Hf as [|x y lx ly [_ Hy] Hl]; subst. cbn in Hy. congruence.
      + split; [done|]. intros (rest & _ & Hf). inversion Hf as [|x y lx ly [_ Hy] Hl]; subst. cbn in Hy. congruence.
      + split; [done|]. intros (rest & _ & Hf). inversion Hf as [|x y lx ly [_ Hy] Hl]; subst. cbn in Hy. congruence.
  Qed.

  (** Composition of three pointwise relations. *)
  Lemma compose {A B C D} (R : A -> B -> Prop) (S : B -> C -> Prop) (T : C -> D -> Prop) (U : A -> D -> Prop) la lb :
    Forall2 R la lb ->
    (forall a b, In a la -> R a b -> forall d, (exists c, S b c /\ T c d) <-> U a d) ->
    forall ld, (exists lc, Forall2 S lb lc /\ Forall2 T lc ld) <-> Forall2 U la ld.
  Proof.
    induction 1 as [|a b la lb Hr Hl IH]; intros HU ld.
    - split; [intros (lc & H1 & H2); inversion H1; subst; by inversion H2|]. intros H; inversion H. exists []. by split.
    - split.
      + intros (lc & H1 & H2). inversion H1 as [|? c ? lc' Hs Hs']; subst. inversion H2 as [|? d ? ld' Ht Ht']; subst. constructor.
        * apply (HU a b); [by left|done|eauto].
        * apply IH; [intros; apply HU; [by right|done]|eauto].
      + intros H. inversion H as [|? d ? ld' Hu Hu']; subst.
        apply (HU a b) in Hu as (c & Hs & Ht); [|by left|done].
        apply IH in Hu' as (lc & Hs' & Ht'); [|intros; apply HU; [by right|done]].
        exists (c :: lc). split; by constructor.
  Qed.

  Lemma keys_same (l : MuxConfig) m : Forall2 (fun x y => di_try_from_config x = inr y) l m -> map fst l = map fst m.
  Proof.
    induction 1 as [|[t o] y l m Hx Hl IH]; [done|]. cbn [map fst]. f_equal; [|done]. cbn in Hx.
    destruct o as [j|]; [destruct (some_from_config t j); [done|]; by injection Hx as <-|]. destruct t; try done; by injection Hx as <-.
  Qed.
  Lemma run_keys l l' : Forall2 (side_by_side es) l l' -> map fst l = map fst l'.
  Proof. induction 1 as [|x y l l' [Ht _] Hl IH]; [done|]. cbn. by f_equal. Qed.

  Definition entry_alone (x : TracerType * option TracerConfig) (y : TracerType * GethTrace) : Prop :=
    fst x = fst y /\ alone mrr es gas state db (fst x) (snd x) (snd y).

  Lemma level (l : MuxConfig) m : NoDup (map fst l) -> Forall2 (fun x y => di_try_from_config x = inr y) l m ->
    (forall x y, In x l -> di_try_from_config x = inr y -> forall tr,
       (exists d', run di_handle (snd y) es = Ok d' /\ into d' = Ok (Some tr)) <-> alone mrr es gas state db (fst x) (snd x) tr) ->
    forall frame, (exists m', run mux_handle m es = Ok m' /\ frame_loop into m' [] = Ok (Some frame)) <-> Forall2 entry_alone l frame.
  Proof.
    intros Hnd Hm Hent frame.
    rewrite <-(compose _ (side_by_side es) (fun x y => fst x = fst y /\ into (snd x) = Ok (Some (snd y))) entry_alone l m Hm).
    - split.
      + intros (m' & Hr & Hf). apply mux_run in Hr. exists m'. split; [done|]. apply frame_loop_spec in Hf as (rest & -> & Hf); [done|].
        cbn. by rewrite <-(run_keys m m' Hr), <-(keys_same l m Hm).
      + intros (m' & Hr & Hf). exists m'. split; [by apply mux_run|]. apply frame_loop_spec; [|by exists frame].
        cbn. by rewrite <-(run_keys m m' Hr), <-(keys_same l m Hm).
    - intros [t o] [t' d] Hin Hx [t2 tr]. assert (t' = t) as ->.
      { cbn in Hx. destruct o as [j|]; [destruct (some_from_config t j); [done|]; by injection Hx as <-|]. destruct t; try done; by injection Hx as <-. }
      unfold entry_alone. rewrite <-(Hent (t, o) (t, d) Hin Hx). cbn [fst snd]. unfold side_by_side. cbn [fst snd]. split.
      + intros ([t1 d1] & [H1 H2] & H3 & H4). cbn in *. subst. eauto.
      + intros (<- & d1 & H1 & H2). exists (t, d1). by split_and!.
  Qed.

  Lemma some_alone j : forall t d, some_from_config t j = inr d ->
    (forall l, into_mux_config j = Some l -> is_map l) ->
    forall tr, (exists d', run di_handle d es = Ok d' /\ into d' = Ok (Some tr)) <-> alone mrr es gas state db t (Some j) tr.
  Proof.
    induction j as [c p m IH] using config_ind. intros t d Hd Hmap tr. cbn in Hd. destruct t; try done.
    - destruct c as [c|]; [|done]. injection Hd as <-. split.
      + intros (d' & Hr & Hi). apply run_call in Hr as (s & -> & Hr). cbn in Hi.
        destruct (geth_call_traces mrr (ti_traces s) c gas) eqn:E; cbn in Hi; try done. injection Hi as <-. by econstructor.
      + intros H. inversion H as [|j c' s f Hj Hr Hg| | |]; subst. injection Hj as ->. exists (DCall c' s). split; [apply run_call; eauto|].
        cbn. by rewrite Hg.
    - destruct p as [p|]; [|done]. injection Hd as <-. split.
      + intros (d' & Hr & Hi). apply run_prestate in Hr as (s & -> & Hr). cbn in Hi.
        destruct (geth_prestate_traces state p db) eqn:E; cbn in Hi; try done. injection Hi as <-. by econstructor.
      + intros H. inversion H as [| |j p' s f Hj Hr Hg| |]; subst. injection Hj as ->. exists (DPrestate p' s). split; [apply run_prestate; eauto|].
        cbn. by rewrite Hg.
    - destruct m as [l|]; [|done]. destruct (collect _ l) as [|ms] eqn:Ec; [done|]. injection Hd as <-. apply collect_ok in Ec.
      destruct (Hmap l eq_refl) as [l Hnd Hsub].
      pose proof (level l ms Hnd Ec) as Hlevel.
      assert (Hent : forall x y, In x l -> di_try_from_config x = inr y -> forall tr,
        (exists d', run di_handle (snd y) es = Ok d' /\ into d' = Ok (Some tr)) <-> alone mrr es gas state db (fst x) (snd x) tr).
      { intros [t o] y Hin Hx tr'. cbn in Hx. destruct o as [j|].
        - destruct (some_from_config t j) as [|d] eqn:Es; [done|]. injection Hx as <-. cbn [snd fst].
          apply (IH l t j eq_refl Hin t d Es). intros l' Hl'. by eapply Hsub.
        - destruct t; try done; injection Hx as <-; cbn [snd fst].
          + split.
            * intros (d' & Hr & Hi). apply run_fourbyte in Hr as (s & -> & Hr). injection Hi as <-. by constructor.
            * intros H. inversion H; subst. eexists. split; [apply run_fourbyte; eauto|done].
          + split.
            * intros (d' & Hr & Hi). apply run_noop in Hr as ->. injection Hi as <-. by constructor.
            * intros H. inversion H; subst. eexists. split; [by apply run_noop|done]. }
      specialize (Hlevel Hent). split.
      + intros (d' & Hr & Hi). apply run_mux in Hr as (l' & -> & Hr). cbn in Hi.
        destruct (frame_loop into l' []) as [[frame|]| |] eqn:E; cbn in Hi; try done. injection Hi as <-.
        econstructor; [done|]. apply Hlevel. eauto.
      + intros H. inversion H as [| | | |j l' frame Hj Hf]; subst. injection Hj as <-. apply Hlevel in Hf as (m' & Hr & Hf).
        exists (DMux m'). split; [apply run_mux; eauto|]. cbn. by rewrite Hf.
  Qed.

  Lemma entry_alone_spec x y : di_try_from_config x = inr y -> (forall j l, snd x = Some j -> into_mux_config j = Some l -> is_map l) ->
    forall tr, (exists d', run di_handle (snd y) es = Ok d' /\ into d' = Ok (Some tr)) <-> alone mrr es gas state db (fst x) (snd x) tr.
  Proof.
    destruct x as [t o]. intros Hx Hmap tr. cbn in Hx. destruct o as [j|].
    - destruct (some_from_config t j) as [|d] eqn:Es; [done|]. injection Hx as <-. cbn [snd fst].
      apply some_alone; [done|]. intros l Hl. by eapply Hmap.
    - destruct t; try done; injection Hx as <-; cbn [snd fst].
      + split.
        * intros (d' & Hr & Hi). apply run_fourbyte in Hr as (s & -> & Hr). injection Hi as <-. by constructor.
        * intros H. inversion H; subst. eexists. split; [apply run_fourbyte; eauto|done].
      + split.
        * intros (d' & Hr & Hi). apply run_noop in Hr as ->. injection Hi as <-. by constructor.
        * intros H. inversion H; subst. eexists. split; [by apply run_noop|done].
  Qed.
End Frame.
