(** * PropertiesMux: C13 (mux), C47, C48 *)

From Verif Require Import MuxProofs Examples.
Local Open Scope N_scope.

(** ** C13 *)
Theorem C13_mux_passive : forall s e s' r, mux_handle s e = Ok (s', r) -> r = default_response e.
Proof. intros s e s' r H. by apply mux_fold_di in H as [-> _]. Qed.
Print Assumptions C13_mux_passive.

(** ** C48 *)
Theorem C48_accepts : forall config, (exists m, mux_try_from_config config = inr m) <-> (forall t o, In (t, o) config -> good t o).
Proof.
  intros config. split.
  - intros [m Hm] t o Hin. apply entry_good. apply collect_ok in Hm. apply elem_of_list_In, elem_of_list_lookup in Hin as [i Hi].
    destruct (Forall2_lookup_l _ _ _ _ _ Hm Hi) as (y & _ & Hy). by exists y.
  - intros Hg. unfold mux_try_from_config. destruct (collect _ config) as [e|m] eqn:Ec; [|by eexists].
    apply collect_err in Ec as (before & [t o] & rest & -> & _ & Hx).
    destruct (proj2 (entry_good t o)) as [y Hy]; [apply Hg, in_or_app; right; by left|]. congruence.
Qed.
Print Assumptions C48_accepts.

(** The error is that of the first offending tracer, and an offending tracer is not acceptable. *)
Theorem C48_errors : forall config e, mux_try_from_config config = inl e <->
  exists before t o rest, config = before ++ (t, o) :: rest /\ (forall t o, In (t, o) before -> good t o) /\ offence t o e /\ ~ good t o.
Proof.
  intros config e. unfold mux_try_from_config. rewrite collect_err. split.
  - intros (before & [t o] & rest & -> & Hb & Hx). exists before, t, o, rest. apply entry_err in Hx.
    split_and!; [done| |done|by eapply offence_not_good]. intros t' o' Hin. apply entry_good. by apply Hb.
  - intros (before & t & o & rest & -> & Hb & Ho & _). exists before, (t, o), rest. split_and!; [done| |by apply entry_err].
    intros [t' o'] Hin. apply entry_good. by apply Hb.
Qed.
Print Assumptions C48_errors.

Definition call_json : TracerConfig := mkTC (Some (mkCallConfig None (Some true))) (Some (mkPreStateConfig None)) None.
Definition pre_json : TracerConfig := mkTC (Some (mkCallConfig None None)) (Some (mkPreStateConfig (Some true))) None.
Definition mux_json (l : MuxConfig) : TracerConfig := mkTC (Some (mkCallConfig None None)) (Some (mkPreStateConfig None)) (Some l).
Definition ex_config : MuxConfig :=
  [(CallTracer, Some call_json); (FourByteTracer, None);
   (MuxTracer, Some (mux_json [(NoopTracer, None); (PreStateTracer, Some pre_json)]))].
Definition bad_config : MuxConfig :=
  [(CallTracer, Some call_json); (MuxTracer, Some (mux_json [(NoopTracer, None); (CallTracer, None); (FourByteTracer, Some call_json)]))].
Example C48_example : (exists m, mux_try_from_config ex_config = inr m) /\
  mux_try_from_config bad_config = inl (MissingConfig CallTracer) /\
  mux_try_from_config [(MuxTracer, Some call_json)] = inl InvalidConfig /\
  mux_try_from_config [(NoopTracer, Some call_json)] = inl (UnexpectedConfig NoopTracer).
Proof. split_and!; [eexists|..]; reflexivity. Qed.

(** ** C47 *)

(** For every accepted configuration and every history: the mux inspector survives the history and yields this frame
    exactly if each of its tracers, run alone, survives it and yields the frame's entry of that key. *)
Theorem C47_mux_is_each_alone :
  forall mrr config m history gas_used state db, is_map config -> mux_try_from_config config = inr m ->
  forall frame,
  (exists m', run mux_handle m history = Ok m' /\ mux_try_into_frame mrr gas_used state db m' = Ok (Some frame)) <->
  Forall2 (fun x y => fst x = fst y /\ alone mrr history gas_used state db (fst x) (snd x) (snd y)) config frame.
Proof.
  intros mrr config m es gas state db [l Hnd Hsub] Hm frame. apply collect_ok in Hm.
  apply (level mrr es gas state db l m Hnd Hm). intros [t o] y Hin Hx tr. apply entry_alone_spec; [done|].
  cbn [snd]. intros j l' -> Hl'. by eapply Hsub.
Qed.
Print Assumptions C47_mux_is_each_alone.

(** Hence the keys are the configured tracers, each once. *)
Theorem C47_keys :
  forall mrr config m history gas_used state db m' frame, is_map config -> mux_try_from_config config = inr m ->
  run mux_handle m history = Ok m' -> mux_try_into_frame mrr gas_used state db m' = Ok (Some frame) ->
  map fst frame = map fst config /\ NoDup (map fst frame).
Proof.
  intros mrr config m es gas state db m' frame Hmap Hm Hr Hf.
  assert (H : Forall2 (fun x y => fst x = fst y /\ alone mrr es gas state db (fst x) (snd x) (snd y)) config frame)
    by (apply (C47_mux_is_each_alone mrr config m es gas state db Hmap Hm frame); eauto).
  assert (Hk : map fst frame = map fst config) by (clear -H; induction H as [|x y l l' [Ht _] _ IH]; cbn; [done|by rewrite Ht, IH]).
  split; [done|]. rewrite Hk. by destruct Hmap.
Qed.
Print Assumptions C47_keys.

Lemma ex_config_map : is_map ex_config.
Proof.
  assert (Hin : is_map [(NoopTracer, None); (PreStateTracer, Some pre_json)]).
  { constructor; [apply NoDup_ListNoDup; repeat constructor; cbn; intuition discriminate|].
    intros t j l' Hin Hj. cbn in Hin. destruct Hin as [?|[[= <- <-]|[]]]; done. }
  constructor; [apply NoDup_ListNoDup; repeat constructor; cbn; intuition discriminate|].
  intros t j l' Hj Hl. cbn in Hj. destruct Hj as [[= <- <-]|[Hj|[[= <- <-]|[]]]].
  - vm_compute in Hl. discriminate Hl.
  - discriminate Hj.
  - injection Hl as <-. exact Hin.
Qed.
Definition ex_mux : MuxInspector := match mux_try_from_config ex_config with inr m => m | inl _ => [] end.
Definition ex_pre_db : Db := mkDb (fun _ => Some None) (fun _ => None).
Example C47_example :
  is_map ex_config /\ mux_try_from_config ex_config = inr ex_mux /\
  (match run mux_handle ex_mux (tx_events ex_world ex_tx) with
   | Ok m => match mux_try_into_frame (fun _ => None) 21000 [] ex_pre_db m with
             | Ok (Some [(CallTracer, GTCall f); (FourByteTracer, GTFourByte _); (MuxTracer, GTMux [(NoopTracer, GTNoop); (PreStateTracer, GTPreState _)])]) =>
                 length (cf_calls f) = 4%nat
             | _ => False
             end
   | _ => False
   end).
Proof. split_and!; [apply ex_config_map|reflexivity|vm_compute; reflexivity]. Qed.
