(** * StepProofs: everything a recorded step shows of its instruction *)

From Verif Require Export SpecLogs GethProofs MemoryProofs.

(** ** One recorded step *)

Definition step_full (cfg : TracingInspectorConfig) (w : world) (d : nat) (o : instr) (st : CallTraceStep) : Prop :=
  step_describes cfg w d o st /\
  (record_state_diff cfg = true -> (fun c => (sc_key c, sc_value c)) <$> st_storage_change st = seen_change o) /\
  (record_state_diff cfg = false -> st_storage_change st = None).

Lemma step_of_full cfg w d prev o : snapshot_safe cfg o -> recorded cfg o = true -> step_full cfg w d o (step_of cfg w d prev o).
Proof.
  intros Hs Hr. split; [by apply step_of_describes|]. destruct (fill_step_ok cfg w d prev o Hr Hs) as (st' & Hst').
  unfold step_of. rewrite Hst'. apply fill_step_fields in Hst' as
    (H1 & H2 & H3 & H4 & H5 & H6 & H7 & H8 & H9 & H10 & H11 & H12 & H13 & H14 & H15).
  unfold storage_snapshot in H15. unfold new_step in H15. cbn [st_op st_storage_change] in H15.
  split; intros Hd; rewrite Hd in H15; [|by apply (f_equal (fun x => match x with Ok y => y | _ => None end)) in H15].
  cbn [cx_journal cx_present ctx_of] in H15. unfold seen_change.
  change 0x54%N with OP_SLOAD. change 0x55%N with OP_SSTORE.
  destruct (last (j_journal (op_post_j o))) as [jn|] eqn:Ej; cbn [expect rbind] in H15; [|done].
  destruct (last jn) as [[a k had|]|] eqn:El.
  - destruct (_ || _).
    + destruct (j_present (op_post_j o) a k) as [v|]; [|done]. injection H15 as <-. done.
    + injection H15 as <-. done.
  - injection H15 as <-. by destruct (_ || _).
  - injection H15 as <-. by destruct (_ || _).
Qed.

Lemma latest_slot cfg w a k : record_state_diff cfg = true ->
  forall (xs : list (nat * frame * instr)) (l : list (CallTraceNode * CallTraceStep)),
  Forall2 (fun x y => step_full cfg w (fst (fst x)) (snd x) (snd y)) xs l ->
  latest (map snd l) a k = slot_value xs a k.
Proof.
  intros Hd xs l H. unfold latest, slot_value. f_equal.
  induction H as [|x y xs l (Hxy & Hc & _) H IH]; [done|]. cbn [map omap list_omap].
  specialize (Hc Hd). rewrite <-Hc. rewrite (sd_contract _ _ _ _ _ Hxy).
  destruct (st_storage_change (snd y)) as [ch|]; cbn [fmap option_fmap option_map]; [|exact IH].
  destruct (_ && _); [by f_equal|exact IH].
Qed.

Definition step_all (cfg : TracingInspectorConfig) (w : world) (d : nat) (o : instr) (st : CallTraceStep) : Prop :=
  step_full cfg w d o st /\ (record_memory_snapshots cfg = true -> upto_zeros o st).

Lemma Forall2_both {A B} (P Q : A -> B -> Prop) l k : Forall2 P l k -> Forall2 Q l k -> Forall2 (fun x y => P x y /\ Q x y) l k.
Proof. intros H. induction H; intros H'; inversion_clear H'; constructor; eauto. Qed.
