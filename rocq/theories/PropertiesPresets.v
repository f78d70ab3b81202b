(** * PropertiesPresets: what the preset configurations record *)

From Verif Require Import Examples TxFacts StepProofs PropertiesRecord.

Lemma every_frame_any (P : frame -> Prop) : (forall g, P g) -> forall f, every_frame P f.
Proof.
  intros H f. induction f as [s body e IH] using frame_ind'. constructor; [apply H|exact IH].
Qed.
Lemma all_env w f : env_ok cfg_all w f.
Proof.
  split; [discriminate|]. apply every_frame_any. intros g. apply Forall_forall. intros o _ _ _. split; discriminate.
Qed.
Lemma none_env w f : env_ok cfg_none w f.
Proof.
  split; [discriminate|]. apply every_frame_any. intros g. apply Forall_forall. intros o _ H. discriminate H.
Qed.

(** ** C109: "a config with everything enabled", "a config with everything disabled" *)

(** The step shows the stack and the return data before the instruction, a copy of the memory, and the change of storage
    if the instruction (an SLOAD, 0x54, or SSTORE, 0x55) made one. *)
Definition step_shows (storage : bool) (o : instr) (st : CallTraceStep) : Prop :=
  st_op st = in_op (op_pre o) /\ st_pc st = in_pc (op_pre o) /\
  st_stack st = Some (in_stack (op_pre o)) /\ st_returndata st = in_returndata (op_pre o) /\ st_memory st <> None /\
  (storage = true -> forall k v had, (in_op (op_pre o) = 0x54 \/ in_op (op_pre o) = 0x55)%N -> performs_change o k v had ->
     exists ch, st_storage_change st = Some ch /\ sc_key ch = k /\ sc_value ch = v).

(** With [all()] every call, every instruction with its surroundings, and every log is recorded. *)
Definition all_shows (storage : bool) : Prop :=
  forall w f, exists s, ti_run (ti_new cfg_all) (tx_events w f) = Ok s /\
    length (ti_traces s) = length (entered None 0 0 f) /\
    forall i par d g, entered None 0 0 f !! i = Some (par, d, g) ->
    exists n, ti_traces s !! i = Some n /\
      Forall2 (step_shows storage) (instrs (f_body g)) (tr_steps (nd_trace n)) /\
      map (fun l => (cl_topics l, cl_data l)) (nd_logs n) =
        map (fun l => (lg_topics l, lg_data l)) (logs_of (hooks (f_body g))).
Definition C109_statement : Prop := all_shows true.

(** [all()] does not record changes of storage (config.rs:83). *)
Theorem C109_refuted : ~ C109_statement.
Proof.
  intros H. destruct (H ex_world c08_tx) as (s & E & _ & Hn). destruct (Hn 0 None 0 c08_tx eq_refl) as (n & En & Hs & _).
  assert (exists s n, ti_run (ti_new cfg_all) (tx_events ex_world c08_tx) = Ok s /\ ti_traces s !! 0 = Some n
    /\ map st_storage_change (tr_steps (nd_trace n)) = [None; None]) as (s' & n' & E' & En' & Hc).
  { do 2 eexists. split; [vm_compute; reflexivity|]. split; vm_compute; reflexivity. }
  rewrite E in E'. injection E' as <-. rewrite En in En'. injection En' as <-.
  inversion Hs as [|o st os sts Ho _ E1 E2]. rewrite <-?E2 in Hc. injection Hc as Hc _. subst o.
  destruct Ho as (_ & _ & _ & _ & _ & Hst). destruct (Hst eq_refl 1%N 9%N 0%N) as (ch & Hch & _).
  - by right.
  - exists [JOther], []. split; [reflexivity|]. split; reflexivity.
  - congruence.
Qed.
Print Assumptions C109_refuted.

(** Everything else is recorded, for every execution, and no hook panics. *)
Theorem C109_all_partial : all_shows false.
Proof.
  intros w f. pose proof (all_env w f) as Henv. destruct (C01_arena_is_call_tree cfg_all w f Henv) as (s & Hrun & _ & Hlen & Hn).
  exists s. split; [exact Hrun|]. split; [exact Hlen|]. intros i par d g He. destruct (Hn i par d g He) as (n & En & _).
  exists n. split; [exact En|]. split.
  - pose proof (C06_steps_recorded_once cfg_all w f s i par d g n Henv Hrun He En) as H.
    assert (Hall : List.filter (fun o => selected cfg_all (in_op (op_pre o))) (instrs (f_body g)) = instrs (f_body g)).
    { clear. induction (instrs (f_body g)) as [|o os IH]; [reflexivity|]. cbn [List.filter]. by rewrite IH. }
    rewrite Hall in H. eapply Forall2_impl; [exact H|]. intros o st [S1 S2 _ _ _ _ _ _ _ S3 S4 S5 _ _].
    split; [exact S2|]. split; [exact S1|]. split; [exact S3|]. split; [exact S4|]. split; [|discriminate].
    destruct S5 as [_ S5]. destruct (S5 eq_refl) as (m & ->). discriminate.
  - exact (C05_logs_attribution cfg_all w f s i par d g n Henv Hrun He En).
Qed.
Print Assumptions C109_all_partial.

(** With [none()] the calls are recorded, and of them neither instructions nor logs. *)
Theorem C109_none :
  forall w f, exists s, ti_run (ti_new cfg_none) (tx_events w f) = Ok s /\
    length (ti_traces s) = length (entered None 0 0 f) /\
    Forall (fun n => tr_steps (nd_trace n) = [] /\ nd_logs n = []) (ti_traces s).
Proof.
  intros w f. pose proof (none_env w f) as Henv. destruct (C01_arena_is_call_tree cfg_none w f Henv) as (s & Hrun & _ & Hlen & Hn).
  exists s. split; [exact Hrun|]. split; [exact Hlen|]. apply Forall_lookup_2. intros i n En.
  destruct (lookup_lt_is_Some_2 (entered None 0 0 f) i) as [[[par d] g] He].
  { rewrite <-Hlen. by eapply lookup_lt_Some. }
  split.
  - pose proof (C06_steps_recorded_once cfg_none w f s i par d g n Henv Hrun He En) as H.
    assert (Hall : List.filter (fun o => selected cfg_none (in_op (op_pre o))) (instrs (f_body g)) = []).
    { clear. induction (instrs (f_body g)) as [|o os IH]; [reflexivity|]. cbn [List.filter]. exact IH. }
    rewrite Hall in H. by inversion H.
  - pose proof (C05_logs_attribution cfg_none w f s i par d g n Henv Hrun He En) as H. cbn in H. by apply map_eq_nil in H.
Qed.
Print Assumptions C109_none.

(** The example transaction: six frames; with [all()] eleven instructions and a log, with [none()] nothing of them. *)
Example C109_example :
  exists s s', ti_run (ti_new cfg_all) (tx_events ex_world ex_tx) = Ok s /\ ti_run (ti_new cfg_none) (tx_events ex_world ex_tx) = Ok s' /\
    map (fun n => (length (tr_steps (nd_trace n)), length (nd_logs n))) (ti_traces s) = [(7, 1); (3, 0); (0, 0); (1, 0); (2, 0); (0, 0)] /\
    map (fun n => (length (tr_steps (nd_trace n)), length (nd_logs n))) (ti_traces s') = repeat (0, 0) 6.
Proof. do 2 eexists. split; [vm_compute; reflexivity|]. split; [vm_compute; reflexivity|]. split; vm_compute; reflexivity. Qed.
