(** * PropertiesHistory: recording over time (C85, C86) *)

From Verif Require Import HistoryProofs Examples.

(** ** C85: recording only adds *)

(** From any state of the inspector, whatever hooks follow (other than the start of another
    transaction): every call already recorded keeps its place and what it was entered with, its
    children, logs and instructions are only appended to; and exactly one record is added for every
    call started. *)
Theorem C85_append_only :
  forall s es s', Forall (fun e => is_root_start e = false) es -> ti_run s es = Ok s' ->
  later_arena (ti_traces s) (ti_traces s') /\
  length (ti_traces s') = length (ti_traces s) + length (List.filter is_start es).
Proof. intros s es s' Hf Hr. split; [by eapply ti_run_later|by apply ti_run_count]. Qed.
Print Assumptions C85_append_only.

(** A transaction interrupted after any of its hooks (a failing database aborts the execution there)
    leaves the beginning of the record of the whole transaction: one record for every call started so
    far, each an earlier version of the record in the same place after the whole transaction. *)
Theorem C85_interrupted :
  forall cfg w f es1 es2, env_ok cfg w f -> tx_events w f = es1 ++ es2 -> es1 <> [] ->
  exists s1 s2,
    ti_run (ti_new cfg) es1 = Ok s1 /\ ti_run (ti_new cfg) (tx_events w f) = Ok s2 /\
    later_arena (ti_traces s1) (ti_traces s2) /\
    length (ti_traces s1) = length (List.filter is_start es1).
Proof. exact tx_interrupted. Qed.
Print Assumptions C85_interrupted.

(** Whatever has been recorded of a call that has not ended yet shows no result: neither success nor failure, no output,
    no gas used. *)
Theorem C85_unended :
  forall cfg w f es1 es2 s i, env_ok cfg w f -> tx_events w f = es1 ++ es2 ->
  ti_run (ti_new cfg) es1 = Ok s -> i ∈ unended [] 0 es1 ->
  exists n, ti_traces s !! i = Some n /\ without_result (nd_trace n).
Proof. exact tx_unended. Qed.
Print Assumptions C85_unended.

(** In the middle of the first sub-call two calls have not ended. *)
Example C85_unended_example :
  env_ok ex_cfg ex_world ex_tx /\ unended [] 0 (take 9 (tx_events ex_world ex_tx)) = [1; 0] /\
  unended [] 0 (tx_events ex_world ex_tx) = [].
Proof. split; [by apply env_okb_ok|]. split; vm_compute; reflexivity. Qed.

(** When the transaction is interrupted inside an instruction, this instruction is the last one of the innermost call that
    has not ended, and shows no outcome. *)
Theorem C85_unended_instruction :
  forall cfg w f es i c hs es2 s, tx_events w f = (es ++ EStep i c :: hs) ++ es2 -> Forall (fun e => is_hook_event e = true) hs ->
  ti_run (ti_new cfg) (es ++ EStep i c :: hs) = Ok s ->
  record_steps cfg = true -> should_record_opcode cfg (in_op i) = true ->
  exists t n st, head (unended [] 0 es) = Some t /\ ti_traces s !! t = Some n /\ last (tr_steps (nd_trace n)) = Some st /\
    begun i st.
Proof.
  intros cfg w f es i c hs es2 s Heq Hhs Hr Hrec Hop.
  destruct (tx_unended_instruction _ _ _ _ _ _ _ _ _ Heq Hhs Hr Hrec Hop) as (t & n & prev & H1 & H2 & H3).
  do 3 eexists. split; [done|]. split; [done|]. split; [done|]. by split.
Qed.
Print Assumptions C85_unended_instruction.
(** The example transaction, interrupted inside the LOG instruction of its outermost call. *)
Example C85_unended_instruction_example :
  exists es i c l lc es2, tx_events ex_world ex_tx = (es ++ EStep i c :: [ELog l lc]) ++ es2 /\ should_record_opcode ex_cfg (in_op i) = true /\
    record_steps ex_cfg = true /\ unended [] 0 es = [0] /\ length es = 3.
Proof.
  exists (take 3 (tx_events ex_world ex_tx)). do 4 eexists. exists (drop 5 (tx_events ex_world ex_tx)).
  split; [vm_compute; reflexivity|]. vm_compute. done.
Qed.

(** The example transaction, interrupted in the middle of its first sub-call. *)
Example C85_example :
  exists es1 es2 s1 s2 n1 n2,
    tx_events ex_world ex_tx = es1 ++ es2 /\ length es1 = 9 /\
    ti_run (ti_new ex_cfg) es1 = Ok s1 /\ ti_run (ti_new ex_cfg) (tx_events ex_world ex_tx) = Ok s2 /\
    length (ti_traces s1) = 2 /\ length (ti_traces s2) = 6 /\
    ti_traces s1 !! 0 = Some n1 /\ ti_traces s2 !! 0 = Some n2 /\
    nd_ordering n1 = [OStep 0; OStep 1; OLog 0; OStep 2; OCall 0] /\
    nd_ordering n2 =
      [OStep 0; OStep 1; OLog 0; OStep 2; OCall 0; OStep 3; OStep 4; OCall 1; OStep 5; OCall 2; OStep 6] /\
    tr_success (nd_trace n1) = false /\ tr_success (nd_trace n2) = true.
Proof.
  exists (take 9 (tx_events ex_world ex_tx)), (drop 9 (tx_events ex_world ex_tx)).
  do 4 eexists. split; [by rewrite take_drop|]. split; [vm_compute; reflexivity|].
  split; [vm_compute; reflexivity|]. split; [vm_compute; reflexivity|]. repeat split.
Qed.

(** ** C86: the record of an ended call is final *)

(** Wherever in a transaction the call [g] is made: once its end hook has returned, the records of
    [g] and of all calls made inside it (they are the last ones, one for each) are exactly those found
    at the same places after the whole transaction. *)
Theorem C86_final_once_ended :
  forall cfg w f d g before after, env_ok cfg w f -> happens w 0 f d g before after -> 0 < d ->
  exists s1 s2 s3,
    ti_run (ti_new cfg) before = Ok s1 /\
    ti_run (ti_new cfg) (before ++ frame_events w d g) = Ok s2 /\
    ti_run (ti_new cfg) (tx_events w f) = Ok s3 /\
    length (ti_traces s2) = length (ti_traces s1) + frame_size g /\
    forall i n, length (ti_traces s1) <= i -> ti_traces s2 !! i = Some n -> ti_traces s3 !! i = Some n.
Proof.
  intros cfg w f d g b a He Hh Hd.
  destruct (tx_final cfg w f d g b a He Hh Hd) as (s1 & s2 & s3 & H1 & H2 & H3 & _ & Hl & Hf).
  exists s1, s2, s3. unfold ti_run in *. unfold tx_events. rewrite (happens_events _ _ _ _ _ _ _ Hh).
  split; [done|]. split; [by rewrite run_app, H1|]. split; [|done].
  rewrite run_app, H1. cbn [rbind]. by rewrite run_app, H2.
Qed.
Print Assumptions C86_final_once_ended.

(** The reverted call of the example transaction, which itself makes a call. *)
Example C86_example :
  env_ok ex_cfg ex_world ex_tx /\
  exists b a, happens ex_world 0 ex_tx 1 ex_reverted b a /\ frame_size ex_reverted = 2 /\ a <> [].
Proof.
  split; [apply ex_env|]. do 2 eexists. split; [|split; [reflexivity|]].
  - eapply (happens_inside _ _ _ _
      [ IOp (ex_op OP_PUSH1 0 [] [5]%N 10000%N ex_j0 [] Continue);
        IOp (ex_op OP_LOG0 2 [5; 5]%N [] 9000%N ex_j0 [HLog ex_j0 ex_log] Continue);
        IOp (ex_op OP_DELEGATECALL 3 [0; 0; 0; 0; 0; 0]%N [] 8000%N ex_j0 [] CallOrCreate);
        ISub ex_delegate;
        IOp (ex_op OP_STATICCALL 4 [0; 0; 0; 0; 0; 0]%N [] 7000%N ex_j0 [] CallOrCreate);
        ISub ex_precompile;
        IOp (ex_op OP_CREATE 5 [0; 0; 0]%N [] 6000%N ex_j0 [] CallOrCreate);
        ISub ex_create;
        IOp (ex_op OP_CALL 6 [0; 0; 0; 0; 0; 0; 0]%N [] 5000%N ex_j0 [] CallOrCreate)] ex_reverted);
      [reflexivity|apply happens_itself].
  - done.
Qed.
