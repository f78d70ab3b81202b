(** * PropertiesCutText: C135, the written trace follows the hook calls *)

From Verif Require Import CutGoingProofs Examples.
Local Open Scope N_scope.

(** ** C135 *)

(** Whenever a transaction is cut off (or once it is complete), writing its recording writes exactly the parts that writing
    along with the hook calls would have written so far, and then the last lines of the calls that are still open, innermost
    first; as far as the inner writer accepts bytes. *)
Theorem C135_written :
  forall to_checksum cfg w f es1 es2 s wr, env_ok cfg w f -> tx_events w f = es1 ++ es2 -> es1 <> [] -> ti_run (ti_new cfg) es1 = Ok s ->
  tw_level wr + N.of_nat (nesting f) <= 65535 ->
  let out := left_out (ti_traces s) in
  let text := rendering to_checksum (tw_use_colors wr) (tw_color_cheatcodes wr) (ti_traces s)
    (written_during (record_logs cfg) out (tw_level wr) [] 0 es1 ++ last_lines out (tw_level wr) (unended [] 0 es1)) in
  exists wr' result, write_arena to_checksum (ti_traces s) wr = Ok (wr', result) /\
    tw_out wr' = tw_out wr ++ match tw_budget wr with None => text | Some b => take b text end /\
    (result = Some tt <-> tw_flush wr = true /\ forall b, tw_budget wr = Some b -> (length text <= b)%nat) /\
    (result = Some tt -> tw_level wr' = tw_level wr).
Proof.
  intros ck cfg w f es1 es2 s wr He Heq Hne Hr Hk out text. apply layout_written; [exact (run_tree (ti_new cfg) es1 s arena_tree_default Hr)|]. by eapply tx_cut_layout.
Qed.
Print Assumptions C135_written.

(** A transaction of which all hook calls have been made has no calls left open. *)
Theorem C135_complete :
  forall cfg w f s k, env_ok cfg w f -> ti_run (ti_new cfg) (tx_events w f) = Ok s -> k + N.of_nat (nesting f) <= 65535 ->
  node_layout (ti_traces s) k 0 (written_during (record_logs cfg) (left_out (ti_traces s)) k [] 0 (tx_events w f)).
Proof.
  intros cfg w f s k He Hr Hk. pose proof (tx_cut_layout cfg w f (tx_events w f) [] s k He) as H. rewrite app_nil_r in H. cbn zeta in H.
  assert (Hu : unended [] 0 (tx_events w f) = []).
  { destruct (tx_opened cfg w f (tx_events w f) [] s) as [<- _]; [by rewrite app_nil_r|done|]. destruct (tx_layout cfg w f He) as (lr & Hr'). rewrite Hr' in Hr. by injection Hr as <-. }
  rewrite Hu in H. cbn [last_lines] in H. rewrite app_nil_r in H. apply H; [done| |done|done]. unfold tx_events. destruct f. rewrite frame_events_eq. done.
Qed.
Print Assumptions C135_complete.

(** What was written before the cut is the beginning of what the complete transaction writes, and says the same, except for
    the first lines of the calls that had not ended, which show the gas used by the call. *)
Theorem C135_prefix :
  forall to_checksum colors cheat cfg w f es1 es2 s1 s2 k, env_ok cfg w f -> tx_events w f = es1 ++ es2 -> es1 <> [] ->
  ti_run (ti_new cfg) es1 = Ok s1 -> ti_run (ti_new cfg) (tx_events w f) = Ok s2 -> k + N.of_nat (nesting f) <= 65535 ->
  let before := written_during (record_logs cfg) (left_out (ti_traces s1)) k [] 0 es1 in
  (exists after, written_during (record_logs cfg) (left_out (ti_traces s2)) k [] 0 (tx_events w f) = before ++ after) /\
  forall l p, (l, p) ∈ before -> (forall i, p = Header i -> i ∉ unended [] 0 es1) ->
    chunk_text to_checksum colors cheat (ti_traces s1) (l, p) = chunk_text to_checksum colors cheat (ti_traces s2) (l, p).
Proof. exact cut_prefix. Qed.
Print Assumptions C135_prefix.

(** The last line of a call that has not ended says so: it has no outcome, and neither output nor code. *)
Theorem C135_last_lines :
  forall to_checksum colors cheat cfg w f es1 es2 s i l, env_ok cfg w f -> tx_events w f = es1 ++ es2 -> ti_run (ti_new cfg) es1 = Ok s -> i ∈ unended [] 0 es1 ->
  exists n, ti_traces s !! i = Some n /\
    chunk_text to_checksum colors cheat (ti_traces s) (l, Footer i) = spec_indent l ++ txt "  └─ " ++
      spec_color colors (if cheat && (tr_address (nd_trace n) =? 0x7109709ECfa91a80626fF3989D68f67F5b1DD12D) then 34 else 31) (txt "← [Continue] ") ++
      match tr_kind (nd_trace n) with KCreate | KCreate2 => txt "0 bytes of code" | _ => [] end ++ [x0a].
Proof. exact cut_last_line. Qed.
Print Assumptions C135_last_lines.

(** Checksummed addresses are left abstract; for the example, their plain hex text. *)
Definition plain_checksum (a : address) : list byte := txt "0x" ++ hex_encode (be_bytes 20 a).
(** The example transaction, cut off while it creates a contract. *)
Example C135_example :
  env_ok ex_cfg ex_world ex_tx /\ tx_events ex_world ex_tx = take 24 (tx_events ex_world ex_tx) ++ drop 24 (tx_events ex_world ex_tx) /\
  unended [] 0 (take 24 (tx_events ex_world ex_tx)) = [3; 0]%nat /\
  exists s, ti_run (ti_new ex_cfg) (take 24 (tx_events ex_world ex_tx)) = Ok s /\
  String.string_of_list_byte (rendering plain_checksum false false (ti_traces s)
    (written_during true (left_out (ti_traces s)) 0 [] 0 (take 24 (tx_events ex_world ex_tx)) ++ last_lines (left_out (ti_traces s)) 0 [3; 0]%nat)) =
"  [0] 0x00000000000000000000000000000000000000c0::aabbccdd{value: 7}()
    ├─  emit topic 0: 0x0000000000000000000000000000000000000000000000000000000000000007
    │        topic 1: 0x0000000000000000000000000000000000000000000000000000000000000008
    │           data: 0x010203
    ├─ [40000] 0x00000000000000000000000000000000000000d0::01020304{value: 7}(05) [delegatecall]
    │   └─ ← [Return] 0x2a
    ├─ [0] → new <unknown>@0x00000000000000000000000000000000000000e0
    │   └─ ← [Continue] 0 bytes of code
    └─ ← [Continue] 
"%string.
Proof.
  split; [by apply env_okb_ok|]. split; [by rewrite take_drop|]. split; [vm_compute; reflexivity|]. eexists. split; [vm_compute; reflexivity|]. vm_compute. reflexivity.
Qed.
