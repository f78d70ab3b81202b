(** * PropertiesTxText: C118, the written trace as a function of the execution *)

From Verif Require Import TxTextProofs Examples.

(** ** C118 *)

(** Recording a transaction and writing the recording gives the text of its execution (as far as the inner writer accepts
    bytes), and success is reported exactly if all of it was accepted and flushed. *)
Theorem C118_written :
  forall to_checksum cfg w f s wr, env_ok cfg w f -> evm_refund f ->
  ti_run (ti_new cfg) (tx_events w f) = Ok s -> (tw_level wr + N.of_nat (nesting f) <= 65535)%N ->
  let text := tx_text to_checksum (tw_use_colors wr) (tw_color_cheatcodes wr) cfg w (tw_level wr) f in
  exists wr' result, write_arena to_checksum (ti_traces s) wr = Ok (wr', result) /\
    tw_out wr' = tw_out wr ++ match tw_budget wr with None => text | Some b => take b text end /\
    (result = Some tt <-> tw_flush wr = true /\ forall b, tw_budget wr = Some b -> length text <= b) /\
    (result = Some tt -> tw_level wr' = tw_level wr).
Proof. exact tx_written. Qed.
Print Assumptions C118_written.

(** Two recordings of the same transaction that agree on logs and precompile calls are written alike, whatever else they
    record. *)
Theorem C118_other_options :
  forall to_checksum cfg cfg' w f s s' wr, env_ok cfg w f -> env_ok cfg' w f -> evm_refund f ->
  record_logs cfg = record_logs cfg' -> exclude_precompile_calls cfg = exclude_precompile_calls cfg' ->
  ti_run (ti_new cfg) (tx_events w f) = Ok s -> ti_run (ti_new cfg') (tx_events w f) = Ok s' ->
  (tw_level wr + N.of_nat (nesting f) <= 65535)%N ->
  exists a b result, write_arena to_checksum (ti_traces s) wr = Ok (a, result) /\
    write_arena to_checksum (ti_traces s') wr = Ok (b, result) /\ tw_out a = tw_out b.
Proof.
  intros ck cfg cfg' w f s s' wr He He' Hz Hl Hx Hr Hr' Hk.
  destruct (tx_written ck cfg w f s wr He Hz Hr Hk) as (a & r & Ha & Ho & Hres & _).
  destruct (tx_written ck cfg' w f s' wr He' Hz Hr' Hk) as (b & r' & Hb & Ho' & Hres' & _).
  unfold tx_text in *. rewrite <-(call_text_same ck _ _ cfg cfg' w f Hl Hx) in Ho', Hres'.
  assert (r = r') as <-.
  { destruct r as [[]|], r' as [[]|]; try done.
    - symmetry. by apply Hres', Hres.
    - by apply Hres, Hres'. }
  exists a, b, r. split_and!; [done|done|congruence].
Qed.
Print Assumptions C118_other_options.

(** Checksummed addresses are left abstract; for the example, their plain hex text. *)
Definition plain_checksum (a : address) : list byte := txt "0x" ++ hex_encode (be_bytes 20 a).
(** A log, a delegate call, a hidden precompile call, a create and a reverted call that paid a precompile. *)
Example C118_example :
  env_ok ex_cfg ex_world ex_tx /\ evm_refund ex_tx /\ nesting ex_tx = 3 /\
  (exists s, ti_run (ti_new ex_cfg) (tx_events ex_world ex_tx) = Ok s) /\
  String.string_of_list_byte (tx_text plain_checksum false false ex_cfg ex_world 0 ex_tx) =
"  [35200] 0x00000000000000000000000000000000000000c0::aabbccdd{value: 7}()
    ├─  emit topic 0: 0x0000000000000000000000000000000000000000000000000000000000000007
    │        topic 1: 0x0000000000000000000000000000000000000000000000000000000000000008
    │           data: 0x010203
    ├─ [40000] 0x00000000000000000000000000000000000000d0::01020304{value: 7}(05) [delegatecall]
    │   └─ ← [Return] 0x2a
    ├─ [40000] → new <unknown>@0x00000000000000000000000000000000000000e0
    │   └─ ← [SelfDestruct] 1 bytes of code
    ├─ [40000] 0x00000000000000000000000000000000000000f0::0a0b0c0d()
    │   ├─ [40000] 0x0000000000000000000000000000000000000001::fallback{value: 3}(00)
    │   │   └─ ← [Return] 0x2a
    │   └─ ← [Revert] 0x2a
    └─ ← [Stop] 0x2a
"%string.
Proof.
  split; [by apply env_okb_ok|]. split; [unfold evm_refund; cbn; lia|]. split; [done|]. split.
  - eexists. vm_compute. reflexivity.
  - vm_compute. reflexivity.
Qed.
