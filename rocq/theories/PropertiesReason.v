(** * PropertiesReason: the reasons contracts give for reverting *)

From Verif Require Import PropertiesTx ReasonProofs AgreeProofs.
From Verif Require Import Examples.
Local Open Scope N_scope.

(** ** C128 *)

(** A frame of the geth call tracer shows a revert reason only if its contract gave that reason. *)
Definition C128_statement : Prop :=
  forall panic_text cfg w f s opts gas, env_ok cfg w f -> evm_addresses f ->
  ti_run (ti_new cfg) (tx_events w f) = Ok s -> only_top_call opts <> Some true ->
  exists r, geth_call_traces (maybe_revert_reason (alloy_decode panic_text)) (ti_traces s) opts gas = Ok r /\
    Forall2 (fun g i => forall text, fi_revert_reason i = Some text ->
        given_reason panic_text (ir_output (fe_result (f_end g))) text)
      (frames_of f) (call_infos (without_selfdestructs r)).

(** Exactly what is shown, for every execution and whatever data its calls fail with. *)
Theorem C128_shown_exactly :
  forall panic_text cfg w f s opts gas, env_ok cfg w f -> evm_addresses f ->
  ti_run (ti_new cfg) (tx_events w f) = Ok s -> only_top_call opts <> Some true ->
  exists r, geth_call_traces (maybe_revert_reason (alloy_decode panic_text)) (ti_traces s) opts gas = Ok r /\
    Forall2 (fun g i => forall text, fi_revert_reason i = Some text <->
        spec_success (status (f_end g)) = false /\ text <> ""%string /\
        shown_reason panic_text (ir_output (fe_result (f_end g))) text)
      (frames_of f) (call_infos (without_selfdestructs r)).
Proof.
  intros pt cfg w f s opts gas Henv Ha Hrun Htop.
  destruct (C89_revert_reasons (alloy_decode pt) cfg w f s opts gas Henv Ha Hrun Htop) as (r & Hr & H).
  exists r. split; [exact Hr|]. eapply Forall2_impl; [exact H|]. intros g i Hg text. rewrite (Hg text).
  split; intros (H1 & H2 & H3); (split; [exact H1|split; [exact H2|]]); by apply (shown_spec pt).
Qed.
Print Assumptions C128_shown_exactly.

(** A reason given by the contract is shown as it was given: the text of [revert(reason)] (anything may follow it), the
    printed form of a failed check; and an empty reason is not shown. *)
Theorem C128_given_partial :
  forall panic_text cfg w f s opts gas, env_ok cfg w f -> evm_addresses f ->
  ti_run (ti_new cfg) (tx_events w f) = Ok s -> only_top_call opts <> Some true ->
  exists r, geth_call_traces (maybe_revert_reason (alloy_decode panic_text)) (ti_traces s) opts gas = Ok r /\
    Forall2 (fun g i => spec_success (status (f_end g)) = false ->
        (forall reason rest, ir_output (fe_result (f_end g)) = error_data (txt reason) ++ rest ->
           utf8_string reason -> N.of_nat (length (txt reason)) < 2 ^ 64 ->
           fi_revert_reason i = if bool_decide (reason = ""%string) then None else Some reason) /\
        (forall code rest, ir_output (fe_result (f_end g)) = panic_data code ++ rest -> code < 2 ^ 256 ->
           panic_text code <> ""%string -> fi_revert_reason i = Some (panic_text code)))
      (frames_of f) (call_infos (without_selfdestructs r)).
Proof.
  intros pt cfg w f s opts gas Henv Ha Hrun Htop.
  destruct (C128_shown_exactly pt cfg w f s opts gas Henv Ha Hrun Htop) as (r & Hr & H).
  exists r. split; [exact Hr|]. eapply Forall2_impl; [exact H|]. intros g i Hg Hfail. split.
  - intros reason rest Hout Hu Hlen. destruct (error_data_string (txt reason) rest Hlen) as (body & Hb & Hs).
    case_bool_decide as He.
    + destruct (fi_revert_reason i) as [text|] eqn:E; [|done]. exfalso. apply Hg in E as (_ & Hn & Hsh).
      apply (shown_spec pt) in Hsh; [|done]. rewrite Hout in Hsh.
      assert (Hd : alloy_decode pt (error_data (txt reason) ++ rest) = Some (ContractRevert "")).
      { apply decodes_error. exists body, (txt reason). split_and!; [done..|]. rewrite He. by constructor. }
      destruct Hsh as [D|[D|D]]; rewrite Hd in D; congruence.
    + apply Hg. split_and!; [done..|]. apply (sh_error _ _ _ body (txt reason)); [by rewrite Hout|done|]. by apply replaced_utf8.
  - intros code rest Hout Hc Hn. apply Hg. split_and!; [done..|]. by apply (sh_panic _ _ _ code rest).
Qed.
Print Assumptions C128_given_partial.

(** Data that is neither is shown as text when it happens to be text: a call that reverts with the byte 0x2a shows the
    reason [*], and a custom error whose bytes are all below 0x80 is shown as characters. *)
Theorem C128_refuted : ~ C128_statement.
Proof.
  intros H. set (pt := fun _ : N => "panic"%string).
  assert (He : env_ok ex_cfg ex_world ex_tx) by by apply env_okb_ok.
  assert (Ha : evm_addresses ex_tx).
  { clear. repeat (constructor; cbn; try done). by intros a _ [= <-]. }
  assert (Hrun : exists s, ti_run (ti_new ex_cfg) (tx_events ex_world ex_tx) = Ok s /\
    match geth_call_traces (maybe_revert_reason (alloy_decode pt)) (ti_traces s) (mkCallConfig None None) 99%N with
    | Ok r => map fi_revert_reason (call_infos (without_selfdestructs r)) = [None; None; None; None; Some "*"%string; None]
    | _ => False
    end).
  { eexists. split; [vm_compute; reflexivity|]. vm_compute. reflexivity. }
  destruct Hrun as (s & Hs & Hr).
  destruct (H pt ex_cfg ex_world ex_tx s (mkCallConfig None None) 99%N) as (r & Er & Hf).
  - exact He.
  - exact Ha.
  - exact Hs.
  - discriminate.
  - clear Hs H He Ha. revert Hr. rewrite Er. clear Er. intros Hr. set (l := call_infos (without_selfdestructs r)) in *. clearbody l.
    assert (Hi : exists i, l !! 4%nat = Some i /\ fi_revert_reason i = Some "*"%string).
    { destruct l as [|? [|? [|? [|? [|i l]]]]]; try discriminate Hr. exists i. split; [done|]. by injection Hr. }
    destruct Hi as (i & Hl & Hi). eapply Forall2_lookup_r in Hf as (g & Hg & Hrel); [|exact Hl].
    vm_compute in Hg. injection Hg as <-. specialize (Hrel _ Hi).
    destruct Hrel as [E|code Hc E _]; apply (f_equal length) in E.
    + unfold error_data in E. rewrite !app_length in E. cbn [length fe_result f_end ir_output] in E. lia.
    + unfold panic_data in E. rewrite app_length in E. cbn [length fe_result f_end ir_output] in E. lia.
Qed.
Print Assumptions C128_refuted.

(** A call that reverts with a reason (the data of the crate's own test, utils.rs:92-96: the padding is not zero), one
    that fails a check of the compiler, and one whose reason is not UTF-8. *)
Definition reason_call (out : bytes) : frame :=
  Frame (SCall ex_j0 (mkCallInputs [x0a; x0b; x0c; x0d] 30000 0xF0 0xF0 0xC0 (Transfer 0) CSCall false)%N)
    [IOp (ex_op OP_REVERT 1 [0; 0]%N [] 300%N ex_j0 [] Revert)]
    (mkEnd ex_j0 (mkIR Revert out (mkGas 100000%N 60000%N 0%Z)) None).
Definition reason_tx : frame :=
  Frame (SCall ex_j0 (mkCallInputs [] 90000 0xC0 0xC0 0xAA (Transfer 7) CSCall false)%N)
    (flat_map (fun out => [IOp (ex_op OP_CALL 6 [0; 0; 0; 0; 0; 0; 0]%N [] 5000%N ex_j0 [] CallOrCreate); ISub (reason_call out)])
       [ removelast (error_data (txt "UniswapV2: INSUFFICIENT_INPUT_AMOUNT")) ++ [x80];
         error_data (txt "");
         panic_data 0x11;
         error_data [x61; xff; xe2; x82; x62];
         [x08; xc3; x79; xa0] ])
    (ex_end Stop None).
Example C128_example :
  env_ok ex_cfg ex_world reason_tx /\ evm_addresses reason_tx /\
  exists s r, ti_run (ti_new ex_cfg) (tx_events ex_world reason_tx) = Ok s /\
    geth_call_traces (maybe_revert_reason (alloy_decode (fun _ => "panic"%string))) (ti_traces s) (mkCallConfig None None) 99%N = Ok r /\
    map (fun i => option_map txt (fi_revert_reason i)) (call_infos (without_selfdestructs r)) =
      [None; Some (txt "UniswapV2: INSUFFICIENT_INPUT_AMOUNT"); None; Some (txt "panic");
       Some ([x61] ++ [xef; xbf; xbd] ++ [xef; xbf; xbd] ++ [x62]); None].
Proof.
  split; [by apply env_okb_ok|]. split.
  - repeat (constructor; cbn; try done).
  - do 2 eexists. split; [vm_compute; reflexivity|]. split; [vm_compute; reflexivity|]. vm_compute. reflexivity.
Qed.
