(** * PropertiesCallers: C113, the set of callers *)

From Verif Require Import ExecProofs Parity PropertiesRecord Examples.
Local Open Scope N_scope.

(** For one execution, [callers] holds the caller of every frame, and nothing else. The caller of a delegate call or
    CALLCODE is the account that makes it. *)
Theorem C113_callers :
  forall cfg w f s a, env_ok cfg w f -> ti_run (ti_new cfg) (tx_events w f) = Ok s ->
  a ∈ callers (ti_traces s) <-> exists par d g, (par, d, g) ∈ entered None 0 0 f /\ spec_caller (f_start g) = a.
Proof.
  intros cfg w f s a Henv Hrun. unfold callers. rewrite elem_of_list_to_set, elem_of_list_fmap.
  destruct (C01_arena_is_call_tree cfg w f Henv) as (s' & Hrun' & _ & Hlen & Hex). rewrite Hrun in Hrun'. injection Hrun' as <-. split.
  - intros (n & -> & Hn). apply elem_of_list_lookup_1 in Hn as (i & Hi).
    assert (i < length (entered None 0 0 f))%nat as Hlt by (rewrite <- Hlen; by eapply lookup_lt_Some).
    apply lookup_lt_is_Some_2 in Hlt as ([[par d] g] & Hg). exists par, d, g. split; [by eapply elem_of_list_lookup_2|].
    destruct (C03_node_data _ _ _ _ _ _ _ _ _ Henv Hrun Hg Hi) as (_ & E & _). done.
  - intros (par & d & g & Hg & <-). apply elem_of_list_lookup_1 in Hg as (i & Hg).
    destruct (Hex _ _ _ _ Hg) as (n & Hn & _). exists n. split; [|by eapply elem_of_list_lookup_2].
    destruct (C03_node_data _ _ _ _ _ _ _ _ _ Henv Hrun Hg Hn) as (_ & E & _). done.
Qed.
Print Assumptions C113_callers.
Example C113_example :
  env_ok ex_cfg ex_world ex_tx /\
  map (fun x => spec_caller (f_start (snd x))) (entered None 0 0 ex_tx) = [0xAA; 0xC0; 0xC0; 0xC0; 0xC0; 0xC0].
Proof. split; [by apply env_okb_ok|]. vm_compute. reflexivity. Qed.
