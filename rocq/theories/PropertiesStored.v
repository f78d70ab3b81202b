(** * PropertiesStored: C137, a recording that is stored and read back *)

From Verif Require Import StoredProofs Examples.

(** ** C137 *)

(** One would expect every report of a recording that was read back to be the one of the recording. *)
Definition C137_statement : Prop :=
  forall cfg es s gas out opts, ti_run (ti_new cfg) es = Ok s ->
  geth_traces (read_back (ti_traces s)) gas out opts = geth_traces (ti_traces s) gas out opts.

(** A transaction that executes an opcode revm does not know. *)
Definition ex_unknown : frame :=
  Frame (SCall ex_j0 (mkCallInputs [] 90000 0xC0 0xC0 0xAA (Transfer 7) CSCall false)%N)
    [ IOp (ex_op OP_PUSH1 0 [] [5]%N 10000%N ex_j0 [] Continue);
      IOp (ex_op 0x0c 2 [5]%N [5]%N 9000%N ex_j0 [] OpcodeNotFound) ]
    (ex_end OpcodeNotFound None).

Theorem C137_refuted : ~ C137_statement.
Proof.
  intros H. destruct (ti_run (ti_new cfg_default_geth) (tx_events ex_world ex_unknown)) as [s| |] eqn:E; [|vm_compute in E; discriminate E..].
  specialize (H _ _ s 0%N [] (mkGethOpts None None None None None None) E). vm_compute in E. injection E as <-. vm_compute in H. discriminate H.
Qed.
Print Assumptions C137_refuted.

(** What is lost: the struct logs and the vm trace name an opcode that revm does not know INVALID. They differ in
    nothing else, for any recording whatsoever. *)
Theorem C137_opcodes_partial :
  forall ns, (forall gas out opts, geth_traces (read_back ns) gas out opts = rmap read_frame (geth_traces ns gas out opts)) /\
    vm_trace (read_back ns) = rmap read_vm (vm_trace ns).
Proof. intros ns. split; [apply rb_geth|apply rb_vm]. Qed.
Print Assumptions C137_opcodes_partial.

(** All other reports are the same. *)
Theorem C137_same_reports :
  forall ns,
  into_transaction_traces (read_back ns) = into_transaction_traces ns /\
  callers (read_back ns) = callers ns /\
  (forall rr opts gas, geth_call_traces rr (read_back ns) opts gas = geth_call_traces rr ns opts gas) /\
  (forall ck w, write_arena ck (read_back ns) w = write_arena ck ns w).
Proof.
  intros ns. split_and!; [apply rb_traces| |intros; apply rb_call_traces|intros; apply rb_write_arena].
  unfold callers, read_back. rewrite map_map. done.
Qed.
Print Assumptions C137_same_reports.

(** Nothing is lost if every opcode executed is known to revm; in any case nothing more is lost by
    storing a recording that was read back. *)
Theorem C137_lossless :
  forall cfg es s, ti_run (ti_new cfg) es = Ok s -> knows_all es -> read_back (ti_traces s) = ti_traces s.
Proof.
  intros cfg es s H Hk. apply rb_known. eapply (ops_run _ es); [exact Hk| |exact H]. constructor; [|constructor]. constructor.
Qed.
Print Assumptions C137_lossless.

Theorem C137_again : forall ns, read_back (read_back ns) = read_back ns.
Proof. apply rb_twice. Qed.
Print Assumptions C137_again.

Example C137_example : knows_all (tx_events ex_world ex_tx) /\
  exists s r, ti_run (ti_new cfg_default_geth) (tx_events ex_world ex_unknown) = Ok s /\
    geth_traces (ti_traces s) 5%N [] (mkGethOpts None None None None None None) = Ok r /\
    map sl_op (dfr_struct_logs r) = [0x60; 0x0c]%N /\ map sl_op (dfr_struct_logs (read_frame r)) = [0x60; 0xfe]%N.
Proof.
  split.
  - intros i c H. cut (forallb (fun e => match e with EStep i _ => op_known (in_op i) | _ => true end) (tx_events ex_world ex_tx) = true).
    + intros Hb. rewrite forallb_forall in Hb. exact (Hb _ H).
    + vm_compute. reflexivity.
  - do 2 eexists. split_and!; vm_compute; reflexivity.
Qed.
