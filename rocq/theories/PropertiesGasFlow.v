(** * PropertiesGasFlow: C138, gas adds up in a recording *)

From Verif Require Import GasFlowProofs Examples.

(** ** C138 *)

(** One would expect the gas an inner call is said to have used to be what its caller has lost by making it. *)
Definition C138_statement : Prop :=
  forall cfg w f s i p d g n,
  env_ok cfg w f -> gas_flows f -> ti_run (ti_new cfg) (tx_events w f) = Ok s ->
  entered None 0 0 f !! i = Some (Some p, d, g) -> ti_traces s !! i = Some n -> tr_gas_used (nd_trace n) = gas_lost g.

(** A transaction with two inner calls: the first creates a contract with one byte of code, the second ends with an
    unknown opcode, so that the caller does not get the 990 gas back that were left. *)
Definition gx_op (op : N) (before after : N) (r : InstructionResult) : item :=
  IOp (mkInstr (mkInterp op 0 0xC0%N [1; 1; 1; 1; 1; 1; 1; 1]%N [] [] (mkGas 10000%N before 0%Z) Continue) ex_j0 []
    (mkInterp op 1 0xC0%N [1; 1; 1; 1; 1; 1; 1; 1]%N [] [] (mkGas 10000%N after 0%Z) r) ex_j0).
Definition gx_end (r : InstructionResult) (out : bytes) (limit rem : N) : fend := mkEnd ex_j0 (mkIR r out (mkGas limit rem 0%Z)) None.
Definition gx_create : frame :=
  Frame (SCreate ex_j0 (mkCreateInputs 0xC0 CrCreate 0 [xff] 2000 0xE0)%N)
    [ gx_op OP_PUSH1 2000 1997 Continue; gx_op OP_RETURN 1997 1990 Return ] (gx_end Return [x00] 2000 1790).
Definition gx_failed : frame :=
  Frame (SCall ex_j0 (mkCallInputs [] 1000 0xF0 0xF0 0xC0 (Transfer 0) CSCall false)%N)
    [ gx_op OP_PUSH1 1000 997 Continue; gx_op OP_PUSH1 997 990 Continue; gx_op 0x0c 990 990 OpcodeNotFound ]
    (gx_end OpcodeNotFound [] 1000 990).
Definition gx_tx : frame :=
  Frame (SCall ex_j0 (mkCallInputs [] 10000 0xC0 0xC0 0xAA (Transfer 0) CSCall false)%N)
    [ gx_op OP_PUSH1 10000 9997 Continue; gx_op OP_CREATE 9997 5997 CallOrCreate; ISub gx_create;
      gx_op OP_PUSH1 7787 7784 Continue; gx_op OP_CALL 7784 6084 CallOrCreate; ISub gx_failed; gx_op OP_STOP 6084 6084 Stop ]
    (gx_end Stop [] 10000 6084).

Fixpoint flowb (r : N) (l : list item) : option N :=
  match l with
  | [] => Some r
  | IOp o :: l => if ((g_remaining (in_gas (op_pre o)) =? r) && (g_remaining (in_gas (op_post o)) <=? r))%N
                  then flowb (g_remaining (in_gas (op_post o))) l else None
  | IHook _ :: l => flowb r l
  | ISub g :: l => flowb (r + gas_back g)%N l
  end.
Lemma flowb_ok l : forall r r', flowb r l = Some r' -> flow r l r'.
Proof.
  induction l as [|[o|h|g] l IH]; intros r r' H; cbn [flowb] in H.
  - injection H as ->. constructor.
  - destruct (N.eqb_spec (g_remaining (in_gas (op_pre o))) r); [|done]. destruct (N.leb_spec (g_remaining (in_gas (op_post o))) r); [|done].
    constructor; [done..|]. by apply IH.
  - constructor. by apply IH.
  - constructor. by apply IH.
Qed.
Definition gas_flowb (g : frame) : bool :=
  ((g_limit (end_gas g) =? gas_given (f_start g)) && (g_remaining (end_gas g) <=? g_limit (end_gas g)))%N &&
  match flowb (gas_given (f_start g)) (f_body g) with
  | Some r => (r =? g_remaining (end_gas g) + code_deposit g)%N
  | None => false
  end.
Lemma gas_flowb_ok g : gas_flowb g = true -> gas_flow g.
Proof.
  unfold gas_flowb. rewrite !andb_true_iff. intros [[H1 H2] H3]. apply N.eqb_eq in H1. apply N.leb_le in H2. split_and!; [done..|].
  intros _. destruct (flowb _ _) as [r|] eqn:E; [|done]. apply N.eqb_eq in H3. subst. by apply flowb_ok.
Qed.
Lemma gx_env cfg : env_ok cfg ex_world gx_tx.
Proof. apply env_okb_ok. vm_compute. reflexivity. Qed.
Lemma gx_flows : gas_flows gx_tx.
Proof. eapply (everyb_ok gas_flowb); [apply gas_flowb_ok|]. vm_compute. reflexivity. Qed.
Lemma gx_calls : evm_calls gx_tx.
Proof. repeat (constructor; cbn; try done). Qed.

Theorem C138_refuted : ~ C138_statement.
Proof.
  intros H. destruct (ti_run (ti_new cfg_default_geth) (tx_events ex_world gx_tx)) as [s| |] eqn:E; [|vm_compute in E; discriminate E..].
  destruct (ti_traces s !! 2) as [n|] eqn:En; [|vm_compute in E; injection E as <-; discriminate En].
  specialize (H _ _ _ _ 2 0 1 gx_failed n (gx_env _) gx_flows E eq_refl En). vm_compute in E. injection E as <-.
  vm_compute in En. injection En as <-. vm_compute in H. discriminate H.
Qed.
Print Assumptions C138_refuted.

(** That holds of calls that gave their remaining gas back: those that succeeded, reverted or were refused. A call that
    failed otherwise is recorded with the gas it had used when it failed: the gas it had left then is missing. *)
Theorem C138_lost_partial :
  forall cfg w f s i p d g n,
  env_ok cfg w f -> gas_flows f -> ti_run (ti_new cfg) (tx_events w f) = Ok s ->
  entered None 0 0 f !! i = Some (Some p, d, g) -> ti_traces s !! i = Some n ->
  (tr_gas_used (nd_trace n) + (if gives_back (tr_status (nd_trace n)) then 0 else g_remaining (end_gas g)) = gas_lost g)%N.
Proof.
  intros cfg w f s i p d g n Henv Hg Hrun He Hn. assert (Hi : i <> 0).
  { intros ->. destruct f. rewrite entered_eq in He. done. }
  destruct (tx_end _ _ _ _ Henv Hrun _ _ _ _ _ He Hn) as (Hst & _ & _ & Hu & _). rewrite (Hu Hi), Hst.
  destruct (every_entered _ _ Hg _ _ _ _ _ _ _ He) as (Hlim & Hrem & _). unfold gas_lost, gas_back, end_gas in *.
  destruct (gives_back _); lia.
Qed.
Print Assumptions C138_lost_partial.

(** The gas used by an inner call that ran code, and what the calls it made gave back, are the costs of its steps and,
    for a successful creation, what storing the code costs. *)
Theorem C138_adds_up :
  forall cfg w f s i n,
  env_ok cfg w f -> gas_flows f -> ti_run (ti_new cfg) (tx_events w f) = Ok s ->
  record_steps cfg = true -> record_opcodes_filter cfg = None ->
  ti_traces s !! i = Some n -> i <> 0 -> tr_steps (nd_trace n) <> [] ->
  (tr_gas_used (nd_trace n) + sum (map node_gave_back (calls_of (ti_traces s) i)) =
   sum (map st_gas_cost (tr_steps (nd_trace n))) + node_deposit n)%N.
Proof.
  intros cfg w f s i n Henv Hg Hrun Hrec Hflt Hn Hi Hne. destruct (entered_at _ _ _ _ Henv Hrun _ _ Hn) as (par & d & g & He).
  rewrite <- (gas_total _ _ _ _ Henv Hrun Hg Hrec Hflt _ _ _ _ _ He Hn Hne).
  destruct (tx_end _ _ _ _ Henv Hrun _ _ _ _ _ He Hn) as (_ & _ & _ & Hu & _). by rewrite (Hu Hi).
Qed.
Print Assumptions C138_adds_up.

(** The same of the transaction, before the refund. *)
Theorem C138_transaction :
  forall cfg w f s n,
  env_ok cfg w f -> gas_flows f -> ti_run (ti_new cfg) (tx_events w f) = Ok s ->
  record_steps cfg = true -> record_opcodes_filter cfg = None ->
  ti_traces s !! 0 = Some n -> tr_steps (nd_trace n) <> [] -> (0 <= g_refunded (end_gas f) < 2 ^ 64)%Z ->
  exists spent, tr_gas_used (nd_trace n) = spec_root_gas (w_spec w) spent (Z.to_N (g_refunded (end_gas f))) /\
    (spent + sum (map node_gave_back (calls_of (ti_traces s) 0)) = sum (map st_gas_cost (tr_steps (nd_trace n))) + node_deposit n)%N.
Proof.
  intros cfg w f s n Henv Hg Hrun Hrec Hflt Hn Hne Href.
  assert (He : entered None 0 0 f !! 0 = Some (None, 0, f)) by (destruct f; by rewrite entered_eq).
  destruct (tx_end _ _ _ _ Henv Hrun _ _ _ _ _ He Hn) as (_ & _ & _ & _ & Hu). eexists.
  split; [|exact (gas_total _ _ _ _ Henv Hrun Hg Hrec Hflt _ _ _ _ _ He Hn Hne)]. rewrite (Hu eq_refl).
  by rewrite gas_used_spec, i64_as_u64_nonneg.
Qed.
Print Assumptions C138_transaction.

(** From one step of a call to the next its gas falls by the cost of the step; after a call instruction it also rises by
    what the call gave back: the call made by the [k]-th call instruction is the [k]-th call made. *)
Theorem C138_steps :
  forall cfg w f s i n k st st',
  env_ok cfg w f -> gas_flows f -> evm_calls f -> ti_run (ti_new cfg) (tx_events w f) = Ok s ->
  record_steps cfg = true -> record_opcodes_filter cfg = None -> ti_traces s !! i = Some n ->
  tr_steps (nd_trace n) !! k = Some st -> tr_steps (nd_trace n) !! S k = Some st' ->
  let calls_before := length (List.filter st_is_calllike (take k (tr_steps (nd_trace n)))) in
  (st_gas_remaining st' + st_gas_cost st = st_gas_remaining st +
     if st_is_calllike st then default 0 (node_gave_back <$> calls_of (ti_traces s) i !! calls_before) else 0)%N.
Proof.
  intros cfg w f s i n k st st' Henv Hg Hc Hrun Hrec Hflt Hn Hk Hk'. destruct (entered_at _ _ _ _ Henv Hrun _ _ Hn) as (par & d & g & He).
  exact (gas_next _ _ _ _ Henv Hrun Hg Hrec Hflt _ _ _ _ _ _ _ _ He Hn (every_entered _ _ Hc _ _ _ _ _ _ _ He) Hk Hk').
Qed.
Print Assumptions C138_steps.

Example C138_example :
  env_ok cfg_default_geth ex_world gx_tx /\ gas_flows gx_tx /\ evm_calls gx_tx /\
  exists s, ti_run (ti_new cfg_default_geth) (tx_events ex_world gx_tx) = Ok s /\
    map (fun n => tr_gas_used (nd_trace n)) (ti_traces s) = [3916; 210; 10]%N /\
    map node_gave_back (calls_of (ti_traces s) 0) = [1790; 0]%N /\ map gas_lost [gx_create; gx_failed] = [210; 1000]%N.
Proof.
  split; [apply gx_env|]. split; [apply gx_flows|]. split; [apply gx_calls|]. eexists. split_and!; vm_compute; reflexivity.
Qed.
