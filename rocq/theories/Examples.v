(** * Examples: a concrete execution used to show that theorem hypotheses can be met *)

From Verif Require Export MemoryProofs.

Definition ex_world : world := mkWorld CANCUN 1000000%N (fun a => (a =? 1)%N || (a =? 2)%N).

(** Journal views: one open checkpoint, no storage entry / an SSTORE entry for (0xD0.. via 0xC0). *)
Definition ex_j0 : jview := mkJ [[JOther]] (fun _ _ => None).
Definition ex_j1 : jview := mkJ [[JOther; JStorageChanged 0xC0 1 0]%N] (fun _ _ => Some 9%N).

Definition ex_gas (rem : N) : Gas := mkGas 100000%N rem 0%Z.
Definition ex_interp (op : N) (pc : nat) (stack : list N) (rem : N) (r : InstructionResult) : Interp :=
  mkInterp op pc 0xC0%N stack [x01; x02] [] (ex_gas rem) r.

Definition ex_op (op : N) (pc : nat) (before after : list N) (rem : N) (j : jview) (hs : list hook)
    (r : InstructionResult) : instr :=
  mkInstr (ex_interp op pc before rem Continue) ex_j0 hs (ex_interp op (S pc) after (rem - 3)%N r) j.

Definition ex_end (r : InstructionResult) (a : option address) : fend :=
  mkEnd ex_j0 (mkIR r [x2a] (mkGas 100000%N 60000%N 4800%Z)) a.

Definition ex_log : Log := mkLog 0xC0%N [7; 8]%N [x01; x02; x03].

(** A delegate call that writes storage. *)
Definition ex_delegate : frame :=
  Frame (SCall ex_j0 (mkCallInputs [x01; x02; x03; x04; x05] 50000 0xD0 0xC0 0xAA (Apparent 7) CSDelegateCall false)%N)
    [ IOp (ex_op OP_PUSH1 0 [] [1]%N 900%N ex_j0 [] Continue);
      IOp (ex_op OP_SSTORE 2 [9; 1]%N [] 800%N ex_j1 [] Continue);
      IOp (ex_op OP_STOP 3 [] [] 700%N ex_j0 [] Stop) ]
    (ex_end Return None).

(** A zero-value call to a precompile, and one that carries value. *)
Definition ex_precompile : frame :=
  Frame (SCall ex_j0 (mkCallInputs [x00] 3000 1 1 0xC0 (Transfer 0) CSStaticCall true)%N) [] (ex_end Return None).
Definition ex_paid_precompile : frame :=
  Frame (SCall ex_j0 (mkCallInputs [x00] 3000 1 1 0xC0 (Transfer 3) CSCall false)%N) [] (ex_end Return None).

(** A create whose code selfdestructs. *)
Definition ex_create : frame :=
  Frame (SCreate ex_j0 (mkCreateInputs 0xC0 CrCreate 5 [xff] 40000 0xE0)%N)
    [ IOp (ex_op OP_SELFDESTRUCT 0 [0xBB]%N [] 500%N ex_j0 [HSelfdestruct 0xE0 0xBB 5]%N SelfDestruct) ]
    (ex_end SelfDestruct (Some 0xE0%N)).

(** A reverted call with a sub-call. *)
Definition ex_reverted : frame :=
  Frame (SCall ex_j0 (mkCallInputs [x0a; x0b; x0c; x0d] 30000 0xF0 0xF0 0xC0 (Transfer 0) CSCall false)%N)
    [ IOp (ex_op OP_CALL 0 [0; 0; 0; 0; 0; 0; 0]%N [] 400%N ex_j0 [] CallOrCreate);
      ISub ex_paid_precompile;
      IOp (ex_op OP_REVERT 1 [0; 0]%N [] 300%N ex_j0 [] Revert) ]
    (ex_end Revert None).

Definition ex_tx : frame :=
  Frame (SCall ex_j0 (mkCallInputs [xaa; xbb; xcc; xdd] 90000 0xC0 0xC0 0xAA (Transfer 7) CSCall false)%N)
    [ IOp (ex_op OP_PUSH1 0 [] [5]%N 10000%N ex_j0 [] Continue);
      IOp (ex_op OP_LOG0 2 [5; 5]%N [] 9000%N ex_j0 [HLog ex_j0 ex_log] Continue);
      IOp (ex_op OP_DELEGATECALL 3 [0; 0; 0; 0; 0; 0]%N [] 8000%N ex_j0 [] CallOrCreate);
      ISub ex_delegate;
      IOp (ex_op OP_STATICCALL 4 [0; 0; 0; 0; 0; 0]%N [] 7000%N ex_j0 [] CallOrCreate);
      ISub ex_precompile;
      IOp (ex_op OP_CREATE 5 [0; 0; 0]%N [] 6000%N ex_j0 [] CallOrCreate);
      ISub ex_create;
      IOp (ex_op OP_CALL 6 [0; 0; 0; 0; 0; 0; 0]%N [] 5000%N ex_j0 [] CallOrCreate);
      ISub ex_reverted;
      IOp (ex_op OP_STOP 7 [] [] 4000%N ex_j0 [] Stop) ]
    (ex_end Stop None).

(** A configuration that records everything the crate can record in one go. *)
Definition ex_cfg : TracingInspectorConfig := mkConfig true true SnapPushes true true None true true.
Definition ex_cfg_full : TracingInspectorConfig := mkConfig true true SnapFull true true None false true.

(** A decision procedure for the hypotheses (any configuration). *)
Definition safeb (o : instr) : bool :=
  (stack_push_count (in_op (op_pre o)) <=? length (in_stack (op_post o))) &&
  match last (j_journal (op_post_j o)) with
  | None => false
  | Some jn =>
      match last jn with
      | Some (JStorageChanged a k _) => match j_present (op_post_j o) a k with Some _ => true | None => false end
      | _ => true
      end
  end.

Lemma safeb_ok cfg o : safeb o = true -> snapshot_safe cfg o.
Proof.
  unfold safeb. intros H _ _. apply andb_true_iff in H as [H1 H2]. split.
  - intros _. by apply Nat.leb_le.
  - intros _. destruct (last (j_journal (op_post_j o))) as [jn|]; [|done]. exists jn. split; [done|].
    intros a k h _ Hl. rewrite Hl in H2. destruct (j_present (op_post_j o) a k); done.
Qed.

Fixpoint everyb (P : frame -> bool) (f : frame) : bool :=
  P f && match f with
         | Frame _ body _ =>
             (fix go (l : list item) : bool :=
                match l with [] => true | ISub g :: r => everyb P g && go r | _ :: r => go r end) body
         end.

Lemma everyb_ok (P : frame -> bool) (Q : frame -> Prop) :
  (forall g, P g = true -> Q g) -> forall f, everyb P f = true -> every_frame Q f.
Proof.
  intros HPQ f. induction f as [s body e IH] using frame_ind'. cbn [everyb]. intros H.
  apply andb_true_iff in H as [H1 H2]. constructor; [by apply HPQ|]. clear H1.
  induction body as [|[o|h|g] r IHr]; cbn in *; [constructor|by apply IHr|by apply IHr|].
  inversion_clear IH as [|? ? Hg Hr]. apply andb_true_iff in H2 as [H2 H3].
  constructor; [by apply Hg|by apply IHr].
Qed.

Definition leafb (w : world) (g : frame) : bool :=
  negb (is_call (f_start g) && w_precompiles w (code_address (f_start g))) ||
  match subs (f_body g) with [] => true | _ => false end.

Definition env_okb (w : world) (f : frame) : bool :=
  everyb (leafb w) f && everyb (fun g => forallb safeb (instrs (f_body g))) f.

Lemma env_okb_ok cfg w f : env_okb w f = true -> env_ok cfg w f.
Proof.
  unfold env_okb. intros H. apply andb_true_iff in H as [H1 H2]. split.
  - intros _. eapply everyb_ok; [|exact H1]. intros g Hg Hc Hp. unfold leafb in Hg. rewrite Hc, Hp in Hg.
    cbn in Hg. by destruct (subs (f_body g)).
  - eapply everyb_ok; [|exact H2]. intros g Hg. apply Forall_forall. intros o Ho.
    rewrite forallb_forall in Hg. apply safeb_ok, Hg. by apply elem_of_list_In.
Qed.

Lemma ex_env cfg : env_ok cfg ex_world ex_tx.
Proof. apply env_okb_ok. vm_compute. reflexivity. Qed.

Definition ex_state (cfg : TracingInspectorConfig) : res TracingInspector :=
  ti_run (ti_new cfg) (tx_events ex_world ex_tx).
