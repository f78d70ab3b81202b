(** * SpecTxText: the written trace of a whole transaction as a function of its execution

    No nodes, no arena: only the frames of the execution and the text. *)

From Verif Require Export SpecTx SpecWriter.
Local Open Scope N_scope.

(** How deeply the calls of an execution are nested (1 if there are no sub-calls). *)
Fixpoint nesting (f : frame) : nat :=
  match f with
  | Frame _ body _ =>
      S ((fix go (l : list item) : nat :=
            match l with
            | [] => O
            | ISub g :: r => Nat.max (nesting g) (go r)
            | _ :: r => go r
            end) body)
  end.

Section Written.
  Context (to_checksum : address -> list byte) (colors cheatcodes : bool) (cfg : TracingInspectorConfig) (w : world).

  (** Blue for the cheatcode address (if wanted), else green for success and red for failure. *)
  Definition call_color (g : frame) : N :=
    if cheatcodes && (spec_address g =? 0x7109709ECfa91a80626fF3989D68f67F5b1DD12D) then 34
    else if spec_success (status (f_end g)) then 32 else 31.
  Definition kind_note (k : CallKind) : list byte :=
    match k with
    | KStaticCall => spec_color colors 33 (txt " [staticcall]") | KCallCode => spec_color colors 33 (txt " [callcode]")
    | KDelegateCall => spec_color colors 33 (txt " [delegatecall]") | KAuthCall => spec_color colors 33 (txt " [authcall]")
    | _ => []
    end.

  (** The first line of a call: the gas it used, then the created contract, or the callee, the selector, the value (if
      any) and the rest of the input. [v] is the value of the call. *)
  Definition first_line (root : bool) (v : U256) (g : frame) : list byte :=
    let input := spec_input (f_start g) in
    txt "[" ++ dec_text (frame_gas_used w root (f_end g)) ++ txt "] " ++
    if is_call (f_start g)
    then spec_color colors (call_color g) (to_checksum (spec_address g)) ++ txt "::" ++
         spec_color colors (call_color g) (if (length input <? 4)%nat then txt "fallback" else spec_hex (take 4 input)) ++
         (if v =? 0 then [] else txt "{value: " ++ dec_text v ++ txt "}") ++
         txt "(" ++ spec_hex (if (length input <? 4)%nat then input else drop 4 input) ++ txt ")" ++
         kind_note (spec_kind (f_start g))
    else spec_color colors 33 (txt "→ new") ++ txt " <unknown>@" ++ to_checksum (spec_address g).
  (** The last line of a call: how it ended, and its output or the size of the deployed code. *)
  Definition last_line (g : frame) : list byte :=
    let out := ir_output (fe_result (f_end g)) in
    spec_color colors (call_color g) (txt "← [" ++ txt (ir_debug (status (f_end g))) ++ txt "] ") ++
    if is_call (f_start g)
    then match out with [] => [] | _ => txt "0x" ++ spec_hex out end
    else dec_text (N.of_nat (length out)) ++ txt " bytes of code".
  (** A log: a line per topic and one for the data. *)
  Definition log_lines (k : N) (l : Log) : list byte :=
    spec_branch k ++ concat (imap (spec_topic colors k) (lg_topics l)) ++
    (if bool_decide (lg_topics l = []) then [] else spec_indent k ++ txt "  │ ") ++
    txt "          data: " ++ spec_color colors 36 (txt "0x" ++ spec_hex (lg_data l)) ++ [x0a].
  Definition hook_lines (k : N) (hs : list hook) : list byte :=
    if record_logs cfg then concat (map (log_lines k) (logs_of hs)) else [].

  (** The text of call [g] at level [k]: its first line; its logs (if they are recorded) and its sub-calls (but those the
      user asked to leave out) in the order they happened, one level deeper; its last line. *)
  Fixpoint call_text (root : bool) (v : U256) (k : N) (g : frame) : list byte :=
    match g with
    | Frame s body e =>
        spec_branch k ++ first_line root v g ++ [x0a] ++
        (fix go (l : list item) : list byte :=
           match l with
           | [] => []
           | IOp o :: r => hook_lines (k + 1) (op_hooks o) ++ go r
           | IHook h :: r => hook_lines (k + 1) [h] ++ go r
           | ISub h :: r =>
               if hidden_call cfg w v (f_start h) then go r
               else call_text false (call_value v (f_start h)) (k + 1) h ++ go r
           end) body ++
        spec_indent (k + 1) ++ txt "  └─ " ++ last_line g ++ [x0a]
    end.
  (** The text of a transaction, written from level [k]. *)
  Definition tx_text (k : N) (f : frame) : list byte := call_text true (spec_value (f_start f)) k f.
End Written.
