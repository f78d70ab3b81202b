(** * SpecReuse: a recording added to earlier ones *)

From Verif Require Export SpecTree Parity.

(** The nodes of the later recording other than its root move behind the [k] earlier nodes that are not the root. *)
Definition moved_idx (k i : nat) : nat := if i =? 0 then 0 else i + k.
Definition moved_node (k : nat) (n : CallTraceNode) : CallTraceNode :=
  mkNode (moved_idx k <$> nd_parent n) (moved_idx k <$> nd_children n) (moved_idx k (nd_idx n)) (nd_trace n) (nd_logs n)
    (nd_ordering n).

(** The calls and logs of the later root are counted after those of the earlier one; its steps are not. *)
Definition moved_member (calls logs : nat) (o : TraceMemberOrder) : TraceMemberOrder :=
  match o with OCall i => OCall (calls + i) | OLog i => OLog (logs + i) | OStep i => OStep i end.

(** There is one root. It has the trace, with the steps, of the later recording; the children, the logs and the
    ordering of both. The other nodes of both are kept. *)
Definition added (old new : list CallTraceNode) : list CallTraceNode :=
  match old, new with
  | r :: rs, n :: ns =>
      mkNode None (nd_children r ++ (moved_idx (length rs) <$> nd_children n)) 0 (nd_trace n) (nd_logs r ++ nd_logs n)
        (nd_ordering r ++ (moved_member (length (nd_children r)) (length (nd_logs r)) <$> nd_ordering n))
      :: rs ++ (moved_node (length rs) <$> ns)
  | _, _ => new
  end.

(** In a list of parity traces: the entries that describe the top-level call itself, i.e. its own entry and its
    self-destruct. *)
Definition about_root (e : TransactionTrace) : bool :=
  match tt_address e, tt_action e with
  | [], _ => true
  | [_], ActSelfdestruct _ _ _ => true
  | _, _ => false
  end.
(** The entry as it is when [k] other calls come first: the first component of an address is [k] higher, and the entry
    of the top-level call counts [k] more subtraces. *)
Definition after_calls (k : nat) (e : TransactionTrace) : TransactionTrace :=
  match tt_address e with
  | [] => mkTT (tt_action e) (tt_error e) (tt_result e) [] (k + tt_subtraces e)
  | i :: a => mkTT (tt_action e) (tt_error e) (tt_result e) (k + i :: a) (tt_subtraces e)
  end.
