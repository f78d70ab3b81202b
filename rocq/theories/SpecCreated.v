(** * SpecCreated: the contracts a transaction creates and destroys, and reading them off the parity traces *)

From Verif Require Export SpecLedger.

(** The accounts an execution creates, each with the code it is given: those of the creates that succeed, unless a frame
    around them fails. *)
Fixpoint created_by (f : frame) : list (address * bytes) :=
  match f with
  | Frame s body e =>
      if frame_ok_result e then
        (match s with SCreate _ i => [(cr_created_address i, ir_output (fe_result e))] | SCall _ _ => [] end)
        ++ flat_map (fun it => match it with ISub g => created_by g | _ => [] end) body
      else []
  end.
(** The announced SELFDESTRUCTs that stay in effect: contract, target and amount. *)
Fixpoint destroyed_by (f : frame) : list (address * address * U256) :=
  match f with
  | Frame s body e =>
      if frame_ok_result e then
        selfdestructs_of (hooks body) ++ flat_map (fun it => match it with ISub g => destroyed_by g | _ => [] end) body
      else []
  end.

(** The same, read off the traces. *)
Definition created_entry (t : TransactionTrace) : list (address * bytes) :=
  match tt_action t, tt_result t with ActCreate _ _ _ _, Some (OutCreate _ code a) => [(a, code)] | _, _ => [] end.
Definition destroyed_entry (t : TransactionTrace) : list (address * address * U256) :=
  match tt_action t with ActSelfdestruct c target v => [(c, target, v)] | _ => [] end.
Definition created_in (l : list TransactionTrace) : list (address * bytes) :=
  flat_map created_entry (List.filter (in_effect l) l).
Definition destroyed_in (l : list TransactionTrace) : list (address * address * U256) :=
  flat_map destroyed_entry (List.filter (in_effect l) l).

(** The state map marks the accounts the execution created, which have the code they were given, and of these the ones
    that were destroyed. *)
Definition marked (db : Db) (state : list (address * Account)) (f : frame) : Prop :=
  forall a acc, In (a, acc) state ->
    (ac_created acc = true <-> In a (map fst (created_by f))) /\
    (forall code, In (a, code) (created_by f) -> has_code db (ac_info acc) code) /\
    (ac_created acc = true -> (ac_selfdestructed acc = true <-> In a (map (fun x => fst (fst x)) (destroyed_by f)))).

(** Reading the creates off the geth call tree: a frame that failed is skipped with all below it. *)
Fixpoint tree_created (c : CallFrame) : list (address * bytes) :=
  match c with
  | mkCF i calls =>
      if String.eqb (fi_typ i) "SELFDESTRUCT" then []
      else match fi_error i with
           | Some _ => []
           | None =>
               (if existsb (String.eqb (fi_typ i)) ["CREATE"; "CREATE2"]%string
                then match fi_to i with Some a => [(a, default [] (fi_output i))] | None => [] end else [])
               ++ (fix go (l : list CallFrame) : list (address * bytes) :=
                     match l with [] => [] | x :: l => tree_created x ++ go l end) calls
           end
  end.
