(** * SpecCover: the accounts the reports of a transaction mention *)

From Verif Require Export SpecTx SpecPrestate.

(** The accounts named by an entry of the parity traces. *)
Definition mentioned (t : TransactionTrace) : list address :=
  match tt_action t with
  | ActCall from to _ _ _ _ => [from; to]
  | ActCreate from _ _ _ => [from]
  | ActSelfdestruct a refund _ => [a; refund]
  end ++ match tt_result t with Some (OutCreate _ _ a) => [a] | _ => [] end.

(** The accounts named by a geth call tree, as caller, called or created account or in a log. A create that failed names an
    account only if it was reverted. *)
Fixpoint tree_mentioned (c : CallFrame) : list address :=
  match c with
  | mkCF i calls =>
      if String.eqb (fi_typ i) "SELFDESTRUCT" then []
      else fi_from i ::
           (if existsb (String.eqb (fi_typ i)) ["CREATE"; "CREATE2"]%string
               && match fi_error i with Some e => negb (String.eqb e "Reverted") | None => false end
            then [] else match fi_to i with Some a => [a] | None => [] end)
           ++ flat_map (fun l => match lf_address l with Some a => [a] | None => [] end) (fi_logs i)
           ++ (fix go (l : list CallFrame) : list address := match l with [] => [] | x :: l => tree_mentioned x ++ go l end) calls
  end.

(** EVM facts: the state map has the accounts that make calls, those whose code is called or that execute it, those named by
    SELFDESTRUCTs, and the created ones (a create that is refused, as without funds, loads no account; it fails with
    something else than a revert). *)
Definition loaded (state : list (address * Account)) (f : frame) : Prop :=
  let known a := In a (map fst state) in
  every_frame (fun g =>
    known (spec_caller (f_start g)) /\
    (is_call (f_start g) = true \/ spec_success (status (f_end g)) = true \/ status (f_end g) = Revert \/
     logs_of (hooks (f_body g)) <> [] ->
     known (executing_account (f_start g)) /\ known (code_address (f_start g))) /\
    Forall (fun x => known (fst (fst x)) /\ known (snd (fst x))) (selfdestructs_of (hooks (f_body g)))) f.
