(** * SpecLedger: the balances of the accounts, and reading their changes off the reports *)

From Verif Require Export SpecParties SpecCalls SpecSimple SpecDiff.
Local Open Scope Z_scope.

(** ** What an execution does to the balances *)

Notation ledger := (address -> Z) (only parsing).

(** [v] for the account [a] if it is the account [b]. *)
Definition share (a b : address) (v : U256) : Z := if (a =? b)%N then Z.of_N v else 0.

(** [v] goes from one account to another. *)
Definition pay (from to : address) (v : U256) (b : ledger) : ledger := fun a => b a - share a from v + share a to v.
(** A SELFDESTRUCT that the EVM announces: the contract's [v] goes to the target; it is lost if that is the contract. *)
Definition destroy (contract target : address) (v : U256) (b : ledger) : ledger :=
  fun a => b a - share a contract v + (if (contract =? target)%N then 0 else share a target v).
Definition hook_balances (h : hook) (b : ledger) : ledger :=
  match h with HSelfdestruct c t v => destroy c t v b | HLog _ _ => b end.
(** What a frame moves when it is entered. *)
Definition start_balances (s : fstart) (b : ledger) : ledger :=
  match s with
  | SCall _ i => match ci_value i with Transfer v => pay (ci_caller i) (ci_target_address i) v b | Apparent _ => b end
  | SCreate _ i => pay (cr_caller i) (cr_created_address i) (cr_value i) b
  end.

(** The balances after a frame; a frame that fails leaves them as they were. *)
Fixpoint balances_after (f : frame) (b : ledger) : ledger :=
  match f with
  | Frame s body e =>
      if frame_ok_result e then
        (fix go (l : list item) (b : ledger) : ledger :=
           match l with
           | [] => b
           | IOp o :: r => go r (fold_left (fun b h => hook_balances h b) (op_hooks o) b)
           | IHook h :: r => go r (hook_balances h b)
           | ISub g :: r => go r (balances_after g b)
           end) body (start_balances s b)
      else b
  end.

(** EVM facts: a create that succeeds returns the account it made; a frame runs SELFDESTRUCT at most once, which ends it;
    a precompile does not run it. *)
Definition evm_value (w : world) (f : frame) : Prop :=
  every_frame (fun g =>
    (is_call (f_start g) = false -> frame_ok_result (f_end g) = true ->
     fe_address (f_end g) = Some (executing_account (f_start g))) /\
    (length (selfdestructs_of (hooks (f_body g))) <= 1)%nat /\
    (is_call (f_start g) = true -> w_precompiles w (code_address (f_start g)) = true ->
     selfdestructs_of (hooks (f_body g)) = [])) f.

(** ** Reading the reports *)

Definition zsum (l : list Z) : Z := foldr Z.add 0 l.

(** What a listed transfer does to the account [a]. *)
Definition transferred (a : address) (m : movement) : Z :=
  match m with
  | (BySelfdestruct, c, t, v) => (if (c =? t)%N then 0 else share a t v) - share a c v
  | (_, from, to, v) => share a to v - share a from v
  end.

(** What a parity trace does to the account [a], if it is in effect. *)
Definition entry_paid (a : address) (t : TransactionTrace) : Z :=
  match tt_action t with
  | ActCall from to v _ _ CTCall => share a to v - share a from v
  | ActCall _ _ _ _ _ _ => 0
  | ActCreate from v _ _ => match tt_result t with Some (OutCreate _ _ to) => share a to v - share a from v | _ => 0 end
  | ActSelfdestruct c target v => (if (c =? target)%N then 0 else share a target v) - share a c v
  end.
(** An entry is in effect unless it, or an entry whose trace address its own begins with, has an error. *)
Definition in_effect (l : list TransactionTrace) (t : TransactionTrace) : bool :=
  forallb (fun x => match tt_error x with
                    | Some _ => negb (bool_decide (tt_address x `prefix_of` tt_address t))
                    | None => true
                    end) l.
Definition balance_change (l : list TransactionTrace) (a : address) : Z :=
  zsum (map (fun t => if in_effect l t then entry_paid a t else 0) l).

(** What a state diff says about the balance of an account that existed before. *)
Definition diff_change (o : option AccountDiff) : Z :=
  match o with
  | Some d => match df_balance d with DChanged from to => Z.of_N to - Z.of_N from | _ => 0 end
  | None => 0
  end.

(** What a frame of the geth call tree does to the account [a] by itself. *)
Definition frame_paid (a : address) (i : FrameInfo) : Z :=
  match fi_to i, fi_value i with
  | Some to, Some v =>
      if existsb (String.eqb (fi_typ i)) ["CALL"; "CREATE"; "CREATE2"]%string then share a to v - share a (fi_from i) v
      else if String.eqb (fi_typ i) "SELFDESTRUCT"
      then (if (fi_from i =? to)%N then 0 else share a to v) - share a (fi_from i) v
      else 0
  | _, _ => 0
  end.
(** With the frames inside it, unless it failed. *)
Fixpoint tree_paid (a : address) (c : CallFrame) : Z :=
  match c with
  | mkCF i calls =>
      match fi_error i with
      | Some _ => 0
      | None =>
          frame_paid a i
          + (fix go (l : list CallFrame) : Z := match l with [] => 0 | x :: l => tree_paid a x + go l end) calls
      end
  end.
