(** * Prestate: /repo/src/tracing/builder/geth.rs, the prestate tracer *)

From Verif Require Export Config Db.
Local Open Scope N_scope.

(** alloy [AccountState]; slots and values are 32-byte words, kept as numbers *)
Record AccountState := mkAS {
  as_balance : option U256; as_code : option bytes; as_nonce : option u64; as_storage : gmap U256 U256 }.
Global Instance AccountState_eq_dec : EqDecision AccountState.
Proof. solve_decision. Defined.

(** alloy [AccountState::from_account_info] *)
Definition from_account_info (nonce : u64) (balance : U256) (code : option bytes) : AccountState :=
  mkAS (Some balance) (match code with Some [] => None | c => c end) (if nonce =? 0 then None else Some nonce) ∅.

(** alloy [PreStateMode], [DiffMode], [PreStateFrame]; [BTreeMap]s *)
Notation PreStateMode := (gmap address AccountState).
Record DiffMode := mkDM { dm_post : gmap address AccountState; dm_pre : gmap address AccountState }.
Inductive PreStateFrame := PFDefault (m : PreStateMode) | PFDiff (d : DiffMode).

(** [acc_state.storage.insert(key, f(slot))] over some slots, geth.rs:219-221 and 245-249 *)
Definition insert_slots (f : Slot -> U256) (storage : list (U256 * Slot)) (st : AccountState) : AccountState :=
  mkAS st.(as_balance) st.(as_code) st.(as_nonce)
    (fold_left (fun m ks => <[fst ks := f (snd ks)]> m) storage st.(as_storage)).

(** geth.rs:212-224: one iteration of the default mode; [None] is an error of the database *)
Definition prestate_step (db : Db) (prestate : PreStateMode) (x : address * Account) : option PreStateMode :=
  let '(addr, changed_acc) := x in
  match db.(db_basic) addr with
  | None => None
  | Some o =>
      let db_acc := default info_default o in
      let code := load_account_code db db_acc in
      let acc_state := from_account_info db_acc.(ai_nonce) db_acc.(ai_balance) code in
      Some (<[addr := insert_slots sl_original changed_acc.(ac_storage) acc_state]> prestate)
  end.

(** alloy [AccountChangeKind]: whether the account was created / selfdestructed *)
Inductive AccountChangeKind := AKCreate | AKModify | AKSelfDestruct.
Notation ChangeKinds := (gmap address (AccountChangeKind * AccountChangeKind)).
Definition ak_is_created (k : AccountChangeKind) : bool := match k with AKCreate => true | _ => false end.
Definition ak_is_selfdestruct (k : AccountChangeKind) : bool := match k with AKSelfDestruct => true | _ => false end.

(** geth.rs:230-267: one iteration of the diff mode *)
Definition prediff_step (db : Db) (s : DiffMode * ChangeKinds) (x : address * Account) : option (DiffMode * ChangeKinds) :=
  let '(state_diff, account_change_kinds) := s in
  let '(addr, changed_acc) := x in
  match db.(db_basic) addr with
  | None => None
  | Some o =>
      let db_acc := default info_default o in
      let pre_code := load_account_code db db_acc in
      let pre_state := from_account_info db_acc.(ai_nonce) db_acc.(ai_balance) pre_code in
      let post_state := from_account_info changed_acc.(ac_info).(ai_nonce) changed_acc.(ac_info).(ai_balance)
                          changed_acc.(ac_info).(ai_code) in
      let changed := List.filter (fun ks => sl_is_changed (snd ks)) changed_acc.(ac_storage) in
      let pre_state := insert_slots sl_original changed pre_state in
      let post_state := insert_slots sl_present changed post_state in
      let pre_change := if changed_acc.(ac_created) then AKCreate else AKModify in
      let post_change := if changed_acc.(ac_selfdestructed) then AKSelfDestruct else AKModify in
      Some (mkDM (<[addr := post_state]> state_diff.(dm_post)) (<[addr := pre_state]> state_diff.(dm_pre)),
            <[addr := (pre_change, post_change)]> account_change_kinds)
  end.

(** [for .. in account_diffs { ..? }] *)
Fixpoint try_fold {S E} (step : S -> E -> option S) (s : S) (l : list E) : option S :=
  match l with
  | [] => Some s
  | x :: l => match step s x with Some s => try_fold step s l | None => None end
  end.

(** alloy [DiffMode::retain_changed]: removes the accounts with equal pre and post state from both *)
Definition retain_changed (d : DiffMode) : DiffMode :=
  let same a := bool_decide (is_Some (d.(dm_pre) !! a) /\ d.(dm_pre) !! a = d.(dm_post) !! a) in
  mkDM (filter (fun x => same (fst x) = false) d.(dm_post)) (filter (fun x => same (fst x) = false) d.(dm_pre)).

(** alloy [DiffMode::remove_zero_storage_values] *)
Definition remove_zeros (st : AccountState) : AccountState :=
  mkAS st.(as_balance) st.(as_code) st.(as_nonce) (filter (fun x => snd x <> 0) st.(as_storage)).
Definition remove_zero_storage_values (d : DiffMode) : DiffMode :=
  mkDM (remove_zeros <$> d.(dm_post)) (remove_zeros <$> d.(dm_pre)).

(** alloy [AccountState::remove_matching_account_info] *)
Definition remove_matching_account_info (st other : AccountState) : AccountState :=
  mkAS (if bool_decide (st.(as_balance) = other.(as_balance)) then None else st.(as_balance))
    (if bool_decide (st.(as_code) = other.(as_code)) then None else st.(as_code))
    (if bool_decide (st.(as_nonce) = other.(as_nonce)) then None else st.(as_nonce)) st.(as_storage).

(** geth.rs:279-303 [diff_traces] *)
Definition diff_traces (d : DiffMode) (change_type : ChangeKinds) : DiffMode :=
  let destroyed a := match change_type !! a with Some k => ak_is_selfdestruct (snd k) | None => false end in
  let created a := match change_type !! a with Some k => ak_is_created (fst k) | None => false end in
  mkDM (map_imap (fun a post_state =>
          if destroyed a then None
          else Some (match d.(dm_pre) !! a with
                     | Some pre_state => remove_matching_account_info post_state pre_state
                     | None => post_state
                     end)) d.(dm_post))
    (filter (fun x => created (fst x) = false) d.(dm_pre)).

(** geth.rs:201-275 [geth_prestate_traces]; [state] is the list of the state map's entries in iteration order *)
Definition geth_prestate_traces (state : list (address * Account)) (c : PreStateConfig) (db : Db) : option PreStateFrame :=
  if is_default_mode c then
    match try_fold (prestate_step db) ∅ state with Some m => Some (PFDefault m) | None => None end
  else
    match try_fold (prediff_step db) (mkDM ∅ ∅, ∅) state with
    | Some (d, kinds) => Some (PFDiff (diff_traces (remove_zero_storage_values (retain_changed d)) kinds))
    | None => None
    end.
