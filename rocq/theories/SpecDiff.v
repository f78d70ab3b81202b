(** * SpecDiff: what a parity state diff should contain *)

From Verif Require Export StateDiff.
Local Open Scope N_scope.

(** The value the database holds for an address; an absent account counts as the empty account. *)
Definition db_value (o : option AccountInfo) : AccountInfo :=
  match o with Some i => i | None => mkInfo 0 0 KECCAK_EMPTY (Some []) end.

(** [m] holds exactly the changed slots, each described by [f original present]. *)
Definition changed_slots (f : U256 -> U256 -> Delta U256) (storage : list (U256 * Slot)) (m : gmap U256 (Delta U256)) : Prop :=
  forall k d, m !! k = Some d <->
    exists s, In (k, s) storage /\ sl_original s <> sl_present s /\ d = f (sl_original s) (sl_present s).

(** A value before and after. *)
Definition change {A} (from to : A) (d : Delta A) : Prop :=
  (from = to /\ d = DUnchanged) \/ (from <> to /\ d = DChanged from to).

(** The account existed (or is untouched-empty) in [old] and differs from it in [acc]. *)
Definition modified (old : AccountInfo) (acc : Account) : Prop :=
  ac_selfdestructed acc = true \/
  (exists k s, In (k, s) (ac_storage acc) /\ sl_original s <> sl_present s) \/
  ai_balance old <> ai_balance (ac_info acc) \/ ai_nonce old <> ai_nonce (ac_info acc) \/
  ai_code_hash old <> ai_code_hash (ac_info acc).

(** The code of an account: attached to it, or found in the database by its hash; nothing if there is none or the
    database fails. *)
Inductive has_code (db : Db) (i : AccountInfo) : bytes -> Prop :=
  | code_attached c : ai_code i = Some c -> has_code db i c
  | code_empty : ai_code i = None -> ai_code_hash i = KECCAK_EMPTY -> has_code db i []
  | code_stored c : ai_code i = None -> ai_code_hash i <> KECCAK_EMPTY -> db_code_by_hash db (ai_code_hash i) = Some c -> has_code db i c
  | code_missing : ai_code i = None -> ai_code_hash i <> KECCAK_EMPTY -> db_code_by_hash db (ai_code_hash i) = None -> has_code db i [].

(** What the diff says about one account of the state map. *)
Inductive account_diff (db : Db) (a : address) (acc : Account) : option AccountDiff -> Prop :=
  | ad_ephemeral :
      ac_created acc = true -> ac_selfdestructed acc = true -> account_diff db a acc None
  | ad_created d code :
      ac_created acc = true -> ac_selfdestructed acc = false -> has_code db (ac_info acc) code ->
      df_balance d = DAdded (ai_balance (ac_info acc)) -> df_nonce d = DAdded (ai_nonce (ac_info acc)) ->
      df_code d = DAdded code -> changed_slots (fun _ present => DAdded present) (ac_storage acc) (df_storage d) ->
      account_diff db a acc (Some d)
  | ad_untouched o :
      ac_created acc = false -> db_basic db a = Some o -> ~ modified (db_value o) acc -> account_diff db a acc None
  | ad_modified o d :
      ac_created acc = false -> db_basic db a = Some o -> modified (db_value o) acc ->
      change (ai_balance (db_value o)) (ai_balance (ac_info acc)) (df_balance d) ->
      change (ai_nonce (db_value o)) (ai_nonce (ac_info acc)) (df_nonce d) ->
      df_code d = DUnchanged ->
      changed_slots DChanged (ac_storage acc) (df_storage d) ->
      account_diff db a acc (Some d).
