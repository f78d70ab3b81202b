(** * Db: accounts and the database interface of revm that the builders read, and utils.rs *)

From Verif Require Export Types.
Local Open Scope N_scope.

(** revm [KECCAK_EMPTY] *)
Definition KECCAK_EMPTY : U256 := 0xc5d2460186f7233c927e7db2dcc703c0e500b653ca82273b7bfad8045d85a470.

(** revm [AccountInfo]. [ai_code] holds the [original_bytes()] of the attached bytecode, the only view the code takes. *)
Record AccountInfo := mkInfo { ai_balance : U256; ai_nonce : u64; ai_code_hash : U256; ai_code : option bytes }.
(** revm [AccountInfo::default] *)
Definition info_default : AccountInfo := mkInfo 0 0 KECCAK_EMPTY (Some []).
(** revm [PartialEq for AccountInfo]: the code itself is not compared *)
Definition info_eqb (a b : AccountInfo) : bool :=
  (a.(ai_balance) =? b.(ai_balance)) && (a.(ai_nonce) =? b.(ai_nonce)) && (a.(ai_code_hash) =? b.(ai_code_hash)).

(** revm [EvmStorageSlot] *)
Record Slot := mkSlot { sl_original : U256; sl_present : U256 }.
(** revm [EvmStorageSlot::is_changed] *)
Definition sl_is_changed (s : Slot) : bool := negb (s.(sl_original) =? s.(sl_present)).

(** revm [Account]; the storage [HashMap] is the list of its entries in iteration order, which the theorems leave
    arbitrary (keys are distinct). *)
Record Account := mkAccount {
  ac_info : AccountInfo; ac_storage : list (U256 * Slot); ac_created : bool; ac_selfdestructed : bool }.

(** revm [DatabaseRef]: [None] is an error of the database. *)
Record Db := mkDb { db_basic : address -> option (option AccountInfo); db_code_by_hash : U256 -> option bytes }.

(** utils.rs:38-56 [load_account_code] *)
Definition load_account_code (db : Db) (acc : AccountInfo) : option bytes :=
  match acc.(ai_code) with
  | Some code => Some code
  | None => if acc.(ai_code_hash) =? KECCAK_EMPTY then None else db.(db_code_by_hash) acc.(ai_code_hash)
  end.
