(** * SpecChanges: the two reports of state changes compared

    [populate_state_diff] gives the parity state diff, [geth_prestate_traces] in diff mode the geth one: a [pre] and a
    [post] map. Here: what it means that they say the same. *)

From Verif Require Export SpecPrestate.
Local Open Scope N_scope.

(** The state map of an executed transaction, with the database it ran on. Accounts and slots are listed once, the
    database answers, the code of every account is loaded, the code of existing accounts does not change, and accounts are
    only created where there is neither code nor a nonce, with a nonce. *)
Record executed (db : Db) (state : list (address * Account)) : Prop := {
  ex_accounts : NoDup (map fst state);
  ex_slots : forall a acc, In (a, acc) state -> NoDup (map fst (ac_storage acc));
  ex_database : forall a acc, In (a, acc) state -> db_basic db a <> None;
  ex_existing : forall a acc o c, In (a, acc) state -> ac_created acc = false -> db_basic db a = Some o ->
    has_code db (db_value o) c -> ai_code_hash (ac_info acc) = ai_code_hash (db_value o) /\ attached acc = nonempty c;
  ex_created : forall a acc o, In (a, acc) state -> ac_created acc = true -> db_basic db a = Some o ->
    has_code db (db_value o) [] /\ ai_nonce (db_value o) = 0 /\ ai_nonce (ac_info acc) <> 0 /\
    ai_code (ac_info acc) <> None }.

(** One slot: the parity entry and the values in [pre] and [post], which leave out zeros. *)
Definition slot_agrees (d : option (Delta U256)) (pre post : option U256) : Prop :=
  match d with
  | None | Some DUnchanged => pre = None /\ post = None
  | Some (DChanged f t) => f <> t /\ pre = nonzero f /\ post = nonzero t
  | Some (DAdded t) => pre = None /\ post = nonzero t
  | Some (DRemoved f) => pre = nonzero f /\ post = None
  end.
Definition slots_agree (m : gmap U256 (Delta U256)) (pre post : gmap U256 U256) : Prop :=
  forall k, slot_agrees (m !! k) (pre !! k) (post !! k).

(** An account that existed and still exists. *)
Record kept (d : AccountDiff) (pre post : AccountState) : Prop := {
  kp_balance : forall f t, df_balance d = DChanged f t <-> as_balance pre = Some f /\ as_balance post = Some t;
  kp_same_balance : df_balance d = DUnchanged <-> as_balance post = None;
  kp_nonce : forall f t, df_nonce d = DChanged f t -> as_nonce pre = nonzero f /\ as_nonce post = nonzero t;
  kp_same_nonce : df_nonce d = DUnchanged -> as_nonce post = None;
  kp_nonce_kinds : df_nonce d = DUnchanged \/ exists f t, df_nonce d = DChanged f t;
  kp_code : df_code d = DUnchanged /\ as_code post = None;
  kp_storage : slots_agree (df_storage d) (as_storage pre) (as_storage post) }.

(** A new account: everything is added. A balance the address already had is not repeated in [post]. *)
Record created (old : U256) (d : AccountDiff) (post : AccountState) : Prop := {
  cr_balance : exists b, df_balance d = DAdded b /\ as_balance post = (if b =? old then None else Some b);
  cr_nonce : exists n, df_nonce d = DAdded n /\ as_nonce post = Some n;
  cr_code : exists c, df_code d = DAdded c /\ as_code post = nonempty c;
  cr_storage : slots_agree (df_storage d) ∅ (as_storage post) }.

(** A destroyed account: only [pre] has it; parity shows the changes up to its end. *)
Record destroyed (d : AccountDiff) (pre : AccountState) : Prop := {
  ds_balance : forall f t, df_balance d = DChanged f t -> as_balance pre = Some f;
  ds_nonce : forall f t, df_nonce d = DChanged f t -> as_nonce pre = nonzero f;
  ds_storage : forall k f t, df_storage d !! k = Some (DChanged f t) -> as_storage pre !! k = nonzero f }.

(** The reports about one account of the state map; [old] is its balance before. *)
Definition reports_agree (old : U256) (acc : Account) (d : option AccountDiff) (pre post : option AccountState) : Prop :=
  match d with
  | None => pre = None /\ post = None
  | Some d =>
      if ac_created acc then pre = None /\ exists q, post = Some q /\ created old d q
      else if ac_selfdestructed acc then post = None /\ exists p, pre = Some p /\ destroyed d p
      else exists p q, pre = Some p /\ post = Some q /\ kept d p q
  end.

(** A destroyed account that is otherwise as it was: same balance, nonce and slots. *)
Definition empty_handed (old : AccountInfo) (acc : Account) : Prop :=
  ac_created acc = false /\ ac_selfdestructed acc = true /\
  ai_balance old = ai_balance (ac_info acc) /\ ai_nonce old = ai_nonce (ac_info acc) /\ same_slots acc.
