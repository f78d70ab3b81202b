(** * SpecReplay: the two modes of the prestate tracer put together

    The prestate mode gives the accounts as they were before the transaction, the diff mode a [pre] and a [post] map. Here:
    how a reader applies the diff to the prestate, and what the result should be. *)

From Verif Require Export SpecChanges.
Local Open Scope N_scope.

(** A field of [post], if listed, replaces the one before. *)
Definition replaced {A} (before after : option A) : option A := match after with Some x => Some x | None => before end.

(** A slot of [post] replaces the one before; a slot that is only in [pre] was cleared. *)
Definition replayed_slots (before : gmap U256 U256) (pre post : gmap U256 U256) : gmap U256 U256 :=
  map_imap (fun k v => Some (match post !! k with
                             | Some v' => v'
                             | None => match pre !! k with Some _ => 0 | None => v end
                             end)) before.

(** The account after the transaction, from its state [st] before and its entries in the diff; [None]: it is gone. *)
Definition replay (st : AccountState) (pre post : option AccountState) : option AccountState :=
  match pre, post with
  | None, None => Some st
  | Some _, None => None
  | _, Some q =>
      Some (mkAS (replaced (as_balance st) (as_balance q)) (replaced (as_code st) (as_code q)) (replaced (as_nonce st) (as_nonce q))
                 (replayed_slots (as_storage st) (match pre with Some p => as_storage p | None => ∅ end) (as_storage q)))
  end.

(** The account as the transaction left it: its balance, nonce, code, and the values of the touched slots. *)
Record left_as (acc : Account) (st : AccountState) : Prop := {
  la_balance : as_balance st = Some (ai_balance (ac_info acc));
  la_nonce : as_nonce st = nonzero (ai_nonce (ac_info acc));
  la_code : as_code st = attached acc;
  la_storage : forall k v, as_storage st !! k = Some v <-> exists s, In (k, s) (ac_storage acc) /\ v = sl_present s }.

(** EVM facts: nonces do not go down, and the slots of a new account were zero. *)
Definition evm_accounts (db : Db) (state : list (address * Account)) : Prop :=
  forall a acc o, In (a, acc) state -> db_basic db a = Some o ->
    (ac_selfdestructed acc = false -> ai_nonce (db_value o) <= ai_nonce (ac_info acc)) /\
    (ac_created acc = true -> forall k s, In (k, s) (ac_storage acc) -> sl_original s = 0).

(** No account: no balance, nonce or code, and no slot is set. *)
Record no_account (st : AccountState) : Prop := {
  na_balance : as_balance st = Some 0;
  na_nonce : as_nonce st = None;
  na_code : as_code st = None;
  na_storage : forall k v, as_storage st !! k = Some v -> v = 0 }.

(** What the reader gets, compared with how the account was left. *)
Definition replay_right (acc : Account) (st : AccountState) (pre post : option AccountState) : Prop :=
  if ac_selfdestructed acc then match replay st pre post with None => True | Some st' => no_account st' end
  else exists st', replay st pre post = Some st' /\ left_as acc st'.
