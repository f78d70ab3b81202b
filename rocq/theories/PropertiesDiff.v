(** * PropertiesDiff: C25, the parity state diff *)

From Verif Require Import DiffProofs.
Local Open Scope N_scope.

(** ** C25 *)
Theorem C25_state_diff_exact :
  forall db state,
  NoDup (map fst state) -> (forall a acc, In (a, acc) state -> NoDup (map fst (ac_storage acc))) ->
  (** the database answers for the accounts that were not created *)
  (forall a acc, In (a, acc) state -> ac_created acc = false -> db_basic db a <> None) ->
  exists d, populate_state_diff ∅ db state = Some d /\
    (forall a acc, In (a, acc) state -> account_diff db a acc (d !! a)) /\
    (forall a, ~ In a (map fst state) -> d !! a = None).
Proof.
  intros db state Hnd Hst Hdb. destruct (populate_spec db state ∅ Hnd Hst Hdb) as (d & H1 & H2 & H3).
  { intros. apply lookup_empty. }
  exists d. split_and!; [done|done|]. intros a Ha. by rewrite H3, lookup_empty.
Qed.
Print Assumptions C25_state_diff_exact.

(** [account_diff] decides whether and how the account appears: for given data only one answer is possible. *)
Theorem C25_spec_functional : forall db a acc o o', account_diff db a acc o -> account_diff db a acc o' -> o = o'.
Proof.
  assert (Hcs : forall g st m m', changed_slots g st m -> changed_slots g st m' -> m = m').
  { intros g st m m' H H'. apply map_eq. intros k. destruct (m !! k) as [d|] eqn:E.
    - symmetry. apply H'. by apply H.
    - destruct (m' !! k) as [d|] eqn:E'; [|done]. apply H' in E'. apply H in E'. congruence. }
  assert (Hch : forall (x y : N) d d', change x y d -> change x y d' -> d = d').
  { intros x y d d' [[? ->]|[? ->]] [[? ->]|[? ->]]; done. }
  assert (Hc : forall db i c c', has_code db i c -> has_code db i c' -> c = c').
  { intros db i c c' [] []; congruence. }
  intros db a acc o o' H H'.
  destruct H as [H1 H2|d code H1 H2 H3 H4 H5 H6 H7|ob H1 H2 H3|ob d H1 H2 H3 H4 H5 H6 H7];
  destruct H' as [J1 J2|d' code' J1 J2 J3 J4 J5 J6 J7|ob' J1 J2 J3|ob' d' J1 J2 J3 J4 J5 J6 J7]; try congruence.
  - f_equal. destruct d as [b c n st], d' as [b' c' n' st']. cbn in *. subst. f_equal; [|by eapply Hcs]. f_equal. by eapply Hc.
  - rewrite H2 in J2. injection J2 as <-. f_equal. destruct d as [b c n st], d' as [b' c' n' st']. cbn in *. subst.
    f_equal; [by eapply Hch|by eapply Hch|by eapply Hcs].
Qed.
Print Assumptions C25_spec_functional.

Definition c25_db : Db :=
  mkDb (fun a => Some (if a =? 1 then Some (mkInfo 100 4 KECCAK_EMPTY None) else if a =? 3 then Some (mkInfo 7 1 99 None) else None))
       (fun h => if h =? 99 then Some [x60] else None).
Definition c25_state : list (address * Account) :=
  [ (1, mkAccount (mkInfo 90 5 KECCAK_EMPTY None) [] false false);
    (2, mkAccount (mkInfo 10 1 99 None) [(5, mkSlot 0 8); (6, mkSlot 0 0)] true false);
    (3, mkAccount (mkInfo 7 1 99 None) [(5, mkSlot 1 1)] false false);
    (4, mkAccount (mkInfo 0 0 KECCAK_EMPTY None) [] true true) ].
Example C25_example :
  NoDup (map fst c25_state) /\ (forall a acc, In (a, acc) c25_state -> NoDup (map fst (ac_storage acc))) /\
  (forall a acc, In (a, acc) c25_state -> ac_created acc = false -> db_basic c25_db a <> None) /\
  exists d, populate_state_diff ∅ c25_db c25_state = Some d /\
    d !! 1 = Some (mkDiff (DChanged 100 90) DUnchanged (DChanged 4 5) ∅) /\
    d !! 2 = Some (mkDiff (DAdded 10) (DAdded [x60]) (DAdded 1) {[5 := DAdded 8]}) /\ d !! 3 = None /\ d !! 4 = None.
Proof.
  split_and!.
  - apply NoDup_ListNoDup. repeat constructor; cbn; intuition discriminate.
  - intros a acc H. cbn in H. intuition (simplify_eq; cbn); apply NoDup_ListNoDup; repeat constructor; cbn; intuition discriminate.
  - done.
  - eexists. split; [vm_compute; reflexivity|]. split_and!; vm_compute; reflexivity.
Qed.
