(** * PropertiesResults: C92, the combined trace results *)

From Verif Require Export SpecDiff PropertiesVm PropertiesDiff.
From Verif Require Import PropertiesParity Examples.

(** ** C92 *)

(** The database fails on an account the state diff asks for. *)
Definition diff_fails (db : Db) (state : list (address * Account)) : Prop :=
  exists a acc, In (a, acc) state /\ ac_created acc = false /\ db_basic db a = None.
(** The database fails on the account, or on the code, of the address of some recorded frame. *)
Definition codes_fail (db : Db) (ns : list CallTraceNode) : Prop :=
  exists n, In n ns /\
    (db_basic db (tr_address (nd_trace n)) = None \/
     exists i, db_basic db (tr_address (nd_trace n)) = Some (Some i) /\ ai_code_hash i <> KECCAK_EMPTY /\
               db_code_by_hash db (ai_code_hash i) = None).

Lemma populate_state_fails db state d :
  populate_state_diff d db state = None <-> diff_fails db state.
Proof.
  revert d. induction state as [|[a acc] state IH]; intros d; cbn [populate_state_diff].
  { split; [done|]. intros (a & acc & [] & _). }
  assert (Hc : diff_fails db ((a, acc) :: state) <-> (ac_created acc = false /\ db_basic db a = None) \/ diff_fails db state).
  { split.
    - intros (a' & acc' & [[= <- <-]|Hin] & H1 & H2); [by left|]. right. by exists a', acc'.
    - intros [[H1 H2]|(a' & acc' & Hin & H1 & H2)]; [exists a, acc|exists a', acc']; split_and!; try done; [by left|by right]. }
  rewrite Hc. unfold diff_step. destruct (ac_created acc) eqn:Ec.
  - rewrite andb_true_r. destruct (ac_selfdestructed acc); rewrite IH; intuition discriminate.
  - rewrite andb_false_r. destruct (db_basic db a) as [o|]; [|intuition].
    destruct (_ && _ && _); rewrite IH; intuition discriminate.
Qed.

Lemma populate_codes_fail db fuel t q addrs :
  populate_loop fuel db t q addrs = Ok None ->
  exists a, In a addrs /\
    (db_basic db a = None \/
     exists i, db_basic db a = Some (Some i) /\ ai_code_hash i <> KECCAK_EMPTY /\ db_code_by_hash db (ai_code_hash i) = None).
Proof.
  revert t q addrs. induction fuel as [|fuel IH]; intros t q addrs; destruct q as [|p q]; cbn [populate_loop]; try done.
  destruct (expect (vm_at t p)) as [c| |]; cbn [rbind]; try done. destruct addrs as [|a addrs]; [done|].
  destruct (db_basic db a) as [o|] eqn:Ea; [|intros _; exists a; split; [by left|by left]].
  destruct (ai_code_hash (default info_default o) =? KECCAK_EMPTY)%N eqn:Eh.
  { intros H. apply IH in H as (a' & Hin & H). exists a'. split; [by right|done]. }
  destruct (db_code_by_hash db _) as [c'|] eqn:Ec.
  { intros H. apply IH in H as (a' & Hin & H). exists a'. split; [by right|done]. }
  intros _. exists a. split; [by left|]. right. destruct o as [i|].
  - exists i. split_and!; try done. by apply N.eqb_neq.
  - by rewrite N.eqb_refl in Eh.
Qed.

(** For every history, every set of requested trace types, every execution result, post-state and database: *)
Theorem C92_results :
  forall cfg es s r state types db l,
  ti_run (ti_new cfg) es = Ok s -> into_transaction_traces (ti_traces s) = Ok l ->
  NoDup (map fst state) -> (forall a acc, In (a, acc) state -> NoDup (map fst (ac_storage acc))) ->
  exists x, into_trace_results_with_state (ti_traces s) r state types db = Ok x /\
    (** an error is the database's, on something a requested part needs *)
    (x = None -> (ty_state_diff types = true /\ diff_fails db state) \/ (ty_vm_trace types = true /\ codes_fail db (ti_traces s))) /\
    forall res, x = Some res ->
      (** the output is that of the execution *)
      rs_output res = match er_output r with Some o => o | None => [] end /\
      (** the traces are all of them, with the gas of the execution at the root, if asked for *)
      (if ty_trace types then same_but_root_gas (er_gas_used r) l (rs_trace res) else rs_trace res = []) /\
      (** the state diff is the exact difference between database and state, if asked for *)
      (if ty_state_diff types then
         exists d, rs_state_diff res = Some d /\
           (forall a acc, In (a, acc) state -> account_diff db a acc (d !! a)) /\
           (forall a, ~ In a (map fst state) -> d !! a = None)
       else rs_state_diff res = None) /\
      (** the vm trace is that of the call tree but for the codes, if asked for *)
      (if ty_vm_trace types then exists t vm, vm_trace (ti_traces s) = Ok t /\ rs_vm_trace res = Some vm /\ without_codes vm = t
       else rs_vm_trace res = None).
Proof.
  intros cfg es s r state types db l Hr Hl Hnd Hst.
  destruct (C24_results_total cfg es s r state types db Hr) as [x Hx]. exists x. split; [exact Hx|].
  destruct (C24_terminates _ _ _ Hr) as (t & addrs & Hvm & Haddrs & Hpop).
  pose proof (run_tree_inv _ _ _ Hr) as Hinv.
  assert (Htt : into_trace_type_traces (ti_traces s) types =
     Ok (if ty_trace types then Some l else None, if ty_vm_trace types then Some t else None, if ty_state_diff types then Some ∅ else None)).
  { pose proof (into_transaction_traces_ok _ Hinv) as Hl'. rewrite Hl in Hl'. injection Hl' as ->.
    unfold into_trace_type_traces. destruct (ty_is_empty types) eqn:Ee.
    - unfold ty_is_empty in Ee. apply negb_true_iff, orb_false_iff in Ee as [Ee E3]. apply orb_false_iff in Ee as [E1 E2].
      by rewrite E1, E2, E3.
    - destruct (at_root _ (inv_tree _ Hinv)) as (r0 & Hr0 & _). destruct (length (ti_traces s)) eqn:El.
      { apply nil_length_inv in El. by rewrite El in Hr0. }
      cbn [Nat.eqb orb]. rewrite Hvm. destruct (ty_vm_trace types), (ty_trace types); cbn [rmap rbind];
        rewrite ?(type_traces_ok _ Hinv), ?(type_traces_off _ Hinv); done. }
  pose proof Hx as Hx0. unfold into_trace_results_with_state, into_trace_results in Hx. rewrite Htt, Haddrs in Hx.
  set (a0 := if ty_vm_trace types then _ else _) in Hx.
  assert (Ha0 : a0 = Ok (if ty_vm_trace types then addrs else [])) by (unfold a0; destruct (ty_vm_trace types); done).
  rewrite Ha0 in Hx. clear a0 Ha0. cbn [rbind rs_state_diff rs_vm_trace rs_output rs_trace] in Hx.
  (* the traces *)
  set (trs := set_root_trace_gas_used (default [] (if ty_trace types then Some l else None)) (er_gas_used r)) in Hx.
  assert (Htrs : if ty_trace types then same_but_root_gas (er_gas_used r) l trs else trs = []).
  { unfold trs. destruct (ty_trace types); [|done]. cbn [default]. destruct l as [|e l]; [done|]. cbn. split; [|done]. constructor; cbn; try done.
    destruct (tt_result e) as [[]|]; done. }
  clearbody trs.
  (* the state diff *)
  set (dd := match (if ty_state_diff types then Some ∅ else None) with Some d => _ | None => _ end) in Hx.
  assert (Hdd : (dd = None -> ty_state_diff types = true /\ diff_fails db state) /\
    forall o, dd = Some o -> if ty_state_diff types then
         exists d, o = Some d /\ (forall a acc, In (a, acc) state -> account_diff db a acc (d !! a)) /\
           (forall a, ~ In a (map fst state) -> d !! a = None)
       else o = None).
  { unfold dd. destruct (ty_state_diff types); [|split; [done|by intros o [= <-]]].
    destruct (populate_state_diff ∅ db state) as [d|] eqn:Ed.
    - split; [done|]. intros o [= <-]. exists d. split; [done|].
      destruct (C25_state_diff_exact db state Hnd Hst) as (d' & Hd' & H1 & H2).
      { intros a acc Hin Hc Hb. assert (Hf : populate_state_diff ∅ db state = None) by (apply populate_state_fails; exists a, acc; done). congruence. }
      rewrite Ed in Hd'. injection Hd' as <-. done.
    - split; [|done]. intros _. split; [done|]. by eapply populate_state_fails. }
  destruct Hdd as [Hdd1 Hdd2]. clearbody dd. destruct dd as [o|].
  2:{ injection Hx as <-. split; [intros _; left; by apply Hdd1|done]. }
  specialize (Hdd2 o eq_refl). clear Hdd1.
  (* the vm trace *)
  destruct (ty_vm_trace types) eqn:Etv.
  - destruct (Hpop db) as [[vm|] Hp]; rewrite Hp in Hx; cbn [rbind] in Hx; injection Hx as <-.
    + split; [done|]. intros res [= <-]. cbn [rs_output rs_trace rs_state_diff rs_vm_trace]. split_and!; [by destruct (er_output r)|done|done|].
      exists t, vm. split_and!; [done|done|]. destruct (C84_level_order _ _ _ _ _ _ _ _ Hr Etv Hx0) as (t' & vm' & k & Ht' & Hv & Hw & _).
      cbn in Hv. injection Hv as <-. rewrite Hvm in Ht'. by injection Ht' as <-.
    + split; [|done]. intros _. right. split; [done|]. apply populate_codes_fail in Hp as (a & Hin & Hf).
      destruct (C61_walk cfg es s Hr) as (w & Hw & _ & Hnodes & _). rewrite Hw in Haddrs. cbn [rmap rbind] in Haddrs. injection Haddrs as <-.
      apply in_map_iff in Hin as (n & <- & Hin). exists n. split; [|exact Hf].
      rewrite Forall_forall in Hnodes. apply elem_of_list_In in Hin. specialize (Hnodes n Hin). apply elem_of_list_In. by eapply elem_of_list_lookup_2.
  - injection Hx as <-. split; [done|]. intros res [= <-]. cbn [rs_output rs_trace rs_state_diff rs_vm_trace]. split_and!; done.
Qed.
Print Assumptions C92_results.

Example C92_example : exists s l res d, ex_state ex_cfg = Ok s /\ into_transaction_traces (ti_traces s) = Ok l /\
  into_trace_results_with_state (ti_traces s) (mkExecResult 777 (Some [x07]))%N c25_state (mkTypes true true true) c25_db = Ok (Some res) /\
  rs_output res = [x07] /\ length (rs_trace res) = 6 /\ rs_state_diff res = Some d /\ d !! 1%N = Some (mkDiff (DChanged 100 90) DUnchanged (DChanged 4 5) ∅)%N /\
  is_Some (rs_vm_trace res).
Proof. do 4 eexists. split_and!; try (vm_compute; reflexivity). vm_compute. eauto. Qed.

(** A database that does not know account 1: an error if its difference is asked for, and only then. *)
Definition c92_db : Db := mkDb (fun a => if (a =? 1)%N then None else db_basic c25_db a) (db_code_by_hash c25_db).
Example C92_error_example : exists s res, ex_state ex_cfg = Ok s /\ diff_fails c92_db c25_state /\
  into_trace_results_with_state (ti_traces s) (mkExecResult 777 None)%N c25_state (mkTypes true false true) c92_db = Ok None /\
  into_trace_results_with_state (ti_traces s) (mkExecResult 777 None)%N c25_state (mkTypes true false false) c92_db = Ok (Some res).
Proof.
  do 2 eexists. split; [vm_compute; reflexivity|]. split; [|split; vm_compute; reflexivity].
  eexists 1%N, _. split; [by left|]. done.
Qed.
