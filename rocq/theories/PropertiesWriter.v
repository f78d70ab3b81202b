(** * PropertiesWriter: C49 - C52, the trace writer *)

From Verif Require Export WriterUtf8 Examples.
Local Open Scope N_scope.

(** ** Setting: a recorded arena, possibly decorated, and a writer whose 16-bit level has room for it *)

(** [ns] was recorded by an inspector that saw any history of hooks of at most one transaction, and was decorated afterwards
    with labels, decoded data and decoded steps; the decoded internal calls are well nested, at most [D] deep. *)
Record recorded (ns : list CallTraceNode) (D : nat) : Prop := {
  rec_history : exists cfg es s, (length (List.filter is_root_start es) <= 1)%nat /\ ti_run (ti_new cfg) es = Ok s /\ decorates ns (ti_traces s);
  rec_nested : Forall (fun n => well_nested n D (nd_ordering n)) ns }.
(** The levels needed fit into a [u16]: an EVM call depth is at most 1024, so without internal calls any start up to 64510 is fine. *)
Definition fits (ns : list CallTraceNode) (D : nat) (level : N) : Prop :=
  Forall (fun n => level + N.of_nat (S (tr_depth (nd_trace n))) * N.of_nat (S D) <= 65535) ns.

Lemma recorded_tree ns D : recorded ns D -> tree_inv ns /\ Forall ordering_complete ns.
Proof.
  intros [(cfg & es & s & H1 & H2 & H3) _]. split.
  - eapply tree_inv_shape; [by apply decorates_shape|]. by eapply run_tree_inv.
  - eapply decorates_ordered; [done|]. eapply run_ordered; [|apply new_all_ordered|exact H1| |exact H2].
    + apply arena_tree_default.
    + intros _. apply new_pre_root.
Qed.
Lemma recorded_layout ns D k : recorded ns D -> fits ns D k -> exists cs, node_layout ns k 0 cs.
Proof.
  intros Hr Hf. destruct (recorded_tree ns D Hr) as [[Ht _ _] Ho]. destruct Hr as [_ Hn]. unfold fits in Hf. rewrite Forall_lookup in Hn, Hf.
  by apply (root_exists ns Ht D k).
Qed.
Lemma write_arena_emits ck ns D w cs : recorded ns D -> node_layout ns (tw_level w) 0 cs ->
  let ps := map (fun c => (fst c, chunk_text ck (tw_use_colors w) (tw_color_cheatcodes w) ns c)) cs in
  concat (map snd ps) = rendering ck (tw_use_colors w) (tw_color_cheatcodes w) ns cs /\
  write_arena ck ns w =
    Ok (if snd (emit ps w) then (tw_set_level (fst (emit ps w)) (tw_level w), if tw_flush w then Some tt else None)
        else (fst (emit ps w), None)).
Proof.
  intros Hr Hl ps. split.
  { unfold ps, rendering. f_equal. rewrite map_map. done. }
  destruct (recorded_tree ns D Hr) as [[Ht _ _] _].
  assert (Hdown : forall i n j c, ns !! i = Some n -> nd_children n !! j = Some c -> (i < c)%nat).
  { intros i n j c Hi Hc. by destruct (child_lookup ns Ht i n j c Hi Hc) as (_ & _ & _ & _ & ? & _). }
  pose proof (write_node_layout (tw_use_colors w) (tw_color_cheatcodes w) ck ns Hdown _ _ _ Hl (writer_fuel ns)) as He.
  unfold write_arena, io_bind. rewrite He by done. fold ps.
  pose proof (emit_budget ps w) as [_ Hfl].
  destruct (snd (emit ps w)); [|done]. unfold flush. cbn [tw_flush tw_set_level]. by rewrite Hfl.
Qed.

(** ** C49 *)

(** Writing never panics; the output is the rendering of the layout, and nothing else of the writer changes. *)
Theorem C49_rendering :
  forall to_checksum ns D w, recorded ns D -> fits ns D (tw_level w) -> tw_budget w = None -> tw_flush w = true ->
  (exists cs, node_layout ns (tw_level w) 0 cs) /\
  forall cs, node_layout ns (tw_level w) 0 cs ->
  write_arena to_checksum ns w =
    Ok (mkTW (tw_out w ++ rendering to_checksum (tw_use_colors w) (tw_color_cheatcodes w) ns cs) None true
          (tw_use_colors w) (tw_color_cheatcodes w) (tw_level w), Some tt).
Proof.
  intros ck ns D w Hr Hf Hb Hfl. split; [by eapply recorded_layout|]. intros cs Hl.
  destruct (write_arena_emits ck ns D w cs Hr Hl) as [Hc ->]. rewrite Hfl.
  set (ps := map _ cs) in *. pose proof (emit_budget ps w) as [He Hfl']. rewrite Hb in He. destruct He as (He & H1 & H2).
  destruct (emit_conf ps w) as [Hc1 Hc2].
  destruct (emit ps w) as [w' ok]. cbn [fst snd] in *. injection He as ->. f_equal. f_equal.
  destruct w' as [o b f c cc l]. unfold tw_set_level. cbn in *. subst. by rewrite Hfl, Hc.
Qed.
Print Assumptions C49_rendering.

(** The calls shown are those of the arena, hidden precompile calls excepted, each once and in recording order; each shown
    call shows its logs, each once and in order. *)
Theorem C49_each_once :
  forall ns D k cs, recorded ns D -> node_layout ns k 0 cs ->
  StronglySorted lt (headers cs) /\
  (forall i, In i (headers cs) <-> exists n, ns !! i = Some n /\ (nd_parent n = None \/ nd_is_precompile n = false)) /\
  (forall i n, In i (headers cs) -> ns !! i = Some n ->
     map snd (List.filter (fun p => (fst p =? i)%nat) (shown_logs cs)) = seq 0 (length (nd_logs n))) /\
  (forall i j, In (i, j) (shown_logs cs) -> In i (headers cs)).
Proof.
  intros ns D k cs Hr Hl. destruct (recorded_tree ns D Hr) as [[Ht Hs Hord] Ho].
  destruct (layout_headers ns Ht Ho k cs Hord Hl) as [H1 H2].
  assert (Hnd : List.NoDup (headers cs)) by (apply NoDup_ListNoDup; by apply StronglySorted_lt_NoDup).
  pose proof (layout_logs ns Ho k 0 cs Hl Hnd) as Hlogs.
  assert (Hfil : forall i, logs_at i cs = map snd (List.filter (fun p => (fst p =? i)%nat) (shown_logs cs))).
  { intros i. unfold logs_at. generalize (shown_logs cs) as l. induction l as [|[a b] l IH]; [done|]. cbn. destruct (a =? i)%nat; cbn; by rewrite IH. }
  split_and!; [done| | |].
  - intros i. rewrite H2. split.
    + intros (a & Ha). destruct (follow_info ns Ht a i Ha) as (n & Hn & _ & _ & Hi). exists n. split; [done|].
      destruct Hi as [->|?]; [left|by right]. destruct (at_root _ Ht) as (r & Hr0 & Hp & _). congruence.
    + intros (n & Hn & Hi). apply (follow_exists ns Ht Hs i n Hn). unfold flag. destruct Hi as [-> |Hi]; [done|]. by destruct (nd_parent n).
  - intros i n Hi Hn. rewrite <-Hfil, Hlogs. unfold expected, n_logs. rewrite Hn. by destruct (decide _).
  - intros i j Hij.
    assert (Hin : In j (logs_at i cs)).
    { rewrite Hfil. apply in_map_iff. exists (i, j). split; [done|]. apply filter_In. split; [done|]. apply Nat.eqb_refl. }
    rewrite Hlogs in Hin. unfold expected in Hin. by destruct (decide _).
Qed.
Print Assumptions C49_each_once.

(** The example transaction, recorded and then decorated: a label on the root, its log decoded, and an internal call from
    step 1 to step 6 with a line inside. *)
Definition decorate_step (d : DecodedTraceStep) (st : CallTraceStep) : CallTraceStep :=
  mkStep (st_depth st) (st_pc st) (st_op st) (st_contract st) (st_stack st) (st_push_stack st) (st_memory st)
    (st_returndata st) (st_gas_remaining st) (st_gas_refund_counter st) (st_gas_used st) (st_gas_cost st)
    (st_storage_change st) (st_status st) (Some d).
Definition decorate_root (n : CallTraceNode) : CallTraceNode :=
  let t := nd_trace n in
  mkNode (nd_parent n) (nd_children n) (nd_idx n)
    (mkTrace (tr_depth t) (tr_success t) (tr_caller t) (tr_address t) (tr_maybe_precompile t) (tr_selfdestruct_refund_target t)
      (tr_selfdestruct_transferred_value t) (tr_kind t) (tr_value t) (tr_data t) (tr_output t) (tr_gas_used t) (tr_gas_limit t)
      (tr_status t)
      (alter (decorate_step (Line "two"%string)) 4%nat
        (alter (decorate_step (InternalCall (mkDecodedInternalCall "inner"%string (Some ["1"%string; "2"%string]) None) 6)) 1%nat (tr_steps t)))
      (mkDecodedCallTrace (Some "Token"%string) None (Some (mkDecodedCallData "mint(uint256)"%string ["7"%string]))))
    (map (fun l => mkCallLog (cl_topics l) (cl_data l) (mkDecodedCallLog (Some "Minted"%string) (Some [("to"%string, "0xaa"%string)]))) (nd_logs n))
    (nd_ordering n).
Definition ex_decorated : list CallTraceNode :=
  match ex_state ex_cfg with
  | Ok s => match ti_traces s with r :: ns => decorate_root r :: ns | [] => [] end
  | _ => []
  end.
(** Checksummed addresses are left abstract; for the examples, their plain hex text. *)
Definition ex_checksum (a : address) : list byte := txt "0x" ++ hex_encode (be_bytes 20 a).
Definition ex_writer (budget : option nat) : TraceWriter := mkTW [] budget true false false 0.

Definition ex_value : list CallTraceNode := Eval vm_compute in ex_decorated.
Lemma ex_value_eq : ex_decorated = ex_value.
Proof. vm_compute. reflexivity. Qed.

Lemma ex_recorded : recorded ex_decorated 1.
Proof.
  constructor.
  - exists ex_cfg, (tx_events ex_world ex_tx). unfold ex_decorated, ex_state.
    destruct (ti_run (ti_new ex_cfg) (tx_events ex_world ex_tx)) as [s| |] eqn:E; [|vm_compute in E; discriminate..].
    exists s. split_and!; [vm_compute; lia|done|].
    assert (Hs : s = match ti_run (ti_new ex_cfg) (tx_events ex_world ex_tx) with Ok s => s | _ => s end) by (by rewrite E).
    rewrite Hs. vm_compute. reflexivity.
  - rewrite ex_value_eq. unfold ex_value. repeat (apply List.Forall_cons || apply List.Forall_nil); cbn [nd_ordering].
    1: apply nest_step; [intros st call e [= <-]; discriminate|].
    1: eapply (nest_internal _ 0 1 _ _ 6 [OLog 0; OStep 2; OCall 0; OStep 3; OStep 4; OCall 1; OStep 5; OCall 2] []);
         [reflexivity|reflexivity|intros Hin; cbn in Hin; repeat destruct Hin as [Hin|Hin]; done|..].
    all: repeat (constructor; try (intros st call e [= <-]; discriminate)).
Qed.
Lemma ex_fits : fits ex_decorated 1 0.
Proof. rewrite ex_value_eq. unfold ex_value, fits. repeat (apply List.Forall_cons || apply List.Forall_nil); vm_compute; discriminate. Qed.
(** The text itself. *)
Example C49_example :
  recorded ex_decorated 1 /\ fits ex_decorated 1 (tw_level (ex_writer None)) /\
  match write_arena ex_checksum ex_decorated (ex_writer None) with
  | Ok (w, Some tt) => String.string_of_list_byte (tw_out w) = 
"  [35200] Token::mint{value: 7}(7)
    ├─ [5000] inner(1, 2)
    │   ├─ emit Minted(to: 0xaa)
    │   ├─ [40000] 0x00000000000000000000000000000000000000d0::01020304{value: 7}(05) [delegatecall]
    │   │   └─ ← [Return] 0x2a
    │   ├─ two
    │   ├─ [40000] → new <unknown>@0x00000000000000000000000000000000000000e0
    │   │   └─ ← [SelfDestruct] 1 bytes of code
    │   ├─ [40000] 0x00000000000000000000000000000000000000f0::0a0b0c0d()
    │   │   ├─ [40000] 0x0000000000000000000000000000000000000001::fallback{value: 3}(00)
    │   │   │   └─ ← [Return] 0x2a
    │   │   └─ ← [Revert] 0x2a
    │   └─ ← 
    └─ ← [Stop] 0x2a
"%string
  | _ => False
  end.
Proof. split_and!; [apply ex_recorded|apply ex_fits|vm_compute; reflexivity]. Qed.

(** ** C50 *)

(** An inner writer that accepts [b] more bytes has received the first [b] bytes of the rendering, and the result tells whether
    that was all of it (and the final flush succeeded). *)
Theorem C50_prefix :
  forall to_checksum ns D w b, recorded ns D -> fits ns D (tw_level w) -> tw_budget w = Some b ->
  (exists cs, node_layout ns (tw_level w) 0 cs) /\
  forall cs, node_layout ns (tw_level w) 0 cs ->
  let text := rendering to_checksum (tw_use_colors w) (tw_color_cheatcodes w) ns cs in
  exists w' result, write_arena to_checksum ns w = Ok (w', result) /\
    tw_out w' = tw_out w ++ take b text /\
    (result = Some tt <-> (length text <= b)%nat /\ tw_flush w = true).
Proof.
  intros ck ns D w b Hr Hf Hb. split; [by eapply recorded_layout|]. intros cs Hl text.
  destruct (write_arena_emits ck ns D w cs Hr Hl) as [Hc ->]. fold text in Hc.
  set (ps := map _ cs) in *. pose proof (emit_budget ps w) as [He _]. rewrite Hb in He.
  do 2 eexists. split; [by rewrite <-surjective_pairing|].
  destruct He as [(H1 & -> & H3 & _)|(H1 & -> & ps1 & k & t & ps2 & H3 & _ & H4 & H5)]; cbn [fst snd].
  - cbn. rewrite Hc in *. split; [by rewrite take_ge, H3|]. split; [intros; destruct (tw_flush w); done|]. by intros [_ ->].
  - rewrite Hc in H1. split; [|split; [done|lia]]. rewrite H5. f_equal. rewrite <-Hc, H3.
    rewrite map_app, concat_app. cbn [map concat snd]. rewrite take_app_ge by lia. f_equal. rewrite take_app_le by lia. done.
Qed.
Print Assumptions C50_prefix.
Example C50_example :
  match write_arena ex_checksum ex_decorated (ex_writer (Some 61%nat)) with
  | Ok (w, None) => String.string_of_list_byte (tw_out w) = "  [35200] Token::mint{value: 7}(7)
    ├─ [5000] inner(1,"%string
  | _ => False
  end.
Proof. vm_compute. reflexivity. Qed.

(** ** C51 *)

(** The property as stated: after an error the indentation is what it was. *)
Definition C51_statement : Prop :=
  forall to_checksum ns D w w', recorded ns D -> fits ns D (tw_level w) ->
  write_arena to_checksum ns w = Ok (w', None) -> tw_level w' = tw_level w.
(** It does not hold: an error below the root leaves the levels entered so far. *)
Theorem C51_refuted : ~ C51_statement.
Proof.
  intros H. destruct (write_arena ex_checksum ex_decorated (ex_writer (Some 61%nat))) as [[w' [[]|]]| |] eqn:E; try (vm_compute in E; discriminate E).
  assert (Hw : tw_level w' = match write_arena ex_checksum ex_decorated (ex_writer (Some 61%nat)) with Ok (w, _) => tw_level w | _ => 0 end) by (by rewrite E).
  pose proof (H ex_checksum ex_decorated 1%nat (ex_writer (Some 61%nat)) w' ex_recorded ex_fits E) as H1. rewrite Hw in H1.
  vm_compute in H1. discriminate H1.
Qed.
Print Assumptions C51_refuted.

Lemma layout_levels ns k i cs : node_layout ns k i cs -> Forall (fun c => k <= fst c) cs.
Proof.
  revert k i cs. apply (node_layout_mut ns (fun k i cs => Forall (fun c => k <= fst c) cs) (fun k i n l cs => Forall (fun c => k <= fst c) cs)).
  - intros k i n body _ _ _ IH. constructor; [cbn; lia|]. apply Forall_app. split; [|repeat constructor; cbn; lia].
    eapply Forall_impl; [exact IH|]. cbn. intros; lia.
  - constructor.
  - intros. constructor; [cbn; lia|done].
  - intros. by apply Forall_app.
  - done.
  - intros. constructor; [cbn; lia|done].
  - intros k i n s st call e en inner rest cs1 cs2 _ _ _ _ _ _ IH1 _ IH2. do 2 (constructor; [cbn; lia|]). apply Forall_app.
    split; [eapply Forall_impl; [exact IH1|]; cbn; intros; lia|]. constructor; [cbn; lia|done].
Qed.

(** What does hold: the level is restored when everything was written (even if the flush then fails); after a failed write
    it is the level of the part that was being written, never less than the initial one. *)
Theorem C51_level_partial :
  forall to_checksum ns D w cs, recorded ns D -> fits ns D (tw_level w) -> node_layout ns (tw_level w) 0 cs ->
  let text := rendering to_checksum (tw_use_colors w) (tw_color_cheatcodes w) ns in
  exists w' result, write_arena to_checksum ns w = Ok (w', result) /\
    (tw_level w' = tw_level w /\ tw_out w' = tw_out w ++ text cs \/
     result = None /\
     exists cs1 c cs2 part, cs = cs1 ++ c :: cs2 /\ tw_level w' = fst c /\ tw_level w <= fst c /\
       tw_out w' = tw_out w ++ text cs1 ++ part /\ (length part < length (text [c]))%nat /\ part `prefix_of` text [c]).
Proof.
  intros ck ns D w cs Hr Hf Hl text. destruct (write_arena_emits ck ns D w cs Hr Hl) as [Hc ->].
  set (ps := map _ cs) in *. pose proof (emit_budget ps w) as [He _].
  do 2 eexists. split; [by rewrite <-surjective_pairing|].
  destruct (tw_budget w) as [b|].
  - destruct He as [(H1 & -> & H3 & _)|(H1 & -> & ps1 & k & t & ps2 & H3 & H4 & H5 & H6)]; cbn [fst snd].
    + left. cbn. by rewrite H3, Hc.
    + right. split; [done|]. unfold ps in H3. apply map_eq_app in H3 as (cs1 & csr & -> & E1 & E2).
      destruct csr as [|c cs2]; [done|]. cbn [map] in E2. injection E2 as E2 E3 E4.
      exists cs1, c, cs2, (take (b - length (concat (map snd ps1))) t).
      assert (Ht1 : text [c] = t) by (unfold text, rendering; cbn; by rewrite app_nil_r).
      assert (Ht2 : text cs1 = concat (map snd ps1)).
      { unfold text, rendering. f_equal. rewrite <-E1, map_map. done. }
      split_and!; [done|congruence| |by rewrite Ht2| |].
      * pose proof (layout_levels _ _ _ _ Hl) as Hlv. apply Forall_app in Hlv as [_ Hlv]. by inversion Hlv.
      * rewrite Ht1, take_length. lia.
      * rewrite Ht1. exists (drop (b - length (concat (map snd ps1))) t). by rewrite take_drop.
  - destruct He as (He & H2 & _). rewrite He. cbn [fst snd]. left. cbn. by rewrite H2, Hc.
Qed.
Print Assumptions C51_level_partial.
(** The interrupted example is left at level 2 = the level of the internal call's head. *)
Example C51_example :
  match write_arena ex_checksum ex_decorated (ex_writer (Some 61%nat)) with Ok (w, None) => tw_level w = 2 | _ => False end /\
  match write_arena ex_checksum ex_decorated (ex_writer (Some 5000%nat)) with Ok (w, Some tt) => tw_level w = 0 | _ => False end.
Proof. split; vm_compute; reflexivity. Qed.

(** ** C52 *)
Theorem C52_utf8 :
  forall to_checksum ns D w w', recorded ns D -> fits ns D (tw_level w) ->
  (forall a, utf8 (to_checksum a)) -> Forall utf8_node ns -> utf8 (tw_out w) ->
  write_arena to_checksum ns w = Ok (w', Some tt) -> utf8 (tw_out w').
Proof.
  intros ck ns D w w' Hr Hf Hck Hns Hw Hrun. destruct (recorded_layout ns D (tw_level w) Hr Hf) as (cs & Hl).
  destruct (C51_level_partial ck ns D w cs Hr Hf Hl) as (w2 & r & Hrun2 & H). rewrite Hrun in Hrun2. injection Hrun2 as <- <-.
  destruct H as [[_ ->]|[? _]]; [|done]. apply utf8_app; [done|]. by apply utf8_rendering.
Qed.
Print Assumptions C52_utf8.
(** The example's strings are UTF-8, and so is its text: 14 lines with box drawing characters. *)
Example C52_example : Forall utf8_node ex_decorated /\ (forall a, utf8 (ex_checksum a)) /\
  match write_arena ex_checksum ex_decorated (ex_writer None) with
  | Ok (w, Some tt) => utf8 (tw_out w) /\ In xe2 (tw_out w)
  | _ => False
  end.
Proof.
  assert (H1 : Forall utf8_node ex_decorated).
  { rewrite ex_value_eq. unfold ex_value. repeat (apply List.Forall_cons || apply List.Forall_nil).
    all: constructor; cbn [nd_trace tr_decoded dct_label dct_return_data dct_call_data utf8_opt nd_logs tr_steps].
    all: try exact I; try (by apply utf8_ascii); try discriminate.
    all: try (intros d [= <-]; split; [by apply utf8_ascii|]; repeat constructor; by apply utf8_ascii).
    all: try (intros l Hin; cbn in Hin; repeat destruct Hin as [<-|Hin]; try done; split; cbn; try exact I; try (by apply utf8_ascii); repeat constructor; by apply utf8_ascii).
    all: intros st d Hin Hd; cbn in Hin; repeat destruct Hin as [<-|Hin]; try done; cbn in Hd; injection Hd as <-; cbn;
      split_and?; try (by apply utf8_ascii); repeat constructor; by apply utf8_ascii. }
  assert (H2 : forall a, utf8 (ex_checksum a)).
  { intros a. apply utf8_app; [by apply utf8_ascii|apply utf8_hex]. }
  split_and!; [done|done|].
  destruct (write_arena ex_checksum ex_decorated (ex_writer None)) as [[w' [[]|]]| |] eqn:E; try (vm_compute in E; discriminate E).
  split; [exact (C52_utf8 ex_checksum ex_decorated 1%nat (ex_writer None) w' ex_recorded ex_fits H2 H1 utf8_nil E)|].
  assert (Hw : tw_out w' = match write_arena ex_checksum ex_decorated (ex_writer None) with Ok (w, _) => tw_out w | _ => [] end) by (by rewrite E).
  assert (Hb : existsb (Byte.eqb xe2) (tw_out w') = true) by (rewrite Hw; vm_compute; reflexivity).
  apply existsb_exists in Hb as (x & Hx & Hb). apply Byte.byte_dec_bl in Hb. by subst x.
Qed.
