(** * JsObjectProofs: the answers of the objects given to a tracer *)

From Verif Require Export SpecJsObjects SimpleProofs JsNativeProofs JsProofs.
Local Open Scope N_scope.

(** ** Doubles *)

Lemma nearest_exact v m : nearest v m -> double v -> m = v.
Proof. intros [_ H] Hd. specialize (H v Hd). unfold distance in H. lia. Qed.
Lemma double_small v : v <= 2 ^ 53 -> double v.
Proof.
  intros H. destruct (decide (v < 2 ^ 53)).
  - exists v, 0. rewrite N.pow_0_r. lia.
  - exists (2 ^ 52), 1. change (2 ^ 53) with (2 ^ 52 * 2 ^ 1) in *. split; [lia|]. by vm_compute.
Qed.
Lemma nearest_self v : v <= 2 ^ 53 -> nearest v v.
Proof. intros H. split; [by apply double_small|]. intros m' _. unfold distance. lia. Qed.

Lemma f64_nearest v : nearest v (f64_of v).
Proof.
  unfold f64_of. destruct (decide (N.log2 v <= 52)) as [Hs|Hb].
  { replace (N.log2 v - 52) with 0 by lia. rewrite N.pow_0_r, N.div_1_r, N.mod_1_r, N.mul_0_r.
    change (0 ?= 1) with Lt. cbv iota. rewrite N.add_0_r, N.mul_1_r. apply nearest_self.
    destruct (decide (v = 0)) as [->|]; [by vm_compute|].
    pose proof (N.log2_spec v ltac:(lia)) as [_ H]. apply N.lt_le_incl. eapply N.lt_le_trans; [exact H|].
    apply N.pow_le_mono_r; lia. }
  assert (Hv : v <> 0) by (intros ->; apply Hb; by vm_compute).
  pose proof (N.log2_spec v ltac:(lia)) as [Hlo Hhi].
  set (e := N.log2 v - 52). replace (N.log2 v) with (52 + e) in Hlo by (unfold e; lia).
  replace (N.succ (N.log2 v)) with (53 + e) in Hhi by (unfold e; lia).
  assert (He : 0 < e) by (unfold e; lia). clearbody e. clear Hb Hv.
  set (P := 2 ^ e). assert (HP : 0 < P) by (apply N.neq_0_lt_0, N.pow_nonzero; done).
  rewrite N.pow_add_r in Hlo, Hhi. fold P in Hlo, Hhi.
  set (q := v / P). set (r := v mod P).
  assert (Hdm : v = P * q + r) by (apply N.div_mod; lia). assert (Hr : r < P) by (apply N.mod_lt; lia).
  assert (Hq1 : 2 ^ 52 <= q) by (apply N.div_le_lower_bound; lia).
  assert (Hq2 : q < 2 ^ 53) by (apply N.div_lt_upper_bound; lia).
  set (up := match 2 * r ?= P with Lt => 0 | Eq => if N.odd q then 1 else 0 | Gt => 1 end).
  assert (Hup : (up = 0 /\ 2 * r <= P) \/ (up = 1 /\ P <= 2 * r)).
  { unfold up. destruct (N.compare_spec (2 * r) P); [|left; lia|right; lia]. destruct (N.odd q); [right|left]; lia. }
  clearbody up q r. split.
  - destruct (decide (q + up < 2 ^ 53)).
    + exists (q + up), e. done.
    + exists (2 ^ 52), (e + 1). split; [|by vm_compute]. assert (q + up = 2 ^ 53) as -> by (destruct Hup as [[-> _]|[-> _]]; lia).
      rewrite N.pow_add_r. fold P. change (2 ^ 53) with (2 ^ 52 * 2 ^ 1). ring.
  - assert (Hm : forall k, distance v ((q + up) * P) <= distance v (k * P)).
    { intros k. destruct (N.le_gt_cases k q) as [Hk|Hk].
      - pose proof (N.mul_le_mono_r _ _ P Hk). unfold distance. destruct Hup as [[-> Hup]|[-> Hup]]; lia.
      - assert (Hk' : q + 1 <= k) by lia. pose proof (N.mul_le_mono_r _ _ P Hk'). unfold distance.
        destruct Hup as [[-> Hup]|[-> Hup]]; lia. }
    intros m' (a & b & -> & Ha). destruct (N.le_gt_cases e b) as [Hb|Hb].
    + replace (a * 2 ^ b) with (a * 2 ^ (b - e) * P); [apply Hm|]. unfold P. rewrite <- N.mul_assoc, <- N.pow_add_r.
      do 2 f_equal. lia.
    + etransitivity; [apply (Hm (2 ^ 52))|]. assert (Hlt : a * 2 ^ b <= 2 ^ 52 * P).
      { transitivity (2 ^ 53 * 2 ^ b); [apply N.mul_le_mono_r; lia|]. change (2 ^ 53) with (2 ^ 52 * 2 ^ 1).
        rewrite <- N.mul_assoc, <- N.pow_add_r. apply N.mul_le_mono_l. apply N.pow_le_mono_r; lia. }
      unfold distance. lia.
Qed.

Lemma js_u64_about v : about v (js_u64 v).
Proof.
  unfold js_u64. destruct (N.leb_spec v INT32_MAX) as [H|H].
  - exists v. split; [done|]. apply nearest_self. etransitivity; [exact H|]. by vm_compute.
  - exists (f64_of v). split; [done|]. apply f64_nearest.
Qed.

(** ** Text and bytes *)

Lemma dec_step_none l : fold_left dec_step l None = None.
Proof. by induction l. Qed.
Lemma numeral_parse l : forall acc, numeral acc l = fold_left dec_step l (Some acc).
Proof.
  induction l as [|c l IH]; intros acc; [done|]. cbn [numeral fold_left]. unfold dec_step at 2, dec_value.
  destruct ((48 <=? Byte.to_N c) && (Byte.to_N c <=? 57)); [apply IH|by rewrite dec_step_none].
Qed.
Lemma dec_digits_nonempty fuel : forall n acc, acc <> [] -> dec_digits fuel n acc <> [].
Proof. induction fuel as [|fuel IH]; intros n acc H; [done|]. cbn [dec_digits]. destruct (_ =? 0); [done|]. by apply IH. Qed.
Lemma dec_text_nonempty n : dec_text n <> [].
Proof. unfold dec_text. cbn [dec_digits]. destruct (_ =? 0); [done|]. by apply dec_digits_nonempty. Qed.
Lemma to_bigint_big v : big v (to_bigint v).
Proof.
  exists (dec_text v). split_and!; [done|apply dec_text_nonempty|]. rewrite numeral_parse. apply dec_text_spec.
Qed.

Lemma be_bytes_spec n : forall v, length (be_bytes n v) = n /\ be_value (be_bytes n v) = v mod 256 ^ N.of_nat n.
Proof.
  induction n as [|n IH]; intros v; [cbn; by rewrite N.mod_1_r|]. cbn [be_bytes]. destruct (IH (v / 256)) as [H1 H2].
  rewrite app_length, H1. cbn [length]. split; [lia|]. rewrite be_value_app, H2. cbn [length].
  unfold be_value. cbn [fold_left]. rewrite (Nat2N.inj_succ n), N.pow_succ_r'.
  assert (Hb : Byte.to_N (default x00 (Byte.of_N (v mod 256))) = v mod 256).
  { pose proof (N.mod_lt v 256 ltac:(done)). destruct (Byte.of_N (v mod 256)) eqn:E.
    - by apply Byte.to_of_N in E.
    - apply Byte.of_N_None_iff in E. lia. }
  rewrite Hb. rewrite (N.mod_mul_r v 256 (256 ^ N.of_nat n)); [|done|by apply N.pow_nonzero].
  change (256 ^ N.of_nat 1) with 256. lia.
Qed.
Lemma address_bytes_word a : word 20 (a mod 2 ^ 160) (address_bytes a).
Proof. eexists. split; [done|]. apply (be_bytes_spec 20). Qed.
Lemma hash_bytes_word h : h < 2 ^ 256 -> word 32 h (hash_bytes h).
Proof.
  intros Hh. eexists. split; [done|]. destruct (be_bytes_spec 32 h) as [H1 H2]. split; [done|]. rewrite H2.
  by apply N.mod_small.
Qed.

(** ** Objects *)

Section Answers.
  Context (op_text : u8 -> list byte) (state_view : Ctx -> StateView) (db_view : Ctx -> DbView).

  Lemma number_arg args i n : number_at args i n -> arg_number (get_or_undefined args i) = Some n.
  Proof. unfold number_at, get_or_undefined. destruct (args !! i); [done|]. by intros ->. Qed.
  Lemma first_number_arg args n : first_number args n -> arg_number (get_or_undefined args 0) = Some n.
  Proof. apply number_arg. Qed.
  Lemma no_number_arg args i : no_number args i -> arg_number (get_or_undefined args i) = None.
  Proof. intros (a & Ha & H). unfold get_or_undefined. by rewrite Ha. Qed.
  Lemma buffer_arg args i b : buffer_at args i b -> from_buf_value (arg_buffer (get_or_undefined args i)) = JReturn b.
  Proof. intros (a & Ha & H). unfold get_or_undefined. by rewrite Ha. Qed.
  Lemma first_buffer_arg args b : first_buffer args b -> from_buf_value (arg_buffer (get_or_undefined args 0)) = JReturn b.
  Proof. apply buffer_arg. Qed.
  Lemma no_buffer_arg args i : no_buffer args i -> from_buf_value (arg_buffer (get_or_undefined args i)) = JThrow.
  Proof. intros H. unfold get_or_undefined. destruct (args !! i) as [a|] eqn:Ea; [|done]. by apply H. Qed.

  Lemma peek_call l h args : js_call (step_log_object op_text l) ["stack"; "peek"]%string h args =
    Some (Ok (jbind (stack_peek (sg_stack_len l) (stack_in h (sg_stack l)) (arg_number (get_or_undefined args 0)))
                (fun v => JReturn (to_bigint v)))).
  Proof. reflexivity. Qed.
  Lemma get_uint_call l h args : js_call (step_log_object op_text l) ["memory"; "getUint"]%string h args =
    Some (jres_map to_byte_array (mem_get_uint (memory_in h (sg_memory l)) (arg_number (get_or_undefined args 0)))).
  Proof. reflexivity. Qed.
  Lemma slice_call l h args : js_call (step_log_object op_text l) ["memory"; "slice"]%string h args =
    Some (jres_map to_byte_array (mem_slice (memory_in h (sg_memory l)) (arg_number (get_or_undefined args 0))
            (arg_number (get_or_undefined args 1)))).
  Proof. reflexivity. Qed.
  Lemma exists_call d h args : js_call (db_object state_view db_view d) ["exists"]%string h args =
    Some (jres_map OBool (db_exists (state_in state_view h (dr_state d)) (db_in db_view h (dr_db d)) (arg_buffer (get_or_undefined args 0)))).
  Proof. reflexivity. Qed.
  Lemma balance_call d h args : js_call (db_object state_view db_view d) ["getBalance"]%string h args =
    Some (jres_map to_bigint (db_get_balance (state_in state_view h (dr_state d)) (db_in db_view h (dr_db d)) (arg_buffer (get_or_undefined args 0)))).
  Proof. reflexivity. Qed.
  Lemma nonce_call d h args : js_call (db_object state_view db_view d) ["getNonce"]%string h args =
    Some (jres_map js_u64 (db_get_nonce (state_in state_view h (dr_state d)) (db_in db_view h (dr_db d)) (arg_buffer (get_or_undefined args 0)))).
  Proof. reflexivity. Qed.

  Lemma code_call d h args : js_call (db_object state_view db_view d) ["getCode"]%string h args =
    Some (jres_map to_byte_array (db_get_code (state_in state_view h (dr_state d)) (db_in db_view h (dr_db d)) (arg_buffer (get_or_undefined args 0)))).
  Proof. reflexivity. Qed.
  Lemma state_call d h args : js_call (db_object state_view db_view d) ["getState"]%string h args =
    Some (jres_map to_byte_array (db_get_state (state_in state_view h (dr_state d)) (db_in db_view h (dr_db d))
            (arg_buffer (get_or_undefined args 0)) (arg_buffer (get_or_undefined args 1)))).
  Proof. reflexivity. Qed.

  Lemma contract_ok l h : contract_answers (step_log_object op_text l) h (sg_contract l).
  Proof.
    intros args. split_and!; (eexists; split; [reflexivity|]);
      [apply address_bytes_word|apply address_bytes_word|apply to_bigint_big|done].
  Qed.

  Lemma stack_ok l h st : N.of_nat (length st) <= USIZE_MAX -> sg_stack_len l = N.of_nat (length st) ->
    cell_stack (h !! sg_stack l) = Some st -> stack_answers (step_log_object op_text l) h st.
  Proof.
    intros Hu Hl Hc. assert (Hs : stack_in h (sg_stack l) = Some st).
    { unfold stack_in. unfold cell_stack in Hc. destruct (h !! sg_stack l) as [[[]|]|]; congruence. }
    split_and!.
    - intros args. eexists. split; [reflexivity|]. rewrite Hl. apply js_u64_about.
    - intros args n i v Hn Hp Hv. apply first_number_arg in Hn.
      assert (Hi : i < N.of_nat (length st)) by (apply lookup_lt_Some in Hv; rewrite reverse_length in Hv; lia).
      destruct (peek_in st n i) as (v' & Hv' & Hpk); [done..|].
      assert (v' = v) as ->.
      { rewrite reverse_lookup in Hv by lia. replace (length st - S (N.to_nat i))%nat with (length st - 1 - N.to_nat i)%nat in Hv by lia.
        congruence. }
      exists (to_bigint v). split; [|apply to_bigint_big]. rewrite peek_call, Hn, Hs, Hl, Hpk. done.
    - intros args n Hn Hno. apply first_number_arg in Hn. unfold raises. rewrite peek_call, Hn, Hs, Hl.
      rewrite peek_out by done. done.
    - intros args Hn. apply no_number_arg in Hn. unfold raises. rewrite peek_call, Hn. done.
  Qed.

  Lemma memory_ok l h mem : N.of_nat (length mem) <= USIZE_MAX -> sg_memory_len l = N.of_nat (length mem) ->
    cell_memory (h !! sg_memory l) = Some mem -> memory_answers (step_log_object op_text l) h mem.
  Proof.
    intros Hu Hl Hc. assert (Hs : memory_in h (sg_memory l) = Some mem).
    { unfold memory_in. unfold cell_memory in Hc. destruct (h !! sg_memory l) as [[[]|]|]; congruence. }
    split_and!.
    - intros args. eexists. split; [reflexivity|]. rewrite Hl. apply js_u64_about.
    - intros args n i Hn Hp Hi. apply first_number_arg in Hn. eexists. split; [|done]. rewrite get_uint_call, Hn, Hs.
      rewrite (get_uint_in mem n i) by done. done.
    - intros args n i Hn Hp Hi Ho. apply first_number_arg in Hn. unfold raises. rewrite get_uint_call, Hn, Hs.
      rewrite get_uint_out; [done..| |].
      + rewrite (position_usize n i) by (done || lia). done.
      + intros (i' & Hp' & Hi'). rewrite <- (position_usize n i') in Hi' by (done || lia).
        rewrite (position_usize n i) in Hi' by (done || lia). lia.
    - intros args Hn. apply no_number_arg in Hn. unfold raises. rewrite get_uint_call, Hn. done.
    - intros args p q i Hp Hq Hr. apply number_arg in Hp, Hq. eexists. split; [|done]. rewrite slice_call, Hp, Hq, Hs.
      by rewrite (slice_to_end mem p q i).
    - intros args p q j Hp Hq Hj Hlt. apply number_arg in Hp, Hq. unfold raises. rewrite slice_call, Hp, Hq, Hs.
      by rewrite (slice_short mem p q j).
    - intros args Hn. unfold raises. rewrite slice_call. destruct Hn as [Hn|Hn]; apply no_number_arg in Hn; rewrite Hn; [done|].
      by destruct (arg_number (get_or_undefined args 0)).
  Qed.

  Lemma step_ok l db h s c error i : holdable i -> view_of h l db = instr_view s c error i ->
    step_answers op_text (step_log_object op_text l) h s c error i.
  Proof.
    intros [Hu1 Hu2] Hv.
    pose proof (f_equal vw_op Hv) as H1. pose proof (f_equal vw_pc Hv) as H2. pose proof (f_equal vw_gas Hv) as H3.
    pose proof (f_equal vw_depth Hv) as H4. pose proof (f_equal vw_refund Hv) as H5. pose proof (f_equal vw_error Hv) as H6.
    pose proof (f_equal vw_contract Hv) as H7. pose proof (f_equal vw_stack Hv) as H8. pose proof (f_equal vw_memory Hv) as H9.
    pose proof (f_equal vw_stack_len Hv) as H10. pose proof (f_equal vw_memory_len Hv) as H11.
    pose proof (f_equal vw_cost Hv) as H12. clear Hv.
    cbn [view_of instr_view vw_op vw_pc vw_gas vw_cost vw_depth vw_refund vw_error vw_contract vw_stack vw_memory vw_stack_len vw_memory_len] in *.
    split_and!.
    - intros args. rewrite <- H12, <- H1, <- H2, <- H3, <- H4, <- H5, <- H6. split_and!; (eexists; split; [reflexivity|]);
        try apply js_u64_about; [done..|]. by destruct (sg_error l).
    - rewrite <- H7. apply contract_ok.
    - by apply stack_ok.
    - by apply memory_ok.
  Qed.

  Lemma db_ok_in db h c : cell_state (h !! dr_state db) = Some c -> cell_db (h !! dr_db db) = Some c ->
    db_answers (state_view c) (db_view c) (db_object state_view db_view db) h.
  Proof.
    intros H1 H2.
    assert (Hst : state_in state_view h (dr_state db) = Some (state_view c)).
    { unfold state_in. unfold cell_state in H1. destruct (h !! dr_state db) as [[[]|]|]; congruence. }
    assert (Hdb : db_in db_view h (dr_db db) = Some (db_view c)).
    { unfold db_in. unfold cell_db in H2. destruct (h !! dr_db db) as [[[]|]|]; congruence. }
    clear H1 H2. split_and!.
    { intros args Hn. apply no_buffer_arg in Hn. repeat apply Forall_cons_2; [..|apply Forall_nil_2]; unfold raises.
      - rewrite exists_call. unfold db_exists, rmap_js, read_basic, with_buf, jres_map, rmap_js. by rewrite Hn.
      - rewrite balance_call. unfold db_get_balance, rmap_js, read_basic, with_buf, jres_map, rmap_js. by rewrite Hn.
      - rewrite nonce_call. unfold db_get_nonce, rmap_js, read_basic, with_buf, jres_map, rmap_js. by rewrite Hn.
      - rewrite code_call. unfold db_get_code, rmap_js, read_basic, with_buf, jres_map, rmap_js. by rewrite Hn.
      - rewrite state_call. unfold db_get_state, with_buf, jres_map, rmap_js. by rewrite Hn. }
    { intros args Hn. apply no_buffer_arg in Hn. unfold raises. rewrite state_call. unfold db_get_state, with_buf, jres_map, rmap_js.
      rewrite Hn. destruct (from_buf_value (arg_buffer (get_or_undefined args 0))) as [b|]; [|done].
      unfold bytes_to_address. destruct (bytes_to_array_spec 20 b) as (ad & -> & _). done. }
    { intros args b k Hb Hk. apply buffer_arg in Hb, Hk. unfold answers, raises. rewrite state_call, Hdb.
      unfold db_get_state, with_buf, jres_map, rmap_js. rewrite Hb.
      destruct (bytes_to_array_spec 20 b) as (ad & Ha1 & _ & Ha2). change (256 ^ N.of_nat 20) with (2 ^ 160) in Ha2.
      destruct (bytes_to_array_spec 32 k) as (sl & Hs1 & _ & Hs2). change (256 ^ N.of_nat 32) with (2 ^ 256) in Hs2.
      unfold bytes_to_address, bytes_to_hash. rewrite Ha1. cbn [rbind]. rewrite Hk, Hs1. cbn [rbind]. rewrite Ha2, Hs2.
      destruct (dv_storage _ _ _) as [x|]; cbn [rbind]; [|done]. eexists. split; [reflexivity|]. eexists. split; [done|].
      apply be_bytes_spec. }
    intros args b Hb acc. apply first_buffer_arg in Hb.
    destruct (bytes_to_array_spec 20 b) as (ad & Ha1 & _ & Ha2). change (256 ^ N.of_nat 20) with (2 ^ 160) in Ha2.
    set (v := arg_buffer (get_or_undefined args 0)) in *.
    assert (Hread : read_basic (Some (state_view c)) (Some (db_view c)) v =
      Ok (match acc with Some a => JReturn a | None => JThrow end)).
    { unfold read_basic, with_buf, bytes_to_address, acc, current_account. rewrite Hb, Ha1. cbn [rbind]. rewrite Ha2.
      destruct (sv_account _ _); [done|]. by destruct (dv_basic _ _). }
    clearbody acc. split.
    - intros a ->. assert (Hc : match a with
       | None => answers (db_object state_view db_view db) ["getCode"]%string h args (raw [])
       | Some i =>
           if ai_code_hash i =? KECCAK_EMPTY then answers (db_object state_view db_view db) ["getCode"]%string h args (raw [])
           else match dv_code (db_view c) (ai_code_hash i) with
                | Some c => answers (db_object state_view db_view db) ["getCode"]%string h args (raw c)
                | None => raises (db_object state_view db_view db) ["getCode"]%string h args
                end
       end).
      { unfold answers, raises. rewrite !code_call, Hst, Hdb. fold v. unfold db_get_code, jres_map, rmap_js. rewrite Hread.
        cbn [rbind jbind]. destruct a as [j|]; [|by eexists].
        destruct (ai_code_hash j =? KECCAK_EMPTY); [eexists; split; reflexivity|]. destruct (dv_code _ _); [eexists; split; reflexivity|done]. }
      split_and!; [..|exact Hc]; eexists; (split; [rewrite ?exists_call, ?balance_call, ?nonce_call, Hst, Hdb; fold v;
        unfold db_exists, db_get_balance, db_get_nonce, jres_map, rmap_js; rewrite Hread; reflexivity|]).
      + by destruct a.
      + apply to_bigint_big.
      + apply js_u64_about.
    - intros ->. unfold raises. rewrite exists_call, balance_call, nonce_call, code_call, Hst, Hdb. fold v.
      unfold db_exists, db_get_balance, db_get_nonce, db_get_code, jres_map, rmap_js. rewrite Hread. done.
  Qed.

  Lemma db_ok l db h s c error i : view_of h l db = instr_view s c error i ->
    db_answers (state_view c) (db_view c) (db_object state_view db_view db) h.
  Proof. intros Hv. apply db_ok_in; [exact (f_equal vw_state Hv)|exact (f_equal vw_db Hv)]. Qed.

  Lemma js_frame_ok s h : frame_answers (frame_object (spec_frame s)) h s.
  Proof.
    intros args. split_and!; (eexists; split; [reflexivity|]);
      [done|apply address_bytes_word|apply address_bytes_word|done|apply js_u64_about|apply to_bigint_big].
  Qed.
  Lemma js_result_ok r h : jr_error r = None -> result_answers (result_object r) h (jr_gas_used r) (jr_output r).
  Proof.
    intros He args. split_and!; (eexists; split; [reflexivity|]); [apply js_u64_about|done|]. by rewrite He.
  Qed.
End Answers.

(** ** Invocations and what they show *)

Lemma filter_seen p (q : seen -> bool) (log : list invocation) :
  (forall iv, q (seen_of iv) = of_kind p iv) ->
  List.filter q (map seen_of log) = map seen_of (List.filter (of_kind p) log).
Proof.
  intros H. induction log as [|iv log IH]; [done|]. cbn [map List.filter]. rewrite H, IH.
  by destruct (of_kind p iv).
Qed.
Lemma Forall2_of_map {A B C} (f : A -> C) (g : B -> C) (P : A -> B -> Prop) (l : list A) (k : list B) :
  map f l = map g k -> (forall a b, f a = g b -> P a b) -> Forall2 P l k.
Proof.
  intros H HP. revert k H. induction l as [|a l IH]; intros [|b k] H; [constructor|discriminate H|discriminate H|].
  cbn [map] in H. injection H as H1 H2. constructor; [by apply HP|]. by apply IH.
Qed.
Lemma entered_scopes f :
  List.filter is_enter (inner_scopes f) = map (fun s => SEnter (spec_frame s)) (entered_frames f).
Proof.
  induction f as [s body e IH] using frame_ind'. cbn [inner_scopes entered_frames].
  assert (Hh : forall hs, List.filter is_enter (flat_map (hook_scopes s) hs) =
    map (fun s => SEnter (spec_frame s)) (flat_map (fun h => match h with HSelfdestruct _ _ _ => [s] | HLog _ _ => [] end) hs)).
  { induction hs as [|[j l|a b v] hs IHh]; [done|exact IHh|]. cbn [flat_map hook_scopes]. rewrite List.filter_app, map_app, IHh. done. }
  induction body as [|it body IHb]; [done|]. cbn [flat_map]. rewrite List.filter_app, map_app. f_equal.
  2:{ apply IHb. destruct it; cbn [subs flat_map] in IH; try exact IH.
      change ([f] ++ ?l) with (f :: l) in IH. by apply Forall_cons_1 in IH as [_ IH]. }
  destruct it as [o|h|g].
  - apply Hh.
  - specialize (Hh [h]). cbn [flat_map] in Hh. by rewrite !app_nil_r in Hh.
  - change (subs (ISub g :: body)) with (g :: subs body) in IH. apply Forall_cons_1 in IH as [IH _].
    cbn [List.filter is_enter map]. rewrite List.filter_app. cbn [List.filter is_enter]. rewrite app_nil_r. f_equal. exact IH.
Qed.
