(** * PropertiesSums: C154, counters and transfers of a transaction add up over its calls *)

From Verif Require Import SimpleProofs SpecAgree PropertiesSimple PropertiesCalls Examples.
Local Open Scope N_scope.

Definition total (l : list N) : N := fold_right N.add 0 l.

(** The gas an instruction consumed. *)
Definition consumed (o : instr) : N :=
  Z.to_N (Z.max 0 (Z.of_N (g_remaining (in_gas (op_pre o))) - Z.of_N (g_remaining (in_gas (op_post o))))).

Lemma own_and_calls {A} (F : A -> N) (own : instr -> list A) (sub : frame -> list A) body :
  total (map F (flat_map (fun it => match it with IOp o => own o | IHook _ => [] | ISub g => sub g end) body)) =
  total (map F (flat_map own (instrs body))) + total (map (fun g => total (map F (sub g))) (subs body)).
Proof.
  assert (Ha : forall l1 l2, total (l1 ++ l2) = total l1 + total l2).
  { induction l1 as [|x l1 IH]; intros l2; cbn; [done|]. fold (total (l1 ++ l2)) (total l1). rewrite IH. lia. }
  induction body as [|[o|h|g] r IH]; [done|..]; cbn [flat_map].
  - change (instrs (IOp o :: r)) with (o :: instrs r). change (subs (IOp o :: r)) with (subs r). cbn [flat_map].
    rewrite !map_app, !Ha, IH. lia.
  - exact IH.
  - change (instrs (ISub g :: r)) with (instrs r). change (subs (ISub g :: r)) with (g :: subs r). cbn [map].
    rewrite map_app, Ha, IH. change (total (?x :: ?l)) with (x + total l). lia.
Qed.

Lemma total_filter {A} (P : A -> bool) (F : A -> N) l : total (map F (List.filter P l)) = total (map (fun x => if P x then F x else 0) l).
Proof. induction l as [|x l IH]; [done|]. cbn. destruct (P x); cbn; unfold total in *; rewrite IH; done. Qed.
Lemma total_ones {A} (l : list A) : total (map (fun _ => 1) l) = N.of_nat (length l).
Proof. induction l as [|x l IH]; [done|]. cbn [map length]. unfold total in *. cbn [fold_right]. rewrite IH. lia. Qed.
Lemma total_consumed (l : list instr) : total (map consumed l) = fold_right (fun o acc => consumed o + acc) 0 l.
Proof. induction l as [|x l IH]; [done|]. cbn. unfold total in *. by rewrite IH. Qed.
Lemma flat_map_single {A} (l : list A) : flat_map (fun x => [x]) l = l.
Proof. induction l as [|x l IH]; [done|]. cbn. by rewrite IH. Qed.

Lemma instrs_total (F : instr -> N) f :
  total (map F (all_instrs f)) = total (map F (instrs (f_body f))) + total (map (fun g => total (map F (all_instrs g))) (subs (f_body f))).
Proof. destruct f as [s body e]. cbn [all_instrs f_body]. rewrite (own_and_calls F (fun o => [o]) all_instrs). by rewrite flat_map_single. Qed.

Lemma total_of {A} (Q : frame -> A -> Prop) (F : A -> N) (G : frame -> N) gs ss :
  Forall2 Q gs ss -> (forall g s, Q g s -> F s = G g) -> total (map F ss) = total (map G gs).
Proof. intros H HQ. induction H as [|g s gs ss Hg _ IH]; [done|]. cbn. unfold total in *. by rewrite IH, (HQ g s Hg). Qed.

Lemma count_total {A} (P : A -> bool) l : N.of_nat (length (List.filter P l)) = total (map (fun x => if P x then 1 else 0) l).
Proof. rewrite <-(total_ones (List.filter P l)). apply (total_filter P (fun _ => 1)). Qed.

Lemma og_totals w f s op : run og_handle og_new (tx_events w f) = Ok s -> op_known op = true ->
  default 0 (og_counts s !! op) = total (map (fun o => if in_op (op_pre o) =? op then 1 else 0) (all_instrs f)) /\
  default 0 (og_gas s !! op) = total (map (fun o => if in_op (op_pre o) =? op then consumed o else 0) (all_instrs f)).
Proof.
  intros Hr Hk. destruct (C42_transaction_totals w f s op Hr Hk) as [H1 H2]. split.
  - etransitivity; [exact H1|]. apply (count_total (fun o => in_op (op_pre o) =? op)).
  - etransitivity; [exact H2|]. etransitivity; [symmetry; apply total_consumed|].
    apply (total_filter (fun o => in_op (op_pre o) =? op) consumed).
Qed.

(** Opcode gas inspector: counts and gas of the transaction are those of its own instructions, and those of its calls, each
    run as a transaction of its own. *)
Theorem C154_opcodes :
  forall w f s ss op, op_known op = true -> run og_handle og_new (tx_events w f) = Ok s ->
  Forall2 (fun g s' => run og_handle og_new (tx_events w g) = Ok s') (subs (f_body f)) ss ->
  let mine := List.filter (fun o => in_op (op_pre o) =? op) (instrs (f_body f)) in
  default 0 (og_counts s !! op) = N.of_nat (length mine) + total (map (fun s' => default 0 (og_counts s' !! op)) ss) /\
  default 0 (og_gas s !! op) = total (map consumed mine) + total (map (fun s' => default 0 (og_gas s' !! op)) ss).
Proof.
  intros w f s ss op Hk Hr Hs mine. destruct (og_totals w f s op Hr Hk) as [H1 H2]. split.
  - rewrite H1, instrs_total. unfold mine. rewrite count_total. apply (f_equal (N.add _)). symmetry.
    refine (total_of _ _ _ _ _ Hs _). cbn beta. intros g s' Hg. exact (proj1 (og_totals w g s' op Hg Hk)).
  - rewrite H2, instrs_total. unfold mine. rewrite (total_filter (fun o => in_op (op_pre o) =? op) consumed). apply (f_equal (N.add _)). symmetry.
    refine (total_of _ _ _ _ _ Hs _). cbn beta. intros g s' Hg. exact (proj2 (og_totals w g s' op Hg Hk)).
Qed.
Print Assumptions C154_opcodes.

Lemma steps_of_frame w f : forall d,
  length (List.filter (fun e => match e with EStep _ _ => true | _ => false end) (frame_events w d f)) = length (all_instrs f).
Proof.
  set (P := fun e => match e with EStep _ _ => true | _ => false end).
  induction f as [s body e IH] using frame_ind'. intros d. rewrite SimpleProofs.frame_events_eq. cbn [all_instrs].
  assert (Hs : P (start_event w d s) = false) by (by destruct s). assert (He : P (end_event w d s e) = false) by (by destruct s).
  cbn [List.filter]. rewrite Hs, List.filter_app. cbn [List.filter]. rewrite He, app_nil_r. clear Hs He.
  assert (Hh : forall hs, List.filter P (map (hook_event w (S d)) hs) = []) by (induction hs as [|[] hs IHh]; [done|exact IHh..]).
  induction body as [|[o|h|g] r IHr]; [done|..]; cbn [flat_map]; rewrite List.filter_app, !app_length.
  - f_equal; [|exact (IHr IH)]. cbn [item_events]. unfold instr_events. cbn [List.filter P]. rewrite List.filter_app, Hh. done.
  - rewrite (IHr IH). by destruct h.
  - change (subs (ISub g :: r)) with (g :: subs r) in IH. inversion_clear IH as [|? ? Hg Hr]. f_equal; [exact (Hg (S d))|exact (IHr Hr)].
Qed.

(** Opcode count inspector. *)
Theorem C154_instructions :
  forall w f s ss, run oc_handle oc_new (tx_events w f) = Ok s ->
  Forall2 (fun g s' => run oc_handle oc_new (tx_events w g) = Ok s') (subs (f_body f)) ss ->
  N.of_nat (oc_count s) = N.of_nat (length (instrs (f_body f))) + total (map (fun s' => N.of_nat (oc_count s')) ss).
Proof.
  intros w f s ss Hr Hs.
  assert (E : forall g s', run oc_handle oc_new (tx_events w g) = Ok s' -> N.of_nat (oc_count s') = total (map (fun _ => 1) (all_instrs g))).
  { intros g s' Hg. destruct (C44_opcount (tx_events w g)) as (s2 & H2 & Hc). rewrite Hg in H2. injection H2 as <-.
    rewrite Hc, total_ones. unfold tx_events. by rewrite steps_of_frame. }
  rewrite (E f s Hr), instrs_total, total_ones. apply (f_equal (N.add _)). symmetry.
  refine (total_of _ _ _ _ _ Hs _). cbn beta. intros g s' Hg. exact (E g s' Hg).
Qed.
Print Assumptions C154_instructions.
Example C154_instructions_example :
  exists s ss, run oc_handle oc_new (tx_events ex_world ex_tx) = Ok s /\
    Forall2 (fun g s' => run oc_handle oc_new (tx_events ex_world g) = Ok s') (subs (f_body ex_tx)) ss /\
    oc_count s = 13%nat /\ map oc_count ss = [3; 0; 1; 2]%nat.
Proof.
  do 2 eexists. split; [vm_compute; reflexivity|]. split; [repeat (constructor; [vm_compute; reflexivity|]); constructor|].
  vm_compute. split; reflexivity.
Qed.

(** Four-byte inspector: the entry of a selector and size counts the top call, if it is one, and the entries of its calls. *)
Theorem C154_selectors :
  forall w f s ss sel size, length sel = 4%nat -> run fb_handle fb_new (tx_events w f) = Ok s ->
  Forall2 (fun g s' => run fb_handle fb_new (tx_events w g) = Ok s') (subs (f_body f)) ss ->
  default 0 (fb_frame s !! fb_key sel size) =
    (if selected_frame sel size f then 1 else 0) + total (map (fun s' => default 0 (fb_frame s' !! fb_key sel size)) ss).
Proof.
  intros w f s ss sel size Hl Hr Hs.
  assert (E : forall g s', run fb_handle fb_new (tx_events w g) = Ok s' ->
    default 0 (fb_frame s' !! fb_key sel size) = total (map (fun x => if selected_frame sel size x then 1 else 0) (frames_of g))).
  { intros g s' Hg. destruct (C43_fourbyte_counts (tx_events w g)) as (s2 & H2 & Hc & _). rewrite Hg in H2. injection H2 as <-.
    rewrite (Hc sel size Hl). unfold tx_events. rewrite frames_selected. cbn zeta. rewrite <-(count_total (selected_frame sel size)).
    destruct (N.eqb_spec (N.of_nat (length (List.filter (selected_frame sel size) (frames_of g)))) 0) as [E|_]; [by rewrite E|reflexivity]. }
  rewrite (E f s Hr).
  assert (Hf : frames_of f = f :: flat_map (fun it => match it with IOp o => [] | IHook _ => [] | ISub g => frames_of g end) (f_body f)).
  { clear. destruct f as [st body e]. cbn [frames_of f_body]. f_equal. induction body as [|[o|h|g] r IH]; [done|exact IH|exact IH|]. cbn [flat_map]. by rewrite <-IH. }
  rewrite Hf. cbn [map]. change (total (?x :: ?l)) with (x + total l). apply (f_equal (N.add _)).
  rewrite (own_and_calls (fun x => if selected_frame sel size x then 1 else 0) (fun _ => []) frames_of).
  assert (forall l : list instr, flat_map (fun _ => @nil frame) l = []) as -> by (induction l; done). change (total (map ?F [])) with 0. rewrite N.add_0_l.
  symmetry. refine (total_of _ _ _ _ _ Hs _). cbn beta. intros g s' Hg. exact (E g s' Hg).
Qed.
Print Assumptions C154_selectors.

(** Transfer inspector: the transfers of a call run as a transaction of its own are found in one piece in those of the
    transaction that makes it at any depth. *)
Theorem C154_transfers :
  forall internal_only w f h g s s', In h (frames_of f) -> In g (subs (f_body h)) ->
  run tf_handle (tf_new internal_only) (tx_events w f) = Ok s -> run tf_handle (tf_new false) (tx_events w g) = Ok s' ->
  exists pre post, moved s = pre ++ moved s' ++ post.
Proof.
  intros io w f h g s s' Hh Hg Hr Hr'.
  destruct (C45_transfers_of_transaction io w f) as (s2 & H2 & E). rewrite Hr in H2. injection H2 as <-.
  destruct (C45_transfers_of_transaction false w g) as (s3 & H3 & E'). rewrite Hr' in H3. injection H3 as <-.
  rewrite E, E'. cbn [negb]. clear -Hh Hg. generalize (negb io) as top.
  assert (Hsub : forall body g, In g (subs body) -> exists pre post,
    flat_map (fun it => match it with IOp o => flat_map hook_movement (op_hooks o) | IHook h => hook_movement h | ISub g => movements true g end) body =
    pre ++ movements true g ++ post).
  { clear. intros body g Hin. induction body as [|[o|x|y] r IH]; [done|..]; cbn [flat_map].
    - destruct (IH Hin) as (pre & post & ->). eexists (_ ++ pre), post. by rewrite <-app_assoc.
    - destruct (IH Hin) as (pre & post & ->). eexists (_ ++ pre), post. by rewrite <-app_assoc.
    - change (subs (ISub y :: r)) with (y :: subs r) in Hin. destruct Hin as [->|Hin]; [exists []; eexists; reflexivity|].
      destruct (IH Hin) as (pre & post & ->). eexists (_ ++ pre), post. by rewrite <-app_assoc. }
  assert (Hone : forall h g top, In g (subs (f_body h)) -> exists pre post, movements top h = pre ++ movements true g ++ post).
  { intros [st body e] g0 top Hin. cbn [f_body] in Hin. cbn [movements]. destruct (Hsub body g0 Hin) as (pre & post & ->).
    exists ((if top then call_movement st else []) ++ pre), (post ++ (if top then create_movement st e else [])). by rewrite <-!app_assoc. }
  revert h g Hh Hg. induction f as [st body e IH] using frame_ind'. intros h g Hh Hg top. cbn [frames_of] in Hh. destruct Hh as [<-|Hh]; [by apply Hone|].
  assert (Hin : exists y, In y (subs body) /\ In h (frames_of y)).
  { clear -Hh. induction body as [|[o|x|y] r IHr]; [done|apply IHr, Hh|apply IHr, Hh|]. change (subs (ISub y :: r)) with (y :: subs r).
    apply in_app_iff in Hh as [Hh|Hh]; [exists y; split; [by left|done]|]. destruct (IHr Hh) as (z & Hz & Hz'). exists z. split; [by right|done]. }
  destruct Hin as (y & Hy & Hy'). rewrite List.Forall_forall in IH. destruct (IH y Hy h g Hy' Hg true) as (pre & post & E).
  destruct (Hone (Frame st body e) y top Hy) as (pre' & post' & ->). rewrite E. exists (pre' ++ pre), (post ++ post'). by rewrite <-!app_assoc.
Qed.
Print Assumptions C154_transfers.

(** The transaction of the examples with its four calls. *)
Example C154_example :
  (exists s ss, run og_handle og_new (tx_events ex_world ex_tx) = Ok s /\
     Forall2 (fun g s' => run og_handle og_new (tx_events ex_world g) = Ok s') (subs (f_body ex_tx)) ss) /\
  (exists s ss, run fb_handle fb_new (tx_events ex_world ex_tx) = Ok s /\
     Forall2 (fun g s' => run fb_handle fb_new (tx_events ex_world g) = Ok s') (subs (f_body ex_tx)) ss) /\
  (exists s s', run tf_handle (tf_new true) (tx_events ex_world ex_tx) = Ok s /\ run tf_handle (tf_new false) (tx_events ex_world ex_create) = Ok s' /\
     In ex_create (subs (f_body ex_tx)) /\ length (moved s) = 3%nat /\ length (moved s') = 2%nat).
Proof.
  split; [|split].
  - do 2 eexists. split; [vm_compute; reflexivity|]. repeat (constructor; [vm_compute; reflexivity|]). constructor.
  - assert (H : forall gs, exists ss, Forall2 (fun g s' => run fb_handle fb_new (tx_events ex_world g) = Ok s') gs ss).
    { induction gs as [|g gs [ss IH]]; [exists []; constructor|]. destruct (C43_fourbyte_counts (tx_events ex_world g)) as (s & Hs & _).
      exists (s :: ss). constructor; [exact Hs|exact IH]. }
    destruct (C43_fourbyte_counts (tx_events ex_world ex_tx)) as (s & Hs & _). destruct (H (subs (f_body ex_tx))) as [ss Hss].
    exists s, ss. split; [exact Hs|exact Hss].
  - do 2 eexists. split; [vm_compute; reflexivity|]. split; [vm_compute; reflexivity|]. split; [cbn; tauto|]. split; vm_compute; reflexivity.
Qed.
