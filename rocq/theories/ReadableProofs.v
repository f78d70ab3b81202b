(** * ReadableProofs: the written trace can be read in one way only *)

From Verif Require Export SpecReadable SimpleProofs TxTextProofs.
Local Open Scope N_scope.

(** ** Texts that end where they must *)

Lemma span {A} (P : A -> Prop) (a b : list A) c d r r' :
  Forall P a -> Forall P b -> ~ P c -> ~ P d -> a ++ c :: r = b ++ d :: r' -> a = b /\ c :: r = d :: r'.
Proof.
  revert b. induction a as [|x a IH]; intros [|y b] Ha Hb Hc Hd E.
  - done.
  - cbn in E. injection E as -> _. by apply Forall_cons in Hb as [Hb _].
  - cbn in E. injection E as -> _. by apply Forall_cons in Ha as [Ha _].
  - cbn in E. injection E as -> E. apply Forall_cons in Ha as [_ Ha]. apply Forall_cons in Hb as [_ Hb].
    destruct (IH b Ha Hb Hc Hd E) as [-> ->]. done.
Qed.

(** A text up to a fixed token. *)
Lemma tok {A} (P : A -> Prop) (a b t r r' : list A) : Forall P a -> Forall P b -> (exists c s, t = c :: s /\ ~ P c) ->
  a ++ t ++ r = b ++ t ++ r' -> a = b /\ r = r'.
Proof.
  intros Ha Hb (c & s & -> & Hc) E. cbn [app] in E. apply (span P) in E as [-> E]; try done. injection E as E. by apply app_inv_head in E.
Qed.
Ltac token := eexists _, _; split; [reflexivity|]; intros H; vm_compute in H; intuition discriminate.

Definition digit (c : byte) : Prop := dec_value c <> None.
Lemma dec_digits n : Forall digit (dec_text n).
Proof. apply dec_text_spec. Qed.
(** A decimal number followed by something else. *)
Lemma dec_split n m t r r' : (exists c s, t = c :: s /\ ~ digit c) -> dec_text n ++ t ++ r = dec_text m ++ t ++ r' -> n = m /\ r = r'.
Proof. intros Ht E. apply (tok digit) in E as [E ->]; try done; [|apply dec_digits..]. by apply dec_text_inj in E. Qed.

Definition hexchar (c : byte) : Prop := In c (txt "0123456789abcdef").
Lemma hex_chars l : Forall hexchar (spec_hex l).
Proof.
  unfold spec_hex. induction l as [|b l IH]; [constructor|]. cbn [map concat app].
  assert (Hd : forall n, n < 16 -> hexchar (spec_digit n)).
  { intros n Hn. unfold hexchar, spec_digit. apply nth_In. cbn. lia. }
  assert (Hb : Byte.to_N b < 256) by (by destruct b).
  constructor; [apply Hd, N.div_lt_upper_bound; lia|]. constructor; [apply Hd, N.mod_lt; lia|]. done.
Qed.
Lemma hex_inj a b : spec_hex a = spec_hex b -> a = b.
Proof. rewrite !spec_hex_eq. apply hex_encode_inj. Qed.
Lemma hex_length l : length (spec_hex l) = (2 * length l)%nat.
Proof. by rewrite spec_hex_eq, hex_encode_length. Qed.
Lemma hex_split a b t r r' : (exists c s, t = c :: s /\ ~ hexchar c) -> spec_hex a ++ t ++ r = spec_hex b ++ t ++ r' -> a = b /\ r = r'.
Proof. intros Ht E. apply (tok hexchar) in E as [E ->]; try done; [|apply hex_chars..]. by apply hex_inj in E. Qed.

Lemma be_bytes_inj len : forall n m, n < 256 ^ N.of_nat len -> m < 256 ^ N.of_nat len -> Writer.be_bytes len n = Writer.be_bytes len m -> n = m.
Proof.
  induction len as [|len IH]; intros n m Hn Hm E; [cbn in Hn, Hm; lia|]. cbn [Writer.be_bytes] in E.
  apply app_inj_tail in E as [E1 E2]. rewrite Nat2N.inj_succ, N.pow_succ_r' in Hn, Hm.
  apply IH in E1; [|apply N.div_lt_upper_bound; lia..].
  assert (Hmod : forall k, exists b, Byte.of_N (k mod 256) = Some b /\ Byte.to_N b = k mod 256).
  { intros k. assert (k mod 256 < 256) by (apply N.mod_lt; lia). destruct (Byte.of_N (k mod 256)) as [b|] eqn:Eb.
    - exists b. split; [done|]. by apply Byte.to_of_N.
    - apply Byte.of_N_None_iff in Eb. lia. }
  destruct (Hmod n) as (b & Hb & Hb'), (Hmod m) as (b' & Hc & Hc'). rewrite Hb, Hc in E2. cbn in E2. unfold id in E2. subst b'.
  rewrite (N.div_mod n 256), (N.div_mod m 256) by lia. congruence.
Qed.
Lemma be_bytes_length len : forall n, length (Writer.be_bytes len n) = len.
Proof. induction len as [|len IH]; intros n; [done|]. cbn [Writer.be_bytes]. rewrite app_length, IH. cbn. lia. Qed.
Lemma word_inj a b : a < 2 ^ 256 -> b < 2 ^ 256 -> spec_word a = spec_word b -> a = b.
Proof. intros Ha Hb. rewrite !spec_word_eq. unfold show_word. intros E. apply app_inv_head, hex_encode_inj, be_bytes_inj in E; done. Qed.
Lemma word_length a : length (spec_word a) = 66%nat.
Proof. rewrite spec_word_eq. unfold show_word. rewrite app_length, hex_encode_length, be_bytes_length. done. Qed.

Definition all_results : list InstructionResult :=
  [Continue; Stop; Return; SelfDestruct; ReturnContract; Revert; CallTooDeep; OutOfFunds; CreateInitCodeStartingEF00; InvalidEOFInitCode;
   InvalidExtDelegateCallTarget; CallOrCreate; OutOfGas; MemoryOOG; MemoryLimitOOG; PrecompileOOG; InvalidOperandOOG; OpcodeNotFound;
   CallNotAllowedInsideStatic; StateChangeDuringStaticCall; InvalidFEOpcode; InvalidJump; NotActivated; StackUnderflow; StackOverflow;
   OutOfOffset; CreateCollision; OverflowPayment; PrecompileError; NonceOverflow; CreateContractSizeLimit; CreateContractStartingWithEF;
   CreateInitCodeSizeLimit; FatalExternalError; ReturnContractInNotInitEOF; EOFOpcodeDisabledInLegacy; EOFFunctionStackOverflow;
   EofAuxDataOverflow; EofAuxDataTooSmall; InvalidEXTCALLTarget].
Lemma debug_found r : List.find (fun x => bool_decide (txt (ir_debug x) = txt (ir_debug r))) all_results = Some r.
Proof. by destruct r. Qed.
Lemma debug_inj a b : txt (ir_debug a) = txt (ir_debug b) -> a = b.
Proof. intros E. pose proof (debug_found a) as H. rewrite E, debug_found in H. congruence. Qed.
Lemma debug_chars r : Forall (fun c => c <> x5d) (txt (ir_debug r)).
Proof. apply (bool_decide_unpack _). by destruct r. Qed.

(** ** The text of what is seen *)
Section text.
  Context (ck : address -> list byte) (colors cheat : bool).

  Definition seen_color (a : address) (st : InstructionResult) : N :=
    if cheat && (a =? 0x7109709ECfa91a80626fF3989D68f67F5b1DD12D) then 34 else if spec_success st then 32 else 31.
  Definition out_text (out : bytes) : list byte := match out with [] => [] | _ => txt "0x" ++ spec_hex out end.
  Definition head_text (x : seen) : list byte :=
    match x with
    | SeenLog _ _ => []
    | SeenCall gas kind a v input _ st _ =>
        txt "[" ++ dec_text gas ++ txt "] " ++
        spec_color colors (seen_color a st) (ck a) ++ txt "::" ++
        spec_color colors (seen_color a st) (if (length input <? 4)%nat then txt "fallback" else spec_hex (take 4 input)) ++
        (if v =? 0 then [] else txt "{value: " ++ dec_text v ++ txt "}") ++
        txt "(" ++ spec_hex (if (length input <? 4)%nat then input else drop 4 input) ++ txt ")" ++
        kind_note colors kind
    | SeenCreate gas a _ st _ =>
        txt "[" ++ dec_text gas ++ txt "] " ++ spec_color colors 33 (txt "→ new") ++ txt " <unknown>@" ++ ck a
    end.
  Definition tail_text (x : seen) : list byte :=
    match x with
    | SeenLog _ _ => []
    | SeenCall _ _ a _ _ _ st out =>
        spec_color colors (seen_color a st) (txt "← [" ++ txt (ir_debug st) ++ txt "] ") ++ out_text out
    | SeenCreate _ a _ st size =>
        spec_color colors (seen_color a st) (txt "← [" ++ txt (ir_debug st) ++ txt "] ") ++ dec_text (N.of_nat size) ++ txt " bytes of code"
    end.
  Definition log_text (k : N) (topics : list U256) (data : bytes) : list byte :=
    spec_branch k ++ concat (imap (spec_topic colors k) topics) ++
    (if bool_decide (topics = []) then [] else spec_indent k ++ txt "  │ ") ++
    txt "          data: " ++ spec_color colors 36 (txt "0x" ++ spec_hex data) ++ [x0a].
  Fixpoint seen_text (k : N) (x : seen) : list byte :=
    match x with
    | SeenLog topics data => log_text k topics data
    | SeenCall _ _ _ _ _ inside _ _ | SeenCreate _ _ inside _ _ =>
        spec_branch k ++ head_text x ++ [x0a] ++ concat (map (seen_text (k + 1)) inside) ++
        spec_indent (k + 1) ++ txt "  └─ " ++ tail_text x ++ [x0a]
    end.

  Lemma body_text_seen cfg w v body :
    Forall (fun g => forall root v k, call_text ck colors cheat cfg w root v k g = seen_text k (sees cfg w root v g)) (subs body) ->
    forall k,
    (fix go (l : list item) : list byte :=
       match l with
       | [] => []
       | IOp o :: r => hook_lines colors cfg k (op_hooks o) ++ go r
       | IHook h :: r => hook_lines colors cfg k [h] ++ go r
       | ISub h :: r =>
           if hidden_call cfg w v (f_start h) then go r
           else call_text ck colors cheat cfg w false (call_value v (f_start h)) k h ++ go r
       end) body =
    concat (map (seen_text k)
      ((fix go (l : list item) : list seen :=
         match l with
         | [] => []
         | IOp o :: r => seen_logs cfg (op_hooks o) ++ go r
         | IHook h :: r => seen_logs cfg [h] ++ go r
         | ISub h :: r =>
             if hidden_call cfg w v (f_start h) then go r
             else sees cfg w false (call_value v (f_start h)) h :: go r
         end) body)).
  Proof.
    assert (Hlogs : forall k hs, hook_lines colors cfg k hs = concat (map (seen_text k) (seen_logs cfg hs))).
    { intros k hs. unfold hook_lines, seen_logs. destruct (record_logs cfg); [|done]. by rewrite map_map. }
    induction body as [|[o|h|g] r IH]; intros Hf k; [done|..].
    - rewrite map_app, concat_app, <-Hlogs. f_equal. by apply IH.
    - rewrite map_app, concat_app, <-Hlogs. f_equal. by apply IH.
    - cbn [subs flat_map app] in Hf. apply Forall_cons in Hf as [Hg Hf].
      destruct (hidden_call cfg w v (f_start g)); [by apply IH|]. cbn [map concat]. rewrite Hg. f_equal. by apply IH.
  Qed.
  Lemma call_text_seen cfg w g : forall root v k, call_text ck colors cheat cfg w root v k g = seen_text k (sees cfg w root v g).
  Proof.
    induction g as [s body e IH] using frame_ind'. intros root v k. cbn [call_text sees]. rewrite (body_text_seen cfg w v body IH).
    unfold first_line, last_line, call_color. cbn [f_start f_end]. destruct (is_call s) eqn:Ei; cbn [seen_text head_text tail_text]; unfold seen_color, out_text.
    - by rewrite <-!app_assoc.
    - by rewrite <-!app_assoc.
  Qed.
End text.

(** ** Reading it *)

Section seen_ind.
  Variable P : seen -> Prop.
  Hypothesis H1 : forall topics data, P (SeenLog topics data).
  Hypothesis H2 : forall gas kind a v input inside st out, Forall P inside -> P (SeenCall gas kind a v input inside st out).
  Hypothesis H3 : forall gas a inside st size, Forall P inside -> P (SeenCreate gas a inside st size).
  Fixpoint seen_ind' (x : seen) : P x :=
    let fix go (l : list seen) : Forall P l :=
      match l with [] => Forall_nil_2 P | y :: r => Forall_cons_2 P y r (seen_ind' y) (go r) end in
    match x with
    | SeenLog topics data => H1 topics data
    | SeenCall gas kind a v input inside st out => H2 gas kind a v input inside st out (go inside)
    | SeenCreate gas a inside st size => H3 gas a inside st size (go inside)
    end.
End seen_ind.

Definition any_call (k : CallKind) : bool := match k with KCreate | KCreate2 => false | _ => true end.
Fixpoint proper (x : seen) : Prop :=
  let fix all (l : list seen) : Prop := match l with [] => True | y :: r => proper y /\ all r end in
  match x with
  | SeenLog topics _ => Forall (fun t => t < 2 ^ 256) topics
  | SeenCall _ kind a _ _ inside _ _ => any_call kind = true /\ a < 2 ^ 160 /\ all inside
  | SeenCreate _ a inside _ _ => a < 2 ^ 160 /\ all inside
  end.
Fixpoint proper_all (l : list seen) : Prop := match l with [] => True | y :: r => proper y /\ proper_all r end.
Lemma proper_call gas kind a v input inside st out :
  proper (SeenCall gas kind a v input inside st out) <-> any_call kind = true /\ a < 2 ^ 160 /\ proper_all inside.
Proof. done. Qed.
Lemma proper_create gas a inside st size : proper (SeenCreate gas a inside st size) <-> a < 2 ^ 160 /\ proper_all inside.
Proof. done. Qed.

Section read.
  Context (ck : address -> list byte) (colors cheat : bool) (Hck : checksums ck).
  Notation seen_text := (seen_text ck colors cheat).
  Notation head_text := (head_text ck colors cheat).
  Notation tail_text := (tail_text colors cheat).

  Lemma ck_length a : length (ck a) = 42%nat.
  Proof. destruct (ck_form ck Hck a) as (d & -> & Hd). rewrite app_length, Hd. done. Qed.

  (** Colours with two digits. *)
  Definition two_digits (c : N) : Prop := length (dec_text c) = 2%nat.
  Lemma seen_color_two a st : two_digits (seen_color cheat a st).
  Proof. unfold seen_color. destruct (_ && _); [done|]. by destruct (spec_success st). Qed.
  Lemma color_split c c' s s' r r' : two_digits c -> two_digits c' -> length s = length s' ->
    spec_color colors c s ++ r = spec_color colors c' s' ++ r' -> (colors = true -> c = c') /\ s = s' /\ r = r'.
  Proof.
    unfold two_digits, spec_color. intros Hc Hc' Hl E. destruct colors.
    - rewrite <-!app_assoc in E. do 2 apply app_inv_head in E. apply app_inj_1 in E as [E1 E]; [|by rewrite Hc, Hc'].
      apply app_inv_head in E. apply app_inj_1 in E as [-> E]; [|done]. do 2 apply app_inv_head in E.
      apply dec_text_inj in E1. done.
    - apply app_inj_1 in E as [-> E]; done.
  Qed.
  Lemma color_open c c' s s' r r' : two_digits c -> two_digits c' ->
    spec_color colors c s ++ r = spec_color colors c' s' ++ r' ->
    let close := if colors then [x1b] ++ txt "[0m" else [] in s ++ close ++ r = s' ++ close ++ r'.
  Proof.
    unfold two_digits, spec_color. intros Hc Hc' E. destruct colors; cbv zeta.
    - rewrite <-!app_assoc in E. do 2 apply app_inv_head in E. apply app_inj_1 in E as [E1 E]; [|by rewrite Hc, Hc'].
      apply app_inv_head in E. by rewrite <-!app_assoc.
    - done.
  Qed.

  (** The last line of a call. *)
  Lemma status_split c c' st st' r r' : two_digits c -> two_digits c' ->
    spec_color colors c (txt "← [" ++ txt (ir_debug st) ++ txt "] ") ++ r = spec_color colors c' (txt "← [" ++ txt (ir_debug st') ++ txt "] ") ++ r' ->
    st = st' /\ r = r'.
  Proof.
    intros Hc Hc' E. apply color_open in E; [|done..]. cbv zeta in E. rewrite <-!app_assoc in E. apply app_inv_head in E.
    apply (tok (fun c => c <> x5d)) in E as [E1 E2]; try apply debug_chars; [|eexists _, _; split; [reflexivity|]; by intros H; apply H].
    apply debug_inj in E1 as ->. by apply app_inv_head in E2.
  Qed.
  Lemma no_newline_hex l : Forall (fun c => c <> x0a) (spec_hex l).
  Proof. eapply Forall_impl; [apply hex_chars|]. intros x Hx ->. vm_compute in Hx. intuition discriminate. Qed.
  Lemma out_split o o' r r' : out_text o ++ [x0a] ++ r = out_text o' ++ [x0a] ++ r' -> o = o' /\ r = r'.
  Proof.
    assert (Hn : forall o, Forall (fun c => c <> x0a) (out_text o)).
    { intros [|b l]; [constructor|]. unfold out_text. apply Forall_app. split; [by apply (bool_decide_unpack _)|apply no_newline_hex]. }
    intros E. apply (tok (fun c => c <> x0a)) in E as [E1 ->]; try apply Hn; [|eexists _, _; split; [reflexivity|]; by intros H; apply H].
    split; [|done]. unfold out_text in E1.
    destruct o as [|b o], o' as [|b' o']; [done|cbn in E1; discriminate..|]. apply app_inv_head in E1. by apply hex_inj in E1.
  Qed.

  (** The first line of a call. *)
  Definition name_text (input : bytes) : list byte := if (length input <? 4)%nat then txt "fallback" else spec_hex (take 4 input).
  Lemma name_length input : length (name_text input) = 8%nat.
  Proof. unfold name_text. destruct (Nat.ltb_spec (length input) 4); [done|]. rewrite hex_length, take_length. lia. Qed.
  Lemma not_fallback l : txt "fallback" <> spec_hex l.
  Proof.
    intros E. pose proof (hex_chars l) as H. rewrite <-E in H. apply Forall_cons in H as [_ H]. apply Forall_cons in H as [_ H].
    apply Forall_cons in H as [H _]. vm_compute in H. intuition discriminate.
  Qed.
  Lemma kind_split k k' r r' : any_call k = true -> any_call k' = true ->
    kind_note colors k ++ [x0a] ++ r = kind_note colors k' ++ [x0a] ++ r' -> k = k' /\ r = r'.
  Proof.
    intros Hk Hk' E.
    assert (Hn : forall k, Forall (fun c => c <> x0a) (kind_note colors k)).
    { intros []; destruct colors; apply (bool_decide_unpack _); vm_compute; exact I. }
    apply (tok (fun c => c <> x0a)) in E as [E1 ->]; try apply Hn; [|eexists _, _; split; [reflexivity|]; by intros H; apply H].
    split; [|done]. destruct k, k'; try done; exfalso; destruct colors; vm_compute in E1; discriminate.
  Qed.
  Lemma call_head_split gas kind a v input i st out gas' kind' a' v' input' i' st' out' r r' :
    any_call kind = true -> any_call kind' = true -> a < 2 ^ 160 -> a' < 2 ^ 160 ->
    head_text (SeenCall gas kind a v input i st out) ++ [x0a] ++ r = head_text (SeenCall gas' kind' a' v' input' i' st' out') ++ [x0a] ++ r' ->
    gas = gas' /\ kind = kind' /\ a = a' /\ v = v' /\ input = input' /\ r = r'.
  Proof.
    intros Hk Hk' Ha Ha' E. cbn [ReadableProofs.head_text] in E. rewrite <-!app_assoc in E. apply app_inv_head in E.
    apply dec_split in E as [-> E]; [|token].
    apply color_split in E as (_ & E1 & E); [|apply seen_color_two..|by rewrite !ck_length].
    apply (ck_inj ck Hck) in E1 as ->; [|done..]. apply app_inv_head in E. fold (name_text input) (name_text input') in E.
    apply color_split in E as (_ & En & E); [|apply seen_color_two..|by rewrite !name_length].
    assert (Hv : v = v' /\ spec_hex (if (length input <? 4)%nat then input else drop 4 input) ++ txt ")" ++ kind_note colors kind ++ [x0a] ++ r =
                 spec_hex (if (length input' <? 4)%nat then input' else drop 4 input') ++ txt ")" ++ kind_note colors kind' ++ [x0a] ++ r').
    { clear En. destruct (N.eqb_spec v 0) as [->|Hv], (N.eqb_spec v' 0) as [->|Hv']; rewrite <-?app_assoc in E.
      - rewrite !app_nil_l in E. apply app_inv_head in E. done.
      - cbn in E. discriminate.
      - cbn in E. discriminate.
      - apply app_inv_head in E. apply dec_split in E as [-> E]; [|token]. by apply app_inv_head in E. }
    clear E. destruct Hv as [-> E]. apply hex_split in E as [Ed E]; [|token]. apply kind_split in E as [-> E]; [|done..].
    split_and!; try done. unfold name_text in En.
    destruct (Nat.ltb_spec (length input) 4), (Nat.ltb_spec (length input') 4); [done|by apply not_fallback in En| |].
    - symmetry in En. by apply not_fallback in En.
    - apply hex_inj in En. rewrite <-(take_drop 4 input), <-(take_drop 4 input'). congruence.
  Qed.
  Lemma create_head_split gas a i st size gas' a' i' st' size' r r' : a < 2 ^ 160 -> a' < 2 ^ 160 ->
    head_text (SeenCreate gas a i st size) ++ [x0a] ++ r = head_text (SeenCreate gas' a' i' st' size') ++ [x0a] ++ r' ->
    gas = gas' /\ a = a' /\ r = r'.
  Proof.
    intros Ha Ha' E. cbn [ReadableProofs.head_text] in E. rewrite <-!app_assoc in E. apply app_inv_head in E.
    apply dec_split in E as [-> E]; [|token].
    do 2 apply app_inv_head in E. apply app_inj_1 in E as [E1 E]; [|by rewrite !ck_length].
    apply (ck_inj ck Hck) in E1 as ->; [|done..]. by injection E as ->.
  Qed.
  Lemma call_not_create gas kind a v input i st out gas' a' i' st' size' r r' :
    head_text (SeenCall gas kind a v input i st out) ++ r <> head_text (SeenCreate gas' a' i' st' size') ++ r'.
  Proof.
    intros E. cbn [ReadableProofs.head_text] in E. rewrite <-!app_assoc in E. apply app_inv_head in E.
    apply dec_split in E as [-> E]; [|token].
    apply color_open in E; [|apply seen_color_two|done]. cbv zeta in E. destruct (ck_form ck Hck a) as (d & Hd & _). rewrite Hd in E.
    cbn in E. discriminate.
  Qed.

  (** A log. *)
  Lemma topic_split k i t t' r r' : t < 2 ^ 256 -> t' < 2 ^ 256 ->
    spec_topic colors k i t ++ r = spec_topic colors k i t' ++ r' -> t = t' /\ r = r'.
  Proof.
    intros Ht Ht' E. unfold spec_topic in E. rewrite <-!app_assoc in E. do 2 apply app_inv_head in E.
    apply color_split in E as (_ & E1 & E); [|done..|by rewrite !word_length]. apply word_inj in E1 as ->; [|done..].
    by apply app_inv_head in E.
  Qed.
  (** After a first topic: the next topic or the data. *)
  Lemma topics_split k : forall l l' i r r', (0 < i)%nat -> Forall (fun t => t < 2 ^ 256) l -> Forall (fun t => t < 2 ^ 256) l' ->
    concat (imap (fun j => spec_topic colors k (i + j)) l) ++ spec_indent k ++ txt "  │ " ++ txt "          data: " ++ r =
    concat (imap (fun j => spec_topic colors k (i + j)) l') ++ spec_indent k ++ txt "  │ " ++ txt "          data: " ++ r' ->
    l = l' /\ r = r'.
  Proof.
    assert (Hne : forall i t r r', (0 < i)%nat -> spec_topic colors k i t ++ r <> spec_indent k ++ txt "  │ " ++ txt "          data: " ++ r').
    { intros i t r r' Hi E. unfold spec_topic in E. destruct (Nat.eqb_spec i 0); [lia|]. rewrite <-!app_assoc in E.
      do 2 apply app_inv_head in E. cbn in E. discriminate. }
    assert (Hext : forall i l, imap ((fun j => spec_topic colors k (i + j)) ∘ S) l = imap (fun j => spec_topic colors k (S i + j)) l).
    { intros i l. apply imap_ext. intros j x _. cbn [compose]. by rewrite Nat.add_succ_r. }
    induction l as [|t l IH]; intros [|t' l'] i r r' Hi Hl Hl' E.
    - cbn [imap concat app] in E. by do 3 apply app_inv_head in E.
    - cbn [imap concat app] in E. rewrite Nat.add_0_r, <-app_assoc in E. symmetry in E. by apply Hne in E.
    - cbn [imap concat app] in E. rewrite Nat.add_0_r, <-app_assoc in E. by apply Hne in E.
    - cbn [imap concat] in E. rewrite Nat.add_0_r, <-!app_assoc, !Hext in E. apply Forall_cons in Hl as [Ht Hl]. apply Forall_cons in Hl' as [Ht' Hl'].
      apply topic_split in E as [-> E]; [|done..]. apply IH in E as [-> ->]; [done|lia|done..].
  Qed.
  Lemma data_split data data' r r' :
    spec_color colors 36 (txt "0x" ++ spec_hex data) ++ [x0a] ++ r = spec_color colors 36 (txt "0x" ++ spec_hex data') ++ [x0a] ++ r' ->
    data = data' /\ r = r'.
  Proof.
    intros E. apply color_open in E; [|done..]. cbv zeta in E. rewrite <-!app_assoc in E. apply app_inv_head in E.
    destruct colors.
    - rewrite <-!app_assoc in E. apply hex_split in E as [-> E]; [|token]. by do 2 apply app_inv_head in E.
    - cbn [app] in E. change (x0a :: r) with ([x0a] ++ r) in E. change (x0a :: r') with ([x0a] ++ r') in E. apply hex_split in E as [-> E]; [|token]. done.
  Qed.
  Lemma log_split k l data l' data' r r' : Forall (fun t => t < 2 ^ 256) l -> Forall (fun t => t < 2 ^ 256) l' ->
    log_text colors k l data ++ r = log_text colors k l' data' ++ r' -> l = l' /\ data = data' /\ r = r'.
  Proof.
    intros Hl Hl' E. unfold log_text in E. rewrite <-!app_assoc in E. apply app_inv_head in E.
    assert (Hext : forall l, imap (spec_topic colors k ∘ S) l = imap (fun j => spec_topic colors k (1 + j)) l) by done.
    destruct l as [|t l], l' as [|t' l'].
    - cbn [imap concat app] in E. do 2 apply app_inv_head in E. apply data_split in E as [-> ->]. done.
    - cbn [imap concat] in E. unfold spec_topic at 1 in E. cbn in E. discriminate.
    - cbn [imap concat] in E. unfold spec_topic at 1 in E. cbn in E. discriminate.
    - rewrite !bool_decide_eq_false_2 in E by done. cbn [imap concat] in E. rewrite !Hext, <-!app_assoc in E.
      apply Forall_cons in Hl as [Ht Hl]. apply Forall_cons in Hl' as [Ht' Hl'].
      apply topic_split in E as [-> E]; [|done..]. apply topics_split in E as [-> E]; [|lia|done..]. apply data_split in E as [-> ->]. done.
  Qed.
  Lemma log_not_call k l data x r r' : (match x with SeenLog _ _ => False | _ => True end) ->
    log_text colors k l data ++ r <> spec_branch k ++ head_text x ++ r'.
  Proof.
    intros Hx E. unfold log_text in E. rewrite <-!app_assoc in E. apply app_inv_head in E.
    destruct x; [done|..]; destruct l; cbn in E; discriminate.
  Qed.

  (** ** One item after the other *)
  Lemma branch_next k : k <> 0 -> spec_branch k = spec_indent k ++ txt "  ├─ ".
  Proof. intros Hk. unfold spec_branch. by destruct (N.eqb_spec k 0). Qed.
  Lemma seen_starts k x : exists t, seen_text k x = spec_branch k ++ t.
  Proof. destruct x; cbn [ReadableProofs.seen_text]; unfold log_text; by eexists. Qed.

  Definition readable (x : seen) : Prop :=
    forall k y r r', proper x -> proper y -> seen_text k x ++ r = seen_text k y ++ r' -> x = y /\ r = r'.
  Lemma inside_split k l : k <> 0 -> Forall readable l -> forall l' r r', proper_all l -> proper_all l' ->
    concat (map (seen_text k) l) ++ spec_indent k ++ txt "  └─ " ++ r = concat (map (seen_text k) l') ++ spec_indent k ++ txt "  └─ " ++ r' ->
    l = l' /\ r = r'.
  Proof.
    intros Hk. induction l as [|x l IH]; intros Hf [|y l'] r r' Hp Hp' E.
    - cbn [map concat app] in E. by do 2 apply app_inv_head in E.
    - exfalso. cbn [map concat app] in E. destruct (seen_starts k y) as (t & Ht). rewrite Ht, branch_next in E by done. rewrite <-!app_assoc in E.
      apply app_inv_head in E. cbn in E. discriminate.
    - exfalso. cbn [map concat app] in E. destruct (seen_starts k x) as (t & Ht). rewrite Ht, branch_next in E by done. rewrite <-!app_assoc in E.
      apply app_inv_head in E. cbn in E. discriminate.
    - cbn [map concat] in E. rewrite <-!app_assoc in E. apply Forall_cons in Hf as [Hx Hf]. destruct Hp as [Hp1 Hp], Hp' as [Hp1' Hp'].
      apply Hx in E as [-> E]; [|done..]. apply IH in E as [-> ->]; done.
  Qed.
  Lemma seen_readable x : readable x.
  Proof.
    induction x as [topics data|gas kind a v input inside st out IH|gas a inside st size IH] using seen_ind'; intros k y r r' Hx Hy E.
    - destruct y as [topics' data'|gas' kind' a' v' input' inside' st' out'|gas' a' inside' st' size'].
      + apply log_split in E as (-> & -> & ->); done.
      + exfalso. cbn [ReadableProofs.seen_text] in E. rewrite <-!app_assoc in E. by apply log_not_call in E.
      + exfalso. cbn [ReadableProofs.seen_text] in E. rewrite <-!app_assoc in E. by apply log_not_call in E.
    - destruct y as [topics' data'|gas' kind' a' v' input' inside' st' out'|gas' a' inside' st' size'].
      + exfalso. cbn [ReadableProofs.seen_text] in E. rewrite <-!app_assoc in E. symmetry in E. by apply log_not_call in E.
      + apply proper_call in Hx as (Hk & Ha & Hi). apply proper_call in Hy as (Hk' & Ha' & Hi').
        cbn [ReadableProofs.seen_text] in E. rewrite <-!app_assoc in E. apply app_inv_head in E.
        apply call_head_split in E as (-> & -> & -> & -> & -> & E); [|done..].
        apply inside_split in E as [-> E]; [|lia|done..]. cbn [ReadableProofs.tail_text] in E. rewrite <-!app_assoc in E.
        apply status_split in E as [-> E]; [|apply seen_color_two..]. apply out_split in E as [-> ->]. done.
      + exfalso. cbn [ReadableProofs.seen_text] in E. rewrite <-!app_assoc in E. apply app_inv_head in E. by apply call_not_create in E.
    - destruct y as [topics' data'|gas' kind' a' v' input' inside' st' out'|gas' a' inside' st' size'].
      + exfalso. cbn [ReadableProofs.seen_text] in E. rewrite <-!app_assoc in E. symmetry in E. by apply log_not_call in E.
      + exfalso. cbn [ReadableProofs.seen_text] in E. rewrite <-!app_assoc in E. apply app_inv_head in E. symmetry in E. by apply call_not_create in E.
      + apply proper_create in Hx as (Ha & Hi). apply proper_create in Hy as (Ha' & Hi').
        cbn [ReadableProofs.seen_text] in E. rewrite <-!app_assoc in E. apply app_inv_head in E.
        apply create_head_split in E as (-> & -> & E); [|done..].
        apply inside_split in E as [-> E]; [|lia|done..]. cbn [ReadableProofs.tail_text] in E. rewrite <-!app_assoc in E.
        apply status_split in E as [-> E]; [|apply seen_color_two..]. apply dec_split in E as [Es E]; [|token]. apply app_inv_head in E as ->.
        apply Nat2N.inj in Es as ->. done.
  Qed.
End read.
