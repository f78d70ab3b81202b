(** * PropertiesReadable: C123, a written trace can be read in one way only *)

From Verif Require Import ReadableProofs Examples PropertiesTxText.
Local Open Scope N_scope.

Lemma proper_all_app a b : proper_all (a ++ b) <-> proper_all a /\ proper_all b.
Proof. induction a as [|x a IH]; cbn [proper_all app]; tauto. Qed.
Lemma seen_logs_proper cfg hs : Forall (fun l => Forall (fun t => t < 2 ^ 256) (lg_topics l)) (logs_of hs) -> proper_all (seen_logs cfg hs).
Proof. unfold seen_logs. destruct (record_logs cfg); [|done]. induction 1; [done|]. cbn [map proper_all]. split; [|done]. done. Qed.
Lemma sees_proper cfg w f : evm_words f -> forall root v, proper (sees cfg w root v f).
Proof.
  induction f as [s body e IH] using frame_ind'. intros Hw root v. inversion_clear Hw as [? ? ? [Ha Hl] Hs].
  assert (Hin : proper_all ((fix go (l : list item) : list seen :=
         match l with
         | [] => []
         | IOp o :: r => seen_logs cfg (op_hooks o) ++ go r
         | IHook h :: r => seen_logs cfg [h] ++ go r
         | ISub h :: r => if hidden_call cfg w v (f_start h) then go r else sees cfg w false (call_value v (f_start h)) h :: go r
         end) body)).
  { clear Ha. cbn [f_body] in Hl. induction body as [|[o|h|g] r IHr]; [done|..].
    - unfold hooks in Hl. cbn [flat_map] in Hl. rewrite logs_of_app in Hl. apply Forall_app in Hl as [Hl1 Hl2].
      apply proper_all_app. split; [by apply seen_logs_proper|]. by apply IHr.
    - unfold hooks in Hl. cbn [flat_map] in Hl. rewrite logs_of_app in Hl. apply Forall_app in Hl as [Hl1 Hl2].
      apply proper_all_app. split; [by apply seen_logs_proper|]. by apply IHr.
    - cbn [subs flat_map app] in IH, Hs. apply Forall_cons in IH as [Hg IH]. apply Forall_cons in Hs as [Hsg Hs].
      destruct (hidden_call cfg w v (f_start g)); [by apply IHr|]. split; [by apply Hg|]. by apply IHr. }
  cbn [sees]. destruct (is_call s) eqn:Ei.
  - apply proper_call. split; [|done]. destruct s as [j i|j i]; [|done]. cbn. by destruct (ci_scheme i).
  - by apply proper_create.
Qed.

(** ** C123 *)

(** Transactions written one after the other: the texts are the same exactly if there are as many and each shows the same
    calls, creations and logs. *)
Theorem C123_readable :
  forall to_checksum colors cheatcodes k (l l' : list (TracingInspectorConfig * world * frame)), checksums to_checksum ->
  Forall (fun x => evm_words (snd x)) l -> Forall (fun x => evm_words (snd x)) l' ->
  let text := fun '(cfg, w, f) => tx_text to_checksum colors cheatcodes cfg w k f in
  let shows := fun '(cfg, w, f) => tx_seen cfg w f in
  concat (map text l) = concat (map text l') <-> map shows l = map shows l'.
Proof.
  intros ck colors cheat k l l' Hck Hl Hl' text shows.
  assert (Ht : forall x, text x = seen_text ck colors cheat k (shows x)).
  { intros [[cfg w] f]. apply call_text_seen. }
  assert (Hmap : forall l, map text l = map (seen_text ck colors cheat k) (map shows l)).
  { intros m. rewrite map_map. apply map_ext. apply Ht. }
  split; [|intros E; by rewrite !Hmap, E].
  revert l' Hl'. induction l as [|[[cfg w] f] l IH]; intros [|[[cfg' w'] f'] l'] Hl' E.
  - done.
  - cbn [map concat] in E. rewrite Ht in E. destruct (seen_starts ck colors cheat k (shows (cfg', w', f'))) as (t & Hs). by rewrite Hs in E.
  - cbn [map concat] in E. rewrite Ht in E. destruct (seen_starts ck colors cheat k (shows (cfg, w, f))) as (t & Hs). by rewrite Hs in E.
  - cbn [map concat] in E. rewrite !Ht in E. apply Forall_cons in Hl as [Hf Hl]. apply Forall_cons in Hl' as [Hf' Hl'].
    cbn [snd] in Hf, Hf'. apply (seen_readable ck colors cheat Hck) in E as [Ex E]; [|by apply sees_proper..].
    cbn [map]. rewrite Ex. f_equal. by apply IH.
Qed.
Print Assumptions C123_readable.

(** Two recordings, written by the same writer without a failure, look the same exactly if the transactions show the same. *)
Theorem C123_recordings :
  forall to_checksum cfg w f s cfg' w' f' s' wr a b, checksums to_checksum -> evm_words f -> evm_words f' ->
  env_ok cfg w f -> evm_refund f -> ti_run (ti_new cfg) (tx_events w f) = Ok s -> tw_level wr + N.of_nat (nesting f) <= 65535 ->
  env_ok cfg' w' f' -> evm_refund f' -> ti_run (ti_new cfg') (tx_events w' f') = Ok s' -> tw_level wr + N.of_nat (nesting f') <= 65535 ->
  write_arena to_checksum (ti_traces s) wr = Ok (a, Some tt) -> write_arena to_checksum (ti_traces s') wr = Ok (b, Some tt) ->
  tw_out a = tw_out b <-> tx_seen cfg w f = tx_seen cfg' w' f'.
Proof.
  intros ck cfg w f s cfg' w' f' s' wr a b Hck Hf Hf' He Hz Hr Hk He' Hz' Hr' Hk' Ha Hb.
  destruct (tx_written ck cfg w f s wr He Hz Hr Hk) as (a' & r & Ha' & Ho & Hres & _). rewrite Ha in Ha'. injection Ha' as <- <-.
  destruct (tx_written ck cfg' w' f' s' wr He' Hz' Hr' Hk') as (b' & r' & Hb' & Ho' & Hres' & _). rewrite Hb in Hb'. injection Hb' as <- <-.
  assert (Eo : tw_out a = tw_out wr ++ tx_text ck (tw_use_colors wr) (tw_color_cheatcodes wr) cfg w (tw_level wr) f).
  { rewrite Ho. destruct (tw_budget wr) as [n|] eqn:En; [|done]. f_equal. apply take_ge. by apply (proj1 Hres). }
  assert (Eo' : tw_out b = tw_out wr ++ tx_text ck (tw_use_colors wr) (tw_color_cheatcodes wr) cfg' w' (tw_level wr) f').
  { rewrite Ho'. destruct (tw_budget wr) as [n|] eqn:En; [|done]. f_equal. apply take_ge. by apply (proj1 Hres'). }
  pose proof (C123_readable ck (tw_use_colors wr) (tw_color_cheatcodes wr) (tw_level wr) [(cfg, w, f)] [(cfg', w', f')] Hck) as H.
  cbv zeta in H. cbn [map concat] in H. rewrite !app_nil_r in H. rewrite Eo, Eo'. split.
  - intros E. apply app_inv_head in E. apply H in E; [by injection E|by repeat constructor..].
  - intros E. f_equal. apply H; [by repeat constructor..|]. by rewrite E.
Qed.
Print Assumptions C123_recordings.

(** The plain hex text of addresses has the form of a checksum; what the example transaction shows; a transaction that differs
    in one output byte shows something else. *)
Lemma plain_checksums : checksums plain_checksum.
Proof.
  split.
  - intros a b Ha Hb E. unfold plain_checksum in E. apply app_inv_head, hex_encode_inj in E. by apply be_bytes_inj in E.
  - intros a. eexists. split; [reflexivity|]. by rewrite hex_encode_length, be_bytes_length.
Qed.
Definition other_end (f : frame) (out : bytes) : frame :=
  match f with Frame s b e => Frame s b (mkEnd (fe_j e) (mkIR (status e) out (ir_gas (fe_result e))) (fe_address e)) end.
Definition words_ok (g : frame) : bool :=
  (spec_address g <? 2 ^ 160) && forallb (fun l => forallb (fun t => t <? 2 ^ 256) (lg_topics l)) (logs_of (hooks (f_body g))).
Lemma words_dec f : everyb words_ok f = true -> evm_words f.
Proof.
  apply everyb_ok. intros g H. apply andb_true_iff in H as [H1 H2]. split; [by apply N.ltb_lt|].
  apply Forall_forall. intros l Hl. apply elem_of_list_In in Hl. apply forallb_forall with (x := l) in H2; [|done].
  apply Forall_forall. intros t Ht. apply elem_of_list_In in Ht. apply forallb_forall with (x := t) in H2; [|done]. by apply N.ltb_lt.
Qed.
Lemma ex_words : evm_words ex_tx /\ evm_words (other_end ex_tx [x2b]).
Proof. split; apply words_dec; vm_compute; reflexivity. Qed.
Lemma ex_differs : tx_seen ex_cfg ex_world ex_tx <> tx_seen ex_cfg ex_world (other_end ex_tx [x2b]).
Proof.
  intros E. apply (f_equal (fun x => match x with SeenCall _ _ _ _ _ _ _ out => out | _ => [] end)) in E. vm_compute in E. discriminate.
Qed.
Example C123_example : checksums plain_checksum /\ evm_words ex_tx /\ evm_words (other_end ex_tx [x2b]) /\
  tx_text plain_checksum true false ex_cfg ex_world 0 ex_tx <> tx_text plain_checksum true false ex_cfg ex_world 0 (other_end ex_tx [x2b]) /\
  match tx_seen ex_cfg ex_world ex_tx with
  | SeenCall gas KCall callee 7 _ inside Stop [x2a] =>
      gas = 35200 /\ callee = 0xC0 /\
      map (fun x => match x with SeenLog l _ => (1, l) | SeenCall _ _ a v _ _ _ _ => (2, [a; v]) | SeenCreate _ a _ _ n => (3, [a; N.of_nat n]) end) inside
        = [(1, [7; 8]); (2, [0xD0; 7]); (3, [0xE0; 1]); (2, [0xF0; 0])]
  | _ => False
  end.
Proof.
  split; [apply plain_checksums|]. split; [apply ex_words|]. split; [apply ex_words|]. split; [|vm_compute; split; [|split]; reflexivity].
  intros E. apply ex_differs.
  pose proof (C123_readable plain_checksum true false 0 [(ex_cfg, ex_world, ex_tx)] [(ex_cfg, ex_world, other_end ex_tx [x2b])] plain_checksums) as H.
  cbv zeta in H. cbn [map concat] in H. rewrite !app_nil_r in H. apply H in E; [by injection E|repeat constructor; apply ex_words..].
Qed.
