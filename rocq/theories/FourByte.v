(** * FourByte: /repo/src/tracing/fourbyte.rs *)

From Verif Require Export Evm Text.

(** fourbyte.rs:33-37; the [u64] counters are unbounded here *)
Record FourByteInspector := mkFB { fb_inner : gmap (list byte * nat) N }.

(** derive Default *)
Definition fb_new : FourByteInspector := mkFB ∅.

(** fourbyte.rs:50-63 [call] *)
Definition fb_call (s : FourByteInspector) (i : CallInputs) : FourByteInspector :=
  if 4 <=? length i.(ci_input) then
    let selector := take 4 i.(ci_input) in
    let calldata_size := length (drop 4 i.(ci_input)) in
    mkFB (<[(selector, calldata_size) := (default 0 (s.(fb_inner) !! (selector, calldata_size)) + 1)%N]> s.(fb_inner))
  else s.

(** fourbyte.rs:46-64 [impl Inspector] *)
Definition fb_handle : inspector FourByteInspector := fun s e =>
  match e with
  | ECall c i => Ok (fb_call s i, RCall i None)
  | e => Ok (s, default_response e)
  end.

(** fourbyte.rs:73 [format!("0x{}-{}", hex::encode(..), calldata_size)] *)
Definition fb_key (selector : list byte) (calldata_size : nat) : list byte :=
  txt "0x" ++ hex_encode selector ++ txt "-" ++ dec_text (N.of_nat calldata_size).

(** fourbyte.rs:66-79 [From<FourByteInspector> for FourByteFrame]: a map from text to count; collecting
    keeps the last of equal keys *)
Definition FourByteFrame := gmap (list byte) N.
Definition fb_frame (s : FourByteInspector) : FourByteFrame :=
  fold_left (fun m kv => <[fb_key (fst (fst kv)) (snd (fst kv)) := snd kv]> m) (map_to_list s.(fb_inner)) ∅.
