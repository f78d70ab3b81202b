(** * Writer: /repo/src/tracing/writer.rs *)

From Verif Require Export Types Text.
Local Open Scope N_scope.

(** ** The writer and its I/O *)

(** writer.rs:27-34 [TraceWriter<W>]. The inner writer [W] is modelled by the bytes it has received, how many more it
    accepts before every write fails ([None]: it never fails), and whether [flush] succeeds. *)
Record TraceWriter := mkTW {
  tw_out : list byte; tw_budget : option nat; tw_flush : bool;
  tw_use_colors : bool; tw_color_cheatcodes : bool; tw_level : N }.

Definition tw_set_level (w : TraceWriter) (l : N) : TraceWriter :=
  mkTW w.(tw_out) w.(tw_budget) w.(tw_flush) w.(tw_use_colors) w.(tw_color_cheatcodes) l.

(** [io::Result<A>] computations on the writer: [None] is an [io::Error] *)
Definition io (A : Type) := TraceWriter -> res (TraceWriter * option A).
Definition io_ret {A} (a : A) : io A := fun w => Ok (w, Some a).
Definition io_bind {A B} (m : io A) (k : A -> io B) : io B := fun w =>
  match m w with
  | Ok (w, Some a) => k a w
  | Ok (w, None) => Ok (w, None)
  | Panic p => Panic p
  | OutOfFuel => OutOfFuel
  end.
Notation "'let?' x ':=' m 'in' k" := (io_bind m (fun x => k))
  (at level 200, x name, m at level 100, k at level 200).
Notation "m ';;' k" := (io_bind m (fun _ => k)) (at level 100, k at level 200, right associativity).
(** A computation that does not touch the writer. *)
Definition io_lift {A} (m : res A) : io A := fun w => rmap (fun a => (w, Some a)) m.
Definition io_fuel {A} : io A := fun _ => OutOfFuel.
(** Reading a setting. *)
Definition io_get {A} (f : TraceWriter -> A) : io A := fun w => Ok (w, Some (f w)).

(** [self.writer.write_all(bytes)?]; a [write!] of several pieces is one [write_all] of their concatenation, which the
    byte-counting inner writer cannot distinguish from the pieces written one by one. *)
Definition write_all (bs : list byte) : io unit := fun w =>
  match w.(tw_budget) with
  | None => Ok (mkTW (w.(tw_out) ++ bs) None w.(tw_flush) w.(tw_use_colors) w.(tw_color_cheatcodes) w.(tw_level), Some tt)
  | Some n =>
      if (length bs <=? n)%nat
      then Ok (mkTW (w.(tw_out) ++ bs) (Some (n - length bs)%nat) w.(tw_flush) w.(tw_use_colors) w.(tw_color_cheatcodes)
                 w.(tw_level), Some tt)
      else Ok (mkTW (w.(tw_out) ++ take n bs) (Some O) w.(tw_flush) w.(tw_use_colors) w.(tw_color_cheatcodes) w.(tw_level), None)
  end.
Definition flush : io unit := fun w => Ok (w, if w.(tw_flush) then Some tt else None).

(** [self.indentation_level += 1] and [-= 1] on a [u16] *)
Definition level_up : io unit := fun w =>
  if w.(tw_level) <? 65535 then Ok (tw_set_level w (w.(tw_level) + 1), Some tt) else Panic POverflow.
Definition level_down : io unit := fun w =>
  if w.(tw_level) =? 0 then Panic PUnderflow else Ok (tw_set_level w (w.(tw_level) - 1), Some tt).

(** ** Text *)

(** writer.rs:13 *)
Definition CHEATCODE_ADDRESS : address := 0x7109709ECfa91a80626fF3989D68f67F5b1DD12D.
(** writer.rs:15-19 (UTF-8) *)
Definition PIPE : list byte := txt "  │ ".
Definition EDGE : list byte := txt "  └─ ".
Definition BRANCH : list byte := txt "  ├─ ".
Definition CALL : list byte := txt "→ ".
Definition RETURN : list byte := txt "← ".

(** anstyle [Style]: plain, or a foreground colour given by its ANSI code; [{style}] and [{style:#}] *)
Definition Style := option N.
Definition style_on (s : Style) : list byte := match s with Some c => x1b :: txt "[" ++ dec_text c ++ txt "m" | None => [] end.
Definition style_off (s : Style) : list byte := match s with Some _ => x1b :: txt "[0m" | None => [] end.
Definition Red : N := 31. Definition Green : N := 32. Definition Yellow : N := 33. Definition Blue : N := 34. Definition Cyan : N := 36.
(** writer.rs:21-22 *)
Definition TRACE_KIND_STYLE : Style := Some Yellow.
Definition LOG_STYLE : Style := Some Cyan.

(** writer.rs:370-396 [trace_style], [trace_kind_style], [log_style] *)
Definition trace_style (t : CallTrace) (w : TraceWriter) : Style :=
  if negb w.(tw_use_colors) then None
  else Some (if w.(tw_color_cheatcodes) && (t.(tr_address) =? CHEATCODE_ADDRESS) then Blue
             else if t.(tr_success) then Green else Red).
Definition trace_kind_style (w : TraceWriter) : Style := if negb w.(tw_use_colors) then None else TRACE_KIND_STYLE.
Definition log_style (w : TraceWriter) : Style := if negb w.(tw_use_colors) then None else LOG_STYLE.

(** [v.join(", ")] *)
Fixpoint join_commas (l : list string) : list byte :=
  match l with
  | [] => []
  | [s] => txt s
  | s :: l => txt s ++ txt ", " ++ join_commas l
  end.
(** [signature.split('(').next().unwrap()] *)
Fixpoint before_paren (s : list byte) : list byte :=
  match s with
  | [] => []
  | b :: s => if Byte.eqb b x28 then [] else b :: before_paren s
  end.
(** The 32 bytes of a word, and alloy's [Display] of a [B256] and of [Bytes] *)
Fixpoint be_bytes (len : nat) (n : N) : list byte :=
  match len with
  | O => []
  | S len => be_bytes len (n / 256) ++ [default x00 (Byte.of_N (n mod 256))]
  end.
Definition show_word (n : U256) : list byte := txt "0x" ++ hex_encode (be_bytes 32 n).
Definition show_bytes (b : bytes) : list byte := txt "0x" ++ hex_encode b.

(** writer.rs:342-348 [write_indentation] *)
Definition write_indentation : io unit :=
  write_all (txt "  ");;
  let? level := io_get tw_level in
  (fix go (n : nat) : io unit := match n with O => io_ret tt | S n => write_all PIPE;; go n end) (N.to_nat (level - 1)).
(** writer.rs:351-357 [write_branch] *)
Definition write_branch : io unit :=
  write_indentation;;
  let? level := io_get tw_level in
  if level =? 0 then io_ret tt else write_all BRANCH.
(** writer.rs:360-363 [write_pipes] *)
Definition write_pipes : io unit := write_indentation;; write_all PIPE.
(** writer.rs:365-368 [write_edge] *)
Definition write_edge : io unit := write_indentation;; write_all EDGE.
Definition newline : list byte := [x0a].

Section Writer.
  (** [address.to_checksum_buffer(None)]: the EIP-55 text of an address, which depends on Keccak; left abstract. *)
  Context (to_checksum : address -> list byte).

  (** writer.rs:179-192, the function name and the inputs *)
  Definition func_and_inputs (t : CallTrace) : list byte * list byte :=
    match t.(tr_decoded).(dct_call_data) with
    | Some d => (before_paren (txt d.(dcd_signature)), join_commas d.(dcd_args))
    | None =>
        if (length t.(tr_data) <? 4)%nat then (txt "fallback", hex_encode t.(tr_data))
        else (hex_encode (take 4 t.(tr_data)), hex_encode (drop 4 t.(tr_data)))
    end.
  (** writer.rs:207-214 *)
  Definition action_of (k : CallKind) : res (option string) :=
    match k with
    | KCall => Ok None
    | KStaticCall => Ok (Some " [staticcall]")
    | KCallCode => Ok (Some " [callcode]")
    | KDelegateCall => Ok (Some " [delegatecall]")
    | KAuthCall => Ok (Some " [authcall]")
    | KCreate | KCreate2 => Panic PUnreachable
    end%string.

  (** writer.rs:166-221 [write_trace_header] *)
  Definition write_trace_header (t : CallTrace) : io unit :=
    write_all (txt "[" ++ dec_text t.(tr_gas_used) ++ txt "] ");;
    let? kind_style := io_get trace_kind_style in
    let? style := io_get (trace_style t) in
    let addr := to_checksum t.(tr_address) in
    if is_any_create t.(tr_kind) then
      write_all (style_on kind_style ++ CALL ++ txt "new" ++ style_off kind_style ++ txt " " ++
                 match t.(tr_decoded).(dct_label) with Some l => txt l | None => txt "<unknown>" end ++ txt "@" ++ addr)
    else
      let '(func_name, inputs) := func_and_inputs t in
      write_all (style_on style ++ match t.(tr_decoded).(dct_label) with Some l => txt l | None => addr end ++ style_off style ++
                 txt "::" ++ style_on style ++ func_name ++ style_off style);;
      (if t.(tr_value) =? 0 then io_ret tt else write_all (txt "{value: " ++ dec_text t.(tr_value) ++ txt "}"));;
      write_all (txt "(" ++ inputs ++ txt ")");;
      let? action := io_lift (action_of t.(tr_kind)) in
      match action with
      | Some a => write_all (style_on kind_style ++ txt a ++ style_off kind_style)
      | None => io_ret tt
      end.

  (** writer.rs:229-236: the parameters of a decoded log, [i] being the loop counter *)
  Fixpoint write_params (i : nat) (params : list (string * string)) : io unit :=
    match params with
    | [] => io_ret tt
    | (name, value) :: params =>
        (if (0 <? i)%nat then write_all (txt ", ") else io_ret tt);;
        write_all (txt name ++ txt ": " ++ txt value);;
        write_params (S i) params
    end.
  (** writer.rs:239-247: the topics of a raw log *)
  Fixpoint write_topics (i : nat) (topics : list U256) : io unit :=
    match topics with
    | [] => io_ret tt
    | topic :: topics =>
        (if (i =? 0)%nat then write_all (txt " emit topic 0")
         else write_pipes;; write_all (txt "       topic " ++ dec_text (N.of_nat i)));;
        let? style := io_get log_style in
        write_all (txt ": " ++ style_on style ++ show_word topic ++ style_off style ++ newline);;
        write_topics (S i) topics
    end.
  (** writer.rs:223-260 [write_log] *)
  Definition write_log (l : CallLog) : io unit :=
    let? style := io_get log_style in
    write_branch;;
    match l.(cl_decoded).(dcl_name) with
    | Some name =>
        write_all (txt "emit " ++ txt name ++ txt "(" ++ style_on style);;
        match l.(cl_decoded).(dcl_params) with Some params => write_params 0 params | None => io_ret tt end;;
        write_all (style_off style ++ txt ")" ++ newline)
    | None =>
        write_topics 0 l.(cl_topics);;
        match l.(cl_topics) with [] => io_ret tt | _ => write_pipes end;;
        write_all (txt "          data: " ++ style_on style ++ show_bytes l.(cl_data) ++ style_off style ++ newline)
    end.

  (** writer.rs:321-340 [write_trace_footer] *)
  Definition write_trace_footer (t : CallTrace) : io unit :=
    let? style := io_get (trace_style t) in
    write_all (style_on style ++ RETURN ++ txt "[" ++ txt (ir_debug t.(tr_status)) ++ txt "] " ++ style_off style);;
    match t.(tr_decoded).(dct_return_data) with
    | Some decoded => write_all (txt decoded)
    | None =>
        if is_any_create t.(tr_kind) then write_all (dec_text (N.of_nat (length t.(tr_output))) ++ txt " bytes of code")
        else match t.(tr_output) with [] => io_ret tt | o => write_all (show_bytes o) end
    end.

  (** The four mutually recursive functions; the fuel bounds the recursion depth.
      writer.rs:97-115 [write_item], 121-133 [write_items_until] (the predicate may panic), 143-163 [write_node] with
      136-140 [write_items] inlined, 264-318 [write_step] *)
  Fixpoint write_item (fuel : nat) (nodes : list CallTraceNode) (node_idx item_idx : nat) {struct fuel} : io nat :=
    match fuel with
    | O => io_fuel
    | S fuel =>
        let? node := io_lift (index nodes node_idx) in
        let? member := io_lift (index node.(nd_ordering) item_idx) in
        match member with
        | OLog i =>
            let? log := io_lift (index node.(nd_logs) i) in
            write_log log;;
            io_ret (S item_idx)
        | OCall i =>
            let? child := io_lift (index node.(nd_children) i) in
            write_node fuel nodes child;;
            io_ret (S item_idx)
        | OStep i => write_step fuel nodes node_idx item_idx i
        end
    end
  with write_items_until (fuel : nat) (nodes : list CallTraceNode) (node_idx item_idx : nat) (f : nat -> res bool) {struct fuel}
      : io nat :=
    match fuel with
    | O => io_fuel
    | S fuel =>
        let? stop := io_lift (f item_idx) in
        if stop : bool then io_ret item_idx
        else
          let? item_idx := write_item fuel nodes node_idx item_idx in
          write_items_until fuel nodes node_idx item_idx f
    end
  with write_node (fuel : nat) (nodes : list CallTraceNode) (idx : nat) {struct fuel} : io unit :=
    match fuel with
    | O => io_fuel
    | S fuel =>
        let? node := io_lift (index nodes idx) in
        write_branch;;
        write_trace_header node.(nd_trace);;
        write_all newline;;
        level_up;;
        let items_cnt := length node.(nd_ordering) in
        write_items_until fuel nodes idx 0 (fun i => Ok (i =? items_cnt)%nat);;
        write_edge;;
        write_trace_footer node.(nd_trace);;
        write_all newline;;
        level_down
    end
  with write_step (fuel : nat) (nodes : list CallTraceNode) (node_idx item_idx step_idx : nat) {struct fuel} : io nat :=
    match fuel with
    | O => io_fuel
    | S fuel =>
        let? node := io_lift (index nodes node_idx) in
        let? step := io_lift (index node.(nd_trace).(tr_steps) step_idx) in
        match step.(st_decoded) with
        | None => io_ret (S item_idx)
        | Some (InternalCall call end_idx) =>
            let? end_step := io_lift (index node.(nd_trace).(tr_steps) end_idx) in
            let gas_used := end_step.(st_gas_used) - step.(st_gas_used) in
            write_branch;;
            level_up;;
            write_all (txt "[" ++ dec_text gas_used ++ txt "] " ++ txt call.(dic_func_name) ++
                       match call.(dic_args) with Some v => txt "(" ++ join_commas v ++ txt ")" | None => [] end ++ newline);;
            let? end_item_idx :=
              write_items_until fuel nodes node_idx (S item_idx) (fun item_idx =>
                let! m := index node.(nd_ordering) item_idx in
                Ok match m with OStep idx => (idx =? end_idx)%nat | _ => false end) in
            write_edge;;
            write_all RETURN;;
            match call.(dic_return_data) with Some outputs => write_all (join_commas outputs) | None => io_ret tt end;;
            write_all newline;;
            level_down;;
            io_ret (S end_item_idx)
        | Some (Line line) =>
            write_branch;;
            write_all (txt line ++ newline);;
            io_ret (S item_idx)
        end
    end.

  (** Enough for the recursion on a recorded arena: see [C49]. *)
  Definition writer_fuel (nodes : list CallTraceNode) : nat :=
    fold_right (fun n acc => 4 * length n.(nd_ordering) + 4 + acc)%nat O nodes.

  (** writer.rs:87-90 [write_arena] *)
  Definition write_arena (nodes : list CallTraceNode) : io unit :=
    write_node (writer_fuel nodes) nodes 0;;
    flush.
End Writer.
