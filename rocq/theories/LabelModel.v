(** Cluster labels: the label header, its use on datagrams (codec/mod.rs) and
    on reliable streams (streams/label.rs, streams/labeled/mod.rs).
    All files under memberlist-proto/src. *)
From Verif Require Import Base.
Local Open Scope N_scope.

(** [core::str::from_utf8(..).is_ok()] (Rust standard library, not in /repo),
    written from the Unicode table 3-7 of well-formed UTF-8 sequences.
    Used at label/mod.rs:118, 200 *)
Definition in_range (lo hi b : N) : bool := (lo <=? b) && (b <=? hi).
(** [core::str::from_utf8(..).is_ok()], used at label/mod.rs:118, 200 *)
Fixpoint utf8_valid (l : bytes) : bool :=
  match l with
  | [] => true
  | b :: r =>
    if b <? 128 then utf8_valid r
    else if in_range 194 223 b then
      match r with c1 :: r' => in_range 128 191 c1 && utf8_valid r' | _ => false end
    else if in_range 224 239 b then
      match r with
      | c1 :: c2 :: r' =>
        (if b =? 224 then in_range 160 191 c1
         else if b =? 237 then in_range 128 159 c1 else in_range 128 191 c1)
        && in_range 128 191 c2 && utf8_valid r'
      | _ => false
      end
    else if in_range 240 244 b then
      match r with
      | c1 :: c2 :: c3 :: r' =>
        (if b =? 240 then in_range 144 191 c1
         else if b =? 244 then in_range 128 143 c1 else in_range 128 191 c1)
        && in_range 128 191 c2 && in_range 128 191 c3 && utf8_valid r'
      | _ => false
      end
    else false
  end.

(** Byte-string equality, Rust [exp == header_label]. See label/mod.rs:204-228 *)
Fixpoint bytes_eqb (a b : bytes) : bool :=
  match a, b with
  | [], [] => true
  | x :: a', y :: b' => (x =? y) && bytes_eqb a' b'
  | _, _ => false
  end.

(** label/mod.rs:39 *)
Definition LABELED_TAG : N := 12.
(** label/mod.rs:42 *)
Definition LABEL_OVERHEAD : N := 2.
(** label/mod.rs:50 *)
Definition MAX_LABEL_LEN : N := 253.

(** label/mod.rs:55-75 [LabelError] *)
Inductive label_error := LTooLong (n : N) | LNotUtf8 | LMismatch | LDoubleLabel.
(** label/mod.rs:80-91 [LabelVerdict] *)
Inductive label_verdict := VAccepted (consumed : N) | VIncomplete | VRejected (e : label_error).

(** label/mod.rs:98-103 [effective_label] *)
Definition effective_label (l : option bytes) : option bytes :=
  match l with Some (b :: r) => Some (b :: r) | _ => None end.

(** label/mod.rs:114-122 [validate_label] *)
Definition validate_label (l : bytes) : result label_error unit :=
  if MAX_LABEL_LEN <? blen l then Err (LTooLong (blen l))
  else if negb (utf8_valid l) then Err LNotUtf8 else Ok tt.

(** label/mod.rs:132-141 [encode_label_prefix]: the bytes appended to [out];
    the cast [as u8] truncates. *)
Definition encode_label_prefix (l : bytes) : bytes := LABELED_TAG :: blen l mod 256 :: l.

(** label/mod.rs:176-228 [classify_header] *)
Definition classify_header (buf : bytes) (expected : option bytes) (skip : bool) : label_verdict :=
  match buf with
  | [] => VIncomplete
  | b0 :: r =>
    if b0 =? LABELED_TAG then
      if blen buf <? LABEL_OVERHEAD then VIncomplete
      else
        let len := hd 0 r in
        if MAX_LABEL_LEN <? len then VRejected (LTooLong len)
        else if blen buf <? LABEL_OVERHEAD + len then VIncomplete
        else
          let header_label := btake len (bdrop LABEL_OVERHEAD buf) in
          if negb (utf8_valid header_label) then VRejected LNotUtf8
          else match expected with
               | Some exp => if bytes_eqb exp header_label then VAccepted (LABEL_OVERHEAD + len)
                             else VRejected LMismatch
               | None => VRejected LDoubleLabel
               end
    else match expected with
         | None => VAccepted 0
         | Some _ => if skip then VAccepted 0 else VRejected LMismatch
         end
  end.

(** * Datagrams *)

(** codec/mod.rs:30-78 [CodecError]/[TruncatedInput], label part. *)
Inductive codec_error := CLabel (e : label_error) | CEmptyInput | CEmptyInnerFrame | CLabelHeader.

(** codec/mod.rs:184-197 [wrap_label] with [opts.label_ref()] = [label] *)
Definition wrap_label (inner : bytes) (label : option bytes) : result codec_error bytes :=
  match effective_label label with
  | Some l =>
    match validate_label l with
    | Err e => Err (CLabel e)
    | Ok _ => Ok (encode_label_prefix l ++ inner)
    end
  | None => Ok inner
  end.

(** codec/mod.rs:248-267 [decode_incoming] *)
Definition decode_incoming (raw : bytes) (label : option bytes) : result codec_error bytes :=
  match classify_header raw (effective_label label) false with
  | VAccepted consumed =>
    let inner := bdrop consumed raw in
    match inner with
    | [] => if 0 <? consumed then Err CEmptyInnerFrame else Err CEmptyInput
    | _ => Ok inner
    end
  | VIncomplete => Err CLabelHeader
  | VRejected e => Err (CLabel e)
  end.

(** * Reliable streams: the label gate *)

(** streams/label.rs:61-64 [Role] *)
Inductive role := Dialer | Acceptor.
(** streams/label.rs:68-84 [LabelIntake] *)
Inductive label_intake := IBuffering | IValidated (tail : bytes) | IRejected.

(** streams/label.rs:92-132 [LabelGate] *)
Record gate := mkGate {
  g_label : option bytes;
  g_skip : bool;
  g_role : role;
  g_prefix : bytes;      (* outbound_prefix *)
  g_queued : bool;       (* outbound_prefix_queued *)
  g_raw : bytes;         (* inbound_raw *)
  g_validated : bool     (* inbound_label_validated *)
}.

(** streams/label.rs:197-205 [queue_outbound_prefix_if_needed] *)
Definition queue_outbound_prefix_if_needed (g : gate) : gate :=
  if g_queued g then g
  else
    let p := match g_label g with
             | Some l => g_prefix g ++ encode_label_prefix l
             | None => g_prefix g
             end in
    mkGate (g_label g) (g_skip g) (g_role g) p true (g_raw g) (g_validated g).

(** streams/label.rs:146-163 [LabelGate::dialer] *)
Definition gate_dialer (label : option bytes) (skip : bool) : gate :=
  queue_outbound_prefix_if_needed (mkGate (effective_label label) skip Dialer [] false [] false).

(** streams/label.rs:176-188 [LabelGate::acceptor] *)
Definition gate_acceptor (label : option bytes) (skip : bool) : gate :=
  mkGate (effective_label label) skip Acceptor [] false [] false.

(** streams/label.rs:211-215 [take_outbound_prefix]: the drained bytes *)
Definition take_outbound_prefix (g : gate) : gate * bytes :=
  (mkGate (g_label g) (g_skip g) (g_role g) [] (g_queued g) (g_raw g) (g_validated g), g_prefix g).

(** streams/label.rs:231-233 [is_validating] *)
Definition is_validating (g : gate) : bool :=
  match g_label g, g_role g with
  | Some _, Acceptor => negb (g_validated g)
  | _, _ => false
  end.

(** streams/label.rs:257-297 [consume_inbound] *)
Definition consume_inbound (g : gate) (chunk : bytes) : gate * label_intake :=
  match g_label g with
  | None =>
    (queue_outbound_prefix_if_needed
       (mkGate None (g_skip g) (g_role g) (g_prefix g) (g_queued g) (g_raw g) true),
     IValidated chunk)
  | Some l =>
    let raw := g_raw g ++ chunk in
    match classify_header raw (Some l) (g_skip g) with
    | VAccepted consumed =>
      (queue_outbound_prefix_if_needed
         (mkGate (Some l) (g_skip g) (g_role g) (g_prefix g) (g_queued g) [] true),
       IValidated (bdrop consumed raw))
    | VIncomplete =>
      (mkGate (Some l) (g_skip g) (g_role g) (g_prefix g) (g_queued g) raw (g_validated g), IBuffering)
    | VRejected _ =>
      (mkGate (Some l) (g_skip g) (g_role g) (g_prefix g) (g_queued g) raw (g_validated g), IRejected)
    end
  end.

(** streams/label.rs:314-316 [clear] *)
Definition gate_clear (g : gate) : gate :=
  mkGate (g_label g) (g_skip g) (g_role g) [] (g_queued g) (g_raw g) (g_validated g).

(** * The labelled record layer over a plain byte pipe *)

(** streams/labeled/mod.rs:301-317 [Labeled<Passthrough>], i.e. plain TCP.
    [r_in]/[r_out] are the [inbound]/[outbound] buffers of [Passthrough]
    (lines 56-63).  The TLS inner layer is not modelled. *)
Record rlayer := mkR {
  r_gate : gate;
  r_in : bytes;
  r_out : bytes;
  r_emitted : bool;     (* prefix_emitted *)
  r_tail : bytes        (* post_label_tail *)
}.

(** streams/labeled/mod.rs:335-355 [flush_outbound_label_into_inner]; the
    passthrough [write_plaintext] (118-123) appends and always accepts. *)
Definition flush_outbound_label (r : rlayer) : rlayer :=
  if r_emitted r then r
  else
    let (g, p) := take_outbound_prefix (r_gate r) in
    match p with
    | [] => mkR g (r_in r) (r_out r) false (r_tail r)
    | _ => mkR g (r_in r) (r_out r ++ p) true (r_tail r)
    end.

(** streams/labeled/mod.rs:443-461 [dialer] *)
Definition rl_dialer (label : option bytes) (skip : bool) : rlayer :=
  flush_outbound_label (mkR (gate_dialer label skip) [] [] false []).
(** streams/labeled/mod.rs:463-477 [acceptor] *)
Definition rl_acceptor (label : option bytes) (skip : bool) : rlayer :=
  mkR (gate_acceptor label skip) [] [] false [].

(** streams/labeled/mod.rs:367-395 [consume_inbound_label]; [true] = rejected *)
Definition consume_inbound_label (r : rlayer) : rlayer * bool :=
  let surfaced := r_in r in
  match surfaced with
  | [] => (r, false)
  | _ =>
    let (g, i) := consume_inbound (r_gate r) surfaced in
    match i with
    | IValidated tail =>
      (flush_outbound_label (mkR g [] (r_out r) (r_emitted r) (r_tail r ++ tail)), false)
    | IBuffering => (mkR g [] (r_out r) (r_emitted r) (r_tail r), false)
    | IRejected => (mkR g [] (r_out r) (r_emitted r) (r_tail r), true)
    end
  end.

(** streams/labeled/mod.rs:479-493 [handle_transport_data]; [true] = [Failed].
    The passthrough (95-100) buffers every byte and never fails. *)
Definition rl_feed (r : rlayer) (input : bytes) : rlayer * bool :=
  let r1 := mkR (r_gate r) (r_in r ++ input) (r_out r) (r_emitted r) (r_tail r) in
  if g_validated (r_gate r1) then (r1, false) else consume_inbound_label r1.

(** streams/labeled/mod.rs:509-517 [read_plaintext]: surfaced bytes *)
Definition rl_read (r : rlayer) : rlayer * bytes :=
  (mkR (r_gate r) [] (r_out r) (r_emitted r) [], r_tail r ++ r_in r).
(** streams/labeled/mod.rs:519-521 [write_plaintext] *)
Definition rl_write (r : rlayer) (p : bytes) : rlayer :=
  mkR (r_gate r) (r_in r) (r_out r ++ p) (r_emitted r) (r_tail r).
(** streams/labeled/mod.rs:495-503 [poll_transport_transmit]: bytes for the wire *)
Definition rl_transmit (r : rlayer) : rlayer * bytes :=
  (mkR (r_gate r) (r_in r) [] (r_emitted r) (r_tail r), r_out r).
(** streams/labeled/mod.rs:505-507 [is_handshaking] *)
Definition rl_is_handshaking (r : rlayer) : bool := is_validating (r_gate r).
(** streams/labeled/mod.rs:538-550 [clear_outbound] *)
Definition rl_clear_outbound (r : rlayer) : rlayer :=
  mkR (gate_clear (r_gate r)) (r_in r) [] (r_emitted r) (r_tail r).

(** One call on the record layer.  A feed that fails ends the exchange (the
    bridge terminalizes it), so later feeds are ignored.
    See streams/labeled/mod.rs:479-550 *)
Inductive rl_op := OFeed (chunk : bytes) | ORead | OWrite (p : bytes) | OTransmit | OClear.

(** Record layer plus what its user has observed so far: plaintext surfaced by
    reads, bytes put on the wire, whether a feed failed.
    See streams/labeled/mod.rs:301-317 and its caller *)
Record rl_state := mkRS {
  rs_layer : rlayer;
  rs_read : bytes;
  rs_wire : bytes;
  rs_failed : bool
}.
(** streams/labeled/mod.rs:479-550: one call *)
Definition rl_step (s : rl_state) (o : rl_op) : rl_state :=
  match o with
  | OFeed c =>
    if rs_failed s then s
    else let (r, f) := rl_feed (rs_layer s) c in mkRS r (rs_read s) (rs_wire s) f
  | ORead => let (r, b) := rl_read (rs_layer s) in mkRS r (rs_read s ++ b) (rs_wire s) (rs_failed s)
  | OWrite p => mkRS (rl_write (rs_layer s) p) (rs_read s) (rs_wire s) (rs_failed s)
  | OTransmit => let (r, b) := rl_transmit (rs_layer s) in mkRS r (rs_read s) (rs_wire s ++ b) (rs_failed s)
  | OClear => mkRS (rl_clear_outbound (rs_layer s)) (rs_read s) (rs_wire s) (rs_failed s)
  end.
(** a sequence of calls of streams/labeled/mod.rs:479-550 (model only) *)
Definition rl_run (s : rl_state) (ops : list rl_op) : rl_state := fold_left rl_step ops s.
(** a fresh record layer of streams/labeled/mod.rs:403-477, nothing observed (model only) *)
Definition rl_start (r : rlayer) : rl_state := mkRS r [] [] false.

(** streams/labeled/mod.rs:212-226 [LabelOptions::try_new_in], label part *)
Definition label_options (label : option bytes) : result label_error (option bytes) :=
  match effective_label label with
  | None => Ok None
  | Some l => match validate_label l with Ok _ => Ok (Some l) | Err e => Err e end
  end.
