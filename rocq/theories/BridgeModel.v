(** memberlist-proto/src/streams/bridge.rs: one reliable exchange over one
    connection, between the record layer and the stream state machine.
    Modelled for plain TCP, [R = Labeled<Passthrough>]: there [is_secure] is
    false, [send_close_notify] does nothing, [peer_has_closed] is false,
    [write_plaintext] always accepts and [handle_transport_data] takes all its
    input (streams/labeled/mod.rs:56-140), so [pending_inbound] stays empty.
    Every function of bridge.rs returns [Result<(), ()>] and every caller
    ignores it, so it is left out. *)
From Verif Require Import CodecModel.
From Verif Require Export StreamModel LabelModel KeyringModel TransformModel.
Local Open Scope N_scope.

(** bridge_phase.rs:54-103 [BridgeFailure], without texts *)
Inductive bfail := BfTimeout | BfTransport | BfDecode | BfLost | BfAdmission | BfRetired | BfPolicy.
(** bridge_phase.rs:29-48 [LinkState] *)
Inductive link := LActive | LSendClosed | LRecvClosed | LBothClosed | LFailed (r : bfail).
(** streams/phase.rs:8-15 [BridgePhase] *)
Inductive bphase := BHandshaking | BEst (l : link).

(** streams/bridge.rs:85-185 [StreamBridge]; [pending_inbound] is left out, see above *)
Record bridge := mkBr {
  br_stream : option stream;
  br_rec : rlayer;             (* records *)
  br_sent : bool;              (* sent_any *)
  br_fin : bool;               (* fin_sent *)
  br_eof : bool;               (* pending_eof *)
  br_phase : bphase;
  br_deadline : N;
  br_comp : comp_opts;
  br_pre : bool;               (* response_precompressed *)
  br_kr : option keyring;      (* encryption *)
  br_accum : bytes;            (* recv_accum *)
  br_max : N                   (* reliable_max *)
}.
(** record updates of streams/bridge.rs:85-185: [self.stream = …] *)
Definition br_set_stream (x : option stream) (b : bridge) : bridge :=
  mkBr x (br_rec b) (br_sent b) (br_fin b) (br_eof b) (br_phase b) (br_deadline b) (br_comp b) (br_pre b) (br_kr b) (br_accum b) (br_max b).
(** streams/bridge.rs:90 *)
Definition br_set_rec (x : rlayer) (b : bridge) : bridge :=
  mkBr (br_stream b) x (br_sent b) (br_fin b) (br_eof b) (br_phase b) (br_deadline b) (br_comp b) (br_pre b) (br_kr b) (br_accum b) (br_max b).
(** streams/bridge.rs:99 *)
Definition br_set_sent (x : bool) (b : bridge) : bridge :=
  mkBr (br_stream b) (br_rec b) x (br_fin b) (br_eof b) (br_phase b) (br_deadline b) (br_comp b) (br_pre b) (br_kr b) (br_accum b) (br_max b).
(** streams/bridge.rs:109 *)
Definition br_set_fin (x : bool) (b : bridge) : bridge :=
  mkBr (br_stream b) (br_rec b) (br_sent b) x (br_eof b) (br_phase b) (br_deadline b) (br_comp b) (br_pre b) (br_kr b) (br_accum b) (br_max b).
(** streams/bridge.rs:143 *)
Definition br_set_eof (x : bool) (b : bridge) : bridge :=
  mkBr (br_stream b) (br_rec b) (br_sent b) (br_fin b) x (br_phase b) (br_deadline b) (br_comp b) (br_pre b) (br_kr b) (br_accum b) (br_max b).
(** streams/bridge.rs:144 *)
Definition br_set_phase (x : bphase) (b : bridge) : bridge :=
  mkBr (br_stream b) (br_rec b) (br_sent b) (br_fin b) (br_eof b) x (br_deadline b) (br_comp b) (br_pre b) (br_kr b) (br_accum b) (br_max b).
(** streams/bridge.rs:149 *)
Definition br_set_deadline (x : N) (b : bridge) : bridge :=
  mkBr (br_stream b) (br_rec b) (br_sent b) (br_fin b) (br_eof b) (br_phase b) x (br_comp b) (br_pre b) (br_kr b) (br_accum b) (br_max b).
(** streams/bridge.rs:164 *)
Definition br_set_pre (x : bool) (b : bridge) : bridge :=
  mkBr (br_stream b) (br_rec b) (br_sent b) (br_fin b) (br_eof b) (br_phase b) (br_deadline b) (br_comp b) x (br_kr b) (br_accum b) (br_max b).
(** streams/bridge.rs:171 *)
Definition br_set_kr (x : option keyring) (b : bridge) : bridge :=
  mkBr (br_stream b) (br_rec b) (br_sent b) (br_fin b) (br_eof b) (br_phase b) (br_deadline b) (br_comp b) (br_pre b) x (br_accum b) (br_max b).
(** streams/bridge.rs:177 *)
Definition br_set_accum (x : bytes) (b : bridge) : bridge :=
  mkBr (br_stream b) (br_rec b) (br_sent b) (br_fin b) (br_eof b) (br_phase b) (br_deadline b) (br_comp b) (br_pre b) (br_kr b) x (br_max b).

(** streams/bridge.rs:200-241 [new] *)
Definition br_new (r : rlayer) (deadline : N) (o : comp_opts) (kr : option keyring) (max : N) : bridge :=
  mkBr None r false false false BHandshaking deadline o false kr [] max.

(** streams/bridge.rs:634-655 [is_phase_failed], [is_failed] *)
Definition br_failed (b : bridge) : bool := match br_phase b with BEst (LFailed _) => true | _ => false end.
(** streams/bridge.rs:890-895 [is_terminal] *)
Definition br_terminal (b : bridge) : bool :=
  match br_phase b with BEst LBothClosed | BEst (LFailed _) => true | _ => false end.
(** streams/bridge.rs:400-402 [is_handshaking] *)
Definition br_handshaking (b : bridge) : bool :=
  match br_phase b with BHandshaking => rl_is_handshaking (br_rec b) | _ => false end.
(** streams/bridge.rs:671-679 [poll_timeout] *)
Definition br_timeout (b : bridge) : option N :=
  if br_terminal b then None else
  Some (match br_stream b with
        | Some s => match s_timeout s with Some d => N.min d (br_deadline b) | None => br_deadline b end
        | None => br_deadline b
        end).
(** streams/bridge.rs:476-482 [promote]; the [expect]: the stream has a deadline *)
Definition br_promote (s : stream) (b : bridge) : bridge :=
  br_set_phase (BEst LActive) (br_set_stream (Some s)
    (br_set_deadline (match s_timeout s with Some d => d | None => br_deadline b end) b)).
(** streams/bridge.rs:492-501 [observe_send_fin] *)
Definition br_send_fin (b : bridge) : bridge :=
  match br_phase b with
  | BEst LActive => br_set_phase (BEst LSendClosed) b
  | BEst LRecvClosed => br_set_phase (BEst LBothClosed) b
  | _ => b
  end.
(** streams/bridge.rs:509-518 [observe_recv_fin] *)
Definition br_recv_fin (b : bridge) : bridge :=
  match br_phase b with
  | BEst LActive => br_set_phase (BEst LRecvClosed) b
  | BEst LSendClosed => br_set_phase (BEst LBothClosed) b
  | _ => b
  end.
(** stream/mod.rs:292-314 [discard_pending_events] *)
Definition s_discard (s : stream) : stream := s_set_ev [] (s_set_ep [] s).
(** streams/bridge.rs:574-611 [fail] *)
Definition br_fail (r : bfail) (b : bridge) : bridge :=
  if br_failed b then b else
  let b := match br_phase b with
           | BEst LRecvClosed | BEst LBothClosed => b
           | _ => match br_stream b with Some s => br_set_stream (Some (s_discard s)) b | None => b end
           end in
  br_set_phase (BEst (LFailed r)) (br_set_rec (rl_clear_outbound (br_rec b)) b).
(** streams/bridge.rs:532-539 [retire_halves] *)
Definition br_retire (b : bridge) : bridge := br_set_rec (fst (rl_read (br_rec b))) (br_set_fin true b).
(** streams/bridge.rs:551-554 [fail_with_retire] *)
Definition br_fail_retire (r : bfail) (b : bridge) : bridge := br_fail r (br_retire b).
(** streams/bridge.rs:368-375 [set_encryption] *)
Definition br_set_encryption (kr : option keyring) (b : bridge) : bridge := br_fail BfPolicy (br_set_kr kr b).
(** streams/bridge.rs:389-391 [set_compression] *)
Definition br_set_compression (x : comp_opts) (b : bridge) : bridge :=
  mkBr (br_stream b) (br_rec b) (br_sent b) (br_fin b) (br_eof b) (br_phase b) (br_deadline b) x (br_pre b) (br_kr b) (br_accum b) (br_max b).

Section Bridge.
(** [B]: the external algorithms.  [rnd id now]: the nonce drawn when the
    exchange with stream id [id] seals a unit at time [now] ([None]: the entropy
    source failed); encryption/mod.rs:949-980.  An exchange seals at most one
    unit at one time. *)
Context (C : cfg) (W : wcodec) (B : backends) (rnd : N -> N -> option bytes).

(** streams/bridge.rs:255-287 [reliable_unit], the two chunks joined *)
Definition br_unit (now id : N) (body : bytes) (b : bridge) : option bytes :=
  match encrypt_payload B (br_kr b) (rnd id now) (if br_pre b then body else compress_payload B (br_comp b) body) with
  | Err _ => None
  | Ok p => Some (encode_varint_u32 (blen p mod two32) ++ p)
  end.

(** streams/bridge.rs:863-874: close the sending half once the message is out *)
Definition br_finish (s : stream) (b : bridge) : bridge :=
  if negb (br_fin b) && negb (br_failed b) && (br_sent b || s_done s)
  then br_send_fin (br_set_fin true b) else b.
(** streams/bridge.rs:742-877 [pump_out].  The loop 799-812 is one turn: the
    second call of [poll_transmit] finds nothing ([C86_drained_in_one_turn]).
    847-856: [is_failed] after transmitting. *)
Definition br_pump_out (now : N) (b : bridge) : bridge :=
  if match br_phase b with BHandshaking => br_deadline b <=? now | _ => false end then br_fail BfTimeout b else
  match br_stream b with
  | None => b
  | Some s =>
    if br_failed b || match s_failed s with Some _ => true | None => false end then br_fail_retire BfTransport b else
    if (br_deadline b <=? now) && s_done s && negb (br_terminal b) then br_fail_retire BfTimeout b else
    let '(s, chunks) := s_transmit now s in
    let b := br_set_stream (Some s) b in
    match chunks with
    | [] =>
      match s_failed s with
      | Some _ => br_fail_retire BfTransport b
      | None => br_finish s b
      end
    | _ =>
      let b := br_set_sent true b in
      match br_unit now (s_id s) (concat chunks) b with
      | None => br_fail_retire BfTransport b
      | Some u => br_finish s (br_set_rec (rl_write (br_rec b) u) b)
      end
    end
  end.

(** streams/bridge.rs:1145-1169: units to the stream machine.  The outcome:
    more bytes are needed, the stream refused a unit, a unit was malformed *)
Inductive intake := INeed | IRefused | IBadUnit.
(** streams/bridge.rs:1145-1169; every unit takes at least one byte, so the fuel
    [length accum + 1] is enough *)
Fixpoint br_units (fuel : nat) (now : N) (s : stream) (b : bridge) : bridge * stream * intake :=
  match fuel with
  | O => (b, s, INeed)
  | S f =>
    match take_reliable_unit B (br_kr b) (br_max b) (br_accum b) with
    | Err _ => (b, s, IBadUnit)
    | Ok None => (b, s, INeed)
    | Ok (Some (pt, n)) =>
      let b := br_set_accum (bdrop n (br_accum b)) b in
      match s_handle_data W pt now s with
      | (s, Some _) => (b, s, IRefused)
      | (s, None) => br_units f now s b
      end
    end
  end.
(** streams/bridge.rs:1103-1237 [pump_in_established] with the stream at hand *)
Definition br_pump_in (input : bytes) (eof : bool) (now : N) (s : stream) (b : bridge) : bridge :=
  if br_terminal b then b else
  let '(r, rejected) := rl_feed (br_rec b) input in
  let b := br_set_rec r b in
  if rejected then br_fail_retire BfTransport b else
  let '(r, surfaced) := rl_read (br_rec b) in
  let b := br_set_accum (br_accum b ++ surfaced) (br_set_rec r b) in
  let '(b, s, i) := br_units (S (length (br_accum b))) now s b in
  let b := br_set_stream (Some s) b in
  match i with
  | IBadUnit => br_fail_retire BfDecode b
  | IRefused => br_fail_retire BfDecode b
  | INeed =>
    if negb eof then b else
    match br_accum b with
    | _ :: _ => br_fail_retire BfDecode b
    | [] =>
      let '(s, e) := s_handle_data W [] now s in
      let b := br_set_stream (Some s) b in
      match e with
      | Some _ => br_fail_retire BfDecode b
      | None => br_recv_fin b
      end
    end
  end.
(** streams/bridge.rs:419-465 [intake_handshaking] *)
Definition br_intake_handshaking (data : bytes) (b : bridge) : bridge :=
  let '(r, rejected) := rl_feed (br_rec b) data in
  let b := br_set_rec r b in
  if rejected then br_fail BfTransport b else b.
(** streams/bridge.rs:1029-1090 [handle_transport_data]; no bytes mean the end
    of the peer's stream *)
Definition br_data (data : bytes) (now : N) (b : bridge) : bridge :=
  if br_terminal b then b else
  match br_stream b with
  | None =>
    match data with
    | [] => if rl_is_handshaking (br_rec b) then br_fail BfLost b
            else br_intake_handshaking [] (br_set_eof true b)
    | _ => br_intake_handshaking data b
    end
  | Some s => br_pump_in data (match data with [] => true | _ => false end) now s b
  end.
(** streams/bridge.rs:1268-1286 [replay_pending] *)
Definition br_replay (now : N) (b : bridge) : bridge :=
  match br_stream b with
  | None => b
  | Some s => br_pump_in [] (br_eof b) now s b
  end.

(** streams/bridge.rs:1317-1357, 1424-1457: the command of the endpoint.  The
    reply comes encoded and compressed by the endpoint, with the options the
    coordinator gave to both ([set_response_compression],
    streams/mod.rs:1378-1395); 1331: the [Instant] addition does not overflow
    (saturates here). *)
Definition br_command (now : N) (outs : list out) (b : bridge) : bridge :=
  match outs with
  | [OResponse m] =>
    match br_stream b with
    | Some s =>
      let d := tadd now (c_stream_timeout C) in
      let s := s_set_deadline (Some d) (s_set_out (s_out s ++ [compress_payload B (br_comp b) (wire_enc W m)]) s) in
      br_pump_out now (br_set_deadline d (br_set_pre true (br_set_stream (Some s) b)))
    | None => b
    end
  | [OClose] => br_fail_retire BfAdmission b
  | _ => b
  end.
(** streams/bridge.rs:1311-1358, 1418-1458: the stream's events to the endpoint.
    Each turn takes one event and adds none.  The third component is the calls
    made on the endpoint. *)
Fixpoint br_events (fuel : nat) (now : N) (b : bridge) (e : ep) : bridge * ep * list eop :=
  match fuel with
  | O => (b, e, [])
  | S f =>
    match br_stream b with
    | None => (b, e, [])
    | Some s =>
      match s_ep s with
      | [] => (b, e, [])
      | ev :: r =>
        let '(e, outs) := ep_step C e (EStreamEv ev now) in
        let b := br_command now outs (br_set_stream (Some (s_set_ep r s)) b) in
        let '(b, e, l) := br_events f now b e in
        (b, e, EStreamEv ev now :: l)
      end
    end
  end.
(** how many events wait (the fuel); streams/bridge.rs:1311-1358 *)
Definition br_waiting (b : bridge) : nat := match br_stream b with Some s => length (s_ep s) | None => O end.
(** streams/bridge.rs:1304-1394 [drain_then_reap]; both notices, [StreamClosed]
    and [StreamErrored], are [SEClosed] *)
Definition br_drain_reap (now : N) (b : bridge) (e : ep) : bridge * ep * list eop :=
  match br_stream b with
  | None => (b, e, [])
  | Some _ =>
    let '(b, e, l) := br_events (br_waiting b) now b e in
    (b, fst (ep_step C e (EStreamEv SEClosed now)), l ++ [EStreamEv SEClosed now])
  end.
(** streams/bridge.rs:1411-1459 [drain_payload_only] *)
Definition br_drain_payload (now : N) (b : bridge) (e : ep) : bridge * ep * list eop :=
  match br_phase b with
  | BEst LRecvClosed => br_events (br_waiting b) now b e
  | _ => (b, e, [])
  end.
End Bridge.
