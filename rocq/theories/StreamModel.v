(** memberlist-proto/src/stream/mod.rs: the state machine of one reliable
    exchange (push/pull, reliable ping, user message). *)
From Verif Require Import CodecModel.
From Verif Require Export EndpointModel WireModel.
Local Open Scope N_scope.

(** error/mod.rs:336-363 [StreamError], the variants this file produces, without
    their texts; [SeDecode] stands for [Decode], [Frame] and [Bridge] *)
Inductive serr := SeTimeout | SeDecode | SePeerClosed | SeUnexpected.

(** stream/mod.rs:109-132 [StreamPhase] ([OutboundKind], 95-106, is [outkind]) *)
Inductive sphase :=
| SpSending (k : outkind)        (* OutboundSendingRequest *)
| SpAwaiting (k : outkind)       (* OutboundAwaitingResponse *)
| SpFirst                        (* InboundAwaitingFirstMessage *)
| SpResponding                   (* InboundSendingResponse *)
| SpDone
| SpFailed (e : serr).

(** event/mod.rs [StreamEvent]: [Closed], [Failed(text)] *)
Inductive slife := SlClosed | SlFailed (e : serr).

(** stream/mod.rs:142-173 [Stream] *)
Record stream := mkStream {
  s_id : N; s_peer : N; s_local : N; s_max : N; s_phase : sphase; s_in : bytes; s_out : list bytes;
  s_deadline : option N; s_ep : list sevent; s_ev : list slife }.
(** record updates: [self.phase = …], [self.input_buf …], [self.output_buf …],
    [self.deadline = …], [self.endpoint_events …], [self.stream_events …];
    stream/mod.rs:139-166 *)
Definition s_set_phase (x : sphase) (s : stream) : stream :=
  mkStream (s_id s) (s_peer s) (s_local s) (s_max s) x (s_in s) (s_out s) (s_deadline s) (s_ep s) (s_ev s).
(** stream/mod.rs:153 *)
Definition s_set_in (x : bytes) (s : stream) : stream :=
  mkStream (s_id s) (s_peer s) (s_local s) (s_max s) (s_phase s) x (s_out s) (s_deadline s) (s_ep s) (s_ev s).
(** stream/mod.rs:160 *)
Definition s_set_out (x : list bytes) (s : stream) : stream :=
  mkStream (s_id s) (s_peer s) (s_local s) (s_max s) (s_phase s) (s_in s) x (s_deadline s) (s_ep s) (s_ev s).
(** stream/mod.rs:162 *)
Definition s_set_deadline (x : option N) (s : stream) : stream :=
  mkStream (s_id s) (s_peer s) (s_local s) (s_max s) (s_phase s) (s_in s) (s_out s) x (s_ep s) (s_ev s).
(** stream/mod.rs:164 *)
Definition s_set_ep (x : list sevent) (s : stream) : stream :=
  mkStream (s_id s) (s_peer s) (s_local s) (s_max s) (s_phase s) (s_in s) (s_out s) (s_deadline s) x (s_ev s).
(** stream/mod.rs:166 *)
Definition s_set_ev (x : list slife) (s : stream) : stream :=
  mkStream (s_id s) (s_peer s) (s_local s) (s_max s) (s_phase s) (s_in s) (s_out s) (s_deadline s) (s_ep s) x.

(** endpoint/mod.rs:3421-3442 (end of [dial_succeeded]): an outbound stream with
    its encoded request *)
Definition stream_outbound (id peer local max : N) (k : outkind) (req : bytes) (deadline : N) : stream :=
  mkStream id peer local max (SpSending k) [] (match req with [] => [] | _ => [req] end) (Some deadline) [] [].
(** endpoint/mod.rs:3457-3471 (end of [accept_stream]) *)
Definition stream_inbound (id peer local max deadline : N) : stream :=
  mkStream id peer local max SpFirst [] [] (Some deadline) [] [].

(** stream/mod.rs:186-188, 191-196 [is_done], [is_failed] *)
Definition s_done (s : stream) : bool := match s_phase s with SpDone => true | _ => false end.
(** stream/mod.rs:190-195 [is_failed] *)
Definition s_failed (s : stream) : option serr := match s_phase s with SpFailed e => Some e | _ => None end.
(** the [Done | Failed(_)] patterns of [poll_transmit], [poll_timeout], [handle_timeout];
    stream/mod.rs:212-340 *)
Definition s_terminal (s : stream) : bool := match s_phase s with SpDone | SpFailed _ => true | _ => false end.

(** stream/mod.rs:342-377 [enter_failed] *)
Definition enter_failed (e : serr) (s : stream) : stream :=
  s_set_phase (SpFailed e) (s_set_ev [SlFailed e] (s_set_ep [] (s_set_out [] (s_set_in [] s)))).
(** [now >= deadline], stream/mod.rs:229-234, 523-527, 327-333 *)
Definition s_late (now : N) (s : stream) : bool :=
  match s_deadline s with Some d => d <=? now | None => false end.

(** stream/mod.rs:213-274 [poll_transmit]; the chunks handed over, none when
    there is nothing to send *)
Definition s_transmit (now : N) (s : stream) : stream * list bytes :=
  if s_terminal s then (s, []) else
  if s_late now s then (enter_failed SeTimeout s, []) else
  match s_out s with
  | [] => (s, [])
  | chunks =>
    let s' := s_set_out [] s in
    (match s_phase s with
     | SpSending OKUserMessage | SpResponding => s_set_ev (s_ev s ++ [SlClosed]) (s_set_phase SpDone s')
     | SpSending k => s_set_phase (SpAwaiting k) s'
     | _ => s'
     end, chunks)
  end.
(** stream/mod.rs:318-323 [poll_timeout] *)
Definition s_timeout (s : stream) : option N := if s_terminal s then None else s_deadline s.
(** stream/mod.rs:326-340 [handle_timeout] *)
Definition s_handle_timeout (now : N) (s : stream) : stream :=
  if s_late now s then if s_terminal s then s else enter_failed SeTimeout s else s.

Section Stream.
Context (W : wcodec).

(** stream/mod.rs:692-878 [dispatch_message], with [push_pull_to_snapshot] (919-931).
    The [Ack] always encodes (its fields need no codec). *)
Definition s_dispatch (m : msg) (now : N) (s : stream) : result serr stream :=
  match s_phase s with
  | SpAwaiting (OKPushPull join) =>
    match m with
    | MPushPull _ states user =>
      Ok (s_set_ev (s_ev s ++ [SlClosed]) (s_set_phase SpDone
        (s_set_ep (s_ep s ++ [SEReply (s_peer s) states user join (s_id s)]) s)))
    | _ => Err SeUnexpected
    end
  | SpAwaiting (OKReliablePing seq) =>
    match m with
    | MAck n _ =>
      if n =? seq then
        Ok (s_set_ev (s_ev s ++ [SlClosed]) (s_set_phase SpDone (s_set_ep (s_ep s ++ [SEAcked seq now]) s)))
      else Err SeUnexpected
    | _ => Err SeUnexpected
    end
  | SpAwaiting OKUserMessage => Ok s
  | SpFirst =>
    match m with
    | MPushPull join states user =>
      Ok (s_set_phase SpResponding (s_set_ep (s_ep s ++ [SERequest (s_peer s) states user join (s_id s)]) s))
    | MPing seq _ target =>
      if nd_id target =? s_local s
      then Ok (s_set_phase SpResponding (s_set_out (s_out s ++ [wire_enc W (MAck seq [])]) s))
      else Err SeUnexpected
    | MUserData data =>
      Ok (s_set_ev (s_ev s ++ [SlClosed]) (s_set_phase SpDone (s_set_ep (s_ep s ++ [SEUser (s_peer s) data]) s)))
    | _ => Err SeUnexpected
    end
  | SpSending _ | SpResponding | SpDone | SpFailed _ => Err SeUnexpected
  end.
(** stream/mod.rs:662-670 [forbids_further_input] *)
Definition forbids_input (s : stream) : bool :=
  match s_phase s with SpDone | SpResponding | SpSending _ => true | _ => false end.
(** stream/mod.rs:599-690 [try_decode_frame] *)
Definition s_decode (now : N) (s : stream) : result serr stream :=
  match probe_frame (s_max s) (s_in s) with
  | PReject => Err SeDecode
  | PNeedMore => Ok s
  | PFrame _ total =>
    let frame := btake total (s_in s) in
    let s := s_set_in (bdrop total (s_in s)) s in
    match decode_message W frame with
    | None => Err SeDecode
    | Some (consumed, m) =>
      if negb (consumed =? total) then Err SeDecode else
      match s_dispatch m now s with
      | Err e => Err e
      | Ok s => if forbids_input s && negb (blen (s_in s) =? 0) then Err SeDecode else Ok s
      end
    end
  end.
(** stream/mod.rs:521-597 [handle_data_inner]; [input_buf.len() + data.len()]
    does not overflow [usize] *)
Definition s_data_inner (data : bytes) (now : N) (s : stream) : result serr stream :=
  if s_late now s then Err SeTimeout else
  match data with
  | [] =>
    match s_phase s with
    | SpAwaiting _ | SpFirst => Err SePeerClosed
    | SpSending OKUserMessage => Ok s
    | SpSending _ => Err SePeerClosed
    | SpResponding => if blen (s_in s) =? 0 then Ok s else Err SePeerClosed
    | SpDone | SpFailed _ => Ok s
    end
  | _ =>
    if s_max s <? blen (s_in s) + blen data then Err SeDecode
    else s_decode now (s_set_in (s_in s ++ data) s)
  end.
(** stream/mod.rs:464-514 [handle_data]; the second component is the returned
    error *)
Definition s_handle_data (data : bytes) (now : N) (s : stream) : stream * option serr :=
  match s_phase s with
  | SpFailed _ => (s, None)
  | SpDone => match data with [] => (s, None) | _ => (enter_failed SeDecode s, Some SeDecode) end
  | _ =>
    match s_data_inner data now s with
    | Ok s' => (s', None)
    | Err e => (enter_failed e s, Some e)
    end
  end.

(** The calls on a stream; stream/mod.rs:212-464 *)
Inductive sop :=
| SoData (data : bytes) (now : N)
| SoTransmit (now : N)
| SoTimeout (now : N)
| SoPollEndpoint | SoPollEvent
| SoDiscard
| SoLoad (encoded : bytes) (deadline : N).
(** What they give back; stream/mod.rs:212-464 *)
Inductive sres :=
| SrErr (e : serr)             (* [Err(_)] of [handle_data] *)
| SrSent (chunk : bytes)       (* a chunk handed over by [poll_transmit] *)
| SrEndpoint (e : sevent)      (* [poll_endpoint_event] *)
| SrEvent (e : slife).         (* [poll_event] *)
(** stream/mod.rs:292-314 [poll_endpoint_event], [poll_event],
    [discard_pending_events]; endpoint/mod.rs:1071-1077 [stream_load_response] *)
Definition s_step (s : stream) (o : sop) : stream * list sres :=
  match o with
  | SoData data now => let '(s, e) := s_handle_data data now s in
                       (s, match e with Some e => [SrErr e] | None => [] end)
  | SoTransmit now => let '(s, cs) := s_transmit now s in (s, map SrSent cs)
  | SoTimeout now => (s_handle_timeout now s, [])
  | SoPollEndpoint => match s_ep s with [] => (s, []) | e :: r => (s_set_ep r s, [SrEndpoint e]) end
  | SoPollEvent => match s_ev s with [] => (s, []) | e :: r => (s_set_ev r s, [SrEvent e]) end
  | SoDiscard => (s_set_ev [] (s_set_ep [] s), [])
  | SoLoad b d => (s_set_deadline (Some d) (s_set_out (s_out s ++ [b]) s), [])
  end.
End Stream.
