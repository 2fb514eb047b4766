(** The rest of memberlist-proto/src/endpoint/mod.rs around the membership core
    of CoreModel.v: probes and pings, acks and nacks, relaying, gossip and
    push/pull scheduling, dial intents, user broadcasts, leaving.
    Every change of the core goes through [act], i.e. is a [cop]. *)
From Verif Require Import CodecModel.
From Verif Require Export CoreModel AckModel.
Local Open Scope N_scope.

(** probe.rs:43-52 [ProbeKind] *)
Inductive pkind := PKDetection | PKPing.
(** probe.rs:111-176 [ProbePhase], [AwaitingDirectAck], [AwaitingIndirect] *)
Inductive phase :=
| PhDirect (deadline : N)
| PhIndirect (expected : N) (peers nacked : list N) (reliable : option N) (deadline : N).
(** probe.rs:54-110 [Probe] *)
Record probe := mkProbe {
  p_target : nstate; p_inc : N; p_gen : N; p_sent : N; p_kind : pkind;
  p_disp : bool; p_fail : N; p_phase : phase }.
(** endpoint/mod.rs:2790, 4355: [p.dispatched = …]; 4356 [probe.phase = …] *)
Definition p_set_disp (b : bool) (p : probe) : probe :=
  mkProbe (p_target p) (p_inc p) (p_gen p) (p_sent p) (p_kind p) b (p_fail p) (p_phase p).
(** endpoint/mod.rs:4356 [probe.phase = …] *)
Definition p_set_phase (ph : phase) (p : probe) : probe :=
  mkProbe (p_target p) (p_inc p) (p_gen p) (p_sent p) (p_kind p) (p_disp p) (p_fail p) ph.
(** probe.rs:192-215 [new_direct] *)
Definition probe_new (target : nstate) (inc gen sent : N) (kind : pkind) (pt fail : N) : probe :=
  mkProbe target inc gen sent kind false fail (PhDirect (tadd sent pt)).
(** probe.rs:234-236 [direct_deadline] *)
Definition p_direct_deadline (pt : N) (p : probe) : N := tadd (p_sent p) pt.
(** probe.rs:261-266 [deadline] *)
Definition p_deadline (p : probe) : N :=
  match p_phase p with PhDirect d => N.min d (p_fail p) | PhIndirect _ _ _ _ d => d end.

(** endpoint/mod.rs:150-163 [PendingStreamIntent]; the request is kept as the
    message that is encoded into it *)
Record intent := mkIntent { in_peer : N; in_kind : outkind; in_deadline : N; in_msg : msg }.
(** endpoint/mod.rs:164-184 [IndirectForward] *)
Record forward := mkFwd { f_reply : N; f_target : N; f_rseq : N; f_deadline : N }.

(** endpoint/mod.rs:216-367 [Endpoint] around the core.  Hash maps are
    association lists whose order is the iteration order ([EReorder] below
    changes it arbitrarily between operations).  The cached push/pull response
    is kept as the message it encodes (compression of it is not modelled); the
    merge delegate is its predicate, all true when none is installed; metrics
    are not modelled. *)
Record ep := mkEp {
  e_core : core; e_probes : amap probe; e_acks : ack_registry; e_fwds : amap forward;
  e_seq : N; e_pidx : N; e_psr : N; e_tx : list transmit;
  e_flush : option N; e_sid : N; e_int : amap intent; e_iidx : dindex;
  e_payload : bytes; e_snap : bytes; e_cache : msg; e_cver : N;
  e_cdirty : bool; e_norel : list N; e_ub : list (bqueue bytes); e_merge : list nstate -> bool;
  e_np : option N; e_ng : option N; e_npp : option N }.
(** endpoint/mod.rs:216-367 (the fields that make the core), assigned *)
Definition e_set_core (x : core) (e : ep) : ep := mkEp x (e_probes e) (e_acks e) (e_fwds e) (e_seq e) (e_pidx e) (e_psr e) (e_tx e) (e_flush e) (e_sid e) (e_int e) (e_iidx e) (e_payload e) (e_snap e) (e_cache e) (e_cver e) (e_cdirty e) (e_norel e) (e_ub e) (e_merge e) (e_np e) (e_ng e) (e_npp e).
(** endpoint/mod.rs:244 [probes], assigned *)
Definition e_set_probes (x : amap probe) (e : ep) : ep := mkEp (e_core e) x (e_acks e) (e_fwds e) (e_seq e) (e_pidx e) (e_psr e) (e_tx e) (e_flush e) (e_sid e) (e_int e) (e_iidx e) (e_payload e) (e_snap e) (e_cache e) (e_cver e) (e_cdirty e) (e_norel e) (e_ub e) (e_merge e) (e_np e) (e_ng e) (e_npp e).
(** endpoint/mod.rs:243 [ack_registry], assigned *)
Definition e_set_acks (x : ack_registry) (e : ep) : ep := mkEp (e_core e) (e_probes e) x (e_fwds e) (e_seq e) (e_pidx e) (e_psr e) (e_tx e) (e_flush e) (e_sid e) (e_int e) (e_iidx e) (e_payload e) (e_snap e) (e_cache e) (e_cver e) (e_cdirty e) (e_norel e) (e_ub e) (e_merge e) (e_np e) (e_ng e) (e_npp e).
(** endpoint/mod.rs:246 [indirect_forwards], assigned *)
Definition e_set_fwds (x : amap forward) (e : ep) : ep := mkEp (e_core e) (e_probes e) (e_acks e) x (e_seq e) (e_pidx e) (e_psr e) (e_tx e) (e_flush e) (e_sid e) (e_int e) (e_iidx e) (e_payload e) (e_snap e) (e_cache e) (e_cver e) (e_cdirty e) (e_norel e) (e_ub e) (e_merge e) (e_np e) (e_ng e) (e_npp e).
(** endpoint/mod.rs:248 [next_seq], assigned *)
Definition e_set_seq (x : N) (e : ep) : ep := mkEp (e_core e) (e_probes e) (e_acks e) (e_fwds e) x (e_pidx e) (e_psr e) (e_tx e) (e_flush e) (e_sid e) (e_int e) (e_iidx e) (e_payload e) (e_snap e) (e_cache e) (e_cver e) (e_cdirty e) (e_norel e) (e_ub e) (e_merge e) (e_np e) (e_ng e) (e_npp e).
(** endpoint/mod.rs:260 [probe_index], assigned *)
Definition e_set_pidx (x : N) (e : ep) : ep := mkEp (e_core e) (e_probes e) (e_acks e) (e_fwds e) (e_seq e) x (e_psr e) (e_tx e) (e_flush e) (e_sid e) (e_int e) (e_iidx e) (e_payload e) (e_snap e) (e_cache e) (e_cver e) (e_cdirty e) (e_norel e) (e_ub e) (e_merge e) (e_np e) (e_ng e) (e_npp e).
(** endpoint/mod.rs:266 [probes_since_reset], assigned *)
Definition e_set_psr (x : N) (e : ep) : ep := mkEp (e_core e) (e_probes e) (e_acks e) (e_fwds e) (e_seq e) (e_pidx e) x (e_tx e) (e_flush e) (e_sid e) (e_int e) (e_iidx e) (e_payload e) (e_snap e) (e_cache e) (e_cver e) (e_cdirty e) (e_norel e) (e_ub e) (e_merge e) (e_np e) (e_ng e) (e_npp e).
(** endpoint/mod.rs:314 [pending_transmits], assigned *)
Definition e_set_tx (x : list transmit) (e : ep) : ep := mkEp (e_core e) (e_probes e) (e_acks e) (e_fwds e) (e_seq e) (e_pidx e) (e_psr e) x (e_flush e) (e_sid e) (e_int e) (e_iidx e) (e_payload e) (e_snap e) (e_cache e) (e_cver e) (e_cdirty e) (e_norel e) (e_ub e) (e_merge e) (e_np e) (e_ng e) (e_npp e).
(** endpoint/mod.rs:327 [leave_flush_remaining], assigned *)
Definition e_set_flush (x : option N) (e : ep) : ep := mkEp (e_core e) (e_probes e) (e_acks e) (e_fwds e) (e_seq e) (e_pidx e) (e_psr e) (e_tx e) x (e_sid e) (e_int e) (e_iidx e) (e_payload e) (e_snap e) (e_cache e) (e_cver e) (e_cdirty e) (e_norel e) (e_ub e) (e_merge e) (e_np e) (e_ng e) (e_npp e).
(** endpoint/mod.rs:336 [next_stream_id], assigned *)
Definition e_set_sid (x : N) (e : ep) : ep := mkEp (e_core e) (e_probes e) (e_acks e) (e_fwds e) (e_seq e) (e_pidx e) (e_psr e) (e_tx e) (e_flush e) x (e_int e) (e_iidx e) (e_payload e) (e_snap e) (e_cache e) (e_cver e) (e_cdirty e) (e_norel e) (e_ub e) (e_merge e) (e_np e) (e_ng e) (e_npp e).
(** endpoint/mod.rs:340 [pending_stream_intents], assigned *)
Definition e_set_int (x : amap intent) (e : ep) : ep := mkEp (e_core e) (e_probes e) (e_acks e) (e_fwds e) (e_seq e) (e_pidx e) (e_psr e) (e_tx e) (e_flush e) (e_sid e) x (e_iidx e) (e_payload e) (e_snap e) (e_cache e) (e_cver e) (e_cdirty e) (e_norel e) (e_ub e) (e_merge e) (e_np e) (e_ng e) (e_npp e).
(** endpoint/mod.rs:349 [intent_deadlines], assigned *)
Definition e_set_iidx (x : dindex) (e : ep) : ep := mkEp (e_core e) (e_probes e) (e_acks e) (e_fwds e) (e_seq e) (e_pidx e) (e_psr e) (e_tx e) (e_flush e) (e_sid e) (e_int e) x (e_payload e) (e_snap e) (e_cache e) (e_cver e) (e_cdirty e) (e_norel e) (e_ub e) (e_merge e) (e_np e) (e_ng e) (e_npp e).
(** endpoint/mod.rs:352 [ack_payload], assigned *)
Definition e_set_payload (x : bytes) (e : ep) : ep := mkEp (e_core e) (e_probes e) (e_acks e) (e_fwds e) (e_seq e) (e_pidx e) (e_psr e) (e_tx e) (e_flush e) (e_sid e) (e_int e) (e_iidx e) x (e_snap e) (e_cache e) (e_cver e) (e_cdirty e) (e_norel e) (e_ub e) (e_merge e) (e_np e) (e_ng e) (e_npp e).
(** endpoint/mod.rs:270 [local_state_snapshot], assigned *)
Definition e_set_snap (x : bytes) (e : ep) : ep := mkEp (e_core e) (e_probes e) (e_acks e) (e_fwds e) (e_seq e) (e_pidx e) (e_psr e) (e_tx e) (e_flush e) (e_sid e) (e_int e) (e_iidx e) (e_payload e) x (e_cache e) (e_cver e) (e_cdirty e) (e_norel e) (e_ub e) (e_merge e) (e_np e) (e_ng e) (e_npp e).
(** endpoint/mod.rs:282 [cached_pushpull_response], assigned *)
Definition e_set_cache (x : msg) (e : ep) : ep := mkEp (e_core e) (e_probes e) (e_acks e) (e_fwds e) (e_seq e) (e_pidx e) (e_psr e) (e_tx e) (e_flush e) (e_sid e) (e_int e) (e_iidx e) (e_payload e) (e_snap e) x (e_cver e) (e_cdirty e) (e_norel e) (e_ub e) (e_merge e) (e_np e) (e_ng e) (e_npp e).
(** endpoint/mod.rs:287 [cached_response_version], assigned *)
Definition e_set_cver (x : N) (e : ep) : ep := mkEp (e_core e) (e_probes e) (e_acks e) (e_fwds e) (e_seq e) (e_pidx e) (e_psr e) (e_tx e) (e_flush e) (e_sid e) (e_int e) (e_iidx e) (e_payload e) (e_snap e) (e_cache e) x (e_cdirty e) (e_norel e) (e_ub e) (e_merge e) (e_np e) (e_ng e) (e_npp e).
(** endpoint/mod.rs:292 [cached_response_dirty], assigned *)
Definition e_set_cdirty (x : bool) (e : ep) : ep := mkEp (e_core e) (e_probes e) (e_acks e) (e_fwds e) (e_seq e) (e_pidx e) (e_psr e) (e_tx e) (e_flush e) (e_sid e) (e_int e) (e_iidx e) (e_payload e) (e_snap e) (e_cache e) (e_cver e) x (e_norel e) (e_ub e) (e_merge e) (e_np e) (e_ng e) (e_npp e).
(** endpoint/mod.rs:353 [reliable_pings_disabled], assigned *)
Definition e_set_norel (x : list N) (e : ep) : ep := mkEp (e_core e) (e_probes e) (e_acks e) (e_fwds e) (e_seq e) (e_pidx e) (e_psr e) (e_tx e) (e_flush e) (e_sid e) (e_int e) (e_iidx e) (e_payload e) (e_snap e) (e_cache e) (e_cver e) (e_cdirty e) x (e_ub e) (e_merge e) (e_np e) (e_ng e) (e_npp e).
(** endpoint/mod.rs:360 [user_broadcasts], assigned *)
Definition e_set_ub (x : list (bqueue bytes)) (e : ep) : ep := mkEp (e_core e) (e_probes e) (e_acks e) (e_fwds e) (e_seq e) (e_pidx e) (e_psr e) (e_tx e) (e_flush e) (e_sid e) (e_int e) (e_iidx e) (e_payload e) (e_snap e) (e_cache e) (e_cver e) (e_cdirty e) (e_norel e) x (e_merge e) (e_np e) (e_ng e) (e_npp e).
(** endpoint/mod.rs:333 [merge_delegate], assigned *)
Definition e_set_merge (x : list nstate -> bool) (e : ep) : ep := mkEp (e_core e) (e_probes e) (e_acks e) (e_fwds e) (e_seq e) (e_pidx e) (e_psr e) (e_tx e) (e_flush e) (e_sid e) (e_int e) (e_iidx e) (e_payload e) (e_snap e) (e_cache e) (e_cver e) (e_cdirty e) (e_norel e) (e_ub e) x (e_np e) (e_ng e) (e_npp e).
(** endpoint/mod.rs:365 [next_probe], assigned *)
Definition e_set_np (x : option N) (e : ep) : ep := mkEp (e_core e) (e_probes e) (e_acks e) (e_fwds e) (e_seq e) (e_pidx e) (e_psr e) (e_tx e) (e_flush e) (e_sid e) (e_int e) (e_iidx e) (e_payload e) (e_snap e) (e_cache e) (e_cver e) (e_cdirty e) (e_norel e) (e_ub e) (e_merge e) x (e_ng e) (e_npp e).
(** endpoint/mod.rs:366 [next_gossip], assigned *)
Definition e_set_ng (x : option N) (e : ep) : ep := mkEp (e_core e) (e_probes e) (e_acks e) (e_fwds e) (e_seq e) (e_pidx e) (e_psr e) (e_tx e) (e_flush e) (e_sid e) (e_int e) (e_iidx e) (e_payload e) (e_snap e) (e_cache e) (e_cver e) (e_cdirty e) (e_norel e) (e_ub e) (e_merge e) (e_np e) x (e_npp e).
(** endpoint/mod.rs:367 [next_pushpull], assigned *)
Definition e_set_npp (x : option N) (e : ep) : ep := mkEp (e_core e) (e_probes e) (e_acks e) (e_fwds e) (e_seq e) (e_pidx e) (e_psr e) (e_tx e) (e_flush e) (e_sid e) (e_int e) (e_iidx e) (e_payload e) (e_snap e) (e_cache e) (e_cver e) (e_cdirty e) (e_norel e) (e_ub e) (e_merge e) (e_np e) (e_ng e) x.

(** framing/mod.rs:131-142 and endpoint/mod.rs:960 *)
Definition TAG_LEN : N := 1.
(** framing/mod.rs:131-142 *)
Definition COUNT_LEN : N := 5.
(** framing/mod.rs:131-142 *)
Definition PART_LEN : N := 5.
(** endpoint/mod.rs:960 *)
Definition USER_OVERHEAD : N := PART_LEN + 1 + 5.
(** endpoint/mod.rs:89 *)
Definition SNAP_RESERVE : N := 1048576.
(** config/mod.rs:29, 39 *)
Definition MTU_MAX : N := 65507.
(** config/mod.rs:29 *)
Definition MTU_MIN : N := 512.

(** event/mod.rs:1106-1124 [EndpointEvent] *)
Inductive sevent :=
| SEReply (peer : N) (states : list pns) (user : bytes) (join : bool) (sid : N)
| SERequest (peer : N) (states : list pns) (user : bytes) (join : bool) (sid : N)
| SEAcked (seq at_ : N)
| SEFailed (seq : N)
| SEUser (peer : N) (data : bytes)
| SEClosed.

(** What a call hands back;
    results of the public functions of endpoint/mod.rs *)
Inductive out :=
| OEvent (e : event)                                   (* [poll_event] *)
| OTx (t : transmit)                                   (* [poll_transmit] *)
| OMsgs (l : list msg)                                 (* [drain_broadcasts] *)
| OStream (id peer : N) (req : option (outkind * msg)) (deadline : N)  (* a [Stream] *)
| ODial (id peer deadline : N) (k : outkind)           (* a [DialIntent] *)
| OId (n : N)                                          (* a stream or ping id *)
| OClose | OResponse (m : msg)                         (* [StreamCommand] *)
| OErr.                                                (* [Err(_)] *)

(** endpoint/mod.rs:4891-4902 [push_pull_scale].  Simplified:
    [ceil(log2 n - log2 32)] is computed exactly, the code uses [f64] (exact
    as long as [n] is well below 2^48). *)
Definition push_pull_scale (interval n : N) : N :=
  if n <=? 32 then interval else
  match dmul interval (N.log2_up n - 5 + 1) with Some d => d | None => interval end.
(** endpoint/mod.rs:4247-4263: distinct addresses in order *)
Fixpoint distinct_addrs (seen : list N) (l : list N) : list N :=
  match l with
  | [] => []
  | a :: r => if existsb (N.eqb a) seen then distinct_addrs seen r else a :: distinct_addrs (a :: seen) r
  end.
(** endpoint/mod.rs:981-999: the loop of [allocate_seq]; [None] when the fuel
    runs out (the code would go on looping) *)
Fixpoint seq_loop (fuel : nat) (s : N) (used : N -> bool) : option N :=
  match fuel with
  | O => None
  | S f => let s := wadd32 s 1 in
           if (s =? 0) || used s then seq_loop f s used else Some s
  end.
(** minimum of present instants; endpoint/mod.rs:777-820 *)
Definition omin (a b : option N) : option N :=
  match a, b with Some x, Some y => Some (N.min x y) | Some x, None => Some x | None, y => y end.

Section Endpoint.
Variable C : cfg.

(** an action on the core; endpoint/mod.rs: the functions cited in CoreModel.v *)
Definition act (o : cop) (e : ep) : ep := e_set_core (fst (core_step C (e_core e) o)) e.
(** endpoint/mod.rs:400-402 [is_running] *)
Definition runs (e : ep) : bool := is_running (k_life (e_core e)).
(** [pending_transmits.push_back]; endpoint/mod.rs:314 *)
Definition push (t : transmit) (e : ep) : ep := e_set_tx (e_tx e ++ [t]) e.
(** length of one encoded message; endpoint/mod.rs:2821-2826 *)
Definition elen (m : msg) : N := blen (c_enc C m).
(** the local node, as it goes into messages;
    endpoint/mod.rs:2702, 2955, 3078, 3264, 4327 *)
Definition lnode : node := mkNode (c_id C) (c_addr C).

(** endpoint/mod.rs:981-999 [allocate_seq]; enough fuel to try one more number
    than are in use, plus zero.  Simplified: with more than 2^32 - 2 numbers in
    use the code loops for ever; here the calling operation then does nothing. *)
Definition seq_used (e : ep) (s : N) : bool :=
  ahas s (e_probes e) || ahas s (e_fwds e) || ack_contains s (e_acks e).
(** endpoint/mod.rs:981-999 [allocate_seq] *)
Definition alloc_seq (e : ep) : option (N * ep) :=
  match seq_loop (S (S (length (e_probes e) + length (e_fwds e) + length (e_acks e)))) (e_seq e) (seq_used e) with
  | Some s => Some (s, e_set_seq s e)
  | None => None
  end.
(** endpoint/mod.rs:552-556 [allocate_stream_id] ([u64], not wrapped) *)
Definition alloc_sid (e : ep) : N * ep := (e_sid e, e_set_sid (e_sid e + 1) e).

(** endpoint/mod.rs:631-634 [insert_intent] *)
Definition insert_intent (id : N) (i : intent) (e : ep) : ep :=
  e_set_int (aset id i (e_int e)) (e_set_iidx (di_set id (Some (in_deadline i)) (e_iidx e)) e).
(** endpoint/mod.rs:642-645 [remove_intent]: the endpoint after it *)
Definition remove_intent (id : N) (e : ep) : ep :=
  e_set_int (adel id (e_int e)) (e_set_iidx (di_set id None (e_iidx e)) e).
(** endpoint/mod.rs:1029-1038 [retire_reliable_fallback] *)
Definition retire_reliable (seq : N) (e : ep) : ep :=
  match aget seq (e_probes e) with
  | Some p =>
    match p_phase p with
    | PhIndirect x ps nb _ d => e_set_probes (aset seq (p_set_phase (PhIndirect x ps nb None d) p) (e_probes e)) e
    | PhDirect _ => e
    end
  | None => e
  end.
(** endpoint/mod.rs:659-666: drop an intent and retire the fallback it was for *)
Definition resolve_intent (id : N) (e : ep) : ep :=
  match aget id (e_int e) with
  | Some i => let e := remove_intent id e in
              match in_kind i with OKReliablePing s => retire_reliable s e | _ => e end
  | None => remove_intent id e
  end.
(** endpoint/mod.rs:654-670 [fire_expired_stream_intents] *)
Definition fire_expired_intents (now : N) (e : ep) : ep :=
  fold_left (fun e id => resolve_intent id e)
    (map fst (filter (fun p => in_deadline (snd p) <=? now) (e_int e))) e.
(** endpoint/mod.rs:671-704 [fire_expired_forwards] *)
Definition expire_forward (e : ep) (s : N) : ep :=
  match aget s (e_fwds e) with
  | Some f =>
    push (TPacket (f_reply f) (MNack (f_rseq f)))
      (e_set_acks (fst (ack_remove s (e_acks e))) (e_set_fwds (adel s (e_fwds e)) e))
  | None => e
  end.
(** endpoint/mod.rs:671-700 [fire_expired_forwards] *)
Definition fire_expired_forwards (now : N) (e : ep) : ep :=
  fold_left expire_forward (map fst (filter (fun p => f_deadline (snd p) <=? now) (e_fwds e))) e.
(** endpoint/mod.rs:726-753 [poll_transmit] *)
Definition poll_transmit (e : ep) : ep * option transmit :=
  match e_tx e with
  | [] => (e, None)
  | t :: r =>
    let e := e_set_tx r e in
    (match e_flush e with
     | Some rem => if rem <=? 1 then e_set_flush None (act (KEmit EvLeftCluster) e) else e_set_flush (Some (rem - 1)) e
     | None => e
     end, Some t)
  end.
(** endpoint/mod.rs:763-821 [poll_timeout]; the debug assertions are C35 *)
Definition poll_timeout (e : ep) : option N :=
  if negb (runs e) then None else
  fold_right omin None
    [ di_earliest (k_sidx (e_core e));
      fold_right (fun p => omin (Some (p_deadline (snd p)))) None (e_probes e);
      fold_right (fun p => omin (Some (f_deadline (snd p)))) None (e_fwds e);
      di_earliest (e_iidx e); e_np e; e_ng e; e_npp e ].
(** endpoint/mod.rs:856-867 [has_pending_operation] *)
Definition has_pending_operation (e : ep) : bool :=
  runs e && (negb (match e_probes e with [] => true | _ => false end) || negb (match e_fwds e with [] => true | _ => false end)
             || negb (match e_int e with [] => true | _ => false end) || negb (di_is_empty (k_sidx (e_core e)))).

(** endpoint/mod.rs:1093-1112, 3166-3190: the local view as push/pull entries *)
Definition local_states (e : ep) : list pns :=
  map (fun p => let m := snd p in let s := m_server m in
         mkPNS (m_inc m) (ns_id s) (ns_addr s) (m_state m) (ns_meta s) (ns_pv s) (ns_dv s)) (k_mem (e_core e)).
(** endpoint/mod.rs:1164-1178 [refresh_pushpull_response_cache] with 1093-1145
    [build_pushpull_response_bytes] *)
Definition refresh_cache (e : ep) : ep :=
  if (k_ver (e_core e) =? e_cver e) && negb (e_cdirty e) then e else
  e_set_cdirty false (e_set_cver (k_ver (e_core e)) (e_set_cache (MPushPull false (local_states e) (e_snap e)) e)).

(** endpoint/mod.rs:1932-1964 [handle_ping] *)
Definition handle_ping (from seq : N) (source target : node) (e : ep) : ep :=
  if negb (nd_id target =? c_id C) then e else
  let include := negb (c_ack_members_only C) ||
    match aget (nd_id source) (k_mem (e_core e)) with
    | Some m => ns_addr (m_server m) =? from
    | None => false
    end in
  push (TPacket from (MAck seq (if include then e_payload e else []))) e.

(** endpoint/mod.rs:2071-2091 [ack_source_is_valid] *)
Definition ack_source_valid (seq : N) (k : ack_kind) (from : N) (e : ep) : bool :=
  match k with
  | AKProbe | AKPing =>
    match aget seq (e_probes e) with
    | None => false
    | Some p =>
      (ns_addr (p_target p) =? from) ||
      match p_phase p with PhIndirect _ ps _ _ _ => existsb (N.eqb from) ps | _ => false end
    end
  | AKForward _ => match aget seq (e_fwds e) with Some f => f_target f =? from | None => false end
  end.
(** endpoint/mod.rs:2204-2307 [probe_terminate_failure] *)
Definition severity (p : probe) : N :=
  match p_phase p with
  | PhIndirect x _ nb _ _ => if 0 <? x then (x - blen nb) mod two32 else 1
  | PhDirect _ => 1
  end.
(** endpoint/mod.rs:2204-2307: the probe's target is still the member instance probed *)
Definition same_instance (p : probe) (e : ep) : bool :=
  negb (p_gen p =? 0) &&
  match aget (ns_id (p_target p)) (k_mem (e_core e)) with Some m => m_gen m =? p_gen p | None => false end.
(** endpoint/mod.rs:2204-2307 [probe_terminate_failure] *)
Definition probe_fail (seq now : N) (e : ep) : ep :=
  match aget seq (e_probes e) with
  | None => e
  | Some p =>
    let e := e_set_acks (fst (ack_remove seq (e_acks e))) (e_set_probes (adel seq (e_probes e)) e) in
    let e := match p_phase p with PhIndirect _ _ _ (Some rid) _ => remove_intent rid e | _ => e end in
    match p_kind p with
    | PKDetection =>
      if negb (p_disp p) then e else
      let e := act (KHealthFail (severity p)) e in
      if same_instance p e then act (KSuspect (p_inc p) (ns_id (p_target p)) (c_id C) now) e else e
    | PKPing => act (KEmit (EvPingFailed seq (p_target p))) e
    end
  end.
(** endpoint/mod.rs:2096-2164 [complete_probe_success] *)
Definition probe_ok (seq : N) (direct : bool) (payload : bytes) (now : N) (e : ep) : ep :=
  match aget seq (e_probes e) with
  | None => e
  | Some p =>
    if p_fail p <=? now then probe_fail seq now e else
    let e := e_set_acks (fst (ack_remove seq (e_acks e))) (e_set_probes (adel seq (e_probes e)) e) in
    let done := KEmit (EvPingCompleted seq (p_target p) (tsub now (p_sent p)) payload) in
    match p_kind p with
    | PKDetection => let e := act KHealthOk e in if direct then act done e else e
    | PKPing => act done e
    end
  end.
(** endpoint/mod.rs:1969-2050 [handle_ack] *)
Definition handle_ack (from seq : N) (payload : bytes) (now : N) (e : ep) : ep :=
  match ack_get seq (e_acks e) with
  | None => e
  | Some a =>
    if negb (ack_source_valid seq (a_kind a) from e) then e else
    if match a_kind a with
       | AKForward _ => match aget seq (e_fwds e) with Some f => f_deadline f <=? now | None => false end
       | _ => false
       end then e else
    let e := e_set_acks (fst (ack_handle seq (e_acks e))) e in
    match a_kind a with
    | AKForward reply_to =>
      match aget seq (e_fwds e) with
      | Some f => push (TPacket reply_to (MAck (f_rseq f) payload)) (e_set_fwds (adel seq (e_fwds e)) e)
      | None => e
      end
    | _ =>
      let direct := match aget seq (e_probes e) with Some p => ns_addr (p_target p) =? from | None => false end in
      probe_ok seq direct payload now e
    end
  end.
(** endpoint/mod.rs:2319-2350 [handle_nack] *)
Definition handle_nack (from seq now : N) (e : ep) : ep :=
  match aget seq (e_probes e) with
  | None => e
  | Some p =>
    if p_fail p <=? now then e else
    match p_phase p with
    | PhIndirect x ps nb r d =>
      if existsb (N.eqb from) ps && negb (existsb (N.eqb from) nb)
      then e_set_probes (aset seq (p_set_phase (PhIndirect x ps (nb ++ [from]) r d) p) (e_probes e)) e
      else e
    | PhDirect _ => e
    end
  end.

(** endpoint/mod.rs:2361-2366 [drain_broadcasts] *)
Definition drain_broadcasts (e : ep) : ep * list msg :=
  let k := e_core e in
  let sent := snd (fst (take_broadcasts_measured (mbcast C) (c_lim C (k_n k)) 0 u64_max (k_bc k))) in
  (act (KTake 0 u64_max) e, map snd sent).
(** endpoint/mod.rs:2383-2405 [set_ack_payload]; the flag is success *)
Definition set_ack_payload (payload : bytes) (e : ep) : ep * bool :=
  if negb (runs e) then (e, false) else
  if c_mtu C <? elen (MAck u32_max payload) then (e, false) else (e_set_payload payload e, true).
(** endpoint/mod.rs:122-146 [local_state_snapshot_overage] *)
Definition snapshot_fits (s : bytes) : bool :=
  match s with [] => true | _ => elen (MPushPull true [] s) <=? c_frame_max C - SNAP_RESERVE end.
(** endpoint/mod.rs:2430-2442 [set_local_state_snapshot] *)
Definition set_snapshot (s : bytes) (e : ep) : ep * bool :=
  if negb (runs e) then (e, false) else
  if snapshot_fits s then (e_set_cdirty true (e_set_snap s e), true) else (e, false).
(** endpoint/mod.rs:2447-2469 [check_user_broadcast] *)
Definition user_limit : N := c_mtu C - (TAG_LEN + COUNT_LEN) - USER_OVERHEAD.
(** endpoint/mod.rs:2500-2532 [queue_user_broadcast] (rank 0), [queue_user_broadcast_ranked] *)
Definition queue_user (rank : N) (data : bytes) (e : ep) : ep * bool :=
  if negb (runs e) then (e, false) else
  if user_limit <? blen data then (e, false) else (e_set_ub (queue_ranked bytes_broadcast rank data (e_ub e)) e, true).
(** endpoint/mod.rs:971-979 [drain_user_broadcasts] *)
Definition drain_user (limit : N) (e : ep) : ep * list bytes :=
  let '(ub, l, _) := ub_take bytes_broadcast (c_lim C (k_n (e_core e))) USER_OVERHEAD limit (e_ub e) in
  (e_set_ub ub e, l).
(** endpoint/mod.rs:2538-2557 [send_user_packet] *)
Definition send_user (to : N) (data : bytes) (e : ep) : ep * bool :=
  if negb (runs e) then (e, false) else
  if c_mtu C <? elen (MUserData data) then (e, false) else (push (TPacket to (MUserData data)) e, true).
(** endpoint/mod.rs:2574-2584, 2749-2759: assembled size of a compound, upper bound *)
Definition assembled (ms : list msg) : N := fold_left (fun a m => a + (PART_LEN + elen m)) ms (TAG_LEN + COUNT_LEN).
(** endpoint/mod.rs:2563-2597 [send_user_packets] *)
Definition send_users (to : N) (l : list bytes) (e : ep) : ep * bool :=
  if negb (runs e) then (e, false) else
  match l with
  | [] => (e, true)
  | [d] => send_user to d e
  | _ => let ms := map MUserData l in
         if c_mtu C <? assembled ms then (e, false) else (push (TCompound to ms) e, true)
  end.

(** endpoint/mod.rs:2838-2847 [push_probe_packet_within_mtu] with 2821-2826 *)
Definition push_fit (to : N) (m : msg) (e : ep) : ep * bool :=
  if elen m <=? c_mtu C then (push (TPacket to m) e, true) else (e, false).
(** endpoint/mod.rs:2851-2875 [next_probe_target], 2878-2884 [member_at]: scan
    from the cursor *)
Definition probeable (p : N * member) : bool := negb (fst p =? c_id C) && negb (dead_or_left (m_state (snd p))).
(** endpoint/mod.rs:2851-2875: the loop *)
Fixpoint scan (fuel : nat) (idx : N) (t : mtable) : option (N * N) :=
  match fuel with
  | O => None
  | S f =>
    let n := blen t in
    let i := idx mod n in
    match nth_error t (N.to_nat i) with
    | Some p => if probeable p then Some (fst p, (i + 1) mod n) else scan f (idx + 1) t
    | None => scan f (idx + 1) t
    end
  end.
(** endpoint/mod.rs:2851-2875 [next_probe_target] *)
Definition next_target (e : ep) : option (N * ep) :=
  let t := k_mem (e_core e) in
  match scan (length t) (e_pidx e) t with
  | Some (id, cur) => Some (id, e_set_pidx cur e)
  | None => None
  end.
(** endpoint/mod.rs:2650-2794 [start_probe] *)
Definition start_probe (now : N) (e : ep) : ep :=
  if negb (runs e) then e else
  match next_target e with
  | None => e
  | Some (id, e) =>
    match aget id (k_mem (e_core e)) with
    | None => e
    | Some m =>
      match alloc_seq e with
      | None => e
      | Some (seq, e) =>
        let pt := c_probe_timeout C in
        let fail := tadd now (scale_timeout (k_aw (e_core e)) (c_probe_interval C)) in
        let p := probe_new (m_server m) (m_inc m) (m_gen m) now PKDetection pt fail in
        let to := ns_addr (m_server m) in
        let e := e_set_acks (ack_register seq (mkAck now (p_direct_deadline pt p) AKProbe) (e_acks e))
                   (e_set_probes (aset seq p (e_probes e)) e) in
        let ping := MPing seq lnode (mkNode id to) in
        let '(e, sent) :=
          if pstate_eqb (m_state m) PSuspect then
            let sus := MSuspect (m_inc m) id (c_id C) in
            if assembled [ping; sus] <=? c_mtu C then (push (TCompound to [ping; sus]) e, true)
            else let '(e, d) := push_fit to ping e in (fst (push_fit to sus e), d)
          else push_fit to ping e in
        e_set_probes (aset seq (p_set_disp sent p) (e_probes e)) e
      end
    end
  end.
(** endpoint/mod.rs:2890-3003 [handle_indirect_ping] *)
Definition handle_indirect_ping (from seq : N) (source target : node) (now : N) (e : ep) : ep :=
  if negb (from =? nd_addr source) then e else
  if c_max_forwards C <=? blen (e_fwds e) then e else
  if existsb (fun p => (f_reply (snd p) =? nd_addr source) && (f_rseq (snd p) =? seq) && (f_target (snd p) =? nd_addr target)) (e_fwds e)
  then e else
  match alloc_seq e with
  | None => e
  | Some (ours, e) =>
    let deadline := tadd now (c_probe_timeout C) in
    let ping := MPing ours lnode target in
    if negb (elen ping <=? c_mtu C) then push (TPacket (nd_addr source) (MNack seq)) e else
    push (TPacket (nd_addr target) ping)
      (e_set_fwds (aset ours (mkFwd (nd_addr source) (nd_addr target) seq deadline) (e_fwds e))
        (e_set_acks (ack_register ours (mkAck now deadline (AKForward (nd_addr source))) (e_acks e)) e))
  end.
(** endpoint/mod.rs:3030-3128 [ping]; simplified: the encoding does not fail *)
Definition ping (nd : node) (now : N) (e : ep) : ep * option N :=
  if negb (runs e) then (e, None) else
  let rec := aget (nd_id nd) (k_mem (e_core e)) in
  let target := match rec with
    | Some m => if ns_addr (m_server m) =? nd_addr nd then m_server m else mkNS (nd_id nd) (nd_addr nd) PAlive [] 1 1
    | None => mkNS (nd_id nd) (nd_addr nd) PAlive [] 1 1
    end in
  let inc := match rec with Some m => m_inc m | None => 0 end in
  let gen := match rec with Some m => m_gen m | None => 0 end in
  match alloc_seq e with
  | None => (e, None)
  | Some (seq, e) =>
    let msg := MPing seq lnode nd in
    if c_mtu C <? elen msg then (e, None) else
    let pt := c_probe_timeout C in
    let p := p_set_disp true (probe_new target inc gen now PKPing pt (tadd now pt)) in
    (push (TPacket (nd_addr nd) msg)
      (e_set_acks (ack_register seq (mkAck now (p_direct_deadline pt p) AKPing) (e_acks e))
        (e_set_probes (aset seq p (e_probes e)) e)), Some seq)
  end.

(** The dials: endpoint/mod.rs:3147-3211 [start_push_pull_direct],
    3247-3293 [start_reliable_ping_direct], 3337-3366 [start_user_message_direct] *)
Definition open_intent (peer : N) (k : outkind) (deadline : N) (m : msg) (e : ep) : N * ep * bool :=
  let '(id, e) := alloc_sid e in
  if negb (runs e) then (id, e, false) else (id, insert_intent id (mkIntent peer k deadline m) e, true).
(** endpoint/mod.rs:3147-3211 [start_push_pull_direct] *)
Definition push_pull_direct (peer : N) (join : bool) (now : N) (e : ep) : N * ep * bool :=
  open_intent peer (OKPushPull join) (tadd now (c_stream_timeout C)) (MPushPull join (local_states e) (e_snap e)) e.
(** endpoint/mod.rs:3247-3293 [start_reliable_ping_direct] *)
Definition reliable_ping_direct (id addr seq deadline : N) (e : ep) : N * ep * bool :=
  open_intent addr (OKReliablePing seq) deadline (MPing seq lnode (mkNode id addr)) e.
(** endpoint/mod.rs:3337-3366 [start_user_message_direct] *)
Definition user_message_direct (peer : N) (data : bytes) (now : N) (e : ep) : N * ep * bool :=
  if negb (runs e) then (0, e, false) else
  open_intent peer OKUserMessage (tadd now (c_stream_timeout C)) (MUserData data) e.
(** endpoint/mod.rs:3223-3232, 3308-3325, 3376-3388: the variants that ask for
    the dial through [DialRequested] instead of returning the intent *)
Definition announce (r : N * ep * bool) : N * ep :=
  let '(id, e, ok) := r in
  match aget id (e_int e) with
  | Some i => (id, if ok then act (KEmit (EvDial id (in_peer i) (in_deadline i))) e else e)
  | None => (id, e)
  end.
(** the [DialIntent] of the [_direct] variants; endpoint/mod.rs:3147-3366 *)
Definition dialled (r : N * ep * bool) : ep * list out :=
  let '(id, e, ok) := r in
  (e, if ok then match aget id (e_int e) with Some i => [ODial id (in_peer i) (in_deadline i) (in_kind i)] | None => [] end else []).

(** endpoint/mod.rs:3396-3443 [dial_succeeded] *)
Definition dial_succeeded (id now : N) (e : ep) : ep * list out :=
  match aget id (e_int e) with
  | None => (remove_intent id e, [])
  | Some i =>
    if (in_deadline i <=? now) || negb (runs e) then (resolve_intent id e, [])
    else (remove_intent id e, [OStream id (in_peer i) (Some (in_kind i, in_msg i)) (in_deadline i)])
  end.
(** endpoint/mod.rs:3448-3471 [accept_stream] *)
Definition accept_stream (from now : N) (e : ep) : ep * list out :=
  if negb (runs e) then (e, []) else
  let '(id, e) := alloc_sid e in
  (e, [OStream id from None (tadd now (c_stream_timeout C))]).

(** addresses of live remote members, endpoint/mod.rs:3640-3648, 4582-4592 *)
Definition live_remote (p : N * member) : bool :=
  negb (fst p =? c_id C) && match m_state (snd p) with PAlive | PSuspect => true | _ => false end.
(** endpoint/mod.rs:3640-3648, 4582-4592: their addresses *)
Definition live_addrs (e : ep) : list N :=
  map (fun p => ns_addr (m_server (snd p))) (filter live_remote (k_mem (e_core e))).
(** endpoint/mod.rs:3557-3576 [farewell_capacity] *)
Definition farewell_capacity (e : ep) : option N :=
  let dead := elen (MDead (k_inc (e_core e)) (c_id C) (c_id C)) in
  let budget := c_mtu C - (TAG_LEN + COUNT_LEN) - (dead + PART_LEN) in
  let cap := budget - USER_OVERHEAD in
  if 0 <? cap then Some cap else None.
(** endpoint/mod.rs:3670-3751: the payloads that ride with the leave notice *)
Definition farewell_payloads (dead : msg) (farewell : option bytes) (e : ep) : ep * list bytes :=
  let budget := c_mtu C - (TAG_LEN + COUNT_LEN) - (elen dead + PART_LEN) in
  let '(budget, reserved) :=
    match farewell with
    | Some fw => let charge := elen (MUserData fw) + PART_LEN in
                 if charge <=? budget then (budget - charge, [fw]) else (budget, [])
    | None => (budget, [])
    end in
  match reserved with
  | [] => if budget =? 0 then (e, []) else drain_user budget e
  | _ => let '(e, l) := drain_user budget e in (e, reserved ++ l)
  end.
(** endpoint/mod.rs:3589-3801 [leave_with]; 3544-3546 [leave] is [None] *)
Definition leave_with (now : N) (farewell : option bytes) (e : ep) : ep :=
  if negb (runs e) then e else
  let e := e_set_np None (e_set_ng None (e_set_npp None e)) in
  let e := e_set_iidx (di_clear (e_iidx e)) (e_set_int [] e) in
  let inc := N.max (match aget (c_id C) (k_mem (e_core e)) with Some m => m_inc m | None => 0 end) (k_inc (e_core e)) in
  let e := act (KLeave now) e in
  let live := live_addrs e in
  let e := e_set_tx [] e in
  let dead := MDead inc (c_id C) (c_id C) in
  let '(e, payloads) := match live with [] => (e, []) | _ => farewell_payloads dead farewell e end in
  let e := e_set_ub (ub_reset (e_ub e)) e in
  let tx := map (fun to => match payloads with
                           | [] => TPacket to dead
                           | _ => TCompound to (map MUserData payloads ++ [dead])
                           end) live in
  let e := e_set_tx (e_tx e ++ tx) e in
  match live with
  | [] => e_set_flush None (act (KEmit EvLeftCluster) e)
  | _ => e_set_flush (Some (blen live)) e
  end.

(** endpoint/mod.rs:4873-4884 [pick_random].  Simplified: any [k] distinct
    positions in any order, by shuffling; the code samples a reservoir. *)
Definition pick (k : N) (pool : list N) (e : ep) : list N * ep :=
  let d := k_draws (e_core e) in
  (btake k (shuffle (fun i => c_rng C (d + N.of_nat i)) pool), act (KDraws (blen pool)) e).
(** endpoint/mod.rs:4202-4364 [probe_fan_out_indirect] *)
Definition fan_helpers (target_addr : N) (e : ep) : list N :=
  distinct_addrs []
    (map (fun p => ns_addr (m_server (snd p)))
      (filter (fun p => pstate_eqb (m_state (snd p)) PAlive
                        && negb (ns_addr (m_server (snd p)) =? c_addr C)
                        && negb (ns_addr (m_server (snd p)) =? target_addr)) (k_mem (e_core e)))).
(** endpoint/mod.rs:4325-4345: one helper asked *)
Definition send_indirect (m : msg) (st : ep * list N) (to : N) : ep * list N :=
  let '(e, sent) := push_fit to m (fst st) in (e, if sent then snd st ++ [to] else snd st).
(** endpoint/mod.rs:4202-4364 [probe_fan_out_indirect] *)
Definition fan_out (now : N) (e : ep) (seq : N) : ep :=
  match aget seq (e_probes e) with
  | None => e
  | Some p =>
    let id := ns_id (p_target p) in
    let addr := ns_addr (p_target p) in
    let '(chosen, e) := pick (c_indirect C) (fan_helpers addr e) e in
    if p_fail p <=? now then probe_fail seq now e else
    let '(rid, e) :=
      if existsb (N.eqb id) (e_norel e) then (None, e)
      else let '(rid, e) := announce (reliable_ping_direct id addr seq (p_fail p) e) in (Some rid, e) in
    let '(e, peers) := fold_left (send_indirect (MIndirectPing seq lnode (mkNode id addr))) chosen (e, []) in
    if (blen peers =? 0) && match rid with None => true | Some _ => false end then probe_fail seq now e else
    e_set_probes (aset seq (p_set_phase (PhIndirect (blen peers) peers [] rid (p_fail p)) (p_set_disp true p)) (e_probes e)) e
  end.
(** endpoint/mod.rs:4149-4196 [advance_probe_fsm] *)
Inductive fsm := FsmWait | FsmFan | FsmFail.
(** endpoint/mod.rs:4149-4196: what is due for one probe *)
Definition fsm_due (now : N) (p : probe) : fsm :=
  if p_fail p <=? now then FsmFail else
  match p_phase p with
  | PhDirect _ =>
    if p_direct_deadline (c_probe_timeout C) p <=? now
    then match p_kind p with PKDetection => FsmFan | PKPing => FsmFail end
    else FsmWait
  | PhIndirect _ _ _ _ _ => FsmWait
  end.
(** endpoint/mod.rs:4149-4196 [advance_probe_fsm] *)
Definition advance_fsm (now : N) (e : ep) : ep :=
  let fan := map fst (filter (fun p => match fsm_due now (snd p) with FsmFan => true | _ => false end) (e_probes e)) in
  let fail := map fst (filter (fun p => match fsm_due now (snd p) with FsmFail => true | _ => false end) (e_probes e)) in
  fold_left (fun e s => probe_fail s now e) fail (fold_left (fan_out now) fan e).

(** endpoint/mod.rs:4654-4704 [reset_nodes] *)
Definition reset_nodes (now : N) (e : ep) : ep := e_set_pidx 0 (act (KReset now) e).
(** endpoint/mod.rs:4368-4387 [fire_probe_scheduler]; the counter is a [usize]
    and saturates at 2^64 - 1, which is not reached *)
Definition fire_probe (now : N) (e : ep) : ep :=
  match e_np e with
  | None => e
  | Some d =>
    if now <? d then e else
    let e := e_set_psr (e_psr e + 1) e in
    let e := if (0 <? k_n (e_core e)) && (k_n (e_core e) <=? e_psr e) then e_set_psr 0 (reset_nodes now e) else e in
    e_set_np (Some (tadd now (c_probe_interval C))) (start_probe now e)
  end.
(** endpoint/mod.rs:4421-4440: who may receive gossip *)
Definition gossip_target (now : N) (p : N * member) : bool :=
  negb (fst p =? c_id C) &&
  match m_state (snd p) with
  | PAlive | PSuspect => true
  | PDead => tsub now (m_change (snd p)) <=? c_dead_window C
  | _ => false
  end.
(** endpoint/mod.rs:4457-4537: what one gossip round sends *)
Definition gossip_batch (e : ep) : ep * list msg :=
  let k := e_core e in
  let lim := c_lim C (k_n k) in
  let budget := c_mtu C - (TAG_LEN + COUNT_LEN) in
  match peek_first_sendable (k_bc k) (c_mtu C) with
  | Some len =>
    if budget <? len + PART_LEN then
      let one := snd (take_one_broadcast (mbcast C) lim (c_mtu C) (k_bc k)) in
      (act (KTakeOne (c_mtu C)) e, match one with Some b => [snd b] | None => [] end)
    else
      let '(_, got, used) := take_broadcasts_measured (mbcast C) lim PART_LEN budget (k_bc k) in
      let e := act (KTake PART_LEN budget) e in
      let '(e, users) := drain_user (match got with [] => budget | _ => budget - used end) e in
      (e, map snd got ++ map MUserData users)
  | None =>
      let '(_, got, used) := take_broadcasts_measured (mbcast C) lim PART_LEN budget (k_bc k) in
      let e := act (KTake PART_LEN budget) e in
      let '(e, users) := drain_user (match got with [] => budget | _ => budget - used end) e in
      (e, map snd got ++ map MUserData users)
  end.
(** endpoint/mod.rs:4542-4558: the datagram for one target *)
Definition gossip_tx (ms : list msg) (to : N) : list transmit :=
  match ms with
  | [] => []
  | [m] => [TPacket to m]
  | _ => [TCompound to ms]
  end.
(** endpoint/mod.rs:4401-4562 [fire_gossip_scheduler] *)
Definition fire_gossip (now : N) (e : ep) : ep :=
  match e_ng e with
  | None => e
  | Some d =>
    if now <? d then e else
    let pool := map (fun p => ns_addr (m_server (snd p))) (filter (gossip_target now) (k_mem (e_core e))) in
    let '(targets, e) := pick (c_gossip_nodes C) pool e in
    let next := Some (tadd now (c_gossip_interval C)) in
    match targets with
    | [] => e_set_ng next e
    | _ =>
      let '(e, ms) := gossip_batch e in
      e_set_ng next (e_set_tx (e_tx e ++ flat_map (gossip_tx ms) targets) e)
    end
  end.
(** endpoint/mod.rs:4570-4609 [fire_pushpull_scheduler] *)
Definition fire_pushpull (now : N) (e : ep) : ep :=
  match e_npp e with
  | None => e
  | Some d =>
    if now <? d then e else
    let pool := live_addrs e in
    let e := match pool with
             | [] => e
             | _ => let '(chosen, e) := pick 1 pool e in
                    match chosen with
                    | peer :: _ => snd (announce (push_pull_direct peer false now e))
                    | [] => e
                    end
             end in
    e_set_npp (Some (tadd now (push_pull_scale (c_pp_interval C) (blen pool)))) e
  end.
(** endpoint/mod.rs:4117-4139 [handle_timeout] *)
Definition handle_timeout (now : N) (e : ep) : ep :=
  if negb (runs e) then e else
  refresh_cache (fire_pushpull now (fire_gossip now (fire_probe now
    (fire_expired_intents now (fire_expired_forwards now (advance_fsm now (act (KExpire now) e))))))).
(** endpoint/mod.rs:4621-4642 [handle_packet], with 619-621 [handle_user_data],
    1920-1927 [handle_suspect], [handle_dead], 4110-4112 [handle_alive] *)
Definition handle_packet (from : N) (m : msg) (now : N) (e : ep) : ep :=
  if negb (runs e) then e else
  match m with
  | MPing seq s t => handle_ping from seq s t e
  | MIndirectPing seq s t => handle_indirect_ping from seq s t now e
  | MAck seq payload => handle_ack from seq payload now e
  | MNack seq => handle_nack from seq now e
  | MSuspect inc id f => act (KSuspect inc id f now) e
  | MAlive al => act (KAlive al now) e
  | MDead inc id f => act (KDead inc id f now) e
  | MUserData d => act (KEmit (EvUserPacket from d Unreliable)) e
  | MPushPull _ _ _ | MErrorResponse _ => e
  end.
(** endpoint/mod.rs:4724-4837 [handle_stream_event], with 1912-1917
    [merge_admitted] and 3484-3502 [handle_reliable_ping_response] *)
Definition merge_in (peer : N) (states : list pns) (user : bytes) (join : bool) (sid now : N) (e : ep) : ep :=
  let e := act (KMerge states now) e in
  match user with [] => e | _ => act (KEmit (EvRemoteState peer user join sid)) e end.
(** endpoint/mod.rs:4724-4837 [handle_stream_event] *)
Definition handle_stream_event (ev : sevent) (now : N) (e : ep) : ep * list out :=
  match ev with
  | SEReply peer states user join sid =>
    if negb (runs e) then (e, []) else
    if e_merge e (map pns_ns states) then (merge_in peer states user join sid now e, []) else (e, [OClose])
  | SERequest peer states user join sid =>
    if negb (runs e) then (e, [OClose]) else
    if e_merge e (map pns_ns states) then (merge_in peer states user join sid now e, [OResponse (e_cache e)])
    else (e, [OClose])
  | SEAcked seq at_ => (if runs e then probe_ok seq false [] at_ e else e, [])
  | SEFailed seq => (if runs e then retire_reliable seq e else e, [])
  | SEUser peer data => (if runs e then act (KEmit (EvUserPacket peer data Reliable)) e else e, [])
  | SEClosed => (e, [])
  end.
(** endpoint/mod.rs:4910-4920 [random_stagger] *)
Definition stagger (interval : N) (e : ep) : N * ep :=
  let nanos := interval mod two64 in
  if nanos =? 0 then (0, e) else (c_rng C (k_draws (e_core e)) mod nanos, act (KDraws 1) e).
(** endpoint/mod.rs:4850-4869 [start_scheduling] *)
Definition start_scheduling (now : N) (e : ep) : ep :=
  if negb (runs e) then e else
  let e := if 0 <? c_probe_interval C
           then let '(s, e) := stagger (c_probe_interval C) e in e_set_np (Some (tadd now s)) e else e in
  let e := if (0 <? c_gossip_interval C) && (0 <? c_gossip_nodes C)
           then let '(s, e) := stagger (c_gossip_interval C) e in e_set_ng (Some (tadd now s)) e else e in
  if 0 <? c_pp_interval C
  then let '(s, e) := stagger (c_pp_interval C) e in e_set_npp (Some (tadd now s)) e else e.

(** endpoint/mod.rs:1327-1541 [try_new_at]: the checks and the first state.
    Simplified: the encodings do not fail. *)
Definition cfg_ok : bool :=
  (blen (c_meta0 C) <=? c_meta_max C) && negb (c_aware_max C =? 0)
  && (MTU_MIN <=? c_mtu C) && (c_mtu C <=? MTU_MAX)
  && negb (c_frame_max C =? 0) && (c_frame_max C <=? u32_max)
  && (elen (MPing u32_max lnode lnode) <=? c_mtu C)
  && (elen (MAlive (mkAlive u32_max (c_id C) (c_addr C) (c_meta0 C) 1 1)) <=? c_mtu C)
  && (elen (MAck u32_max []) <=? c_mtu C)
  && (elen (MPushPull true [mkPNS u32_max (c_id C) (c_addr C) PAlive (repeat 0 (N.to_nat (N.min (c_meta_max C) 65535))) 1 1] []) <=? c_frame_max C)
  && snapshot_fits (c_snapshot0 C).
(** endpoint/mod.rs:1327-1541 [try_new_at] *)
Definition ep_new (now : N) : option ep :=
  if cfg_ok then
    Some (refresh_cache (mkEp (core_new C now) [] [] [] 0 0 0 [] None 1 [] di_new [] (c_snapshot0 C)
      (MPushPull false [] []) 0 true [] (ub_new (N.to_nat (c_tiers C))) (fun _ => true) None None None))
  else None.

(** The calls a driver makes, and [EReorder], after which the hash maps are
    iterated in another order; endpoint/mod.rs, public functions *)
Inductive eop :=
| EPacket (from : N) (m : msg) (now : N)
| ETimeout (now : N)
| EStreamEv (ev : sevent) (now : N)
| EMerge (l : list pns) (now : N)
| EPing (nd : node) (now : N)
| EStartProbe (now : N)
| EReset (now : N)
| EPushPull (peer : N) (join : bool) (now : N) | EPushPullDirect (peer : N) (join : bool) (now : N)
| EReliable (id addr seq deadline : N) | EReliableDirect (id addr seq deadline : N)
| EUserMsg (peer : N) (data : bytes) (now : N) | EUserMsgDirect (peer : N) (data : bytes) (now : N)
| EDialOk (id now : N)
| EDialFail (id : N)
| EAccept (from now : N)
| ELeave (now : N) (farewell : option bytes)
| EPollEvent
| ERequeue (ev : event)
| EPollTx
| EDrain
| EAckPayload (payload : bytes)
| ESnapshot (s : bytes)
| EQueueUser (rank : N) (data : bytes)
| ESendUser (to : N) (data : bytes)
| ESendUsers (to : N) (l : list bytes)
| EMeta (meta : bytes)
| EAge (id delta : N)
| EHealthFail (sev : N) | EHealthOk
| EReliableOff (id : N) | EReliableOn (id : N)
| EAliveDelegate (f : nstate -> bool) | EMergeDelegate (f : list nstate -> bool)
| ESchedule (now : N)
| EReorder (f : nat -> N).
(** [Err] or nothing; endpoint/mod.rs: a [Result<(), _>] *)
Definition res (r : ep * bool) : ep * list out := (fst r, if snd r then [] else [OErr]).
(** One call of endpoint/mod.rs, see [eop] *)
Definition ep_step (e : ep) (o : eop) : ep * list out :=
  match o with
  | EPacket from m now => (handle_packet from m now e, [])
  | ETimeout now => (handle_timeout now e, [])
  | EStreamEv ev now => handle_stream_event ev now e
  | EMerge l now => (act (KMerge l now) e, [])
  | EPing nd now => let '(e, r) := ping nd now e in (e, match r with Some s => [OId s] | None => [OErr] end)
  | EStartProbe now => (start_probe now e, [])
  | EReset now => (reset_nodes now e, [])
  | EPushPull peer join now => let '(id, e) := announce (push_pull_direct peer join now e) in (e, [OId id])
  | EPushPullDirect peer join now => dialled (push_pull_direct peer join now e)
  | EReliable id addr seq d => let '(id, e) := announce (reliable_ping_direct id addr seq d e) in (e, [OId id])
  | EReliableDirect id addr seq d => dialled (reliable_ping_direct id addr seq d e)
  | EUserMsg peer data now =>
    if runs e then let '(id, e) := announce (user_message_direct peer data now e) in (e, [OId id]) else (e, [OErr])
  | EUserMsgDirect peer data now => if runs e then dialled (user_message_direct peer data now e) else (e, [OErr])
  | EDialOk id now => dial_succeeded id now e
  | EDialFail id => (resolve_intent id e, [])
  | EAccept from now => accept_stream from now e
  | ELeave now fw => (leave_with now fw e, [])
  | EPollEvent =>
    (act KPoll e, match k_ev (e_core e) with ev :: _ => [OEvent ev] | [] => [] end)
  | ERequeue ev => (act (KRequeue ev) e, [])
  | EPollTx => let '(e, t) := poll_transmit e in (e, match t with Some t => [OTx t] | None => [] end)
  | EDrain => let '(e, l) := drain_broadcasts e in (e, [OMsgs l])
  | EAckPayload p => res (set_ack_payload p e)
  | ESnapshot s => res (set_snapshot s e)
  | EQueueUser rank d => res (queue_user rank d e)
  | ESendUser to d => res (send_user to d e)
  | ESendUsers to l => res (send_users to l e)
  | EMeta meta => (act (KMeta meta) e, if fst (update_meta C meta (e_core e)) then [] else [OErr])
  | EAge id d => (act (KAge id d) e, [])
  | EHealthFail sev => (act (KHealthFail sev) e, [])
  | EHealthOk => (act KHealthOk e, [])
  | EReliableOff id => (e_set_norel (id :: e_norel e) e, [])
  | EReliableOn id => (e_set_norel (filter (fun x => negb (x =? id)) (e_norel e)) e, [])
  | EAliveDelegate f => (act (KAdmit f) e, [])
  | EMergeDelegate f => (e_set_merge f e, [])
  | ESchedule now => (start_scheduling now e, [])
  | EReorder f =>
    (e_set_probes (shuffle f (e_probes e)) (e_set_fwds (shuffle f (e_fwds e)) (e_set_int (shuffle f (e_int e)) e)), [])
  end.
(** A history, with everything handed back;
    model only; endpoint/mod.rs:216-367 over time *)
Fixpoint ep_run (e : ep) (os : list eop) : ep * list out :=
  match os with
  | [] => (e, [])
  | o :: r => let '(e1, x) := ep_step e o in let '(e2, y) := ep_run e1 r in (e2, x ++ y)
  end.
(** The datagram of a transmit: codec/mod.rs:203-246 with no transforms *)
Definition datagram (t : transmit) : result frame_error bytes :=
  match t with
  | TPacket _ m => Ok (c_enc C m)
  | TCompound _ ms => encode_compound (map (c_enc C) ms)
  end.
End Endpoint.
