(** Typed messages and node states, as the endpoint sees them.
    Node ids and addresses are [N] (the code only compares them and puts them
    on the wire), metadata and payloads are byte strings. *)
From Verif Require Import Base.
Local Open Scope N_scope.

(** typed/state.rs:8-25 [State] *)
Inductive pstate := PAlive | PSuspect | PDead | PLeft | PUnknown (v : N).
(** typed/state.rs: [PartialEq for State] *)
Definition pstate_eqb (a b : pstate) : bool :=
  match a, b with
  | PAlive, PAlive | PSuspect, PSuspect | PDead, PDead | PLeft, PLeft => true
  | PUnknown x, PUnknown y => x =? y
  | _, _ => false
  end.
(** members/mod.rs:100-103 [dead_or_left] *)
Definition dead_or_left (s : pstate) : bool := match s with PDead | PLeft => true | _ => false end.

(** node.rs [Node]: id and address *)
Record node := mkNode { nd_id : N; nd_addr : N }.
(** typed/node_state.rs [NodeState] *)
Record nstate := mkNS {
  ns_id : N; ns_addr : N; ns_state : pstate; ns_meta : bytes; ns_pv : N; ns_dv : N }.
(** typed/alive.rs [Alive] *)
Record alive := mkAlive {
  al_inc : N; al_id : N; al_addr : N; al_meta : bytes; al_pv : N; al_dv : N }.
(** typed/push_pull.rs [PushNodeState] *)
Record pns := mkPNS {
  pn_inc : N; pn_id : N; pn_addr : N; pn_state : pstate; pn_meta : bytes; pn_pv : N; pn_dv : N }.

(** typed/message.rs:44-66 [Message].  Simplified: [Ping]/[IndirectPing] and
    [Suspect]/[Dead] are constructor arguments instead of structs. *)
Inductive msg :=
| MPing (seq : N) (source target : node)
| MIndirectPing (seq : N) (source target : node)
| MAck (seq : N) (payload : bytes)
| MNack (seq : N)
| MSuspect (inc id from : N)
| MAlive (a : alive)
| MDead (inc id from : N)
| MPushPull (join : bool) (states : list pns) (user : bytes)
| MUserData (data : bytes)
| MErrorResponse (text : bytes).

(** The admission view of an [Alive], endpoint/mod.rs:3843-3850, and the server
    record it installs, endpoint/mod.rs:3990-3999 *)
Definition alive_ns (a : alive) (s : pstate) : nstate :=
  mkNS (al_id a) (al_addr a) s (al_meta a) (al_pv a) (al_dv a).
(** endpoint/mod.rs:4080-4083: the [Alive] built from a push/pull entry *)
Definition pns_alive (p : pns) : alive :=
  mkAlive (pn_inc p) (pn_id p) (pn_addr p) (pn_meta p) (pn_pv p) (pn_dv p).
(** endpoint/mod.rs:1887-1899 [merge_peers_view] *)
Definition pns_ns (p : pns) : nstate :=
  mkNS (pn_id p) (pn_addr p) (pn_state p) (pn_meta p) (pn_pv p) (pn_dv p).

(** event/mod.rs:78-83 [Reliability] *)
Inductive reliability := Reliable | Unreliable.
(** stream/mod.rs:97-106 [OutboundKind]: what a dial is for; [join] says whether the
    [PushPullKind] (event/mod.rs:95-100) is [Join] *)
Inductive outkind := OKPushPull (join : bool) | OKReliablePing (probe_seq : N) | OKUserMessage.
(** event/mod.rs:118-126 [ExchangeKind] *)
Inductive xkind := XPushPull | XReliablePing | XUserMessage.
(** event/mod.rs:733-777 [Event]; [DecodeError] is left out.  [EvExchange] is
    [ExchangeCompleted] (174-179), emitted by the coordinator only; [ok]:
    the outcome (139-152) is [Succeeded] *)
Inductive event :=
| EvJoined (s : nstate)
| EvLeft (s : nstate)
| EvUpdated (s : nstate)
| EvConflict (existing other : nstate)
| EvUserPacket (from : N) (data : bytes) (r : reliability)
| EvRemoteState (peer : N) (data : bytes) (join : bool) (stream : N)
| EvLeftCluster
| EvPingCompleted (seq : N) (target : nstate) (rtt : N) (payload : bytes)
| EvPingFailed (seq : N) (target : nstate)
| EvDial (id peer deadline : N)
| EvExchange (id peer : N) (ok : bool) (kind : xkind).
(** event/mod.rs:276-362 [PacketTransmit], [CompoundTransmit], [Transmit]: one
    datagram to send *)
Inductive transmit := TPacket (to : N) (m : msg) | TCompound (to : N) (ms : list msg).
