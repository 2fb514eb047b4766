(** Several endpoints and the network between them: each node is an endpoint of
    EndpointModel.v, and whatever an endpoint hands out may reach any other node
    any number of times, in any order, or never. *)
From Verif Require Export EndpointModel.
Local Open Scope N_scope.

(** The nodes that have been started, by id, and every message any of them has
    handed out (memberlist-proto/src/endpoint/mod.rs:726-753 [poll_transmit],
    2361-2366 [drain_broadcasts], 3396-3443 [dial_succeeded], 4724-4837
    [handle_stream_event]).  Messages are never removed, so loss, duplication,
    delay and reordering are all choices of what is delivered.  Simplified:
    the bytes between two nodes are not modelled here, since a message survives
    encoding and decoding (C06, C65); nobody forges membership claims. *)
Record cluster := mkCl { cl_node : N -> option ep; cl_net : list msg }.
(** nobody has been started;
    the start of a run: no endpoint/mod.rs:1327 [try_new_at] yet (model only) *)
Definition cl_new : cluster := mkCl (fun _ => None) [].
(** event/mod.rs [Transmit]: the messages of a datagram *)
Definition tx_msgs (t : transmit) : list msg := match t with TPacket _ m => [m] | TCompound _ ms => ms end.
(** the messages in what a call hands back, see [out];
    endpoint/mod.rs:726-753 and the drivers' use of it *)
Definition out_msgs (o : out) : list msg :=
  match o with
  | OTx t => tx_msgs t
  | OMsgs l => l
  | OStream _ _ (Some (_, m)) _ => [m]
  | OResponse m => [m]
  | _ => []
  end.
(** calls whose arguments say nothing about members; endpoint/mod.rs:4621-4642
    [handle_packet], 4724-4837 [handle_stream_event], 4060-4105 [merge_state]
    take those that do *)
Definition claim_free (o : eop) : bool :=
  match o with
  | EPacket _ (MAlive _) _ | EPacket _ (MSuspect _ _ _) _ | EPacket _ (MDead _ _ _) _ => false
  | EStreamEv (SEReply _ _ _ _ _) _ | EStreamEv (SERequest _ _ _ _ _) _ | EMerge _ _ => false
  | _ => true
  end.

(** What can happen: a node is started (once), a node gets the [n]-th message
    handed out so far as a datagram, as the reply of its own push/pull, as a
    request or through [merge_state], or a node performs any other call.
    Simplified: a node is not restarted.
    Model only: which of the calls of endpoint/mod.rs happens next *)
Inductive clop :=
| CStart (i now : N)
| CPacket (i : N) (n : nat) (from now : N)
| CReply (i : N) (n : nat) (peer sid now : N)
| CRequest (i : N) (n : nat) (peer sid now : N)
| CMerge (i : N) (n : nat) (now : N)
| CLocal (i : N) (o : eop).
(** the call this is, if the message is of the right kind: stream/mod.rs
    takes the states, the user data and the join flag from the push/pull *)
Definition cl_call (net : list msg) (o : clop) : option (N * eop) :=
  match o with
  | CStart _ _ => None
  | CPacket i n from now => option_map (fun m => (i, EPacket from m now)) (nth_error net n)
  | CReply i n peer sid now =>
    match nth_error net n with
    | Some (MPushPull join st user) => Some (i, EStreamEv (SEReply peer st user join sid) now)
    | _ => None
    end
  | CRequest i n peer sid now =>
    match nth_error net n with
    | Some (MPushPull join st user) => Some (i, EStreamEv (SERequest peer st user join sid) now)
    | _ => None
    end
  | CMerge i n now =>
    match nth_error net n with
    | Some (MPushPull _ st _) => Some (i, EMerge st now)
    | _ => None
    end
  | CLocal i o => if claim_free o then Some (i, o) else None
  end.
(** a node's state replaced; model only; endpoint/mod.rs:216-367 is one node *)
Definition cl_put (i : N) (e : ep) (c : cluster) : cluster :=
  mkCl (fun j => if j =? i then Some e else cl_node c j) (cl_net c).
Section Cluster.
(** the configuration of each node *)
Variable Cs : N -> cfg.
(** endpoint/mod.rs:1327-1541 [try_new_at] for a start, otherwise the call *)
Definition cl_step (c : cluster) (o : clop) : cluster :=
  match o with
  | CStart i now =>
    match cl_node c i, ep_new (Cs i) now with
    | None, Some e => cl_put i e c
    | _, _ => c
    end
  | _ =>
    match cl_call (cl_net c) o with
    | Some (i, eo) =>
      match cl_node c i with
      | Some e => let '(e', outs) := ep_step (Cs i) e eo in
                  let c' := cl_put i e' c in mkCl (cl_node c') (cl_net c ++ flat_map out_msgs outs)
      | None => c
      end
    | None => c
    end
  end.
(** a history; model only; a sequence of calls of endpoint/mod.rs on any nodes *)
Definition cl_run (c : cluster) (os : list clop) : cluster := fold_left cl_step os c.
End Cluster.
