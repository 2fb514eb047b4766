(** memberlist-proto/src/streams/mod.rs: the coordinator of the stream transport,
    [StreamEndpoint], for plain TCP ([RawRecords = Labeled<Passthrough>]), with
    streams/conn.rs and streams/action.rs.
    Simplified: [peer_to_socket] is the identity and the SNI provider is left out
    (TCP ignores it); the metrics are left out; compression is fixed at
    construction ([with_compression]; [set_compression_options] is left out);
    the gossip codec helpers (403-650) are in TransformModel. *)
From Verif Require Import CodecModel.
From Verif Require Export BridgeModel.
Local Open Scope N_scope.

(** streams/mod.rs:109 [MAX_MEM_INGRESS_DATAGRAMS] *)
Definition MAX_INGRESS : N := 8192.
(** streams/mod.rs:136-147 [PendingMint] *)
Inductive mint := MOut (sid : N) | MIn (from : N).
(** streams/mod.rs:149-196 [ExchangeMeta] *)
Record xmeta := mkX { x_peer : N; x_mint : option mint; x_fin : bool; x_kind : option xkind; x_outbound : bool }.
(** streams/mod.rs:1934, 1786: the two fields that change *)
Definition x_set_mint (v : option mint) (m : xmeta) : xmeta := mkX (x_peer m) v (x_fin m) (x_kind m) (x_outbound m).
(** streams/mod.rs:1774-1792: [fin_emitted] *)
Definition x_set_fin (v : bool) (m : xmeta) : xmeta := mkX (x_peer m) (x_mint m) v (x_kind m) (x_outbound m).
(** streams/action.rs:80-101 [StreamAction]: the teardowns, and all actions *)
Inductive teardown := TShutdown (x : N) | TClose (x : N) | TAbort (x : N).
(** streams/action.rs:80-101 [StreamAction] *)
Inductive action := AConnect (x peer sid : N) | ATeardown (t : teardown).
(** streams/mod.rs:198-206 [teardown_exchange] *)
Definition td_ex (t : teardown) : N := match t with TShutdown x | TClose x | TAbort x => x end.

(** derived [PartialEq] of [Option<Keyring>]; encryption/mod.rs:721, 830 *)
Fixpoint keys_eqb (a b : list secret_key) : bool :=
  match a, b with
  | [], [] => true
  | x :: a, y :: b => key_eqb x y && keys_eqb a b
  | _, _ => false
  end.
(** encryption/mod.rs:721, 830 *)
Definition kr_eqb (a b : option keyring) : bool :=
  match a, b with
  | None, None => true
  | Some x, Some y => key_eqb (primary x) (primary y) && keys_eqb (secondaries x) (secondaries y)
  | _, _ => false
  end.

(** [BTreeSet::insert]: an ascending list without repetitions; streams/mod.rs:375-390 *)
Fixpoint oset (x : N) (l : list N) : list N :=
  match l with
  | [] => [x]
  | y :: r => if x <? y then x :: l else if x =? y then l else y :: oset x r
  end.

(** The options the coordinator reads: the label of the cluster, whether
    unlabelled peers are let in (streams/labeled/mod.rs:150-190 [LabelOptions]),
    [accept_handshake_deadline] (endpoint/mod.rs:463-465), [max_inbound_streams]
    and the compression *)
Record qcfg := mkQC { qc_label : option bytes; qc_skip : bool; qc_accept : N; qc_max_in : option N; qc_comp : comp_opts }.

(** streams/mod.rs:239-390 [StreamEndpoint] with streams/conn.rs:31-34 [StreamConns].
    [PendingDial] (117-134) is (stream id, peer, deadline); its [attempted] is
    never set to true.  A pending connect is (exchange, peer, stream id). *)
Record coord := mkQ {
  q_ep : ep  (* ep *);
  q_conns : amap bridge  (* the [bridges] of [StreamConns] *);
  q_next : N  (* its [next] *);
  q_ex : amap xmeta  (* exchanges *);
  q_out : list (N * N * bytes)  (* out_transmit *);
  q_con : list (N * N * N)  (* pending_connects *);
  q_td : list teardown  (* pending_teardowns *);
  q_ing : list (N * bytes)  (* mem_ingress *);
  q_dials : list (N * N * N)  (* dial_pending *);
  q_kinds : amap xkind  (* pending_outbound_kinds *);
  q_last : option N  (* last_now *);
  q_pol : bool  (* policy_reap_pending *);
  q_dirty : list N  (* dirty *);
  q_pumped : list N  (* pumped *);
  q_unminted : list N  (* unminted *);
  q_kr : option keyring  (* encryption *);
  q_panic : bool  (* model only: the [expect] at 1842-1846 failed *);
  q_log : list (option N * eop)  (* model only: the calls made on [ep], with the exchange they were made for *)
}.
(** assignment to a field of streams/mod.rs:239-390: [ep] *)
Definition q_set_ep (x : ep) (q : coord) : coord :=
  mkQ x (q_conns q) (q_next q) (q_ex q) (q_out q) (q_con q) (q_td q) (q_ing q) (q_dials q) (q_kinds q) (q_last q) (q_pol q) (q_dirty q) (q_pumped q) (q_unminted q) (q_kr q) (q_panic q) (q_log q).
(** assignment to a field of streams/mod.rs:239-390: [conns] *)
Definition q_set_conns (x : amap bridge) (q : coord) : coord :=
  mkQ (q_ep q) x (q_next q) (q_ex q) (q_out q) (q_con q) (q_td q) (q_ing q) (q_dials q) (q_kinds q) (q_last q) (q_pol q) (q_dirty q) (q_pumped q) (q_unminted q) (q_kr q) (q_panic q) (q_log q).
(** assignment to a field of streams/mod.rs:239-390: [next] *)
Definition q_set_next (x : N) (q : coord) : coord :=
  mkQ (q_ep q) (q_conns q) x (q_ex q) (q_out q) (q_con q) (q_td q) (q_ing q) (q_dials q) (q_kinds q) (q_last q) (q_pol q) (q_dirty q) (q_pumped q) (q_unminted q) (q_kr q) (q_panic q) (q_log q).
(** assignment to a field of streams/mod.rs:239-390: [ex] *)
Definition q_set_ex (x : amap xmeta) (q : coord) : coord :=
  mkQ (q_ep q) (q_conns q) (q_next q) x (q_out q) (q_con q) (q_td q) (q_ing q) (q_dials q) (q_kinds q) (q_last q) (q_pol q) (q_dirty q) (q_pumped q) (q_unminted q) (q_kr q) (q_panic q) (q_log q).
(** assignment to a field of streams/mod.rs:239-390: [out] *)
Definition q_set_out (x : list (N * N * bytes)) (q : coord) : coord :=
  mkQ (q_ep q) (q_conns q) (q_next q) (q_ex q) x (q_con q) (q_td q) (q_ing q) (q_dials q) (q_kinds q) (q_last q) (q_pol q) (q_dirty q) (q_pumped q) (q_unminted q) (q_kr q) (q_panic q) (q_log q).
(** assignment to a field of streams/mod.rs:239-390: [con] *)
Definition q_set_con (x : list (N * N * N)) (q : coord) : coord :=
  mkQ (q_ep q) (q_conns q) (q_next q) (q_ex q) (q_out q) x (q_td q) (q_ing q) (q_dials q) (q_kinds q) (q_last q) (q_pol q) (q_dirty q) (q_pumped q) (q_unminted q) (q_kr q) (q_panic q) (q_log q).
(** assignment to a field of streams/mod.rs:239-390: [td] *)
Definition q_set_td (x : list teardown) (q : coord) : coord :=
  mkQ (q_ep q) (q_conns q) (q_next q) (q_ex q) (q_out q) (q_con q) x (q_ing q) (q_dials q) (q_kinds q) (q_last q) (q_pol q) (q_dirty q) (q_pumped q) (q_unminted q) (q_kr q) (q_panic q) (q_log q).
(** assignment to a field of streams/mod.rs:239-390: [ing] *)
Definition q_set_ing (x : list (N * bytes)) (q : coord) : coord :=
  mkQ (q_ep q) (q_conns q) (q_next q) (q_ex q) (q_out q) (q_con q) (q_td q) x (q_dials q) (q_kinds q) (q_last q) (q_pol q) (q_dirty q) (q_pumped q) (q_unminted q) (q_kr q) (q_panic q) (q_log q).
(** assignment to a field of streams/mod.rs:239-390: [dials] *)
Definition q_set_dials (x : list (N * N * N)) (q : coord) : coord :=
  mkQ (q_ep q) (q_conns q) (q_next q) (q_ex q) (q_out q) (q_con q) (q_td q) (q_ing q) x (q_kinds q) (q_last q) (q_pol q) (q_dirty q) (q_pumped q) (q_unminted q) (q_kr q) (q_panic q) (q_log q).
(** assignment to a field of streams/mod.rs:239-390: [kinds] *)
Definition q_set_kinds (x : amap xkind) (q : coord) : coord :=
  mkQ (q_ep q) (q_conns q) (q_next q) (q_ex q) (q_out q) (q_con q) (q_td q) (q_ing q) (q_dials q) x (q_last q) (q_pol q) (q_dirty q) (q_pumped q) (q_unminted q) (q_kr q) (q_panic q) (q_log q).
(** assignment to a field of streams/mod.rs:239-390: [last] *)
Definition q_set_last (x : option N) (q : coord) : coord :=
  mkQ (q_ep q) (q_conns q) (q_next q) (q_ex q) (q_out q) (q_con q) (q_td q) (q_ing q) (q_dials q) (q_kinds q) x (q_pol q) (q_dirty q) (q_pumped q) (q_unminted q) (q_kr q) (q_panic q) (q_log q).
(** assignment to a field of streams/mod.rs:239-390: [pol] *)
Definition q_set_pol (x : bool) (q : coord) : coord :=
  mkQ (q_ep q) (q_conns q) (q_next q) (q_ex q) (q_out q) (q_con q) (q_td q) (q_ing q) (q_dials q) (q_kinds q) (q_last q) x (q_dirty q) (q_pumped q) (q_unminted q) (q_kr q) (q_panic q) (q_log q).
(** assignment to a field of streams/mod.rs:239-390: [dirty] *)
Definition q_set_dirty (x : list N) (q : coord) : coord :=
  mkQ (q_ep q) (q_conns q) (q_next q) (q_ex q) (q_out q) (q_con q) (q_td q) (q_ing q) (q_dials q) (q_kinds q) (q_last q) (q_pol q) x (q_pumped q) (q_unminted q) (q_kr q) (q_panic q) (q_log q).
(** assignment to a field of streams/mod.rs:239-390: [pumped] *)
Definition q_set_pumped (x : list N) (q : coord) : coord :=
  mkQ (q_ep q) (q_conns q) (q_next q) (q_ex q) (q_out q) (q_con q) (q_td q) (q_ing q) (q_dials q) (q_kinds q) (q_last q) (q_pol q) (q_dirty q) x (q_unminted q) (q_kr q) (q_panic q) (q_log q).
(** assignment to a field of streams/mod.rs:239-390: [unminted] *)
Definition q_set_unminted (x : list N) (q : coord) : coord :=
  mkQ (q_ep q) (q_conns q) (q_next q) (q_ex q) (q_out q) (q_con q) (q_td q) (q_ing q) (q_dials q) (q_kinds q) (q_last q) (q_pol q) (q_dirty q) (q_pumped q) x (q_kr q) (q_panic q) (q_log q).
(** assignment to a field of streams/mod.rs:239-390: [kr] *)
Definition q_set_kr (x : option keyring) (q : coord) : coord :=
  mkQ (q_ep q) (q_conns q) (q_next q) (q_ex q) (q_out q) (q_con q) (q_td q) (q_ing q) (q_dials q) (q_kinds q) (q_last q) (q_pol q) (q_dirty q) (q_pumped q) (q_unminted q) x (q_panic q) (q_log q).
(** assignment to a field of streams/mod.rs:239-390: [panic] *)
Definition q_set_panic (x : bool) (q : coord) : coord :=
  mkQ (q_ep q) (q_conns q) (q_next q) (q_ex q) (q_out q) (q_con q) (q_td q) (q_ing q) (q_dials q) (q_kinds q) (q_last q) (q_pol q) (q_dirty q) (q_pumped q) (q_unminted q) (q_kr q) x (q_log q).
(** assignment to a field of streams/mod.rs:239-390: [log] *)
Definition q_set_log (x : list (option N * eop)) (q : coord) : coord :=
  mkQ (q_ep q) (q_conns q) (q_next q) (q_ex q) (q_out q) (q_con q) (q_td q) (q_ing q) (q_dials q) (q_kinds q) (q_last q) (q_pol q) (q_dirty q) (q_pumped q) (q_unminted q) (q_kr q) (q_panic q) x.

Section Coord.
Context (C : cfg) (Q : qcfg) (W : wcodec) (B : backends) (rnd : N -> N -> option bytes).

(** streams/mod.rs:805-836 [new], 871-892 [with_compression], with the
    encryption options stored at construction *)
Definition coord_new (e : ep) (kr : option keyring) : coord :=
  mkQ e [] 0 [] [] [] [] [] [] [] None false [] [] [] kr false [].

(** A call on the endpoint, made for an exchange or for none; streams/mod.rs: [self.ep.…] *)
Definition call (x : option N) (o : eop) (q : coord) : coord * list out :=
  let '(e, outs) := ep_step C (q_ep q) o in
  (q_set_log (q_log q ++ [(x, o)]) (q_set_ep e q), outs).
(** the same, result unused; streams/mod.rs: [self.ep.…] *)
Definition call_ (x : option N) (o : eop) (q : coord) : coord := fst (call x o q).
(** [self.ep.is_running()]; streams/mod.rs:924-926 *)
Definition q_runs (q : coord) : bool := runs (q_ep q).

(** streams/mod.rs:693-695 [exchange_has_pending_bytes] *)
Definition has_bytes (x : N) (q : coord) : bool := existsb (fun t => fst (fst t) =? x) (q_out q).
(** streams/mod.rs:718-720 [purge_transmit_for] *)
Definition purge (x : N) (q : coord) : coord := q_set_out (filter (fun t => negb (fst (fst t) =? x)) (q_out q)) q.
(** streams/mod.rs:742-747 [purge_pending_connect_for] *)
Definition purge_connect (x : N) (q : coord) : coord :=
  q_set_con (filter (fun t => negb (fst (fst t) =? x)) (q_con q)) q.
(** [self.pending_teardowns.push_back(…)]; streams/mod.rs:1760 *)
Definition push_td (t : teardown) (q : coord) : coord := q_set_td (q_td q ++ [t]) q.
(** [self.dirty.insert(…)], [self.unminted.insert(…)]; streams/mod.rs:2014, 2131 *)
Definition mark_dirty (x : N) (q : coord) : coord := q_set_dirty (oset x (q_dirty q)) q.
(** streams/mod.rs:2014 *)
Definition mark_unminted (x : N) (q : coord) : coord := q_set_unminted (oset x (q_unminted q)) q.

(** streams/mod.rs:767-789 [cancel_exchange] *)
Definition cancel (x : N) (q : coord) : coord :=
  let q := purge x (q_set_ex (adel x (q_ex q)) (q_set_conns (adel x (q_conns q)) q)) in
  push_td (TAbort x) (q_set_td (filter (fun t => negb (td_ex t =? x)) (q_td q)) q).

(** streams/mod.rs:1796-1807 [collect_bridge_transmits] *)
Definition collect (x : N) (b : bridge) (q : coord) : bridge * coord :=
  match aget x (q_ex q) with
  | None => (b, q)
  | Some m =>
    let '(r, bytes) := rl_transmit (br_rec b) in
    (br_set_rec r b, match bytes with [] => q | _ => q_set_out (q_out q ++ [(x, x_peer m, bytes)]) q end)
  end.
(** streams/mod.rs:1665-1761 [reap_bridge]; [emit_event] (endpoint/mod.rs:467-479)
    appends to the queue of events, as [requeue_event] (716-723) does for an
    event that is no dial *)
Definition reap (x : N) (b : bridge) (q : coord) : coord :=
  let q := if br_failed b then purge x q else snd (collect x b q) in
  let removed := aget x (q_ex q) in
  let q := q_set_ex (adel x (q_ex q)) q in
  let q := match removed with
           | Some m => match x_kind m with
                       | Some k => call_ (Some x) (ERequeue (EvExchange x (x_peer m) (negb (br_failed b)) k)) q
                       | None => q
                       end
           | None => q
           end in
  let q := match removed with
           | Some m => match x_mint m with Some (MOut sid) => call_ (Some x) (EDialFail sid) q | _ => q end
           | None => q
           end in
  push_td (if br_failed b then TAbort x else TClose x) q.
(** streams/mod.rs:1774-1792 [maybe_emit_shutdown] *)
Definition maybe_shutdown (x : N) (b : bridge) (q : coord) : coord :=
  if negb (br_fin b) then q else
  match aget x (q_ex q) with
  | Some m => if x_fin m then q else push_td (TShutdown x) (q_set_ex (aset x (x_set_fin true m) (q_ex q)) q)
  | None => q
  end.
(** The result of a drain (streams/bridge.rs:1304-1459) put back into the coordinator *)
Definition drained (x : N) (r : bridge * ep * list eop) (q : coord) : bridge * coord :=
  let '(b, e, l) := r in (b, q_set_log (q_log q ++ map (fun o => (Some x, o)) l) (q_set_ep e q)).

(** streams/mod.rs:2207-2277 [pump_bridges]: one bridge; [needs_repump] is false for TCP *)
Definition pump_one (now : N) (q : coord) (x : N) : coord :=
  match aget x (q_conns q) with
  | None => q
  | Some b =>
    let q := q_set_conns (adel x (q_conns q)) q in
    let b := br_pump_out B rnd now (br_replay W B now b) in
    if br_terminal b then
      let '(b, q) := drained x (br_drain_reap C W B rnd now b (q_ep q)) q in reap x b q
    else
      let '(b, q) := drained x (br_drain_payload C W B rnd now b (q_ep q)) q in
      if br_terminal b then
        let '(b, q) := drained x (br_drain_reap C W B rnd now b (q_ep q)) q in reap x b q
      else
        let q := maybe_shutdown x b q in
        q_set_pumped (oset x (q_pumped q)) (q_set_conns (aset x b (q_conns q)) q)
  end.
(** streams/mod.rs:2207-2277 [pump_bridges] *)
Definition pump_all (now : N) (q : coord) : coord :=
  fold_left (pump_one now) (q_dirty q) (q_set_dirty [] q).

(** streams/mod.rs:1818-1944 [service_handshake_completions]: one candidate.
    The streams are built as at endpoint/mod.rs:3421-3442, 3457-3471. *)
Definition promote_in (x : N) (s : stream) (q : coord) : coord :=
  match aget x (q_conns q) with Some b => q_set_conns (aset x (br_promote s b) (q_conns q)) q | None => q end.
(** streams/mod.rs:1868-1917: the intent is gone, the exchange goes *)
Definition retire_dial (x : N) (q : coord) : coord :=
  let q := purge_connect x (purge x q) in
  let q := q_set_conns (adel x (q_conns q)) q in
  let removed := aget x (q_ex q) in
  let q := q_set_ex (adel x (q_ex q)) q in
  let q := match removed with
           | Some m => match x_kind m with
                       | Some k => call_ (Some x) (ERequeue (EvExchange x (x_peer m) false k)) q
                       | None => q
                       end
           | None => q
           end in
  push_td (TAbort x) q.
(** streams/mod.rs:1818-1944 [service_handshake_completions] *)
Definition mint_one (now : N) (q : coord) (x : N) : coord :=
  match aget x (q_conns q) with
  | None => q
  | Some b =>
    if br_terminal b then q else
    if br_handshaking b then mark_unminted x q else
    match aget x (q_ex q) with
    | Some m =>
      match x_mint m with
      | Some (MOut sid) =>
        let q := mark_dirty x (q_set_ex (aset x (x_set_mint None m) (q_ex q)) q) in
        let '(q, outs) := call (Some x) (EDialOk sid now) q in
        match outs with
        | [OStream id peer (Some (k, msg)) d] =>
          promote_in x (stream_outbound id peer (c_id C) (c_frame_max C) k (wire_enc W msg) d) q
        | _ => retire_dial x q
        end
      | Some (MIn from) =>
        let q := mark_dirty x (q_set_ex (aset x (x_set_mint None m) (q_ex q)) q) in
        let '(q, outs) := call (Some x) (EAccept from now) q in
        match outs with
        | [OStream id peer None d] => promote_in x (stream_inbound id peer (c_id C) (c_frame_max C) d) q
        | _ => cancel x q
        end
      | None => q_set_panic true q
      end
    | None => q_set_panic true q
    end
  end.
(** streams/mod.rs:1818-1944 [service_handshake_completions] *)
Definition mint_all (now : N) (q : coord) : coord :=
  fold_left (mint_one now) (q_unminted q) (q_set_unminted [] q).

(** streams/mod.rs:1957-1964 [collect_transmits], [finalize_tick] (1946-1948) *)
Definition collect_one (q : coord) (x : N) : coord :=
  match aget x (q_conns q) with
  | Some b => let '(b, q) := collect x b (q_set_conns (adel x (q_conns q)) q) in q_set_conns (aset x b (q_conns q)) q
  | None => q
  end.
(** streams/mod.rs:1957-1964 [collect_transmits] *)
Definition collect_all (q : coord) : coord := fold_left collect_one (q_pumped q) (q_set_pumped [] q).

(** streams/mod.rs:1066-1085 [sieve_dial_events] *)
Definition sieve (q : coord) : coord :=
  let evs := k_ev (e_core (q_ep q)) in
  let q := fold_left (fun q _ => call_ None EPollEvent q) evs q in
  let q := q_set_dials (q_dials q ++ flat_map (fun ev => match ev with EvDial id peer d => [(id, peer, d)] | _ => [] end) evs) q in
  fold_left (fun q ev => call_ None (ERequeue ev) q) (filter (fun ev => negb (is_dial ev)) evs) q.
(** streams/mod.rs:2047-2161 [service_dials]: one dial; [dial_context] and
    [dialer] do not fail for TCP *)
Definition dial_one (now : N) (q : coord) (t : N * N * N) : coord :=
  let '(id, peer, deadline) := t in
  let kind := aget id (q_kinds q) in
  let q := q_set_kinds (adel id (q_kinds q)) q in
  if deadline <=? now then call_ None (EDialFail id) q else
  let x := q_next q in
  let q := q_set_next (x + 1) q in
  let b := br_new (rl_dialer (qc_label Q) (qc_skip Q)) deadline (qc_comp Q) (q_kr q) (c_frame_max C) in
  let q := mark_unminted x (mark_dirty x (q_set_conns (aset x b (q_conns q)) q)) in
  let q := q_set_ex (aset x (mkX peer (Some (MOut id)) false kind true) (q_ex q)) q in
  q_set_con (q_con q ++ [(x, peer, id)]) q.
(** streams/mod.rs:2047-2161 [service_dials] *)
Definition dial_all (now : N) (q : coord) : coord :=
  if negb (q_runs q) then q else
  let q := sieve q in
  fold_left (dial_one now) (q_dials q) (q_set_dials [] q).

(** streams/mod.rs:2297-2302 [flush_outbound] *)
Definition flush (now : N) (q : coord) : coord := collect_all (pump_all now (mint_all now (pump_all now q))).
(** streams/mod.rs:2512-2539 [run_tick] *)
Definition tick (now : N) (q : coord) : coord :=
  let q := call_ None (ETimeout now) (pump_all now q) in
  let q := mint_all now (dial_all now (mint_all now q)) in
  q_set_pol false (collect_all (pump_all now q)).

(** streams/mod.rs:1981-2039 [accept_connection]; the [Instant] addition saturates *)
Definition accept (from now : N) (q : coord) : coord * option N :=
  let q := q_set_last (Some now) q in
  if negb (q_runs q) then (q, None) else
  if match qc_max_in Q with
     | Some max => max <=? blen (filter (fun p => negb (x_outbound (snd p))) (q_ex q))
     | None => false
     end then (q, None) else
  let x := q_next q in
  let q := q_set_next (x + 1) q in
  let b := br_new (rl_acceptor (qc_label Q) (qc_skip Q)) (tadd now (qc_accept Q)) (qc_comp Q) (q_kr q) (c_frame_max C) in
  let q := mark_unminted x (q_set_conns (aset x b (q_conns q)) q) in
  (q_set_ex (aset x (mkX from (Some (MIn from)) false None false) (q_ex q)) q, Some x).
(** [if let Some(bridge) = self.conns.get_mut(id)]; streams/mod.rs:2324-2394 *)
Definition on_bridge (f : bridge -> bridge) (x : N) (q : coord) : coord :=
  match aget x (q_conns q) with Some b => q_set_conns (aset x (f b) (q_conns q)) q | None => q end.
(** streams/mod.rs:2324-2346 [handle_transport_data] *)
Definition on_data (x : N) (data : bytes) (eof : bool) (now : N) (q : coord) : coord :=
  let q := q_set_last (Some now) q in
  let q := on_bridge (fun b =>
    let b := match data with [] => b | _ => br_data W B data now b end in
    if eof then br_data W B [] now b else b) x q in
  tick now (mark_dirty x q).
(** streams/mod.rs:2365-2372 [handle_dial_failed], 2387-2394 [handle_transport_error] *)
Definition on_failure (r : bfail) (x now : N) (q : coord) : coord :=
  tick now (mark_dirty x (on_bridge (br_fail r) x (q_set_last (Some now) q))).
(** streams/mod.rs:2407-2416 [start_push_pull], 2427-2445 [start_reliable_ping],
    2453-2467 [start_user_message] *)
Definition start (o : eop) (k : xkind) (now : N) (q : coord) : coord * option N :=
  let '(q, outs) := call None o (q_set_last (Some now) q) in
  match outs with
  | [OId id] => (flush now (dial_all now (q_set_kinds (aset id k (q_kinds q)) q)), Some id)
  | _ => (q, None)
  end.
(** streams/mod.rs:2477-2481 [handle_timeout] *)
Definition on_timeout (now : N) (q : coord) : coord :=
  let q := q_set_last (Some now) q in
  tick now (fold_left (fun q x => mark_dirty x q) (akeys (q_conns q)) q).
(** streams/mod.rs:1519-1544 [leave_with] *)
Definition q_leave (now : N) (farewell : option bytes) (q : coord) : coord :=
  let q := q_set_last (Some now) q in
  let q := q_set_ing [] (q_set_con [] (q_set_kinds [] (q_set_dials [] q))) in
  let outbound := map fst (filter (fun p => x_outbound (snd p)) (q_ex q)) in
  let q := fold_left (fun q x => if has_bytes x q then cancel x q else q) outbound q in
  call_ None (ELeave now farewell) q.
(** streams/mod.rs:1262-1349 [set_encryption_options] *)
Definition set_encryption (kr : option keyring) (q : coord) : coord :=
  if kr_eqb (q_kr q) kr then q_set_kr kr q else
  let hit := filter (fun p => negb (br_failed (snd p)) && br_failed (br_set_encryption kr (snd p))) (q_conns q) in
  let q := q_set_conns (map (fun p => (fst p, br_set_encryption kr (snd p))) (q_conns q)) q in
  let q := fold_left (fun q x => push_td (TAbort x) (purge_connect x (purge x (mark_dirty x q)))) (map fst hit) q in
  let q := match hit with [] => q | _ => q_set_pol true q end in
  q_set_kr kr (q_set_ing [] (q_set_out [] q)).
(** streams/mod.rs:1098-1119 [handle_gossip] *)
Definition on_gossip (from : N) (d : bytes) (now : N) (q : coord) : coord :=
  let q := q_set_last (Some now) q in
  if negb (q_runs q) then q else
  if MAX_INGRESS <=? blen (q_ing q) then q else q_set_ing (q_ing q ++ [(from, d)]) q.

(** streams/mod.rs:652-654 [poll_transport_transmit] *)
Definition poll_bytes (q : coord) : coord * option (N * N * bytes) :=
  match q_out q with [] => (q, None) | t :: r => (q_set_out r q, Some t) end.
(** the first element that satisfies, and the others; streams/mod.rs:683-687 *)
Fixpoint take_first {A} (p : A -> bool) (l : list A) : option (A * list A) :=
  match l with
  | [] => None
  | a :: r => if p a then Some (a, r) else match take_first p r with Some (b, r') => Some (b, a :: r') | None => None end
  end.
(** streams/mod.rs:675-688 [poll_action] *)
Definition poll_action (q : coord) : coord * option action :=
  match q_con q with
  | (x, peer, sid) :: r => (q_set_con r q, Some (AConnect x peer sid))
  | [] =>
    match take_first (fun t => negb (has_bytes (td_ex t) q)) (q_td q) with
    | Some (t, r) => (q_set_td r q, Some (ATeardown t))
    | None => (q, None)
    end
  end.
(** streams/mod.rs:748-752 [poll_memberlist_ingress] *)
Definition poll_ingress (q : coord) : coord * option (N * bytes) :=
  match q_ing q with [] => (q, None) | t :: r => (q_set_ing r q, Some t) end.
(** streams/mod.rs:995-1011 [poll_event]; each turn takes an event off the
    queue, so the fuel is its length *)
Fixpoint poll_event_loop (fuel : nat) (q : coord) : coord * option event :=
  match fuel with
  | O => (q, None)
  | S f =>
    match call None EPollEvent q with
    | (q, [OEvent (EvDial id peer d)]) => poll_event_loop f (q_set_dials (q_dials q ++ [(id, peer, d)]) q)
    | (q, [OEvent ev]) => (q, Some ev)
    | (q, _) => (q, None)
    end
  end.
(** streams/mod.rs:995-1011 [poll_event] *)
Definition poll_event (q : coord) : coord * option event :=
  poll_event_loop (S (length (k_ev (e_core (q_ep q))))) q.
(** streams/mod.rs:966-986 [requeue_event] *)
Definition requeue (ev : event) (now : N) (q : coord) : coord :=
  let q := q_set_last (Some now) q in
  match ev with
  | EvDial id peer d => if negb (q_runs q) then q else q_set_dials (q_dials q ++ [(id, peer, d)]) q
  | _ => call_ None (ERequeue ev) q
  end.
(** streams/mod.rs:1574-1600 [poll_timeout], with [t] the answer of the endpoint *)
Definition omin (a : option N) (b : N) : option N := Some (match a with Some a => N.min a b | None => b end).
(** streams/mod.rs:1574-1600 [poll_timeout] *)
Definition poll_deadline (t : option N) (q : coord) : option N :=
  let best := fold_left (fun a p => match br_timeout (snd p) with Some d => omin a d | None => a end) (q_conns q) t in
  let best := fold_left (fun a p => omin a (snd p)) (q_dials q) best in
  let wake a := match q_last q with Some n => omin a n | None => a end in
  let best := match q_dials q with [] => best | _ => wake best end in
  if q_pol q then wake best else best.

(** Calls handed straight to the endpoint; streams/mod.rs:928-951, 1400-1500,
    2163-2196.  [start_probe] and the rest take no part in exchanges. *)
Definition plain (o : eop) : bool :=
  match o with
  | EPacket _ _ _ | EPing _ _ | EStartProbe _ | EPollTx | EAckPayload _ | ESnapshot _ | EQueueUser _ _
  | ESendUser _ _ | ESendUsers _ _ | EMeta _ | EAliveDelegate _ | EMergeDelegate _ | ESchedule _ | EReorder _ => true
  | _ => false
  end.
(** The calls of a driver; streams/mod.rs, public functions.  [QReorder]: the
    hash maps are iterated in another order.  [QPlain]: calls that are passed on;
    [start_probe] and [ping] also store the time *)
Inductive qop :=
| QData (x : N) (data : bytes) (eof : bool) (now : N)
| QDialFailed (x now : N)
| QLost (x now : N)
| QAccept (from now : N)
| QPushPull (peer : N) (join : bool) (now : N)
| QReliable (id addr seq deadline now : N)
| QUserMsg (peer : N) (data : bytes) (now : N)
| QTimeout (now : N)
| QLeave (now : N) (farewell : option bytes)
| QEncrypt (kr : option keyring)
| QGossip (from : N) (datagram : bytes) (now : N)
| QPollBytes | QPollAction | QPollEvent | QPollIngress
| QRequeue (ev : event) (now : N)
| QPlain (o : eop) (last : option N)
| QReorder (f : nat -> N).
(** What they give back; streams/mod.rs, public functions *)
Inductive qout :=
| YAction (a : action) | YBytes (x to : N) (bytes : bytes) | YEvent (ev : event) | YIngress (from : N) (d : bytes)
| YId (id : N) | YNone | YEp (o : out).
(** an [Option]; streams/mod.rs, results of the public functions *)
Definition opt {A} (f : A -> qout) (o : option A) : list qout := [match o with Some a => f a | None => YNone end].
(** One call; streams/mod.rs, public functions *)
Definition q_step (q : coord) (o : qop) : coord * list qout :=
  match o with
  | QData x data eof now => (on_data x data eof now q, [])
  | QDialFailed x now => (on_failure BfRetired x now q, [])
  | QLost x now => (on_failure BfLost x now q, [])
  | QAccept from now => let '(q, r) := accept from now q in (q, opt YId r)
  | QPushPull peer join now => let '(q, r) := start (EPushPull peer join now) XPushPull now q in (q, opt YId r)
  | QReliable id addr seq d now => let '(q, r) := start (EReliable id addr seq d) XReliablePing now q in (q, opt YId r)
  | QUserMsg peer data now => let '(q, r) := start (EUserMsg peer data now) XUserMessage now q in (q, opt YId r)
  | QTimeout now => (on_timeout now q, [])
  | QLeave now fw => (q_leave now fw q, [])
  | QEncrypt kr => (set_encryption kr q, [])
  | QGossip from d now => (on_gossip from d now q, [])
  | QPollBytes => let '(q, r) := poll_bytes q in (q, opt (fun t => YBytes (fst (fst t)) (snd (fst t)) (snd t)) r)
  | QPollAction => let '(q, r) := poll_action q in (q, opt YAction r)
  | QPollEvent => let '(q, r) := poll_event q in (q, opt YEvent r)
  | QPollIngress => let '(q, r) := poll_ingress q in (q, opt (fun t => YIngress (fst t) (snd t)) r)
  | QRequeue ev now => (requeue ev now q, [])
  | QPlain o last =>
    if plain o then let '(q, outs) := call None o (match last with Some n => q_set_last (Some n) q | None => q end) in
                    (q, map YEp outs)
    else (q, [])
  | QReorder f => (q_set_conns (shuffle f (q_conns q)) (q_set_ex (shuffle f (q_ex q)) q), [])
  end.
(** A history; streams/mod.rs over time (model only) *)
Fixpoint q_run (q : coord) (os : list qop) : coord * list qout :=
  match os with
  | [] => (q, [])
  | o :: r => let '(q1, x) := q_step q o in let '(q2, y) := q_run q1 r in (q2, x ++ y)
  end.
End Coord.
