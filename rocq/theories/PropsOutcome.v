(** What the application is told and what is done for others: user data, pings,
    relaying, schedules, limits (C77-C81). *)
From Verif Require Import CodecModel WireModel WireSizes.
From Verif Require Import EndpointModel MapFacts BaseFacts CoreFacts CoreInv CoreSteps CoreTrans CoreHist EndpointSteps EndpointInv EndpointHist EndpointRuns EndpointFacts EndpointProbes EndpointDetect EndpointOutcome PropsCore PropsEndpoint PropsWire.
Import ListNotations.
Local Open Scope N_scope.

(** * C77 *)
(** User data and remote state reach the application exactly once and in order
    of arrival: over any history, what has been polled followed by what is
    still pending is what was pending before followed by what the calls brought
    ([brings]: every user datagram and user stream message while running, the
    application part of every accepted push/pull that has one, and what the
    application itself put back).  Membership traffic, timers, leaving and
    everything else neither lose, duplicate, reorder nor alter any of it. *)
Theorem C77_data_exactly_once : forall C e os, reach C e ->
  let x := ep_run C e os in
  filter is_data (seen (snd x)) ++ filter is_data (k_ev (e_core (fst x))) = filter is_data (k_ev (e_core e)) ++ brought C e os.
Proof. intros C e os R. apply (data_run C os e (reach_inv C e R)). Qed.
Print Assumptions C77_data_exactly_once.
(** A node that has left takes no more, but what it holds can still be polled. *)
Theorem C77_none_after_leave : forall C e o, reach C e -> runs e = false -> (forall ev, o <> ERequeue ev) -> brings e o = [].
Proof.
  intros C e o _ R NR. destruct o; cbn [brings]; try reflexivity; [destruct m|destruct ev|destruct (NR ev); reflexivity]; rewrite ?R; reflexivity.
Qed.
Print Assumptions C77_none_after_leave.
Example C77_ex :
  let refuse := EMergeDelegate (fun _ => false) in
  let h := [EPacket 102 (MUserData [1; 2]) 20; EPacket 103 (MSuspect 3 4 3) 21; EStreamEv (SEUser 103 [3]) 22; EPollEvent; EPacket 104 (MUserData [4]) 23;
     EStreamEv (SERequest 104 [] [5] true 9) 24; refuse; EStreamEv (SERequest 104 [] [6] true 10) 25; ELeave 30 None; EPacket 104 (MUserData [7]) 31] in
  let polls := repeat EPollEvent 20 in
  ex ee_joined (fun e => brought ee_cfg e h) =
    Some [EvUserPacket 102 [1; 2] Unreliable; EvUserPacket 103 [3] Reliable; EvUserPacket 104 [4] Unreliable; EvRemoteState 104 [5] true 9] /\
  ex ee_joined (fun e => filter is_data (seen (snd (ep_run ee_cfg e (h ++ polls))))) = ex ee_joined (fun e => brought ee_cfg e h) /\
  ex (ee_joined ++ [ELeave 30 None]) (fun e => (runs e, brings e (EPacket 104 (MUserData [7]) 31))) = Some (false, []).
Proof. cbv zeta. do 2 (split; [vm_compute; reflexivity|]). vm_compute. reflexivity. Qed.

(** * C78 *)
(** A request to probe a third node for someone else is carried out exactly
    once: unless it came from another address than it claims, or the limit of
    pending relays is reached, or the same request is pending already, the
    target is pinged in this node's own name under a number in use nowhere, and
    who asked, under which number, and until when is remembered; if that ping
    would not fit a datagram the requester is told at once.  Membership is not
    touched. *)
Theorem C78_relays_the_request : forall C e from s src tgt now, reach C e -> runs e = true -> from = nd_addr src ->
  blen (e_fwds e) < c_max_forwards C -> blen (e_acks e) + 1 < two32 ->
  (forall x, In x (e_fwds e) -> ~ (f_reply (snd x) = nd_addr src /\ f_rseq (snd x) = s /\ f_target (snd x) = nd_addr tgt)) ->
  let e' := fst (ep_step C e (EPacket from (MIndirectPing s src tgt) now)) in
  exists q, q <> 0 /\ q < two32 /\ aget q (e_acks e) = None /\ aget q (e_probes e) = None /\ aget q (e_fwds e) = None /\
    let m := MPing q (mkNode (c_id C) (c_addr C)) tgt in
    e_core e' = e_core e /\ e_probes e' = e_probes e /\
    if blen (c_enc C m) <=? c_mtu C
    then e_tx e' = e_tx e ++ [TPacket (nd_addr tgt) m] /\
         e_fwds e' = aset q (mkFwd (nd_addr src) (nd_addr tgt) s (tadd now (c_probe_timeout C))) (e_fwds e)
    else e_tx e' = e_tx e ++ [TPacket (nd_addr src) (MNack s)] /\ e_fwds e' = e_fwds e.
Proof. intros C e from s src tgt now R. apply relay_exact, reach_inv, R. Qed.
Print Assumptions C78_relays_the_request.
Theorem C78_otherwise_nothing : forall C e from s src tgt now,
  from <> nd_addr src \/ c_max_forwards C <= blen (e_fwds e) \/
  (exists x, In x (e_fwds e) /\ f_reply (snd x) = nd_addr src /\ f_rseq (snd x) = s /\ f_target (snd x) = nd_addr tgt) ->
  fst (ep_step C e (EPacket from (MIndirectPing s src tgt) now)) = e.
Proof. intros. apply relay_refused. assumption. Qed.
Print Assumptions C78_otherwise_nothing.
Example C78_ex :
  let ask from s tgt := EPacket from (MIndirectPing s (mkNode 4 104) tgt) 40 in
  let v os := ex os (fun e => (e_tx e, map (fun x => (fst x, (f_reply (snd x), f_target (snd x), f_rseq (snd x), f_deadline (snd x)))) (e_fwds e))) in
  ex ee_joined (fun e => (runs e, blen (e_fwds e), c_max_forwards ee_cfg, blen (e_acks e))) = Some (true, 0, 2, 0) /\
  v (ee_joined ++ [ask 104 9 (mkNode 3 103)]) = Some ([TPacket 103 (MPing 1 (mkNode 1 101) (mkNode 3 103))], [(1, (104, 103, 9, 540))]) /\
  v (ee_joined ++ [ask 104 9 (mkNode 3 103); ask 104 9 (mkNode 3 103); ask 103 10 (mkNode 2 102); ask 104 10 (mkNode 2 102); ask 104 11 (mkNode 2 102)])
    = Some ([TPacket 103 (MPing 1 (mkNode 1 101) (mkNode 3 103)); TPacket 102 (MPing 2 (mkNode 1 101) (mkNode 2 102))], [(2, (104, 102, 10, 540)); (1, (104, 103, 9, 540))]).
Proof. cbv zeta. do 2 (split; [vm_compute; reflexivity|]). vm_compute. reflexivity. Qed.

(** * C79 *)
(** An accepted ping call sends one ping, to the address given and under a
    number in use nowhere, and remembers when the answer is due. *)
Theorem C79_ping_is_sent : forall C e nd now q, snd (ep_step C e (EPing nd now)) = [OId q] ->
  let e' := fst (ep_step C e (EPing nd now)) in
  q <> 0 /\ q < two32 /\ aget q (e_acks e) = None /\ aget q (e_probes e) = None /\ aget q (e_fwds e) = None /\
  e_core e' = e_core e /\ e_tx e' = e_tx e ++ [TPacket (nd_addr nd) (MPing q (mkNode (c_id C) (c_addr C)) nd)] /\
  blen (c_enc C (MPing q (mkNode (c_id C) (c_addr C)) nd)) <= c_mtu C /\
  (forall j, j <> q -> aget j (e_probes e') = aget j (e_probes e)) /\
  exists p, aget q (e_probes e') = Some p /\ ns_addr (p_target p) = nd_addr nd /\ p_kind p = PKPing /\ p_sent p = now /\ p_fail p = tadd now (c_probe_timeout C).
Proof.
  intros C e nd now q H. destruct (ping_call_exact C e nd now q H) as (A1 & A2 & A3 & A4 & A5 & A6 & A7 & A8 & A9 & p & B1 & B2 & B3 & B4 & B5 & _).
  cbv zeta. do 9 (split; [assumption|]). exists p. auto.
Qed.
Print Assumptions C79_ping_is_sent.
(** From then on, whatever happens (short of the application putting outcomes
    back), the ping has either had no outcome yet, or exactly one, at one call:
    completed, with the time from the call to the answer and the answer's
    payload, when an ack under this number came from that address (or over the
    reliable path) in time; or failed, at a call at or after the deadline
    ([ends]).  Answers from elsewhere, nacks, gossip and other pings do not
    count.  [told] is what has been reported about this number: polled or
    pending. *)
Theorem C79_at_most_one_outcome : forall C e nd t0 q os, reach C e -> snd (ep_step C e (EPing nd t0)) = [OId q] ->
  (forall ev, In (ERequeue ev) os -> is_outcome q ev = false) ->
  let e1 := fst (ep_step C e (EPing nd t0)) in
  let before := filter (is_outcome q) (k_ev (e_core e)) in
  told q (ep_run C e1 os) = before \/
  exists h o r ev, os = h ++ o :: r /\ told q (ep_run C e1 h) = before /\ told q (ep_run C e1 (h ++ [o])) = before ++ [ev] /\
    exists target, ns_addr target = nd_addr nd /\
    ((exists t pl, ev = EvPingCompleted q target (tsub t t0) pl /\ t < tadd t0 (c_probe_timeout C) /\
       (o = EPacket (nd_addr nd) (MAck q pl) t \/ pl = [] /\ exists now, o = EStreamEv (SEAcked q t) now)) \/
     (ev = EvPingFailed q target /\ exists t, tadd t0 (c_probe_timeout C) <= t /\
       (o = ETimeout t \/ (exists pl, o = EPacket (nd_addr nd) (MAck q pl) t) \/ exists now, o = EStreamEv (SEAcked q t) now))).
Proof.
  intros C e nd t0 q os R OK NR. cbv zeta. destruct (ping_call_exact C e nd t0 q OK) as (_ & _ & _ & _ & _ & K & _ & _ & _ & p & G & TA & PK & PS & PF & _).
  pose proof (einv_op C e (EPing nd t0) (reach_inv C e R)) as I1. pose proof (pings_op C e (EPing nd t0) (reach_inv C e R) (pings_reach C e R)) as PG1.
  set (e1 := fst (ep_step C e (EPing nd t0))) in *. cbv zeta in *. clearbody e1.
  replace (filter (is_outcome q) (k_ev (e_core e))) with (kind (is_outcome q) e1) by (unfold kind; rewrite K; reflexivity).
  destruct (ping_hist C q os e1 p I1 PG1 G PK NR) as [[_ T]|(h & o & r & ev & E & _ & T1 & T2 & EN)]; [left; exact T|right].
  exists h, o, r, ev. do 3 (split; [assumption|]). exists (p_target p). split; [exact TA|]. unfold ends in EN. rewrite TA, PS, PF in EN. exact EN.
Qed.
Print Assumptions C79_at_most_one_outcome.
(** And the outcome does come: as long as the node is running, the timer call
    at or after the deadline finds it settled or settles it. *)
Theorem C79_outcome_by_the_deadline : forall C e nd t0 q os now, reach C e -> snd (ep_step C e (EPing nd t0)) = [OId q] ->
  (forall ev, In (ERequeue ev) os -> is_outcome q ev = false) -> (forall t fw, ~ In (ELeave t fw) os) ->
  tadd t0 (c_probe_timeout C) <= now ->
  let e1 := fst (ep_step C e (EPing nd t0)) in
  let before := filter (is_outcome q) (k_ev (e_core e)) in
  exists h o r ev, os ++ [ETimeout now] = h ++ o :: r /\ told q (ep_run C e1 h) = before /\ told q (ep_run C e1 (h ++ [o])) = before ++ [ev].
Proof.
  intros C e nd t0 q os now R OK NR NL L. cbv zeta. destruct (ping_call_exact C e nd t0 q OK) as (_ & _ & _ & _ & _ & K & _ & _ & _ & p & G & TA & PK & PS & PF & _).
  pose proof (einv_op C e (EPing nd t0) (reach_inv C e R)) as I1. pose proof (pings_op C e (EPing nd t0) (reach_inv C e R) (pings_reach C e R)) as PG1.
  assert (runs e = true) as RU by (cbn [ep_step] in OK; unfold ping in OK; destruct (runs e); [reflexivity|discriminate]).
  set (e1 := fst (ep_step C e (EPing nd t0))) in *. cbv zeta in *. clearbody e1.
  replace (filter (is_outcome q) (k_ev (e_core e))) with (kind (is_outcome q) e1) by (unfold kind; rewrite K; reflexivity).
  assert (runs (fst (ep_run C e1 os)) = true) as RH by (apply (runs_until C os e1 I1); [unfold runs in *; rewrite K; exact RU|exact NL]).
  destruct (ping_due C q os now e1 p I1 PG1 G PK NR RH ltac:(rewrite PF; exact L)) as (h & o & r & ev & E & _ & T1 & T2 & _).
  exists h, o, r, ev. auto.
Qed.
Print Assumptions C79_outcome_by_the_deadline.
(** Finding: a ping still pending when the node leaves gets no outcome at all,
    whatever happens afterwards, although its record is never dropped. *)
Theorem C79_forgotten_on_leave : forall C e q p os, reach C e -> runs e = false -> aget q (e_probes e) = Some p -> p_kind p = PKPing ->
  (forall ev, In (ERequeue ev) os -> is_outcome q ev = false) ->
  aget q (e_probes (fst (ep_run C e os))) = Some p /\ told q (ep_run C e os) = filter (is_outcome q) (k_ev (e_core e)).
Proof. intros C e q p os R RU G PK NR. exact (left_pending C q os e p (reach_inv C e R) (pings_reach C e R) RU G PK NR). Qed.
Print Assumptions C79_forgotten_on_leave.
Theorem C79_outcome_after_leave_refuted : exists C e nd q, reach C e /\ runs e = true /\ snd (ep_step C e (EPing nd 20)) = [OId q] /\
  forall os, (forall ev, In (ERequeue ev) os -> is_outcome q ev = false) ->
    told q (ep_run C (fst (ep_step C (fst (ep_step C e (EPing nd 20))) (ELeave 30 None))) os) = [].
Proof.
  destruct (ee ee_joined) as [e|] eqn:E; [|vm_compute in E; discriminate]. exists ee_cfg, e, (mkNode 3 103), 1.
  assert (forall A (f : ep -> A), Some (f e) = option_map f (ee ee_joined)) as K by (intros; rewrite E; reflexivity).
  pose proof (ee_reach _ _ E) as R. split; [exact R|]. split; [apply Some_inj; rewrite (K _ runs); vm_compute; reflexivity|].
  split; [apply Some_inj; rewrite (K _ (fun e => snd (ep_step ee_cfg e (EPing (mkNode 3 103) 20)))); vm_compute; reflexivity|]. intros os NR.
  set (e2 := fst (ep_step ee_cfg (fst (ep_step ee_cfg e (EPing (mkNode 3 103) 20))) (ELeave 30 None))).
  assert (reach ee_cfg e2) as R2.
  { destruct R as (t0 & e0 & os0 & N0 & ->). exists t0, e0, ((os0 ++ [EPing (mkNode 3 103) 20]) ++ [ELeave 30 None]). split; [exact N0|]. rewrite !ep_run_snoc. reflexivity. }
  assert (option_map p_kind (aget 1 (e_probes e2)) = Some PKPing) as GP.
  { apply Some_inj. unfold e2. rewrite (K _ (fun e => option_map p_kind (aget 1 (e_probes (fst (ep_step ee_cfg (fst (ep_step ee_cfg e (EPing (mkNode 3 103) 20))) (ELeave 30 None))))))). vm_compute. reflexivity. }
  destruct (aget 1 (e_probes e2)) as [p|] eqn:G; [|discriminate]. cbn in GP. apply Some_inj in GP.
  assert (runs e2 = false) as RU by (apply Some_inj; unfold e2; rewrite (K _ (fun e => runs (fst (ep_step ee_cfg (fst (ep_step ee_cfg e (EPing (mkNode 3 103) 20))) (ELeave 30 None))))); vm_compute; reflexivity).
  destruct (C79_forgotten_on_leave ee_cfg e2 1 p os R2 RU G GP NR) as [_ ->].
  apply Some_inj. unfold e2. rewrite (K _ (fun e => filter (is_outcome 1) (k_ev (e_core (fst (ep_step ee_cfg (fst (ep_step ee_cfg e (EPing (mkNode 3 103) 20))) (ELeave 30 None))))))). vm_compute. reflexivity.
Qed.
Print Assumptions C79_outcome_after_leave_refuted.
Example C79_ex :
  let call := EPing (mkNode 3 103) 20 in
  let v os := ex (ee_joined ++ [call]) (fun e => filter (is_outcome 1) (seen (snd (ep_run ee_cfg e (os ++ repeat EPollEvent 10))))) in
  let n3 := mkNS 3 103 PAlive [4] 1 1 in
  ex ee_joined (fun e => snd (ep_step ee_cfg e call)) = Some [OId 1] /\
  v [EPacket 102 (MAck 1 [9]) 100; EPacket 103 (MNack 1) 110; ETimeout 200; EPacket 103 (MAck 1 [8]) 319; EPacket 103 (MAck 1 [7]) 320; ETimeout 600] = Some [EvPingCompleted 1 n3 299 [8]] /\
  v [EPacket 102 (MAck 1 [9]) 100; ETimeout 519; ETimeout 520; ETimeout 600] = Some [EvPingFailed 1 n3] /\
  v [ETimeout 519] = Some [] /\ v [ELeave 30 None; ETimeout 600; EPacket 103 (MAck 1 [8]) 319] = Some [].
Proof. cbv zeta. do 4 (split; [vm_compute; reflexivity|]). vm_compute. reflexivity. Qed.

(** * C80 *)
(** Starting the periodic work gives each kind that is switched on its first
    time within one interval of now, and leaves those switched off alone. *)
Theorem C80_schedules_start : forall C e now, runs e = true -> c_probe_interval C < two64 -> c_gossip_interval C < two64 -> c_pp_interval C < two64 ->
  let e' := fst (ep_step C e (ESchedule now)) in
  (if 0 <? c_probe_interval C then exists s, s < c_probe_interval C /\ e_np e' = Some (tadd now s) else e_np e' = e_np e) /\
  (if (0 <? c_gossip_interval C) && (0 <? c_gossip_nodes C) then exists s, s < c_gossip_interval C /\ e_ng e' = Some (tadd now s) else e_ng e' = e_ng e) /\
  (if 0 <? c_pp_interval C then exists s, s < c_pp_interval C /\ e_npp e' = Some (tadd now s) else e_npp e' = e_npp e).
Proof. intros C e now. apply schedule_exact. Qed.
Print Assumptions C80_schedules_start.
Example C80_ex :
  ex ee_joined (fun e => (runs e, e_np e, e_ng e, e_npp e)) = Some (true, None, None, None) /\
  ex (ee_joined ++ [ESchedule 50]) (fun e => (e_np e, e_ng e, e_npp e)) = Some (Some 74, Some 81, Some 88) /\
  c_probe_interval ee_cfg = 1000 /\ c_gossip_interval ee_cfg = 200 /\ c_pp_interval ee_cfg = 30000.
Proof. vm_compute. repeat split. Qed.

(** * C81 *)
(** Whatever ack payload is in force, this node's answer to a ping fits a
    datagram. *)
Theorem C81_own_acks_fit : forall C W e from q src tgt now, c_enc C = wire_enc W -> reach C e -> runs e = true -> q <= u32_max -> nd_id tgt = c_id C ->
  encode_message W (MAck u32_max (e_payload e)) <> None ->
  exists p, e_tx (fst (ep_step C e (EPacket from (MPing q src tgt) now))) = e_tx e ++ [TPacket from (MAck q p)] /\ blen (c_enc C (MAck q p)) <= c_mtu C.
Proof.
  intros C W e from q src tgt now EC R RU Q T NE. destruct (C57_ping_answer C e from q src tgt now RU) as [_ H]. destruct (H T) as (p & E & P & _).
  exists p. split; [exact E|]. pose proof (payload_reach C e R) as PO. unfold payload_ok, elen in PO. rewrite EC in *. destruct P as [->| ->].
  - pose proof (ack_le_max W q (e_payload e) Q NE). lia.
  - pose proof (ack_le_max W q [] Q ltac:(vm_compute; discriminate)) as A. etransitivity; [exact A|].
    destruct R as (t0 & e0 & os & N & _). unfold ep_new in N. destruct (cfg_ok C) eqn:CO; [|discriminate]. unfold cfg_ok in CO.
    repeat match goal with H : _ && _ = true |- _ => apply Bool.andb_true_iff in H as [? ?] end.
    match goal with H : (elen C (MAck u32_max []) <=? c_mtu C) = true |- _ => apply N.leb_le in H; unfold elen in H; rewrite EC in H; exact H end.
Qed.
Print Assumptions C81_own_acks_fit.
(** The payload is taken exactly if it fits. *)
Theorem C81_payload_checked : forall C e p, runs e = true ->
  let x := ep_step C e (EAckPayload p) in
  if blen (c_enc C (MAck u32_max p)) <=? c_mtu C then snd x = [] /\ e_payload (fst x) = p else snd x = [OErr] /\ fst x = e.
Proof.
  intros C e p R. cbn [ep_step]. unfold set_ack_payload, res. rewrite R. cbn [negb]. unfold elen. rewrite N.leb_antisym.
  destruct (_ <? _); cbn [fst snd negb]; split; reflexivity.
Qed.
Print Assumptions C81_payload_checked.
(** Finding: an answer passed on for someone else is not checked: a relay hands
    the driver a datagram above the MTU. *)
Theorem C81_relayed_acks_refuted : exists C W e to q p, c_enc C = wire_enc W /\ reach C e /\ In (TPacket to (MAck q p)) (e_tx e) /\ c_mtu C < blen (c_enc C (MAck q p)).
Proof.
  set (os := ew_joined ++ [EPacket 166 (MIndirectPing 9 (mkNode 66 166) (mkNode 67 167)) 40; EPacket 167 (MAck 1 (repeat 8 (N.to_nat 1400))) 50]).
  destruct (ew_run 1400 os) as [e|] eqn:E; [|vm_compute in E; discriminate].
  exists (ew_cfg 1400), ew, e, 166, 9, (repeat 8 (N.to_nat 1400)). split; [reflexivity|]. split; [apply (ew_reach _ _ _ E)|].
  split; [|vm_compute; reflexivity].
  assert (forall A (f : ep -> A), Some (f e) = option_map f (ew_run 1400 os)) as K by (intros; rewrite E; reflexivity).
  enough (e_tx e = [TPacket 167 (MPing 1 (mkNode 65 101) (mkNode 67 167)); TPacket 166 (MAck 9 (repeat 8 (N.to_nat 1400)))]) as -> by (right; left; reflexivity).
  apply Some_inj. rewrite (K _ e_tx). vm_compute. reflexivity.
Qed.
Print Assumptions C81_relayed_acks_refuted.
(** An application snapshot is taken exactly if, sent alone, it leaves the
    reserve free in a frame; so every later push/pull has that much left for
    the members. *)
Theorem C81_snapshot_checked : forall C e s, runs e = true ->
  let x := ep_step C e (ESnapshot s) in
  if match s with [] => true | _ => blen (c_enc C (MPushPull true [] s)) <=? c_frame_max C - SNAP_RESERVE end
  then snd x = [] /\ e_snap (fst x) = s else snd x = [OErr] /\ fst x = e.
Proof.
  intros C e s R. cbn [ep_step]. unfold set_snapshot, res. rewrite R. cbn [negb]. change (match s with [] => true | _ => _ end) with (snapshot_fits C s).
  destruct (snapshot_fits C s); split; reflexivity.
Qed.
Print Assumptions C81_snapshot_checked.
Example C81_ex :
  option_map (fun e => (runs e, encode_message ew (MAck u32_max (e_payload e)))) (ew_run 1400 (ew_joined ++ [EAckPayload [5; 6]])) = Some (true, Some [4; 10; 8; 255; 255; 255; 255; 15; 18; 2; 5; 6]) /\
  option_map (fun e => snd (ep_step (ew_cfg 1400) e (EAckPayload (repeat 8 (N.to_nat 1388))))) (ew_run 1400 ew_joined) = Some [] /\
  option_map (fun e => snd (ep_step (ew_cfg 1400) e (EAckPayload (repeat 8 (N.to_nat 1389))))) (ew_run 1400 ew_joined) = Some [OErr] /\
  option_map (fun e => e_tx (fst (ep_step (ew_cfg 1400) e (EPacket 166 (MPing 9 (mkNode 66 166) (mkNode 65 101)) 30)))) (ew_run 1400 (ew_joined ++ [EAckPayload [5; 6]])) = Some [TPacket 166 (MAck 9 [5; 6])].
Proof. do 3 (split; [vm_compute; reflexivity|]). vm_compute. reflexivity. Qed.

(** * C47 *)
(** Nobody departed is kept for good.  Take any stretch of a run whose timer
    calls all come later than the keep of a departed member's record, in which
    the table never holds more than [M] members: by the [M]-th timer call that
    probes, the record has not stayed as it was - it is gone, or the member has
    been heard of again. *)
Theorem C47_departed_are_forgotten : forall C e os id m M, reach C e -> id <> c_id C ->
  m_state m = PDead \/ m_state m = PLeft -> 0 < M ->
  (forall now, In (ETimeout now) os -> c_dead_window C < tsub now (m_change m)) ->
  (forall pre post, os = pre ++ post -> blen (k_mem (e_core (fst (ep_run C e pre)))) <= M) ->
  M <= rounds C e os ->
  ~ forall pre post, os = pre ++ post -> aget id (k_mem (e_core (fst (ep_run C e pre)))) = Some m.
Proof.
  intros C e os id m M R NL D P W B L. apply (forgotten C id m M NL); [destruct D as [-> | ->]; reflexivity|exact (reach_inv C e R)|exact B|exact W|lia|lia].
Qed.
Print Assumptions C47_departed_are_forgotten.
Example C47_departed_are_forgotten_ex :
  let gone := ee_joined ++ [EPacket 103 (MDead 3 4 4) 20; EPacket 103 (MDead 3 3 2) 25; ESchedule 50] in
  let tk := [ETimeout 40000; ETimeout 50000; ETimeout 60000; ETimeout 70000] in
  let v e := map (fun p => (fst p, m_state (snd p), m_change (snd p))) (k_mem (e_core e)) in
  ex gone (fun e => (v e, rounds ee_cfg e tk)) = Some ([(1, PAlive, 0); (4, PLeft, 20); (2, PAlive, 10); (3, PDead, 25)], 4) /\ c_dead_window ee_cfg = 30000 /\
  ex (gone ++ firstn 3 tk) v = Some [(1, PAlive, 0); (4, PLeft, 20); (2, PDead, 60000); (3, PDead, 25)] /\
  ex (gone ++ tk) v = Some [(2, PDead, 60000); (1, PAlive, 0)].
Proof. do 3 (split; [vm_compute; reflexivity|]). vm_compute. reflexivity. Qed.
