(** The failure detector at work: what a probe sends, how it escalates, and
    that silence is noticed (C73-C76). *)
From Verif Require Import EndpointModel MapFacts BaseFacts AwarenessFacts CoreFacts CoreInv CoreSteps CoreTrans CoreHist EndpointSteps EndpointInv EndpointHist EndpointRuns EndpointFacts EndpointProbes EndpointUpkeep EndpointUser EndpointDetect EndpointEscalate PropsCore PropsEndpoint.
Import ListNotations.
Local Open Scope N_scope.

(** * C73 *)
(** Starting a probe while some other member is neither dead nor gone picks such
    a member and asks it: a ping under a number in use nowhere, naming this node
    as the source and the member as the target, goes to the member's recorded
    address.  To a suspected member the suspicion travels with the ping, in the
    same datagram when both fit ([opening]).  The probe records who was asked
    (address, incarnation and instance), since when, and until when it waits;
    it counts as sent exactly if the ping is among what is handed to the
    driver.  Nothing else changes. *)
Theorem C73_probe_asks_a_member : forall C e now x, reach C e -> runs e = true -> blen (e_acks e) + 1 < two32 ->
  In x (k_mem (e_core e)) -> probeable C x = true ->
  let e' := fst (ep_step C e (EStartProbe now)) in
  exists id m q l, id <> c_id C /\ dead_or_left (m_state m) = false /\ aget id (k_mem (e_core e)) = Some m /\
    q <> 0 /\ q < two32 /\ aget q (e_acks e) = None /\ aget q (e_probes e) = None /\ aget q (e_fwds e) = None /\
    let ping := MPing q (mkNode (c_id C) (c_addr C)) (mkNode id (ns_addr (m_server m))) in
    let sus := MSuspect (m_inc m) id (c_id C) in
    e_tx e' = e_tx e ++ l /\ opening C (ns_addr (m_server m)) ping (if pstate_eqb (m_state m) PSuspect then Some sus else None) l /\
    e_core e' = e_core e /\ (forall j, j <> q -> aget j (e_probes e') = aget j (e_probes e)) /\
    exists p, aget q (e_probes e') = Some p /\ p_target p = m_server m /\ p_inc p = m_inc m /\ p_gen p = m_gen m /\ p_sent p = now /\
      p_kind p = PKDetection /\ p_phase p = PhDirect (tadd now (c_probe_timeout C)) /\ (p_disp p = true <-> carries ping l).
Proof.
  intros C e now x R RU B IN PX. cbv zeta. cbn [ep_step fst].
  destruct (start_exact C now e x (reach_inv C e R) RU B IN PX) as (id & m & q & l & PB & G & Q0 & Q1 & U1 & U2 & U3 & T & O & K & OT & p & GP & A1 & A2 & A3 & A4 & A5 & A6 & _ & A8).
  unfold probeable in PB. cbn [fst snd] in PB. apply Bool.andb_true_iff in PB as [PB1 PB2]. apply Bool.negb_true_iff in PB1, PB2. apply N.eqb_neq in PB1.
  exists id, m, q, l. repeat (split; [assumption|]). exists p. repeat (split; [assumption|]). exact A8.
Qed.
Print Assumptions C73_probe_asks_a_member.
(** The time it waits: the probe interval once for every point of bad health the
    node has against itself, and once more (short of the clock's range). *)
Theorem C73_patience : forall C e now x, reach C e -> runs e = true -> blen (e_acks e) + 1 < two32 ->
  In x (k_mem (e_core e)) -> probeable C x = true -> c_probe_interval C * (aw_score (k_aw (e_core e)) + 1) <= DUR_MAX ->
  let e' := fst (ep_step C e (EStartProbe now)) in
  exists q p, aget q (e_probes e) = None /\ aget q (e_probes e') = Some p /\
    p_fail p = tadd now (c_probe_interval C * (aw_score (k_aw (e_core e)) + 1)).
Proof.
  intros C e now x R RU B IN PX L. cbv zeta. cbn [ep_step fst].
  destruct (start_exact C now e x (reach_inv C e R) RU B IN PX) as (id & m & q & l & PB & G & Q0 & Q1 & U1 & U2 & U3 & T & O & K & OT & p & GP & A1 & A2 & A3 & A4 & A5 & A6 & A7 & A8).
  exists q, p. split; [exact U2|]. split; [exact GP|]. rewrite A7, scale_exact by exact L. reflexivity.
Qed.
Print Assumptions C73_patience.
Example C73_ex :
  let os := ee_joined ++ [EPacket 103 (MSuspect 3 4 3) 15] in
  ex os (fun e => (runs e, blen (e_acks e), map (fun x => (fst x, probeable ee_cfg x)) (k_mem (e_core e)))) = Some (true, 0, [(1, false); (4, true); (2, true); (3, true)]) /\
  ex os (fun e => (e_tx e, c_probe_interval ee_cfg * (aw_score (k_aw (e_core e)) + 1))) = Some ([], 1000) /\
  ex (os ++ [EStartProbe 20]) e_tx = Some [TCompound 104 [MPing 1 (mkNode 1 101) (mkNode 4 104); MSuspect 3 4 1]] /\
  ex (ee_joined ++ [EStartProbe 20]) e_tx = Some [TPacket 104 (MPing 1 (mkNode 1 101) (mkNode 4 104))] /\
  pviews (os ++ [EStartProbe 20]) = Some [(1, (4, 3, 1020, true, None))].
Proof. vm_compute. repeat split. Qed.

(** * C74 *)
(** At the timer call that finds a probe past its direct deadline but not past
    its end, help is asked for, once: distinct helpers, each an Alive member
    other than this node and the target, get a request naming the target; as
    many as configured, or everyone there is to ask (nobody, if the request
    would not fit a datagram).  Unless the target is known not to take reliable
    connections it is also dialled, until the probe's end.  The probe then
    waits, under the same number and as begun, for exactly those helpers; only
    if nobody could be asked at all is it given up. *)
Theorem C74_asks_for_help : forall C e now q p d, reach C e -> runs e = true -> aget q (e_probes e) = Some p -> p_kind p = PKDetection ->
  p_phase p = PhDirect d -> tadd (p_sent p) (c_probe_timeout C) <= now -> now < p_fail p ->
  let e' := fst (ep_step C e (ETimeout now)) in
  let addr := ns_addr (p_target p) in
  let ask := MIndirectPing q (mkNode (c_id C) (c_addr C)) (mkNode (ns_id (p_target p)) addr) in
  exists peers l evs, e_tx e' = e_tx e ++ l /\ k_ev (e_core e') = k_ev (e_core e) ++ evs /\
    NoDup peers /\ (forall to, In to peers -> eligible C e addr to /\ In (TPacket to ask) l) /\ blen peers <= c_indirect C /\
    (elen C ask <= c_mtu C -> forall others, NoDup others -> (forall to, In to others -> eligible C e' addr to) -> N.min (c_indirect C) (blen others) <= blen peers) /\
    (c_mtu C < elen C ask -> peers = []) /\
    (~ In (ns_id (p_target p)) (e_norel e) -> exists r, In (EvDial r addr (p_fail p)) evs) /\
    (peers <> [] \/ ~ In (ns_id (p_target p)) (e_norel e) ->
       exists p' r, aget q (e_probes e') = Some p' /\ snap p' = snap p /\ p_disp p' = true /\ p_phase p' = PhIndirect (blen peers) peers [] r (p_fail p)) /\
    (peers = [] -> In (ns_id (p_target p)) (e_norel e) -> forall p', aget q (e_probes e') = Some p' -> p_sent p' = now).
Proof.
  intros C e now q p d R RU G PK PH L1 L2. cbv zeta. cbn [ep_step fst].
  destruct (escalates C now e q p d (reach_inv C e R) RU G PK PH L1 L2) as (peers & l & evs & A1 & A2 & A3 & A4 & A5 & A6 & A7 & A8 & A9).
  exists peers, l, evs. repeat (split; [assumption|]).
  assert (forall i, existsb (N.eqb i) (e_norel e) = true <-> In i (e_norel e)) as B.
  { intros i. rewrite existsb_exists. split; [intros (y & Y & E); apply N.eqb_eq in E; congruence|intros Y; exists i; split; [exact Y|apply N.eqb_refl]]. }
  split.
  - intros H. destruct peers as [|a b]; [|exact A9]. destruct (existsb _ _) eqn:E; [|exact A9]. apply B in E. destruct H; contradiction.
  - intros -> H. apply B in H. rewrite H in A9. exact A9.
Qed.
Print Assumptions C74_asks_for_help.
Example C74_ex :
  ex ee_probe (fun e => (runs e, map (fun x => (fst x, p_sent (snd x), p_fail (snd x))) (e_probes e), e_norel e)) = Some (true, [(1, 20, 1020)], []) /\
  ex ee_indirect (fun e => skipn 1 (e_tx e)) = Some [TPacket 102 (MIndirectPing 1 (mkNode 1 101) (mkNode 4 104)); TPacket 103 (MIndirectPing 1 (mkNode 1 101) (mkNode 4 104))] /\
  ex ee_indirect (fun e => last (k_ev (e_core e)) (EvDial 0 0 0)) = Some (EvDial 1 104 1020) /\
  pviews ee_indirect = Some [(1, (4, 3, 1020, true, Some (2, [102; 103], [])))].
Proof. vm_compute. repeat split. Qed.

(** * C75 *)
(** Silence is noticed.  Take a detection probe that was sent, of a member as it
    is recorded, and any history in which nobody who may answer it does so in
    time ([answered]) and this node does not leave.  The first timer call at or
    after the probe's end leaves the member Suspect at the probed incarnation,
    or known at a higher one - unless its departure has meanwhile been reported:
    then there are more departure reports, delivered or pending, than were
    pending before or have been put back. *)
Theorem C75_silence_is_noticed : forall C e os now q p, reach C e -> runs e = true ->
  aget q (e_probes e) = Some p -> p_kind p = PKDetection -> p_disp p = true ->
  snapshot_of C p (aget (ns_id (p_target p)) (k_mem (e_core e))) ->
  (forall t fw, ~ In (ELeave t fw) os) -> p_fail p <= now ->
  (forall h o r, os = h ++ o :: r -> ~ answered q (fst (ep_run C e h)) o) ->
  let x := ep_run C e (os ++ [ETimeout now]) in
  let id := ns_id (p_target p) in
  lefts id (k_ev (e_core e)) + lefts id (requeued os) < lefts id (seen (snd x)) + lefts id (k_ev (e_core (fst x))) \/
  exists m, aget id (k_mem (e_core (fst x))) = Some m /\ dead_or_left (m_state m) = false /\
    (p_inc p < m_inc m \/ m_inc m = p_inc p /\ m_state m = PSuspect).
Proof.
  intros C e os now q p R RU G PK PD SN NL L NA. cbv zeta.
  destruct (probe_noticed C e os now q p (reach_inv C e R) (gen_pos_reach C e R) RU G PK PD SN NL L NA) as [H|(_ & m & GM & LV & N)]; [left; exact H|right].
  exists m. split; [exact GM|]. split; [exact LV|exact N].
Qed.
Print Assumptions C75_silence_is_noticed.
(** From the start: if starting a probe puts the ping on the wire and nobody
    answers, the member probed is Suspect, known anew or reported gone by the
    first timer call after the probe's end. *)
Theorem C75_from_the_start : forall C e t0 os now x, reach C e -> runs e = true -> blen (e_acks e) + 1 < two32 ->
  In x (k_mem (e_core e)) -> probeable C x = true ->
  let e1 := fst (ep_step C e (EStartProbe t0)) in
  exists id m q l, aget id (k_mem (e_core e)) = Some m /\ id <> c_id C /\ e_tx e1 = e_tx e ++ l /\
    let ping := MPing q (mkNode (c_id C) (c_addr C)) (mkNode id (ns_addr (m_server m))) in
    (carries ping l -> (forall t fw, ~ In (ELeave t fw) os) -> tadd t0 (scale_timeout (k_aw (e_core e)) (c_probe_interval C)) <= now ->
     (forall h o r, os = h ++ o :: r -> ~ answered q (fst (ep_run C e1 h)) o) ->
     let y := ep_run C e1 (os ++ [ETimeout now]) in
     lefts id (k_ev (e_core e)) + lefts id (requeued os) < lefts id (seen (snd y)) + lefts id (k_ev (e_core (fst y))) \/
     exists m', aget id (k_mem (e_core (fst y))) = Some m' /\ dead_or_left (m_state m') = false /\
       (m_inc m < m_inc m' \/ m_inc m' = m_inc m /\ m_state m' = PSuspect)).
Proof.
  intros C e t0 os now x R RU B IN PX. cbv zeta.
  pose proof (reach_inv C e R) as I.
  destruct (start_exact C t0 e x I RU B IN PX) as (id & m & q & l & PB & G & Q0 & Q1 & U1 & U2 & U3 & T & O & K & OT & p & GP & A1 & A2 & A3 & A4 & A5 & A6 & A7 & A8).
  cbv zeta in *. change (start_probe C t0 e) with (fst (ep_step C e (EStartProbe t0))) in *.
  exists id, m, q, l. split; [exact G|]. pose proof PB as PB'. unfold probeable in PB. cbn [fst snd] in PB. apply Bool.andb_true_iff in PB as [PB1 PB2].
  split; [intros ->; rewrite N.eqb_refl in PB1; discriminate|]. split; [exact T|]. intros CA NL L NA.
  pose proof (ki_rec _ _ (ei_core _ _ I) _ _ G) as [ID _].
  assert (ns_id (p_target p) = id) as E by (rewrite A1; exact ID).
  assert (reach C (fst (ep_step C e (EStartProbe t0)))) as R1.
  { destruct R as (u & e0 & o0 & N0 & ->). exists u, e0, (o0 ++ [EStartProbe t0]). split; [exact N0|]. rewrite ep_run_snoc. reflexivity. }
  set (e1 := fst (ep_step C e (EStartProbe t0))) in *. clearbody e1.
  pose proof (C75_silence_is_noticed C e1 os now q p R1) as X. cbv zeta in X. rewrite E, K, A2 in X.
  apply X; auto; [unfold runs in *; rewrite K; exact RU|apply A8, CA| |rewrite A7; exact L].
  exists m. rewrite E. auto.
Qed.
Print Assumptions C75_from_the_start.
Example C75_ex :
  let v os := ex os (fun e => (option_map (fun m => (m_inc m, m_state m)) (aget 4 (k_mem (e_core e))), lefts 4 (k_ev (e_core e)))) in
  let quiet := [ETimeout 600; EPacket 103 (MNack 1) 700; EPacket 999 (MAck 1 []) 800; EPacket 104 (MAck 1 []) 1020] in
  ex ee_probe (fun e => (runs e, map (fun x => (fst x, pview (snd x))) (e_probes e))) = Some (true, [(1, (4, 3, 1020, true, None))]) /\
  v (ee_probe ++ quiet ++ [ETimeout 1030]) = Some (Some (3, PSuspect), 0) /\
  (* it refutes meanwhile; it says goodbye meanwhile; it answers *)
  v (ee_probe ++ quiet ++ [EPacket 104 (MAlive (ex_al 4 4 104)) 800; ETimeout 1030]) = Some (Some (4, PAlive), 0) /\
  v (ee_probe ++ [EPacket 104 (MDead 3 4 4) 800; ETimeout 1030]) = Some (Some (3, PLeft), 1) /\
  v (ee_probe ++ [EPacket 104 (MAck 1 []) 800; ETimeout 1030]) = Some (Some (3, PAlive), 0).
Proof. vm_compute. repeat split. Qed.

(** * C76 *)
(** Suspicion ends.  A suspected member at the latest is judged at the first
    timer call after the longest its suspicion may run: by then it is known at
    a higher incarnation, or its departure has been reported - whatever the
    history in between, as long as this node does not leave and the operations'
    clocks do not run ahead of that call. *)
Theorem C76_suspicion_ends : forall C e os now id m s, reach C e -> runs e = true -> id <> c_id C ->
  aget id (k_mem (e_core e)) = Some m -> m_state m = PSuspect -> m_susp m = Some s ->
  s_min s <= s_max s -> (forall n, 1 <= n <= s_k s -> (c_lg C n (s_k s) (s_min s) (s_max s) <= Z.of_N (s_max s / MS))%Z) ->
  tadd (s_start s) (s_max s) <= now -> s_deadline s <= now -> Forall (fun o => optime o <= now) os ->
  (forall t fw, ~ In (ELeave t fw) os) ->
  let x := ep_run C e (os ++ [ETimeout now]) in
  lefts id (k_ev (e_core e)) + lefts id (requeued os) < lefts id (seen (snd x)) + lefts id (k_ev (e_core (fst x))) \/
  exists m', aget id (k_mem (e_core (fst x))) = Some m' /\ dead_or_left (m_state m') = false /\ m_inc m < m_inc m'.
Proof.
  intros C e os now id m s R RU NL G S GS B1 B2 T D F NLv. cbv zeta.
  destruct (suspicion_ends C e os now id m s (reach_inv C e R) NL G S GS (conj B1 B2) T D F RU NLv) as [H|(_ & m' & GM & LV & N)]; [left; exact H|right].
  exists m'. split; [exact GM|]. split; [exact LV|exact N].
Qed.
Print Assumptions C76_suspicion_ends.
(** an endpoint whose suspicions run one to six seconds, four after a
    confirmation *)
Definition ed_cfg : cfg :=
  mkCfg 1 101 1 1 5 [7] 512 4 (fun _ => (1000 * MS, 6000 * MS)) (fun _ _ _ _ => 4000%Z) (fun _ => 4)
    8 500 30000 None (fun i => i * 7 + 3) ee_enc
    1400 65536 [] 2 1000 500 3 200 3 30000 10000 2 true.
Example C76_ex :
  let run os := option_map (fun e => fst (ep_run ed_cfg e os)) (ep_new ed_cfg 0) in
  let v os := option_map (fun e => (option_map (fun m => (m_inc m, m_state m, option_map (fun s => (s_k s, s_min s / MS, s_max s / MS, s_start s, s_deadline s / MS)) (m_susp m))) (aget 3 (k_mem (e_core e))), lefts 3 (k_ev (e_core e)))) (run os) in
  let h := ee_joined ++ [EPacket 102 (MSuspect 3 3 2) 20] in
  let w := [EPacket 104 (MSuspect 3 3 4) (700 * MS); EPacket 102 (MAlive (ex_al 3 3 103)) (900 * MS); EPollEvent; ETimeout (1500 * MS)] in
  v h = Some (Some (3, PSuspect, Some (2, 1000, 6000, 20, 6000)), 0) /\
  v (h ++ w) = Some (Some (3, PSuspect, Some (2, 1000, 6000, 20, 4000)), 0) /\
  v (h ++ w ++ [ETimeout (3999 * MS)]) = Some (Some (3, PSuspect, Some (2, 1000, 6000, 20, 4000)), 0) /\
  v (h ++ w ++ [ETimeout (6001 * MS)]) = Some (Some (3, PDead, None), 1) /\
  v (h ++ w ++ [EPacket 103 (MAlive (ex_al 4 3 103)) (2000 * MS); ETimeout (6001 * MS)]) = Some (Some (4, PAlive, None), 0) /\
  Forall (fun o => optime o <= 6001 * MS) w /\
  forall n k a b, (c_lg ed_cfg n k a b <= 6000)%Z.
Proof. cbv zeta. do 5 (split; [vm_compute; reflexivity|]). split; [unfold optime; repeat constructor; vm_compute; discriminate|intros; vm_compute; discriminate]. Qed.
