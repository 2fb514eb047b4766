(** The probe rounds: nobody is left out (C84). *)
From Verif Require Import EndpointModel MapFacts BaseFacts AwarenessModel AwarenessFacts CoreFacts CoreInv CoreSteps CoreTrans CoreHist EndpointSteps EndpointInv EndpointHist EndpointRuns EndpointFacts EndpointProbes EndpointUpkeep EndpointUser EndpointDetect EndpointEscalate EndpointOutcome EndpointRounds PropsCore PropsEndpoint PropsDetect.
Import ListNotations.
Local Open Scope N_scope.

(** * C84 *)
(** Everybody is probed.  Take any history in which this node does not leave, a
    member that stays in the table and is not dead or gone, and a table that
    never holds more than [M] members, this one included.  Whatever else
    happens - members joining, leaving and dying, gossip, the reshuffles, pings
    by the application, probes started by hand - once the probe timer has fired
    [2 * M - 1] times the member has been asked: one of the timer calls (or a
    probe started by hand) began a detection probe of that member at its
    recorded address and sent the ping, if it fits a datagram. *)
Theorem C84_everybody_is_probed : forall C e os id M, reach C e -> runs e = true -> id <> c_id C ->
  (forall o, In o os -> (forall t fw, o <> ELeave t fw) /\ (forall t, o <> EReset t)) ->
  (forall pre post, os = pre ++ post -> let x := fst (ep_run C e pre) in
     blen (k_mem (e_core x)) <= M /\ blen (e_acks x) + 1 < two32 /\
     exists m, aget id (k_mem (e_core x)) = Some m /\ dead_or_left (m_state m) = false) ->
  2 * M <= rounds C e os + 1 ->
  exists pre o post t q p l, os = pre ++ o :: post /\ (o = ETimeout t \/ o = EStartProbe t) /\
    let x := fst (ep_run C e pre) in
    let x' := fst (ep_step C x o) in
    e_tx x' = e_tx x ++ l /\ aget q (e_probes x') = Some p /\ p_kind p = PKDetection /\ p_sent p = t /\ ns_id (p_target p) = id /\
    (exists m, aget id (k_mem (e_core x')) = Some m /\ p_target p = m_server m /\ p_inc p = m_inc m) /\
    let ping := MPing q (mkNode (c_id C) (c_addr C)) (mkNode id (ns_addr (p_target p))) in
    (elen C ping <= c_mtu C -> p_disp p = true /\ carries ping l).
Proof.
  intros C e os id M R RU NL Q ST L.
  destruct (everybody_is_probed C id M e os (reach_fit C e R) RU NL) as (pre & o & post & t & E & O & q & p & l & A1 & A2 & A3 & A4 & A5 & A6 & _ & A7).
  - apply Forall_forall. exact Q.
  - exact ST.
  - exact L.
  - exists pre, o, post, t, q, p, l. cbv zeta in *. repeat (split; [assumption|]). split; [|exact A7].
    destruct A6 as (m & G & _ & B1 & B2 & _). exists m. auto.
Qed.
Print Assumptions C84_everybody_is_probed.
(** So a crash is noticed.  If moreover pings to the member fit a datagram, one
    of the calls asks it, and from then on: if nobody answers that probe in
    time, then at the first timer call once the longest a probe may
    take has passed, the member is Suspect at the incarnation it was known by,
    or known at a higher one, or its departure has been reported. *)
Theorem C84_crashed_is_noticed : forall C e os id M, reach C e -> runs e = true -> id <> c_id C ->
  (forall o, In o os -> (forall t fw, o <> ELeave t fw) /\ (forall t, o <> EReset t)) ->
  (forall pre post, os = pre ++ post -> let x := fst (ep_run C e pre) in
     blen (k_mem (e_core x)) <= M /\ blen (e_acks x) + 1 < two32 /\
     exists m, aget id (k_mem (e_core x)) = Some m /\ dead_or_left (m_state m) = false) ->
  2 * M <= rounds C e os + 1 ->
  (forall q a, elen C (MPing q (mkNode (c_id C) (c_addr C)) (mkNode id a)) <= c_mtu C) ->
  c_probe_interval C * c_aware_max C <= DUR_MAX -> 1 <= c_aware_max C ->
  exists pre o post t q p m, os = pre ++ o :: post /\ (o = ETimeout t \/ o = EStartProbe t) /\
    let x := fst (ep_run C e (pre ++ [o])) in
    aget q (e_probes x) = Some p /\ ns_id (p_target p) = id /\
    aget id (k_mem (e_core x)) = Some m /\ dead_or_left (m_state m) = false /\
    forall more now, (forall t fw, ~ In (ELeave t fw) more) -> tadd t (c_probe_interval C * c_aware_max C) <= now ->
      (forall h o' r, post ++ more = h ++ o' :: r -> ~ answered q (fst (ep_run C x h)) o') ->
      let z := ep_run C x ((post ++ more) ++ [ETimeout now]) in
      lefts id (k_ev (e_core x)) + lefts id (requeued (post ++ more)) < lefts id (seen (snd z)) + lefts id (k_ev (e_core (fst z))) \/
      exists m', aget id (k_mem (e_core (fst z))) = Some m' /\ dead_or_left (m_state m') = false /\
        (m_inc m < m_inc m' \/ m_inc m' = m_inc m /\ m_state m' = PSuspect).
Proof.
  intros C e os id M R RU NL Q ST L FT DM MX.
  destruct (everybody_is_probed C id M e os (reach_fit C e R) RU NL) as (pre & o & post & t & E & O & q & p & l & A1 & A2 & A3 & A4 & A5 & A6 & (a & [AW1 AW2] & A8) & A7).
  { apply Forall_forall. exact Q. } { exact ST. } { exact L. }
  cbv zeta in *. destruct (A7 (FT _ _)) as [DS _]. pose proof A6 as (m & G & PB & B1 & B2 & B3).
  assert (fst (ep_run C e (pre ++ [o])) = fst (ep_step C (fst (ep_run C e pre)) o)) as X by (rewrite ep_run_snoc; reflexivity).
  exists pre, o, post, t, q, p, m. split; [exact E|]. split; [exact O|]. rewrite X.
  assert (reach C (fst (ep_step C (fst (ep_run C e pre)) o))) as RX.
  { rewrite <- X. destruct R as (u & e0 & o0 & N0 & ->). exists u, e0, (o0 ++ pre ++ [o]). split; [exact N0|]. rewrite !ep_run_fst, !fold_left_app. reflexivity. }
  assert (runs (fst (ep_step C (fst (ep_run C e pre)) o)) = true) as RUX.
  { rewrite <- X. apply runs_until; [apply reach_inv, R|exact RU|]. intros u fw I. apply (proj1 (Q (ELeave u fw) ltac:(rewrite E; apply in_or_app; apply in_app_or in I as [I|[I|[]]]; [left|right; left]; assumption)) u fw eq_refl). }
  set (x := fst (ep_step C (fst (ep_run C e pre)) o)) in *. clearbody x. split; [exact A2|]. split; [exact A3|]. split; [exact G|].
  split. { unfold probeable in PB. cbn [fst snd] in PB. apply Bool.andb_true_iff in PB as [_ PB]. apply Bool.negb_true_iff in PB. exact PB. }
  intros more now NLV TL NA.
  pose proof (C75_silence_is_noticed C x (post ++ more) now q p RX RUX A2 A4 DS) as Y. cbv zeta in Y. rewrite A3, B2 in Y. apply Y.
  - exact A6.
  - intros u fw I. apply in_app_or in I as [I|I]; [|exact (NLV u fw I)]. apply (proj1 (Q (ELeave u fw) ltac:(rewrite E; apply in_or_app; right; right; exact I)) u fw eq_refl).
  - rewrite A8. rewrite scale_exact by nia. assert (c_probe_interval C * (aw_score a + 1) <= c_probe_interval C * c_aware_max C) by nia. unfold tadd in *. lia.
  - exact NA.
Qed.
Print Assumptions C84_crashed_is_noticed.
(** Four members, seven ticks: everybody is asked.  (One round would not do:
    member 4 is not asked at any of the four ticks 2 to 5.) *)
Example C84_ex :
  let os := map (fun i => ETimeout (1100 + 1000 * N.of_nat i)) (seq 0 7) in
  ex (ee_joined ++ [ESchedule 100]) (fun e => (runs e, blen (k_mem (e_core e)), rounds ee_cfg e os)) = Some (true, 4, 7) /\
  map (fun n => ex (ee_ticks n) (fun e => probed e)) (seq 1 7) = map (fun x => Some (Some x)) [4; 2; 3; 2; 3; 4; 2] /\
  forallb (fun n => match ex (ee_ticks n) (fun e => (blen (k_mem (e_core e)) =? 4) && (blen (e_acks e) + 1 <? two32) &&
     forallb (fun x => negb (dead_or_left (m_state (snd x)))) (k_mem (e_core e))) with Some b => b | None => false end) (seq 0 8) = true /\
  ex (ee_ticks 7) (fun e => map (fun x => (fst x, m_state (snd x))) (k_mem (e_core e))) = Some [(2, PSuspect); (3, PSuspect); (4, PSuspect); (1, PAlive)] /\
  (c_probe_interval ee_cfg * c_aware_max ee_cfg <=? DUR_MAX) && (1 <=? c_aware_max ee_cfg) = true /\
  forallb (fun id => elen ee_cfg (MPing u32_max (mkNode 1 101) (mkNode id u32_max)) <=? c_mtu ee_cfg) [2; 3; 4] = true.
Proof. vm_compute. repeat split. Qed.

(** * C48, continued *)
(** A reshuffle starts a new round from the top: whatever state it happens in,
    the probes that follow visit everybody who takes part, in table order,
    before anybody is visited twice. *)
Theorem C48_after_a_reshuffle : forall C e now times, reach C e -> runs e = true -> blen (e_acks e) + blen times + 1 < two32 ->
  let e' := fst (ep_step C e (EReset now)) in
  let live := map fst (filter (fun x => negb (fst x =? c_id C) && negb (dead_or_left (m_state (snd x)))) (k_mem (e_core e'))) in
  length times = length live -> live <> [] -> probe_round C times e' = map Some live /\ NoDup live.
Proof.
  intros C e now times R RU B. cbv zeta. intros EL NE.
  assert (reach C (fst (ep_step C e (EReset now)))) as R'.
  { destruct R as (u & e0 & o0 & N0 & ->). exists u, e0, (o0 ++ [EReset now]). split; [exact N0|]. rewrite ep_run_snoc. reflexivity. }
  assert (runs (fst (ep_step C e (EReset now))) = true) as RU' by (apply runs_step; [apply reach_inv, R|exact RU|discriminate]).
  destruct (C48_round_robin C _ times R' RU' ltac:(exact B) eq_refl NE) as (_ & ND & H). split; [exact (H EL)|exact ND].
Qed.
Print Assumptions C48_after_a_reshuffle.
Example C48_after_a_reshuffle_ex :
  ex (ee_ticks 2) (fun e => (runs e, e_pidx e, map fst (k_mem (e_core e)))) = Some (true, 3, [1; 4; 2; 3]) /\
  ex (ee_ticks 2 ++ [EReset 5000]) (fun e => (map fst (k_mem (e_core e)), probe_round ee_cfg [6000; 7000; 8000] e)) = Some ([1; 3; 2; 4], [Some 3; Some 2; Some 4]).
Proof. vm_compute. repeat split. Qed.
