(** Properties C35, C37-C45, C48, C55-C57: the endpoint around the core, after
    any sequence of driver calls.  [reach C e] says that [e] is the state of an
    endpoint configured by [C] after some history of calls. *)
From Coq Require Import Permutation.
From Verif Require Import CodecModel EndpointModel MapFacts BaseFacts DeadlineFacts CoreFacts CoreInv CoreSteps CoreTrans CoreHist CoreSpec
  EndpointSteps EndpointInv EndpointFacts EndpointHist EndpointRuns EndpointSent EndpointAnswers EndpointProbes PropsCore.
Local Open Scope N_scope.

(** ** A concrete endpoint for the examples: node 1 at address 101 *)
Definition ee_enc (m : msg) : bytes :=
  let b := match m with MUserData d => 6 :: 0 :: d | MAck _ p => 7 :: 0 :: p | _ => [1; 2; 3] end in
  if blen b <=? 70000 then b else [].
Definition ee_cfg : cfg :=
  mkCfg 1 101 1 1 5 [7] 512 4 (fun _ => (1000, 6000)) (fun _ _ _ _ => 2%Z) (fun _ => 4)
    8 500 30000 None (fun i => i * 7 + 3) ee_enc
    1400 65536 [] 2 1000 500 3 200 3 30000 10000 2 true.
(** [ex os f]: [f] of the state after the history [os] *)
Definition ee (os : list eop) : option ep := option_map (fun e => fst (ep_run ee_cfg e os)) (ep_new ee_cfg 0).
Definition ex {A} (os : list eop) (f : ep -> A) : option A := option_map f (ee os).
Lemma ee_reach os e : ee os = Some e -> reach ee_cfg e.
Proof. unfold ee. destruct (ep_new ee_cfg 0) as [e0|] eqn:N; [|discriminate]. intros [= <-]. exists 0, e0, os. auto. Qed.
Lemma ee_sizes : sizes ee_cfg.
Proof.
  assert (forall m, elen ee_cfg m <= 70000) as B.
  { intros m. unfold elen. change (c_enc ee_cfg m) with (ee_enc m). unfold ee_enc. destruct (N.leb_spec (blen (match m with MUserData d => 6 :: 0 :: d | MAck _ p => 7 :: 0 :: p | _ => [1; 2; 3] end)) 70000); [assumption|]. unfold blen. cbn. lia. }
  split; [intros m; specialize (B m); unfold elen in B; unfold u64_max; lia|]. split.
  - intros d L. unfold elen. change (c_enc ee_cfg (MUserData d)) with (ee_enc (MUserData d)). unfold ee_enc. destruct (_ <=? _); rewrite ?blen_cons; unfold blen; cbn [length]; lia.
  - intros i _. reflexivity.
Qed.
(** members 2, 3 and 4 join *)
Definition ee_joined := map (fun i => EPacket (100 + i) (MAlive (ex_al 3 i (100 + i))) 10) [2; 3; 4].
(** what a probe is about *)
Definition pview (p : probe) := (ns_id (p_target p), p_inc p, p_fail p, p_disp p,
  match p_phase p with PhDirect _ => None | PhIndirect x ps nb _ _ => Some (x, ps, nb) end).

(** The membership record of an endpoint is that of a core after some history
    of its own, so C27-C36 apply to it. *)
Theorem C63_endpoint_core_is_a_core : forall C e, reach C e -> exists t0 os, e_core e = core_at C t0 os.
Proof.
  intros C e (t0 & e0 & os & N & ->). exists t0.
  assert (einv C e0) as I0 by (eapply einv_new, N).
  assert (e_core e0 = core_new C t0) as E0.
  { unfold ep_new in N. destruct (cfg_ok C); [|discriminate]. apply Some_inj in N. rewrite <- N. unfold refresh_cache. match goal with |- context [if ?b then _ else _] => destruct b end; reflexivity. }
  induction os as [|o os (ks & IH)] using rev_ind; [exists []; exact E0|].
  rewrite ep_run_snoc. cbn [fst]. destruct (step_chain C (fst (ep_run C e0 os)) o (einv_run C os e0 I0)) as (ls & cr & S & _).
  exists (ks ++ map unlab ls). rewrite (esteps_core C _ _ _ _ S), IH. unfold core_at. rewrite !core_run_fst, fold_left_app. reflexivity.
Qed.
Print Assumptions C63_endpoint_core_is_a_core.
Example C63_endpoint_core_is_a_core_ex : ex ee_joined (fun e => map fst (k_mem (e_core e))) = Some [1; 4; 2; 3].
Proof. vm_compute. reflexivity. Qed.

(** * C35 *)
(** The wake-up time is exactly the earliest instant at which there is
    something to do: a suspicion deadline, a probe deadline, a relay deadline,
    a dial deadline or a scheduler tick. *)
Theorem C35_wakes_up : forall C e, reach C e -> runs e = true ->
  match poll_timeout e with
  | Some w => due_at C e w /\ forall t, due_at C e t -> w <= t
  | None => forall t, ~ due_at C e t
  end.
Proof. intros C e R RU. pose proof (timeout_spec C e (reach_inv C e R)) as H. rewrite RU in H. exact H. Qed.
Print Assumptions C35_wakes_up.
(** in particular a suspect member never dies later than it should for want of
    a wake-up *)
Theorem C35_wakes_for_suspects : forall C e id m, reach C e -> runs e = true ->
  aget id (k_mem (e_core e)) = Some m -> m_state m = PSuspect ->
  exists s w, m_susp m = Some s /\ poll_timeout e = Some w /\ w <= s_deadline s.
Proof.
  intros C e id m R RU G S. pose proof (C35_wakes_up C e R RU) as H.
  destruct (ki_rec _ _ (ei_core _ _ (reach_inv C e R)) id m G) as [_ X]. rewrite S in X. destruct (m_susp m) as [s|] eqn:E; [|congruence].
  exists s. pose proof (du_susp C e id m s G E) as D. destruct (poll_timeout e) as [w|]; [|destruct (H _ D)]. exists w. split; [reflexivity|]. split; [reflexivity|]. apply H, D.
Qed.
Print Assumptions C35_wakes_for_suspects.
Example C35_wakes_ex :
  ex (ee_joined ++ [EStartProbe 20; EPacket 104 (MIndirectPing 9 (mkNode 4 104) (mkNode 3 103)) 40]) (fun e => (runs e, poll_timeout e)) = Some (true, Some 520) /\
  ex (ee_joined ++ [EPacket 103 (MSuspect 3 2 3) 20; EPacket 104 (MIndirectPing 9 (mkNode 4 104) (mkNode 3 103)) 40]) poll_timeout = Some (Some 540) /\
  ex (ee_joined ++ [EPacket 103 (MSuspect 3 2 3) 20]) poll_timeout = Some (Some 6020) /\
  ex ee_joined poll_timeout = Some None.
Proof. vm_compute. repeat split. Qed.

(** * C37 *)
(** An ack is dropped without any effect when no live probe may be answered by
    its source ([may_answer]: the probed address, or a helper that was asked)
    and no relay waits for it. *)
Theorem C37_foreign_ack_ignored : forall C e from q payload now, reach C e ->
  (forall p, aget q (e_probes e) = Some p -> ~ may_answer p from) ->
  (forall f, aget q (e_fwds e) = Some f -> from <> f_target f \/ f_deadline f <= now) ->
  ep_step C e (EPacket from (MAck q payload) now) = (e, []).
Proof.
  intros C e from q payload now R P F. cbn [ep_step]. unfold handle_packet. destruct (runs e); cbn [negb]; [|reflexivity].
  rewrite (ack_ignored C e from q payload now (reach_inv C e R) P F). reflexivity.
Qed.
Print Assumptions C37_foreign_ack_ignored.
(** Whatever the ack, probes with another sequence number are untouched. *)
Theorem C37_others_untouched : forall C e from q payload now j, j <> q ->
  aget j (e_probes (fst (ep_step C e (EPacket from (MAck q payload) now)))) = aget j (e_probes e).
Proof.
  intros C e from q payload now j J. cbn [ep_step fst]. unfold handle_packet. destruct (runs e); cbn [negb]; [|reflexivity].
  apply ack_others, J.
Qed.
Print Assumptions C37_others_untouched.
(** From an admissible source and in time it completes the probe: probe and
    pending ack go, an application ping (and a detection probe answered by its
    own target) is reported, a detection probe improves the node's health. *)
Theorem C37_timely_ack_completes : forall C e from q payload now p, reach C e -> runs e = true ->
  aget q (e_probes e) = Some p -> may_answer p from -> now < p_fail p ->
  let e' := fst (ep_step C e (EPacket from (MAck q payload) now)) in
  e_probes e' = adel q (e_probes e) /\ e_acks e' = adel q (e_acks e) /\ e_tx e' = e_tx e /\
  e_core e' = fst (core_run C (e_core e)
    (match p_kind p with PKDetection => [KHealthOk] | PKPing => [] end ++
     if match p_kind p with PKDetection => ns_addr (p_target p) =? from | PKPing => true end
     then [KEmit (EvPingCompleted q (p_target p) (tsub now (p_sent p)) payload)] else [])).
Proof.
  intros C e from q payload now p R RU G M L. cbn [ep_step fst]. unfold handle_packet. rewrite RU. cbn [negb].
  rewrite (ack_accepted C e from q payload now p (reach_inv C e R) G M).
  pose proof (probe_ok_exact C q (ns_addr (p_target p) =? from) payload now e p G L) as X. cbv zeta in *.
  destruct X as (A & B & D & E & _). auto.
Qed.
Print Assumptions C37_timely_ack_completes.
(** Too late, it completes nothing: the probe is failed there and then, as its
    expired deadline demands (nothing but the failure is reported, the node's
    health does not improve). *)
Theorem C37_late_ack_fails : forall C e from q payload now p, reach C e -> runs e = true ->
  aget q (e_probes e) = Some p -> may_answer p from -> p_fail p <= now ->
  let e' := fst (ep_step C e (EPacket from (MAck q payload) now)) in
  aget q (e_probes e') = None /\ e_tx e' = e_tx e /\
  e_core e' = fst (core_run C (e_core e)
    match p_kind p with
    | PKPing => [KEmit (EvPingFailed q (p_target p))]
    | PKDetection => if p_disp p then KHealthFail (severity p) ::
        (if same_instance p e then [KSuspect (p_inc p) (ns_id (p_target p)) (c_id C) now] else []) else []
    end).
Proof.
  intros C e from q payload now p R RU G M L. cbn [ep_step fst]. unfold handle_packet. rewrite RU. cbn [negb].
  rewrite (ack_accepted C e from q payload now p (reach_inv C e R) G M). unfold probe_ok. rewrite G.
  destruct (N.leb_spec (p_fail p) now) as [_|]; [|lia]. split; [rewrite probe_fail_probes, N.eqb_refl; reflexivity|]. split.
  - unfold probe_fail. rewrite G. destruct (p_phase p) as [|? ? ? [?|] ?], (p_kind p); try reflexivity; destruct (negb _); try reflexivity; destruct (same_instance _ _); reflexivity.
  - rewrite (probe_fail_core C q now e p G). unfold fail_ops. destruct (p_kind p); [|reflexivity]. rewrite app_nil_r, map_map. destruct (p_disp p); [|reflexivity]. destruct (same_instance p e); reflexivity.
Qed.
Print Assumptions C37_late_ack_fails.
(** node 4 is probed at 20 (direct deadline 520, deadline 1020); by 600 the
    helpers at 102 and 103 have been asked *)
Definition ee_probe := ee_joined ++ [EStartProbe 20].
Definition ee_indirect := ee_probe ++ [ETimeout 600].
Definition pviews os := ex os (fun e => map (fun x => (fst x, pview (snd x))) (e_probes e)).
Definition n4 := mkNS 4 104 PAlive [4] 1 1.
Example C37_ex :
  let evs os := ex os (fun e => (skipn 4 (k_ev (e_core e)), aw_score (k_aw (e_core e)))) in
  pviews ee_probe = Some [(1, (4, 3, 1020, true, None))] /\
  pviews ee_indirect = Some [(1, (4, 3, 1020, true, Some (2, [102; 103], [])))] /\
  (* a helper before it is asked, an unknown number, a stranger *)
  pviews (ee_probe ++ [EPacket 103 (MAck 1 []) 100; EPacket 104 (MAck 2 []) 100]) = pviews ee_probe /\
  pviews (ee_indirect ++ [EPacket 999 (MAck 1 []) 700]) = pviews ee_indirect /\
  (* the target, in time; a helper, in time; a helper, too late *)
  pviews (ee_probe ++ [EPacket 104 (MAck 1 [6]) 100]) = Some [] /\
  evs (ee_probe ++ [EPacket 104 (MAck 1 [6]) 100]) = Some ([EvPingCompleted 1 n4 80 [6]], 0) /\
  pviews (ee_indirect ++ [EPacket 103 (MAck 1 []) 700]) = Some [] /\
  evs (ee_indirect ++ [EPacket 103 (MAck 1 []) 700]) = Some ([EvDial 1 104 1020], 0) /\
  pviews (ee_indirect ++ [EPacket 103 (MAck 1 []) 1020]) = Some [] /\
  evs (ee_indirect ++ [EPacket 103 (MAck 1 []) 1020]) = Some ([EvDial 1 104 1020], 2).
Proof. vm_compute. repeat split. Qed.

(** * C38 *)
(** A sequence number taken from the allocator is usable and in use nowhere. *)
Theorem C38_fresh_number : forall C e s e', reach C e -> alloc_seq e = Some (s, e') ->
  s <> 0 /\ s < two32 /\ aget s (e_probes e) = None /\ aget s (e_fwds e) = None /\ aget s (e_acks e) = None.
Proof.
  intros C e s e' _ A. apply alloc_seq_spec in A as (_ & Z & L & U). split; [exact Z|]. split; [exact L|]. apply seq_used_false, U.
Qed.
Print Assumptions C38_fresh_number.
(** One is found whenever fewer than 2^32 - 1 are in use. *)
Theorem C38_always_found : forall C e, reach C e -> blen (e_acks e) + 1 < two32 -> exists s e', alloc_seq e = Some (s, e').
Proof. intros C e R. apply alloc_some with (C := C). apply reach_inv, R. Qed.
Print Assumptions C38_always_found.
(** So numbers in flight are unique: each has one pending ack, and is that of
    exactly one probe, ping or relay. *)
Theorem C38_one_owner : forall C e s, reach C e ->
  (aget s (e_acks e) = None <-> aget s (e_probes e) = None /\ aget s (e_fwds e) = None) /\
  (aget s (e_probes e) = None \/ aget s (e_fwds e) = None) /\
  NoDup (akeys (e_probes e)) /\ NoDup (akeys (e_fwds e)) /\ NoDup (akeys (e_acks e)) /\ (aget 0 (e_acks e) = None).
Proof.
  intros C e s R. pose proof (reach_inv C e R) as I. pose proof (ei_reg _ _ I s) as G. pose proof (ei_reg _ _ I 0) as Z. unfold registered in *.
  split; [|split; [|split; [apply (ei_pnd _ _ I)|split; [apply (ei_fnd _ _ I)|split; [apply (ei_and _ _ I)|]]]]].
  - destruct (aget s (e_acks e)) as [a|].
    + split; [discriminate|]. intros [A B]. destruct G as (_ & _ & G). destruct (a_kind a); destruct G as [(x & X & _) _]; congruence.
    + split; auto.
  - destruct (aget s (e_acks e)) as [a|]; [|left; apply G]. destruct G as (_ & _ & G). destruct (a_kind a); destruct G as [_ G]; auto.
  - destruct (aget 0 (e_acks e)); [destruct Z; congruence|reflexivity].
Qed.
Print Assumptions C38_one_owner.
(** What an application ping returns is such a number. *)
Theorem C38_ping_number_is_new : forall C e nd now s, reach C e -> In (OId s) (snd (ep_step C e (EPing nd now))) ->
  s <> 0 /\ s < two32 /\ aget s (e_probes e) = None /\ aget s (e_fwds e) = None /\ aget s (e_acks e) = None /\
  exists p, aget s (e_probes (fst (ep_step C e (EPing nd now)))) = Some p /\ p_kind p = PKPing.
Proof.
  intros C e nd now s R. cbn [ep_step]. unfold ping. destruct (negb (runs e)); [intros [|[]]; discriminate|]. cbv zeta.
  destruct (alloc_seq e) as [[q e1]|] eqn:A; [|intros [|[]]; discriminate]. pose proof (C38_fresh_number C e q e1 R A) as (Z & L & P & F & K).
  apply alloc_seq_spec in A as (-> & _). destruct (_ <? _); [intros [|[]]; discriminate|]. cbn [fst snd]. intros [[= <-]|[]].
  repeat split; auto. eexists. split; [apply aget_aset_eq|reflexivity].
Qed.
Print Assumptions C38_ping_number_is_new.
(** the counter wraps past 0 and past a number still in use *)
Example C38_ex :
  let wrapped := ex [EPing (mkNode 2 102) 5] (fun e => e_set_seq u32_max e) in
  option_map (fun e => option_map fst (alloc_seq e)) wrapped = Some (Some 2) /\
  option_map (fun e => map fst (e_acks e)) wrapped = Some [1] /\
  option_map (fun e0 => snd (ep_run ee_cfg e0 [EPing (mkNode 2 102) 5; EStartProbe 6; EPing (mkNode 3 103) 7])) (ep_new ee_cfg 0) = Some [OId 1; OId 2].
Proof. vm_compute. repeat split. Qed.

(** * C39 *)
(** Whatever the operation, a member newly Suspect was accused in it (by a
    suspect message, or by a suspect or dead entry of a merged table), or a
    failed probe raised the suspicion: [p], live, sent, past a deadline, aimed
    at this very instance of the member, at most at the incarnation recorded
    by the probe, which is the one suspected. *)
Theorem C39_newly_suspect : forall C e o id, reach C e ->
  let before := aget id (k_mem (e_core e)) in let after := aget id (k_mem (e_core (fst (ep_step C e o)))) in
  ~ (exists m, before = Some m /\ m_state m = PSuspect) -> (exists m, after = Some m /\ m_state m = PSuspect) ->
  accused o id \/
  exists now s p m m',
    (o = ETimeout now \/ (exists from q pl, o = EPacket from (MAck q pl) now) \/ exists q t, o = EStreamEv (SEAcked q now) t) /\
    aget s (e_probes e) = Some p /\ p_kind p = PKDetection /\ p_disp p = true /\
    (p_fail p <= now \/ exists d, p_phase p = PhDirect d /\ d <= now) /\
    ns_id (p_target p) = id /\ before = Some m /\ m_gen m = p_gen p /\ m_state m = PAlive /\ m_inc m <= p_inc p /\
    after = Some m' /\ m_inc m' = p_inc p /\ m_gen m' = m_gen m /\ m_server m' = m_server m.
Proof.
  intros C e o id R before after NS (ms & A & S).
  destruct (became_suspect C e o id (reach_inv C e R)) as [X|(now & (s & p & m & m' & X1 & X2 & X3 & X4 & X5 & X6 & X7 & X8 & X9 & X10 & X11 & X12 & X13 & X14 & X15) & O)].
  - unfold is_susp. destruct (aget id (k_mem (e_core e))) as [m|] eqn:G; [|auto]. intros E. apply NS. exists m. auto.
  - unfold is_susp. fold after. rewrite A. exact S.
  - left. exact X.
  - right. exists now, s, p, m, m'. fold before in X7. fold after in X11. repeat split; auto.
Qed.
Print Assumptions C39_newly_suspect.
(** The history of that probe: it began with an operation at [p_sent p], after
    which the table held the probed member, alive or suspect, at the address,
    incarnation and generation the probe recorded; and if it counts as sent, a
    ping to the target, an indirect ping about it, or a dial of it was waiting
    for the driver since. *)
Theorem C39_probe_history : forall C t0 e0 os s p, ep_new C t0 = Some e0 ->
  aget s (e_probes (fst (ep_run C e0 os))) = Some p -> p_kind p = PKDetection ->
  exists os1 o os2 m, os = os1 ++ [o] ++ os2 /\ when o = Some (p_sent p) /\
    (let t := k_mem (e_core (fst (ep_run C e0 (os1 ++ [o])))) in aget (ns_id (p_target p)) t = Some m) /\
    ns_id (p_target p) <> c_id C /\ (m_state m = PAlive \/ m_state m = PSuspect) /\
    p_target p = m_server m /\ p_inc p = m_inc m /\ p_gen p = m_gen m /\
    (p_disp p = true -> exists os3 os4, os2 = os3 ++ os4 /\
       let e1 := fst (ep_run C e0 (os1 ++ [o] ++ os3)) in let t := mkNode (ns_id (p_target p)) (ns_addr (p_target p)) in
       (exists x, In x (e_tx e1) /\ (In (nd_addr t, MPing s (lnode C) t) (carried x) \/ exists to, In (to, MIndirectPing s (lnode C) t) (carried x))) \/
       exists id d, In (EvDial id (nd_addr t) d) (k_ev (e_core e1))).
Proof.
  intros C t0 e0 os s p N G K. assert (e_probes e0 = []) as P0.
  { unfold ep_new in N. destruct (cfg_ok C); [|discriminate]. apply Some_inj in N. rewrite <- N. unfold refresh_cache. match goal with |- context [if ?b then _ else _] => destruct b end; reflexivity. }
  destruct (probe_history C e0 os s p (einv_new C t0 e0 N) P0 G K) as (os1 & o & os2 & E & W & (m & M & PB & T) & D).
  exists os1, o, os2, m. split; [exact E|]. split; [exact W|]. split; [exact M|].
  unfold probeable in PB. cbn [fst snd] in PB. apply Bool.andb_true_iff in PB as [PB1 PB2].
  split; [intros X; rewrite X, N.eqb_refl in PB1; discriminate|]. split.
  - destruct (ki_rec _ _ (ei_core _ _ (einv_run C (os1 ++ [o]) e0 (einv_new C t0 e0 N))) _ m M) as [_ X]. destruct (m_state m); auto; try discriminate. contradiction.
  - destruct T as (T1 & T2 & T3). repeat split; auto.
Qed.
Print Assumptions C39_probe_history.
(** the probe of node 4, helpers silent: suspected at the incarnation recorded
    at the start; a refutation in between or a takeover of the name (after node
    4 has left) prevents it; a probe that could not be sent accuses nobody *)
Example C39_ex :
  let v os := ex os (fun e => view (aget 4 (k_mem (e_core e)))) in
  v ee_indirect = Some (Some (PAlive, 3, 104)) /\
  v (ee_indirect ++ [ETimeout 1020]) = Some (Some (PSuspect, 3, 104)) /\
  v (ee_indirect ++ [EPacket 104 (MAlive (ex_al 4 4 104)) 800; ETimeout 1020]) = Some (Some (PAlive, 4, 104)) /\
  v (ee_indirect ++ [EPacket 104 (MDead 3 4 4) 800; EPacket 105 (MAlive (ex_al 1 4 105)) 900; ETimeout 1020]) = Some (Some (PAlive, 1, 105)) /\
  accused (EPacket 103 (MSuspect 3 4 3) 30) 4.
Proof. split; [vm_compute; reflexivity|]. split; [vm_compute; reflexivity|]. split; [vm_compute; reflexivity|]. split; [vm_compute; reflexivity|]. left. eauto 6. Qed.

(** * C40 *)
(** In every reachable state the nacks credited to a probe come from distinct
    helpers that were asked, and the penalty its failure will charge is the
    number of helpers still silent (1 without helpers). *)
Theorem C40_nacks_bounded : forall C e s p, reach C e -> aget s (e_probes e) = Some p ->
  match p_phase p with
  | PhDirect _ => severity p = 1
  | PhIndirect expected asked nacked _ _ =>
    expected = blen asked /\ NoDup asked /\ NoDup nacked /\ incl nacked asked /\ blen nacked <= blen asked /\ p_kind p = PKDetection /\
    (blen asked < two32 -> severity p = if blen asked =? 0 then 1 else blen asked - blen nacked) /\ severity p <= N.max 1 (blen asked)
  end.
Proof. intros C e s p R. apply (probe_counts C e s p (reach_inv C e R)). Qed.
Print Assumptions C40_nacks_bounded.
(** A nack does exactly this: it is credited when it is in time, from a helper
    that was asked and has not been counted yet; otherwise nothing happens. *)
Theorem C40_nack_effect : forall C e from q now, runs e = true ->
  fst (ep_step C e (EPacket from (MNack q) now)) =
  match aget q (e_probes e) with
  | Some p => match p_phase p with
              | PhIndirect x asked nacked r d =>
                if (now <? p_fail p) && existsb (N.eqb from) asked && negb (existsb (N.eqb from) nacked)
                then e_set_probes (aset q (p_set_phase (PhIndirect x asked (nacked ++ [from]) r d) p) (e_probes e)) e else e
              | PhDirect _ => e
              end
  | None => e
  end.
Proof. intros C e from q now RU. cbn [ep_step fst]. unfold handle_packet. rewrite RU. cbn [negb]. apply nack_exact. Qed.
Print Assumptions C40_nack_effect.
Example C40_ex :
  let nacks := [EPacket 104 (MNack 1) 700; EPacket 102 (MNack 1) 701; EPacket 102 (MNack 1) 702] in
  pviews (ee_indirect ++ nacks) = Some [(1, (4, 3, 1020, true, Some (2, [102; 103], [102])))] /\
  ex (ee_indirect ++ nacks) (fun e => map (fun x => severity (snd x)) (e_probes e)) = Some [1] /\
  ex (ee_indirect ++ nacks ++ [ETimeout 1020]) (fun e => aw_score (k_aw (e_core e))) = Some 1 /\
  ex (ee_indirect ++ [ETimeout 1020]) (fun e => aw_score (k_aw (e_core e))) = Some 2.
Proof. vm_compute. repeat split. Qed.

(** * C41 *)
(** Over a whole history, to each address and under each sequence number no
    more acks and nacks are handed to the driver than pings and indirect pings
    came from that address under that number; what is still queued or owed by a
    relay is on top of what was handed over, within the same bound. *)
Theorem C41_answers_bounded : forall C t0 e0 os to q, enc_ok C -> ep_new C t0 = Some e0 ->
  let e := fst (ep_run C e0 os) in
  cnt (to, q) (flat_map answers (handed (snd (ep_run C e0 os)))) +
  cnt (to, q) (flat_map answers (e_tx e)) + cnt (to, q) (map (fun x => (f_reply (snd x), f_rseq (snd x))) (e_fwds e))
  <= cnt (to, q) (flat_map credit os).
Proof.
  intros C t0 e0 os to q EO N. cbv zeta.
  assert (e_tx e0 = [] /\ e_fwds e0 = [] /\ e_core e0 = core_new C t0) as (T0 & F0 & K0).
  { unfold ep_new in N. destruct (cfg_ok C); [|discriminate]. apply Some_inj in N. rewrite <- N. unfold refresh_cache. match goal with |- context [if ?b then _ else _] => destruct b end; repeat split. }
  pose proof (answered_le C e0 os (to, q) EO (einv_new C t0 e0 N)) as H. rewrite K0 in H. specialize (H (gq_new C t0 EO)).
  unfold load at 2 in H. rewrite T0, F0 in H. unfold load in H. change (cnt (to, q) (flat_map answers []) + cnt (to, q) (map due_to [])) with 0 in H.
  change (map (fun x => (f_reply (snd x), f_rseq (snd x)))) with (map due_to). lia.
Qed.
Print Assumptions C41_answers_bounded.
(** An ack for a waiting relay: from the relay's target and in time it is passed
    on under the requester's number and the relay is gone; otherwise nothing. *)
Theorem C41_relay_ack : forall C e from q payload now f, reach C e -> runs e = true -> aget q (e_fwds e) = Some f ->
  let e' := fst (ep_step C e (EPacket from (MAck q payload) now)) in
  if (from =? f_target f) && (now <? f_deadline f)
  then e_tx e' = e_tx e ++ [TPacket (f_reply f) (MAck (f_rseq f) payload)] /\ e_fwds e' = adel q (e_fwds e)
  else e' = e.
Proof.
  intros C e from q payload now f R RU G. cbv zeta. cbn [ep_step fst]. unfold handle_packet. rewrite RU. cbn [negb].
  rewrite (relay_ack C e from q payload now f (reach_inv C e R) G RU). destruct (_ && _); [split; reflexivity|reflexivity].
Qed.
Print Assumptions C41_relay_ack.
(** When the deadline has passed, the next timer tick queues the nack and
    removes the relay; before that the relay stays. *)
Theorem C41_relay_timeout : forall C e q now f, reach C e -> runs e = true -> aget q (e_fwds e) = Some f ->
  let e' := fst (ep_step C e (ETimeout now)) in
  if f_deadline f <=? now
  then aget q (e_fwds e') = None /\ In (TPacket (f_reply f) (MNack (f_rseq f))) (e_tx e')
  else aget q (e_fwds e') = Some f.
Proof.
  intros C e q now f R RU G. cbv zeta. cbn [ep_step fst]. destruct (N.leb_spec (f_deadline f) now) as [L|L].
  - apply (timeout_fwds C now e q f (reach_inv C e R) RU G L).
  - apply (timeout_fwds_wait C now e q f (reach_inv C e R) RU G L).
Qed.
Print Assumptions C41_relay_timeout.
Theorem C41_relays_capped : forall C e, reach C e -> blen (e_fwds e) <= c_max_forwards C.
Proof. intros C e R. apply (ei_cap _ _ (reach_inv C e R)). Qed.
Print Assumptions C41_relays_capped.
(** three indirect pings, of which the cap of two lets two through; one target
    answers in time (twice, but only the first counts), the other does not *)
Definition ee_relays := ee_joined ++ [EPacket 104 (MIndirectPing 9 (mkNode 4 104) (mkNode 3 103)) 40;
  EPacket 104 (MIndirectPing 10 (mkNode 4 104) (mkNode 2 102)) 40; EPacket 104 (MIndirectPing 11 (mkNode 4 104) (mkNode 2 102)) 40].
Example C41_ex :
  let fw os := ex os (fun e => (map due_to (e_fwds e), flat_map answers (e_tx e))) in
  enc_ok ee_cfg /\
  fw ee_relays = Some ([(104, 10); (104, 9)], []) /\
  fw (ee_relays ++ [EPacket 103 (MAck 1 []) 100; EPacket 103 (MAck 1 []) 100]) = Some ([(104, 10)], [(104, 9)]) /\
  fw (ee_relays ++ [EPacket 103 (MAck 1 []) 100; EPacket 102 (MAck 2 []) 541; ETimeout 600; ETimeout 700]) = Some ([], [(104, 9); (104, 10)]) /\
  cnt (104, 9) (flat_map credit ee_relays) = 1.
Proof. split; [apply ee_sizes|]. vm_compute. repeat split. Qed.

(** * C42 *)
(** Once the node does not run any more, whatever the driver calls (except the
    explicit pruning and the test-only ageing of records), the membership table
    stays as it is, no probe, relay or dial is started, nothing is added to the
    outgoing queue, no stream or dial is handed out, no wake-up is requested,
    and the node does not run again. *)
Theorem C42_left_is_inert : forall C e os, reach C e -> runs e = false -> Forall (fun o => ~ upkeep o) os ->
  let e' := fst (ep_run C e os) in let x := snd (ep_run C e os) in
  runs e' = false /\ k_mem (e_core e') = k_mem (e_core e) /\
  (forall s p, aget s (e_probes e') = Some p -> exists p0, aget s (e_probes e) = Some p0) /\
  (forall s f, aget s (e_fwds e') = Some f -> aget s (e_fwds e) = Some f) /\
  e_int e' = [] /\ (exists l, e_tx e = l ++ e_tx e') /\
  (forall id peer r d, ~ In (OStream id peer r d) x) /\ (forall id peer d k, ~ In (ODial id peer d k) x) /\
  poll_timeout e' = None.
Proof.
  intros C e os R RU. pose proof (reach_inv C e R) as I0. clear R. cbv zeta. revert e RU I0. induction os as [|o os IH]; intros e RU I0 F.
  - cbn [ep_run fst snd]. repeat split; auto; eauto; [apply (ei_rest _ _ I0 RU)|exists []; reflexivity|].
    pose proof (timeout_spec C e I0) as H. rewrite RU in H. exact H.
  - inversion F as [|? ? U F']; subst. destruct (stopped_step C e o I0 RU U) as [A1 A2 A3 A4 A5 A6 A7].
    pose proof (einv_op C e o I0) as I1. cbn [ep_run]. destruct (ep_step C e o) as [e1 x1]. cbn [fst snd] in *.
    specialize (IH e1 A1 I1 F'). destruct (ep_run C e1 os) as [e2 x2]. cbn [fst snd] in *.
    destruct IH as (B1 & B2 & B3 & B4 & B5 & (l & B6) & B7 & B8 & B9). repeat split; auto.
    + congruence.
    + intros s p G. destruct (B3 s p G) as (p1 & G1). apply (A3 s p1 G1).
    + destruct A6 as [A6|A6]; rewrite A6 in B6; [exists l; exact B6|]. destruct (e_tx e) as [|t r]; [exists []; cbn in B6; destruct l; [exact B6|discriminate]|]. exists (t :: l). cbn in B6 |- *. rewrite B6. reflexivity.
    + intros id peer r d X. apply in_app_or in X as [X|X]; [|exact (B7 _ _ _ _ X)]. rewrite Forall_forall in A7. apply (A7 _ X). exact Logic.I.
    + intros id peer d k X. apply in_app_or in X as [X|X]; [|exact (B8 _ _ _ _ X)]. rewrite Forall_forall in A7. apply (A7 _ X). exact Logic.I.
Qed.
Print Assumptions C42_left_is_inert.
(** and leaving stops it *)
Theorem C42_leave_stops : forall C e now fw, reach C e -> runs (fst (ep_step C e (ELeave now fw))) = false.
Proof.
  intros C e now fw R. cbn [ep_step fst]. destruct (runs e) eqn:RU; [apply (leave_runs C now fw e (reach_inv C e R) RU)|].
  unfold leave_with. rewrite RU. exact RU.
Qed.
Print Assumptions C42_leave_stops.
Definition ee_left := ee_joined ++ [EPushPull 103 true 50; ELeave 60 None].
Example C42_ex :
  let after := [EPacket 102 (MAlive (ex_al 9 2 102)) 70; EPacket 102 (MAlive (ex_al 9 7 107)) 70; EPacket 103 (MSuspect 9 4 3) 71;
    EStartProbe 80; EPushPullDirect 102 true 90; EAccept 102 90; EDialOk 1 91; ETimeout 100000; ELeave 100001 None] in
  let v e := (runs e, map (fun x => (fst x, m_state (snd x))) (k_mem (e_core e)), blen (e_tx e), poll_timeout e) in
  ex ee_left v = Some (false, [(1, PLeft); (4, PAlive); (2, PAlive); (3, PAlive)], 3, None) /\
  ex (ee_left ++ after) v = ex ee_left v /\ Forall (fun o => ~ upkeep o) after /\
  option_map (fun e => snd (ep_run ee_cfg e after)) (ee ee_left) = Some [].
Proof. split; [vm_compute; reflexivity|]. split; [vm_compute; reflexivity|]. split; [repeat constructor; auto|]. vm_compute. reflexivity. Qed.

(** * C43 *)
(** number of left-cluster notices in a list of events, handed to the driver,
    and put back by it *)
Definition notices (l : list event) : N := blen (filter (fun ev => match ev with EvLeftCluster => true | _ => false end) l).
Definition notices_out (x : list out) : N := notices (flat_map (fun o => match o with OEvent ev => [ev] | _ => [] end) x).
Definition put_back (os : list eop) : N := notices (flat_map (fun o => match o with ERequeue ev => [ev] | _ => [] end) os).
Lemma notices_lc l : notices l = lc l.
Proof. reflexivity. Qed.
Lemma notices_out_eq x : notices_out x = left_out x.
Proof. reflexivity. Qed.
Lemma put_back_eq os : put_back os = left_back os.
Proof. reflexivity. Qed.
Lemma new_runs C t0 e0 : ep_new C t0 = Some e0 -> runs e0 = true /\ lc (k_ev (e_core e0)) = 0.
Proof.
  unfold ep_new. destruct (cfg_ok C); [|discriminate]. intros N. apply Some_inj in N. rewrite <- N. unfold refresh_cache.
  match goal with |- context [if ?b then _ else _] => destruct b end; split; reflexivity.
Qed.
(** Over a whole history, not counting those the driver put back, at most one
    notice is produced. *)
Theorem C43_at_most_once : forall C t0 e0 os, ep_new C t0 = Some e0 ->
  notices_out (snd (ep_run C e0 os)) + notices (k_ev (e_core (fst (ep_run C e0 os)))) <= 1 + put_back os.
Proof.
  intros C t0 e0 os N. destruct (new_runs C t0 e0 N) as [R Z]. pose proof (left_once C e0 os (einv_new C t0 e0 N) R Z) as H. cbv zeta in H.
  rewrite notices_out_eq, put_back_eq, notices_lc. lia.
Qed.
Print Assumptions C43_at_most_once.
(** None before leave is called. *)
Theorem C43_not_before_leave : forall C t0 e0 os, ep_new C t0 = Some e0 -> (forall now fw, ~ In (ELeave now fw) os) ->
  notices_out (snd (ep_run C e0 os)) + notices (k_ev (e_core (fst (ep_run C e0 os)))) <= put_back os.
Proof.
  intros C t0 e0 os N NL. destruct (new_runs C t0 e0 N) as [R Z]. pose proof (left_once C e0 os (einv_new C t0 e0 N) R Z) as H. cbv zeta in H.
  unfold remaining in H. rewrite (runs_until C os e0 (einv_new C t0 e0 N) R NL) in H.
  rewrite notices_out_eq, put_back_eq, notices_lc. lia.
Qed.
Print Assumptions C43_not_before_leave.
(** None while a farewell datagram waits for the driver: in a node that has
    left, everything in the outgoing queue is one of them (second theorem). *)
Theorem C43_not_before_farewells : forall C t0 e0 os, ep_new C t0 = Some e0 ->
  let e := fst (ep_run C e0 os) in runs e = false -> e_tx e <> [] ->
  notices_out (snd (ep_run C e0 os)) + notices (k_ev (e_core e)) <= put_back os.
Proof.
  intros C t0 e0 os N e RU TX. destruct (new_runs C t0 e0 N) as [R Z]. pose proof (left_once C e0 os (einv_new C t0 e0 N) R Z) as H. cbv zeta in H. fold e in H.
  pose proof (ei_flush _ _ (einv_run C os e0 (einv_new C t0 e0 N))) as F. fold e in F.
  unfold remaining in H. rewrite RU in H. destruct (e_flush e); [|destruct (TX (F RU))].
  rewrite notices_out_eq, put_back_eq, notices_lc. lia.
Qed.
Print Assumptions C43_not_before_farewells.
(** Leaving replaces the outgoing queue by one datagram per address of a live
    other member, each carrying the node's own dead message at the node's
    current incarnation. *)
Theorem C43_farewells : forall C e now fw, reach C e -> runs e = true ->
  let e' := fst (ep_step C e (ELeave now fw)) in
  map (fun t => match t with TPacket to _ | TCompound to _ => to end) (e_tx e') = live_addrs C (act C (KLeave now) e) /\
  Forall (fun t => In (MDead (k_inc (e_core e)) (c_id C) (c_id C)) (map snd (carried t))) (e_tx e').
Proof.
  intros C e now fw R RU. cbv zeta. assert (leave_inc C e = k_inc (e_core e)) as LI.
  { unfold leave_inc. destruct (ki_local _ _ (ei_core _ _ (reach_inv C e R))) as (m & G & (E & _)). unfold rec_at in G. rewrite G, E. apply N.max_id. }
  cbn [ep_step fst]. rewrite (leave_eq C now fw e RU). cbv zeta.
  set (live := live_addrs C (act C (KLeave now) e)). rewrite LI. set (dead := MDead (k_inc (e_core e)) (c_id C) (c_id C)).
  set (P := match live with [] => (_, _) | _ => _ end). set (tx := map _ live).
  match goal with |- context [e_tx ?x] => assert (e_tx x = tx) as -> by (destruct live; reflexivity) end.
  unfold tx. split.
  - rewrite map_map. rewrite <- (map_id live) at 2. apply map_ext. intros a. destruct (snd P); reflexivity.
  - apply Forall_forall. intros t T. apply in_map_iff in T as (a & <- & _). destruct (snd P); cbn [carried map snd]; [left; reflexivity|].
    rewrite map_map. cbn [snd]. rewrite map_id. apply in_or_app. right. left. reflexivity.
Qed.
Print Assumptions C43_farewells.
(** And the notice does come: when the driver has taken all of them. *)
Theorem C43_completes : forall C e now fw, reach C e -> runs e = true ->
  let e1 := fst (ep_step C e (ELeave now fw)) in
  let e2 := fst (ep_run C e1 (repeat EPollTx (length (e_tx e1)))) in
  e_tx e2 = [] /\ In EvLeftCluster (k_ev (e_core e2)).
Proof.
  intros C e now fw R RU. cbv zeta. pose proof (reach_inv C e R) as I.
  assert (forall n e1, einv C e1 -> runs e1 = false -> length (e_tx e1) = n -> (In EvLeftCluster (k_ev (e_core e1)) \/ exists r, e_flush e1 = Some r) ->
    let e2 := fst (ep_run C e1 (repeat EPollTx n)) in e_tx e2 = [] /\ In EvLeftCluster (k_ev (e_core e2))) as D.
  { induction n as [|n IH]; intros e1 I1 R1 L H; cbv zeta.
    - cbn. assert (e_tx e1 = []) as T by (destruct (e_tx e1); [reflexivity|discriminate]). split; [exact T|]. destruct H as [H|(r & F)]; [exact H|].
      pose proof (ei_flush _ _ I1) as X. rewrite F, T in X. destruct X as (_ & -> & X). cbv in X. discriminate.
    - cbn [repeat]. rewrite ep_run_fst. cbn [fold_left]. rewrite <- ep_run_fst. pose proof (poll_rest C e1) as X. cbv zeta in X.
      destruct X as (_ & _ & _ & _ & _ & _ & _ & _ & _ & _ & _ & TX & F & RU1).
      assert (fst (ep_step C e1 EPollTx) = fst (poll_transmit C e1)) as E by (cbn [ep_step]; destruct (poll_transmit C e1) as [? [?|]]; reflexivity).
      apply IH.
      + apply einv_op, I1.
      + rewrite E, RU1. exact R1.
      + rewrite E, TX. destruct (e_tx e1); [discriminate|]. cbn in L |- *. congruence.
      + rewrite E, F. destruct (e_tx e1) as [|t l] eqn:T; [discriminate|]. destruct H as [H|(r & FR)].
        * left. unfold poll_transmit. rewrite T. cbv zeta. cbn [e_flush e_set_tx fst]. destruct (e_flush e1) as [r|]; [|exact H]. destruct (r <=? 1); [|exact H].
          unfold act. cbn [e_core e_set_core e_set_tx e_set_flush fst core_step quiet]. apply in_or_app. left. exact H.
        * rewrite FR. destruct (N.leb_spec r 1) as [L1|L1]; [left|right; eauto]. unfold poll_transmit. rewrite T. cbv zeta. cbn [e_flush e_set_tx fst]. rewrite FR.
          destruct (N.leb_spec r 1); [|lia]. cbn. apply in_or_app. right. left. reflexivity. }
  apply D; [apply einv_op, I|apply C42_leave_stops, R|reflexivity|]. cbn [ep_step fst].
  pose proof (leave_rest C now fw e RU) as X. cbv zeta in X. destruct X as (_ & _ & _ & _ & _ & _ & _ & _ & _ & _ & _ & _ & FL).
  destruct (live_addrs C (act C (KLeave now) e)) eqn:LV; [left|right; eauto].
  rewrite (leave_with_core C now fw e RU). unfold leave_ops. rewrite LV. cbn [core_run]. destruct (core_step C (e_core e) (KLeave now)) as [k1 x1]. cbn. apply in_or_app. right. left. reflexivity.
Qed.
Print Assumptions C43_completes.
Example C43_ex :
  let v os := ex os (fun e => (blen (e_tx e), notices (k_ev (e_core e)))) in
  v ee_left = Some (3, 0) /\ v (ee_left ++ [EPollTx; EPollTx]) = Some (1, 0) /\ v (ee_left ++ [EPollTx; EPollTx; EPollTx]) = Some (0, 1) /\
  v [ELeave 5 None] = Some (0, 1) /\ v (ee_left ++ [EPollTx; EPollTx; EPollTx; ELeave 70 None]) = Some (0, 1).
Proof. vm_compute. repeat split. Qed.

(** * C44 *)
(** [sizes] is what the encoder must satisfy: encodings of at most 2^64 bytes,
    at most 8 bytes around user data, and a farewell no longer than the largest
    ping (which the configuration check compares with the MTU).  Every datagram
    handed to the driver or waiting for it is a lone ack or nack, or fits the
    gossip MTU once encoded. *)
Theorem C44_datagrams_fit : forall C t0 e0 os t, sizes C -> c_inc0 C <= u32_max -> ep_new C t0 = Some e0 ->
  (In t (handed (snd (ep_run C e0 os))) \/ In t (e_tx (fst (ep_run C e0 os)))) ->
  (exists to m, t = TPacket to m /\ ((exists s p, m = MAck s p) \/ exists s, m = MNack s)) \/
  exists b, datagram C t = Ok b /\ blen b <= c_mtu C.
Proof.
  intros C t0 e0 os t SZ IN N H.
  assert (cfg_ok C = true) as CO by (unfold ep_new in N; destruct (cfg_ok C); [reflexivity|discriminate]).
  assert (forall t, sent_ok C t -> (exists to m, t = TPacket to m /\ ((exists s p, m = MAck s p) \/ exists s, m = MNack s)) \/ exists b, datagram C t = Ok b /\ blen b <= c_mtu C) as W.
  { clear. intros [to m|to ms] S; cbn in S.
    - destruct S as [S|S]; [left; exists to, m; split; [reflexivity|]; destruct m; try discriminate; eauto|right]. eexists. split; [reflexivity|exact S].
    - right. destruct S as (_ & _ & b & D & L). exists b. auto. }
  apply W. pose proof (einv_new C t0 e0 N) as I0. pose proof (sinv_new C CO SZ t0 e0 IN N) as S0. clear N. revert t H.
  induction os as [|o os IH] using rev_ind; intros t H.
  - destruct H as [[]|H]. pose proof (si_tx _ _ S0) as F. rewrite Forall_forall in F. apply F, H.
  - rewrite ep_run_snoc in H. cbn [fst snd] in H. set (e := fst (ep_run C e0 os)) in *.
    assert (einv C e) as I by (apply einv_run, I0). assert (sinv C e) as S by (apply sinv_run; assumption).
    assert (Forall (sent_ok C) (e_tx e)) as F by apply S. rewrite Forall_forall in F.
    destruct H as [H|H].
    + rewrite handed_app in H. apply in_app_or in H as [H|H]; [apply IH; left; exact H|].
      assert (o = EPollTx \/ o <> EPollTx) as [->|NE] by (destruct o; first [left; reflexivity|right; discriminate]); [|rewrite (step_handed C e o NE) in H; destruct H].
      cbn [ep_step] in H. unfold poll_transmit in H. destruct (e_tx e) as [|t1 l] eqn:T; [destruct H|]. cbv zeta in H. cbn [e_flush e_set_tx] in H.
      destruct (e_flush e) as [r|]; [destruct (r <=? 1)|]; cbn in H; destruct H as [<-|[]]; apply F; left; reflexivity.
    + assert (sinv C (fst (ep_step C e o))) as S' by (apply sinv_op; assumption). pose proof (si_tx _ _ S') as F'. rewrite Forall_forall in F'. apply F', H.
Qed.
Print Assumptions C44_datagrams_fit.
(** gossip after the joins: three alive messages in one compound to each of
    three members; user data rides along; a farewell *)
Example C44_ex :
  sizes ee_cfg /\ c_inc0 ee_cfg <= u32_max /\
  let v os := ex os (fun e => map (fun t => match datagram ee_cfg t with Ok b => blen b | Err _ => 0 end) (e_tx e)) in
  v (ee_joined ++ [EQueueUser 0 (repeat 7 1000); ESchedule 100; ETimeout 400]) = Some [3; 1022; 1022; 1022] /\
  v (ee_joined ++ [EQueueUser 0 (repeat 7 1382); ELeave 60 (Some (repeat 8 100))]) = Some [109; 109; 109].
Proof. split; [apply ee_sizes|]. split; [vm_compute; discriminate|]. vm_compute. repeat split. Qed.

(** * C45 *)
(** For any encoder that adds at most 6 bytes to the farewell; PropsWire.v says
    which payloads those are for the real one, and refutes the claim for others. *)
Theorem C45_farewell_carried_if_small_overhead : forall C e now fw cap, reach C e -> runs e = true ->
  farewell_capacity C e = Some cap -> blen fw <= cap -> blen (c_enc C (MUserData fw)) <= blen fw + 6 ->
  Forall (fun t => exists to rest, t = TCompound to (MUserData fw :: rest)) (e_tx (fst (ep_step C e (ELeave now (Some fw))))).
Proof. intros C e now fw cap R RU CP L EN. cbn [ep_step fst]. apply (farewell_carried C now e fw cap (reach_inv C e R) RU CP). unfold elen. lia. Qed.
Print Assumptions C45_farewell_carried_if_small_overhead.
Example C45_ex :
  let fw := repeat 8 1375 in
  ex ee_joined (fun e => (runs e, farewell_capacity ee_cfg e)) = Some (true, Some 1375) /\
  blen (ee_enc (MUserData fw)) = blen fw + 2 /\
  ex (ee_joined ++ [ELeave 60 (Some fw)]) e_tx = Some (map (fun a => TCompound a [MUserData fw; MDead 5 1 1]) [104; 102; 103]).
Proof. vm_compute. repeat split. Qed.

(** * C48 *)
(** [probe_round times e]: the targets of successive probe starts at [times].
    From the start of a round (cursor 0, as after every reshuffle) with an
    unchanged table, the first targets are exactly the live remote members,
    each once, in table order; after the last one they repeat in the same
    order.  Neither the local node nor a departed member is ever chosen. *)
Theorem C48_round_robin : forall C e times, reach C e -> runs e = true -> blen (e_acks e) + blen times + 1 < two32 -> e_pidx e = 0 ->
  let live := map fst (filter (fun x => negb (fst x =? c_id C) && negb (dead_or_left (m_state (snd x)))) (k_mem (e_core e))) in
  live <> [] ->
  probe_round C times e = map Some (firstn (length times) (concat (repeat live (S (length times))))) /\
  NoDup live /\ (length times = length live -> probe_round C times e = map Some live).
Proof.
  intros C e times R RU B Z live NE. pose proof (reach_inv C e R) as I.
  assert (probe_round C times e = map Some (firstn (length times) (live ++ concat (repeat live (length times))))) as H.
  { apply (probe_round_spec C times e 0%nat I RU B NE); [exact Z|]. destruct (k_mem (e_core e)); [destruct (NE eq_refl)|cbn; lia]. }
  split; [exact H|]. split.
  - unfold live. apply (nodup_filter _ _ (ki_nodup _ _ (ei_core _ _ I))).
  - intros E. rewrite H, E, firstn_app, Nat.sub_diag, firstn_all, firstn_O, app_nil_r. reflexivity.
Qed.
Print Assumptions C48_round_robin.
Example C48_ex :
  ex (ee_joined ++ [EPacket 103 (MDead 3 2 2) 20]) (fun e => (runs e, e_pidx e, map fst (k_mem (e_core e)), probe_round ee_cfg [30; 40; 50; 60] e))
  = Some (true, 0, [1; 4; 2; 3], [Some 4; Some 3; Some 4; Some 3]).
Proof. vm_compute. reflexivity. Qed.
(** "Exactly once between two reshuffles" is false: a round lasts as many probes
    as there are members, the local one included, so from the second round on
    the first target is probed again before the reshuffle.  Here every tick of
    the scheduler starts a probe; between the reshuffles at ticks 4 and 8 member
    2 is chosen twice. *)
Definition ee_ticks (n : nat) := ee_joined ++ ESchedule 100 :: map (fun i => ETimeout (1100 + 1000 * N.of_nat i)) (seq 0 n).
Theorem C48_exactly_once_refuted : exists C t0 e0 ticks,
  ep_new C t0 = Some e0 /\
  let e n := fst (ep_run C e0 (ticks n)) in
  let target n := probed (e n) in
  let order n := map fst (k_mem (e_core (e n))) in
  order 3%nat <> order 4%nat /\ order 4%nat = order 5%nat /\ order 5%nat = order 6%nat /\ order 6%nat = order 7%nat /\ order 7%nat <> order 8%nat /\
  (e_psr (e 4%nat), e_psr (e 8%nat)) = (0, 0) /\
  map target [4; 5; 6; 7]%nat = [Some 2; Some 3; Some 4; Some 2].
Proof.
  destruct (ep_new ee_cfg 0) as [e0|] eqn:N; [|vm_compute in N; discriminate]. exists ee_cfg, 0, e0, ee_ticks. split; [exact N|].
  vm_compute in N. apply Some_inj in N. rewrite <- N. vm_compute. repeat split; discriminate.
Qed.
Print Assumptions C48_exactly_once_refuted.

(** * C55 *)
Theorem C55_scaling : forall interval n,
  (n <= 32 -> push_pull_scale interval n = interval) /\ (interval <= push_pull_scale interval n).
Proof.
  intros i n. unfold push_pull_scale. destruct (N.leb_spec n 32) as [L|L]; [split; [reflexivity|lia]|]. split; [lia|].
  unfold dmul. destruct (_ <? _); [lia|]. nia.
Qed.
Print Assumptions C55_scaling.
(** As long as the largest of the products is a duration, it grows with the
    cluster: by one interval per doubling. *)
Theorem C55_monotone : forall interval n m, n <= m -> interval * (N.log2_up m - 4) <= DUR_MAX ->
  push_pull_scale interval n <= push_pull_scale interval m /\
  (32 < n -> push_pull_scale interval (2 * n) = push_pull_scale interval n + interval \/ DUR_MAX < interval * (N.log2_up (2 * n) - 4)).
Proof.
  intros i n m L B. assert (forall x, 32 < x -> 6 <= N.log2_up x) as G6.
  { intros x X. change 6 with (N.log2_up 33). apply N.log2_up_le_mono. lia. }
  split.
  - unfold push_pull_scale. destruct (N.leb_spec n 32) as [L1|L1].
    + apply C55_scaling.
    + destruct (N.leb_spec m 32) as [|L2]; [lia|]. pose proof (G6 n L1). pose proof (G6 m L2). pose proof (N.log2_up_le_mono n m L).
      unfold dmul. replace (N.log2_up n - 5 + 1) with (N.log2_up n - 4) by lia. replace (N.log2_up m - 5 + 1) with (N.log2_up m - 4) by lia.
      destruct (N.ltb_spec DUR_MAX (i * (N.log2_up m - 4))); [lia|]. destruct (_ <? _); nia.
  - intros L1. unfold push_pull_scale. destruct (N.leb_spec n 32); [lia|]. destruct (N.leb_spec (2 * n) 32); [lia|].
    pose proof (G6 n L1). rewrite N.log2_up_double by lia. unfold dmul.
    replace (N.succ (N.log2_up n) - 5 + 1) with (N.log2_up n - 4 + 1) by lia. replace (N.succ (N.log2_up n) - 4) with (N.log2_up n - 4 + 1) by lia.
    replace (N.log2_up n - 5 + 1) with (N.log2_up n - 4) by lia.
    destruct (N.ltb_spec DUR_MAX (i * (N.log2_up n - 4 + 1))) as [|X]; [right; assumption|left].
    destruct (N.ltb_spec DUR_MAX (i * (N.log2_up n - 4))); nia.
Qed.
Print Assumptions C55_monotone.
Example C55_ex :
  map (push_pull_scale 30000) [1; 32; 33; 64; 65; 1000] = [30000; 30000; 60000; 60000; 90000; 180000] /\
  30000 * (N.log2_up 1000 - 4) <= DUR_MAX.
Proof. vm_compute. split; [reflexivity|discriminate]. Qed.
(** Without that bound it is not: when the product overflows the interval falls
    back to the unscaled one. *)
Theorem C55_monotone_refuted : exists interval n m, n <= m /\ push_pull_scale interval m < push_pull_scale interval n.
Proof. exists (DUR_MAX / 2), 64, 128. vm_compute. split; [discriminate|reflexivity]. Qed.
Print Assumptions C55_monotone_refuted.

(** * C56 *)
(** Streams handed out over a whole history have distinct ids. *)
Theorem C56_streams_once : forall C t0 e0 os, ep_new C t0 = Some e0 ->
  NoDup (flat_map (fun o => match o with OStream id _ _ _ => [id] | _ => [] end) (snd (ep_run C e0 os))).
Proof. intros C t0 e0 os N. apply (streams_once C e0 os (einv_new C t0 e0 N)). Qed.
Print Assumptions C56_streams_once.
(** A reported outcome: an unknown id does nothing; a failure, or a success at
    or after the deadline, resolves the dial without a stream; a success in
    time resolves it and hands out the stream for its peer. *)
Theorem C56_outcome : forall C e id now, reach C e ->
  match aget id (e_int e) with
  | None => ep_step C e (EDialOk id now) = (e, []) /\ ep_step C e (EDialFail id) = (e, [])
  | Some i =>
    aget id (e_int (fst (ep_step C e (EDialFail id)))) = None /\ snd (ep_step C e (EDialFail id)) = [] /\
    aget id (e_int (fst (ep_step C e (EDialOk id now)))) = None /\
    snd (ep_step C e (EDialOk id now)) =
      if now <? in_deadline i then [OStream id (in_peer i) (Some (in_kind i, in_msg i)) (in_deadline i)] else []
  end.
Proof.
  intros C e id now R. pose proof (reach_inv C e R) as I. destruct (aget id (e_int e)) as [i|] eqn:G.
  - assert (runs e = true) as RU by (destruct (runs e) eqn:X; [reflexivity|]; destruct (ei_rest _ _ I X) as (Y & _); rewrite Y in G; discriminate).
    assert (aget id (e_int (resolve_intent id e)) = None) as RV.
    { unfold resolve_intent. rewrite G. cbv zeta. set (e1 := remove_intent id e).
      assert (e_int e1 = adel id (e_int e)) as E by reflexivity. clearbody e1. destruct (in_kind i); [rewrite E; apply aget_adel_eq| |rewrite E; apply aget_adel_eq].
      unfold retire_reliable. destruct (aget _ (e_probes e1)) as [q|]; [destruct (p_phase q)|]; cbn [e_int e_set_probes]; rewrite E; apply aget_adel_eq. }
    split; [exact RV|]. split; [reflexivity|]. cbn [ep_step]. unfold dial_succeeded. rewrite G, RU. rewrite N.leb_antisym. destruct (now <? in_deadline i); cbn [negb orb fst snd].
    + split; [apply aget_adel_eq|reflexivity].
    + split; [exact RV|reflexivity].
  - split; apply (dial_unknown C e _ id I G); eauto.
Qed.
Print Assumptions C56_outcome.
(** The deadline resolves it too, on the next tick. *)
Theorem C56_deadline : forall C e id i now, reach C e -> runs e = true -> aget id (e_int e) = Some i -> in_deadline i <= now ->
  aget id (e_int (fst (ep_step C e (ETimeout now)))) = None.
Proof. intros C e id i now R RU G L. cbn [ep_step fst]. apply (timeout_intents C now e id i (reach_inv C e R) RU G L). Qed.
Print Assumptions C56_deadline.
(** Once resolved, always resolved: the id is not pending again, its outcomes
    have no effect and no stream is handed out for it. *)
Theorem C56_resolved_for_good : forall C e os id, reach C e -> id < e_sid e -> aget id (e_int e) = None ->
  aget id (e_int (fst (ep_run C e os))) = None /\
  (forall peer r d, ~ In (OStream id peer r d) (snd (ep_run C e os))).
Proof.
  intros C e os id R L G. destruct (spent_silent C e os id (reach_inv C e R) (conj L G)) as [[_ A] B]. split; [exact A|].
  intros peer r d X. apply B. unfold sids. apply in_flat_map. exists (OStream id peer r d). split; [exact X|left; reflexivity].
Qed.
Print Assumptions C56_resolved_for_good.
Example C56_ex :
  let run os := option_map (fun e0 => snd (ep_run ee_cfg e0 os)) (ep_new ee_cfg 0) in
  let out os := option_map (filter (fun o => match o with OStream _ _ _ _ => true | _ => false end)) (run os) in
  ex [EPushPull 103 true 50; EUserMsg 102 [7] 60] (fun e => (map (fun x => (fst x, in_peer (snd x), in_deadline (snd x))) (e_int e), e_sid e)) = Some ([(2, 102, 10060); (1, 103, 10050)], 3) /\
  option_map (map (fun o => match o with OStream id peer _ d => (id, peer, d) | _ => (0, 0, 0) end))
    (out [EPushPull 103 true 50; EUserMsg 102 [7] 60; EDialOk 2 70; EDialOk 2 71; EDialFail 1; EDialOk 1 72; EDialOk 9 73; EAccept 104 80]) =
    Some [(2, 102, 10060); (3, 104, 10080)] /\
  out [EPushPull 103 true 50; ETimeout 10050; EDialOk 1 10051] = Some [] /\
  out [EPushPull 103 true 50; EDialOk 1 10050] = Some [].
Proof. vm_compute. repeat split. Qed.

(** * C57 *)
(** The exact answer to a ping. *)
Theorem C57_ping_answer : forall C e from q src tgt now, runs e = true ->
  let e' := fst (ep_step C e (EPacket from (MPing q src tgt) now)) in
  (nd_id tgt <> c_id C -> e' = e) /\
  (nd_id tgt = c_id C -> exists payload, e_tx e' = e_tx e ++ [TPacket from (MAck q payload)] /\
     (payload = e_payload e \/ payload = []) /\
     (c_ack_members_only C = false -> payload = e_payload e) /\
     (c_ack_members_only C = true -> payload <> [] ->
        exists m, aget (nd_id src) (k_mem (e_core e)) = Some m /\ ns_addr (m_server m) = from)).
Proof.
  intros C e from q src tgt now RU. cbv zeta. rewrite (ping_exact C from q src tgt now e RU). split.
  - intros NE. destruct (N.eqb_spec (nd_id tgt) (c_id C)); [contradiction|reflexivity].
  - intros ->. rewrite N.eqb_refl. eexists. split; [reflexivity|].
    destruct (c_ack_members_only C); [|repeat split; auto; discriminate].
    destruct (aget (nd_id src) (k_mem (e_core e))) as [m|]; [|repeat split; auto; congruence].
    destruct (N.eqb_spec (ns_addr (m_server m)) from); repeat split; auto; try congruence. intros _ _. exists m. auto.
Qed.
Print Assumptions C57_ping_answer.
Example C57_ex :
  let base := ee_joined ++ [EAckPayload [5; 5]] in
  let tx os := ex (base ++ os) e_tx in
  c_ack_members_only ee_cfg = true /\
  tx [EPacket 102 (MPing 8 (mkNode 2 102) (mkNode 1 101)) 20] = Some [TPacket 102 (MAck 8 [5; 5])] /\
  tx [EPacket 199 (MPing 8 (mkNode 2 102) (mkNode 1 101)) 20] = Some [TPacket 199 (MAck 8 [])] /\
  tx [EPacket 199 (MPing 8 (mkNode 99 199) (mkNode 1 101)) 20] = Some [TPacket 199 (MAck 8 [])] /\
  tx [EPacket 102 (MPing 8 (mkNode 2 102) (mkNode 3 101)) 20] = Some [].
Proof. vm_compute. repeat split. Qed.
