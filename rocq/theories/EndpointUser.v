(** What is queued for the whole cluster by the application goes out with gossip. *)
From Coq Require Import Permutation.
From Verif Require Import CodecModel EndpointModel MapFacts BaseFacts BroadcastInv BroadcastHist CoreFacts CoreInv CoreSteps CoreTrans CoreSpec CoreEffects
  EndpointSteps EndpointInv EndpointFacts EndpointRuns EndpointProbes EndpointAnswers EndpointSent EndpointUpkeep.
Local Open Scope N_scope.

Section Frame.
Variable C : cfg.
(** ** The queues are left alone by everything before the gossip round *)
Lemma fold_ub {A} (f : ep -> A -> ep) l : (forall e a, e_ub (f e a) = e_ub e) -> forall e, e_ub (fold_left f l e) = e_ub e.
Proof. intros H. induction l as [|a l IH]; intros e; [reflexivity|]. cbn [fold_left]. rewrite IH. apply H. Qed.
Lemma alloc_ub e s e' : alloc_seq e = Some (s, e') -> e_ub e' = e_ub e.
Proof. unfold alloc_seq. destruct (seq_loop _ _ _); [|discriminate]. intros H. injection H as _ <-. reflexivity. Qed.
Lemma retire_ub s e : e_ub (retire_reliable s e) = e_ub e.
Proof. unfold retire_reliable. destruct (aget s (e_probes e)) as [p|]; [|reflexivity]. destruct (p_phase p); reflexivity. Qed.
Lemma resolve_ub id e : e_ub (resolve_intent id e) = e_ub e.
Proof. unfold resolve_intent. destruct (aget id (e_int e)) as [i|]; [|reflexivity]. cbv zeta. destruct (in_kind i); try reflexivity. rewrite retire_ub. reflexivity. Qed.
Lemma fail_ub s now e : e_ub (probe_fail C s now e) = e_ub e.
Proof.
  unfold probe_fail. destruct (aget s (e_probes e)) as [p|]; [|reflexivity]. cbv zeta.
  destruct (p_phase p) as [|? ? ? [?|] ?], (p_kind p); try reflexivity; destruct (negb _); try reflexivity; destruct (same_instance _ _); reflexivity.
Qed.
Lemma ok_ub s d pl now e : e_ub (probe_ok C s d pl now e) = e_ub e.
Proof.
  unfold probe_ok. destruct (aget s (e_probes e)) as [p|]; [|reflexivity]. destruct (_ <=? _); [apply fail_ub|]. cbv zeta.
  destruct (p_kind p); [|reflexivity]. destruct d; reflexivity.
Qed.
Lemma push_fit_ub to m e : e_ub (fst (push_fit C to m e)) = e_ub e.
Proof. unfold push_fit. destruct (_ <=? _); reflexivity. Qed.
Lemma open_ub peer k d m e : e_ub (snd (fst (open_intent peer k d m e))) = e_ub e.
Proof. rewrite open_intent_eq. destruct (runs e); reflexivity. Qed.
Lemma announce_ub r : e_ub (snd (announce C r)) = e_ub (snd (fst r)).
Proof. destruct r as [[id e] ok]. unfold announce. cbn [fst snd]. destruct (aget id (e_int e)); [|reflexivity]. destruct ok; reflexivity. Qed.
Lemma start_probe_ub now e : e_ub (start_probe C now e) = e_ub e.
Proof.
  unfold start_probe. destruct (negb (runs e)); [reflexivity|]. unfold next_target. destruct (scan _ _ _ _) as [[id cur]|]; [|reflexivity].
  set (e1 := e_set_pidx cur e). change (e_ub e) with (e_ub e1). clearbody e1.
  destruct (aget id (k_mem (e_core e1))) as [m|]; [|reflexivity]. destruct (alloc_seq e1) as [[s e2]|] eqn:A; [|reflexivity]. apply alloc_ub in A. rewrite <- A.
  cbv zeta. destruct (pstate_eqb _ _).
  - destruct (_ <=? _); [reflexivity|]. set (e3 := e_set_acks _ _). unfold push_fit. destruct (elen C (MPing _ _ _) <=? _); cbn [fst]; destruct (elen C (MSuspect _ _ _) <=? _); reflexivity.
  - unfold push_fit. destruct (_ <=? _); reflexivity.
Qed.
Lemma fan_ub now e s : e_ub (fan_out C now e s) = e_ub e.
Proof.
  unfold fan_out. destruct (aget s (e_probes e)) as [p|]; [|reflexivity]. cbv zeta. unfold pick. cbv zeta.
  match goal with |- context [act C (KDraws ?n) e] => set (e1 := act C (KDraws n) e); change (e_ub e) with (e_ub e1); generalize e1; clear e1 end. intros e1.
  destruct (p_fail p <=? now); [apply fail_ub|].
  match goal with |- e_ub (let '(rid, e0) := ?x in _) = _ => assert (e_ub (snd x) = e_ub e1) as E; [|destruct x as [rid e2]; cbn [snd] in E; rewrite <- E; clear E] end.
  { destruct (existsb _ _); [reflexivity|]. pose proof (announce_ub (reliable_ping_direct C (ns_id (p_target p)) (ns_addr (p_target p)) s (p_fail p) e1)) as A.
    destruct (announce C _) as [rid e2]. cbn [snd] in *. rewrite A. apply open_ub. }
  match goal with |- context [fold_left (send_indirect C ?m) ?l ?st] =>
    assert (forall l0 st0, e_ub (fst (fold_left (send_indirect C m) l0 st0)) = e_ub (fst st0)) as F end.
  { induction l0 as [|a l0 IH]; intros st0; [reflexivity|]. cbn [fold_left]. rewrite IH. unfold send_indirect.
    pose proof (push_fit_ub a (MIndirectPing s (lnode C) (mkNode (ns_id (p_target p)) (ns_addr (p_target p)))) (fst st0)) as X. destruct (push_fit C _ _ _). exact X. }
  match goal with |- context [fold_left (send_indirect C ?m) ?l ?st] => specialize (F l st); destruct (fold_left (send_indirect C m) l st) as [e3 peers] end. cbn [fst] in F. rewrite <- F.
  destruct (_ && _); [apply fail_ub|reflexivity].
Qed.
(** what happens first leaves both alone *)
Lemma quick_ub now e : e_ub (fire_expired_intents now (fire_expired_forwards now (advance_fsm C now (act C (KExpire now) e)))) = e_ub e.
Proof.
  unfold fire_expired_intents. rewrite fold_ub by (intros; apply resolve_ub).
  unfold fire_expired_forwards. rewrite fold_ub by (intros e0 a; unfold expire_forward; destruct (aget _ _); reflexivity).
  unfold advance_fsm. rewrite fold_ub by (intros; apply fail_ub). rewrite fold_ub by (intros; apply fan_ub). reflexivity.
Qed.
Lemma probe_ub now e : e_ub (fire_probe C now e) = e_ub e.
Proof.
  unfold fire_probe. destruct (e_np e); [|reflexivity]. destruct (_ <? _); [reflexivity|]. cbv zeta.
  match goal with |- e_ub (e_set_np ?a ?x) = _ => change (e_ub (e_set_np a x)) with (e_ub x) end.
  rewrite start_probe_ub. destruct (_ && _); reflexivity.
Qed.
(** ** The gossip round inside the timer handler *)
Lemma pp_tx now e : e_tx (fire_pushpull C now e) = e_tx e.
Proof.
  unfold fire_pushpull. destruct (e_npp e) as [d|]; [|reflexivity]. destruct (_ <? _); [reflexivity|]. cbv zeta.
  destruct (live_addrs C e) as [|a l]; [reflexivity|]. unfold pick. destruct (btake 1 _) as [|peer r]; [reflexivity|].
  unfold push_pull_direct. rewrite open_intent_eq. destruct (runs _); unfold announce; cbn [e_int insert_intent e_set_int e_set_iidx e_set_sid act e_set_core].
  - rewrite aget_aset_eq. reflexivity.
  - destruct (aget _ _); reflexivity.
Qed.
Lemma before_gossip_to now e : einv C e -> runs e = true ->
  let e1 := act C (KExpire now) e in let e5 := fire_probe C now (fire_expired_intents now (fire_expired_forwards now (advance_fsm C now e1))) in
  eto C e1 e5 /\ eto C e e5.
Proof.
  intros I R. cbv zeta. set (e1 := act C (KExpire now) e). assert (eto C e e1) as T1 by (apply eto_core; exact Logic.I). pose proof (runs_eto C _ _ T1 R) as R1.
  assert (einv C e1) as I1 by (destruct T1 as (ks & T & _); eapply einv_steps; eauto).
  assert (eto C e1 (advance_fsm C now e1)) as T2 by (apply advance_fsm_to; [exact R1|exact (ei_pnd _ _ I1)|exact (einv_shape C _ I1)]).
  assert (eto C e1 (fire_expired_forwards now (advance_fsm C now e1))) as T3. { eapply eto_trans; [exact T2|]. apply expire_forwards_to. exact (runs_eto C _ _ T2 R1). }
  assert (eto C e1 (fire_expired_intents now (fire_expired_forwards now (advance_fsm C now e1)))) as T4. { eapply eto_trans; [exact T3|]. apply expire_intents_to. }
  assert (eto C e1 (fire_probe C now (fire_expired_intents now (fire_expired_forwards now (advance_fsm C now e1))))) as T5.
  { eapply eto_trans; [exact T4|]. apply fire_probe_to; [exact (runs_eto C _ _ T4 R1)|exact (eto_kinv C _ _ T4 (ei_core _ _ I1))]. }
  split; [exact T5|eapply eto_trans; eauto].
Qed.
Lemma timeout_round now e d : einv C e -> runs e = true -> e_ng e = Some d -> d <= now ->
  exists x before targets rest, eto C e x /\ e_ub x = e_ub e /\ Forall probing_tx before /\
    e_tx (handle_timeout C now e) = e_tx e ++ before ++ flat_map (gossip_tx (snd (gossip_batch C x))) targets /\
    Permutation (targets ++ rest) (map (fun p => ns_addr (m_server (snd p))) (filter (gossip_target C now) (k_mem (e_core (handle_timeout C now e))))) /\
    blen targets = N.min (c_gossip_nodes C) (blen (targets ++ rest)).
Proof.
  intros I R G L. unfold handle_timeout. rewrite R. cbn [negb]. destruct (talks_before C now e) as (before & T & F). pose proof (quick_view C now e) as V.
  pose proof (quick_ub now e) as U. 
  pose proof (before_gossip_to now e I R) as [_ TO].
  set (e4 := fire_expired_intents _ _) in *. pose proof (probe_ub now e4) as PU. destruct (fire_probe_sched C now e4) as (_ & _ & _ & NG & _). set (e5 := fire_probe C now e4) in *.
  assert (e_ng e5 = Some d) as G5 by (unfold view in V; congruence).
  destruct (gossip_round C now e5 d G5 L) as (n & targets & rest & TX & PM & BL & KM). cbv zeta in *.
  exists (act C (KDraws n) e5), before, targets, rest.
  assert (eto C e5 (act C (KDraws n) e5)) as T5 by (apply eto_core; exact Logic.I).
  split; [eapply eto_trans; [exact TO|exact T5]|]. split; [change (e_ub e5 = e_ub e); congruence|]. split; [exact F|].
  assert (forall x, e_tx (refresh_cache x) = e_tx x /\ k_mem (e_core (refresh_cache x)) = k_mem (e_core x)) as RC by (intros x; unfold refresh_cache; destruct (_ && _); split; reflexivity).
  pose proof (pp_calm C now (fire_gossip C now e5)) as [_ KP].
  split; [rewrite (proj1 (RC _)), pp_tx, TX, T, <- app_assoc; reflexivity|]. split; [|exact BL].
  rewrite (proj2 (RC _)), KP, KM. exact PM.
Qed.
(** ** The push/pull tick *)
Lemma pp_opens now e d : runs e = true -> e_npp e = Some d -> d <= now -> live_addrs C e <> [] -> let e' := fire_pushpull C now e in let dl := tadd now (c_stream_timeout C) in
  exists peer, In peer (live_addrs C e) /\
    aget (e_sid e) (e_int e') = Some (mkIntent peer (OKPushPull false) dl (MPushPull false (local_states e) (e_snap e))) /\
    k_ev (e_core e') = k_ev (e_core e) ++ [EvDial (e_sid e) peer dl] /\ e_snap e' = e_snap e.
Proof.
  intros R G L NE. cbv zeta. unfold fire_pushpull. rewrite G. destruct (N.ltb_spec now d); [lia|]. cbv zeta. set (pool := live_addrs C e) in *.
  destruct pool as [|a l] eqn:P; [congruence|]. rewrite <- P in *. unfold pick. set (sh := shuffle _ pool).
  assert (Permutation sh pool) as PM by (apply Permutation_sym, shuffle_perm). destruct sh as [|peer r] eqn:S.
  { apply Permutation_nil in PM. congruence. }
  change (btake 1 (peer :: r)) with [peer]. cbv iota. exists peer. split; [eapply Permutation_in; [exact PM|left; reflexivity]|].
  unfold push_pull_direct. rewrite open_intent_eq. change (runs (act C (KDraws (blen pool)) e)) with (runs e). rewrite R. unfold announce. cbn [e_int insert_intent e_set_int e_set_iidx e_set_sid act e_set_core].
  rewrite aget_aset_eq. cbn [snd]. split; [cbn; apply aget_aset_eq|]. split; reflexivity.
Qed.
Lemma timeout_pushpull now e d : einv C e -> runs e = true -> e_npp e = Some d -> d <= now ->
  let e' := handle_timeout C now e in let dl := tadd now (c_stream_timeout C) in
  live_addrs C e' = [] \/ exists id peer evs, In peer (live_addrs C e') /\
    aget id (e_int e') = Some (mkIntent peer (OKPushPull false) dl (MPushPull false (local_states e') (e_snap e'))) /\
    k_ev (e_core e') = evs ++ [EvDial id peer dl].
Proof.
  intros I R G L. cbv zeta. pose proof (quick_view C now e) as V.
  unfold handle_timeout. rewrite R. cbn [negb]. set (e4 := fire_expired_intents _ _) in *.
  destruct (fire_probe_sched C now e4) as (_ & _ & _ & _ & N5). destruct (fire_gossip_sched C now (fire_probe C now e4)) as (_ & _ & _ & _ & _ & N6).
  set (e6 := fire_gossip C now (fire_probe C now e4)) in *. assert (e_npp e6 = Some d) as G6 by (unfold view in V; congruence).
  assert (forall x, e_int (refresh_cache x) = e_int x /\ e_core (refresh_cache x) = e_core x /\ e_snap (refresh_cache x) = e_snap x) as RC by (intros x; unfold refresh_cache; destruct (_ && _); repeat split).
  pose proof (pp_calm C now e6) as [_ KM].
  assert (runs e6 = true) as R6.
  { destruct (before_gossip_to now e I R) as [_ TO]. cbv zeta in TO. fold e4 in TO. pose proof (runs_eto C _ _ TO R) as R5. exact (runs_eto C _ _ (fire_gossip_to C now _ R5) R5). }
  set (e7 := fire_pushpull C now e6) in *. destruct (RC e7) as (RI & RE & RS).
  assert (live_addrs C (refresh_cache e7) = live_addrs C e6) as EL by (unfold live_addrs; rewrite RE, KM; reflexivity).
  destruct (live_addrs C e6) as [|a l] eqn:LA; [left; exact EL|]. right.
  destruct (pp_opens now e6 d R6 G6 L ltac:(congruence)) as (peer & P1 & P2 & P3 & P4). cbv zeta in *. fold e7 in P2, P3, P4.
  exists (e_sid e6), peer, (k_ev (e_core e6)). split; [rewrite EL, <- LA; exact P1|]. split; [|rewrite RE; exact P3]. rewrite RI, P2, RS, P4.
  unfold local_states. rewrite RE, KM. reflexivity.
Qed.
(** ** Timers that ran out *)
Definition mute (o : cop) : Prop := forall al, ~ carries o al.
Lemma absent_op o k id : kinv C k -> mute o -> rec_at k id = None -> rec_at (fst (core_step C k o)) id = None.
Proof.
  intros V M G. destruct (core_step_chain C k o V) as (j & _ & S). revert G. generalize dependent (fst (core_step C k o)). intros k' S.
  induction S as [|n k1 k2 k3 S1 S2 IH]; intros G; [exact G|]. apply IH; [exact (kinv_step C _ _ _ _ V S1)|].
  pose proof (step_trans C _ _ _ _ id V S1) as T. rewrite G in T. inversion T; subst; [reflexivity|]. exfalso.
  match goal with O : origin C o _ (GAlive ?al) |- _ => exact (M al (proj1 (origin_carries C _ _ _ O))) end.
Qed.
Definition buried (m : member) (r : option member) : Prop :=
  match r with Some m' => m_state m' = PDead /\ m_inc m' = m_inc m /\ m_server m' = m_server m | None => True end.
Lemma buried_run m id os : forall k, kinv C k -> Forall mute os -> buried m (rec_at k id) -> buried m (rec_at (fst (core_run C k os)) id).
Proof.
  induction os as [|o os IH]; intros k V F B; rewrite core_run_fst; cbn [fold_left]; [exact B|]. rewrite <- core_run_fst. inversion F as [|? ? F1 F2]; subst.
  apply IH; [apply kinv_core_step, V|exact F2|]. destruct (rec_at k id) as [m0|] eqn:G; [|rewrite (absent_op o k id V F1 G); exact Logic.I].
  destruct B as (B1 & B2 & B3). destruct (departed_op C o k id m0 V G) as [(m1 & G1 & E1 & E2 & E3 & _)|[[G1 _]|(al & X & _)]]; [left; exact B1| | |destruct (F1 al X)].
  - rewrite G1. cbn. repeat split; congruence.
  - rewrite G1. exact Logic.I.
Qed.
Lemma estep_mute e ls cr e' : estep C e ls cr e' -> Forall (fun l => match l with LFail _ _ _ o => mute o | _ => True end) ls.
Proof.
  destruct 1; try (repeat constructor; fail).
  - apply Forall_app. split; [|destruct (p_kind p); repeat constructor]. apply Forall_forall. intros l L. apply in_map_iff in L as (o & <- & H1).
    intros al. unfold fail_ops in H1. destruct (p_kind p); [|destruct H1].
    destruct (p_disp p); [|destruct H1]. destruct H1 as [<-|H1]; [intros []|]. destruct (same_instance p e); [|destruct H1]. destruct H1 as [<-|[]]. intros [].
  - apply Forall_forall. intros l L. apply in_map_iff in L as (o & <- & _). exact Logic.I.
  - apply Forall_forall. intros l L. apply in_map_iff in L as (o & <- & _). exact Logic.I.
Qed.
Lemma eto_mute e e' : eto C e e' -> exists os, e_core e' = fst (core_run C (e_core e) os) /\ Forall mute os.
Proof.
  intros (ls & S & O). exists (map unlab ls). split; [apply (esteps_core C _ _ _ _ S)|].
  assert (Forall (fun l => match l with LFail _ _ _ o => mute o | _ => True end) ls) as F.
  { clear O. induction S as [|? ? ? ? ? ? ? S _ IH]; [constructor|]. apply Forall_app. split; [eapply estep_mute, S|exact IH]. }
  apply Forall_map. rewrite Forall_forall in *. intros l L. specialize (O l L). specialize (F l L). destruct l as [o|s p now o]; [|exact F]. intros al. destruct o; cbn in O; try contradiction; intros [].
Qed.
Lemma timeout_buries now e id m s : einv C e -> runs e = true -> aget id (k_mem (e_core e)) = Some m -> m_susp m = Some s -> s_deadline s <= now ->
  buried m (aget id (k_mem (e_core (handle_timeout C now e)))).
Proof.
  intros I R G S D. pose proof (ei_core _ _ I) as K. destruct (before_gossip_to now e I R) as [T _]. cbv zeta in T. set (e1 := act C (KExpire now) e) in *.
  assert (eto C e e1) as T1 by (apply eto_core; exact Logic.I). pose proof (runs_eto C _ _ T1 R) as R1.
  assert (eto C e1 (handle_timeout C now e)) as T2.
  { unfold handle_timeout. rewrite R. cbn [negb]. fold e1. set (e5 := fire_probe C now _) in *. pose proof (runs_eto C _ _ T R1) as R5.
    pose proof (fire_gossip_to C now e5 R5) as T6. pose proof (runs_eto C _ _ T6 R5) as R6.
    eapply eto_trans; [exact T|]. eapply eto_trans; [exact T6|]. eapply eto_trans; [exact (fire_pushpull_to C now _ R6)|]. apply refresh_to. }
  destruct (eto_mute _ _ T2) as (os & E & F). change (buried m (rec_at (e_core (handle_timeout C now e)) id)). rewrite E.
  apply buried_run; [exact (eto_kinv C _ _ T1 K)|exact F|].
  assert (k_life (e_core e) = Running) as RU by (apply running_true; exact R).
  change (buried m (rec_at (fire_expired_suspicions C now (e_core e)) id)). unfold fire_expired_suspicions.
  assert (forall i, In i (expired_ids now (k_mem (e_core e))) -> exists m, rec_at (e_core e) i = Some m /\ due now m = true) as HD by (intros i H; apply (in_expired now _ i (ki_nodup _ _ K)) in H; exact H).
  assert (In id (expired_ids now (k_mem (e_core e)))) as HI.
  { apply (in_expired now _ id (ki_nodup _ _ K)). exists m. split; [exact G|]. unfold due. rewrite S. apply N.leb_le. exact D. }
  pose proof (proj2 (killed_fold C now _ (e_core e) K RU (expired_nodup _ _ (ki_nodup _ _ K)) HD) id m HI G) as X. rewrite X. cbn. auto.
Qed.
End Frame.

Section User.
Variable C : cfg.
Variable HC : cfg_ok C = true.
Variable HS : sizes C.
(** ** Everything queued fits a datagram *)
Definition small (Q : bqueue bytes) : Prop := forall b, In b (map i_b (bq_q Q)) -> blen b <= user_limit C.
Definition smalls (e : ep) : Prop := Forall small (e_ub e).
Lemma small_take lim ov limit Q : wfq bytes_broadcast Q -> small Q -> small (fst (fst (take_broadcasts_measured bytes_broadcast lim ov limit Q))).
Proof.
  intros W S b H. pose proof (proj2 (step_from_queue bytes_broadcast Q (OTake lim ov limit) W) b) as X. unfold bq_step in X.
  destruct (take_broadcasts_measured _ _ _ _ _) as [[Q' s] u]. cbn [fst] in *. destruct (X H) as [Y|Y]; [apply S, Y|discriminate Y].
Qed.
Lemma small_loop lim ov limit : forall T used, Forall (wfq bytes_broadcast) T -> Forall small T -> Forall small (fst (fst (ub_take_loop bytes_broadcast lim ov limit T used))).
Proof.
  induction T as [|Q T IH]; intros used W S; cbn [ub_take_loop]; [constructor|]. destruct (_ <=? _); [exact S|]. inversion W; inversion S; subst.
  pose proof (small_take lim ov (limit - used) Q ltac:(assumption) ltac:(assumption)) as X. destruct (take_broadcasts_measured _ _ _ _ _) as [[Q' s] u]. cbn [fst] in X.
  specialize (IH (used + u) ltac:(assumption) ltac:(assumption)). destruct (ub_take_loop _ _ _ _ _ _) as [[T' s'] u']. cbn [fst] in *. constructor; assumption.
Qed.
Lemma small_drain limit e : Forall (wfq bytes_broadcast) (e_ub e) -> smalls e -> smalls (fst (drain_user C limit e)).
Proof.
  intros W S. unfold drain_user, ub_take. pose proof (small_loop (c_lim C (k_n (e_core e))) USER_OVERHEAD limit (e_ub e) 0 W S) as X.
  destruct (ub_take_loop _ _ _ _ _ _) as [[T' s'] u']. exact X.
Qed.
Lemma small_gossip e : Forall (wfq bytes_broadcast) (e_ub e) -> smalls e -> smalls (fst (gossip_batch C e)).
Proof.
  intros W S. unfold gossip_batch. destruct (peek_first_sendable _ _); [destruct (_ <? _); [exact S|]|];
    destruct (take_broadcasts_measured _ _ _ _ _) as [[Q got] used];
    match goal with |- context [drain_user C ?l ?x] => pose proof (small_drain l x W S) as X; destruct (drain_user C l x) as [e2 us] end; exact X.
Qed.
Lemma small_new n : Forall small (ub_new n).
Proof. apply Forall_forall. intros q Q. apply repeat_spec in Q. subst q. intros b []. Qed.
Lemma small_leave now fw e : runs e = true -> smalls (leave_with C now fw e).
Proof.
  intros R. rewrite (leave_eq C now fw e R). cbv zeta.
  assert (forall T, Forall small (ub_reset T)) as X by (intros T; unfold ub_reset; apply Forall_map, Forall_forall; intros q _ b []).
  unfold smalls. destruct (live_addrs C _); apply X.
Qed.
Lemma smalls_step e ls cr e' : einv C e -> estep C e ls cr e' -> sinv C e -> smalls e -> smalls e'.
Proof.
  intros I S SI H. pose proof (si_ub _ _ SI) as W. destruct S; try exact H.
  - unfold smalls. destruct (fail_rest C s now e) as (_ & _ & _ & _ & _ & -> & _). exact H.
  - unfold smalls. match goal with X : e_ub e' = e_ub e |- _ => rewrite X; exact H end.
  - unfold smalls. cbn [e_ub e_set_ub].
    assert (Forall (fun q => wfq bytes_broadcast q /\ small q) (e_ub e)) as F by (unfold smalls in H; apply Forall_forall; intros q Q; rewrite Forall_forall in W, H; auto).
    unfold queue_ranked. eapply Forall_impl; [|apply upd_nth_forall; [|exact F]]; [intros q X; exact (proj2 X)|]. intros q [Wq Sq]. split.
    + apply wfq_queue; [|exact Wq]. cbn [b_len bytes_broadcast]. unfold user_limit in *. pose proof (mtu_bounds C HC) as [[_ M] _]. unfold MTU_MAX, u64_max in *. lia.
    + intros b B. pose proof (proj2 (step_from_queue bytes_broadcast q (OQueue d) Wq) b B) as [X|X]; [exact (Sq b X)|]. injection X as ->. assumption.
  - pose proof (small_gossip e W H) as X. destruct (gossip_batch C e) as [g ms]. exact X.
  - apply small_leave; assumption.
  - unfold smalls. pose proof (poll_rest C e) as X. cbv zeta in X. unfold poll_transmit. destruct (e_tx e); [exact H|]. cbn. destruct (e_flush e); [|exact H]. destruct (_ <=? _); exact H.
Qed.
Definition uinv (e : ep) : Prop := einv C e /\ sinv C e /\ smalls e.
Lemma uinv_steps e ls cr e' : esteps C e ls cr e' -> uinv e -> uinv e'.
Proof.
  induction 1 as [|? ? ? ? ? ? ? S _ IH]; intros (I & SI & U); [split; [|split]; assumption|]. apply IH. split; [eapply einv_step; eauto|]. split; [eapply sinv_step; eauto|eapply smalls_step; eauto].
Qed.
Lemma uinv_reach e : c_inc0 C <= u32_max -> reach C e -> uinv e.
Proof.
  intros IN (t0 & e0 & os & N & ->). assert (uinv e0) as U.
  { split; [eapply einv_new; eauto|]. split; [eapply sinv_new; eauto|]. unfold ep_new in N. rewrite HC in N. apply Some_inj in N. subst e0. unfold refresh_cache.
    destruct (_ && _); apply small_new. }
  clear N. rewrite ep_run_fst. revert e0 U. induction os as [|o os IH]; intros e0 U; [exact U|]. cbn [fold_left]. apply IH.
  destruct (step_chain C e0 o (proj1 U)) as (ls & cr & S & _). eapply uinv_steps; eauto.
Qed.

(** ** A batch is empty only when nothing is waiting *)
Lemma drain_all limit e : Forall (wfq bytes_broadcast) (e_ub e) ->
  forall q b, In q (e_ub e) -> In b (map i_b (bq_q q)) ->
  In b (snd (drain_user C limit e)) \/ limit < cost bytes_broadcast USER_OVERHEAD (snd (drain_user C limit e)) + (blen b + USER_OVERHEAD).
Proof.
  intros W q b Q B. unfold drain_user, ub_take.
  pose proof (ub_spec bytes_broadcast (c_lim C (k_n (e_core e))) USER_OVERHEAD limit ltac:(intros; unfold USER_OVERHEAD, PART_LEN; lia) (e_ub e) 0 W ltac:(lia)) as H.
  destruct (ub_take_loop _ _ _ _ _ _) as [[T' sent] used]. destruct H as (_ & _ & E & L & per & EP & F & H). cbn [snd].
  apply In_nth_error in Q as (i & Q). destruct (H i q b Q B) as [X|X].
  - left. rewrite EP. apply in_concat. exists (nth i per []). split; [|exact X]. apply nth_In.
    assert (length (e_ub e) = length per) as FL by (clear - F; induction F; cbn; congruence). rewrite <- FL. apply nth_error_Some. congruence.
  - right. rewrite N.add_0_l in X. cbn [b_len bytes_broadcast] in X. eapply N.lt_le_trans; [exact X|]. apply N.add_le_mono_r.
    assert (sent = concat (firstn (S i) per) ++ concat (skipn (S i) per)) as -> by (rewrite <- concat_app, firstn_skipn; exact EP). unfold cost.
    generalize (concat (firstn (S i) per)), (concat (skipn (S i) per)). intros a z. induction a as [|x a IH]; cbn [app fold_right]; [lia|]. cbn in IH |- *. lia.
Qed.
Lemma batch_sends e : uinv e -> (exists q b, In q (e_ub e) /\ In b (map i_b (bq_q q))) -> snd (gossip_batch C e) <> [].
Proof.
  intros (_ & SI & U) (q & b & Q & B). destruct (si_bc _ _ SI) as [W _]. pose proof (si_ub _ _ SI) as WU. unfold gossip_batch. set (bc := k_bc (e_core e)) in *. set (lim := c_lim C _).
  assert (blen b <= user_limit C) as LB by (unfold smalls in U; rewrite Forall_forall in U; exact (U q Q b B)).
  pose proof (mtu_bounds C HC) as [[M _] _]. unfold MTU_MIN in M.
  assert (forall e1, e_ub e1 = e_ub e -> snd (drain_user C (c_mtu C - (TAG_LEN + COUNT_LEN)) e1) <> []) as K.
  { intros e1 E1 H. rewrite <- E1 in WU, Q. destruct (drain_all (c_mtu C - (TAG_LEN + COUNT_LEN)) e1 WU q b Q B) as [X|X]; rewrite H in X; [exact X|].
    unfold cost, user_limit, USER_OVERHEAD, TAG_LEN, COUNT_LEN, PART_LEN in *. cbn [fold_right] in X. lia. }
  destruct (peek_first_sendable bc (c_mtu C)) as [len|] eqn:PK.
  - destruct (N.ltb_spec (c_mtu C - (TAG_LEN + COUNT_LEN)) (len + PART_LEN)) as [L|L].
    + cbn [snd]. rewrite (take_one_first (mbcast C) lim (c_mtu C) bc W). unfold peek_first_sendable in PK.
      destruct (find _ (bq_q bc)) as [x|] eqn:F; [|discriminate]. cbn [snd]. discriminate.
    + pose proof (batch_spec (mbcast C) lim PART_LEN (c_mtu C - (TAG_LEN + COUNT_LEN)) bc W) as BS.
      destruct (take_broadcasts_measured _ _ _ _ _) as [[Q' got] used]. destruct got as [|g got].
      * match goal with |- context [drain_user C ?l ?x] => pose proof (K x eq_refl) as X; destruct (drain_user C l x) as [e2 us] end. cbn [snd map app] in *. destruct us; [congruence|discriminate].
      * destruct (drain_user C _ _) as [e2 us]. cbn [snd map app]. discriminate.
  - destruct (take_broadcasts_measured _ _ _ _ _) as [[Q' got] used]. destruct got as [|g got].
    + match goal with |- context [drain_user C ?l ?x] => pose proof (K x eq_refl) as X; destruct (drain_user C l x) as [e2 us] end. cbn [snd map app] in *. destruct us; [congruence|discriminate].
    + destruct (drain_user C _ _) as [e2 us]. cbn [snd map app]. discriminate.
Qed.
(** a batch of user data alone leaves behind only what did not fit *)
Definition is_user (m : msg) : bool := match m with MUserData _ => true | _ => false end.
Lemma batch_fills e : uinv e -> forallb is_user (snd (gossip_batch C e)) = true -> exists users, snd (gossip_batch C e) = map MUserData users /\
  forall q b, In q (e_ub e) -> In b (map i_b (bq_q q)) -> In b users \/ c_mtu C - 6 < cost bytes_broadcast USER_OVERHEAD users + (blen b + USER_OVERHEAD).
Proof.
  intros (_ & SI & U). destruct (si_bc _ _ SI) as [W NW]. pose proof (si_ub _ _ SI) as WU. unfold gossip_batch. set (bc := k_bc (e_core e)) in *. set (lim := c_lim C _).
  assert (forall b, In b (map i_b (bq_q bc)) -> is_user (snd b) = false) as NU by (intros b H; specialize (NW b H); destruct (snd b); cbn in *; tauto).
  pose proof (batch_spec (mbcast C) lim PART_LEN (c_mtu C - (TAG_LEN + COUNT_LEN)) bc W) as BS.
  assert (let '(_, got, used) := take_broadcasts_measured (mbcast C) lim PART_LEN (c_mtu C - (TAG_LEN + COUNT_LEN)) bc in forall e1 us, e_ub e1 = e_ub e ->
    us = snd (drain_user C (match got with [] => c_mtu C - (TAG_LEN + COUNT_LEN) | _ => c_mtu C - (TAG_LEN + COUNT_LEN) - used end) e1) -> forallb is_user (map snd got ++ map MUserData us) = true ->
    exists users, map snd got ++ map MUserData us = map MUserData users /\
    forall q b, In q (e_ub e) -> In b (map i_b (bq_q q)) -> In b users \/ c_mtu C - 6 < cost bytes_broadcast USER_OVERHEAD users + (blen b + USER_OVERHEAD)) as K.
  { destruct (take_broadcasts_measured _ _ _ _ _) as [[Q' got] used]. destruct BS as (_ & _ & rest & P & _). intros e1 us E1 E H. destruct got as [|g got].
    - exists us. split; [reflexivity|]. intros q b Q B. rewrite E. rewrite <- E1 in WU, Q. exact (drain_all (c_mtu C - (TAG_LEN + COUNT_LEN)) e1 WU q b Q B).
    - exfalso. cbn [map app forallb] in H. rewrite (NU g) in H; [discriminate|]. eapply Permutation_in; [symmetry; exact P|]. left. reflexivity. }
  destruct (peek_first_sendable bc (c_mtu C)) as [len|] eqn:PK.
  - destruct (_ <? _).
    + cbn [snd]. rewrite (take_one_first (mbcast C) lim (c_mtu C) bc W). unfold peek_first_sendable in PK.
      destruct (find _ (bq_q bc)) as [x|] eqn:F; [|discriminate]. cbn [snd forallb]. apply find_some in F as [I _]. rewrite (NU (i_b x)) by apply in_map, I. discriminate.
    + destruct (take_broadcasts_measured _ _ _ _ _) as [[Q' got] used].
      match goal with |- context [drain_user C ?l ?x] => pose proof (K x (snd (drain_user C l x)) eq_refl eq_refl) as X; destruct (drain_user C l x) as [e2 us] end. exact X.
  - destruct (take_broadcasts_measured _ _ _ _ _) as [[Q' got] used].
    match goal with |- context [drain_user C ?l ?x] => pose proof (K x (snd (drain_user C l x)) eq_refl eq_refl) as X; destruct (drain_user C l x) as [e2 us] end. exact X.
Qed.
End User.
