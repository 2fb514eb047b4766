(** Histories of the endpoint: dials, relays, probes, datagram sizes. *)
From Coq Require Import Permutation.
From Verif Require Import CodecModel BroadcastInv BroadcastHist EndpointModel MapFacts BaseFacts DeadlineFacts CoreFacts CoreInv CoreSteps CoreTrans CoreHist EndpointSteps EndpointInv EndpointFacts EndpointHist.
Local Open Scope N_scope.

Section Runs.
Variable C : cfg.
Notation LID := (c_id C).

(** ** Dials *)
Definition spent_id (id : N) (e : ep) : Prop := id < e_sid e /\ aget id (e_int e) = None.
Lemma gossip_rest e : let g := fst (gossip_batch C e) in
  e_probes g = e_probes e /\ e_acks g = e_acks e /\ e_fwds g = e_fwds e /\ e_sid g = e_sid e /\
  e_int g = e_int e /\ e_tx g = e_tx e /\ e_flush g = e_flush e /\ e_payload g = e_payload e.
Proof.
  cbv zeta. unfold gossip_batch. destruct (peek_first_sendable _ _); [destruct (_ <? _); [repeat split|]|];
    destruct (take_broadcasts_measured _ _ _ _ _) as [[Q got] used]; unfold drain_user; destruct (ub_take _ _ _ _ _) as [[? ?] ?]; repeat split.
Qed.
Lemma fail_rest s now e : let e' := probe_fail C s now e in
  e_fwds e' = e_fwds e /\ e_sid e' = e_sid e /\ e_tx e' = e_tx e /\ e_flush e' = e_flush e /\ e_payload e' = e_payload e /\ e_ub e' = e_ub e /\
  (forall id, aget id (e_int e) = None -> aget id (e_int e') = None).
Proof.
  cbv zeta. unfold probe_fail. destruct (aget s (e_probes e)) as [p|]; [|repeat split; auto].
  set (e1 := e_set_acks _ _).
  set (e2 := match p_phase p with PhIndirect _ _ _ (Some rid) _ => remove_intent rid e1 | _ => e1 end).
  assert (e_fwds e2 = e_fwds e /\ e_sid e2 = e_sid e /\ e_tx e2 = e_tx e /\ e_flush e2 = e_flush e /\ e_payload e2 = e_payload e /\ e_ub e2 = e_ub e /\
    (forall id, aget id (e_int e) = None -> aget id (e_int e2) = None)) as H.
  { unfold e2. destruct (p_phase p) as [|? ? ? [rid|] ?]; repeat split; auto. intros id G. cbn. rewrite aget_adel. destruct (_ =? _); [reflexivity|exact G]. }
  clearbody e2. destruct (p_kind p); [|exact H]. destruct (negb _); [exact H|]. destruct (same_instance _ _); exact H.
Qed.
Lemma estep_spent e ls cr e' id : einv C e -> estep C e ls cr e' -> spent_id id e -> spent_id id e'.
Proof.
  intros I S [L G]. unfold spent_id. destruct S; try (split; [exact L|exact G]).
  - destruct (fail_rest s now e) as (_ & -> & _ & _ & _ & _ & F). split; [exact L|apply F, G].
  - destruct H as (_ & _ & _ & _ & _ & _ & _ & -> & -> & _). auto.
  - destruct (gossip_rest e) as (_ & _ & _ & E1 & E2 & _). destruct (gossip_batch C e) as [g ms]. cbn in *. rewrite E1, E2. auto.
  - cbn. split; [lia|exact G].
  - cbn. split; [lia|]. rewrite aget_aset. destruct (N.eqb_spec id (e_sid e)); [lia|exact G].
  - cbn. split; [exact L|]. rewrite aget_adel. destruct (_ =? _); [reflexivity|exact G].
  - cbn. split; [exact L|]. rewrite (perm_aget (e_int e) _ id) by (try apply shuffle_perm; apply (ei_ind _ _ I)); exact G.
  - pose proof (leave_rest C now fw e H) as X. cbv zeta in X. destruct X as (_ & _ & _ & -> & -> & _). auto.
  - pose proof (poll_rest C e) as X. cbv zeta in X. destruct X as (_ & _ & _ & -> & -> & _). auto.
Qed.
Lemma esteps_spent e ls cr e' id : esteps C e ls cr e' -> einv C e -> spent_id id e -> spent_id id e'.
Proof.
  induction 1 as [|? ? ? ? ? ? ? S _ IH]; intros I H; [exact H|]. apply IH; [eapply einv_step; eauto|eapply estep_spent; eauto].
Qed.
Definition sids (x : list out) : list N := flat_map (fun o => match o with OStream id _ _ _ => [id] | _ => [] end) x.
Lemma sids_app a b : sids (a ++ b) = sids a ++ sids b.
Proof. apply flat_map_app. Qed.
(** where streams come from *)
Lemma step_sids e o : sids (snd (ep_step C e o)) = [] \/
  (exists id now i, o = EDialOk id now /\ aget id (e_int e) = Some i /\ now < in_deadline i /\ runs e = true /\
     ep_step C e o = (remove_intent id e, [OStream id (in_peer i) (Some (in_kind i, in_msg i)) (in_deadline i)])) \/
  (exists from now, o = EAccept from now /\ runs e = true /\
     ep_step C e o = (e_set_sid (e_sid e + 1) e, [OStream (e_sid e) from None (tadd now (c_stream_timeout C))])).
Proof.
  destruct o; cbn [ep_step snd]; try (left; reflexivity).
  - left. unfold handle_stream_event. destruct ev; try reflexivity; destruct (runs e); cbn [negb]; try reflexivity; destruct (e_merge e _); reflexivity.
  - left. destruct (ping C nd now e) as [? [?|]]; reflexivity.
  - left. destruct (announce C _); reflexivity.
  - left. unfold dialled. destruct (push_pull_direct _ _ _ _ _) as [[i e1] [|]]; [|reflexivity]. destruct (aget i (e_int e1)); reflexivity.
  - left. destruct (announce C _); reflexivity.
  - left. unfold dialled. destruct (reliable_ping_direct _ _ _ _ _ _) as [[i e1] [|]]; [|reflexivity]. destruct (aget i (e_int e1)); reflexivity.
  - left. destruct (runs e); [|reflexivity]. destruct (announce C _); reflexivity.
  - left. destruct (runs e); [|reflexivity]. unfold dialled. destruct (user_message_direct _ _ _ _ _) as [[i e1] [|]]; [|reflexivity]. destruct (aget i (e_int e1)); reflexivity.
  - unfold dial_succeeded. destruct (aget id (e_int e)) as [i|] eqn:G; [|left; reflexivity].
    destruct (N.leb_spec (in_deadline i) now) as [|L]; [left; reflexivity|]. destruct (runs e) eqn:R; [|left; reflexivity].
    right. left. exists id, now, i. cbn [orb negb]. auto.
  - unfold accept_stream. destruct (runs e) eqn:R; [|left; reflexivity]. right. right. exists from, now. auto.
  - left. destruct (k_ev (e_core e)); reflexivity.
  - left. destruct (poll_transmit C e) as [? [?|]]; reflexivity.
  - left. match goal with |- context [res ?r] => destruct r as [? []]; reflexivity end.
  - left. match goal with |- context [res ?r] => destruct r as [? []]; reflexivity end.
  - left. match goal with |- context [res ?r] => destruct r as [? []]; reflexivity end.
  - left. match goal with |- context [res ?r] => destruct r as [? []]; reflexivity end.
  - left. match goal with |- context [res ?r] => destruct r as [? []]; reflexivity end.
  - left. destruct (fst _); reflexivity.
Qed.
Lemma remove_absent id e : einv C e -> aget id (e_int e) = None -> remove_intent id e = e.
Proof.
  intros I G. unfold remove_intent. rewrite (adel_none _ _ G). rewrite di_set_absent; [destruct e; reflexivity|].
  pose proof (ei_lock _ _ I id) as L. rewrite G in L. destruct (aget id (di_cur (e_iidx e))); [discriminate|reflexivity].
Qed.
Lemma dial_unknown e o id : einv C e -> aget id (e_int e) = None -> (o = EDialFail id \/ exists now, o = EDialOk id now) -> ep_step C e o = (e, []).
Proof.
  intros I G [->|(now & ->)]; cbn [ep_step].
  - rewrite resolve_none by exact G. rewrite remove_absent by assumption. reflexivity.
  - unfold dial_succeeded. rewrite G, remove_absent by assumption. reflexivity.
Qed.
Lemma spent_op e o id : einv C e -> spent_id id e -> spent_id id (fst (ep_step C e o)).
Proof. intros I H. destruct (step_chain C e o I) as (ls & cr & S & _). eapply esteps_spent; eauto. Qed.
Lemma spent_silent e os id : einv C e -> spent_id id e -> spent_id id (fst (ep_run C e os)) /\ ~ In id (sids (snd (ep_run C e os))).
Proof.
  intros I H. apply (run_acc C (fun _ x e' => spent_id id e' /\ ~ In id (sids x)) e I).
  - split; [exact H|]. intros [].
  - clear. intros h x e o I [H N]. split; [apply spent_op; assumption|]. rewrite sids_app, in_app_iff. intros [X|X]; [exact (N X)|].
    destruct (step_sids e o) as [E|[(j & now & i & E & G & _ & _ & E2)|(from & now & E & _ & E2)]].
    + rewrite E in X. destruct X.
    + rewrite E2 in X. destruct X as [<-|[]]. destruct H. congruence.
    + rewrite E2 in X. destruct X as [<-|[]]. destruct H. lia.
Qed.
Lemma streams_once e0 os : einv C e0 -> NoDup (sids (snd (ep_run C e0 os))).
Proof.
  intros I. refine (proj1 (run_acc C (fun _ x e' => NoDup (sids x) /\ forall id, In id (sids x) -> spent_id id e') e0 I _ _ os)).
  - split; [constructor|intros ? []].
  - clear. intros h x e o I [ND H]. rewrite sids_app.
    assert (forall id, In id (sids x) -> spent_id id (fst (ep_step C e o))) as K by (intros id J; apply spent_op; auto).
    destruct (step_sids e o) as [E|[(j & now & i & E & G & _ & _ & E2)|(from & now & E & _ & E2)]].
    + rewrite E, app_nil_r. auto.
    + rewrite E2 in *. cbn [fst snd sids flat_map app] in *. fold (sids x) in *. split.
      * apply (Permutation_NoDup (l := j :: sids x)); [apply Permutation_cons_append|]. constructor; [|exact ND]. intros X. apply H in X as [_ X]. congruence.
      * intros id J. apply in_app_iff in J as [J|[<-|[]]]; [exact (K _ J)|]. split; [exact (ei_sid _ _ I _ _ G)|]. cbn. apply aget_adel_eq.
    + rewrite E2 in *. cbn [fst snd sids flat_map app] in *. fold (sids x) in *. split.
      * apply (Permutation_NoDup (l := e_sid e :: sids x)); [apply Permutation_cons_append|]. constructor; [|exact ND]. intros X. apply H in X as [X _]. lia.
      * intros id J. apply in_app_iff in J as [J|[<-|[]]]; [exact (K _ J)|]. split; [cbn; lia|]. cbn.
        destruct (aget (e_sid e) (e_int e)) eqn:G; [|reflexivity]. apply (ei_sid _ _ I) in G. lia.
Qed.
(** expiry *)
Lemma resolve_int id e j : aget j (e_int (resolve_intent id e)) = if j =? id then None else aget j (e_int e).
Proof.
  unfold resolve_intent. destruct (aget id (e_int e)) as [i|] eqn:G; [|cbn; apply aget_adel].
  assert (forall s e, e_int (retire_reliable s e) = e_int e) as R.
  { intros s e0. unfold retire_reliable. destruct (aget s (e_probes e0)) as [p|]; [destruct (p_phase p)|]; reflexivity. }
  destruct (in_kind i); rewrite ?R; cbn; apply aget_adel.
Qed.
Lemma resolve_all l : forall e j, aget j (e_int (fold_left (fun e id => resolve_intent id e) l e)) = if existsb (N.eqb j) l then None else aget j (e_int e).
Proof.
  induction l as [|a l IH]; intros e j; [reflexivity|]. cbn [fold_left existsb]. rewrite IH, resolve_int.
  destruct (j =? a); cbn [orb]; [destruct (existsb _ _)|]; reflexivity.
Qed.
Lemma expired_gone now e id i : einv C e -> aget id (e_int e) = Some i -> in_deadline i <= now -> aget id (e_int (fire_expired_intents now e)) = None.
Proof.
  intros I G L. unfold fire_expired_intents. rewrite resolve_all.
  assert (existsb (N.eqb id) (map fst (filter (fun p => in_deadline (snd p) <=? now) (e_int e))) = true) as ->; [|reflexivity].
  apply existsb_eqb_in. apply in_map_iff. exists (id, i). split; [reflexivity|]. apply filter_In. split; [apply aget_in, G|]. cbn. apply N.leb_le, L.
Qed.

(** an intent stays as it is until it is gone for good *)
Lemma estep_int e ls cr e' id i : einv C e -> estep C e ls cr e' -> aget id (e_int e) = Some i -> aget id (e_int e') = Some i \/ spent_id id e'.
Proof.
  intros I S G. pose proof (ei_sid _ _ I _ _ G) as L. unfold spent_id. destruct S; try (left; exact G).
  - destruct (fail_rest s now e) as (_ & -> & _). unfold probe_fail. rewrite H. set (e1 := e_set_acks _ _).
    set (e2 := match p_phase p with PhIndirect _ _ _ (Some rid) _ => remove_intent rid e1 | _ => e1 end).
    assert (aget id (e_int e2) = Some i \/ id < e_sid e /\ aget id (e_int e2) = None) as K.
    { unfold e2. destruct (p_phase p) as [|? ? ? [rid|] ?]; try (left; exact G). cbn. rewrite aget_adel. destruct (_ =? _); [right; auto|left; exact G]. }
    clearbody e2. destruct (p_kind p); [|exact K]. destruct (negb _); [exact K|]. destruct (same_instance _ _); exact K.
  - destruct H as (_ & _ & _ & _ & _ & _ & _ & _ & -> & _). auto.
  - destruct (gossip_rest e) as (_ & _ & _ & _ & E2 & _). destruct (gossip_batch C e) as [g ms]. cbn in *. rewrite E2. auto.
  - cbn. left. rewrite aget_aset. destruct (N.eqb_spec id (e_sid e)); [lia|exact G].
  - cbn. rewrite aget_adel. destruct (_ =? _); [right; auto|left; exact G].
  - cbn. left. rewrite (perm_aget (e_int e) _ id) by (try apply shuffle_perm; apply (ei_ind _ _ I)); exact G.
  - pose proof (leave_rest C now fw e H) as X. cbv zeta in X. destruct X as (_ & _ & _ & -> & -> & _). auto.
  - pose proof (poll_rest C e) as X. cbv zeta in X. destruct X as (_ & _ & _ & _ & -> & _). auto.
Qed.
Lemma esteps_int e ls cr e' id i : esteps C e ls cr e' -> einv C e -> aget id (e_int e) = Some i -> aget id (e_int e') = Some i \/ spent_id id e'.
Proof.
  induction 1 as [|e1 e2 e3 k1 k2 c1 c2 S T IH]; intros I G; [auto|]. pose proof (einv_step C _ _ _ _ I S) as I2.
  destruct (estep_int _ _ _ _ _ _ I S G) as [G2|P]; [auto|]. right. eapply esteps_spent; eauto.
Qed.

(** ** One timer tick *)
Definition keeps (e e' : ep) : Prop := e_fwds e' = e_fwds e /\ exists l, e_tx e' = e_tx e ++ l.
Lemma keeps_refl e : keeps e e.
Proof. split; [reflexivity|]. exists []. symmetry. apply app_nil_r. Qed.
Lemma keeps_trans a b c : keeps a b -> keeps b c -> keeps a c.
Proof. intros [F (l & T)] [F' (l' & T')]. split; [congruence|]. exists (l ++ l'). rewrite T', T, app_assoc. reflexivity. Qed.
Lemma keeps_same e e' : e_fwds e' = e_fwds e -> e_tx e' = e_tx e -> keeps e e'.
Proof. intros F T. split; [exact F|]. exists []. rewrite T. symmetry. apply app_nil_r. Qed.
Lemma keeps_fold {A} (f : ep -> A -> ep) l : (forall e a, keeps e (f e a)) -> forall e, keeps e (fold_left f l e).
Proof. intros H. induction l as [|a l IH]; intros e; [apply keeps_refl|]. cbn [fold_left]. eapply keeps_trans; [apply H|apply IH]. Qed.
Lemma keeps_push t e : keeps e (push t e).
Proof. split; [reflexivity|]. exists [t]. reflexivity. Qed.
Lemma keeps_fit to m e : keeps e (fst (push_fit C to m e)).
Proof. unfold push_fit. destruct (_ <=? _); [apply keeps_push|apply keeps_refl]. Qed.
Lemma keeps_fail s now e : keeps e (probe_fail C s now e).
Proof. destruct (fail_rest s now e) as (F & _ & T & _). apply keeps_same; assumption. Qed.
Lemma keeps_announce peer k d m e : keeps e (snd (announce C (open_intent peer k d m e))).
Proof.
  rewrite open_intent_eq. destruct (runs e); unfold announce; cbn [e_int insert_intent e_set_int e_set_iidx e_set_sid]; destruct (aget _ _); apply keeps_same; reflexivity.
Qed.
Lemma keeps_sends m l : forall st, keeps (fst st) (fst (fold_left (send_indirect C m) l st)).
Proof.
  induction l as [|a l IH]; intros st; [apply keeps_refl|]. cbn [fold_left]. eapply keeps_trans; [|apply IH].
  unfold send_indirect. pose proof (keeps_fit a m (fst st)) as K. destruct (push_fit C a m (fst st)) as [e' []]; exact K.
Qed.
Lemma keeps_fan now e s : keeps e (fan_out C now e s).
Proof.
  unfold fan_out. destruct (aget s (e_probes e)) as [p|]; [|apply keeps_refl]. cbv zeta.
  unfold pick. set (e1 := act C (KDraws _) e). assert (keeps e e1) as K1 by (apply keeps_same; reflexivity). set (ch := btake _ _). clearbody e1 ch.
  destruct (_ <=? _); [eapply keeps_trans; [exact K1|apply keeps_fail]|].
  set (R := if existsb _ _ then _ else _). assert (keeps e (snd R)) as K2.
  { eapply keeps_trans; [exact K1|]. unfold R. destruct (existsb _ _); [apply keeps_refl|]. unfold reliable_ping_direct.
    pose proof (keeps_announce (ns_addr (p_target p)) (OKReliablePing s) (p_fail p) (MPing s (lnode C) (mkNode (ns_id (p_target p)) (ns_addr (p_target p)))) e1) as K.
    destruct (announce C _). exact K. }
  destruct R as [rid e2]. cbn [snd] in K2. pose proof (keeps_sends (MIndirectPing s (lnode C) (mkNode (ns_id (p_target p)) (ns_addr (p_target p)))) ch (e2, [])) as K3.
  destruct (fold_left _ ch (e2, [])) as [e3 peers]. cbn [fst] in K3. pose proof (keeps_trans _ _ _ K2 K3) as K.
  destruct (_ && _); [eapply keeps_trans; [exact K|apply keeps_fail]|]. eapply keeps_trans; [exact K|]. apply keeps_same; reflexivity.
Qed.
Lemma keeps_fsm now e : keeps e (advance_fsm C now e).
Proof.
  unfold advance_fsm. cbv zeta. eapply keeps_trans; [apply (keeps_fold (fan_out C now)); intros; apply keeps_fan|].
  apply (keeps_fold (fun e s => probe_fail C s now e)). intros. apply keeps_fail.
Qed.
Lemma keeps_intents now e : keeps e (fire_expired_intents now e).
Proof.
  unfold fire_expired_intents. apply (keeps_fold (fun e id => resolve_intent id e)). intros e0 id. apply keeps_same; unfold resolve_intent;
    destruct (aget id (e_int e0)) as [i|]; try reflexivity; destruct (in_kind i); try reflexivity; unfold retire_reliable;
    destruct (aget _ _) as [p|]; try reflexivity; destruct (p_phase p); reflexivity.
Qed.
Lemma keeps_start now e : keeps e (start_probe C now e).
Proof.
  unfold start_probe. destruct (negb _); [apply keeps_refl|]. unfold next_target. destruct (scan C _ _ _) as [[id cur]|]; [|apply keeps_refl].
  destruct (aget id _) as [m|]; [|apply keeps_same; reflexivity].
  destruct (alloc_seq _) as [[s e1]|] eqn:A; [|apply keeps_same; reflexivity]. apply alloc_seq_spec in A as (-> & _).
  cbv zeta. match goal with |- keeps e (let '(_, _) := ?x in _) => set (R := x) end.
  assert (keeps e (fst R)) as K.
  { unfold R. match goal with |- context [push_fit C _ _ ?x] => set (e1 := x) end. assert (keeps e e1) as K0 by (apply keeps_same; reflexivity). clearbody e1.
    eapply keeps_trans; [exact K0|]. destruct (pstate_eqb _ _); [|apply keeps_fit]. destruct (_ <=? _); [apply keeps_push|].
    pose proof (keeps_fit (ns_addr (m_server m)) (MPing s (lnode C) (mkNode id (ns_addr (m_server m)))) e1) as K1.
    destruct (push_fit C _ _ e1) as [e2 d]. cbn [fst] in *. eapply keeps_trans; [exact K1|apply keeps_fit]. }
  destruct R as [e2 sent]. eapply keeps_trans; [exact K|]. apply keeps_same; reflexivity.
Qed.
Lemma keeps_probe now e : keeps e (fire_probe C now e).
Proof.
  unfold fire_probe. destruct (e_np e); [|apply keeps_refl]. destruct (_ <? _); [apply keeps_refl|]. cbv zeta.
  set (e1 := if _ && _ then _ else _). assert (keeps e e1) as K by (unfold e1; destruct (_ && _); apply keeps_same; reflexivity). clearbody e1.
  eapply keeps_trans; [exact K|]. eapply keeps_trans; [apply (keeps_start now)|]. apply keeps_same; reflexivity.
Qed.
Lemma keeps_gossip now e : keeps e (fire_gossip C now e).
Proof.
  unfold fire_gossip. destruct (e_ng e); [|apply keeps_refl]. destruct (_ <? _); [apply keeps_refl|]. unfold pick.
  set (e1 := act C (KDraws _) e). assert (keeps e e1) as K by (apply keeps_same; reflexivity). clearbody e1.
  destruct (btake _ _); [eapply keeps_trans; [exact K|apply keeps_same; reflexivity]|].
  destruct (gossip_rest e1) as (_ & _ & F & _ & _ & T & _). destruct (gossip_batch C e1) as [g ms]. cbn [fst] in *.
  eapply keeps_trans; [exact K|]. split; [exact F|]. cbn [e_tx e_set_ng e_set_tx]. rewrite T. eauto.
Qed.
Lemma keeps_pp now e : keeps e (fire_pushpull C now e).
Proof.
  unfold fire_pushpull. destruct (e_npp e); [|apply keeps_refl]. destruct (_ <? _); [apply keeps_refl|]. cbv zeta.
  match goal with |- keeps e (e_set_npp _ ?x) => set (e1 := x) end.
  assert (keeps e e1) as K; [|eapply keeps_trans; [exact K|apply keeps_same; reflexivity]].
  unfold e1. destruct (live_addrs C e) as [|a l]; [apply keeps_refl|]. unfold pick. destruct (btake _ _); [apply keeps_same; reflexivity|].
  eapply keeps_trans; [|apply keeps_announce]. apply keeps_same; reflexivity.
Qed.
Lemma keeps_refresh e : keeps e (refresh_cache e).
Proof. unfold refresh_cache. destruct (_ && _); apply keeps_same; reflexivity. Qed.

Lemma timeout_split now e : einv C e -> runs e = true -> exists e2,
  let e3 := fire_expired_forwards now e2 in let e4 := fire_expired_intents now e3 in
  eto C e e2 /\ keeps e e2 /\ eto C e3 e4 /\ keeps e3 e4 /\ eto C e4 (handle_timeout C now e) /\ keeps e4 (handle_timeout C now e) /\
  einv C e2 /\ einv C e3 /\ einv C e4 /\ runs e2 = true.
Proof.
  intros I R. set (e1 := act C (KExpire now) e). assert (eto C e e1) as T by (apply eto_core; exact Logic.I).
  assert (forall a b, einv C a -> eto C a b -> einv C b) as EI by (intros a b Ia (ks & S & _); eapply einv_steps; eauto).
  pose proof (EI _ _ I T) as I1. exists (advance_fsm C now e1). cbv zeta.
  assert (eto C e1 (advance_fsm C now e1)) as T2.
  { apply advance_fsm_to; [exact (runs_eto C _ _ T R)|apply (ei_pnd _ _ I1)|apply einv_shape, I1]. }
  assert (keeps e (advance_fsm C now e1)) as K2 by (eapply keeps_trans; [|apply keeps_fsm]; apply keeps_same; reflexivity).
  assert (handle_timeout C now e = refresh_cache (fire_pushpull C now (fire_gossip C now (fire_probe C now
    (fire_expired_intents now (fire_expired_forwards now (advance_fsm C now e1))))))) as E by (unfold handle_timeout; rewrite R; reflexivity).
  rewrite E. clear E. pose proof (EI _ _ I1 T2) as I2. pose proof (eto_trans C _ _ _ T T2) as T02.
  set (e2 := advance_fsm C now e1) in *. clearbody e2. clear e1 T T2 I1.
  pose proof (runs_eto C _ _ T02 R) as R2. pose proof (expire_forwards_to C now e2 R2) as T3. pose proof (EI _ _ I2 T3) as I3.
  set (e3 := fire_expired_forwards now e2) in *. pose proof (runs_eto C _ _ T3 R2) as R3.
  pose proof (expire_intents_to C now e3) as T4. pose proof (EI _ _ I3 T4) as I4. pose proof (runs_eto C _ _ T4 R3) as R4.
  pose proof (keeps_intents now e3) as K4. set (e4 := fire_expired_intents now e3) in *. clearbody e4.
  pose proof (fire_probe_to C now e4 R4 (ei_core _ _ I4)) as T5. pose proof (keeps_probe now e4) as K5. pose proof (runs_eto C _ _ T5 R4) as R5.
  set (e5 := fire_probe C now e4) in *. clearbody e5. pose proof (fire_gossip_to C now e5 R5) as T6. pose proof (keeps_gossip now e5) as K6.
  pose proof (runs_eto C _ _ T6 R5) as R6. set (e6 := fire_gossip C now e5) in *. clearbody e6.
  pose proof (fire_pushpull_to C now e6 R6) as T7. pose proof (keeps_pp now e6) as K7. set (e7 := fire_pushpull C now e6) in *. clearbody e7.
  split; [exact T02|]. split; [exact K2|]. split; [exact T4|]. split; [exact K4|].
  split; [eapply eto_trans; [exact T5|]; eapply eto_trans; [exact T6|]; eapply eto_trans; [exact T7|]; apply refresh_to|].
  split; [eapply keeps_trans; [exact K5|]; eapply keeps_trans; [exact K6|]; eapply keeps_trans; [exact K7|]; apply keeps_refresh|]. auto.
Qed.
Lemma eto_int e e' id i : eto C e e' -> einv C e -> aget id (e_int e) = Some i -> aget id (e_int e') = Some i \/ spent_id id e'.
Proof. intros (ls & S & _). eapply esteps_int; eauto. Qed.
Lemma eto_spent e e' id : eto C e e' -> einv C e -> spent_id id e -> spent_id id e'.
Proof. intros (ls & S & _). eapply esteps_spent; eauto. Qed.
Lemma timeout_intents now e id i : einv C e -> runs e = true -> aget id (e_int e) = Some i -> in_deadline i <= now ->
  spent_id id (handle_timeout C now e).
Proof.
  intros I R G L. destruct (timeout_split now e I R) as (e2 & T2 & _ & T4 & _ & T5 & _ & I2 & I3 & I4 & R2). cbv zeta in *.
  apply (eto_spent _ _ id T5 I4). pose proof (expire_forwards_to C now e2 R2) as T3.
  destruct (eto_int _ _ _ _ T2 I G) as [G2|P]; [|apply (eto_spent _ _ id T4 I3), (eto_spent _ _ id T3 I2 P)].
  destruct (eto_int _ _ _ _ T3 I2 G2) as [G3|P]; [|apply (eto_spent _ _ id T4 I3 P)].
  destruct (eto_int _ _ _ _ T4 I3 G3) as [G4|P]; [|exact P].
  rewrite (expired_gone now _ _ _ I3 G3 L) in G4. discriminate.
Qed.
(** relays whose time is up *)
Lemma expire_fold l : forall e s f, aget s (e_fwds e) = Some f -> In s l ->
  let e' := fold_left expire_forward l e in
  aget s (e_fwds e') = None /\ In (TPacket (f_reply f) (MNack (f_rseq f))) (e_tx e').
Proof.
  assert (forall l e s, (aget s (e_fwds e) = None -> aget s (e_fwds (fold_left expire_forward l e)) = None) /\
    (exists x, e_tx (fold_left expire_forward l e) = e_tx e ++ x)) as K.
  { clear l. induction l as [|a l0 IH]; intros e s; cbn [fold_left]; [split; [auto|exists []; symmetry; apply app_nil_r]|].
    destruct (IH (expire_forward e a) s) as [A (x & B)]. unfold expire_forward in *. destruct (aget a (e_fwds e)) as [f|] eqn:Ga; [|eauto].
    split.
    - intros G. apply A. cbn. rewrite aget_adel. destruct (_ =? _); [reflexivity|exact G].
    - rewrite B. cbn [e_tx push e_set_tx e_set_acks e_set_fwds]. rewrite <- app_assoc. eauto. }
  induction l as [|a l IH]; intros e s f G I; [destruct I|]. destruct I as [->|I]; cbv zeta; cbn [fold_left].
  - destruct (K l (expire_forward e s) s) as [A (x & B)]. unfold expire_forward in *. rewrite G in *. split.
    + apply A. cbn. apply aget_adel_eq.
    + rewrite B. apply in_or_app. left. cbn. apply in_or_app. right. left. reflexivity.
  - destruct (N.eqb_spec s a) as [->|NE].
    + destruct (K l (expire_forward e a) a) as [A (x & B)]. unfold expire_forward in *. rewrite G in *. split.
      * apply A. cbn. apply aget_adel_eq.
      * rewrite B. apply in_or_app. left. cbn. apply in_or_app. right. left. reflexivity.
    + apply IH; [|exact I]. unfold expire_forward. destruct (aget a (e_fwds e)); [|exact G]. cbn. rewrite aget_adel_ne by exact NE. exact G.
Qed.
Lemma timeout_fwds now e s f : einv C e -> runs e = true -> aget s (e_fwds e) = Some f -> f_deadline f <= now ->
  aget s (e_fwds (handle_timeout C now e)) = None /\ In (TPacket (f_reply f) (MNack (f_rseq f))) (e_tx (handle_timeout C now e)).
Proof.
  intros I R G L. destruct (timeout_split now e I R) as (e2 & _ & [F2 (x2 & X2)] & _ & [F4 (x4 & X4)] & _ & [F5 (x5 & X5)] & I2 & _). cbv zeta in *.
  rewrite F5, X5, F4, X4. rewrite <- F2 in G. destruct (expire_fold (map fst (filter (fun p => f_deadline (snd p) <=? now) (e_fwds e2))) e2 s f G) as [A B].
  { apply in_map_iff. exists (s, f). split; [reflexivity|]. apply filter_In. split; [apply aget_in, G|]. cbn. apply N.leb_le, L. }
  split; [exact A|]. apply in_or_app. left. apply in_or_app. left. exact B.
Qed.
(** and those whose time is not *)
Lemma expire_other l : forall e s, ~ In s l -> aget s (e_fwds (fold_left expire_forward l e)) = aget s (e_fwds e).
Proof.
  induction l as [|a l IH]; intros e s N; [reflexivity|]. cbn [fold_left]. rewrite IH by (intros X; apply N; right; exact X).
  unfold expire_forward. destruct (aget a (e_fwds e)); [|reflexivity]. cbn. apply aget_adel_ne. intros ->. apply N. left. reflexivity.
Qed.
Lemma timeout_fwds_wait now e s f : einv C e -> runs e = true -> aget s (e_fwds e) = Some f -> now < f_deadline f ->
  aget s (e_fwds (handle_timeout C now e)) = Some f.
Proof.
  intros I R G L. destruct (timeout_split now e I R) as (e2 & _ & [F2 _] & _ & [F4 _] & _ & [F5 _] & I2 & _). cbv zeta in *.
  rewrite F5, F4. rewrite <- F2 in G. unfold fire_expired_forwards. rewrite expire_other; [exact G|].
  intros X. apply in_map_iff in X as ((s' & f') & <- & X). apply filter_In in X as [X D]. cbn [fst snd] in *.
  apply (aget_of_in _ _ _ (ei_fnd _ _ I2)) in X. rewrite X in G. apply Some_inj in G as ->. apply N.leb_le in D. lia.
Qed.

(** ** Answers *)
Definition news (m : msg) : Prop := match m with MAlive _ | MSuspect _ _ _ | MDead _ _ _ => True | _ => False end.
Definition gq (k : core) : Prop := wfq (mbcast C) (k_bc k) /\ forall b, In b (map i_b (bq_q (k_bc k))) -> news (snd b).
Lemma gq_bstep k k' b : enc_ok C -> gq k -> k_bc k' = fst (bq_step (mbcast C) (k_bc k) b) -> (forall x, b = OQueue x -> news (snd x)) -> gq k'.
Proof.
  intros HE [W H] E Q. unfold gq. rewrite E. split; [apply wfq_step; [apply len_ok_mbcast, HE|exact W]|].
  intros x X. apply (step_from_queue (mbcast C) (k_bc k) b W) in X as [X|X]; auto.
Qed.
Lemma gq_bcast k k' id x : enc_ok C -> gq k -> k_bc k' = k_bc (bcast C id x k) -> news x -> gq k'.
Proof. intros HE H E N. eapply (gq_bstep k k' (OQueue (id, x))); eauto. intros y [= <-]. exact N. Qed.
Lemma gq_ext k k' : gq k -> k_bc k' = k_bc k -> gq k'.
Proof. unfold gq. intros H ->. exact H. Qed.
Lemma gq_step o now k k' : enc_ok C -> kstep C o now k k' -> gq k -> gq k'.
Proof.
  intros HE S H. destruct S; try (eapply gq_ext; [exact H|reflexivity]); try (eapply gq_bcast; [exact HE|exact H|reflexivity|exact Logic.I]).
  - cbn zeta. eapply (gq_bcast k _ (al_id al) (MAlive al)); [exact HE|exact H| |exact Logic.I].
    destruct takeover; destruct (dead_or_left _); try destruct (negb _); reflexivity.
  - apply (gq_ext k); [exact H|]. unfold reset_members. set (ids := map fst _).
    assert (forall l k0, k_bc (fold_left (fun k id => k_set_mem (adel id (k_mem k)) (k_set_sidx (di_set id None (k_sidx k)) k)) l k0) = k_bc k0) as E
      by (induction l as [|a l IH]; intros k0; cbn [fold_left]; [reflexivity|rewrite IH; reflexivity]).
    cbn. rewrite E. destruct ids; reflexivity.
  - eapply gq_bstep; [exact HE|exact H|reflexivity|]. intros x ->. destruct o; contradiction.
Qed.
Lemma gq_op o k : enc_ok C -> kinv C k -> gq k -> gq (fst (core_step C k o)).
Proof.
  intros HE K H. pose proof (core_step_steps C k o K) as S. revert H. induction S as [|? ? ? S _ IH]; [auto|]. intros H.
  apply IH; [eapply kinv_step; eauto|]. eapply gq_step; eauto.
Qed.
Lemma gq_run os : enc_ok C -> forall k, kinv C k -> gq k -> gq (fst (core_run C k os)).
Proof.
  intros HE k K H. rewrite core_run_fst. revert k K H. induction os as [|o os IH]; intros k K H; [exact H|]. cbn [fold_left].
  apply IH; [apply kinv_core_step, K|apply gq_op; assumption].
Qed.
Lemma gq_new t0 : enc_ok C -> gq (core_new C t0).
Proof.
  intros HE. apply (gq_bcast (k_set_bc bq_new (core_new C t0)) _ LID (MAlive (alive_of (c_inc0 C) (mkNS LID (c_addr C) PAlive (c_meta0 C) (c_pv C) (c_dv C))))); [exact HE| |reflexivity|exact Logic.I].
  split; [apply wfq_new|]. intros b [].
Qed.
End Runs.
