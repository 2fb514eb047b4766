(** The probe rounds over whole histories: every member that stays is probed
    within two rounds (C84). *)
From Coq Require Import Permutation.
From Verif Require Import EndpointModel MapFacts BaseFacts AwarenessModel AwarenessFacts CoreFacts CoreInv CoreSteps CoreTrans CoreHist EndpointSteps EndpointInv EndpointHist EndpointRuns EndpointFacts EndpointProbes EndpointUpkeep EndpointUser EndpointDetect EndpointEscalate EndpointOutcome.
Local Open Scope N_scope.

Section Rounds.
Context (C : cfg).
Notation LID := (c_id C).
Notation kinv := (kinv C).

(** ** Calls that do not reshuffle *)
Definition not_reset (o : cop) : Prop := match o with KReset _ => False | _ => True end.
(** [u] plays no part; it keeps the statements like those of EndpointDetect.v *)
Definition calm (u : N) (e e' : ep) : Prop := does C not_reset e e'.
Lemma calm_refl u e : calm u e e.
Proof. apply does_refl. Qed.
Lemma calm_same u e e' : e_core e' = e_core e -> calm u e e'.
Proof. apply does_same. Qed.
Lemma calm_trans u a b c : calm u a b -> calm u b c -> calm u a c.
Proof. apply does_trans. Qed.
Lemma calm_act u o e : not_reset o -> calm u e (act C o e).
Proof. apply does_act. Qed.
Lemma calm_then u e e1 e' : e_core e1 = e_core e -> calm u e1 e' -> calm u e e'.
Proof. apply does_then. Qed.
Lemma calm_fold {A} u (f : ep -> A -> ep) l : (forall e a, calm u e (f e a)) -> forall e, calm u e (fold_left f l e).
Proof. apply does_fold. Qed.
Lemma calm_fail s now e : calm now e (probe_fail C s now e).
Proof.
  unfold probe_fail. destruct (aget s (e_probes e)) as [p|]; [|apply calm_refl]. cbv zeta. set (e1 := e_set_acks _ _).
  set (e2 := match p_phase p with PhIndirect _ _ _ (Some rid) _ => remove_intent rid e1 | _ => e1 end).
  assert (e_core e2 = e_core e) as E by (unfold e2; destruct (p_phase p) as [|? ? ? [?|] ?]; reflexivity). clearbody e2. apply (calm_then _ _ e2); [exact E|].
  destruct (p_kind p); [destruct (negb _); [apply calm_refl|]; destruct (same_instance _ _)|apply calm_act; exact Logic.I].
  - eapply calm_trans; apply calm_act; exact Logic.I.
  - apply calm_act; exact Logic.I.
Qed.
Lemma calm_ok s d pl now e : calm now e (probe_ok C s d pl now e).
Proof.
  unfold probe_ok. destruct (aget s (e_probes e)) as [p|]; [|apply calm_refl]. destruct (_ <=? _); [apply calm_fail|]. cbv zeta. set (e1 := e_set_acks _ _).
  apply (calm_then _ _ e1); [reflexivity|]. destruct (p_kind p); [destruct d|]; try (apply calm_act; exact Logic.I).
  eapply calm_trans; apply calm_act; exact Logic.I.
Qed.
Lemma calm_ack from s pl now e : calm now e (handle_ack C from s pl now e).
Proof.
  unfold handle_ack. destruct (ack_get s (e_acks e)) as [a|]; [|apply calm_refl]. destruct (negb _); [apply calm_refl|].
  match goal with |- calm _ e (if ?b then _ else _) => destruct b; [apply calm_refl|] end. cbv zeta.
  set (e1 := e_set_acks _ e). apply (calm_then _ _ e1); [reflexivity|]. destruct (a_kind a); try apply calm_ok.
  destruct (aget s (e_fwds e1)); [apply calm_same; reflexivity|apply calm_refl].
Qed.
Lemma calm_announce u peer k d m e : calm u e (snd (announce C (open_intent peer k d m e))).
Proof.
  rewrite open_intent_eq. destruct (runs e); unfold announce; cbn [e_int insert_intent e_set_int e_set_iidx e_set_sid]; destruct (aget _ _); cbn [snd];
    try (apply calm_same; reflexivity). match goal with |- calm _ _ (act C _ ?x) => apply (calm_then _ _ x); [reflexivity|] end. apply calm_act; exact Logic.I.
Qed.
Lemma calm_pick u k pool e : calm u e (snd (pick C k pool e)).
Proof. unfold pick. cbn [snd]. apply calm_act; exact Logic.I. Qed.
Lemma calm_fan now e s : calm now e (fan_out C now e s).
Proof.
  unfold fan_out. destruct (aget s (e_probes e)) as [p|]; [|apply calm_refl]. cbv zeta.
  pose proof (calm_pick now (c_indirect C) (fan_helpers C (ns_addr (p_target p)) e) e) as A1. destruct (pick C _ _ e) as [ch e1]. cbn [snd] in A1.
  eapply calm_trans; [exact A1|]. clear A1 e. destruct (_ <=? _); [apply calm_fail|].
  match goal with |- calm _ _ (let '(_, _) := ?Y in _) => assert (calm now e1 (snd Y)) as A2 end.
  { destruct (existsb _ _); [apply calm_refl|]. unfold reliable_ping_direct. match goal with |- context [announce C (open_intent ?a ?b ?c ?d ?x)] => pose proof (calm_announce now a b c d x) as AN end.
    destruct (announce C _). exact AN. }
  match goal with |- calm _ _ (let '(_, _) := ?Y in _) => destruct Y as [rid e2] end. cbn [snd] in A2. eapply calm_trans; [exact A2|]. clear A2 e1.
  match goal with |- calm _ _ (let '(_, _) := fold_left (send_indirect C ?m) ?l ?st in _) => pose proof (sends_core C m l st) as E; destruct (fold_left (send_indirect C m) l st) as [e3 peers] end.
  cbn [fst] in E. apply (calm_then _ _ e3); [exact E|]. destruct (_ && _); [apply calm_fail|apply calm_same; reflexivity].
Qed.
Lemma calm_fsm now e : calm now e (advance_fsm C now e).
Proof.
  unfold advance_fsm. cbv zeta. eapply calm_trans; [apply (calm_fold now (fan_out C now)); intros; apply calm_fan|].
  apply (calm_fold now (fun e s => probe_fail C s now e)). intros. apply calm_fail.
Qed.
Lemma calm_start u now e : calm u e (start_probe C now e).
Proof. apply calm_same, start_core. Qed.
Lemma calm_gossip now e : calm now e (fire_gossip C now e).
Proof.
  unfold fire_gossip. destruct (e_ng e); [|apply calm_refl]. destruct (_ <? _); [apply calm_refl|].
  pose proof (calm_pick now (c_gossip_nodes C) (map (fun p => ns_addr (m_server (snd p))) (filter (gossip_target C now) (k_mem (e_core e)))) e) as AN. destruct (pick C _ _ e) as [t e1]. cbn [snd] in AN.
  eapply calm_trans; [exact AN|]. destruct t; [apply calm_same; reflexivity|]. pose proof (gossip_core C e1) as G. destruct (gossip_batch C e1) as [e2 ms]. cbn [fst] in G.
  apply (calm_trans _ _ (act C (gossip_op C e1) e1)); [|apply calm_same; exact G]. apply calm_act. unfold gossip_op. destruct (peek_first_sendable _ _); try (destruct (_ <? _)); exact Logic.I.
Qed.
Lemma calm_pp now e : calm now e (fire_pushpull C now e).
Proof.
  unfold fire_pushpull. destruct (e_npp e); [|apply calm_refl]. destruct (_ <? _); [apply calm_refl|]. cbv zeta.
  match goal with |- calm _ e (e_set_npp _ ?x) => apply (calm_trans _ _ x); [|apply calm_same; reflexivity] end.
  destruct (live_addrs C e) as [|y ys]; [apply calm_refl|]. pose proof (calm_pick now 1 (y :: ys) e) as AN. destruct (pick C _ _ e) as [t e1]. cbn [snd] in AN.
  destruct t as [|peer t]; [exact AN|]. eapply calm_trans; [exact AN|]. apply calm_announce.
Qed.
Lemma calm_refresh u e : calm u e (refresh_cache e).
Proof. unfold refresh_cache. destruct (_ && _); apply calm_same; reflexivity. Qed.
Lemma calm_packet from m now e : calm now e (handle_packet C from m now e).
Proof.
  unfold handle_packet. destruct (negb _); [apply calm_refl|]. destruct m; try apply calm_refl; try (apply calm_act; exact Logic.I).
  - apply calm_same. unfold handle_ping. destruct (negb _); reflexivity.
  - apply calm_same, indirect_core.
  - apply calm_ack.
  - apply calm_same, nack_core.
Qed.
Lemma calm_merge peer st us j sid now e : calm now e (merge_in C peer st us j sid now e).
Proof.
  unfold merge_in. cbv zeta. apply (calm_trans _ _ (act C (KMerge st now) e)); [apply calm_act; exact Logic.I|].
  destruct us; [apply calm_refl|apply calm_act; exact Logic.I].
Qed.
Lemma calm_stream ev now e : calm (optime (EStreamEv ev now)) e (fst (handle_stream_event C ev now e)).
Proof.
  unfold handle_stream_event. destruct ev; cbn [optime]; try (destruct (runs e); cbn [negb fst]; try apply calm_refl).
  - destruct (e_merge e _); [apply calm_merge|apply calm_refl].
  - destruct (e_merge e _); [apply calm_merge|apply calm_refl].
  - apply calm_ok.
  - apply calm_same, retire_core.
  - apply calm_act; exact Logic.I.
Qed.
Lemma calm_dialled u peer k d m e : calm u e (fst (dialled (open_intent peer k d m e))).
Proof. rewrite open_intent_eq. destruct (runs e); apply calm_same; reflexivity. Qed.
Lemma calm_stagger u i e : calm u e (snd (stagger C i e)).
Proof. unfold stagger. cbv zeta. destruct (_ =? 0); [apply calm_refl|apply calm_act; exact Logic.I]. Qed.
Lemma calm_schedule u now e : calm u e (start_scheduling C now e).
Proof.
  unfold start_scheduling. destruct (negb _); [apply calm_refl|]. cbv zeta.
  assert (forall (b : bool) i (f : N -> ep -> ep) x, (forall n y, e_core (f n y) = e_core y) -> calm u x (if b then let '(s, x') := stagger C i x in f s x' else x)) as H.
  { intros b i f x F. destruct b; [|apply calm_refl]. pose proof (calm_stagger u i x) as A. destruct (stagger C i x) as [n x']. cbn [snd] in A. eapply calm_trans; [exact A|]. apply calm_same, F. }
  eapply calm_trans; [|apply H; reflexivity]. eapply calm_trans; [|apply H; reflexivity]. apply H. reflexivity.
Qed.
Lemma calm_op e o : (forall now, o <> ETimeout now) -> (forall now, o <> EReset now) -> (forall now fw, o <> ELeave now fw) -> calm (optime o) e (fst (ep_step C e o)).
Proof.
  intros NT NR NL. destruct o; try (destruct (NL now farewell); reflexivity); try (destruct (NT now); reflexivity); try (destruct (NR now); reflexivity); cbn [ep_step optime fst];
    try (apply calm_act; exact Logic.I); try (apply calm_same; reflexivity).
  - apply calm_packet.
  - apply calm_stream.
  - pose proof (ping_core C nd now e) as P. destruct (ping C nd now e) as [e' r]. apply calm_same, P.
  - apply calm_start.
  - unfold push_pull_direct. match goal with |- context [announce C (open_intent ?a ?b ?c ?d ?x)] => pose proof (calm_announce 0 a b c d x) as A; destruct (announce C _) end. exact A.
  - apply calm_dialled.
  - unfold reliable_ping_direct. match goal with |- context [announce C (open_intent ?a ?b ?c ?d ?x)] => pose proof (calm_announce 0 a b c d x) as A; destruct (announce C _) end. exact A.
  - apply calm_dialled.
  - destruct (runs e) eqn:R; [|apply calm_refl]. unfold user_message_direct. rewrite R. cbn [negb].
    match goal with |- context [announce C (open_intent ?a ?b ?c ?d ?x)] => pose proof (calm_announce 0 a b c d x) as A; destruct (announce C _) end. exact A.
  - destruct (runs e) eqn:R; [|apply calm_refl]. unfold user_message_direct. rewrite R. cbn [negb]. apply calm_dialled.
  - unfold dial_succeeded. destruct (aget id (e_int e)) as [i|]; [|apply calm_same; reflexivity]. destruct (_ || _); apply calm_same; [apply resolve_core|reflexivity].
  - apply calm_same, resolve_core.
  - unfold accept_stream. destruct (negb _); [apply calm_refl|]. apply calm_same. reflexivity.
  - pose proof (poll_transmit_core C e) as P. destruct (poll_transmit C e) as [e' r]. cbn [fst] in *. exists (poll_ops e). split; [exact P|].
    unfold poll_ops. destruct (e_tx e); [constructor|]. destruct (e_flush e); [|constructor]. destruct (_ <=? _); [|constructor].
    constructor; [exact Logic.I|constructor].
  - unfold res, set_ack_payload. destruct (negb _); [apply calm_refl|]. destruct (_ <? _); apply calm_same; reflexivity.
  - unfold res, set_snapshot. destruct (negb _); [apply calm_refl|]. destruct (snapshot_fits _ _); apply calm_same; reflexivity.
  - unfold res, queue_user. destruct (negb _); [apply calm_refl|]. destruct (_ <? _); apply calm_same; reflexivity.
  - unfold res, send_user. destruct (negb _); [apply calm_refl|]. destruct (_ <? _); apply calm_same; reflexivity.
  - unfold res, send_users. destruct (negb _) eqn:R; [apply calm_refl|]. destruct l as [|d [|d' l]]; [apply calm_refl| |].
    + unfold send_user. rewrite R. destruct (_ <? _); apply calm_same; reflexivity.
    + cbv zeta. destruct (_ <? _); apply calm_same; reflexivity.
  - apply calm_schedule.
Qed.
(** ** The cursor *)
Lemma alloc_pidx e s e' : alloc_seq e = Some (s, e') -> e_pidx e' = e_pidx e.
Proof. unfold alloc_seq. destruct (seq_loop _ _ _); [|discriminate]. intros H. injection H as _ <-. reflexivity. Qed.
Lemma retire_pidx s e : e_pidx (retire_reliable s e) = e_pidx e.
Proof. unfold retire_reliable. destruct (aget s (e_probes e)) as [p|]; [|reflexivity]. destruct (p_phase p); reflexivity. Qed.
Lemma resolve_pidx id e : e_pidx (resolve_intent id e) = e_pidx e.
Proof. unfold resolve_intent. destruct (aget id (e_int e)) as [i|]; [|reflexivity]. cbv zeta. destruct (in_kind i); try reflexivity. rewrite retire_pidx. reflexivity. Qed.
Lemma fail_pidx s now e : e_pidx (probe_fail C s now e) = e_pidx e.
Proof.
  unfold probe_fail. destruct (aget s (e_probes e)) as [p|]; [|reflexivity]. cbv zeta.
  destruct (p_phase p) as [|? ? ? [?|] ?], (p_kind p); try reflexivity; destruct (negb _); try reflexivity; destruct (same_instance _ _); reflexivity.
Qed.
Lemma ok_pidx s d pl now e : e_pidx (probe_ok C s d pl now e) = e_pidx e.
Proof.
  unfold probe_ok. destruct (aget s (e_probes e)) as [p|]; [|reflexivity]. destruct (_ <=? _); [apply fail_pidx|]. cbv zeta.
  destruct (p_kind p); [|reflexivity]. destruct d; reflexivity.
Qed.
Lemma push_fit_pidx to m e : e_pidx (fst (push_fit C to m e)) = e_pidx e.
Proof. unfold push_fit. destruct (_ <=? _); reflexivity. Qed.
Lemma open_pidx peer k d m e : e_pidx (snd (fst (open_intent peer k d m e))) = e_pidx e.
Proof. rewrite open_intent_eq. destruct (runs e); reflexivity. Qed.
Lemma announce_pidx r : e_pidx (snd (announce C r)) = e_pidx (snd (fst r)).
Proof. destruct r as [[id e] ok]. unfold announce. cbn [fst snd]. destruct (aget id (e_int e)); [|reflexivity]. destruct ok; reflexivity. Qed.
Lemma packet_pidx from m now e : e_pidx (handle_packet C from m now e) = e_pidx e.
Proof.
  unfold handle_packet. destruct (negb (runs e)); [reflexivity|]. destruct m; try reflexivity.
  - unfold handle_ping. destruct (negb _); reflexivity.
  - unfold handle_indirect_ping. destruct (negb _); [reflexivity|]. destruct (_ <=? _); [reflexivity|]. destruct (existsb _ _); [reflexivity|].
    destruct (alloc_seq e) as [[s e']|] eqn:A; [|reflexivity]. cbv zeta. apply alloc_pidx in A. destruct (negb _); exact A.
  - unfold handle_ack. destruct (ack_get _ _) as [a|]; [|reflexivity]. destruct (negb _); [reflexivity|].
    match goal with |- context [if ?b then e else _] => destruct b end; [reflexivity|]. cbv zeta.
    destruct (a_kind a); try (rewrite ok_pidx; reflexivity). match goal with |- context [aget ?s (e_fwds ?x)] => destruct (aget s (e_fwds x)) end; reflexivity.
  - unfold handle_nack. destruct (aget _ _) as [p|]; [|reflexivity]. destruct (_ <=? _); [reflexivity|]. destruct (p_phase p); [reflexivity|]. destruct (_ && _); reflexivity.
Qed.
Lemma fold_pidx {A} (f : ep -> A -> ep) l : (forall e a, e_pidx (f e a) = e_pidx e) -> forall e, e_pidx (fold_left f l e) = e_pidx e.
Proof. intros H. induction l as [|a l IH]; intros e; [reflexivity|]. cbn [fold_left]. rewrite IH. apply H. Qed.
Lemma gossip_batch_pidx e : e_pidx (fst (gossip_batch C e)) = e_pidx e.
Proof.
  unfold gossip_batch. destruct (peek_first_sendable _ _); [destruct (_ <? _); [reflexivity|]|];
    destruct (take_broadcasts_measured _ _ _ _ _) as [[Q got] used]; unfold drain_user; destruct (ub_take _ _ _ _ _) as [[? ?] ?]; reflexivity.
Qed.
Lemma fan_pidx now e s : e_pidx (fan_out C now e s) = e_pidx e.
Proof.
  unfold fan_out. destruct (aget s (e_probes e)) as [p|]; [|reflexivity]. cbv zeta. unfold pick. cbv zeta.
  match goal with |- context [act C (KDraws ?n) e] => set (e1 := act C (KDraws n) e); change (e_pidx e) with (e_pidx e1); generalize e1; clear e1 end. intros e1.
  destruct (p_fail p <=? now); [apply fail_pidx|].
  match goal with |- e_pidx (let '(rid, e0) := ?x in _) = _ => assert (e_pidx (snd x) = e_pidx e1) as E; [|destruct x as [rid e2]; cbn [snd] in E; rewrite <- E; clear E] end.
  { destruct (existsb _ _); [reflexivity|]. pose proof (announce_pidx (reliable_ping_direct C (ns_id (p_target p)) (ns_addr (p_target p)) s (p_fail p) e1)) as A.
    destruct (announce C _) as [rid e2]. cbn [snd] in *. rewrite A. apply open_pidx. }
  match goal with |- context [fold_left (send_indirect C ?m) ?l ?st] =>
    assert (forall l0 st0, e_pidx (fst (fold_left (send_indirect C m) l0 st0)) = e_pidx (fst st0)) as F end.
  { induction l0 as [|a l0 IH]; intros st0; [reflexivity|]. cbn [fold_left]. rewrite IH. unfold send_indirect.
    pose proof (push_fit_pidx a (MIndirectPing s (lnode C) (mkNode (ns_id (p_target p)) (ns_addr (p_target p)))) (fst st0)) as X. destruct (push_fit C _ _ _). exact X. }
  match goal with |- context [fold_left (send_indirect C ?m) ?l ?st] => specialize (F l st); destruct (fold_left (send_indirect C m) l st) as [e3 peers] end. cbn [fst] in F. rewrite <- F.
  destruct (_ && _); [apply fail_pidx|reflexivity].
Qed.
Lemma step_pidx e o : (forall now, o <> ETimeout now) -> (forall now, o <> EReset now) -> (forall now fw, o <> ELeave now fw) -> (forall now, o <> EStartProbe now) -> e_pidx (fst (ep_step C e o)) = e_pidx e.
Proof.
  intros NT NR NL NS. destruct o; try (destruct (NL now farewell); reflexivity); try (destruct (NT now); reflexivity); try (destruct (NR now); reflexivity); try (destruct (NS now); reflexivity); cbn [ep_step fst]; try reflexivity.
  - apply packet_pidx.
  - unfold handle_stream_event. destruct ev; try reflexivity; destruct (runs e); cbn [negb]; try reflexivity.
    + destruct (e_merge e _) eqn:M; [|reflexivity]. unfold merge_in. destruct user; reflexivity.
    + destruct (e_merge e _) eqn:M; [|reflexivity]. unfold merge_in. destruct user; reflexivity.
    + apply ok_pidx.
    + apply retire_pidx.
  - unfold ping. destruct (negb _); [reflexivity|]. cbv zeta. destruct (alloc_seq e) as [[s e']|] eqn:A; [|reflexivity]. apply alloc_pidx in A. destruct (_ <? _); exact A.
  - pose proof (announce_pidx (push_pull_direct C peer join now e)) as A. destruct (announce C _). cbn in *. rewrite A. apply open_pidx.
  - unfold dialled, push_pull_direct. pose proof (open_pidx peer (OKPushPull join) (tadd now (c_stream_timeout C)) (MPushPull join (local_states e) (e_snap e)) e) as A. destruct (open_intent _ _ _ _ _) as [[? ?] ?]. exact A.
  - pose proof (announce_pidx (reliable_ping_direct C id addr seq deadline e)) as A. destruct (announce C _). cbn in *. rewrite A. apply open_pidx.
  - unfold dialled, reliable_ping_direct. match goal with |- context [open_intent ?a ?b ?c ?d e] => pose proof (open_pidx a b c d e) as A; destruct (open_intent a b c d e) as [[? ?] ?] end. exact A.
  - destruct (runs e) eqn:R; [|reflexivity]. pose proof (announce_pidx (user_message_direct C peer data now e)) as A. destruct (announce C _). cbn in *. rewrite A.
    unfold user_message_direct. rewrite R. apply open_pidx.
  - destruct (runs e) eqn:R; [|reflexivity]. unfold dialled, user_message_direct. rewrite R. cbn [negb].
    match goal with |- context [open_intent ?a ?b ?c ?d e] => pose proof (open_pidx a b c d e) as A; destruct (open_intent a b c d e) as [[? ?] ?] end. exact A.
  - unfold dial_succeeded. destruct (aget _ _); [|reflexivity]. destruct (_ || _); [apply resolve_pidx|reflexivity].
  - apply resolve_pidx.
  - unfold accept_stream. destruct (negb _); reflexivity.
  - unfold poll_transmit. destruct (e_tx e); [reflexivity|]. cbv zeta. match goal with |- context [e_flush ?x] => destruct (e_flush x) end; [|reflexivity]. destruct (_ <=? _); reflexivity.
  - unfold set_ack_payload. destruct (negb _); [reflexivity|]. destruct (_ <? _); reflexivity.
  - unfold set_snapshot, res. destruct (negb _); [reflexivity|]. destruct (snapshot_fits C _); reflexivity.
  - unfold queue_user. destruct (negb _); [reflexivity|]. destruct (_ <? _); reflexivity.
  - unfold send_user. destruct (negb _); [reflexivity|]. destruct (_ <? _); reflexivity.
  - unfold send_users. destruct (negb _); [reflexivity|]. destruct l as [|a [|b l]]; [reflexivity| |].
    + unfold send_user. destruct (negb _); [reflexivity|]. destruct (_ <? _); reflexivity.
    + cbv zeta. destruct (_ <? _); reflexivity.
  - unfold start_scheduling. destruct (negb _); [reflexivity|]. cbv zeta.
    assert (forall i x, e_pidx (snd (stagger C i x)) = e_pidx x) as S by (intros i x; unfold stagger; cbv zeta; destruct (_ =? 0); reflexivity).
    assert (forall (b : bool) i f x, (forall a y, e_pidx (f a y) = e_pidx y) -> e_pidx (if b then (let '(s, y) := stagger C i x in f s y) else x) = e_pidx x) as S2
      by (intros b i f x F; destruct b; [|reflexivity]; specialize (S i x); destruct (stagger C i x); rewrite F; exact S).
    rewrite (S2 _ _ (fun s y => e_set_npp (Some (tadd now s)) y)) by reflexivity. rewrite (S2 _ _ (fun s y => e_set_ng (Some (tadd now s)) y)) by reflexivity.
    rewrite (S2 _ _ (fun s y => e_set_np (Some (tadd now s)) y)) by reflexivity. reflexivity.
Qed.
(** ** Before and after the probe in a timer call *)
(** no more acks are awaited, nothing is taken back *)
Definition aside (e e' : ep) : Prop := e_pidx e' = e_pidx e /\ blen (e_acks e') <= blen (e_acks e) /\ exists l, e_tx e' = e_tx e ++ l.
Lemma aside_same e e' : e_pidx e' = e_pidx e -> e_acks e' = e_acks e -> e_tx e' = e_tx e -> aside e e'.
Proof. intros A B D. split; [exact A|]. rewrite B. split; [lia|]. exists []. rewrite D, app_nil_r. reflexivity. Qed.
Lemma aside_trans a b c : aside a b -> aside b c -> aside a c.
Proof.
  intros (A1 & B1 & l1 & T1) (A2 & B2 & l2 & T2). split; [congruence|]. split; [lia|]. exists (l1 ++ l2). rewrite T2, T1, app_assoc. reflexivity.
Qed.
Lemma aside_fold {A} (f : ep -> A -> ep) l : (forall e a, aside e (f e a)) -> forall e, aside e (fold_left f l e).
Proof. intros H. induction l as [|a l IH]; intros e; [apply aside_same; reflexivity|]. cbn [fold_left]. eapply aside_trans; [apply H|apply IH]. Qed.
Lemma blen_adel {V} k (m : amap V) : blen (adel k m) <= blen m.
Proof. unfold blen. induction m as [|[j v] m IH]; cbn [adel length]; [lia|]. destruct (k =? j); cbn [length]; lia. Qed.
Lemma aside_acks q e e' : e_pidx e' = e_pidx e -> e_acks e' = adel q (e_acks e) -> (exists l, e_tx e' = e_tx e ++ l) -> aside e e'.
Proof. intros A B D. split; [exact A|]. rewrite B. split; [apply blen_adel|exact D]. Qed.
Lemma aside_fail s now e : aside e (probe_fail C s now e).
Proof.
  unfold probe_fail. destruct (aget s (e_probes e)) as [p|]; [|apply aside_same; reflexivity]. cbv zeta.
  apply (aside_acks s); [| |exists []; rewrite app_nil_r]; destruct (p_phase p) as [|? ? ? [?|] ?], (p_kind p); try reflexivity; destruct (negb _); try reflexivity; destruct (same_instance _ _); reflexivity.
Qed.
Lemma aside_retire s e : aside e (retire_reliable s e).
Proof. apply aside_same; [apply retire_pidx| |]; unfold retire_reliable; destruct (aget s (e_probes e)) as [p|]; try reflexivity; destruct (p_phase p); reflexivity. Qed.
Lemma aside_resolve id e : aside e (resolve_intent id e).
Proof.
  unfold resolve_intent. destruct (aget id (e_int e)) as [i|]; [|apply aside_same; reflexivity]. cbv zeta.
  destruct (in_kind i); try (apply aside_same; reflexivity). eapply aside_trans; [|apply aside_retire]. apply aside_same; reflexivity.
Qed.
Lemma aside_forward e s : aside e (expire_forward e s).
Proof. unfold expire_forward. destruct (aget _ _) as [f|]; [|apply aside_same; reflexivity]. apply (aside_acks s); [reflexivity|reflexivity|]. eexists. reflexivity. Qed.
Lemma aside_fit to m e : aside e (fst (push_fit C to m e)).
Proof. unfold push_fit. destruct (_ <=? _); [|apply aside_same; reflexivity]. split; [reflexivity|]. split; [cbn; lia|]. eexists. reflexivity. Qed.
Lemma aside_announce peer k d m e : aside e (snd (announce C (open_intent peer k d m e))).
Proof.
  rewrite open_intent_eq. destruct (runs e); unfold announce; cbn [e_int insert_intent e_set_int e_set_iidx e_set_sid]; destruct (aget _ _); cbn [snd]; apply aside_same; reflexivity.
Qed.
Lemma aside_sends m l : forall st, aside (fst st) (fst (fold_left (send_indirect C m) l st)).
Proof.
  induction l as [|a l IH]; intros st; [apply aside_same; reflexivity|]. cbn [fold_left]. eapply aside_trans; [|apply IH]. unfold send_indirect.
  pose proof (aside_fit a m (fst st)) as X. destruct (push_fit C a m (fst st)). exact X.
Qed.
Lemma aside_fan now e s : aside e (fan_out C now e s).
Proof.
  unfold fan_out. destruct (aget s (e_probes e)) as [p|]; [|apply aside_same; reflexivity]. cbv zeta. unfold pick. cbv zeta.
  match goal with |- context [act C (KDraws ?n) e] => set (e1 := act C (KDraws n) e) end. apply (aside_trans _ e1); [apply aside_same; reflexivity|]. clearbody e1.
  destruct (p_fail p <=? now); [apply aside_fail|].
  match goal with |- aside _ (let '(_, _) := ?Y in _) => assert (aside e1 (snd Y)) as A2 end.
  { destruct (existsb _ _); [apply aside_same; reflexivity|]. unfold reliable_ping_direct. match goal with |- context [announce C (open_intent ?a ?b ?c ?d ?x)] => pose proof (aside_announce a b c d x) as AN end.
    destruct (announce C _). exact AN. }
  match goal with |- aside _ (let '(_, _) := ?Y in _) => destruct Y as [rid e2] end. cbn [snd] in A2. eapply aside_trans; [exact A2|]. clear A2.
  match goal with |- aside _ (let '(_, _) := fold_left (send_indirect C ?m) ?l ?st in _) => pose proof (aside_sends m l st) as E; destruct (fold_left (send_indirect C m) l st) as [e3 peers] end.
  cbn [fst] in E. eapply aside_trans; [exact E|]. destruct (_ && _); [apply aside_fail|apply aside_same; reflexivity].
Qed.
(** the state in which a timer call probes *)
Definition readied (now : N) (e : ep) : ep := fire_expired_intents now (fire_expired_forwards now (advance_fsm C now (act C (KExpire now) e))).
Lemma readied_aside now e : aside e (readied now e).
Proof.
  unfold readied. apply (aside_trans _ (act C (KExpire now) e)); [apply aside_same; reflexivity|]. eapply aside_trans; [|apply (aside_fold (fun e id => resolve_intent id e)); intros; apply aside_resolve].
  eapply aside_trans; [|apply (aside_fold expire_forward); intros; apply aside_forward]. unfold advance_fsm. cbv zeta.
  eapply aside_trans; [apply (aside_fold (fan_out C now)); intros; apply aside_fan|]. apply (aside_fold (fun e s => probe_fail C s now e)). intros. apply aside_fail.
Qed.
Lemma readied_calm now e : calm now e (readied now e).
Proof.
  unfold readied. apply (calm_trans _ _ (act C (KExpire now) e)); [apply calm_act; exact Logic.I|]. eapply calm_trans; [apply calm_fsm|].
  apply calm_same. rewrite (proj1 (core_intents C now _)), (proj1 (core_forwards C now _)). reflexivity.
Qed.
Lemma readied_to now e : einv C e -> runs e = true -> eto C e (readied now e).
Proof.
  intros I R. unfold readied. set (e1 := act C (KExpire now) e). assert (eto C e e1) as T1 by (apply eto_core; exact Logic.I).
    pose proof (runs_eto C _ _ T1 R) as R1. pose proof (einv_act C e (KExpire now) I Logic.I) as I1. fold e1 in I1. eapply eto_trans; [exact T1|]. clearbody e1. clear T1.
    pose proof (advance_fsm_to C now e1 R1 (ei_pnd _ _ I1) (einv_shape C _ I1)) as T2. pose proof (runs_eto C _ _ T2 R1) as R2. eapply eto_trans; [exact T2|].
    eapply eto_trans; [apply expire_forwards_to, R2|apply expire_intents_to].
Qed.
Lemma readied_inv now e : einv C e -> runs e = true -> einv C (readied now e) /\ runs (readied now e) = true.
Proof.
  intros I R. pose proof (readied_to now e I R) as T.
  split; [|apply (runs_eto C _ _ T R)]. destruct T as (ks & S & _). apply (einv_steps C _ _ _ _ S I).
Qed.
(** after the probe *)
Lemma gossip_psr e : e_psr (fst (gossip_batch C e)) = e_psr e.
Proof. pose proof (gossip_batch_merge C e) as V. unfold view in V. congruence. Qed.
Lemma after_probe now e : let e' := refresh_cache (fire_pushpull C now (fire_gossip C now e)) in
  e_pidx e' = e_pidx e /\ e_probes e' = e_probes e /\ e_psr e' = e_psr e /\ k_mem (e_core e') = k_mem (e_core e) /\ exists l, e_tx e' = e_tx e ++ l.
Proof.
  cbv zeta. assert (forall x, e_pidx (refresh_cache x) = e_pidx x /\ e_probes (refresh_cache x) = e_probes x /\ e_psr (refresh_cache x) = e_psr x /\ k_mem (e_core (refresh_cache x)) = k_mem (e_core x) /\ e_tx (refresh_cache x) = e_tx x) as RF
    by (intros x; unfold refresh_cache; destruct (_ && _); repeat split).
  destruct (RF (fire_pushpull C now (fire_gossip C now e))) as (-> & -> & -> & -> & ->). clear RF.
  rewrite psr_pp.
  assert (forall x, e_pidx (fire_pushpull C now x) = e_pidx x /\ e_probes (fire_pushpull C now x) = e_probes x /\ k_mem (e_core (fire_pushpull C now x)) = k_mem (e_core x) /\ e_tx (fire_pushpull C now x) = e_tx x) as PP.
  { intros x. unfold fire_pushpull. destruct (e_npp x); [|repeat split]. destruct (_ <? _); [repeat split|]. cbv zeta.
    cbn [e_pidx e_probes e_core e_tx e_set_npp]. destruct (live_addrs C x) as [|y ys]; [repeat split|]. unfold pick. match goal with |- context [btake ?a ?b] => destruct (btake a b) as [|peer tg]; [repeat split|] end.
    unfold push_pull_direct. rewrite open_intent_eq. match goal with |- context [runs ?z] => destruct (runs z) end; unfold announce; cbn [e_int insert_intent e_set_int e_set_iidx e_set_sid]; destruct (aget _ _); repeat split. }
  destruct (PP (fire_gossip C now e)) as (-> & -> & -> & ->). clear PP.
  unfold fire_gossip. destruct (e_ng e) as [dg|]; [|repeat split; exists []; rewrite app_nil_r; reflexivity]. destruct (now <? dg); [repeat split; exists []; rewrite app_nil_r; reflexivity|].
  unfold pick. destruct (btake _ _) as [|t ts]; [repeat split; exists []; rewrite app_nil_r; reflexivity|].
  match goal with |- context [gossip_batch C ?x] => pose proof (gossip_rest C x) as GR; pose proof (gossip_core C x) as GC; pose proof (gossip_batch_pidx x) as GP; pose proof (gossip_psr x) as GV; destruct (gossip_batch C x) as [e2 ms] end.
  cbn [fst] in *. destruct GR as (G1 & G2). cbn [e_pidx e_probes e_core e_tx e_psr e_set_ng e_set_tx]. destruct G2 as (_ & _ & _ & _ & -> & _).
  split; [exact GP|]. split; [exact G1|]. split.
  - exact GV.
  - split; [rewrite GC; unfold gossip_op; destruct (peek_first_sendable _ _); try (destruct (_ <? _)); reflexivity|]. eexists. reflexivity.
Qed.

(** ** Where a member stands in the table *)
Definition before (id : N) (c : N) (t : mtable) : Prop := In id (firstn (N.to_nat c) (akeys t)).
(** nothing passes [id] by *)
Definition later (id : N) (t t' : mtable) : Prop :=
  In id (akeys t') /\ (forall c, before id c t' -> before id c t) /\ (length t <= length t')%nat.
Lemma later_same id t t' : In id (akeys t) -> akeys t' = akeys t -> later id t t'.
Proof.
  intros H E. split; [rewrite E; exact H|]. split; [intros c; unfold before; rewrite E; auto|].
  unfold akeys in E. rewrite <- (map_length fst t), <- (map_length fst t'), E. lia.
Qed.
Lemma later_trans id a b c : later id a b -> later id b c -> later id a c.
Proof. intros (A1 & A2 & A3) (B1 & B2 & B3). split; [exact B1|]. split; [auto|lia]. Qed.
Lemma later_insert id off x m t : In id (akeys t) -> x <> id -> later id t (mt_insert off x m t).
Proof.
  intros H NE. unfold mt_insert. pose proof (firstn_skipn (N.to_nat off) t) as S. unfold bdrop, btake in *.
  set (P := firstn (N.to_nat off) t) in *. destruct (skipn (N.to_nat off) t) as [|d r].
  - split; [unfold akeys; rewrite map_app; apply in_or_app; left; exact H|]. split; [|rewrite app_length; lia].
    intros c. unfold before, akeys. rewrite map_app. cbn [map fst]. rewrite firstn_app. intros B. apply in_app_or in B as [B|B]; [exact B|].
    destruct (N.to_nat c - _)%nat; cbn in B; [destruct B|]. destruct B as [B|B]; [congruence|]. rewrite firstn_nil in B. destruct B.
  - rewrite <- S in *. clear S. split.
    + unfold akeys in *. rewrite map_app in *. cbn [map fst] in *. rewrite map_app. cbn [map]. apply in_app_or in H as [H|[H|H]]; apply in_or_app; [left; exact H| |].
      * right. right. apply in_or_app. right. left. exact H.
      * right. right. apply in_or_app. left. exact H.
    + split; [|rewrite !app_length; cbn [length]; rewrite app_length; cbn [length]; lia].
      intros c. unfold before, akeys. rewrite !map_app. cbn [map fst]. rewrite map_app. cbn [map]. rewrite !firstn_app. intros B. apply in_or_app.
      apply in_app_or in B as [B|B]; [left; exact B|right]. destruct (N.to_nat c - _)%nat as [|k]; [destruct B|]. cbn [firstn] in *.
      destruct B as [B|B]; [congruence|]. rewrite firstn_app in B. apply in_app_or in B as [B|B]; [right; exact B|left].
      destruct (k - _)%nat; [destruct B|]. cbn in B. destruct B as [B|B]; [exact B|]. rewrite firstn_nil in B. destruct B.
Qed.
Lemma later_step o now k k' id : kinv k -> kstep C o now k k' -> not_reset o -> In id (akeys (k_mem k)) -> later id (k_mem k) (k_mem k').
Proof.
  intros V S NR H.
  destruct S as [k g accused m Go GA R G I A|k i m s s' d inc from Go R G I SU SC|k i m inc from Go R G I A NL|k i m inc from Go R G I DL NL
    |k m al Go R AD G NA|k al off draws Go R AD G MX|k al m tk Go R AD G NL T|k h|k meta Eo R L|k i delta Eo|k Eo|k m Eo R G|k e|k e|k e r|k Q|k f|k n];
    try (apply later_same; [exact H|reflexivity]); try (apply later_same; [exact H|cbn; apply akeys_mt_upd]).
  - apply later_insert; [exact H|]. intros E. unfold rec_at in G. rewrite E in G. apply aget_none in G. contradiction.
  - apply later_same; [exact H|]. cbv zeta. destruct tk; destruct (dead_or_left _); try destruct (negb _); cbn; apply akeys_mt_upd.
  - subst o. destruct NR.
Qed.
Lemma later_steps o now k k' id : kinv k -> ksteps C o now k k' -> not_reset o -> In id (akeys (k_mem k)) -> later id (k_mem k) (k_mem k').
Proof.
  intros V S NR. induction S as [k|k1 k2 k3 S1 _ IH]; intros H; [apply later_same; auto|].
  pose proof (later_step o now k1 k2 id V S1 NR H) as L. eapply later_trans; [exact L|]. apply IH; [exact (kinv_step C o now _ _ V S1)|apply L].
Qed.
Lemma later_calm u e e' id : kinv (e_core e) -> calm u e e' -> In id (akeys (k_mem (e_core e))) -> later id (k_mem (e_core e)) (k_mem (e_core e')).
Proof.
  intros V (os & -> & F) H. rewrite core_run_fst. revert V H. generalize (e_core e) as k. induction F as [|o os NR F IH]; intros k V H; [apply later_same; auto|]. cbn [fold_left].
  pose proof (later_steps o (op_now o) _ _ id V (core_step_steps C k o V) NR H) as L. eapply later_trans; [exact L|]. apply IH; [apply kinv_core_step, V|apply L].
Qed.

(** ** The scan reaches everybody *)
Lemma scan_ahead (t : mtable) c id m : NoDup (akeys t) -> aget id t = Some m -> probeable C (id, m) = true -> ~ before id c t ->
  exists j cur, scan C (length t) c t = Some (j, cur) /\ (j = id \/ c < cur /\ ~ before id cur t).
Proof.
  intros ND G PB NB. pose proof (aget_in _ _ _ G) as IN. apply In_nth_error in IN as (i & Ni).
  assert (i < length t)%nat as Li by (apply nth_error_Some; congruence).
  assert (forall x cc y, nth_error t x = Some (id, y) -> (x < N.to_nat cc)%nat -> before id cc t) as BF.
  { intros x cc y X L. unfold before. rewrite <- (firstn_skipn (N.to_nat cc) t) in X. rewrite nth_error_app1 in X.
    - apply nth_error_In in X. unfold akeys. rewrite firstn_map. apply in_map_iff. exists (id, y). auto.
    - rewrite firstn_length. assert (x < length t)%nat by (rewrite <- (firstn_skipn (N.to_nat cc) t); apply nth_error_Some; congruence). lia. }
  assert (N.to_nat c <= i)%nat as Lc. { destruct (Nat.le_gt_cases (N.to_nat c) i) as [L|L]; [exact L|]. exfalso. apply NB, (BF i c m Ni L). }
  destruct (filter (probeable C) (skipn (N.to_nat c) t)) as [|x r] eqn:F.
  { pose proof (filter_nil_all _ _ F (i - N.to_nat c)%nat (id, m)) as X. rewrite nth_skipn in X. replace (N.to_nat c + (i - N.to_nat c))%nat with i in X by lia.
    specialize (X Ni). congruence. }
  destruct (filter_first _ _ _ _ F) as (o & No & Po & Bo & _). rewrite nth_skipn in No.
  assert (N.to_nat c + o < length t)%nat as Lo by (apply nth_error_Some; congruence).
  assert (blen t <> 0) as NZ by (unfold blen; lia).
  assert (forall y, (y <= o)%nat -> N.to_nat ((c + N.of_nat y) mod blen t) = (N.to_nat c + y)%nat) as MS by (intros y Y; rewrite N.mod_small by (unfold blen; lia); lia).
  exists (fst x), ((c + N.of_nat o + 1) mod blen t). split.
  { apply scan_first; [exact NZ|lia| |exact Po|].
    - rewrite MS by lia. exact No.
    - intros o' q O' Q. rewrite MS in Q by lia. eapply Bo; [exact O'|]. rewrite nth_skipn. exact Q. }
  destruct (N.eq_dec (fst x) id) as [E|NE]; [left; exact E|right].
  assert (N.to_nat c + o < i)%nat as LT.
  { destruct (Nat.lt_trichotomy (N.to_nat c + o) i) as [L|[L|L]]; [exact L| |].
    - subst i. rewrite No in Ni. apply Some_inj in Ni. subst x. destruct NE. reflexivity.
    - exfalso. specialize (Bo (i - N.to_nat c)%nat (id, m) ltac:(lia)). rewrite nth_skipn in Bo. replace (N.to_nat c + (i - N.to_nat c))%nat with i in Bo by lia. specialize (Bo Ni). congruence. }
  rewrite N.mod_small by (unfold blen; lia). split; [lia|].
  intros B. unfold before in B. apply In_nth_error in B as (j & J).
  assert (j < N.to_nat (c + N.of_nat o + 1))%nat as LJ.
  { assert (j < length (firstn (N.to_nat (c + N.of_nat o + 1)) (akeys t)))%nat as X by (apply nth_error_Some; congruence). rewrite firstn_length in X. lia. }
  assert (nth_error (akeys t) j = Some id) as J'.
  { rewrite <- (firstn_skipn (N.to_nat (c + N.of_nat o + 1)) (akeys t)), nth_error_app1; [exact J|]. apply nth_error_Some. congruence. }
  assert (j = i).
  { apply (proj1 (NoDup_nth_error (akeys t)) ND); [apply nth_error_Some; congruence|]. rewrite J'. unfold akeys. rewrite nth_error_map, Ni. reflexivity. }
  lia.
Qed.

(** ** The health score is within its range *)
Definition fit (e : ep) : Prop := einv C e /\ aw_inv (c_aware_max C) (k_aw (e_core e)).
Lemma reset_aw now k : k_aw (reset_members C now k) = k_aw k.
Proof.
  unfold reset_members. cbn.
  match goal with |- context [fold_left ?f _ _] => assert (forall l0 k0, k_aw (fold_left f l0 k0) = k_aw k0) as F end.
  { induction l0 as [|i l0 IH]; intros k1; [reflexivity|]. cbn [fold_left]. rewrite IH. reflexivity. }
  rewrite F. destruct (map fst _); reflexivity.
Qed.
Lemma fit_kstep o now k k' : kstep C o now k k' -> aw_inv (c_aware_max C) (k_aw k) -> aw_inv (c_aware_max C) (k_aw k').
Proof.
  intros S H.
  destruct S as [k g accused m Go GA R G I A|k i m s s' d inc from Go R G I SU SC|k i m inc from Go R G I A NL|k i m inc from Go R G I DL NL
    |k m al Go R AD G NA|k al off draws Go R AD G MX|k al m tk Go R AD G NL T|k h|k meta Eo R L|k i delta Eo|k Eo|k m Eo R G|k e|k e|k e r|k Q|k f|k n];
    try exact H; try (apply aw_step_inv, H).
  all: cbv zeta; try (destruct tk; destruct (dead_or_left _); try destruct (negb _); cbn; exact H).
  all: try (apply (aw_step_inv _ _ (Failure 1)), H).
  rewrite reset_aw. exact H.
Qed.
Lemma fit_run os : forall k, kinv k -> aw_inv (c_aware_max C) (k_aw k) -> aw_inv (c_aware_max C) (k_aw (fst (core_run C k os))).
Proof.
  intros k. rewrite core_run_fst. revert k. induction os as [|o os IH]; intros k V H; [exact H|]. cbn [fold_left]. apply IH; [apply kinv_core_step, V|].
  generalize (core_step_steps C k o V). generalize (fst (core_step C k o)). intros k' S. clear IH V. induction S as [k|k1 k2 k3 S1 _ IH]; [exact H|]. apply IH. eapply fit_kstep; eauto.
Qed.
Lemma fit_steps e ks cr e' : esteps C e ks cr e' -> fit e -> fit e'.
Proof.
  induction 1 as [|? ? ? ? ? ? ? S _ IH]; [auto|]. intros [I A]. apply IH. split; [eapply einv_step; eauto|]. rewrite (estep_core C _ _ _ _ S). apply fit_run; [apply (ei_core _ _ I)|exact A].
Qed.
Lemma fit_eto e e' : eto C e e' -> fit e -> fit e'.
Proof. intros (ks & S & _). apply (fit_steps _ _ _ _ S). Qed.
Lemma fit_op e o : fit e -> fit (fst (ep_step C e o)).
Proof. intros F. destruct (step_chain C e o (proj1 F)) as (ks & cr & S & _). eapply fit_steps; eauto. Qed.
Lemma reach_fit e : reach C e -> fit e.
Proof.
  intros (t0 & e0 & os & N & ->). assert (fit e0) as F.
  { split; [eapply einv_new, N|]. unfold ep_new in N. destruct (cfg_ok C); [|discriminate]. apply Some_inj in N as <-. unfold refresh_cache. destruct (_ && _); cbn; split; cbn; lia. }
  rewrite ep_run_fst. clear N. revert e0 F. induction os as [|o os IH]; intros e0 F; [exact F|]. apply IH, fit_op, F.
Qed.

(** ** A probe begins *)
Definition asked (now id : N) (e e' : ep) : Prop :=
  exists q p l, e_tx e' = e_tx e ++ l /\ aget q (e_probes e') = Some p /\ ns_id (p_target p) = id /\ p_kind p = PKDetection /\ p_sent p = now /\
    snapshot_of C p (aget id (k_mem (e_core e'))) /\ (exists a, aw_inv (c_aware_max C) a /\ p_fail p = tadd now (scale_timeout a (c_probe_interval C))) /\
    let ping := MPing q (lnode C) (mkNode id (ns_addr (p_target p))) in
    elen C ping <= c_mtu C -> p_disp p = true /\ carries ping l.
Lemma asked_around now id a b c d : (exists l, e_tx b = e_tx a ++ l) -> asked now id b c ->
  e_probes d = e_probes c -> k_mem (e_core d) = k_mem (e_core c) -> (exists l, e_tx d = e_tx c ++ l) -> asked now id a d.
Proof.
  intros (l1 & T1) (q & p & l & T & G & A1 & A2 & A3 & A4 & A5 & A6) EP EM (l2 & T2). exists q, p, (l1 ++ l ++ l2).
  split; [rewrite T2, T, T1, <- !app_assoc; reflexivity|]. rewrite EP, EM. do 6 (split; [assumption|]). intros ping F. destruct (A6 F) as (D & t & IT & X).
  split; [exact D|]. exists t. split; [|exact X]. apply in_or_app. right. apply in_or_app. left. exact IT.
Qed.
Lemma start_ahead now e id m : fit e -> runs e = true -> blen (e_acks e) + 1 < two32 -> aget id (k_mem (e_core e)) = Some m -> probeable C (id, m) = true ->
  ~ before id (e_pidx e) (k_mem (e_core e)) ->
  let e' := start_probe C now e in asked now id e e' \/ e_pidx e < e_pidx e' /\ ~ before id (e_pidx e') (k_mem (e_core e')).
Proof.
  intros FI R B G PB NB. pose proof (proj1 FI) as I. cbv zeta. destruct (scan_ahead _ _ _ _ (ki_nodup _ _ (ei_core _ _ I)) G PB NB) as (j & cur & SC & H).
  destruct (start_at C now e j cur I R B SC) as (PI & m' & q & l & PM & G' & Q0 & Q1 & U1 & U2 & U3 & T & O & K & OT & p & GP & A1 & A2 & A3 & A4 & A5 & A6 & A7 & A8).
  rewrite PI, K. destruct H as [->|H]; [left|right; exact H].
  pose proof (ki_rec _ _ (ei_core _ _ I) id m' G') as [EI _].
  exists q, p, l. split; [exact T|]. split; [exact GP|]. split; [rewrite A1; exact EI|]. split; [exact A5|]. split; [exact A4|].
  split. { rewrite K. cbv beta in G'. exists m'. rewrite A1, EI. auto. }
  split. { exists (k_aw (e_core e)). split; [apply FI|exact A7]. }
  cbv zeta. rewrite A1. intros F. assert (carries (MPing q (lnode C) (mkNode id (ns_addr (m_server m')))) l) as CR; [|split; [apply A8, CR|exact CR]].
  unfold opening in O. destruct (pstate_eqb _ _).
  - destruct O as [[_ ->]|(_ & l1 & l2 & -> & [[_ ->]|[NF _]] & _)]; [| |destruct (NF F)].
    + eexists. split; [left; reflexivity|]. left. reflexivity.
    + eexists. split; [left; reflexivity|]. reflexivity.
  - destruct O as [[_ ->]|[NF _]]; [|destruct (NF F)]. eexists. split; [left; reflexivity|]. reflexivity.
Qed.

(** ** A timer call *)
Lemma start_psr now e : e_psr (start_probe C now e) = e_psr e.
Proof. pose proof (start_probe_merge C now e) as X. unfold view in X. congruence. Qed.
Lemma tick_ahead now e id m' : fit e -> probe_due now e = true -> blen (e_acks e) + 1 < two32 -> In id (akeys (k_mem (e_core e))) ->
  let e' := handle_timeout C now e in aget id (k_mem (e_core e')) = Some m' -> probeable C (id, m') = true ->
  asked now id e e' \/
  (exists n, (length (k_mem (e_core e)) <= N.to_nat n)%nat /\
    ((e_psr e + 1 < n /\ n = k_n (e_core e') /\ e_psr e' = e_psr e + 1 /\
        (~ before id (e_pidx e) (k_mem (e_core e)) -> e_pidx e < e_pidx e' /\ ~ before id (e_pidx e') (k_mem (e_core e')))) \/
     (n <= e_psr e + 1 /\ e_psr e' = 0 /\ 0 < e_pidx e' /\ ~ before id (e_pidx e') (k_mem (e_core e'))))).
Proof.
  unfold probe_due. destruct (runs e) eqn:R; [|discriminate]. cbn [andb]. intros FI D B IN. pose proof (proj1 FI) as I. cbv zeta. unfold handle_timeout. rewrite R. cbn [negb].
  change (fire_expired_intents now _) with (readied now e).
  pose proof (fit_eto _ _ (readied_to now e I R) FI) as I4. destruct (readied_inv now e I R) as [_ R4]. destruct (readied_aside now e) as (P4 & B4 & T4).
  pose proof (later_calm now e (readied now e) id (ei_core _ _ I) (readied_calm now e) IN) as L4.
  pose proof (quick_view C now e) as V. fold (readied now e) in V. assert (e_np (readied now e) = e_np e /\ e_psr (readied now e) = e_psr e) as [N4 S4] by (unfold view in V; split; congruence). clear V.
  set (e4 := readied now e) in *. clearbody e4. unfold fire_probe. rewrite N4. destruct (e_np e) as [d|]; [|discriminate]. apply N.leb_le in D.
  destruct (N.ltb_spec now d) as [D'|_]; [lia|]. cbv zeta. cbn [e_psr e_set_psr e_core]. rewrite S4.
  assert (0 < k_n (e_core e4)) as NZ. { destruct L4 as (L4 & _). unfold k_n, blen. destruct (k_mem (e_core e4)); [destruct L4|cbn [length]; lia]. }
  rewrite (proj2 (N.ltb_lt 0 _) NZ). cbn [andb].
  destruct (N.leb_spec (k_n (e_core e4)) (e_psr e + 1)) as [LE|GT].
  - set (e5 := e_set_psr 0 (reset_nodes C now (e_set_psr (e_psr e + 1) e4))).
    assert (eto C e4 e5) as T5.
    { eapply eto_trans; [apply (eto_misc C e4 (e_set_psr (e_psr e + 1) e4)); repeat split|]. eapply eto_trans; [apply (reset_to C now)|apply eto_misc; repeat split]. }
    pose proof (fit_eto _ _ T5 I4) as I5. pose proof (runs_eto C _ _ T5 R4) as R5.
    assert (e_pidx e5 = 0 /\ e_psr e5 = 0 /\ e_acks e5 = e_acks e4 /\ e_tx e5 = e_tx e4) as (P5 & S5 & A5 & X5) by (repeat split). clearbody e5.
    destruct (after_probe now (e_set_np (Some (tadd now (c_probe_interval C))) (start_probe C now e5))) as (Q1 & Q2 & Q3 & Q4 & Q5).
    cbn [e_pidx e_probes e_psr e_core e_tx e_set_np] in Q1, Q2, Q3, Q4, Q5. rewrite Q1, Q3, Q4, start_core, start_psr, S5. intros G PB.
    assert (~ before id (e_pidx e5) (k_mem (e_core e5))) as NB by (rewrite P5; unfold before; cbn; tauto).
    destruct (start_ahead now e5 id m' I5 R5 ltac:(rewrite A5; lia) G PB NB) as [AS|[H1 H2]].
    + left. eapply asked_around; [rewrite X5; exact T4|exact AS|exact Q2|exact Q4|exact Q5].
    + right. exists (k_n (e_core e4)). split; [destruct L4 as (_ & _ & L4); unfold k_n, blen; lia|]. right. rewrite P5 in H1. rewrite start_core in H2. auto.
  - set (e5 := e_set_psr (e_psr e + 1) e4).
    assert (eto C e4 e5) as T5 by (apply eto_misc; repeat split).
    pose proof (fit_eto _ _ T5 I4) as I5. pose proof (runs_eto C _ _ T5 R4) as R5.
    assert (e_pidx e5 = e_pidx e4 /\ e_psr e5 = e_psr e + 1 /\ e_acks e5 = e_acks e4 /\ e_tx e5 = e_tx e4 /\ e_core e5 = e_core e4) as (P5 & S5 & A5 & X5 & C5) by (repeat split). clearbody e5.
    destruct (after_probe now (e_set_np (Some (tadd now (c_probe_interval C))) (start_probe C now e5))) as (Q1 & Q2 & Q3 & Q4 & Q5).
    cbn [e_pidx e_probes e_psr e_core e_tx e_set_np] in Q1, Q2, Q3, Q4, Q5. unfold k_n. rewrite Q1, Q3, Q4, start_core, start_psr, S5. intros G PB.
    destruct (in_dec N.eq_dec id (firstn (N.to_nat (e_pidx e)) (akeys (k_mem (e_core e))))) as [BF|NB].
    + right. exists (k_n (e_core e4)). split; [destruct L4 as (_ & _ & L4); unfold k_n, blen; lia|]. left. split; [exact GT|]. rewrite C5. split; [reflexivity|]. split; [reflexivity|].
      intros NB. destruct (NB BF).
    + assert (~ before id (e_pidx e5) (k_mem (e_core e5))) as NB5 by (rewrite P5, P4, C5; intros X; apply NB; destruct L4 as (_ & L4 & _); apply L4, X).
      destruct (start_ahead now e5 id m' I5 R5 ltac:(rewrite A5; lia) G PB NB5) as [AS|[H1 H2]].
      * left. eapply asked_around; [rewrite X5; exact T4|exact AS|exact Q2|exact Q4|exact Q5].
      * right. exists (k_n (e_core e4)). split; [destruct L4 as (_ & _ & L4); unfold k_n, blen; lia|]. left. rewrite P5, P4 in H1. rewrite start_core in H2. split; [exact GT|]. rewrite C5 in *.
        split; [reflexivity|]. split; [reflexivity|]. auto.
Qed.
(** a timer call that does not probe *)
Lemma tick_idle now e : probe_due now e = false -> e_pidx (handle_timeout C now e) = e_pidx e /\ calm now e (handle_timeout C now e).
Proof.
  unfold probe_due. intros D. unfold handle_timeout. destruct (runs e) eqn:R; cbn [negb]; [|split; [reflexivity|apply calm_refl]]. cbn [andb] in D.
  change (fire_expired_intents now _) with (readied now e). destruct (readied_aside now e) as (P4 & _).
  pose proof (quick_view C now e) as V. fold (readied now e) in V. assert (e_np (readied now e) = e_np e) as N4 by (unfold view in V; congruence).
  assert (fire_probe C now (readied now e) = readied now e) as ->.
  { unfold fire_probe. rewrite N4. destruct (e_np e) as [d|]; [|reflexivity]. destruct (N.ltb_spec now d); [reflexivity|]. apply N.leb_gt in D. lia. }
  destruct (after_probe now (readied now e)) as (Q & _). cbv zeta in Q. rewrite Q. split; [exact P4|].
  eapply calm_trans; [apply readied_calm|]. eapply calm_trans; [apply calm_gossip|]. eapply calm_trans; [apply calm_pp|apply calm_refresh].
Qed.

(** ** Runs *)
(** [id] stays in the table, takes part, and there is room *)
Definition stays (id M : N) (e : ep) (os : list eop) : Prop :=
  forall pre post, os = pre ++ post -> let x := fst (ep_run C e pre) in
    k_n (e_core x) <= M /\ blen (e_acks x) + 1 < two32 /\ exists m, aget id (k_mem (e_core x)) = Some m /\ dead_or_left (m_state m) = false.
Definition turn (id : N) (e : ep) (os : list eop) : Prop :=
  exists pre o post now, os = pre ++ o :: post /\ (o = ETimeout now \/ o = EStartProbe now) /\
    let x := fst (ep_run C e pre) in asked now id x (fst (ep_step C x o)).
Lemma run_cons e o os : fst (ep_run C e (o :: os)) = fst (ep_run C (fst (ep_step C e o)) os).
Proof. rewrite !ep_run_fst. reflexivity. Qed.
Lemma stays_tail id M e o os : stays id M e (o :: os) -> stays id M (fst (ep_step C e o)) os.
Proof. intros H pre post E. specialize (H (o :: pre) post ltac:(rewrite E; reflexivity)). cbv zeta in *. rewrite run_cons in H. exact H. Qed.
Lemma turn_tail id e o os : turn id (fst (ep_step C e o)) os -> turn id e (o :: os).
Proof. intros (pre & o' & post & now & -> & O & A). exists (o :: pre), o', post, now. split; [reflexivity|]. split; [exact O|]. cbv zeta in *. rewrite run_cons. exact A. Qed.
Lemma turn_now id e o os now : (o = ETimeout now \/ o = EStartProbe now) -> asked now id e (fst (ep_step C e o)) -> turn id e (o :: os).
Proof. intros O A. exists [], o, os, now. split; [reflexivity|]. split; [exact O|exact A]. Qed.
Lemma before_all id (t : mtable) c : In id (akeys t) -> ~ before id c t -> c < blen t.
Proof.
  intros H NB. unfold blen. destruct (N.lt_ge_cases c (N.of_nat (length t))) as [L|L]; [exact L|]. exfalso. apply NB. unfold before. rewrite firstn_all2; [exact H|].
  unfold akeys. rewrite map_length. lia.
Qed.
Lemma here_in id M e os : stays id M e os -> In id (akeys (k_mem (e_core e))) /\ k_n (e_core e) <= M /\ blen (e_acks e) + 1 < two32 /\
  exists m, aget id (k_mem (e_core e)) = Some m /\ dead_or_left (m_state m) = false.
Proof. intros H. destruct (H [] os eq_refl) as (A & B & m & G & D). cbn in *. split; [eapply aget_some_key, G|]. eauto 6. Qed.
Lemma live_probeable id m : id <> LID -> dead_or_left (m_state m) = false -> probeable C (id, m) = true.
Proof. intros N D. unfold probeable. cbn [fst snd]. rewrite D. destruct (N.eqb_spec id LID); [contradiction|reflexivity]. Qed.
Definition quiet_op (o : eop) : Prop := (forall now fw, o <> ELeave now fw) /\ (forall now, o <> EReset now).

Lemma todo_run id M : id <> LID -> forall os e, fit e -> runs e = true -> Forall quiet_op os -> stays id M e os ->
  e_psr e < e_pidx e -> ~ before id (e_pidx e) (k_mem (e_core e)) -> M <= e_psr e + rounds C e os + 1 -> turn id e os.
Proof.
  intros NL. induction os as [|o os IH]; intros e FI R F ST LT NB L.
  { destruct (here_in _ _ _ _ ST) as (IN & LM & _). pose proof (before_all _ _ _ IN NB). unfold k_n in LM. cbn [rounds] in L. lia. }
  inversion F as [|? ? [Q1 Q2] F']; subst. destruct (here_in _ _ _ _ ST) as (IN & LM & BA & m0 & G0 & D0). pose proof (stays_tail _ _ _ _ _ ST) as ST'.
  destruct (here_in _ _ _ _ ST') as (IN' & LM' & BA' & m & G & D). pose proof (live_probeable _ _ NL D) as PB.
  pose proof (proj1 FI) as I. pose proof (fit_op e o FI) as I'. pose proof (runs_step C e o I R Q1) as R'. cbn [rounds] in L.
  assert (e_psr (fst (ep_step C e o)) = e_psr e -> e_pidx (fst (ep_step C e o)) = e_pidx e -> calm (optime o) e (fst (ep_step C e o)) ->
    M <= e_psr e + rounds C (fst (ep_step C e o)) os + 1 -> turn id e (o :: os)) as STAY.
  { intros E1 E2 CA L'. apply turn_tail, IH; auto; rewrite ?E1, ?E2; auto. pose proof (later_calm _ _ _ id (ei_core _ _ I) CA IN) as (_ & X & _). intros B. apply NB, X, B. }
  destruct (match o with ETimeout _ | EStartProbe _ => true | _ => false end) eqn:K.
  - destruct o; try discriminate K.
    + (* the timer *)
      cbn [ep_step fst] in *. destruct (probe_due now e) eqn:PD.
      * destruct (tick_ahead now e id m FI PD BA IN G PB) as [A|(n & Ln & [(H1 & H2 & H3 & H4)|(H1 & _)])].
        -- eapply turn_now; [left; reflexivity|exact A].
        -- destruct (H4 NB) as [H5 H6]. apply turn_tail, IH; auto; cbn [ep_step fst]; rewrite ?H3; [|]; lia.
        -- exfalso. pose proof (before_all _ _ _ IN NB). unfold blen in *. lia.
      * destruct (tick_idle now e PD) as [E CA]. apply STAY; [apply psr_idle, PD|exact E|exact CA|exact L].
    + cbn [ep_step fst] in *. destruct (start_ahead now e id m0 FI R BA G0 (live_probeable _ _ NL D0) NB) as [A|[H1 H2]].
      * eapply turn_now; [right; reflexivity|exact A].
      * apply turn_tail, IH; auto; cbn [ep_step fst]; rewrite ?start_psr; lia.
  - apply STAY.
    + apply psr_op. intros now ->. discriminate K.
    + apply step_pidx; auto; intros now ->; discriminate K.
    + apply calm_op; auto. intros now ->. discriminate K.
    + destruct o; try discriminate K; exact L.
Qed.
Lemma any_run id M : id <> LID -> forall os e, fit e -> runs e = true -> Forall quiet_op os -> stays id M e os ->
  M + N.max 1 (M - e_psr e) <= rounds C e os + 1 -> turn id e os.
Proof.
  intros NL. induction os as [|o os IH]; intros e FI R F ST L.
  { destruct (here_in _ _ _ _ ST) as (IN & LM & _). unfold k_n, blen in LM. cbn [rounds] in L. destruct (k_mem (e_core e)); [destruct IN|cbn [length] in LM; lia]. }
  inversion F as [|? ? [Q1 Q2] F']; subst. destruct (here_in _ _ _ _ ST) as (IN & LM & BA & m0 & G0 & D0). pose proof (stays_tail _ _ _ _ _ ST) as ST'.
  destruct (here_in _ _ _ _ ST') as (IN' & LM' & BA' & m & G & D). pose proof (live_probeable _ _ NL D) as PB.
  pose proof (proj1 FI) as I. pose proof (fit_op e o FI) as I'. pose proof (runs_step C e o I R Q1) as R'. cbn [rounds] in L.
  destruct (match o with ETimeout _ => true | _ => false end) eqn:K.
  - destruct o; try discriminate K. cbn [ep_step fst] in *. destruct (probe_due now e) eqn:PD.
    + destruct (tick_ahead now e id m FI PD BA IN G PB) as [A|(n & Ln & [(H1 & H2 & H3 & H4)|(H1 & H2 & H3 & H4)])].
      * eapply turn_now; [left; reflexivity|exact A].
      * apply turn_tail, IH; auto. cbn [ep_step fst]. rewrite H3. lia.
      * apply turn_tail. apply (todo_run id M NL); auto; cbn [ep_step fst]; rewrite ?H2; lia.
    + apply turn_tail, IH; auto. cbn [ep_step fst]. rewrite psr_idle by exact PD. lia.
  - apply turn_tail, IH; auto. rewrite psr_op by (intros now ->; discriminate K). destruct o; try discriminate K; exact L.
Qed.
(** Within twice the size of the table, less one, every member has its turn. *)
Theorem everybody_is_probed id M e os : fit e -> runs e = true -> id <> LID -> Forall quiet_op os -> stays id M e os ->
  2 * M <= rounds C e os + 1 -> turn id e os.
Proof.
  intros I R NL F ST L. apply (any_run id M NL os e I R F ST). destruct (here_in _ _ _ _ ST) as (IN & LM & _). unfold k_n, blen in LM.
  destruct (k_mem (e_core e)); [destruct IN|cbn [length] in LM; lia].
Qed.

End Rounds.
