(** Leaving drops the dials, vetoes, metadata, fresh suspicions, and what the
    timer handler leaves behind. *)
From Coq Require Import Permutation.
From Verif Require Import CodecModel EndpointModel MapFacts BaseFacts DeadlineFacts CoreFacts CoreInv CoreSteps CoreTrans CoreHist
  EndpointSteps EndpointInv EndpointFacts EndpointHist EndpointRuns EndpointProbes AwarenessFacts.
Local Open Scope N_scope.

Section Upkeep.
Variable C : cfg.
Notation LID := (c_id C).

(** ** No dial is asked for after leaving *)
Definition nodial (l : list event) : Prop := forall id p d, ~ In (EvDial id p d) l.
Definition asks (x : out) : bool := match x with OEvent (EvDial _ _ _) => true | _ => false end.
Lemma nodial_app a b : nodial a -> nodial b -> nodial (a ++ b).
Proof. intros A B id p d H. apply in_app_or in H as [H|H]; [eapply A, H|eapply B, H]. Qed.
Lemma nodial_one e : is_dial e = false -> nodial [e].
Proof. intros E id p d [->|[]]. discriminate. Qed.
Lemma nodial_act o e : kinv C (e_core e) -> runs e = false -> match o with KEmit ev => is_dial ev = false | _ => True end ->
  nodial (k_ev (e_core e)) -> nodial (k_ev (e_core (act C o e))).
Proof.
  intros K R NO D. unfold runs in R. unfold act. cbn [e_core e_set_core]. unfold core_step. destruct o; cbn [fst]; try exact D.
  - unfold process_alive. rewrite R. exact D.
  - unfold process_suspect. rewrite R. exact D.
  - rewrite dead_frozen by assumption. exact D.
  - rewrite merge_frozen by assumption. exact D.
  - unfold fire_expired_suspicions. generalize (expired_ids now (k_mem (e_core e))). intros l. induction l as [|i l IH]; [exact D|].
    cbn [fold_left]. rewrite dead_frozen by assumption. exact IH.
  - unfold update_meta. rewrite R. exact D.
  - rewrite reset_ev. exact D.
  - unfold core_leave. rewrite R. exact D.
  - destruct (quiet e0); [|exact D]. apply nodial_app; [exact D|apply nodial_one, NO].
  - rewrite R. cbn [negb andb]. destruct (is_dial e0) eqn:E; [exact D|]. apply nodial_app; [exact D|apply nodial_one, E].
  - destruct (k_ev (e_core e)) as [|ev r] eqn:E; [cbn [fst]; rewrite E; exact D|]. cbn [fst k_ev k_set_ev]. intros id p d H. apply (D id p d). right. exact H.
Qed.
Lemma stopped_dials e o : einv C e -> runs e = false -> nodial (k_ev (e_core e)) ->
  nodial (k_ev (e_core (fst (ep_step C e o)))) /\ existsb asks (snd (ep_step C e o)) = false.
Proof.
  intros I R D. destruct (ei_rest _ _ I R) as (IN & _). pose proof (ei_core _ _ I) as K.
  assert (forall peer k d m, open_intent peer k d m e = (e_sid e, e_set_sid (e_sid e + 1) e, false)) as OI by (intros; rewrite open_intent_eq, R; reflexivity).
  assert (forall id, resolve_intent id e = remove_intent id e) as RS by (intros id; rewrite resolve_none; [reflexivity|rewrite IN; reflexivity]).
  destruct o; cbn [ep_step fst snd].
  all: try (split; [apply nodial_act; auto; exact Logic.I|reflexivity]).
  all: try (split; [exact D|reflexivity]).
  - unfold handle_packet. rewrite R. split; [exact D|reflexivity].
  - unfold handle_timeout. rewrite R. split; [exact D|reflexivity].
  - unfold handle_stream_event. rewrite R. destruct ev; split; try exact D; reflexivity.
  - unfold ping. rewrite R. split; [exact D|reflexivity].
  - unfold start_probe. rewrite R. split; [exact D|reflexivity].
  - unfold push_pull_direct. rewrite OI. unfold announce. change (e_int (e_set_sid (e_sid e + 1) e)) with (e_int e). rewrite IN. split; [exact D|reflexivity].
  - unfold push_pull_direct. rewrite OI. split; [exact D|reflexivity].
  - unfold reliable_ping_direct. rewrite OI. unfold announce. change (e_int (e_set_sid (e_sid e + 1) e)) with (e_int e). rewrite IN. split; [exact D|reflexivity].
  - unfold reliable_ping_direct. rewrite OI. split; [exact D|reflexivity].
  - rewrite R. split; [exact D|reflexivity].
  - rewrite R. split; [exact D|reflexivity].
  - unfold dial_succeeded. rewrite IN. split; [exact D|reflexivity].
  - rewrite RS. split; [exact D|reflexivity].
  - unfold accept_stream. rewrite R. split; [exact D|reflexivity].
  - unfold leave_with. rewrite R. split; [exact D|reflexivity].
  - split; [apply nodial_act; auto|]. destruct (k_ev (e_core e)) as [|ev r]; [reflexivity|]. cbn. destruct ev; try reflexivity. destruct (D id peer deadline). left. reflexivity.
  - pose proof (poll_transmit_core C e) as PC. destruct (poll_transmit C e) as [e' t]. cbn [fst snd] in *. split; [|destruct t; reflexivity]. rewrite PC.
    unfold poll_ops. destruct (e_tx e); [exact D|]. destruct (e_flush e) as [r|]; [|exact D]. destruct (r <=? 1); [|exact D].
    cbn. apply nodial_app; [exact D|apply nodial_one; reflexivity].
  - unfold set_ack_payload. rewrite R. split; [exact D|reflexivity].
  - unfold set_snapshot. rewrite R. split; [exact D|reflexivity].
  - unfold queue_user. rewrite R. split; [exact D|reflexivity].
  - unfold send_user. rewrite R. split; [exact D|reflexivity].
  - unfold send_users. rewrite R. split; [exact D|reflexivity].
  - split; [apply nodial_act; auto|]. unfold update_meta. unfold runs in R. rewrite R. reflexivity.
  - unfold start_scheduling. rewrite R. split; [exact D|reflexivity].
Qed.
Lemma leave_dials now fw e : einv C e -> runs e = true -> nodial (k_ev (e_core (leave_with C now fw e))).
Proof.
  intros I R. rewrite (leave_with_core C now fw e R). unfold leave_ops.
  assert (nodial (k_ev (core_leave C now (e_core e)))) as D.
  { unfold runs in R. apply running_true in R. pose proof (ei_core _ _ I) as K. destruct (local_rec C _ K) as (m & G & EI & _ & _ & EA & _).
    unfold core_leave. rewrite R. cbn [is_running negb k_set_ev k_set_life k_mem k_inc]. unfold rec_at in G. rewrite G, EI, N.max_id.
    unfold process_dead. cbn [k_mem k_set_ev k_set_life]. rewrite G, EI, N.ltb_irrefl, (EA R). cbn [dead_or_left]. rewrite N.eqb_refl. cbn [k_life].
    unfold emit. cbn. apply nodial_app; [|apply nodial_one; reflexivity]. intros id p d H. apply filter_In in H as [_ H]. discriminate. }
  destruct (live_addrs C _); cbn; [apply nodial_app; [exact D|apply nodial_one; reflexivity]|exact D].
Qed.
Definition quietened (e : ep) : Prop := runs e = false -> nodial (k_ev (e_core e)).
Lemma quietened_step e o : einv C e -> quietened e -> quietened (fst (ep_step C e o)).
Proof.
  intros I Q R'. destruct (runs e) eqn:R; [|apply stopped_dials; auto].
  destruct o; try (match type of R' with runs (fst (ep_step C e ?o)) = _ => assert (runs (fst (ep_step C e o)) = true) as X by (apply runs_step; auto; intros; discriminate) end; rewrite X in R'; discriminate).
  cbn [ep_step fst]. apply leave_dials; auto.
Qed.
Lemma quietened_run e os : einv C e -> quietened e -> quietened (fst (ep_run C e os)).
Proof.
  intros I Q. rewrite ep_run_fst. revert e I Q. induction os as [|o os IH]; intros e I Q; [exact Q|]. cbn [fold_left].
  apply IH; [apply einv_op, I|apply quietened_step; assumption].
Qed.
Lemma reach_quietened e : reach C e -> quietened e.
Proof.
  intros (t0 & e0 & os & N & ->). apply quietened_run; [eapply einv_new, N|]. intros R. exfalso. revert N R. unfold ep_new.
  destruct (cfg_ok C); [|discriminate]. intros N. apply Some_inj in N. rewrite <- N. unfold refresh_cache. match goal with |- context [if ?b then _ else _] => destruct b end; discriminate.
Qed.
Lemma stopped_run_dials os : forall e, einv C e -> runs e = false -> nodial (k_ev (e_core e)) -> existsb asks (snd (ep_run C e os)) = false.
Proof.
  induction os as [|o os IH]; intros e I R D; [reflexivity|]. destruct (stopped_dials e o I R D) as [D1 X1].
  assert (runs (fst (ep_step C e o)) = false) as R1.
  { destruct o; try (apply stopped_step; auto; fail). all: cbn [ep_step fst]. 
    - unfold reset_nodes. change (runs (act C (KReset now) e) = false). rewrite runs_nl by exact Logic.I. exact R.
    - rewrite runs_nl by exact Logic.I. exact R. }
  pose proof (einv_op C e o I) as I1. cbn [ep_run]. destruct (ep_step C e o) as [e1 x1]. cbn [fst snd] in *.
  specialize (IH e1 I1 R1 D1). destruct (ep_run C e1 os) as [e2 x2]. cbn [snd] in *. rewrite existsb_app, X1, IH. reflexivity.
Qed.

(** ** Who is told *)
Lemma live_upd_local f (t : mtable) :
  map (fun p => ns_addr (m_server (snd p))) (filter (live_remote C) (mt_upd LID f t)) = map (fun p => ns_addr (m_server (snd p))) (filter (live_remote C) t).
Proof.
  induction t as [|[i m] t IH]; [reflexivity|]. unfold mt_upd in *. cbn [map fst snd]. destruct (N.eqb_spec i LID) as [->|NE].
  - assert (forall x, live_remote C (LID, x) = false) as E by (intros x; unfold live_remote; cbn [fst]; rewrite N.eqb_refl; reflexivity).
    cbn [filter]. rewrite !E. exact IH.
  - cbn [filter]. destruct (live_remote C (i, m)); cbn [map]; rewrite IH; reflexivity.
Qed.
Lemma live_leave now e : einv C e -> runs e = true -> live_addrs C (act C (KLeave now) e) = live_addrs C e.
Proof.
  intros I R. unfold live_addrs, act. cbn [e_core e_set_core]. unfold core_step. cbn [fst]. unfold runs in R. apply running_true in R.
  pose proof (ei_core _ _ I) as K. destruct (local_rec C _ K) as (m & G & EI & _ & _ & EA & _).
  unfold core_leave. rewrite R. cbn [is_running negb k_set_ev k_set_life k_mem k_inc]. unfold rec_at in G. rewrite G, EI, N.max_id.
  unfold process_dead. cbn [k_mem k_set_ev k_set_life]. rewrite G, EI, N.ltb_irrefl, (EA R). cbn [dead_or_left]. rewrite N.eqb_refl. cbn [k_life].
  unfold emit, clear_suspicion, upd, bcast. cbn. rewrite !live_upd_local. reflexivity.
Qed.

(** ** Vetoes *)
Definition allowed (f : nstate -> bool) (k : core) : Prop := k_adm k = f /\ forall id m, id <> LID -> rec_at k id = Some m -> f (m_server m) = true.
Lemma adm_step o now k k' : kstep C o now k k' -> (forall g, o <> KAdmit g) -> k_adm k' = k_adm k.
Proof.
  destruct 1; intros NA; try reflexivity.
  - cbv zeta. destruct takeover; destruct (dead_or_left _); try destruct (negb _); reflexivity.
  - unfold reset_members. cbn.
    match goal with |- context [fold_left ?f _ _] => assert (forall l0 k0, k_adm (fold_left f l0 k0) = k_adm k0) as F end.
    { induction l0 as [|i l0 IH]; intros k1; [reflexivity|]. cbn [fold_left]. rewrite IH. reflexivity. }
    rewrite F. destruct (map fst _); reflexivity.
  - destruct (NA f). exact H.
Qed.
Lemma allowed_step f o now k k' : kinv C k -> kstep C o now k k' -> (forall g, o <> KAdmit g) -> allowed f k -> allowed f k'.
Proof.
  intros K S NA [E A]. split; [rewrite (adm_step _ _ _ _ S NA); exact E|]. intros id m' NL G'.
  pose proof (step_trans C o now k k' id K S) as T. rewrite G' in T. specialize (A id). destruct (rec_at k id) as [m|]; [specialize (A m NL eq_refl)|]; clear G' K S.
  - inversion T; subst; try exact A; try congruence; cbn; assumption.
  - inversion T; subst; cbn; assumption.
Qed.
Lemma allowed_steps f o now k k' : ksteps C o now k k' -> kinv C k -> (forall g, o <> KAdmit g) -> allowed f k -> allowed f k'.
Proof.
  induction 1 as [|? ? ? S _ IH]; intros K NA A; [exact A|]. apply IH; [eapply kinv_step; eauto|exact NA|eapply allowed_step; eauto].
Qed.
Lemma allowed_run f os : forall k, kinv C k -> Forall (fun o => forall g, o <> KAdmit g) os -> allowed f k -> allowed f (fst (core_run C k os)).
Proof.
  intros k K F A. rewrite core_run_fst. revert k K A. induction F as [|o os NA F IH]; intros k K A; [exact A|]. cbn [fold_left].
  apply IH; [apply kinv_core_step, K|]. eapply allowed_steps; [apply core_step_steps, K|exact K|exact NA|exact A].
Qed.
Lemma fail_noadm e s p now l : einv C e -> In (LFail s p now l) (map (LFail s p now) (fail_ops C now p e)) -> forall g, l <> KAdmit g.
Proof.
  intros _ H g. apply in_map_iff in H as (o & E & H). injection E as ->. unfold fail_ops in H. destruct (p_kind p); [|destruct H].
  destruct (p_disp p); [|destruct H]. destruct H as [<-|H]; [discriminate|]. destruct (same_instance p e); [|destruct H]. destruct H as [<-|[]]. discriminate.
Qed.
Lemma estep_fails e ls cr e' : estep C e ls cr e' -> Forall (fun l => match l with LFail _ _ _ o => forall g, o <> KAdmit g | _ => True end) ls.
Proof.
  destruct 1; try (repeat constructor; fail).
  - apply Forall_app. split; [|destruct (p_kind p); repeat constructor]. apply Forall_forall. intros l L. apply in_map_iff in L as (o & <- & H1).
    intros g. unfold fail_ops in H1. destruct (p_kind p); [|destruct H1].
    destruct (p_disp p); [|destruct H1]. destruct H1 as [<-|H1]; [discriminate|]. destruct (same_instance p e); [|destruct H1]. destruct H1 as [<-|[]]. discriminate.
  - apply Forall_forall. intros l L. apply in_map_iff in L as (o & <- & _). exact Logic.I.
  - apply Forall_forall. intros l L. apply in_map_iff in L as (o & <- & _). exact Logic.I.
Qed.
Lemma esteps_fails e ls cr e' : esteps C e ls cr e' -> Forall (fun l => match l with LFail _ _ _ o => forall g, o <> KAdmit g | _ => True end) ls.
Proof. induction 1 as [|? ? ? ? ? ? ? S _ IH]; [constructor|]. apply Forall_app. split; [eapply estep_fails, S|exact IH]. Qed.
Lemma step_noadm e o : einv C e -> (forall g, o <> EAliveDelegate g) ->
  exists ops, e_core (fst (ep_step C e o)) = fst (core_run C (e_core e) ops) /\ Forall (fun o => forall g, o <> KAdmit g) ops.
Proof.
  intros I NA. destruct (step_chain C e o I) as (ls & cr & S & _ & F). exists (map unlab ls). split; [apply (esteps_core C _ _ _ _ S)|].
  pose proof (esteps_fails _ _ _ _ S) as FF. apply Forall_map. rewrite Forall_forall in *. intros l L. specialize (F l L). specialize (FF l L). cbn beta.
  destruct l as [k|s p now k]; [|exact FF]. cbn [unlab]. destruct F as [O|(k' & E & D)].
  - intros g ->. exact O.
  - injection E as ->. intros g ->. destruct o; cbn in D; try contradiction; try (eapply NA; reflexivity);
      try (destruct m; cbn in D; try contradiction); try (destruct ev; cbn in D; try contradiction); destruct D as [D|D]; try discriminate; try destruct D as [D|D]; try discriminate; contradiction.
Qed.
Lemma allowed_op f e o : einv C e -> (forall g, o <> EAliveDelegate g) -> allowed f (e_core e) -> allowed f (e_core (fst (ep_step C e o))).
Proof. intros I NA A. destruct (step_noadm e o I NA) as (ops & -> & F). apply allowed_run; [apply (ei_core _ _ I)|exact F|exact A]. Qed.
Lemma allowed_ops f os : forall e, einv C e -> (forall g, ~ In (EAliveDelegate g) os) -> allowed f (e_core e) -> allowed f (e_core (fst (ep_run C e os))).
Proof.
  intros e I NA A. rewrite ep_run_fst. revert e I NA A. induction os as [|o os IH]; intros e I NA A; [exact A|]. cbn [fold_left].
  apply IH; [apply einv_op, I|intros g H; apply (NA g); right; exact H|]. apply allowed_op; auto. intros g ->. apply (NA g). left. reflexivity.
Qed.

(** the merge delegate stays until it is replaced *)
(** the merge delegate and the schedules *)
Definition cached (e : ep) := (e_cache e, e_cver e, e_cdirty e, e_snap e).
Definition held (e : ep) := (e_merge e, cached e).
Definition view (e : ep) := (held e, (e_np e, e_ng e, e_npp e, e_psr e)).
Lemma view_held a b : view a = view b -> held a = held b.
Proof. unfold view. congruence. Qed.
Lemma view_merge a b : held a = held b -> e_merge a = e_merge b.
Proof. unfold held. congruence. Qed.
Lemma fold_merge {A} (f : ep -> A -> ep) l : (forall e a, view (f e a) = view e) -> forall e, view (fold_left f l e) = view e.
Proof. intros H. induction l as [|a l IH]; intros e; [reflexivity|]. cbn [fold_left]. rewrite IH. apply H. Qed.
Lemma alloc_merge e s e' : alloc_seq e = Some (s, e') -> view e' = view e.
Proof. unfold alloc_seq. destruct (seq_loop _ _ _); [|discriminate]. intros H. injection H as _ <-. reflexivity. Qed.
Lemma retire_merge s e : view (retire_reliable s e) = view e.
Proof. unfold retire_reliable. destruct (aget s (e_probes e)) as [p|]; [|reflexivity]. destruct (p_phase p); reflexivity. Qed.
Lemma resolve_merge id e : view (resolve_intent id e) = view e.
Proof. unfold resolve_intent. destruct (aget id (e_int e)) as [i|]; [|reflexivity]. cbv zeta. destruct (in_kind i); try reflexivity. rewrite retire_merge. reflexivity. Qed.
Lemma fail_merge s now e : view (probe_fail C s now e) = view e.
Proof.
  unfold probe_fail. destruct (aget s (e_probes e)) as [p|]; [|reflexivity]. cbv zeta.
  destruct (p_phase p) as [|? ? ? [?|] ?], (p_kind p); try reflexivity; destruct (negb _); try reflexivity; destruct (same_instance _ _); reflexivity.
Qed.
Lemma ok_merge s d pl now e : view (probe_ok C s d pl now e) = view e.
Proof.
  unfold probe_ok. destruct (aget s (e_probes e)) as [p|]; [|reflexivity]. destruct (_ <=? _); [apply fail_merge|]. cbv zeta.
  destruct (p_kind p); [|reflexivity]. destruct d; reflexivity.
Qed.
Lemma push_fit_merge to m e : view (fst (push_fit C to m e)) = view e.
Proof. unfold push_fit. destruct (_ <=? _); reflexivity. Qed.
Lemma open_merge peer k d m e : view (snd (fst (open_intent peer k d m e))) = view e.
Proof. rewrite open_intent_eq. destruct (runs e); reflexivity. Qed.
Lemma announce_merge r : view (snd (announce C r)) = view (snd (fst r)).
Proof. destruct r as [[id e] ok]. unfold announce. cbn [fst snd]. destruct (aget id (e_int e)); [|reflexivity]. destruct ok; reflexivity. Qed.
Lemma packet_merge from m now e : view (handle_packet C from m now e) = view e.
Proof.
  unfold handle_packet. destruct (negb (runs e)); [reflexivity|]. destruct m; try reflexivity.
  - unfold handle_ping. destruct (negb _); reflexivity.
  - unfold handle_indirect_ping. destruct (negb _); [reflexivity|]. destruct (_ <=? _); [reflexivity|]. destruct (existsb _ _); [reflexivity|].
    destruct (alloc_seq e) as [[s e']|] eqn:A; [|reflexivity]. cbv zeta. apply alloc_merge in A. destruct (negb _); exact A.
  - unfold handle_ack. destruct (ack_get _ _) as [a|]; [|reflexivity]. destruct (negb _); [reflexivity|].
    match goal with |- context [if ?b then e else _] => destruct b end; [reflexivity|]. cbv zeta.
    destruct (a_kind a); try (rewrite ok_merge; reflexivity). match goal with |- context [aget ?s (e_fwds ?x)] => destruct (aget s (e_fwds x)) end; reflexivity.
  - unfold handle_nack. destruct (aget _ _) as [p|]; [|reflexivity]. destruct (_ <=? _); [reflexivity|]. destruct (p_phase p); [reflexivity|]. destruct (_ && _); reflexivity.
Qed.
Lemma start_probe_merge now e : view (start_probe C now e) = view e.
Proof.
  unfold start_probe. destruct (negb (runs e)); [reflexivity|]. unfold next_target. destruct (scan _ _ _ _) as [[id cur]|]; [|reflexivity].
  set (e1 := e_set_pidx cur e). change (view e) with (view e1). clearbody e1.
  destruct (aget id (k_mem (e_core e1))) as [m|]; [|reflexivity]. destruct (alloc_seq e1) as [[s e2]|] eqn:A; [|reflexivity]. apply alloc_merge in A. rewrite <- A.
  cbv zeta. destruct (pstate_eqb _ _).
  - destruct (_ <=? _); [reflexivity|]. set (e3 := e_set_acks _ _). unfold push_fit. destruct (elen C (MPing _ _ _) <=? _); cbn [fst]; destruct (elen C (MSuspect _ _ _) <=? _); reflexivity.
  - unfold push_fit. destruct (_ <=? _); reflexivity.
Qed.
Lemma gossip_batch_merge e : view (fst (gossip_batch C e)) = view e.
Proof.
  unfold gossip_batch. destruct (peek_first_sendable _ _); [destruct (_ <? _); [reflexivity|]|];
    destruct (take_broadcasts_measured _ _ _ _ _) as [[Q got] used]; unfold drain_user; destruct (ub_take _ _ _ _ _) as [[? ?] ?]; reflexivity.
Qed.
Lemma fan_merge now e s : view (fan_out C now e s) = view e.
Proof.
  unfold fan_out. destruct (aget s (e_probes e)) as [p|]; [|reflexivity]. cbv zeta. unfold pick. cbv zeta.
  match goal with |- context [act C (KDraws ?n) e] => set (e1 := act C (KDraws n) e); change (view e) with (view e1); generalize e1; clear e1 end. intros e1.
  destruct (p_fail p <=? now); [apply fail_merge|].
  match goal with |- view (let '(rid, e0) := ?x in _) = _ => assert (view (snd x) = view e1) as E; [|destruct x as [rid e2]; cbn [snd] in E; rewrite <- E; clear E] end.
  { destruct (existsb _ _); [reflexivity|]. pose proof (announce_merge (reliable_ping_direct C (ns_id (p_target p)) (ns_addr (p_target p)) s (p_fail p) e1)) as A.
    destruct (announce C _) as [rid e2]. cbn [snd] in *. rewrite A. apply open_merge. }
  match goal with |- context [fold_left (send_indirect C ?m) ?l ?st] =>
    assert (forall l0 st0, view (fst (fold_left (send_indirect C m) l0 st0)) = view (fst st0)) as F end.
  { induction l0 as [|a l0 IH]; intros st0; [reflexivity|]. cbn [fold_left]. rewrite IH. unfold send_indirect.
    pose proof (push_fit_merge a (MIndirectPing s (lnode C) (mkNode (ns_id (p_target p)) (ns_addr (p_target p)))) (fst st0)) as X. destruct (push_fit C _ _ _). exact X. }
  match goal with |- context [fold_left (send_indirect C ?m) ?l ?st] => specialize (F l st); destruct (fold_left (send_indirect C m) l st) as [e3 peers] end. cbn [fst] in F. rewrite <- F.
  destruct (_ && _); [apply fail_merge|reflexivity].
Qed.
(** what happens first leaves both alone *)
Lemma quick_view now e : view (fire_expired_intents now (fire_expired_forwards now (advance_fsm C now (act C (KExpire now) e)))) = view e.
Proof.
  unfold fire_expired_intents. rewrite fold_merge by (intros; apply resolve_merge).
  unfold fire_expired_forwards. rewrite fold_merge by (intros e0 a; unfold expire_forward; destruct (aget _ _); reflexivity).
  unfold advance_fsm. rewrite fold_merge by (intros; apply fail_merge). rewrite fold_merge by (intros; apply fan_merge). reflexivity.
Qed.
Lemma timeout_held now e : runs e = true -> exists x, handle_timeout C now e = refresh_cache x /\ held x = held e.
Proof.
  intros R. unfold handle_timeout. rewrite R. cbn [negb]. eexists. split; [reflexivity|].
  assert (forall e, held (fire_pushpull C now e) = held e) as X2.
  { intros e0. unfold fire_pushpull. destruct (e_npp e0); [|reflexivity]. destruct (_ <? _); [reflexivity|]. cbv zeta.
    match goal with |- held (e_set_npp ?a ?x) = _ => change (held (e_set_npp a x)) with (held x) end.
    destruct (live_addrs C e0) as [|a l]; [reflexivity|]. unfold pick. destruct (btake 1 _); [reflexivity|]. match goal with |- held (snd ?x) = _ => rewrite (view_held _ _ (announce_merge _)) end. unfold push_pull_direct. rewrite (view_held _ _ (open_merge _ _ _ _ _)). reflexivity. }
  assert (forall e, held (fire_gossip C now e) = held e) as X3.
  { intros e0. unfold fire_gossip. destruct (e_ng e0); [|reflexivity]. destruct (_ <? _); [reflexivity|]. cbv zeta. unfold pick.
    match goal with |- context [act C (KDraws ?n) e0] => set (e1 := act C (KDraws n) e0); change (held e0) with (held e1); clearbody e1 end.
    destruct (btake _ _); [reflexivity|]. pose proof (view_held _ _ (gossip_batch_merge e1)) as G. destruct (gossip_batch C e1) as [e2 ms]. exact G. }
  assert (forall e, held (fire_probe C now e) = held e) as X4.
  { intros e0. unfold fire_probe. destruct (e_np e0); [|reflexivity]. destruct (_ <? _); [reflexivity|]. cbv zeta.
    match goal with |- held (e_set_np ?a ?x) = _ => change (held (e_set_np a x)) with (held x) end.
    rewrite (view_held _ _ (start_probe_merge _ _)). destruct (_ && _); reflexivity. }
  rewrite X2, X3, X4. apply view_held, quick_view.
Qed.
Lemma refresh_merge x : e_merge (refresh_cache x) = e_merge x.
Proof. unfold refresh_cache. destruct (_ && _); reflexivity. Qed.
Lemma timeout_merge now e : e_merge (handle_timeout C now e) = e_merge e.
Proof.
  destruct (runs e) eqn:R; [|unfold handle_timeout; rewrite R; reflexivity]. destruct (timeout_held now e R) as (x & -> & H). rewrite refresh_merge. apply view_merge, H.
Qed.
Definition moves (o : eop) : bool := match o with EMergeDelegate _ | ETimeout _ | ELeave _ _ | ESchedule _ | ESnapshot _ => true | _ => false end.
Lemma step_view e o : moves o = false -> view (fst (ep_step C e o)) = view e.
Proof.
  intros NM. destruct o; try discriminate NM; cbn [ep_step fst]; try reflexivity.
  - apply packet_merge.
  - unfold handle_stream_event. destruct ev; try reflexivity; destruct (runs e); cbn [negb]; try reflexivity.
    + destruct (e_merge e _) eqn:M; [|reflexivity]. unfold merge_in. destruct user; reflexivity.
    + destruct (e_merge e _) eqn:M; [|reflexivity]. unfold merge_in. destruct user; reflexivity.
    + apply ok_merge.
    + apply retire_merge.
  - unfold ping. destruct (negb _); [reflexivity|]. cbv zeta. destruct (alloc_seq e) as [[s e']|] eqn:A; [|reflexivity]. apply alloc_merge in A. destruct (_ <? _); exact A.
  - apply start_probe_merge.
  - pose proof (announce_merge (push_pull_direct C peer join now e)) as A. destruct (announce C _). cbn in *. rewrite A. apply open_merge.
  - unfold dialled, push_pull_direct. pose proof (open_merge peer (OKPushPull join) (tadd now (c_stream_timeout C)) (MPushPull join (local_states e) (e_snap e)) e) as A. destruct (open_intent _ _ _ _ _) as [[? ?] ?]. exact A.
  - pose proof (announce_merge (reliable_ping_direct C id addr seq deadline e)) as A. destruct (announce C _). cbn in *. rewrite A. apply open_merge.
  - unfold dialled, reliable_ping_direct. match goal with |- context [open_intent ?a ?b ?c ?d e] => pose proof (open_merge a b c d e) as A; destruct (open_intent a b c d e) as [[? ?] ?] end. exact A.
  - destruct (runs e) eqn:R; [|reflexivity]. pose proof (announce_merge (user_message_direct C peer data now e)) as A. destruct (announce C _). cbn in *. rewrite A.
    unfold user_message_direct. rewrite R. apply open_merge.
  - destruct (runs e) eqn:R; [|reflexivity]. unfold dialled, user_message_direct. rewrite R. cbn [negb].
    match goal with |- context [open_intent ?a ?b ?c ?d e] => pose proof (open_merge a b c d e) as A; destruct (open_intent a b c d e) as [[? ?] ?] end. exact A.
  - unfold dial_succeeded. destruct (aget _ _); [|reflexivity]. destruct (_ || _); [apply resolve_merge|reflexivity].
  - apply resolve_merge.
  - unfold accept_stream. destruct (negb _); reflexivity.
  - unfold poll_transmit. destruct (e_tx e); [reflexivity|]. cbv zeta. match goal with |- context [e_flush ?x] => destruct (e_flush x) end; [|reflexivity]. destruct (_ <=? _); reflexivity.
  - unfold set_ack_payload. destruct (negb _); [reflexivity|]. destruct (_ <? _); reflexivity.
  - unfold queue_user. destruct (negb _); [reflexivity|]. destruct (_ <? _); reflexivity.
  - unfold send_user. destruct (negb _); [reflexivity|]. destruct (_ <? _); reflexivity.
  - unfold send_users. destruct (negb _); [reflexivity|]. destruct l as [|a [|b l]]; [reflexivity| |].
    + unfold send_user. destruct (negb _); [reflexivity|]. destruct (_ <? _); reflexivity.
    + cbv zeta. destruct (_ <? _); reflexivity.
Qed.
Definition turns (o : eop) : bool := match o with EMergeDelegate _ | ETimeout _ | ESnapshot _ => true | _ => false end.
Lemma step_held e o : turns o = false -> held (fst (ep_step C e o)) = held e.
Proof.
  intros NM. destruct (moves o) eqn:M; [|apply view_held, step_view, M]. destruct o; try discriminate M; try discriminate NM; cbn [ep_step fst].
  - destruct (runs e) eqn:R; [|unfold leave_with; rewrite R; reflexivity]. rewrite (leave_eq C now farewell e R). cbv zeta.
    destruct (live_addrs C _) as [|a l]; [reflexivity|]. unfold farewell_payloads. cbv zeta.
    destruct farewell as [fw|]; [destruct (_ <=? _)|]; try destruct (_ =? 0); unfold drain_user; try destruct (ub_take _ _ _ _ _) as [[? ?] ?]; reflexivity.
  - unfold start_scheduling. destruct (negb _); [reflexivity|]. unfold stagger. cbv zeta.
    destruct (0 <? c_probe_interval C), (_ && _), (0 <? c_pp_interval C);
      destruct (c_probe_interval C mod two64 =? 0), (c_gossip_interval C mod two64 =? 0), (c_pp_interval C mod two64 =? 0); reflexivity.
Qed.
Lemma step_merge e o : (forall g, o <> EMergeDelegate g) -> e_merge (fst (ep_step C e o)) = e_merge e.
Proof.
  intros NM. destruct (turns o) eqn:M; [|apply view_merge, step_held, M]. destruct o; try discriminate M; cbn [ep_step fst].
  - apply timeout_merge.
  - unfold set_snapshot. destruct (negb _); [reflexivity|]. destruct (snapshot_fits _ _); reflexivity.
  - exfalso. eapply NM. reflexivity.
Qed.
Lemma merge_stays os : forall e, (forall g, ~ In (EMergeDelegate g) os) -> e_merge (fst (ep_run C e os)) = e_merge e.
Proof.
  intros e NM. rewrite ep_run_fst. revert e NM. induction os as [|o os IH]; intros e NM; [reflexivity|]. cbn [fold_left].
  rewrite IH by (intros g H; apply (NM g); right; exact H). apply step_merge. intros g ->. apply (NM g). left. reflexivity.
Qed.

(** ** What the timer handler leaves behind *)
Lemma clear_fold now ids : forall k, kinv C k -> k_life k = Running -> NoDup ids ->
  (forall id, In id ids -> exists m, rec_at k id = Some m /\ due now m = true) ->
  let k' := fold_left (fun k id => process_dead C match aget id (k_mem k) with Some m => m_inc m | None => 0 end id LID now k) ids k in
  (forall id, ~ In id ids -> rec_at k' id = rec_at k id) /\ (forall id m, In id ids -> rec_at k' id = Some m -> m_susp m = None).
Proof.
  induction ids as [|i ids IH]; intros k V R ND HD; cbn [fold_left]; [split; [reflexivity|intros ? ? []]|].
  destruct (HD i (or_introl eq_refl)) as (m & G & D). inversion ND as [|? ? N1 ND']; subst. pose proof (ki_rec _ _ V _ _ G) as [EID ST].
  assert (m_state m = PSuspect) as ES.
  { unfold due in D. destruct (m_susp m) eqn:E; [|discriminate]. destruct (m_state m); try congruence; contradiction. }
  assert (i <> LID) as NL.
  { intros ->. destruct (local_rec C k V) as (ml & GL & _ & _ & S0 & _). unfold due in D. assert (ml = m) by congruence. subst. rewrite S0 in D. discriminate. }
  unfold rec_at in G. rewrite G. fold (rec_at k i) in G.
  rewrite (dead_kills C (m_inc m) i now k m V R G ltac:(lia) ltac:(rewrite ES; reflexivity) NL). set (k1 := emit _ _).
  assert (kstep C (KExpire now) now k k1) as S1.
  { pose proof (s_dead C (KExpire now) now k i m (m_inc m) LID ltac:(cbn; eauto 6) R G ltac:(lia) ltac:(rewrite ES; reflexivity) NL) as S.
    destruct (N.eqb_spec i LID); [contradiction|]. exact S. }
  pose proof (kinv_step C _ _ _ _ V S1) as V1.
  assert (forall id, rec_at k1 id = if id =? i then Some (killed now m) else rec_at k id) as R1.
  { intros id. unfold rec_at, k1. cbn. rewrite aget_mt_upd. destruct (N.eqb_spec id i) as [->|]; [|reflexivity]. unfold rec_at in G. rewrite G. reflexivity. }
  destruct (IH k1 V1 R ND') as (D1 & D2).
  { intros id Hid. destruct (HD id (or_intror Hid)) as (m' & G' & D'). exists m'. split; [|exact D'].
    rewrite R1. destruct (N.eqb_spec id i) as [->|]; [contradiction|exact G']. }
  split.
  - intros id NI. rewrite D1 by (intros H; apply NI; right; exact H). rewrite R1. destruct (N.eqb_spec id i) as [->|]; [exfalso; apply NI; left; reflexivity|reflexivity].
  - intros id m' [<-|Hi] G'; [|eapply D2; eauto]. rewrite D1 in G' by exact N1. rewrite R1, N.eqb_refl in G'. apply Some_inj in G'. subst m'. reflexivity.
Qed.
Lemma killed_fold now ids : forall k, kinv C k -> k_life k = Running -> NoDup ids ->
  (forall id, In id ids -> exists m, rec_at k id = Some m /\ due now m = true) ->
  let k' := fold_left (fun k id => process_dead C match aget id (k_mem k) with Some m => m_inc m | None => 0 end id LID now k) ids k in
  (forall id, ~ In id ids -> rec_at k' id = rec_at k id) /\ (forall id m, In id ids -> rec_at k id = Some m -> rec_at k' id = Some (killed now m)).
Proof.
  induction ids as [|i ids IH]; intros k V R ND HD; cbn [fold_left]; [split; [reflexivity|intros ? ? []]|].
  destruct (HD i (or_introl eq_refl)) as (m & G & D). inversion ND as [|? ? N1 ND']; subst. pose proof (ki_rec _ _ V _ _ G) as [EID ST].
  assert (m_state m = PSuspect) as ES.
  { unfold due in D. destruct (m_susp m) eqn:E; [|discriminate]. destruct (m_state m); try congruence; contradiction. }
  assert (i <> LID) as NL.
  { intros ->. destruct (local_rec C k V) as (ml & GL & _ & _ & S0 & _). unfold due in D. assert (ml = m) by congruence. subst. rewrite S0 in D. discriminate. }
  unfold rec_at in G. rewrite G. fold (rec_at k i) in G.
  rewrite (dead_kills C (m_inc m) i now k m V R G ltac:(lia) ltac:(rewrite ES; reflexivity) NL). set (k1 := emit _ _).
  assert (kstep C (KExpire now) now k k1) as S1.
  { pose proof (s_dead C (KExpire now) now k i m (m_inc m) LID ltac:(cbn; eauto 6) R G ltac:(lia) ltac:(rewrite ES; reflexivity) NL) as S.
    destruct (N.eqb_spec i LID); [contradiction|]. exact S. }
  pose proof (kinv_step C _ _ _ _ V S1) as V1.
  assert (forall id, rec_at k1 id = if id =? i then Some (killed now m) else rec_at k id) as R1.
  { intros id. unfold rec_at, k1. cbn. rewrite aget_mt_upd. destruct (N.eqb_spec id i) as [->|]; [|reflexivity]. unfold rec_at in G. rewrite G. reflexivity. }
  destruct (IH k1 V1 R ND') as (D1 & D2).
  { intros id Hid. destruct (HD id (or_intror Hid)) as (m' & G' & D'). exists m'. split; [|exact D'].
    rewrite R1. destruct (N.eqb_spec id i) as [->|]; [contradiction|exact G']. }
  split.
  - intros id NI. rewrite D1 by (intros H; apply NI; right; exact H). rewrite R1. destruct (N.eqb_spec id i) as [->|]; [exfalso; apply NI; left; reflexivity|reflexivity].
  - intros id m' [<-|Hi] G'.
    + rewrite D1 by exact N1. rewrite R1, N.eqb_refl. congruence.
    + apply D2; [exact Hi|]. rewrite R1. destruct (N.eqb_spec id i) as [->|]; [contradiction|exact G'].
Qed.
Lemma expire_clears now k id m s : kinv C k -> k_life k = Running -> rec_at (fire_expired_suspicions C now k) id = Some m -> m_susp m = Some s -> now < s_deadline s.
Proof.
  intros K R G S. unfold fire_expired_suspicions in G.
  destruct (clear_fold now (expired_ids now (k_mem k)) k K R (expired_nodup _ _ (ki_nodup _ _ K))) as [D1 D2].
  { intros i H. apply (in_expired now _ i (ki_nodup _ _ K)) in H. exact H. }
  cbv zeta in *. destruct (in_dec N.eq_dec id (expired_ids now (k_mem k))) as [H|H]; [rewrite (D2 _ _ H G) in S; discriminate|].
  rewrite (D1 _ H) in G. destruct (N.ltb_spec now (s_deadline s)) as [|L]; [assumption|]. exfalso. apply H. apply (in_expired now _ id (ki_nodup _ _ K)).
  exists m. split; [exact G|]. unfold due. rewrite S. apply N.leb_le. exact L.
Qed.

Definition waits (now : N) (e : ep) : Prop := forall s p, aget s (e_probes e) = Some p -> fsm_due C now p = FsmWait.
Record clean (now : N) (e : ep) : Prop := mkClean {
  cl_pr : waits now e;
  cl_fw : forall s f, aget s (e_fwds e) = Some f -> now < f_deadline f;
  cl_int : forall id i, aget id (e_int e) = Some i -> now < in_deadline i;
  cl_np : forall t, e_np e = Some t -> now < t;
  cl_ng : forall t, e_ng e = Some t -> now < t;
  cl_npp : forall t, e_npp e = Some t -> now < t }.
Lemma wait_fail now p : fsm_due C now p = FsmWait -> now < p_fail p.
Proof. unfold fsm_due. destruct (N.leb_spec (p_fail p) now); [discriminate|auto]. Qed.
Lemma wait_direct now p d : fsm_due C now p = FsmWait -> p_phase p = PhDirect d -> now < tadd (p_sent p) (c_probe_timeout C).
Proof.
  unfold fsm_due. destruct (_ <=? _); [discriminate|]. intros W P. rewrite P in W. unfold p_direct_deadline in W.
  destruct (N.leb_spec (tadd (p_sent p) (c_probe_timeout C)) now); [destruct (p_kind p); discriminate|assumption].
Qed.
Lemma clean_due now e t : clean now e -> due_at C e t -> now < t \/ exists id m s, aget id (k_mem (e_core e)) = Some m /\ m_susp m = Some s /\ t = s_deadline s.
Proof.
  intros [A B D E F G] H. destruct H; eauto 8.
  - left. pose proof (wait_fail _ _ (A _ _ H)). pose proof (wait_direct _ _ _ (A _ _ H) H0). lia.
  - left. apply wait_fail. eapply A; eauto.
Qed.

Lemma fan_waits now e s p d : kinv C (e_core e) -> runs e = true -> aget s (e_probes e) = Some p -> p_phase p = PhDirect d ->
  forall q, aget s (e_probes (fan_out C now e s)) = Some q -> fsm_due C now q = FsmWait.
Proof.
  intros K R G P q Q. pose proof Q as Q0. unfold fan_out in Q. rewrite G in Q. cbv zeta in Q. unfold pick in Q. set (e1 := act C (KDraws _) e) in Q. clearbody e1.
  destruct (N.leb_spec (p_fail p) now) as [|L]; [rewrite probe_fail_probes, N.eqb_refl in Q; discriminate|].
  match type of Q with aget s (e_probes (let '(_, _) := ?x in _)) = _ => destruct x as [rid e2] end.
  match type of Q with aget s (e_probes (let '(_, _) := ?x in _)) = _ => destruct x as [e3 peers] end.
  destruct (_ && _); [rewrite probe_fail_probes, N.eqb_refl in Q; discriminate|]. cbn [e_probes e_set_probes] in Q. rewrite aget_aset_eq in Q. apply Some_inj in Q. subst q.
  unfold fsm_due. cbn. destruct (N.leb_spec (p_fail p) now); [lia|reflexivity].
Qed.
Lemma fans_wait now : forall l e, NoDup l -> kinv C (e_core e) -> runs e = true ->
  (forall s, In s l -> exists p d, aget s (e_probes e) = Some p /\ p_phase p = PhDirect d /\ d <= now /\ p_kind p = PKDetection) ->
  forall s q, In s l -> aget s (e_probes (fold_left (fan_out C now) l e)) = Some q -> fsm_due C now q = FsmWait.
Proof.
  induction l as [|a l IH]; intros e ND K R H s q I Q; [destruct I|]. cbn [fold_left] in Q. apply NoDup_cons_iff in ND as [NI ND].
  destruct (H a (or_introl eq_refl)) as (p & d & G & P & D & PK). pose proof (fan_out_to C now e a p d R G P D PK) as T.
  assert (runs (fan_out C now e a) = true) as R1 by (rewrite (eto_runs C _ _ T); exact R).
  assert (kinv C (e_core (fan_out C now e a))) as K1 by exact (eto_kinv C _ _ T K).
  assert (forall s, In s l -> exists p d, aget s (e_probes (fan_out C now e a)) = Some p /\ p_phase p = PhDirect d /\ d <= now /\ p_kind p = PKDetection) as H1.
  { intros s' I'. rewrite fan_out_probes; [apply H; right; exact I'|exact R|congruence]. }
  destruct I as [<-|I]; [|exact (IH _ ND K1 R1 H1 s q I Q)].
  destruct (fan_outs_to C now l _ ND R1 H1) as [_ E]. rewrite (E a NI) in Q. exact (fan_waits now e a p d K R G P q Q).
Qed.
Lemma fails_gone now l : forall e s, aget s (e_probes (fold_left (fun e s => probe_fail C s now e) l e)) = if existsb (N.eqb s) l then None else aget s (e_probes e).
Proof.
  induction l as [|a l IH]; intros e s; [reflexivity|]. cbn [fold_left existsb]. rewrite IH, probe_fail_probes. destruct (s =? a); cbn [orb]; [|reflexivity]. destruct (existsb _ _); reflexivity.
Qed.
Lemma existsb_In s l : existsb (N.eqb s) l = true <-> In s l.
Proof. rewrite existsb_exists. split; [intros (x & X & E); apply N.eqb_eq in E; subst; exact X|intros X; exists s; split; [exact X|apply N.eqb_refl]]. Qed.
Lemma fsm_waits now e : einv C e -> runs e = true -> waits now (advance_fsm C now e).
Proof.
  intros I R s q Q. unfold advance_fsm in Q. cbv zeta in Q. rewrite fails_gone in Q.
  set (fan := map fst (filter (fun p => match fsm_due C now (snd p) with FsmFan => true | _ => false end) (e_probes e))) in *.
  destruct (existsb _ _) eqn:EX in Q; [discriminate|].
  assert (forall s, In s fan -> exists p, aget s (e_probes e) = Some p /\ fsm_due C now p = FsmFan) as HF.
  { intros s' X. apply in_map_iff in X as ((s1 & p) & <- & X). apply filter_In in X as [X Y]. apply (aget_of_in _ _ _ (ei_pnd _ _ I)) in X. exists p. split; [exact X|].
    cbn in Y. destruct (fsm_due C now p); congruence. }
  assert (forall s, In s fan -> exists p d, aget s (e_probes e) = Some p /\ p_phase p = PhDirect d /\ d <= now /\ p_kind p = PKDetection) as HD.
  { intros s' X. destruct (HF s' X) as (p & G & Y). unfold fsm_due in Y. destruct (_ <=? _); [discriminate|]. destruct (p_phase p) as [d|] eqn:P; [|discriminate].
    destruct (N.leb_spec (p_direct_deadline (c_probe_timeout C) p) now) as [L|]; [|discriminate]. destruct (p_kind p) eqn:PK; [|discriminate].
    exists p, d. pose proof (einv_shape C e I s' p d G P) as E. unfold p_direct_deadline in L. rewrite <- E in L. auto. }
  assert (NoDup fan) as NF by (apply due_nodup, (ei_pnd _ _ I)).
  destruct (in_dec N.eq_dec s fan) as [X|X]; [exact (fans_wait now fan e NF (ei_core _ _ I) R HD s q X Q)|].
  destruct (fan_outs_to C now fan e NF R HD) as [_ E]. rewrite (E s X) in Q.
  destruct (fsm_due C now q) eqn:Y; [reflexivity| |].
  - exfalso. apply X. apply in_map_iff. exists (s, q). split; [reflexivity|]. apply filter_In. split; [apply aget_in; exact Q|]. cbn. rewrite Y. reflexivity.
  - exfalso. assert (existsb (N.eqb s) (map fst (filter (fun p => match fsm_due C now (snd p) with FsmFail => true | _ => false end) (e_probes e))) = true) as Z; [|congruence].
    apply existsb_In. apply in_map_iff. exists (s, q). split; [reflexivity|]. apply filter_In. split; [apply aget_in; exact Q|]. cbn. rewrite Y. reflexivity.
Qed.
Lemma fwds_gone l : forall e s, aget s (e_fwds (fold_left expire_forward l e)) = if existsb (N.eqb s) l then None else aget s (e_fwds e).
Proof.
  induction l as [|a l IH]; intros e s; [reflexivity|]. cbn [fold_left existsb]. rewrite IH. unfold expire_forward.
  destruct (N.eqb_spec s a) as [->|NE]; cbn [orb].
  - destruct (existsb _ _); [reflexivity|]. destruct (aget a (e_fwds e)) eqn:G; [|exact G]. cbn. rewrite aget_adel, N.eqb_refl. reflexivity.
  - destruct (existsb _ _); [reflexivity|]. destruct (aget a (e_fwds e)) eqn:G; [|reflexivity]. cbn. rewrite aget_adel. apply N.eqb_neq in NE. rewrite NE. reflexivity.
Qed.
Lemma late_fwds now e : einv C e -> forall s f, aget s (e_fwds (fire_expired_forwards now e)) = Some f -> now < f_deadline f.
Proof.
  intros I s f G. unfold fire_expired_forwards in G. rewrite fwds_gone in G. destruct (existsb _ _) eqn:EX in G; [discriminate|].
  destruct (N.ltb_spec now (f_deadline f)) as [|L]; [assumption|]. exfalso.
  assert (existsb (N.eqb s) (map fst (filter (fun p => f_deadline (snd p) <=? now) (e_fwds e))) = true) as Z; [|congruence].
  apply existsb_In. apply in_map_iff. exists (s, f). split; [reflexivity|]. apply filter_In. split; [apply aget_in; exact G|]. apply N.leb_le. exact L.
Qed.
Lemma late_ints now e : forall id i, aget id (e_int (fire_expired_intents now e)) = Some i -> now < in_deadline i.
Proof.
  intros id i G. unfold fire_expired_intents in G. rewrite resolve_all in G. destruct (existsb _ _) eqn:EX in G; [discriminate|].
  destruct (N.ltb_spec now (in_deadline i)) as [|L]; [assumption|]. exfalso.
  assert (existsb (N.eqb id) (map fst (filter (fun p => in_deadline (snd p) <=? now) (e_int e))) = true) as Z; [|congruence].
  apply existsb_In. apply in_map_iff. exists (id, i). split; [reflexivity|]. apply filter_In. split; [apply aget_in; exact G|]. apply N.leb_le. exact L.
Qed.
Lemma fold_keeps {A B} (P : ep -> B) (f : ep -> A -> ep) l : (forall e a, P (f e a) = P e) -> forall e, P (fold_left f l e) = P e.
Proof. intros H. induction l as [|a l IH]; intros e; [reflexivity|]. cbn [fold_left]. rewrite IH. apply H. Qed.
Lemma waits_resolve now id e : waits now e -> waits now (resolve_intent id e).
Proof.
  intros W. unfold resolve_intent. destruct (aget id (e_int e)) as [i|]; [|exact W]. cbv zeta. destruct (in_kind i) as [j|seq|]; try exact W.
  unfold retire_reliable. destruct (aget seq (e_probes (remove_intent id e))) as [p|] eqn:G; [|exact W]. destruct (p_phase p) as [|x ps nb r d] eqn:P; [exact W|].
  intros s q Q. cbn [e_probes e_set_probes] in Q. rewrite aget_aset in Q. destruct (N.eqb_spec s seq) as [->|]; [|exact (W s q Q)].
  apply Some_inj in Q. subst q. pose proof (W seq p G) as X. unfold fsm_due in *. cbn. destruct (_ <=? _); [exact X|reflexivity].
Qed.
Lemma waits_intents now e : waits now e -> waits now (fire_expired_intents now e).
Proof.
  unfold fire_expired_intents. generalize (map fst (filter (fun p : N * intent => in_deadline (snd p) <=? now) (e_int e))). intros l. revert e.
  induction l as [|a l IH]; intros e W; [exact W|]. cbn [fold_left]. apply IH, waits_resolve, W.
Qed.
Lemma tadd_later now d : 0 < d -> now < DUR_MAX -> now < tadd now d.
Proof. unfold tadd. lia. Qed.
Lemma scaled_pp interval n : interval <= push_pull_scale interval n.
Proof.
  unfold push_pull_scale. destruct (n <=? 32); [lia|]. unfold dmul. destruct (_ <? _); [lia|]. nia.
Qed.
Definition rest_of (e : ep) := (e_np e, e_ng e, e_npp e).
Lemma start_rest now e : let e' := start_probe C now e in e_fwds e' = e_fwds e /\ e_int e' = e_int e /\ rest_of e' = rest_of e.
Proof.
  cbv zeta. unfold start_probe. destruct (negb (runs e)); [repeat split|]. unfold next_target. destruct (scan _ _ _ _) as [[id cur]|]; [|repeat split].
  set (e1 := e_set_pidx cur e). assert (e_fwds e1 = e_fwds e /\ e_int e1 = e_int e /\ rest_of e1 = rest_of e) as (A & B & D) by (repeat split). rewrite <- A, <- B, <- D. clearbody e1. clear A B D.
  destruct (aget id (k_mem (e_core e1))) as [m|]; [|repeat split]. destruct (alloc_seq e1) as [[s e2]|] eqn:A; [|repeat split]. apply alloc_seq_spec in A as (-> & _).
  cbv zeta. destruct (pstate_eqb _ _).
  - destruct (_ <=? _); [repeat split|]. unfold push_fit. destruct (elen C (MPing _ _ _) <=? _); cbn [fst]; destruct (elen C (MSuspect _ _ _) <=? _); repeat split.
  - unfold push_fit. destruct (_ <=? _); repeat split.
Qed.
Lemma start_waits now e : 0 < c_probe_interval C -> 0 < c_probe_timeout C -> now < DUR_MAX -> waits now e -> waits now (start_probe C now e).
Proof.
  intros PI PT L W. unfold start_probe. destruct (negb (runs e)); [exact W|]. unfold next_target. destruct (scan _ _ _ _) as [[id cur]|]; [|exact W].
  set (e1 := e_set_pidx cur e). assert (waits now e1) as W1 by exact W. clearbody e1. clear W.
  destruct (aget id (k_mem (e_core e1))) as [m|]; [|exact W1]. destruct (alloc_seq e1) as [[s e2]|] eqn:A; [|exact W1]. apply alloc_seq_spec in A as (-> & _).
  cbv zeta. set (p := probe_new _ _ _ _ _ _ _). set (e3 := e_set_acks _ _).
  assert (forall b, fsm_due C now (p_set_disp b p) = FsmWait) as WP.
  { intros b. unfold fsm_due, p, p_direct_deadline. cbn. pose proof (tadd_later now _ PT L). pose proof (scale_ge (k_aw (e_core e1)) (c_probe_interval C)) as SG.
    pose proof (tadd_later now (scale_timeout (k_aw (e_core e1)) (c_probe_interval C)) ltac:(lia) L).
    destruct (N.leb_spec (tadd now (scale_timeout (k_aw (e_core e1)) (c_probe_interval C))) now); [lia|].
    destruct (N.leb_spec (tadd now (c_probe_timeout C)) now); [lia|reflexivity]. }
  assert (forall e4 b, e_probes e4 = e_probes e3 -> waits now (e_set_probes (aset s (p_set_disp b p) (e_probes e4)) e4)) as X.
  { intros e4 b E j q Q. cbn [e_probes e_set_probes] in Q. rewrite E in Q. rewrite aget_aset in Q. destruct (N.eqb_spec j s) as [->|NE]; [apply Some_inj in Q; subst q; apply WP|].
    unfold e3 in Q. cbn in Q. rewrite aget_aset in Q. apply N.eqb_neq in NE. rewrite NE in Q. exact (W1 j q Q). }
  destruct (pstate_eqb _ _).
  - destruct (_ <=? _); [apply X; reflexivity|]. unfold push_fit. destruct (elen C (MPing _ _ _) <=? _); cbn [fst]; destruct (elen C (MSuspect _ _ _) <=? _); apply X; reflexivity.
  - unfold push_fit. destruct (_ <=? _); apply X; reflexivity.
Qed.
(** where the three schedules stand after the handler *)
Definition next_tick (now every : N) (t : option N) : option N :=
  match t with None => None | Some d => if now <? d then Some d else Some (tadd now every) end.
Lemma fire_probe_sched now e : let e' := fire_probe C now e in
  e_fwds e' = e_fwds e /\ e_int e' = e_int e /\ e_np e' = next_tick now (c_probe_interval C) (e_np e) /\ e_ng e' = e_ng e /\ e_npp e' = e_npp e.
Proof.
  cbv zeta. unfold fire_probe, next_tick. destruct (e_np e) as [d|] eqn:E; [|repeat split; exact E]. destruct (_ <? _); [repeat split; exact E|]. cbv zeta.
  set (e1 := if _ && _ then _ else _). assert (e_fwds e1 = e_fwds e /\ e_int e1 = e_int e /\ e_ng e1 = e_ng e /\ e_npp e1 = e_npp e) as (A & B & D & F) by (unfold e1; destruct (_ && _); repeat split).
  clearbody e1. destruct (start_rest now e1) as (A' & B' & R'). unfold rest_of in R'. cbn [e_np e_ng e_npp e_fwds e_int e_set_np]. repeat split; congruence.
Qed.
Lemma fire_gossip_sched now e : let e' := fire_gossip C now e in
  e_probes e' = e_probes e /\ e_fwds e' = e_fwds e /\ e_int e' = e_int e /\ e_np e' = e_np e /\ e_ng e' = next_tick now (c_gossip_interval C) (e_ng e) /\ e_npp e' = e_npp e.
Proof.
  cbv zeta. unfold fire_gossip, next_tick. destruct (e_ng e) as [d|] eqn:E; [|repeat split; exact E]. destruct (_ <? _); [repeat split; exact E|]. unfold pick.
  destruct (btake _ _); [repeat split|]. destruct (gossip_rest C (act C (KDraws 1) e)) as (P & _ & F & _ & I & _). pose proof (gossip_batch_merge (act C (KDraws 1) e)) as V.
  match goal with |- context [gossip_batch C ?x] => replace (gossip_batch C x) with (gossip_batch C x) by reflexivity; set (e1 := x) end.
  destruct (gossip_rest C e1) as (P1 & _ & F1 & _ & I1 & _). pose proof (gossip_batch_merge e1) as V1. destruct (gossip_batch C e1) as [g ms]. cbn [fst] in *. unfold view in V1.
  cbn [e_np e_ng e_npp e_fwds e_int e_probes e_set_ng e_set_tx]. rewrite P1, F1, I1. repeat split; change (e_np e) with (e_np e1); change (e_npp e) with (e_npp e1); congruence.
Qed.
Lemma fire_pp_sched now e : let e' := fire_pushpull C now e in
  e_probes e' = e_probes e /\ e_fwds e' = e_fwds e /\ e_np e' = e_np e /\ e_ng e' = e_ng e /\
  e_npp e' = next_tick now (push_pull_scale (c_pp_interval C) (blen (live_addrs C e))) (e_npp e) /\
  (forall id i, aget id (e_int e') = Some i -> aget id (e_int e) = Some i \/ (in_deadline i = tadd now (c_stream_timeout C) /\ e_npp e <> None)).
Proof.
  cbv zeta. unfold fire_pushpull, next_tick. destruct (e_npp e) as [d|] eqn:E; [|repeat split; auto; exact E]. destruct (_ <? _); [repeat split; auto; exact E|]. cbv zeta.
  destruct (live_addrs C e) as [|a l]; [repeat split; auto|]. unfold pick. destruct (btake 1 _) as [|peer r]; [repeat split; auto|].
  unfold push_pull_direct. rewrite open_intent_eq. destruct (runs _); unfold announce; cbn [e_int insert_intent e_set_int e_set_iidx e_set_sid act e_set_core].
  - rewrite aget_aset_eq. cbn [snd]. repeat split. intros id i G. cbn in G. rewrite aget_aset in G. destruct (N.eqb_spec id (e_sid e)); [|auto].
    apply Some_inj in G. subst i. right. split; [reflexivity|discriminate].
  - destruct (aget _ _); cbn [snd]; repeat split; auto.
Qed.
Lemma timeout_sched now e : einv C e -> runs e = true -> let e' := handle_timeout C now e in
  e_np e' = next_tick now (c_probe_interval C) (e_np e) /\ e_ng e' = next_tick now (c_gossip_interval C) (e_ng e) /\
  e_npp e' = next_tick now (push_pull_scale (c_pp_interval C) (blen (live_addrs C e'))) (e_npp e).
Proof.
  intros I R. cbv zeta. unfold handle_timeout. rewrite R. cbn [negb]. pose proof (quick_view now e) as V. set (e4 := fire_expired_intents _ _) in *. unfold view in V.
  assert (e_np e4 = e_np e /\ e_ng e4 = e_ng e /\ e_npp e4 = e_npp e) as (V1 & V2 & V3) by (repeat split; congruence). clear V.
  destruct (fire_probe_sched now e4) as (_ & _ & A1 & A2 & A3). set (e5 := fire_probe C now e4) in *.
  destruct (fire_gossip_sched now e5) as (_ & _ & _ & B1 & B2 & B3). set (e6 := fire_gossip C now e5) in *.
  destruct (fire_pp_sched now e6) as (_ & _ & D1 & D2 & D3 & _). pose proof (pp_calm C now e6) as [_ M]. set (e7 := fire_pushpull C now e6) in *.
  assert (forall x, e_np (refresh_cache x) = e_np x /\ e_ng (refresh_cache x) = e_ng x /\ e_npp (refresh_cache x) = e_npp x /\ live_addrs C (refresh_cache x) = live_addrs C x) as RC.
  { intros x. unfold refresh_cache. destruct (_ && _); repeat split. }
  destruct (RC e7) as (-> & -> & -> & ->). assert (live_addrs C e7 = live_addrs C e6) as -> by (unfold live_addrs; rewrite M; reflexivity).
  repeat split; congruence.
Qed.
Definition paced (e : ep) : Prop :=
  (e_np e <> None -> 0 < c_probe_interval C) /\ (e_ng e <> None -> 0 < c_gossip_interval C /\ 0 < c_gossip_nodes C) /\ (e_npp e <> None -> 0 < c_pp_interval C).
Lemma paced_view a b : view a = view b -> paced b -> paced a.
Proof. unfold view, paced. intros E. injection E as _ _ _ _ _ -> -> ->. auto. Qed.
Lemma next_tick_none now x t : next_tick now x t <> None -> t <> None.
Proof. unfold next_tick. destruct t; congruence. Qed.
Lemma paced_step e o : einv C e -> paced e -> paced (fst (ep_step C e o)).
Proof.
  intros I P. destruct (moves o) eqn:M; [|exact (paced_view _ _ (step_view e o M) P)]. destruct o; try discriminate M; cbn [ep_step fst].
  - destruct (runs e) eqn:R; [|unfold handle_timeout; rewrite R; exact P]. destruct (timeout_sched now e I R) as (A & B & D). cbv zeta in *. destruct P as (P1 & P2 & P3).
    unfold paced. rewrite A, B, D. split; [|split]; intros H; apply next_tick_none in H; auto.
  - destruct (runs e) eqn:R; [|unfold leave_with; rewrite R; exact P]. pose proof (leave_runs C now farewell e I R) as R'. 
    destruct (ei_rest _ _ (einv_op C e (ELeave now farewell) I) R') as (_ & A & B & D). cbn [ep_step fst] in *. unfold paced. rewrite A, B, D. repeat split; congruence.
  - unfold set_snapshot. destruct (negb _); [exact P|]. destruct (snapshot_fits _ _); exact P.
  - exact P.
  - unfold start_scheduling. destruct (runs e) eqn:R; cbn [negb]; [|exact P].
    assert (forall x y s y', stagger C x y = (s, y') -> rest_of y' = rest_of y) as SG by (intros x y s y'; unfold stagger; cbv zeta; destruct (_ =? 0); intros H; injection H as _ <-; reflexivity).
    assert (paced (if 0 <? c_probe_interval C then let '(s, e0) := stagger C (c_probe_interval C) e in e_set_np (Some (tadd now s)) e0 else e)) as P1.
    { destruct (N.ltb_spec 0 (c_probe_interval C)); [|exact P]. destruct (stagger _ _ _) as [s e1] eqn:G. apply SG in G. unfold rest_of in G. destruct P as (Q1 & Q2 & Q3).
      unfold paced. cbn [e_np e_ng e_npp e_set_np]. split; [intros _; assumption|split; intros X; [apply Q2|apply Q3]; congruence]. }
    revert P1. generalize (if 0 <? c_probe_interval C then let '(s, e0) := stagger C (c_probe_interval C) e in e_set_np (Some (tadd now s)) e0 else e). clear P. intros e1 P1. cbv zeta.
    assert (paced (if (0 <? c_gossip_interval C) && (0 <? c_gossip_nodes C) then let '(s, e0) := stagger C (c_gossip_interval C) e1 in e_set_ng (Some (tadd now s)) e0 else e1)) as P2.
    { destruct (N.ltb_spec 0 (c_gossip_interval C)); cbn [andb]; [|exact P1]. destruct (N.ltb_spec 0 (c_gossip_nodes C)); [|exact P1]. destruct (stagger _ _ _) as [s e2] eqn:G. apply SG in G. unfold rest_of in G. destruct P1 as (Q1 & Q2 & Q3).
      unfold paced. cbn [e_np e_ng e_npp e_set_ng]. split; [intros X; apply Q1; congruence|split; [intros _; split; assumption|intros X; apply Q3; congruence]]. }
    revert P2. generalize (if (0 <? c_gossip_interval C) && (0 <? c_gossip_nodes C) then let '(s, e0) := stagger C (c_gossip_interval C) e1 in e_set_ng (Some (tadd now s)) e0 else e1). clear P1. intros e2 P2.
    destruct (N.ltb_spec 0 (c_pp_interval C)); [|exact P2]. destruct (stagger _ _ _) as [s e3] eqn:G. apply SG in G. unfold rest_of in G. destruct P2 as (Q1 & Q2 & Q3).
    unfold paced. cbn [e_np e_ng e_npp e_set_npp]. split; [intros X; apply Q1; congruence|split; [intros X; apply Q2; congruence|intros _; assumption]].
Qed.
Lemma reach_paced e : reach C e -> paced e.
Proof.
  intros (t0 & e0 & os & H0 & ->). assert (einv C e0 /\ paced e0) as [I P].
  { split; [eapply einv_new; eauto|]. unfold ep_new in H0. destruct (cfg_ok C); [|discriminate]. apply Some_inj in H0. subst e0.
    unfold refresh_cache, paced. destruct (_ && _); cbn; repeat split; congruence. }
  clear H0. rewrite ep_run_fst. revert e0 I P. induction os as [|o os IH]; intros e0 I P; [exact P|]. cbn [fold_left]. apply IH; [apply einv_op, I|apply paced_step; assumption].
Qed.
Lemma timeout_clean now e : einv C e -> paced e -> runs e = true -> 0 < c_probe_timeout C -> 0 < c_stream_timeout C -> now < DUR_MAX -> clean now (handle_timeout C now e).
Proof.
  intros I (P1 & P2 & P3) R PT ST L. pose proof (quick_view now e) as V. destruct (timeout_sched now e I R) as (S1 & S2 & S3). cbv zeta in *.
  assert (forall x t t', next_tick now x t = Some t' -> (t <> None -> 0 < x) -> now < t') as NT.
  { intros x t t'. unfold next_tick. destruct t as [d|]; [|discriminate]. destruct (N.ltb_spec now d); intros E X; apply Some_inj in E; subst t'; [assumption|]. apply tadd_later; [apply X; discriminate|exact L]. }
  assert (runs (act C (KExpire now) e) = true) as R1 by (apply (runs_eto C e); [apply eto_core; exact Logic.I|exact R]).
  assert (einv C (act C (KExpire now) e)) as I1 by (destruct (eto_core C e (KExpire now) Logic.I) as (ks & T & _); eapply einv_steps; eauto).
  assert (einv C (advance_fsm C now (act C (KExpire now) e))) as I2.
  { destruct (advance_fsm_to C now (act C (KExpire now) e) R1 (ei_pnd _ _ I1) (einv_shape C _ I1)) as (ks & T & _). eapply einv_steps; eauto. }
  pose proof (fsm_waits now _ I1 R1) as W2. pose proof (late_fwds now _ I2) as F3. set (e2 := advance_fsm C now (act C (KExpire now) e)) in *.
  assert (waits now (fire_expired_forwards now e2)) as W3.
  { unfold waits in *. assert (e_probes (fire_expired_forwards now e2) = e_probes e2) as ->; [|exact W2]. unfold fire_expired_forwards. apply (fold_keeps e_probes). intros x a. unfold expire_forward. destruct (aget _ _); reflexivity. }
  pose proof (late_ints now (fire_expired_forwards now e2)) as G4. pose proof (waits_intents now _ W3) as W4. destruct (keeps_intents now (fire_expired_forwards now e2)) as [K4 _].
  set (e4 := fire_expired_intents now (fire_expired_forwards now e2)) in *. assert (forall s f, aget s (e_fwds e4) = Some f -> now < f_deadline f) as F4 by (rewrite K4; exact F3).
  assert (e_np e4 = e_np e /\ e_npp e4 = e_npp e) as [V1 V3] by (unfold view in V; split; congruence).
  destruct (fire_probe_sched now e4) as (A1 & A2 & _ & _ & A3).
  assert (waits now (fire_probe C now e4)) as W5.
  { unfold fire_probe. rewrite V1. destruct (e_np e) as [d|]; [|exact W4]. destruct (_ <? _); [exact W4|]. cbv zeta. change (waits now (start_probe C now
      (if (0 <? k_n (e_core (e_set_psr (e_psr e4 + 1) e4))) && (k_n (e_core (e_set_psr (e_psr e4 + 1) e4)) <=? e_psr (e_set_psr (e_psr e4 + 1) e4)) then e_set_psr 0 (reset_nodes C now (e_set_psr (e_psr e4 + 1) e4)) else e_set_psr (e_psr e4 + 1) e4))).
    apply start_waits; [apply P1; discriminate|exact PT|exact L|]. destruct (_ && _); exact W4. }
  destruct (fire_gossip_sched now (fire_probe C now e4)) as (B1 & B2 & B3 & _ & _ & B4).
  destruct (fire_pp_sched now (fire_gossip C now (fire_probe C now e4))) as (D1 & D2 & _ & _ & _ & D3).
  assert (handle_timeout C now e = refresh_cache (fire_pushpull C now (fire_gossip C now (fire_probe C now e4)))) as E by (unfold handle_timeout; rewrite R; reflexivity).
  assert (forall x, e_probes (refresh_cache x) = e_probes x /\ e_fwds (refresh_cache x) = e_fwds x /\ e_int (refresh_cache x) = e_int x) as RC by (intros x; unfold refresh_cache; destruct (_ && _); repeat split).
  constructor.
  - intros s q Q. rewrite E in Q. destruct (RC (fire_pushpull C now (fire_gossip C now (fire_probe C now e4)))) as (X & _ & _). rewrite X, D1, B1 in Q. exact (W5 s q Q).
  - intros s f G. rewrite E in G. destruct (RC (fire_pushpull C now (fire_gossip C now (fire_probe C now e4)))) as (_ & X & _). rewrite X, D2, B2, A1 in G. exact (F4 s f G).
  - intros id i G. rewrite E in G. destruct (RC (fire_pushpull C now (fire_gossip C now (fire_probe C now e4)))) as (_ & _ & X). rewrite X in G.
    apply D3 in G as [G|[-> _]]; [|apply tadd_later; assumption]. rewrite B3, A2 in G. exact (G4 id i G).
  - intros t H. rewrite S1 in H. exact (NT _ _ _ H P1).
  - intros t H. rewrite S2 in H. exact (NT _ _ _ H (fun X => proj1 (P2 X))).
  - intros t H. rewrite S3 in H. refine (NT _ _ _ H _). intros X. pose proof (P3 X). pose proof (scaled_pp (c_pp_interval C) (blen (live_addrs C (handle_timeout C now e)))). lia.
Qed.
(** once everything else waits, the handler is the suspicion sweep *)
Lemma filter_none {A} (f : A -> bool) l : (forall x, In x l -> f x = false) -> filter f l = [].
Proof. induction l as [|a l IH]; intros H; [reflexivity|]. cbn. rewrite (H a (or_introl eq_refl)). apply IH. intros x X. apply H. right. exact X. Qed.
Lemma clean_again now e : einv C e -> runs e = true -> clean now e -> handle_timeout C now e = refresh_cache (act C (KExpire now) e).
Proof.
  intros I R [W F G A B D]. unfold handle_timeout. rewrite R. cbn [negb]. set (e1 := act C (KExpire now) e).
  assert (advance_fsm C now e1 = e1) as ->.
  { unfold advance_fsm. cbv zeta. assert (forall s p, In (s, p) (e_probes e1) -> fsm_due C now p = FsmWait) as X by (intros s p H; apply (W s p), (aget_of_in _ _ _ (ei_pnd _ _ I)), H).
    rewrite !filter_none; [reflexivity| |]; intros [s p] H; cbn [snd]; rewrite (X s p H); reflexivity. }
  assert (fire_expired_forwards now e1 = e1) as ->.
  { unfold fire_expired_forwards. rewrite filter_none; [reflexivity|]. intros [s f] H. cbn [snd]. apply (aget_of_in _ _ _ (ei_fnd _ _ I)) in H. apply F in H. apply N.leb_gt. exact H. }
  assert (fire_expired_intents now e1 = e1) as ->.
  { unfold fire_expired_intents. rewrite filter_none; [reflexivity|]. intros [s f] H. cbn [snd]. apply (aget_of_in _ _ _ (ei_ind _ _ I)) in H. apply G in H. apply N.leb_gt. exact H. }
  assert (fire_probe C now e1 = e1) as ->.
  { unfold fire_probe. change (e_np e1) with (e_np e). destruct (e_np e) as [t|]; [|reflexivity]. pose proof (A t eq_refl) as X. apply N.ltb_lt in X. rewrite X. reflexivity. }
  assert (fire_gossip C now e1 = e1) as ->.
  { unfold fire_gossip. change (e_ng e1) with (e_ng e). destruct (e_ng e) as [t|]; [|reflexivity]. pose proof (B t eq_refl) as X. apply N.ltb_lt in X. rewrite X. reflexivity. }
  unfold fire_pushpull. change (e_npp e1) with (e_npp e). destruct (e_npp e) as [t|]; [|reflexivity]. pose proof (D t eq_refl) as X. apply N.ltb_lt in X. rewrite X. reflexivity.
Qed.
Lemma twice_quiet now e t : einv C e -> paced e -> runs e = true -> 0 < c_probe_timeout C -> 0 < c_stream_timeout C -> now < DUR_MAX ->
  due_at C (handle_timeout C now (handle_timeout C now e)) t -> now < t.
Proof.
  intros I P R PT ST L H. pose proof (timeout_clean now e I P R PT ST L) as CL. set (e' := handle_timeout C now e) in *.
  assert (einv C e') as I' by exact (einv_op C e (ETimeout now) I).
  assert (runs e' = true) as R'.
  { unfold e'. pose proof (timeout_to C now e (ei_core _ _ I) (ei_pnd _ _ I) (einv_shape C _ I)) as T. exact (runs_eto C _ _ T R). }
  rewrite (clean_again now e' I' R' CL) in H. set (e2 := act C (KExpire now) e') in *.
  assert (clean now e2) as CL2 by (destruct CL; constructor; assumption).
  assert (due_at C e2 t) as H2.
  { assert (e_core (refresh_cache e2) = e_core e2 /\ e_probes (refresh_cache e2) = e_probes e2 /\ e_fwds (refresh_cache e2) = e_fwds e2 /\ e_int (refresh_cache e2) = e_int e2 /\ rest_of (refresh_cache e2) = rest_of e2) as (X1 & X2 & X3 & X4 & X5) by (unfold refresh_cache; destruct (_ && _); repeat split).
    unfold rest_of in X5. destruct H as [id m s G S|s p d G Q|s p x ps nb r d G Q|s f G|id i G|t G|t G|t G].
    - rewrite X1 in G. exact (du_susp C e2 id m s G S).
    - rewrite X2 in G. exact (du_direct C e2 s p d G Q).
    - rewrite X2 in G. exact (du_indirect C e2 s p _ _ _ _ _ G Q).
    - rewrite X3 in G. exact (du_fwd C e2 s f G).
    - rewrite X4 in G. exact (du_dial C e2 id i G).
    - apply du_probe. congruence.
    - apply du_gossip. congruence.
    - apply du_pp. congruence. }
  destruct (clean_due now e2 t CL2 H2) as [|(id & m & s & G & S & ->)]; [assumption|]. 
  refine (expire_clears now (e_core e') id m s (ei_core _ _ I') _ _ S); [apply running_true; exact R'|]. exact G.
Qed.

(** the cached answer is the listing of the record as of the version noted *)
Definition listing (k : core) : list pns :=
  map (fun p => let m := snd p in let s := m_server m in
         mkPNS (m_inc m) (ns_id s) (ns_addr s) (m_state m) (ns_meta s) (ns_pv s) (ns_dv s)) (k_mem k).
Definition cache_of (t0 : N) (e : ep) : Prop := exists ks1 ks2 snap,
  let k1 := fst (core_run C (core_new C t0) ks1) in
  e_core e = fst (core_run C k1 ks2) /\ e_cache e = MPushPull false (listing k1) snap /\ e_cver e = k_ver k1 /\ (e_cdirty e = false -> snap = e_snap e).
Lemma cache_refresh t0 x : cache_of t0 x -> cache_of t0 (refresh_cache x) /\ e_cver (refresh_cache x) = k_ver (e_core (refresh_cache x)) /\ e_cdirty (refresh_cache x) = false.
Proof.
  intros (ks1 & ks2 & sn & H). cbv zeta in H. unfold refresh_cache. destruct (N.eqb_spec (k_ver (e_core x)) (e_cver x)) as [E|]; cbn [andb]; [destruct (e_cdirty x) eqn:D; cbn [negb]|].
  2: { split; [exists ks1, ks2, sn; cbv zeta; rewrite D; exact H|]. split; [symmetry; exact E|exact D]. }
  all: split; [|split; reflexivity]; exists (ks1 ++ ks2), [], (e_snap x); cbv zeta; destruct H as (H & _); rewrite !core_run_fst, fold_left_app in *; cbn in *; rewrite <- H; repeat split.
Qed.
Lemma cache_step t0 e o : einv C e -> cache_of t0 e -> cache_of t0 (fst (ep_step C e o)).
Proof.
  intros I H. destruct (step_chain C e o I) as (ls & cr & S & _). pose proof (esteps_core C _ _ _ _ S) as EC.
  assert (forall e', e_core e' = e_core (fst (ep_step C e o)) -> e_cache e' = e_cache e -> e_cver e' = e_cver e -> (e_cdirty e' = false -> e_cdirty e = false /\ e_snap e' = e_snap e) -> cache_of t0 e') as K.
  { intros e' K1 K2 K3 K4. destruct H as (ks1 & ks2 & sn & H1 & H2 & H3 & H4). exists ks1, (ks2 ++ map unlab ls), sn. cbv zeta.
    rewrite K1, EC, H1, K2, H2, K3, H3. rewrite !core_run_fst, !fold_left_app. repeat split. intros D. destruct (K4 D) as [A ->]. auto. }
  destruct (turns o) eqn:T.
  - destruct o; try discriminate T; cbn [ep_step fst] in *.
    + destruct (runs e) eqn:R; [|unfold handle_timeout in *; rewrite R in *; exact H].
      destruct (timeout_held now e R) as (x & E & V). rewrite E in K |- *. apply cache_refresh. unfold held, cached in V.
      assert (e_core (refresh_cache x) = e_core x) as X by (unfold refresh_cache; destruct (_ && _); reflexivity).
      apply K; [symmetry; exact X|congruence|congruence|]. intros D. split; congruence.
    + unfold set_snapshot in *. destruct (negb (runs e)); [exact H|]. destruct (snapshot_fits _ _); [|exact H]. apply K; [reflexivity|reflexivity|reflexivity|]. intros D. discriminate D.
    + apply K; try reflexivity. intros D. split; [exact D|reflexivity].
  - pose proof (step_held e o T) as V. unfold held, cached in V. apply K; [reflexivity|congruence|congruence|]. intros D. split; congruence.
Qed.
Lemma cache_reach e : reach C e -> exists t0, cache_of t0 e.
Proof.
  intros (t0 & e0 & os & N & ->). exists t0. pose proof (einv_new C t0 e0 N) as I0.
  assert (cache_of t0 e0) as H0.
  { unfold ep_new in N. destruct (cfg_ok C); [|discriminate]. apply Some_inj in N. rewrite <- N. unfold refresh_cache. cbn [e_cdirty negb andb].
    rewrite Bool.andb_false_r. exists [], [], (c_snapshot0 C). cbv zeta. repeat split. }
  clear N. rewrite ep_run_fst. revert e0 I0 H0. induction os as [|o os IH]; intros e0 I0 H0; [exact H0|]. cbn [fold_left]. apply IH; [apply einv_op, I0|apply cache_step; assumption].
Qed.

End Upkeep.

(** ** What a round of gossip sends *)
Section Rounds.
Variable C : cfg.
(** the traffic of probing and relaying *)
Definition probe_talk (m : msg) : Prop := match m with MPing _ _ _ | MIndirectPing _ _ _ | MNack _ | MSuspect _ _ _ => True | _ => False end.
Definition probing_tx (t : transmit) : Prop := Forall (fun x => probe_talk (snd x)) (carried t).
Definition talks (e e' : ep) : Prop := exists l, e_tx e' = e_tx e ++ l /\ Forall probing_tx l.
Lemma talks_same e e' : e_tx e' = e_tx e -> talks e e'.
Proof. intros E. exists []. rewrite app_nil_r. auto. Qed.
Lemma talks_trans a b c : talks a b -> talks b c -> talks a c.
Proof. intros (l & E & F) (l' & E' & F'). exists (l ++ l'). rewrite E', E, app_assoc. split; [reflexivity|apply Forall_app; auto]. Qed.
Lemma talks_fold {A} (f : ep -> A -> ep) l : (forall e a, talks e (f e a)) -> forall e, talks e (fold_left f l e).
Proof. intros H. induction l as [|a l IH]; intros e; [apply talks_same; reflexivity|]. cbn [fold_left]. eapply talks_trans; [apply H|apply IH]. Qed.
Lemma talks_push t e e' : probing_tx t -> e_tx e' = e_tx e ++ [t] -> talks e e'.
Proof. intros P E. exists [t]. split; [exact E|]. constructor; [exact P|constructor]. Qed.
Lemma talks_fit to m e : probe_talk m -> talks e (fst (push_fit C to m e)).
Proof.
  intros P. unfold push_fit. destruct (_ <=? _); cbn [fst]; [|apply talks_same; reflexivity]. apply (talks_push (TPacket to m)); [|reflexivity]. repeat constructor. exact P.
Qed.
Lemma talks_fail s now e : talks e (probe_fail C s now e).
Proof. apply talks_same. apply (fail_rest C s now e). Qed.
Lemma talks_fan now e s : talks e (fan_out C now e s).
Proof.
  unfold fan_out. destruct (aget s (e_probes e)) as [p|]; [|apply talks_same; reflexivity]. cbv zeta. unfold pick. cbv zeta.
  match goal with |- context [act C (KDraws ?n) e] => set (e1 := act C (KDraws n) e) end. assert (talks e e1) as K1 by (apply talks_same; reflexivity). clearbody e1.
  destruct (p_fail p <=? now); [eapply talks_trans; [exact K1|apply talks_fail]|].
  match goal with |- talks e (let '(rid, e0) := ?x in _) => assert (talks e (snd x)) as K2; [|destruct x as [rid e2]; cbn [snd] in K2; clear K1] end.
  { destruct (existsb _ _); [exact K1|]. destruct (announce C _) as [rid e2] eqn:A. cbn [snd]. eapply talks_trans; [exact K1|]. apply talks_same.
    change e2 with (snd (rid, e2)). rewrite <- A. unfold reliable_ping_direct. rewrite open_intent_eq. destruct (runs e1); unfold announce; cbn [e_int insert_intent e_set_int e_set_iidx e_set_sid]; destruct (aget _ _); reflexivity. }
  match goal with |- context [fold_left (send_indirect C ?m) ?l ?st] =>
    assert (forall l0 st0, talks (fst st0) (fst (fold_left (send_indirect C m) l0 st0))) as F end.
  { induction l0 as [|a l0 IH]; intros st0; [apply talks_same; reflexivity|]. cbn [fold_left]. eapply talks_trans; [|apply IH]. unfold send_indirect.
    pose proof (talks_fit a (MIndirectPing s (lnode C) (mkNode (ns_id (p_target p)) (ns_addr (p_target p)))) (fst st0) Logic.I) as X. destruct (push_fit C _ _ _). exact X. }
  match goal with |- context [fold_left (send_indirect C ?m) ?l ?st] => specialize (F l st); destruct (fold_left (send_indirect C m) l st) as [e3 peers] end. cbn [fst] in F.
  destruct (_ && _); (eapply talks_trans; [exact K2|]; eapply talks_trans; [exact F|]); [apply talks_fail|apply talks_same; reflexivity].
Qed.
Lemma talks_start now e : talks e (start_probe C now e).
Proof.
  unfold start_probe. destruct (negb (runs e)); [apply talks_same; reflexivity|]. unfold next_target. destruct (scan _ _ _ _) as [[id cur]|]; [|apply talks_same; reflexivity].
  set (e1 := e_set_pidx cur e). change (talks e) with (talks e1). clearbody e1.
  destruct (aget id (k_mem (e_core e1))) as [m|]; [|apply talks_same; reflexivity]. destruct (alloc_seq e1) as [[s e2]|] eqn:A; [|apply talks_same; reflexivity]. apply alloc_seq_spec in A as (-> & _).
  cbv zeta. set (e3 := e_set_acks _ _). assert (forall e4, talks e3 e4 -> talks e1 e4) as T by (intros e4 (l & E & F); exists l; split; [exact E|exact F]).
  destruct (pstate_eqb _ _).
  - destruct (_ <=? _); [apply T; eapply talks_push; [|reflexivity]; repeat constructor|].
    match goal with |- context [push_fit C ?a ?x e3] => pose proof (talks_fit a x e3 Logic.I) as T1; destruct (push_fit C a x e3) as [e4 b1]; cbn [fst] in T1 end.
    match goal with |- context [push_fit C ?a ?x e4] => pose proof (talks_fit a x e4 Logic.I) as T2; destruct (push_fit C a x e4) as [e5 b2]; cbn [fst] in T2 end.
    apply T. eapply talks_trans; [exact T1|]. eapply talks_trans; [exact T2|]. apply talks_same; reflexivity.
  - match goal with |- context [push_fit C ?a ?x e3] => pose proof (talks_fit a x e3 Logic.I) as T1; destruct (push_fit C a x e3) as [e4 b1]; cbn [fst] in T1 end.
    apply T. eapply talks_trans; [exact T1|]. apply talks_same; reflexivity.
Qed.
Lemma talks_before now e : talks e (fire_probe C now (fire_expired_intents now (fire_expired_forwards now (advance_fsm C now (act C (KExpire now) e))))).
Proof.
  eapply talks_trans; [|instantiate (1 := fire_expired_intents now (fire_expired_forwards now (advance_fsm C now (act C (KExpire now) e))))].
  - unfold fire_expired_intents. eapply talks_trans; [|apply (talks_fold (fun e id => resolve_intent id e))].
    + unfold fire_expired_forwards. eapply talks_trans; [|apply (talks_fold expire_forward)].
      * unfold advance_fsm. cbv zeta. eapply talks_trans; [|apply (talks_fold (fun e s => probe_fail C s now e)); intros; apply talks_fail].
        eapply talks_trans; [|apply (talks_fold (fan_out C now)); intros; apply talks_fan]. apply talks_same; reflexivity.
      * intros x a. unfold expire_forward. destruct (aget _ _); [|apply talks_same; reflexivity]. eapply talks_push; [|reflexivity]. repeat constructor.
    + intros x id. apply talks_same. unfold resolve_intent. destruct (aget id (e_int x)) as [i|]; [|reflexivity]. cbv zeta. destruct (in_kind i); try reflexivity.
      unfold retire_reliable. destruct (aget _ _) as [p|]; [|reflexivity]. destruct (p_phase p); reflexivity.
  - unfold fire_probe. destruct (e_np _); [|apply talks_same; reflexivity]. destruct (_ <? _); [apply talks_same; reflexivity|]. cbv zeta.
    match goal with |- talks ?e0 (e_set_np _ (start_probe C now ?x)) => assert (talks e0 x) as K end.
    { destruct (_ && _); apply talks_same; reflexivity. }
    eapply talks_trans; [exact K|]. eapply talks_trans; [apply (talks_start now)|]. apply talks_same; reflexivity.
Qed.
Lemma gossip_round now e d : e_ng e = Some d -> d <= now -> let e' := fire_gossip C now e in
  exists n targets rest, e_tx e' = e_tx e ++ flat_map (gossip_tx (snd (gossip_batch C (act C (KDraws n) e)))) targets /\
    Permutation (targets ++ rest) (map (fun p => ns_addr (m_server (snd p))) (filter (gossip_target C now) (k_mem (e_core e)))) /\
    blen targets = N.min (c_gossip_nodes C) (blen (targets ++ rest)) /\ k_mem (e_core e') = k_mem (e_core e).
Proof.
  intros G L. cbv zeta. pose proof (gossip_calm C now e) as [_ M]. unfold fire_gossip in *. rewrite G in *. destruct (N.ltb_spec now d); [lia|]. unfold pick in *. cbv zeta in *.
  set (pool := map _ (filter _ _)) in *. set (sh := shuffle _ pool) in *. set (e1 := act C _ e) in *. exists (blen pool). fold e1.
  assert (Permutation sh pool) as PM by (apply Permutation_sym, shuffle_perm).
  set (n := c_gossip_nodes C) in *. assert (blen (btake n sh) = N.min n (blen sh)) as BL by (unfold btake, blen; rewrite firstn_length; lia).
  destruct (btake n sh) as [|a l] eqn:T.
  - exists [], (bdrop n sh). split; [cbn; rewrite app_nil_r; reflexivity|]. split; [|split; [|exact M]].
    + rewrite <- T, btake_bdrop. exact PM.
    + cbn [app]. rewrite <- (btake_bdrop n sh), T in BL. exact BL.
  - pose proof (gossip_rest C e1) as (_ & _ & _ & _ & _ & TX & _). destruct (gossip_batch C e1) as [g ms] eqn:B. cbn [fst] in TX.
    exists (a :: l), (bdrop n sh). split; [cbn [e_tx e_set_ng e_set_tx]; rewrite TX; reflexivity|]. split; [|split; [|exact M]].
    + rewrite <- T, btake_bdrop. exact PM.
    + rewrite <- T, btake_bdrop. rewrite T. exact BL.
Qed.
End Rounds.
