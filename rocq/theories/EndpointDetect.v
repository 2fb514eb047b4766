(** What becomes of members that are probed, suspected and buried. *)
From Coq Require Import Permutation.
From Verif Require Import EndpointModel MapFacts BaseFacts CoreFacts CoreInv CoreSteps CoreTrans CoreHist SuspicionFacts EndpointSteps EndpointInv EndpointHist EndpointRuns EndpointFacts EndpointProbes EndpointUpkeep EndpointUser.
Local Open Scope N_scope.

(** Reports that a member is gone *)
Definition is_left (id : N) (ev : event) : bool := match ev with EvLeft s => ns_id s =? id | _ => false end.
Definition lefts (id : N) (l : list event) : N := blen (filter (is_left id) l).
Lemma lefts_app id a b : lefts id (a ++ b) = lefts id a + lefts id b.
Proof. unfold lefts. rewrite filter_app. apply blen_app. Qed.

Section Detect.
Variable C : cfg.
Notation LID := (c_id C).
Notation kinv := (kinv C).
Notation recd e id := (aget id (k_mem (e_core e))).

(** ** A record that is not given up *)
Inductive alters (now : N) (m : member) : member -> Prop :=
| al_same : alters now m m
| al_confirm s s' from d : m_state m = PSuspect -> m_susp m = Some s -> susp_confirm (c_lg C) s from now = (s', Accepted d) ->
    alters now m (m_set_susp (Some s') m)
| al_suspect s inc : m_state m = PAlive -> m_inc m <= inc -> alters now m (m_set_state PSuspect now (m_set_inc inc (m_set_susp (Some s) m)))
| al_alive m' : m_inc m < m_inc m' -> m_state m' = PAlive -> m_gen m' = m_gen m -> alters now m m'
| al_age t : alters now m (m_set_change t m).
Definition live (m : member) : Prop := dead_or_left (m_state m) = false.
Lemma emit_ev ev k : k_ev (emit ev k) = k_ev k ++ [ev].
Proof. unfold emit. destruct ev; reflexivity. Qed.
Lemma live_or_told o now k k' id m : kinv k -> kstep C o now k k' -> no_poll o -> id <> LID -> rec_at k id = Some m -> live m ->
  (exists m', rec_at k' id = Some m' /\ live m') \/ lefts id (k_ev k) < lefts id (k_ev k').
Proof.
  intros V S NP NL G L. destruct S; try (left; exists m; split; [exact G|exact L]).
  - left. cbn zeta. unfold rec_at. cbn. rewrite aget_mt_upd. destruct (N.eqb_spec id LID); [contradiction|]. exists m. split; [exact G|exact L].
  - left. unfold rec_at. cbn. rewrite aget_mt_upd. unfold rec_at in G. rewrite G. destruct (id =? id0); eexists; (split; [reflexivity|exact L]).
  - left. cbn zeta. unfold rec_at. cbn. rewrite aget_mt_upd. unfold rec_at in G. rewrite G. destruct (id =? id0); eexists; (split; [reflexivity|]); [reflexivity|exact L].
  - destruct (N.eq_dec id id0) as [->|NE].
    + right. rewrite emit_ev, lefts_app. pose proof (ki_rec _ _ V _ _ H1) as [EI _]. unfold lefts at 3, is_left. cbn [filter]. rewrite EI, N.eqb_refl. cbn. lia.
    + left. unfold rec_at. cbn. rewrite aget_mt_upd. unfold rec_at in G. rewrite G. destruct (N.eqb_spec id id0); [contradiction|]. eexists; (split; [reflexivity|exact L]).
  - left. unfold rec_at. cbn. rewrite aget_mt_insert by (exact (ki_nodup _ _ V) || exact H2).
    destruct (N.eqb_spec id (al_id al)) as [->|]; [congruence|]. exists m. split; [exact G|exact L].
  - left. cbn zeta. match goal with |- context [rec_at ?k1 _] => assert (k_mem k1 = mt_upd (al_id al) (fun _ => mkM (alive_ns al PAlive) (al_inc al)
                   (if pstate_eqb (m_state m0) PAlive then m_change m0 else now) PAlive None
                   (if takeover then k_gen k else m_gen m0)) (k_mem k)) as E
      by (destruct takeover; destruct (dead_or_left _); try destruct (negb _); reflexivity) end.
    unfold rec_at. rewrite E, aget_mt_upd. unfold rec_at in G. rewrite G. destruct (id =? al_id al); eexists; (split; [reflexivity|]); [reflexivity|exact L].
  - left. cbn zeta. unfold rec_at. cbn. rewrite aget_mt_upd. destruct (N.eqb_spec id LID); [contradiction|]. exists m. split; [exact G|exact L].
  - left. unfold rec_at. cbn. rewrite aget_mt_upd. unfold rec_at in G. rewrite G. destruct (id =? id0); eexists; (split; [reflexivity|exact L]).
  - left. rewrite rec_reset by exact V. rewrite G. unfold kept, removable. cbn [fst snd]. unfold live in L. rewrite L, andb_false_r. exists m. split; [reflexivity|exact L].
  - subst o. contradiction.
Qed.
Lemma live_step o now k k' id m : kinv k -> kstep C o now k k' -> no_poll o -> id <> LID -> rec_at k id = Some m -> live m ->
  (exists m', rec_at k' id = Some m' /\ live m' /\ alters now m m') \/ lefts id (k_ev k) < lefts id (k_ev k').
Proof.
  intros V S NP NL G L. destruct (live_or_told o now k k' id m V S NP NL G L) as [(m' & G' & L')|T]; [left|right; exact T].
  exists m'. split; [exact G'|]. split; [exact L'|]. pose proof (step_trans C o now k k' id V S) as T. rewrite G, G' in T. unfold live in *.
  inversion T; subst; try contradiction; try (eapply al_confirm; eassumption); try (eapply al_suspect; eassumption); try apply al_age; try apply al_same.
  - cbn in L'. destruct (id =? from); discriminate.
  - destruct tk; [|apply al_alive; cbn; [apply H6|reflexivity|reflexivity]]. destruct H6 as [_ [E|[E _]]]; rewrite E in L; discriminate.
Qed.

(** [Q] survives whatever may happen to a record that is not given up, at times in [P] *)
Definition stable (P : N -> Prop) (Q : member -> Prop) : Prop := forall now m m', P now -> alters now m m' -> Q m -> Q m'.
(** the application has been told that [id] is gone, or the record is as it should be *)
Definition watched (id a b : N) (Q : member -> Prop) (k : core) : Prop :=
  a < b + lefts id (k_ev k) \/ a = b + lefts id (k_ev k) /\ exists m, rec_at k id = Some m /\ live m /\ Q m.
Lemma watched_step P id a b Q o now k k' : kinv k -> kstep C o now k k' -> no_poll o -> id <> LID -> stable P Q -> P now -> watched id a b Q k -> watched id a b Q k'.
Proof.
  intros V S NP NL ST PN [T|(T0 & m & G & L & H)]; destruct (step_ev C o now k k' NP S) as (l & EV).
  - left. rewrite EV, lefts_app. lia.
  - destruct (live_step o now k k' id m V S NP NL G L) as [(m' & G' & L' & A)|T]; [|left; lia].
    destruct (N.eq_dec a (b + lefts id (k_ev k'))) as [E|E]; [right; split; [exact E|]|left; rewrite EV, lefts_app in *; lia].
    exists m'. split; [exact G'|]. split; [exact L'|]. eapply ST; eauto.
Qed.
Lemma watched_op P id a b Q o k : kinv k -> no_poll o -> id <> LID -> stable P Q -> P (op_now o) -> watched id a b Q k -> watched id a b Q (fst (core_step C k o)).
Proof.
  intros V NP NL ST PN. pose proof (core_step_steps C k o V) as S. revert V. induction S as [k|k1 k2 k3 S _ IH]; intros V W; [exact W|].
  apply IH; [eapply kinv_step; eauto|]. eapply watched_step; eauto.
Qed.
Lemma watched_run P id a b Q os : id <> LID -> stable P Q -> Forall (fun o => no_poll o /\ P (op_now o)) os -> forall k, kinv k ->
  watched id a b Q k -> watched id a b Q (fst (core_run C k os)).
Proof.
  intros NL ST F k V W. rewrite core_run_fst. revert k V W. induction F as [|o os [NP PN] F IH]; intros k V W; [exact W|]. cbn [fold_left].
  apply IH; [apply kinv_core_step, V|]. eapply watched_op; eauto.
Qed.
Lemma watched_weaken id a b (Q Q' : member -> Prop) k : (forall m, Q m -> Q' m) -> watched id a b Q k -> watched id a b Q' k.
Proof. intros H [T|(T & m & G & L & X)]; [left; exact T|right; split; [exact T|exists m; auto]]. Qed.

(** ** What the parts of a call do to the core, and when *)
(** what a timer call does to the core; [A] are the probes and pings it may fail *)
Inductive tick_op (now : N) (A : N -> Prop) : cop -> Prop :=
| tk_expire : tick_op now A (KExpire now)
| tk_reset : tick_op now A (KReset now)
| tk_draws n : tick_op now A (KDraws n)
| tk_health n : tick_op now A (KHealthFail n)
| tk_suspect i id : tick_op now A (KSuspect i id LID now)
| tk_dial a b c : tick_op now A (KEmit (EvDial a b c))
| tk_take a b : tick_op now A (KTake a b)
| tk_one a : tick_op now A (KTakeOne a)
| tk_failed s t : A s -> tick_op now A (KEmit (EvPingFailed s t)).
Definition does (P : cop -> Prop) (e e' : ep) : Prop := exists os, e_core e' = fst (core_run C (e_core e) os) /\ Forall P os.
Definition timed (u : N) (o : cop) : Prop := no_poll o /\ (op_now o = 0 \/ op_now o = u).
Definition acts (u : N) (e e' : ep) : Prop := does (timed u) e e'.
Definition ticks (A : N -> Prop) (u : N) (e e' : ep) : Prop := does (tick_op u A) e e'.
Lemma does_refl P e : does P e e.
Proof. exists []. split; [reflexivity|constructor]. Qed.
Lemma does_same P e e' : e_core e' = e_core e -> does P e e'.
Proof. intros E. exists []. split; [exact E|constructor]. Qed.
Lemma does_trans P a b c : does P a b -> does P b c -> does P a c.
Proof.
  intros (o1 & E1 & F1) (o2 & E2 & F2). exists (o1 ++ o2). split; [|apply Forall_app; auto].
  rewrite E2, E1, core_run_app. destruct (core_run C (e_core a) o1) as [k1 x1]. cbn [fst]. destruct (core_run C k1 o2). reflexivity.
Qed.
Lemma does_act (P : cop -> Prop) o e : P o -> does P e (act C o e).
Proof. intros H. exists [o]. split; [|constructor; [exact H|constructor]]. cbn [act e_core e_set_core core_run]. destruct (core_step C (e_core e) o). reflexivity. Qed.
Lemma does_then P e e1 e' : e_core e1 = e_core e -> does P e1 e' -> does P e e'.
Proof. intros E (os & A & B). exists os. rewrite <- E. auto. Qed.
Lemma does_fold {A} P (f : ep -> A -> ep) l : (forall e a, does P e (f e a)) -> forall e, does P e (fold_left f l e).
Proof. intros H. induction l as [|a l IH]; intros e; [apply does_refl|]. cbn [fold_left]. eapply does_trans; [apply H|apply IH]. Qed.
Lemma acts_refl u e : acts u e e.
Proof. apply does_refl. Qed.
Lemma acts_same u e e' : e_core e' = e_core e -> acts u e e'.
Proof. apply does_same. Qed.
Lemma acts_trans u a b c : acts u a b -> acts u b c -> acts u a c.
Proof. apply does_trans. Qed.
Lemma acts_act u o e : no_poll o -> op_now o = 0 \/ op_now o = u -> acts u e (act C o e).
Proof. intros A B. apply does_act. split; assumption. Qed.
Lemma acts_then u e e1 e' : e_core e1 = e_core e -> acts u e1 e' -> acts u e e'.
Proof. apply does_then. Qed.
Lemma acts_fold {A} u (f : ep -> A -> ep) l : (forall e a, acts u e (f e a)) -> forall e, acts u e (fold_left f l e).
Proof. apply does_fold. Qed.
Lemma ticks_refl (A : N -> Prop) u e : ticks A u e e.
Proof. apply does_refl. Qed.
Lemma ticks_same (A : N -> Prop) u e e' : e_core e' = e_core e -> ticks A u e e'.
Proof. apply does_same. Qed.
Lemma ticks_trans (A : N -> Prop) u a b c : ticks A u a b -> ticks A u b c -> ticks A u a c.
Proof. apply does_trans. Qed.
Lemma ticks_act (A : N -> Prop) u o e : tick_op u A o -> ticks A u e (act C o e).
Proof. apply does_act. Qed.
Lemma ticks_then (A : N -> Prop) u e e1 e' : e_core e1 = e_core e -> ticks A u e1 e' -> ticks A u e e'.
Proof. apply does_then. Qed.
Lemma ticks_fold (A : N -> Prop) {T} u (f : ep -> T -> ep) l : (forall e a, ticks A u e (f e a)) -> forall e, ticks A u e (fold_left f l e).
Proof. apply does_fold. Qed.
Lemma ticks_acts (A : N -> Prop) u e e' : ticks A u e e' -> acts u e e'.
Proof. intros (os & E & F). exists os. split; [exact E|]. eapply Forall_impl; [|exact F]. intros o X. destruct X; split; try exact Logic.I; (left; reflexivity) || (right; reflexivity). Qed.
Lemma ticks_fail (A : N -> Prop) s now e : A s -> ticks A now e (probe_fail C s now e).
Proof.
  intros HA. unfold probe_fail. destruct (aget s (e_probes e)) as [p|]; [|apply ticks_refl]. cbv zeta. set (e1 := e_set_acks _ _).
  set (e2 := match p_phase p with PhIndirect _ _ _ (Some rid) _ => remove_intent rid e1 | _ => e1 end).
  assert (e_core e2 = e_core e) as E by (unfold e2; destruct (p_phase p) as [|? ? ? [?|] ?]; reflexivity). clearbody e2. apply (ticks_then _ _ _ e2); [exact E|].
  destruct (p_kind p); [destruct (negb _); [apply ticks_refl|]; destruct (same_instance _ _)|apply ticks_act; (constructor; try exact HA)].
  - eapply ticks_trans; apply ticks_act; (constructor; try exact HA).
  - apply ticks_act; (constructor; try exact HA).
Qed.
Lemma acts_fail s now e : acts now e (probe_fail C s now e).
Proof. apply (ticks_acts (fun _ => True)), ticks_fail; auto. Qed.
Lemma acts_ok s d pl now e : acts now e (probe_ok C s d pl now e).
Proof.
  unfold probe_ok. destruct (aget s (e_probes e)) as [p|]; [|apply acts_refl]. destruct (_ <=? _); [apply acts_fail|]. cbv zeta. set (e1 := e_set_acks _ _).
  apply (acts_then _ _ e1); [reflexivity|]. destruct (p_kind p); [destruct d|]; try (apply acts_act; [exact Logic.I|left; reflexivity]).
  eapply acts_trans; apply acts_act; try exact Logic.I; left; reflexivity.
Qed.
Lemma fit_core to m e : e_core (fst (push_fit C to m e)) = e_core e.
Proof. unfold push_fit. destruct (_ <=? _); reflexivity. Qed.
Lemma acts_ack from s pl now e : acts now e (handle_ack C from s pl now e).
Proof.
  unfold handle_ack. destruct (ack_get s (e_acks e)) as [a|]; [|apply acts_refl]. destruct (negb _); [apply acts_refl|].
  match goal with |- acts _ e (if ?b then _ else _) => destruct b; [apply acts_refl|] end. cbv zeta.
  set (e1 := e_set_acks _ e). apply (acts_then _ _ e1); [reflexivity|]. destruct (a_kind a); try apply acts_ok.
  destruct (aget s (e_fwds e1)); [apply acts_same; reflexivity|apply acts_refl].
Qed.
Lemma retire_core s e : e_core (retire_reliable s e) = e_core e.
Proof. unfold retire_reliable. destruct (aget _ _) as [p|]; [destruct (p_phase p)|]; reflexivity. Qed.
Lemma resolve_core id e : e_core (resolve_intent id e) = e_core e.
Proof. unfold resolve_intent. destruct (aget id (e_int e)) as [i|]; [|reflexivity]. cbv zeta. destruct (in_kind i); try reflexivity; rewrite retire_core; reflexivity. Qed.
Lemma ticks_announce (A : N -> Prop) u peer k d m e : ticks A u e (snd (announce C (open_intent peer k d m e))).
Proof.
  rewrite open_intent_eq. destruct (runs e); unfold announce; cbn [e_int insert_intent e_set_int e_set_iidx e_set_sid]; destruct (aget _ _); cbn [snd];
    try (apply ticks_same; reflexivity). match goal with |- ticks _ _ _ (act C _ ?x) => apply (ticks_then _ _ _ x); [reflexivity|] end. apply ticks_act; constructor.
Qed.
Lemma acts_announce u peer k d m e : acts u e (snd (announce C (open_intent peer k d m e))).
Proof. apply (ticks_acts (fun _ => True)), ticks_announce; auto. Qed.
Lemma announce_probes peer k d m e : e_probes (snd (announce C (open_intent peer k d m e))) = e_probes e.
Proof.
  rewrite open_intent_eq. destruct (runs e); unfold announce; cbn [e_int insert_intent e_set_int e_set_iidx e_set_sid]; destruct (aget _ _); reflexivity.
Qed.
Lemma ticks_pick (A : N -> Prop) u k pool e : ticks A u e (snd (pick C k pool e)).
Proof. unfold pick. cbn [snd]. apply ticks_act; constructor. Qed.
Lemma acts_pick u k pool e : acts u e (snd (pick C k pool e)).
Proof. apply (ticks_acts (fun _ => True)), ticks_pick; auto. Qed.
Lemma sends_core m l : forall st, e_core (fst (fold_left (send_indirect C m) l st)) = e_core (fst st).
Proof. intros st. apply (proj1 (sends_rest C m l st)). Qed.
Lemma ticks_fan (A : N -> Prop) now e s : A s -> ticks A now e (fan_out C now e s).
Proof.
  intros HA. unfold fan_out. destruct (aget s (e_probes e)) as [p|]; [|apply ticks_refl]. cbv zeta.
  pose proof (ticks_pick A now (c_indirect C) (fan_helpers C (ns_addr (p_target p)) e) e) as A1. destruct (pick C _ _ e) as [ch e1]. cbn [snd] in A1.
  eapply ticks_trans; [exact A1|]. clear A1 e. destruct (_ <=? _); [apply ticks_fail, HA|].
  match goal with |- ticks _ _ _ (let '(_, _) := ?Y in _) => assert (ticks A now e1 (snd Y)) as A2 end.
  { destruct (existsb _ _); [apply ticks_refl|]. unfold reliable_ping_direct. match goal with |- context [announce C (open_intent ?a ?b ?c ?d ?x)] => pose proof (ticks_announce A now a b c d x) as AN end.
    destruct (announce C _). exact AN. }
  match goal with |- ticks _ _ _ (let '(_, _) := ?Y in _) => destruct Y as [rid e2] end. cbn [snd] in A2. eapply ticks_trans; [exact A2|]. clear A2 e1.
  match goal with |- ticks _ _ _ (let '(_, _) := fold_left (send_indirect C ?m) ?l ?st in _) => pose proof (sends_core m l st) as E; destruct (fold_left (send_indirect C m) l st) as [e3 peers] end.
  cbn [fst] in E. apply (ticks_then _ _ _ e3); [exact E|]. destruct (_ && _); [apply ticks_fail, HA|apply ticks_same; reflexivity].
Qed.
Lemma acts_fan now e s : acts now e (fan_out C now e s).
Proof. apply (ticks_acts (fun _ => True)), ticks_fan; auto. Qed.
Lemma ticks_fsm (A : N -> Prop) now e : (forall s, A s) -> ticks A now e (advance_fsm C now e).
Proof.
  intros HA. unfold advance_fsm. cbv zeta. eapply ticks_trans; [apply (ticks_fold A now (fan_out C now)); intros; apply ticks_fan, HA|].
  apply (ticks_fold A now (fun e s => probe_fail C s now e)). intros. apply ticks_fail, HA.
Qed.
Lemma acts_fsm now e : acts now e (advance_fsm C now e).
Proof. apply (ticks_acts (fun _ => True)), ticks_fsm; auto. Qed.
Lemma start_core now e : e_core (start_probe C now e) = e_core e.
Proof.
  unfold start_probe. destruct (negb _); [reflexivity|]. unfold next_target. destruct (scan C _ _ _) as [[i cur]|]; [|reflexivity].
  destruct (aget i _) as [m|]; [|reflexivity]. destruct (alloc_seq _) as [[s e2]|] eqn:A; [|reflexivity]. apply alloc_seq_spec in A as (-> & _).
  cbv zeta. match goal with |- context [let '(_, _) := ?x in _] => set (X := x) end.
  assert (e_core (fst X) = e_core e) as E.
  { unfold X. destruct (pstate_eqb _ _); [destruct (_ <=? _); [reflexivity|]|rewrite fit_core; reflexivity].
    match goal with |- context [push_fit C ?t ?m ?x] => pose proof (fit_core t m x) as Y; destruct (push_fit C t m x) end. cbn [fst] in *. rewrite fit_core. exact Y. }
  destruct X. exact E.
Qed.
Lemma acts_start u now e : acts u e (start_probe C now e).
Proof. apply acts_same, start_core. Qed.
Lemma ticks_probe (A : N -> Prop) now e : ticks A now e (fire_probe C now e).
Proof.
  unfold fire_probe. destruct (e_np e) as [d|]; [|apply ticks_refl]. destruct (_ <? _); [apply ticks_refl|]. cbv zeta.
  match goal with |- ticks _ _ _ (e_set_np _ (start_probe C now ?x)) => apply (ticks_trans _ _ _ x); [|apply ticks_same; cbn [e_core e_set_np]; apply start_core] end.
  destruct (_ && _); [|apply ticks_same; reflexivity]. apply (ticks_then _ _ _ (e_set_psr (e_psr e + 1) e)); [reflexivity|]. unfold reset_nodes.
  eapply ticks_trans; [apply (ticks_act A now (KReset now)); constructor|]. apply ticks_same. reflexivity.
Qed.
Lemma acts_probe now e : acts now e (fire_probe C now e).
Proof. apply (ticks_acts (fun _ => True)), ticks_probe; auto. Qed.
Lemma ticks_gossip (A : N -> Prop) now e : ticks A now e (fire_gossip C now e).
Proof.
  unfold fire_gossip. destruct (e_ng e); [|apply ticks_refl]. destruct (_ <? _); [apply ticks_refl|].
  pose proof (ticks_pick A now (c_gossip_nodes C) (map (fun p => ns_addr (m_server (snd p))) (filter (gossip_target C now) (k_mem (e_core e)))) e) as AN. destruct (pick C _ _ e) as [t e1]. cbn [snd] in AN.
  eapply ticks_trans; [exact AN|]. destruct t; [apply ticks_same; reflexivity|]. pose proof (gossip_core C e1) as G. destruct (gossip_batch C e1) as [e2 ms]. cbn [fst] in G.
  apply (ticks_trans _ _ _ (act C (gossip_op C e1) e1)); [|apply ticks_same; exact G]. apply ticks_act. unfold gossip_op. destruct (peek_first_sendable _ _); try (destruct (_ <? _)); constructor.
Qed.
Lemma acts_gossip now e : acts now e (fire_gossip C now e).
Proof. apply (ticks_acts (fun _ => True)), ticks_gossip; auto. Qed.
Lemma ticks_pp (A : N -> Prop) now e : ticks A now e (fire_pushpull C now e).
Proof.
  unfold fire_pushpull. destruct (e_npp e); [|apply ticks_refl]. destruct (_ <? _); [apply ticks_refl|]. cbv zeta.
  match goal with |- ticks _ _ e (e_set_npp _ ?x) => apply (ticks_trans _ _ _ x); [|apply ticks_same; reflexivity] end.
  destruct (live_addrs C e) as [|y ys]; [apply ticks_refl|]. pose proof (ticks_pick A now 1 (y :: ys) e) as AN. destruct (pick C _ _ e) as [t e1]. cbn [snd] in AN.
  destruct t as [|peer t]; [exact AN|]. eapply ticks_trans; [exact AN|]. apply ticks_announce.
Qed.
Lemma acts_pp now e : acts now e (fire_pushpull C now e).
Proof. apply (ticks_acts (fun _ => True)), ticks_pp; auto. Qed.
Lemma ticks_refresh (A : N -> Prop) u e : ticks A u e (refresh_cache e).
Proof. unfold refresh_cache. destruct (_ && _); apply ticks_same; reflexivity. Qed.
Lemma acts_refresh u e : acts u e (refresh_cache e).
Proof. apply (ticks_acts (fun _ => True)), ticks_refresh; auto. Qed.
(** the handler after the suspicion timers *)
Lemma ticks_rest (A : N -> Prop) now e : runs e = true -> let e2 := advance_fsm C now (act C (KExpire now) e) in ticks A now e2 (handle_timeout C now e).
Proof.
  intros R. cbv zeta. unfold handle_timeout. rewrite R. cbn [negb]. set (e2 := advance_fsm C now _).
  eapply ticks_trans; [|apply ticks_refresh]. eapply ticks_trans; [|apply ticks_pp]. eapply ticks_trans; [|apply ticks_gossip]. eapply ticks_trans; [|apply ticks_probe].
  apply ticks_same. rewrite (proj1 (core_intents C now _)), (proj1 (core_forwards C now _)). reflexivity.
Qed.
Lemma acts_rest now e : runs e = true -> let e2 := advance_fsm C now (act C (KExpire now) e) in acts now e2 (handle_timeout C now e).
Proof. intros R. cbv zeta. apply (ticks_acts (fun _ => True)), ticks_rest, R. Qed.
Lemma ticks_expire (A : N -> Prop) now e : ticks A now e (act C (KExpire now) e).
Proof. apply ticks_act; constructor. Qed.
Lemma acts_expire now e : acts now e (act C (KExpire now) e).
Proof. apply (ticks_acts (fun _ => True)), ticks_expire; auto. Qed.
Lemma ticks_timeout (A : N -> Prop) now e : (forall s, A s) -> ticks A now e (handle_timeout C now e).
Proof.
  intros HA. destruct (runs e) eqn:R; [|unfold handle_timeout; rewrite R; apply ticks_refl]. eapply ticks_trans; [apply ticks_expire|]. eapply ticks_trans; [apply ticks_fsm, HA|]. apply ticks_rest, R.
Qed.
Lemma acts_timeout now e : acts now e (handle_timeout C now e).
Proof. apply (ticks_acts (fun _ => True)), ticks_timeout; auto. Qed.
(** when a call happens, as far as the members are concerned *)
Definition optime (o : eop) : N :=
  match o with
  | EPacket _ _ t | ETimeout t | EMerge _ t | EReset t | ELeave t _ => t
  | EStreamEv (SEAcked _ t) _ => t
  | EStreamEv _ t => t
  | _ => 0
  end.
Lemma nack_core from s now e : e_core (handle_nack from s now e) = e_core e.
Proof. unfold handle_nack. destruct (aget _ _) as [p|]; [|reflexivity]. destruct (_ <=? _); [reflexivity|]. destruct (p_phase p); [reflexivity|]. destruct (_ && _); reflexivity. Qed.
Lemma indirect_core from s a b now e : e_core (handle_indirect_ping C from s a b now e) = e_core e.
Proof.
  unfold handle_indirect_ping. destruct (negb _); [reflexivity|]. destruct (_ <=? _); [reflexivity|]. destruct (existsb _ _); [reflexivity|].
  destruct (alloc_seq e) as [[s' e']|] eqn:A; [|reflexivity]. apply alloc_seq_spec in A as (-> & _). cbv zeta. destruct (negb _); reflexivity.
Qed.
Lemma ping_core nd now e : e_core (fst (ping C nd now e)) = e_core e.
Proof.
  unfold ping. destruct (negb _); [reflexivity|]. cbv zeta. destruct (alloc_seq e) as [[s' e']|] eqn:A; [|reflexivity]. apply alloc_seq_spec in A as (-> & _).
  destruct (_ <? _); reflexivity.
Qed.
Lemma acts_packet from m now e : acts now e (handle_packet C from m now e).
Proof.
  unfold handle_packet. destruct (negb _); [apply acts_refl|]. destruct m; try apply acts_refl; try (apply acts_act; [exact Logic.I|(left; reflexivity) || (right; reflexivity)]).
  - apply acts_same. unfold handle_ping. destruct (negb _); reflexivity.
  - apply acts_same, indirect_core.
  - apply acts_ack.
  - apply acts_same, nack_core.
Qed.
Lemma acts_merge peer st us j sid now e : acts now e (merge_in C peer st us j sid now e).
Proof.
  unfold merge_in. cbv zeta. apply (acts_trans _ _ (act C (KMerge st now) e)); [apply acts_act; [exact Logic.I|right; reflexivity]|].
  destruct us; [apply acts_refl|apply acts_act; [exact Logic.I|left; reflexivity]].
Qed.
Lemma acts_stream ev now e : acts (optime (EStreamEv ev now)) e (fst (handle_stream_event C ev now e)).
Proof.
  unfold handle_stream_event. destruct ev; cbn [optime]; try (destruct (runs e); cbn [negb fst]; try apply acts_refl).
  - destruct (e_merge e _); [apply acts_merge|apply acts_refl].
  - destruct (e_merge e _); [apply acts_merge|apply acts_refl].
  - apply acts_ok.
  - apply acts_same, retire_core.
  - apply acts_act; [exact Logic.I|left; reflexivity].
Qed.
Lemma acts_dialled u peer k d m e : acts u e (fst (dialled (open_intent peer k d m e))).
Proof. rewrite open_intent_eq. destruct (runs e); apply acts_same; reflexivity. Qed.
Lemma acts_stagger u i e : acts u e (snd (stagger C i e)).
Proof. unfold stagger. cbv zeta. destruct (_ =? 0); [apply acts_refl|apply acts_act; [exact Logic.I|left; reflexivity]]. Qed.
Lemma acts_schedule u now e : acts u e (start_scheduling C now e).
Proof.
  unfold start_scheduling. destruct (negb _); [apply acts_refl|]. cbv zeta.
  assert (forall (b : bool) i (f : N -> ep -> ep) x, (forall n y, e_core (f n y) = e_core y) -> acts u x (if b then let '(s, x') := stagger C i x in f s x' else x)) as H.
  { intros b i f x F. destruct b; [|apply acts_refl]. pose proof (acts_stagger u i x) as A. destruct (stagger C i x) as [n x']. cbn [snd] in A. eapply acts_trans; [exact A|]. apply acts_same, F. }
  eapply acts_trans; [|apply H; reflexivity]. eapply acts_trans; [|apply H; reflexivity]. apply H. reflexivity.
Qed.
Lemma acts_op e o : o <> EPollEvent -> (forall now fw, o <> ELeave now fw) -> acts (optime o) e (fst (ep_step C e o)).
Proof.
  intros NP NL. destruct o; try (destruct (NL now farewell); reflexivity); try congruence; cbn [ep_step optime fst];
    try (apply acts_act; [exact Logic.I|(left; reflexivity) || (right; reflexivity)]); try (apply acts_same; reflexivity).
  - apply acts_packet.
  - apply acts_timeout.
  - apply acts_stream.
  - pose proof (ping_core nd now e) as P. destruct (ping C nd now e) as [e' r]. apply acts_same, P.
  - apply acts_start.
  - unfold push_pull_direct. match goal with |- context [announce C (open_intent ?a ?b ?c ?d ?x)] => pose proof (acts_announce 0 a b c d x) as A; destruct (announce C _) end. exact A.
  - apply acts_dialled.
  - unfold reliable_ping_direct. match goal with |- context [announce C (open_intent ?a ?b ?c ?d ?x)] => pose proof (acts_announce 0 a b c d x) as A; destruct (announce C _) end. exact A.
  - apply acts_dialled.
  - destruct (runs e) eqn:R; [|apply acts_refl]. unfold user_message_direct. rewrite R. cbn [negb].
    match goal with |- context [announce C (open_intent ?a ?b ?c ?d ?x)] => pose proof (acts_announce 0 a b c d x) as A; destruct (announce C _) end. exact A.
  - destruct (runs e) eqn:R; [|apply acts_refl]. unfold user_message_direct. rewrite R. cbn [negb]. apply acts_dialled.
  - unfold dial_succeeded. destruct (aget id (e_int e)) as [i|]; [|apply acts_same; reflexivity]. destruct (_ || _); apply acts_same; [apply resolve_core|reflexivity].
  - apply acts_same, resolve_core.
  - unfold accept_stream. destruct (negb _); [apply acts_refl|]. apply acts_same. reflexivity.
  - pose proof (poll_transmit_core C e) as P. destruct (poll_transmit C e) as [e' r]. cbn [fst] in *. exists (poll_ops e). split; [exact P|].
    unfold poll_ops. destruct (e_tx e); [constructor|]. destruct (e_flush e); [|constructor]. destruct (_ <=? _); [|constructor].
    constructor; [split; [exact Logic.I|left; reflexivity]|constructor].
  - unfold res, set_ack_payload. destruct (negb _); [apply acts_refl|]. destruct (_ <? _); apply acts_same; reflexivity.
  - unfold res, set_snapshot. destruct (negb _); [apply acts_refl|]. destruct (snapshot_fits _ _); apply acts_same; reflexivity.
  - unfold res, queue_user. destruct (negb _); [apply acts_refl|]. destruct (_ <? _); apply acts_same; reflexivity.
  - unfold res, send_user. destruct (negb _); [apply acts_refl|]. destruct (_ <? _); apply acts_same; reflexivity.
  - unfold res, send_users. destruct (negb _) eqn:R; [apply acts_refl|]. destruct l as [|d [|d' l]]; [apply acts_refl| |].
    + unfold send_user. rewrite R. destruct (_ <? _); apply acts_same; reflexivity.
    + cbv zeta. destruct (_ <? _); apply acts_same; reflexivity.
  - apply acts_schedule.
Qed.
Lemma acts_kinv u e e' : acts u e e' -> kinv (e_core e) -> kinv (e_core e').
Proof. intros (os & -> & _) V. apply kinv_run, V. Qed.
Lemma acts_runs u e e' : acts u e e' -> runs e' = runs e.
Proof.
  intros (os & E & F). unfold runs. rewrite E, core_run_fst. clear E. generalize (e_core e). induction F as [|o os [NP _] F IH]; intros k; [reflexivity|]. cbn [fold_left].
  rewrite IH. apply core_runs. destruct o; auto.
Qed.
Lemma acts_watched (P : N -> Prop) u id a b Q e e' : P 0 -> P u -> id <> LID -> stable P Q -> kinv (e_core e) -> acts u e e' ->
  watched id a b Q (e_core e) -> watched id a b Q (e_core e').
Proof.
  intros P0 PU NL ST V (os & -> & F) W. eapply watched_run; eauto. eapply Forall_impl; [|exact F]. cbn beta. intros o [NP [->| ->]]; auto.
Qed.

(** ** What the application is told over a history *)
Definition seen (x : list out) : list event := flat_map (fun o => match o with OEvent ev => [ev] | _ => [] end) x.
Definition handed_back (o : eop) : list event := match o with ERequeue ev => [ev] | _ => [] end.
Definition requeued (os : list eop) : list event := flat_map handed_back os.
Lemma seen_app a b : seen (a ++ b) = seen a ++ seen b.
Proof. apply flat_map_app. Qed.
Lemma seen_none e o : o <> EPollEvent -> seen (snd (ep_step C e o)) = [].
Proof.
  intros NE. pose proof (step_no_event C e o NE) as F. revert F. induction (snd (ep_step C e o)) as [|x l IH]; [reflexivity|]. cbn [forallb]. intros F.
  apply Bool.andb_true_iff in F as [A B]. cbn [seen flat_map]. fold (seen l). rewrite (IH B). destruct x; try reflexivity; discriminate.
Qed.
Lemma watched_act_requeue id a b Q ev e : id <> LID -> kinv (e_core e) -> watched id a b Q (e_core e) ->
  watched id (a + lefts id [ev]) b Q (e_core (act C (KRequeue ev) e)).
Proof.
  intros NL V W. assert (k_mem (e_core (act C (KRequeue ev) e)) = k_mem (e_core e) /\
     (k_ev (e_core (act C (KRequeue ev) e)) = k_ev (e_core e) ++ [ev] \/ k_ev (e_core (act C (KRequeue ev) e)) = ev :: k_ev (e_core e) \/ k_ev (e_core (act C (KRequeue ev) e)) = k_ev (e_core e) /\ lefts id [ev] = 0)) as (M & E).
  { change (e_core (act C (KRequeue ev) e)) with (if negb (is_running (k_life (e_core e))) && is_dial ev then e_core e else k_set_ev (k_ev (e_core e) ++ [ev]) (e_core e)).
    destruct (negb (is_running (k_life (e_core e))) && is_dial ev) eqn:D.
    - split; [reflexivity|]. right. right. split; [reflexivity|]. apply Bool.andb_true_iff in D as [_ D]. destruct ev; try discriminate; reflexivity.
    - split; [reflexivity|]. cbn. auto. }
  assert (lefts id (k_ev (e_core (act C (KRequeue ev) e))) = lefts id (k_ev (e_core e)) + lefts id [ev]) as EL.
  { destruct E as [->|[->|[-> ->]]]; [apply lefts_app| |lia]. change (ev :: k_ev (e_core e)) with ([ev] ++ k_ev (e_core e)). rewrite lefts_app. lia. }
  unfold watched, rec_at. rewrite M, EL. destruct W as [T|(T & X)]; [left; lia|right; split; [lia|exact X]].
Qed.
Lemma watched_poll id a b Q e : watched id a b Q (e_core e) ->
  watched id a (b + lefts id (seen (snd (ep_step C e EPollEvent)))) Q (e_core (fst (ep_step C e EPollEvent))).
Proof.
  intros W. change (e_core (fst (ep_step C e EPollEvent))) with (fst (match k_ev (e_core e) with [] => (e_core e, []) | ev :: r => (k_set_ev r (e_core e), [ev]) end)).
  change (snd (ep_step C e EPollEvent)) with (match k_ev (e_core e) with ev :: _ => [OEvent ev] | [] => [] end). unfold watched, rec_at in *. destruct (k_ev (e_core e)) as [|ev r] eqn:E; cbn [fst k_mem k_set_ev k_ev].
  - rewrite E. cbn [seen flat_map]. change (lefts id []) with 0 in *. rewrite !N.add_0_r in *. exact W.
  - cbn [seen flat_map app]. change (ev :: r) with ([ev] ++ r) in W. rewrite lefts_app in W. rewrite <- N.add_assoc. exact W.
Qed.
Lemma watched_hist (P : N -> Prop) id Q e0 os : einv C e0 -> id <> LID -> P 0 -> stable P Q -> Forall (fun o => P (optime o)) os ->
  (forall now fw, ~ In (ELeave now fw) os) -> watched id (lefts id (k_ev (e_core e0))) 0 Q (e_core e0) ->
  watched id (lefts id (k_ev (e_core e0)) + lefts id (requeued os)) (lefts id (seen (snd (ep_run C e0 os)))) Q (e_core (fst (ep_run C e0 os))).
Proof.
  intros I0 NL P0 ST. revert os.
  apply (run_acc C (fun os x e => Forall (fun o => P (optime o)) os -> (forall now fw, ~ In (ELeave now fw) os) -> watched id (lefts id (k_ev (e_core e0))) 0 Q (e_core e0) ->
    watched id (lefts id (k_ev (e_core e0)) + lefts id (requeued os)) (lefts id (seen x)) Q (e_core e)) e0 I0).
  - intros _ _ W. change (lefts id []) with 0. rewrite N.add_0_r. exact W.
  - intros h x e o I IH F NLv W0. apply Forall_app in F as [F FO]. inversion FO as [|? ? PO _]; subst.
    specialize (IH F (fun now fw X => NLv now fw (in_or_app _ _ _ (or_introl X))) W0).
    assert (o <> ELeave 0 None) as _ by (intros ->; apply (NLv 0 None); apply in_or_app; right; left; reflexivity).
    unfold requeued. rewrite flat_map_app, seen_app, !lefts_app. fold (requeued h). cbn [flat_map]. rewrite app_nil_r, N.add_assoc.
    destruct (match o with EPollEvent => true | _ => false end) eqn:KP.
    { destruct o; try discriminate. change (lefts id (handed_back EPollEvent)) with 0. rewrite N.add_0_r. apply watched_poll, IH. }
    rewrite (seen_none e o) by (intros ->; discriminate). change (lefts id []) with 0. rewrite N.add_0_r.
    destruct (match o with ERequeue _ => true | _ => false end) eqn:KR.
    { destruct o; try discriminate. cbn [handed_back]. apply watched_act_requeue; [exact NL|apply (ei_core _ _ I)|exact IH]. }
    assert (handed_back o = []) as -> by (destruct o; try reflexivity; discriminate). change (lefts id []) with 0. rewrite N.add_0_r.
    apply (acts_watched P (optime o) _ _ _ _ e); auto; [apply (ei_core _ _ I)|]. apply acts_op; [intros ->; discriminate|].
    intros now fw ->. apply (NLv now fw). apply in_or_app. right. left. reflexivity.
Qed.

(** ** A suspicion is resolved *)
Definition bounded (s : suspicion) : Prop := s_min s <= s_max s /\ forall n, 1 <= n <= s_k s -> (c_lg C n (s_k s) (s_min s) (s_max s) <= Z.of_N (s_max s / MS))%Z.
Definition suspected (i d : N) (m : member) : Prop :=
  i < m_inc m \/ m_inc m = i /\ m_state m = PSuspect /\ exists s, m_susp m = Some s /\ bounded s /\ tadd (s_start s) (s_max s) <= d /\ s_deadline s <= d.
Lemma confirm_late s from u s' d x : bounded s -> susp_confirm (c_lg C) s from u = (s', Accepted d) -> tadd (s_start s) (s_max s) <= x -> u <= x ->
  bounded s' /\ tadd (s_start s') (s_max s') <= x /\ s_deadline s' <= x.
Proof.
  intros [B1 B2] H L U. unfold susp_confirm in H. destruct (N.leb_spec (s_k s) (s_n s)); [discriminate|]. destruct (existsb _ _); [discriminate|].
  set (r := remaining_suspicion_time _ _ _ _ _ _) in H. inversion H; subst; clear H. cbn [s_k s_min s_max s_start s_deadline]. split; [split; assumption|]. split; [exact L|].
  assert (exists T, T <= s_max s /\ r = tsub T (tsub u (s_start s))) as (T & LT & ->).
  { unfold r, remaining_suspicion_time. destruct (_ <? _)%Z; [exists (s_min s); auto|]. eexists. split; [|reflexivity].
    specialize (B2 (s_n s + 1) ltac:(lia)). unfold from_millis. pose proof (N.mul_div_le (s_max s) MS ltac:(discriminate)).
    set (q := s_max s / MS) in *. set (z := c_lg C _ _ _ _) in *. clearbody q z. assert (N.min (Z.to_N z) u64_max <= q) by (generalize u64_max; intros; lia). nia. }
  unfold tadd, tsub in *. lia.
Qed.
Lemma suspected_stable i d : stable (fun u => u <= d) (suspected i d).
Proof.
  intros u m m' U A [L|(E & S & s & G & B & T & D)]; unfold suspected.
  - left. inversion A; subst; cbn; lia.
  - inversion A; subst; cbn.
    + right. split; [reflexivity|]. split; [exact S|]. eauto 10.
    + assert (s0 = s) by congruence. subst s0. destruct (confirm_late s from u s' d0 d B ltac:(eassumption) T U) as (X1 & X2 & X3).
      right. split; [reflexivity|]. split; [exact S|]. eauto 10.
    + congruence.
    + left. assumption.
    + right. split; [reflexivity|]. split; [exact S|]. eauto 10.
Qed.
Lemma greater_stable i : stable (fun _ => True) (fun m => i < m_inc m).
Proof. intros u m m' _ A L. inversion A; subst; cbn; lia. Qed.
Lemma suspicion_ends e0 os now id m s : einv C e0 -> id <> LID -> recd e0 id = Some m -> m_state m = PSuspect -> m_susp m = Some s -> bounded s ->
  tadd (s_start s) (s_max s) <= now -> s_deadline s <= now -> Forall (fun o => optime o <= now) os -> runs e0 = true ->
  (forall t fw, ~ In (ELeave t fw) os) ->
  watched id (lefts id (k_ev (e_core e0)) + lefts id (requeued os)) (lefts id (seen (snd (ep_run C e0 (os ++ [ETimeout now]))))) (fun m' => m_inc m < m_inc m') (e_core (fst (ep_run C e0 (os ++ [ETimeout now])))).
Proof.
  intros I0 NL G S GS B T D F R NLv. rewrite ep_run_snoc. cbn [fst snd]. rewrite seen_app, lefts_app. rewrite (seen_none _ (ETimeout now)) by discriminate. change (lefts id []) with 0. rewrite N.add_0_r.
  assert (watched id (lefts id (k_ev (e_core e0))) 0 (suspected (m_inc m) now) (e_core e0)) as W0.
  { right. split; [reflexivity|]. exists m. split; [exact G|]. split; [unfold live; rewrite S; reflexivity|]. right. split; [reflexivity|]. split; [exact S|]. eauto 10. }
  pose proof (watched_hist (fun u => u <= now) id _ e0 os I0 NL (N.le_0_l _) (suspected_stable _ _) F NLv W0) as W.
  pose proof (einv_run C os e0 I0) as I. pose proof (runs_until C os e0 I0 R NLv) as R1.
  set (e := fst (ep_run C e0 os)) in *. clearbody e. cbn [ep_step fst].
  assert (watched id (lefts id (k_ev (e_core e0)) + lefts id (requeued os)) (lefts id (seen (snd (ep_run C e0 os)))) (fun m' => m_inc m < m_inc m') (e_core (act C (KExpire now) e))) as W1.
  { pose proof (watched_op (fun u => u <= now) _ _ _ _ (KExpire now) _ (ei_core _ _ I) Logic.I NL (suspected_stable _ _) (N.le_refl now) W) as [X|(E & m1 & G1 & L1 & [Q|(_ & _ & s1 & GS1 & _ & _ & D1)])].
    - left. exact X.
    - right. split; [exact E|]. exists m1. auto.
    - exfalso. pose proof (expire_clears C now (e_core e) id m1 s1 (ei_core _ _ I)) as X. unfold runs in R1. destruct (k_life (e_core e)) eqn:KL; try discriminate.
      specialize (X eq_refl G1 GS1). lia. }
  assert (kinv (e_core (act C (KExpire now) e))) as V1 by (apply (kinv_act C), (ei_core _ _ I)).
  apply (acts_watched (fun _ => True) now _ _ _ _ (advance_fsm C now (act C (KExpire now) e))); auto; [apply greater_stable|apply (acts_kinv now (act C (KExpire now) e)); [apply acts_fsm|exact V1]|apply acts_rest, R1|].
  apply (acts_watched (fun _ => True) now _ _ _ _ (act C (KExpire now) e)); auto; [apply greater_stable|apply acts_fsm].
Qed.

(** ** Generations are never zero *)
Definition gen_pos (k : core) : Prop := k_gen k <> 0 /\ forall id m, rec_at k id = Some m -> m_gen m <> 0.
Lemma next_gen_pos k : k_gen (next_gen k) <> 0.
Proof. unfold next_gen. cbn. destruct (N.eqb_spec (wadd64 (k_gen k) 1) 0) as [|NE]; [discriminate|exact NE]. Qed.
Lemma gen_pos_step o now k k' : kinv k -> kstep C o now k k' -> gen_pos k -> gen_pos k'.
Proof.
  intros V S [G R]. assert (k_gen k' <> 0) as G'.
  { destruct S; try exact G.
    - exact (next_gen_pos k).
    - destruct takeover, (dead_or_left (m_state m)), (bytes_eqb (ns_meta (m_server m)) (al_meta al)); first [exact (next_gen_pos k)|exact G].
    - destruct (reset_eq C now k V) as (d & ->). cbn. destruct (existsb _ _); exact G. }
  split; [exact G'|]. intros id m' GM. pose proof (step_trans C o now k k' id V S) as T. rewrite GM in T. inversion T; subst; cbn; eauto.
  destruct tk; eauto.
Qed.
Lemma gen_pos_run os : forall k, kinv k -> gen_pos k -> gen_pos (fst (core_run C k os)).
Proof.
  intros k V G. rewrite core_run_fst. revert k V G. induction os as [|o os IH]; intros k V G; [exact G|]. cbn [fold_left]. apply IH; [apply kinv_core_step, V|].
  pose proof (core_step_steps C k o V) as S. revert V G. induction S as [|k1 k2 k3 S1 _ IH2]; intros V G; [exact G|]. apply IH2; [eapply kinv_step; eauto|eapply gen_pos_step; eauto].
Qed.
Lemma gen_pos_new t0 : gen_pos (core_new C t0).
Proof. split; [discriminate|]. intros id m. unfold rec_at. cbn. destruct (id =? LID); [|discriminate]. intros [= <-]. discriminate. Qed.
Lemma gen_pos_reach e : reach C e -> gen_pos (e_core e).
Proof. intros H. destruct (cache_reach C e H) as (t0 & ks1 & ks2 & sn & X). destruct X as (-> & _). apply gen_pos_run; [apply kinv_run, kinv_new|apply gen_pos_run; [apply kinv_new|apply gen_pos_new]]. Qed.

(** ** A probe nobody answers is noticed *)
(** the probe [q] survives as it was begun *)
Definition stays (q : N) (e e' : ep) : Prop := forall p, aget q (e_probes e) = Some p ->
  exists p', aget q (e_probes e') = Some p' /\ snap p' = snap p /\ (p_disp p = true -> p_disp p' = true).
Lemma stays_refl q e : stays q e e.
Proof. intros p G. eauto. Qed.
Lemma stays_same q e e' : aget q (e_probes e') = aget q (e_probes e) -> stays q e e'.
Proof. intros E p G. rewrite E. eauto. Qed.
Lemma stays_trans q a b c : stays q a b -> stays q b c -> stays q a c.
Proof. intros H1 H2 p G. destruct (H1 p G) as (p1 & G1 & E1 & D1). destruct (H2 p1 G1) as (p2 & G2 & E2 & D2). exists p2. split; [exact G2|]. split; [congruence|auto]. Qed.
Lemma stays_fold {A} q (f : ep -> A -> ep) l : (forall e a, stays q e (f e a)) -> forall e, stays q e (fold_left f l e).
Proof. intros H. induction l as [|a l IH]; intros e; [apply stays_refl|]. cbn [fold_left]. eapply stays_trans; [apply H|apply IH]. Qed.
Lemma stays_upd q s p p' e e' : aget s (e_probes e) = Some p -> snap p' = snap p -> (p_disp p = true -> p_disp p' = true) -> e_probes e' = aset s p' (e_probes e) -> stays q e e'.
Proof.
  intros G E D EP p0 G0. rewrite EP, aget_aset. destruct (N.eqb_spec q s) as [->|]; [|eauto]. assert (p0 = p) by congruence. subst. eauto.
Qed.
Lemma stays_new q s e e' : aget s (e_probes e) = None -> (forall j, j <> s -> aget j (e_probes e') = aget j (e_probes e)) -> stays q e e'.
Proof. intros G H p GP. assert (q <> s) as NE by congruence. rewrite (H q NE). eauto. Qed.
Lemma stays_nack q from s now e : stays q e (handle_nack from s now e).
Proof.
  unfold handle_nack. destruct (aget s (e_probes e)) as [p|] eqn:G; [|apply stays_refl]. destruct (_ <=? _); [apply stays_refl|].
  destruct (p_phase p); [apply stays_refl|]. destruct (_ && _); [|apply stays_refl]. eapply stays_upd; [exact G| | |reflexivity]; auto.
Qed.
Lemma stays_retire q s e : stays q e (retire_reliable s e).
Proof.
  unfold retire_reliable. destruct (aget s (e_probes e)) as [p|] eqn:G; [|apply stays_refl]. destruct (p_phase p); [apply stays_refl|].
  eapply stays_upd; [exact G| | |reflexivity]; auto.
Qed.
Lemma stays_resolve q id e : stays q e (resolve_intent id e).
Proof.
  unfold resolve_intent. destruct (aget id (e_int e)) as [i|]; [|apply stays_same; reflexivity]. cbv zeta. destruct (in_kind i); try (apply stays_same; reflexivity).
  eapply stays_trans; [|apply stays_retire]. apply stays_same. reflexivity.
Qed.
Lemma stays_intents q now e : stays q e (fire_expired_intents now e).
Proof.
  unfold fire_expired_intents. apply (stays_fold q (fun e id => resolve_intent id e)). intros. apply stays_resolve.
Qed.
Lemma stays_forwards q now e : stays q e (fire_expired_forwards now e).
Proof. unfold fire_expired_forwards. apply (stays_fold q expire_forward). intros x s. unfold expire_forward. destruct (aget s (e_fwds x)); apply stays_same; reflexivity. Qed.
Lemma stays_start q now e : stays q e (start_probe C now e).
Proof.
  unfold start_probe. destruct (negb _); [apply stays_refl|]. unfold next_target. destruct (scan C _ _ _) as [[i cur]|]; [|apply stays_refl].
  destruct (aget i _) as [m|]; [|apply stays_same; reflexivity]. destruct (alloc_seq _) as [[s e2]|] eqn:A; [|apply stays_same; reflexivity]. apply alloc_seq_spec in A as (-> & _ & _ & U). apply seq_used_false in U as (U & _).
  cbv zeta. match goal with |- context [let '(_, _) := ?x in _] => set (X := x) end.
  match goal with X := context [aset s ?P (e_probes ?y)] |- _ => assert (e_probes (fst X) = aset s P (e_probes y)) as E end.
  { unfold X. destruct (pstate_eqb _ _); [destruct (_ <=? _); [reflexivity|]|unfold push_fit; destruct (_ <=? _); reflexivity].
    unfold push_fit. destruct (_ <=? _), (_ <=? _); reflexivity. }
  destruct X as [e' b]. cbn [fst] in E. apply (stays_new q s); [exact U|]. intros j NE. cbn [e_probes e_set_probes]. rewrite E, !aget_aset.
  destruct (N.eqb_spec j s); [contradiction|reflexivity].
Qed.
Lemma stays_ping q nd now e : stays q e (fst (ping C nd now e)).
Proof.
  unfold ping. destruct (negb _); [apply stays_refl|]. cbv zeta. destruct (alloc_seq e) as [[s' e']|] eqn:A; [|apply stays_refl]. apply alloc_seq_spec in A as (-> & _ & _ & U). apply seq_used_false in U as (U & _).
  destruct (_ <? _); [apply stays_same; reflexivity|]. apply (stays_new q s'); [exact U|]. intros j NE. cbn. rewrite aget_aset. destruct (N.eqb_spec j s'); [contradiction|reflexivity].
Qed.

Lemma stays_probe q now e : stays q e (fire_probe C now e).
Proof.
  unfold fire_probe. destruct (e_np e) as [d|]; [|apply stays_refl]. destruct (_ <? _); [apply stays_refl|]. cbv zeta.
  match goal with |- stays _ _ (e_set_np _ (start_probe C now ?x)) => apply (stays_trans _ _ x); [|apply (stays_trans _ _ (start_probe C now x)); [apply stays_start|apply stays_same; reflexivity]] end.
  destruct (_ && _); apply stays_same; reflexivity.
Qed.
Lemma stays_rest q now e : runs e = true -> stays q (advance_fsm C now (act C (KExpire now) e)) (handle_timeout C now e).
Proof.
  intros R. unfold handle_timeout. rewrite R. cbn [negb]. set (e2 := advance_fsm C now _).
  eapply stays_trans; [apply (stays_forwards q now)|]. eapply stays_trans; [apply (stays_intents q now)|]. eapply stays_trans; [apply (stays_probe q now)|]. set (e5 := fire_probe C now _).
  apply (stays_trans _ _ (fire_gossip C now e5)); [|apply (stays_trans _ _ (fire_pushpull C now (fire_gossip C now e5)))]; [| |apply stays_same; unfold refresh_cache; destruct (_ && _); reflexivity].
  - (* gossip *) unfold fire_gossip. destruct (e_ng e5) as [dg|]; [|apply stays_refl]. destruct (now <? dg); [apply stays_refl|].
    pose proof (gossip_rest C (snd (pick C (c_gossip_nodes C) (map (fun p => ns_addr (m_server (snd p))) (filter (gossip_target C now) (k_mem (e_core e5)))) e5))) as GR.
    destruct (pick C _ _ e5) as [tg e6] eqn:PK. assert (e_probes e6 = e_probes e5) as E6 by (unfold pick in PK; injection PK as <- <-; reflexivity).
    cbn [snd] in GR. destruct tg; [apply stays_same; cbn [e_probes e_set_ng]; rewrite E6; reflexivity|]. destruct (gossip_batch C e6) as [e7 ms]. cbn [fst] in GR. apply stays_same.
    cbn [e_probes e_set_ng e_set_tx]. destruct GR as (GP & _). rewrite GP, E6. reflexivity.
  - set (e6 := fire_gossip C now e5). unfold fire_pushpull. destruct (e_npp e6); [|apply stays_refl]. destruct (_ <? _); [apply stays_refl|]. cbv zeta. apply stays_same. cbn [e_probes e_set_npp].
    destruct (live_addrs C e6) as [|y ys]; [reflexivity|]. unfold pick. match goal with |- context [btake ?a ?b] => destruct (btake a b) as [|peer tg]; [reflexivity|] end.
    unfold push_pull_direct. rewrite announce_probes. reflexivity.
Qed.

Section Probe.
Variables (q id i g : N) (sn : nstate * N * N * pkind * N * N).
(** the member is known to be gone, suspected, or newer than when it was probed *)
Definition noted (m : member) : Prop := i < m_inc m \/ m_inc m = i /\ m_state m = PSuspect.
Definition sought (m : member) : Prop := noted m \/ m_inc m = i /\ m_state m = PAlive /\ m_gen m = g.
Definition pend (e : ep) : Prop := exists p, aget q (e_probes e) = Some p /\ snap p = sn /\ p_disp p = true.
Definition W (a b : N) (e : ep) : Prop := watched id a b noted (e_core e) \/ watched id a b sought (e_core e) /\ pend e.
Lemma noted_stable : stable (fun _ => True) noted.
Proof. intros u m m' _ A [L|[E S]]; inversion A; subst; unfold noted; cbn; try (left; lia); try (right; auto; fail). congruence. Qed.
Lemma sought_stable : stable (fun _ => True) sought.
Proof.
  intros u m m' _ A [N|(E & S & G)]; [left; eapply noted_stable; eauto; exact Logic.I|]. unfold sought, noted.
  inversion A; subst; cbn; auto; try congruence.
  destruct (N.eq_dec inc (m_inc m)) as [->|]; [auto|left; left; lia].
Qed.
Lemma pend_stays e e' : stays q e e' -> pend e -> pend e'.
Proof. intros S (p & G & E & D). destruct (S p G) as (p' & G' & E' & D'). exists p'. split; [exact G'|]. split; [congruence|auto]. Qed.
Lemma W_acts u a b e e' : id <> LID -> kinv (e_core e) -> acts u e e' -> stays q e e' -> W a b e -> W a b e'.
Proof.
  intros NL V A S [X|[X P]]; [left|right; split; [|eapply pend_stays; eauto]];
    eapply (acts_watched (fun _ => True)); eauto; [apply noted_stable|apply sought_stable].
Qed.
End Probe.

Lemma suspect_takes inc id from now k m : kinv k -> k_life k = Running -> id <> LID -> rec_at k id = Some m -> m_state m = PAlive -> m_inc m <= inc ->
  exists m', rec_at (process_suspect C inc id from now k) id = Some m' /\ m_state m' = PSuspect /\ m_inc m' = inc.
Proof.
  intros V R NL G ST LI. unfold process_suspect. rewrite R. cbn [is_running negb]. unfold rec_at in G. rewrite G.
  destruct (N.ltb_spec inc (m_inc m)); [lia|]. pose proof (ki_rec _ _ V id m G) as [_ SH]. rewrite ST in SH |- *.
  assert (m_susp m = None) as SN by (destruct (m_susp m); [contradiction SH || congruence|reflexivity]). rewrite SN. cbn [pstate_eqb negb].
  destruct (N.eqb_spec id LID); [contradiction|]. destruct (c_sto C (k_n k)) as [mn mx]. unfold install_suspicion. rewrite G.
  unfold rec_at, upd, bcast, bumpv. cbn [k_mem k_set_bc k_set_ver k_set_mem k_set_sidx]. rewrite !aget_mt_upd, N.eqb_refl, G. cbn. eauto.
Qed.
Section Probe2.
Variables (q id i g : N) (sn : nstate * N * N * pkind * N * N).
Notation W := (W q id i g sn).
Notation noted := (noted i).
Hypotheses (HID : id <> LID) (HG : g <> 0) (HSN : exists t st fl, sn = (t, i, g, PKDetection, st, fl) /\ ns_id t = id).
Lemma watched_noted u a b e e' : kinv (e_core e) -> acts u e e' -> watched id a b noted (e_core e) -> watched id a b noted (e_core e').
Proof. intros V A H. eapply (acts_watched (fun _ => True)); eauto. apply noted_stable. Qed.
Lemma W_fail now a b e : kinv (e_core e) -> runs e = true -> W a b e -> watched id a b noted (e_core (probe_fail C q now e)).
Proof.
  intros V R [X|[X (p & G & E & D)]]; [eapply watched_noted; eauto; apply acts_fail|].
  destruct HSN as (t & st & fl & ES & ET). rewrite ES in E. unfold snap in E. injection E as E1 E2 E3 E4 E5 E6.
  unfold probe_fail. rewrite G. cbv zeta. set (e1 := e_set_acks _ _).
  set (e2 := match p_phase p with PhIndirect _ _ _ (Some rid) _ => remove_intent rid e1 | _ => e1 end).
  assert (e_core e2 = e_core e) as EC by (unfold e2; destruct (p_phase p) as [|? ? ? [?|] ?]; reflexivity). clearbody e2. rewrite E4, D. cbn [negb].
  assert (watched id a b (sought i g) (e_core (act C (KHealthFail (severity p)) e2))) as X1.
  { apply (acts_watched (fun _ => True) 0 _ _ _ _ e2); auto; [apply sought_stable|rewrite EC; exact V|apply acts_act; [exact Logic.I|left; reflexivity]|rewrite EC; exact X]. }
  set (e3 := act C (KHealthFail (severity p)) e2) in *.
  assert (kinv (e_core e3)) as V3 by (apply (kinv_act C); rewrite EC; exact V).
  assert (k_life (e_core e3) = Running) as R3.
  { unfold runs in R. rewrite <- EC in R. change (is_running (k_life (e_core e2)) = true) in R. change (k_life (e_core e3)) with (k_life (e_core e2)). destruct (k_life (e_core e2)); try discriminate. reflexivity. }
  clearbody e3. destruct X1 as [T|(T & m & GM & L & S)].
  - assert (watched id a b noted (e_core e3)) as N3 by (left; exact T). destruct (same_instance p e3); [|exact N3]. eapply watched_noted; [exact V3| |exact N3]. apply (acts_act now); [exact Logic.I|right; reflexivity].
  - destruct S as [S|(S1 & S2 & S3)].
    + assert (watched id a b noted (e_core e3)) as N3 by (right; split; [exact T|]; eauto). destruct (same_instance p e3); [|exact N3]. eapply watched_noted; [exact V3| |exact N3]. apply (acts_act now); [exact Logic.I|right; reflexivity].
    + assert (same_instance p e3 = true) as SI.
      { unfold same_instance. rewrite E1, E3, ET. unfold rec_at in GM. rewrite GM, S3, N.eqb_refl. destruct (N.eqb_spec g 0); [contradiction|reflexivity]. }
      rewrite SI, E1, E2, ET.
      destruct (suspect_takes i id LID now (e_core e3) m V3 R3 HID GM S2 ltac:(lia)) as (m' & G' & B1 & B2).
      destruct (op_ev C (KSuspect i id LID now) (e_core e3) V3 Logic.I) as (l & EV).
      change (e_core (act C (KSuspect i id LID now) e3)) with (process_suspect C i id LID now (e_core e3)) in *. change (fst (core_step C (e_core e3) (KSuspect i id LID now))) with (process_suspect C i id LID now (e_core e3)) in EV.
      destruct (N.eq_dec a (b + lefts id (k_ev (process_suspect C i id LID now (e_core e3))))) as [EA|NA]; [right|left].
      * split; [exact EA|]. exists m'. split; [exact G'|]. split; [unfold live; rewrite B1; reflexivity|]. right. auto.
      * rewrite EV, lefts_app in *. lia.
Qed.
Lemma W_fails now a b l : forall e, kinv (e_core e) -> runs e = true -> W a b e -> W a b (fold_left (fun e s => probe_fail C s now e) l e).
Proof.
  induction l as [|s l IH]; intros e V R H; [exact H|]. cbn [fold_left]. apply IH; [apply (acts_kinv now e); [apply acts_fail|exact V]|rewrite (acts_runs now e); [exact R|apply acts_fail]|].
  destruct (N.eq_dec s q) as [->|NE]; [left; apply W_fail; assumption|]. eapply W_acts; eauto; [apply acts_fail|]. apply stays_same. rewrite probe_fail_probes. destruct (N.eqb_spec q s); [congruence|reflexivity].
Qed.
Lemma W_fan now a b e s : kinv (e_core e) -> runs e = true -> W a b e -> W a b (fan_out C now e s).
Proof.
  intros V R H. destruct (N.eq_dec s q) as [->|NE].
  2: { eapply W_acts; eauto; [apply acts_fan|]. apply stays_same. apply fan_out_probes; [exact R|congruence]. }
  destruct (aget q (e_probes e)) as [p|] eqn:G; [|unfold fan_out; rewrite G; exact H].
  destruct (fan_spec C now e q p V R G) as (e3 & M & PR & FO & X).
  destruct (FO V) as (V3 & [_ (l & EV)] & _).
  assert (forall Q, watched id a b Q (e_core e) -> watched id a b Q (e_core e3)) as WW.
  { intros Q [T|(T & m & GM & Y)]; [left; rewrite EV, lefts_app; lia|]. destruct (N.eq_dec a (b + lefts id (k_ev (e_core e3)))) as [EA|NA]; [right|left; rewrite EV, lefts_app in *; lia].
    split; [exact EA|]. exists m. unfold rec_at. rewrite M. auto. }
  destruct X as [Hf|(_ & ph & Hs & _)].
  - (* given up *) assert (W a b e3) as W3 by (destruct H as [H|[H (p' & P')]]; [left; apply WW, H|right; split; [apply WW, H|]; exists p'; rewrite PR; exact P']).
    left. rewrite Hf. apply W_fail; [exact V3| |exact W3].
    pose proof (acts_runs now e (fan_out C now e q) (acts_fan now e q)) as Y. rewrite Hf, (acts_runs now e3) in Y by apply acts_fail. congruence.
  - rewrite Hs. destruct H as [H|[H (p' & G' & E' & D')]]; [left; apply WW, H|right; split; [apply WW, H|]].
    assert (p' = p) by congruence. subst p'. exists (p_set_phase ph (p_set_disp true p)). cbn [e_probes e_set_probes]. rewrite aget_aset, N.eqb_refl. auto.
Qed.
Lemma W_fans now a b l : forall e, kinv (e_core e) -> runs e = true -> W a b e -> W a b (fold_left (fan_out C now) l e).
Proof.
  induction l as [|s l IH]; intros e V R H; [exact H|]. cbn [fold_left]. apply IH; [apply (acts_kinv now e); [apply acts_fan|exact V]|rewrite (acts_runs now e); [exact R|apply acts_fan]|].
  apply W_fan; assumption.
Qed.
Lemma W_fsm now a b e : kinv (e_core e) -> runs e = true -> W a b e -> W a b (advance_fsm C now e).
Proof.
  intros V R H. unfold advance_fsm. cbv zeta. match goal with |- context [fold_left (fan_out C now) ?l e] => set (lf := l) end.
  assert (acts now e (fold_left (fan_out C now) lf e)) as A by (apply (acts_fold now (fan_out C now)); intros; apply acts_fan).
  apply W_fails; [apply (acts_kinv _ _ _ A V)|rewrite (acts_runs _ _ _ A); exact R|]. apply W_fans; assumption.
Qed.
Lemma W_timeout now a b e : einv C e -> runs e = true -> W a b e -> W a b (handle_timeout C now e) /\
  (forall p, snap p = sn -> p_fail p <= now -> watched id a b noted (e_core (handle_timeout C now e))).
Proof.
  intros I R H. set (e1 := act C (KExpire now) e).
  assert (acts now e e1) as A1 by apply acts_expire.
  assert (eto C e e1) as T by (apply eto_core; exact Logic.I).
  assert (einv C e1) as I1 by (destruct T as (ks & T & _); eapply einv_steps; eauto).
  assert (runs e1 = true) as R1 by (rewrite (acts_runs _ _ _ A1); exact R).
  assert (W a b e1) as H1 by (eapply W_acts; eauto; [apply (ei_core _ _ I)|apply stays_same; reflexivity]).
  pose proof (W_fsm now a b e1 (ei_core _ _ I1) R1 H1) as H2. pose proof (fsm_waits C now e1 I1 R1) as WT.
  pose proof (acts_kinv now _ _ (acts_fsm now e1) (ei_core _ _ I1)) as V2.
  pose proof (acts_rest now e R) as A3. cbv zeta in A3. fold e1 in A3.
  pose proof (stays_rest q now e R) as S3. fold e1 in S3. set (e2 := advance_fsm C now e1) in *. clearbody e2.
  split; [eapply W_acts; eauto|]. intros p E L. eapply watched_noted; eauto.
  destruct H2 as [H2|[_ (p2 & G2 & E2 & _)]]; [exact H2|]. apply WT in G2. apply wait_fail in G2. unfold snap in *. assert (p_fail p2 = p_fail p) by congruence. lia.
Qed.
(** an answer that counts *)
Definition answered (e : ep) (o : eop) : Prop := exists p, aget q (e_probes e) = Some p /\
  ((exists from pl t, o = EPacket from (MAck q pl) t /\ t < p_fail p /\ may_answer p from) \/ (exists t now, o = EStreamEv (SEAcked q t) now /\ t < p_fail p)).
Lemma W_ok d pl now a b e : kinv (e_core e) -> runs e = true -> (forall p, aget q (e_probes e) = Some p -> p_fail p <= now) -> W a b e -> W a b (probe_ok C q d pl now e).
Proof.
  intros V R L H. unfold probe_ok. destruct (aget q (e_probes e)) as [p|] eqn:G; [|exact H]. destruct (N.leb_spec (p_fail p) now) as [|X]; [|specialize (L p eq_refl); lia].
  left. apply W_fail; assumption.
Qed.
Lemma W_step e o a b : einv C e -> runs e = true -> o <> EPollEvent -> (forall now fw, o <> ELeave now fw) -> ~ answered e o ->
  W a b e -> W a b (fst (ep_step C e o)).
Proof.
  intros I R NP NL NA H. pose proof (ei_core _ _ I) as V. assert (stays q e (fst (ep_step C e o)) -> W a b (fst (ep_step C e o))) as K.
  { intros S. eapply W_acts; eauto. apply acts_op; assumption. }
  destruct o; try (destruct (NL now farewell); reflexivity); try congruence; try (apply K, stays_same; reflexivity); cbn [ep_step fst] in *.
  - (* packet *) unfold handle_packet in *. rewrite R in *. cbn [negb] in *. destruct m; try (apply K, stays_same; reflexivity).
    + apply K, stays_same. unfold handle_ping. destruct (negb _); reflexivity.
    + apply K, stays_same. unfold handle_indirect_ping. destruct (negb _); [reflexivity|]. destruct (_ <=? _); [reflexivity|]. destruct (existsb _ _); [reflexivity|].
      destruct (alloc_seq e) as [[s' e']|] eqn:A; [|reflexivity]. apply alloc_seq_spec in A as (-> & _). cbv zeta. destruct (negb _); reflexivity.
    + (* ack *) destruct (N.eq_dec seq q) as [->|NE].
      * destruct (aget q (e_probes e)) as [p|] eqn:G.
        -- destruct (N.lt_ge_cases now (p_fail p)) as [L|L].
           ++ rewrite (ack_ignored C e from q payload now I); [exact H| |].
              ** intros p' G' M. apply NA. exists p'. split; [exact G'|]. left. assert (p' = p) by congruence. subst. eauto 8.
              ** intros f GF. exfalso. pose proof (ei_reg _ _ I q) as RG. unfold registered in RG. rewrite G, GF in RG. destruct (aget q (e_acks e)) as [ae|]; [|destruct RG; discriminate].
                 destruct RG as (_ & _ & RG). destruct (a_kind ae); destruct RG as [? ?]; discriminate.
           ++ destruct (negb (ack_source_valid q AKProbe from e)) eqn:SV.
              ** apply Bool.negb_true_iff in SV. rewrite (ack_ignored C e from q payload now I); [exact H| |].
                 { intros p' G' M. assert (ack_source_valid q AKProbe from e = true) as X by (apply source_valid; [exact Logic.I|eauto]). congruence. }
                 intros f GF. exfalso. pose proof (ei_reg _ _ I q) as RG. unfold registered in RG. rewrite G, GF in RG. destruct (aget q (e_acks e)) as [ae|]; [|destruct RG; discriminate].
                 destruct RG as (_ & _ & RG). destruct (a_kind ae); destruct RG as [? ?]; discriminate.
              ** apply Bool.negb_false_iff in SV. apply source_valid in SV; [|exact Logic.I]. destruct SV as (p' & G' & M).
                 rewrite (ack_accepted C e from q payload now p' I G' M). apply W_ok; auto. intros p2 G2. assert (p2 = p) by congruence. subst. exact L.
        -- apply K. intros p' G'. congruence.
      * apply K. apply stays_same. unfold handle_ack. destruct (ack_get seq (e_acks e)) as [ae|]; [|reflexivity]. destruct (negb _); [reflexivity|].
        match goal with |- context [if ?c then _ else _] => destruct c; [reflexivity|] end. cbv zeta. destruct (a_kind ae); try (rewrite probe_ok_probes; destruct (N.eqb_spec q seq); [congruence|reflexivity]).
        destruct (aget seq _); reflexivity.
    + apply K. apply stays_nack.
  - (* timer *) apply W_timeout; assumption.
  - (* streams *) unfold handle_stream_event in *. destruct ev; rewrite ?R in *; cbn [negb fst] in *; try (apply K, stays_same; reflexivity); try (destruct (e_merge e _); cbn [fst] in *).
    all: try (apply K, stays_same; unfold merge_in; destruct user; reflexivity); try exact H.
    + destruct (N.eq_dec seq q) as [->|NE].
      * apply W_ok; auto. intros p G. destruct (N.lt_ge_cases at_ (p_fail p)) as [L|L]; [|exact L]. destruct NA. exists p. split; [exact G|]. right. eauto.
      * apply K, stays_same. rewrite probe_ok_probes. destruct (N.eqb_spec q seq); [congruence|reflexivity].
    + apply K, stays_retire.
  - pose proof (stays_ping q nd now e) as P. destruct (ping C nd now e). apply K, P.
  - apply K, stays_start.
  - apply K, stays_same. unfold push_pull_direct. match goal with |- context [announce C (open_intent ?a ?b ?c ?d ?x)] => pose proof (announce_probes a b c d x) as A; destruct (announce C (open_intent a b c d x)) end. cbn [fst snd] in *. rewrite A. reflexivity.
  - apply K, stays_same. unfold push_pull_direct. rewrite open_intent_eq, R. reflexivity.
  - apply K, stays_same. unfold reliable_ping_direct. match goal with |- context [announce C (open_intent ?a ?b ?c ?d ?x)] => pose proof (announce_probes a b c d x) as A; destruct (announce C (open_intent a b c d x)) end. cbn [fst snd] in *. rewrite A. reflexivity.
  - apply K, stays_same. unfold reliable_ping_direct. rewrite open_intent_eq, R. reflexivity.
  - apply K, stays_same. rewrite R. unfold user_message_direct. rewrite R. cbn [negb]. match goal with |- context [announce C (open_intent ?a ?b ?c ?d ?x)] => pose proof (announce_probes a b c d x) as A; destruct (announce C (open_intent a b c d x)) end. cbn [fst snd] in *. rewrite A. reflexivity.
  - apply K, stays_same. rewrite R. unfold user_message_direct. rewrite R. cbn [negb]. rewrite open_intent_eq, R. reflexivity.
  - apply K. unfold dial_succeeded. destruct (aget id0 (e_int e)); [|apply stays_same; reflexivity]. destruct (_ || _); [apply stays_resolve|apply stays_same; reflexivity].
  - apply K. apply stays_resolve.
  - apply K, stays_same. unfold accept_stream. rewrite R. reflexivity.
  - apply K, stays_same. unfold poll_transmit. destruct (e_tx e); [reflexivity|]. cbn. destruct (e_flush e); [destruct (_ <=? _)|]; reflexivity.
  - apply K, stays_same. unfold res, set_ack_payload. destruct (negb _); [reflexivity|]. destruct (_ <? _); reflexivity.
  - apply K, stays_same. unfold res, set_snapshot. destruct (negb _); [reflexivity|]. destruct (snapshot_fits _ _); reflexivity.
  - apply K, stays_same. unfold res, queue_user. destruct (negb _); [reflexivity|]. destruct (_ <? _); reflexivity.
  - apply K, stays_same. unfold res, send_user. destruct (negb _); [reflexivity|]. destruct (_ <? _); reflexivity.
  - apply K, stays_same. unfold res, send_users. rewrite R. cbn [negb]. destruct l as [|d [|d' l]]; [reflexivity| |]; unfold send_user; rewrite ?R; cbn [negb]; cbv zeta; destruct (_ <? _); reflexivity.
  - apply K, stays_same. pose proof (step_view C e (ESchedule now)) as _. unfold start_scheduling. rewrite R. cbn [negb]. cbv zeta. unfold stagger.
    destruct (0 <? c_probe_interval C), (_ && _), (0 <? c_pp_interval C); cbv zeta; repeat (destruct (_ =? 0)); reflexivity.
  - apply K, stays_same. apply perm_aget; [apply shuffle_perm|apply (ei_pnd _ _ I)].
Qed.
Lemma W_hist e0 os : einv C e0 -> runs e0 = true -> (forall now fw, ~ In (ELeave now fw) os) ->
  (forall h o r, os = h ++ o :: r -> ~ answered (fst (ep_run C e0 h)) o) -> W (lefts id (k_ev (e_core e0))) 0 e0 ->
  W (lefts id (k_ev (e_core e0)) + lefts id (requeued os)) (lefts id (seen (snd (ep_run C e0 os)))) (fst (ep_run C e0 os)).
Proof.
  intros I0 R0. induction os as [|o h IH] using rev_ind; intros NLv NA W0.
  { change (lefts id []) with 0. rewrite N.add_0_r. exact W0. }
  assert (forall now fw, ~ In (ELeave now fw) h) as NLh by (intros now fw X; apply (NLv now fw), in_or_app; left; exact X).
  specialize (IH NLh (fun h' o' r E => NA h' o' (r ++ [o]) ltac:(rewrite E, <- app_assoc; reflexivity)) W0).
  pose proof (NA h o [] eq_refl) as NAo. pose proof (einv_run C h e0 I0) as I. pose proof (runs_until C h e0 I0 R0 NLh) as R.
  rewrite ep_run_snoc. cbn [fst snd]. set (e := fst (ep_run C e0 h)) in *. clearbody e.
  unfold requeued. rewrite flat_map_app, seen_app, !lefts_app. fold (requeued h). cbn [flat_map]. rewrite app_nil_r, N.add_assoc.
  destruct (match o with EPollEvent => true | _ => false end) eqn:KP.
  { destruct o; try discriminate. change (lefts id (handed_back EPollEvent)) with 0. rewrite N.add_0_r.
    destruct IH as [IH|[IH P]]; [left; apply watched_poll, IH|right; split; [apply watched_poll, IH|exact P]]. }
  rewrite (seen_none e o) by (intros ->; discriminate). change (lefts id []) with 0. rewrite N.add_0_r.
  destruct (match o with ERequeue _ => true | _ => false end) eqn:KR.
  { destruct o; try discriminate. cbn [handed_back].
    destruct IH as [IH|[IH P]]; [left|right; split; [|exact P]]; apply watched_act_requeue; auto; apply (ei_core _ _ I). }
  assert (handed_back o = []) as -> by (destruct o; try reflexivity; discriminate). change (lefts id []) with 0. rewrite N.add_0_r.
  apply W_step; auto; [intros ->; discriminate|]. intros now fw ->. apply (NLv now fw). apply in_or_app. right. left. reflexivity.
Qed.
End Probe2.
Lemma probe_noticed e0 os now q p : einv C e0 -> gen_pos (e_core e0) -> runs e0 = true -> aget q (e_probes e0) = Some p -> p_kind p = PKDetection -> p_disp p = true ->
  snapshot_of C p (recd e0 (ns_id (p_target p))) -> (forall t fw, ~ In (ELeave t fw) os) -> p_fail p <= now ->
  (forall h o r, os = h ++ o :: r -> ~ answered q (fst (ep_run C e0 h)) o) ->
  watched (ns_id (p_target p)) (lefts (ns_id (p_target p)) (k_ev (e_core e0)) + lefts (ns_id (p_target p)) (requeued os))
    (lefts (ns_id (p_target p)) (seen (snd (ep_run C e0 (os ++ [ETimeout now]))))) (noted (p_inc p)) (e_core (fst (ep_run C e0 (os ++ [ETimeout now])))).
Proof.
  intros I0 [_ GP] R G PK PD (m & GM & PB & _ & EI & EG) NLv L NA. set (id := ns_id (p_target p)) in *.
  unfold probeable in PB. cbn [fst snd] in PB. apply Bool.andb_true_iff in PB as [PB1 PB2]. destruct (N.eqb_spec id LID) as [|NL]; [discriminate|]. apply Bool.negb_true_iff in PB2.
  assert (p_gen p <> 0) as HG by (rewrite EG; eapply GP, GM).
  assert (exists t st fl, snap p = (t, p_inc p, p_gen p, PKDetection, st, fl) /\ ns_id t = id) as HS by (unfold snap; rewrite PK; eauto).
  rewrite ep_run_snoc. cbn [fst snd]. rewrite seen_app, lefts_app. rewrite (seen_none _ (ETimeout now)) by discriminate. change (lefts id []) with 0. rewrite N.add_0_r.
  assert (W q id (p_inc p) (p_gen p) (snap p) (lefts id (k_ev (e_core e0))) 0 e0) as W0.
  { pose proof (ki_rec _ _ (ei_core _ _ I0) _ _ GM) as [_ RO]. destruct (m_state m) eqn:SM; try (cbn in PB2; discriminate); try (exfalso; exact RO).
    - right. split; [|exists p; auto]. right. split; [reflexivity|]. exists m. split; [exact GM|]. split; [unfold live; rewrite SM; reflexivity|]. right. split; [congruence|]. split; congruence.
    - left. right. split; [reflexivity|]. exists m. split; [exact GM|]. split; [unfold live; rewrite SM; reflexivity|]. right. split; congruence. }
  pose proof (W_hist q id (p_inc p) (p_gen p) (snap p) NL HG HS e0 os I0 R NLv NA W0) as W1.
  pose proof (einv_run C os e0 I0) as I. pose proof (runs_until C os e0 I0 R NLv) as R1.
  exact (proj2 (W_timeout q id (p_inc p) (p_gen p) (snap p) NL HG HS now _ _ _ I R1 W1) p eq_refl L).
Qed.
End Detect.
